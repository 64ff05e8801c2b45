(** Rounding errors of the downsampling in floating point. *)
From Coq Require Import List Arith ZArith Bool Lia Reals Lra Psatz Permutation.
From Flocq Require Import Core Relative.
From Verif Require Import Base.Result Base.Buf Base.Num Model.Downsample Spec.Sums Spec.Overlap
  Proof.Index Proof.Ffa Proof.SumOrder Proof.Downsample Proof.Rounding.
Import ListNotations.
Local Open Scope R_scope.

(** ** sums in single precision *)
Definition near (g S e a A : R) : Prop := Rabs A <= S /\ Rabs (a - A) <= (g - 1) * S + g * e.

Lemma u32_pos : 0 < u32.
Proof. unfold u32. lra. Qed.

Lemma near_weaken g g' S e e' a A : 0 <= e -> 0 <= g -> g <= g' -> e <= e' -> near g S e a A -> near g' S e' a A.
Proof.
  intros He Hg0 Hg Hee [H1 H2]. split; auto. assert (0 <= S) by (pose proof (Rabs_pos A); lra). nra.
Qed.

Lemma near_plus g S e a A g' S' e' b B : 1 <= g' -> g' <= g -> 0 <= e' ->
  near g S e a A -> near g' S' e' b B -> near g (S + S') (e + e') (a + b) (A + B).
Proof.
  intros H1 Hg He' Ha Hb. apply (near_weaken g' g _ e' e') in Hb; try lra.
  destruct Ha as [A1 A2], Hb as [B1 B2]. split.
  - eapply Rle_trans; [apply Rabs_triang|]. lra.
  - replace (a + b - (A + B)) with (a - A + (b - B)) by ring.
    eapply Rle_trans; [apply Rabs_triang|]. lra.
Qed.

Lemma near_rnd t g S e a A : 1 <= g -> 0 <= e -> 0 <= t -> Rabs (rnd32 a - a) <= u32 * Rabs a + t ->
  near g S e a A -> near ((1 + u32) * g) S (e + t) (rnd32 a) A.
Proof.
  intros Hg He Ht Hr [H1 H2]. split; auto. pose proof u32_pos as U.
  assert (Ha : Rabs a <= S + ((g - 1) * S + g * e)).
  { replace a with (A + (a - A)) by ring. eapply Rle_trans; [apply Rabs_triang|]. lra. }
  replace (rnd32 a - A) with (rnd32 a - a + (a - A)) by ring.
  eapply Rle_trans; [apply Rabs_triang|].
  assert (0 <= S) by (pose proof (Rabs_pos A); lra).
  assert (u32 * Rabs a <= u32 * (S + ((g - 1) * S + g * e))) by (apply Rmult_le_compat_l; lra).
  assert (G1 : 1 <= (1 + u32) * g).
  { apply Rle_trans with (1 * 1); [lra|]. apply Rmult_le_compat; lra. }
  assert (t <= (1 + u32) * g * t).
  { rewrite <- (Rmult_1_l t) at 1. apply Rmult_le_compat_r; lra. }
  lra.
Qed.

Lemma near_exact x : near 1 (Rabs x) 0 x x.
Proof. split; [lra|]. replace (x - x) with 0 by ring. rewrite Rabs_R0. lra. Qed.

Lemma near_step g S e a A x : 1 <= g -> 0 <= e -> F32 a -> F32 x -> near g S e a A ->
  near ((1 + u32) * g) (S + Rabs x) e (rnd32 (a + x)) (A + x).
Proof.
  intros Hg He Fa Fx Ha. replace e with (e + 0 + 0) at 1 by ring.
  apply near_rnd; try lra.
  - rewrite Rplus_0_r. now apply rnd32_plus_error.
  - apply near_plus with (g' := 1); try lra; auto. apply near_exact.
Qed.

(** a sample times a weight converted to single precision *)
Lemma near_weighted w v x : Rabs (v - w) <= u32 * Rabs w -> near (1 + u32) (Rabs (w * x)) 0 (v * x) (w * x).
Proof.
  intros H. split; [lra|]. replace (v * x - w * x) with ((v - w) * x) by ring.
  rewrite !Rabs_mult. pose proof (Rabs_pos x). nra.
Qed.

Lemma near_product w v x : Rabs (v - w) <= u32 * Rabs w ->
  near ((1 + u32) * (1 + u32)) (Rabs (w * x)) eta32 (rnd32 (v * x)) (w * x).
Proof.
  intros H. pose proof u32_pos. pose proof eta32_pos. replace eta32 with (0 + eta32) by ring.
  apply near_rnd; try lra; [apply rnd32_err|now apply near_weighted].
Qed.

(** ** sums in any order *)
Definition ann : Type := R * R * R.
Definition tot (h : ann -> R) (l : list ann) : R := fold_right (fun p s => h p + s) 0 l.
Definition a_S (p : ann) : R := fst (fst p).
Definition a_e (p : ann) : R := snd (fst p).
Definition a_A (p : ann) : R := snd p.

Lemma tot_perm h l m : Permutation l m -> tot h l = tot h m.
Proof. unfold tot. induction 1; cbn [fold_right]; lra. Qed.

Lemma tot_app h l m : tot h (l ++ m) = tot h l + tot h m.
Proof.
  unfold tot. induction l as [|a l IH]; cbn [List.app fold_right]; [now rewrite Rplus_0_l|].
  rewrite IH. ring. 
Qed.

Lemma tot_range h (q : nat -> ann) : forall n lo, tot h (map q (seq lo n)) = rsum n (fun j => h (q (lo + j)%nat)).
Proof.
  induction n as [|n IH]; intros lo; [reflexivity|]. cbn [seq map]. rewrite rsum_first, Nat.add_0_r.
  cbn [tot fold_right]. fold (tot h (map q (seq (S lo) n))). rewrite IH. f_equal. apply rsum_ext. intros. replace (S lo + i)%nat with (lo + S i)%nat by lia. reflexivity.
Qed.

Lemma Forall2_impl' {A B} (P Q : A -> B -> Prop) l m : (forall a b, P a b -> Q a b) -> Forall2 P l m -> Forall2 Q l m.
Proof. intros H F. induction F; constructor; auto. Qed.

(** a term of the sum and what it stands for; a product still has to be rounded *)
Definition tnear (g : R) (t : term R) (p : ann) : Prop :=
  0 <= a_e p /\
  match t with
  | Val v => F32 v /\ near g (a_S p) (a_e p) v (a_A p)
  | Prod w x => (1 + u32) * (1 + u32) <= g /\ exists e', 0 <= e' /\ a_e p = e' + eta32 /\ near (1 + u32) (a_S p) e' (w * x) (a_A p)
  end.

Lemma tnear_mono g g' t p : 1 <= g -> g <= g' -> tnear g t p -> tnear g' t p.
Proof.
  intros H1 H [He Ht]. split; auto. destruct t as [v|w x].
  - destruct Ht as [F Hn]. split; auto. apply (near_weaken g g' _ (a_e p) (a_e p)); auto; lra.
  - destruct Ht as [G R]. split; [lra|auto].
Qed.

Notation val32 := (term_val (fun a b => rnd32 (a * b))).
Notation add32 := (add_terms (fun a b => rnd32 (a + b)) (fun a b => rnd32 (a * b)) (fun a b c => rnd32 (a * b + c))).

Lemma tnear_val g t p : 1 <= g -> tnear g t p -> F32 (val32 t) /\ near g (a_S p) (a_e p) (val32 t) (a_A p).
Proof.
  intros Hg [He Ht]. pose proof u32_pos. pose proof eta32_pos. destruct t as [v|w x]; cbn [term_val]; [exact Ht|].
  destruct Ht as (G & e' & He' & -> & Hn). split; [apply F32_rnd|].
  apply (near_weaken ((1 + u32) * (1 + u32)) g _ (e' + eta32) (e' + eta32)); try lra; [nra|].
  apply near_rnd; auto; try lra. apply rnd32_err.
Qed.

Lemma tnear_add g fuse x y px py : 1 <= g -> tnear g x px -> tnear g y py ->
  tnear ((1 + u32) * g) (Val (add32 fuse x y)) (a_S px + a_S py, a_e px + a_e py, a_A px + a_A py).
Proof.
  intros Hg Hx Hy. destruct (tnear_val g x px Hg Hx) as [Fx Nx]. pose proof u32_pos as U. pose proof eta32_pos as E.
  destruct (tnear_val g y py Hg Hy) as [Fy Ny]. destruct Hx as [Ex _], Hy as [Ey Hy].
  split; [unfold a_e in *; cbn in *; lra|].
  assert (PL : tnear ((1 + u32) * g) (Val (rnd32 (val32 x + val32 y))) (a_S px + a_S py, a_e px + a_e py, a_A px + a_A py)).
  { split; [unfold a_e in *; cbn in *; lra|]. split; [apply F32_rnd|]. unfold a_S, a_e, a_A in *. cbn [fst snd] in *.
    rewrite <- (Rplus_0_r (_ + _)) at 1. replace (snd (fst px) + snd (fst py)) with (snd (fst px) + snd (fst py) + 0) by ring.
    rewrite Rplus_0_r. apply near_rnd; try lra; [rewrite Rplus_0_r; now apply rnd32_plus_error|].
    apply near_plus with (g' := g); auto; lra. }
  destruct y as [v|w z]; cbn [add_terms]; [apply PL|]. destruct fuse; [|apply PL].
  split; [apply F32_rnd|]. destruct Hy as (G & e' & He' & Ee & Hn). rewrite Ee. unfold a_S, a_e, a_A in *. cbn [fst snd] in *.
  rewrite <- Rplus_assoc. apply near_rnd; try lra; [apply rnd32_err|].
  rewrite (Rplus_comm (w * z)). apply near_plus with (g' := 1 + u32); auto; try lra. nra.
Qed.

Lemma sum_near (bld : build) k (l : list (term R)) (an : list ann) g : l <> [] -> 1 <= g -> Forall2 (tnear g) l an ->
  let v := o_sum (opsF rnd32 bld) k l in
  F32 v /\ near ((1 + u32) ^ (length l - 1) * g) (tot a_S an) (tot a_e an) v (tot a_A an).
Proof.
  intros Hl Hg HF v. unfold v. cbn [opsF o_sum]. pose proof u32_pos as U.
  apply (sum_in_order_ind (rnd32 0) (fun a b => rnd32 (a + b)) (fun a b => rnd32 (a * b)) (fun a b c => rnd32 (a * b + c)) bld
    (fun l v => forall an g, 1 <= g -> Forall2 (tnear g) l an ->
      F32 v /\ near ((1 + u32) ^ (length l - 1) * g) (tot a_S an) (tot a_e an) v (tot a_A an))); auto; clear v l an g Hl Hg HF.
  - intros t an g Hg HF. inversion HF as [|? p ? q Ht Hq]; subst. inversion Hq; subst. cbn [length Nat.sub pow tot fold_right].
    rewrite Rmult_1_l, !Rplus_0_r. now apply tnear_val.
  - intros l x y r fuse v _ HP IH an g Hg HF.
    destruct (Permutation_Forall2 HP HF) as (an' & HA & HF').
    inversion HF' as [|? px ? q Hx Hq]; subst. inversion Hq as [|? py ? rp Hy Hr]; subst.
    rewrite !(tot_perm _ an _ HA), (Permutation_length HP).
    destruct (IH ((a_S px + a_S py, a_e px + a_e py, a_A px + a_A py) :: rp) ((1 + u32) * g)) as [Fv Nv].
    + nra.
    + constructor; [now apply tnear_add|]. eapply Forall2_impl'; [|exact Hr]. intros t p. apply tnear_mono; nra.
    + split; [exact Fv|]. cbn [length Nat.sub tot fold_right] in *. rewrite Nat.sub_0_r in *.
      replace ((1 + u32) ^ S (length r) * g) with ((1 + u32) ^ length r * ((1 + u32) * g)) by (cbn [pow]; ring).
      unfold a_S, a_e, a_A in *. cbn [fst snd] in *. rewrite <- !Rplus_assoc. exact Nv.
Qed.

(** ** the coordinates *)
Lemma frac_exact a z : F64 a -> a = 0 \/ 1 <= a -> Rabs (a - IZR z) <= 3 / 2 ->
  F64 (a - IZR z) /\ exists m, a - IZR z = IZR m * bpow radix2 (-52).
Proof.
  intros Fa H0 Hz.
  assert (G : exists m, a = IZR m * bpow radix2 (-52)).
  { destruct H0 as [->|H1]; [exists 0%Z; lra|].
    assert (F : generic_format radix2 (FIX_exp (-52)) a).
    { apply (generic_inclusion_ge radix2 fexp64 (FIX_exp (-52)) 0); auto.
      - intros e He. unfold FIX_exp, FLT_exp. lia.
      - rewrite Rabs_pos_eq by lra. cbn. lra. }
    apply FIX_format_generic in F. destruct F as [[m e] E1 E2]. cbn in E2. exists m. rewrite E1, E2. reflexivity. }
  destruct G as (m & E).
  assert (P : bpow radix2 52 * bpow radix2 (-52) = 1) by (rewrite <- bpow_plus; reflexivity).
  assert (E2 : a - IZR z = IZR (m - z * 2 ^ 52) * bpow radix2 (-52)).
  { rewrite E, minus_IZR, mult_IZR. change (IZR (2 ^ 52)) with (bpow radix2 52).
    rewrite Rmult_minus_distr_r, (Rmult_assoc (IZR z)), P. ring. }
  split; [|eauto]. rewrite E2. apply generic_format_FLT.
  exists (Float radix2 (m - z * 2 ^ 52) (-52)); cbn [Fnum Fexp]; auto; [|lia].
  change (Z.pow radix2 53) with (2 ^ 53)%Z. apply lt_IZR.
  rewrite abs_IZR. rewrite E2, Rabs_mult, (Rabs_pos_eq (bpow _ _)) in Hz by apply bpow_ge_0.
  change (IZR (2 ^ 53)) with (2 * bpow radix2 52).
  apply Rmult_lt_reg_r with (bpow radix2 (-52)); [apply bpow_gt_0|].
  rewrite Rmult_assoc, P. lra.
Qed.

Lemma rnd32_weight w m : w = IZR m * bpow radix2 (-52) -> Rabs (rnd32 w - w) <= u32 * Rabs w.
Proof.
  intros E. destruct (Z.eq_dec m 0) as [->|Hm].
  - rewrite E, Rmult_0_l, rnd32_id by apply generic_format_0. rewrite Rminus_0_r, Rabs_R0. lra.
  - apply rnd32_normal. rewrite E, Rabs_mult, (Rabs_pos_eq (bpow _ _)) by apply bpow_ge_0.
    apply Rle_trans with (1 * bpow radix2 (-52)).
    + rewrite Rmult_1_l. apply bpow_le. lia.
    + apply Rmult_le_compat_r; [apply bpow_ge_0|]. rewrite <- abs_IZR. apply IZR_le. lia.
Qed.

Lemma rnd64_rel x : 0 <= x -> x = 0 \/ 1 <= x -> Rabs (rnd64 x - x) <= u64 * x.
Proof.
  intros H0 [->|Hx].
  - rewrite rnd64_id by apply generic_format_0. rewrite Rminus_0_r, Rabs_R0. lra.
  - pose proof (relative_error_N_FLT radix2 (-1074) 53 eq_refl (fun z => negb (Z.even z)) x) as H.
    rewrite (Rabs_pos_eq x) in H by lra.
    assert (Hb : bpow radix2 (-1074 + 53 - 1) <= x).
    { apply Rle_trans with (bpow radix2 0); [apply bpow_le; lia|]. cbn; lra. }
    specialize (H Hb). change (round radix2 fexp64 (Znearest _) x) with (rnd64 x) in H.
    eapply Rle_trans; [exact H|]. cbn. unfold u64. lra.
Qed.

Lemma F64_rnd x : F64 (rnd64 x).
Proof. apply generic_format_round; typeclasses eauto. Qed.

(** ** change of the interval *)
Lemma weight_prefix (N : nat) c : 0 <= c -> rsum N (fun i => weight i 0 c) = Rmin c (INR N).
Proof.
  induction N as [|N IH]; intros Hc; cbn [rsum].
  - cbn. minmax.
  - rewrite IH by auto. pose proof (pos_INR N). rewrite S_INR. minmax.
Qed.

Lemma weight_move (N : nat) a b : 0 <= a -> 0 <= b ->
  rsum N (fun i => Rabs (weight i 0 a - weight i 0 b)) <= Rabs (a - b).
Proof.
  assert (G : forall a b, 0 <= a -> a <= b -> rsum N (fun i => Rabs (weight i 0 a - weight i 0 b)) <= b - a).
  { intros c d Hc Hd. rewrite (rsum_ext N _ (fun i => weight i 0 d - weight i 0 c)).
    - rewrite rsum_minus, !weight_prefix by lra. minmax.
    - intros i _. rewrite <- (weight_split i 0 c d) by lra. pose proof (weight_nonneg i c d).
      rewrite Rabs_minus_sym, Rabs_pos_eq; lra. }
  intros Ha Hb. destruct (Rle_dec a b).
  - rewrite Rabs_minus_sym, (Rabs_pos_eq (b - a)) by lra. apply G; lra.
  - rewrite (Rabs_pos_eq (a - b)) by lra.
    rewrite (rsum_ext N _ (fun i => Rabs (weight i 0 b - weight i 0 a))); [apply G; lra|].
    intros; apply Rabs_minus_sym.
Qed.

Lemma weight_change (N : nat) a b c d : 0 <= a <= b -> 0 <= c <= d ->
  rsum N (fun i => Rabs (weight i a b - weight i c d)) <= Rabs (a - c) + Rabs (b - d).
Proof.
  intros H1 H2.
  apply Rle_trans with (rsum N (fun i => Rabs (weight i 0 a - weight i 0 c) + Rabs (weight i 0 b - weight i 0 d))).
  - apply rsum_le. intros i _.
    replace (weight i a b) with (weight i 0 b - weight i 0 a) by (rewrite <- (weight_split i 0 a b) by lra; ring).
    replace (weight i c d) with (weight i 0 d - weight i 0 c) by (rewrite <- (weight_split i 0 c d) by lra; ring).
    replace (weight i 0 b - weight i 0 a - (weight i 0 d - weight i 0 c))
      with (- (weight i 0 a - weight i 0 c) + (weight i 0 b - weight i 0 d)) by ring.
    eapply Rle_trans; [apply Rabs_triang|]. rewrite Rabs_Ropp. lra.
  - rewrite rsum_plus. apply Rplus_le_compat; apply weight_move; lra.
Qed.

(** sums with slightly different weights *)
Lemma weighted_change (N : nat) (x v w : nat -> R) X D : (forall i, (i < N)%nat -> Rabs (x i) <= X) ->
  rsum N (fun i => Rabs (v i - w i)) <= D -> 0 <= X ->
  Rabs (rsum N (fun i => x i * v i) - rsum N (fun i => x i * w i)) <= D * X /\
  rsum N (fun i => Rabs (x i * v i)) <= rsum N (fun i => Rabs (x i * w i)) + D * X.
Proof.
  intros HX HD H0.
  assert (B : rsum N (fun i => Rabs (x i * v i - x i * w i)) <= D * X).
  { apply Rle_trans with (rsum N (fun i => X * Rabs (v i - w i))).
    - apply rsum_le. intros i Hi. rewrite <- Rmult_minus_distr_l, Rabs_mult.
      apply Rmult_le_compat_r; [apply Rabs_pos|auto].
    - rewrite rsum_scal. rewrite (Rmult_comm D). apply Rmult_le_compat_l; auto. }
  split.
  - rewrite <- rsum_minus. eapply Rle_trans; [apply rsum_abs|]. exact B.
  - apply Rle_trans with (rsum N (fun i => Rabs (x i * w i) + Rabs (x i * v i - x i * w i))).
    + apply rsum_le. intros i _. replace (x i * v i) with (x i * w i + (x i * v i - x i * w i)) at 1 by ring.
      apply Rabs_triang.
    + rewrite rsum_plus. lra.
Qed.

(** ** one output sample *)
Lemma size_F bld (N : nat) f : (Z.of_nat N <= 33554432)%Z -> F64 f -> 1 < f <= INR N ->
  let n := downsampled_size (numF bld) N f in
  INR n * f <= INR N * (1 + u64) /\ INR N * (1 - u64) < (INR n + 1) * f /\ (n < N)%nat.
Proof.
  intros HN Ff Hf n.
  assert (HNf : F64 (INR N)) by (rewrite INR_IZR_INZ; apply F64_int; lia).
  assert (Hq : 1 <= INR N / f).
  { apply Rmult_le_reg_r with f; [lra|]. field_simplify; lra. }
  assert (Hn : n = Z.to_nat (Zfloor (rnd64 (INR N / f)))).
  { unfold n, downsampled_size. cbn [numF opsF n_floor n_dbl o_div o_ofZ].
    rewrite <- INR_IZR_INZ. now rewrite (rnd64_id (INR N) HNf). }
  pose proof (rnd64_rel (INR N / f) ltac:(lra) (or_intror Hq)) as R1. apply Rabs_le_inv in R1.
  assert (H0 : 0 <= rnd64 (INR N / f)) by (unfold u64 in R1; lra).
  destruct (to_nat_floor_bounds _ H0) as [A B]. rewrite <- Hn in A, B.
  assert (Q : INR N / f * f = INR N) by (field; lra).
  split; [|split].
  - apply Rle_trans with (INR N / f * (1 + u64) * f); [apply Rmult_le_compat_r; lra|].
    rewrite Rmult_assoc, (Rmult_comm _ f), <- Rmult_assoc, Q. lra.
  - apply Rle_lt_trans with (INR N / f * (1 - u64) * f).
    + rewrite Rmult_assoc, (Rmult_comm _ f), <- Rmult_assoc, Q. lra.
    + apply Rmult_lt_compat_r; lra.
  - apply INR_lt. eapply Rle_lt_trans; [exact A|].
    assert (F1 : 1 + / 4503599627370496 <= f).
    { destruct (Rle_dec f 2); [|lra].
      destruct (frac_exact f 1 Ff) as (_ & m & Em); [right; lra|rewrite Rabs_pos_eq; lra|].
      assert (Hb : bpow radix2 (-52) = / 4503599627370496) by (cbn; lra). rewrite Hb in Em.
      assert (Hm : 0 < IZR m).
      { apply Rmult_lt_reg_r with (/ 4503599627370496); lra. }
      apply lt_IZR in Hm. assert (1 <= IZR m) by (apply IZR_le; lia). lra. }
    assert (INR N / f * (1 + u64) < INR N); [|lra].
    apply Rmult_lt_reg_r with f; [lra|].
    rewrite Rmult_assoc, (Rmult_comm _ f), <- Rmult_assoc, Q. unfold u64.
    apply Rmult_lt_compat_l; lra.
Qed.

Definition ds_terms (f : R) : nat := (Z.to_nat (Zceil f) + 3)%nat.

Definition ds_exact (x : list R) (f : R) (k : nat) : R :=
  rsum (length x) (fun i => nth i x 0 * weight i (INR k * f) ((INR k + 1) * f)).
Definition ds_abs (x : list R) (f : R) (k : nat) : R :=
  rsum (length x) (fun i => Rabs (nth i x 0 * weight i (INR k * f) ((INR k + 1) * f))).

Definition ds_value (bld : build) (x : list R) (f : R) (k : nat) : res R :=
  let start := rnd64 (INR k * f) in
  let end_ := if b_fma bld then rnd64 (INR k * f + f) else rnd64 (start + f) in
  let imin := Z.to_nat (Zfloor start) in
  let imax := Z.to_nat (Z.min (Zfloor end_) (Z.of_nat (length x - 1))) in
  let wmin := rnd32 (rnd64 (INR (imin + 1) - start)) in
  let wmax := rnd32 (rnd64 (end_ - INR imax)) in
  xmin <- rd x imin ;;
  xs <- mapM (rd x) (seq (imin + 1) (imax - (imin + 1))) ;;
  xmax <- rd x imax ;;
  Ok (o_sum (opsF rnd32 bld) k (Prod wmin xmin :: map Val xs ++ [Prod wmax xmax])).

Lemma ds_value_near bld (x : list R) f k X :
  (Z.of_nat (length x) <= 33554432)%Z -> F64 f -> 1 < f <= INR (length x) ->
  (forall i, (i < length x)%nat -> F32 (nth i x 0)) ->
  (forall i, (i < length x)%nat -> Rabs (nth i x 0) <= X) ->
  (k < downsampled_size (numF bld) (length x) f)%nat ->
  exists v, ds_value bld x f k = Ok v /\ F32 v /\
    let g := (1 + u32) ^ ds_terms f in
    Rabs (v - ds_exact x f k)
      <= (g - 1) * ds_abs x f k + g * (8 * u64 * INR (length x) * X + 3 * eta32).
Proof.
  intros HN Ff Hf HF HX Hk.
  destruct (size_F bld (length x) f HN Ff Hf) as (S1 & S2 & S3).
  set (n := downsampled_size (numF bld) (length x) f) in *.
  set (N := length x) in *.
  assert (N1 : 1 < INR N) by lra.
  assert (NR : INR N <= 33554432) by (rewrite INR_IZR_INZ; apply (IZR_le _ 33554432); lia).
  assert (X0 : 0 <= X).
  { apply Rle_trans with (Rabs (nth 0 x 0)); [apply Rabs_pos|]. apply HX. apply (INR_lt 0). cbn [INR]. fold N. lra. }
  assert (Hk1 : INR k + 1 <= INR n) by (rewrite <- S_INR; apply le_INR; lia).
  assert (Hn1 : INR n + 1 <= INR N) by (rewrite <- S_INR; apply le_INR; lia).
  pose proof (pos_INR k) as Hk0.
  set (eps := f - 1).
  assert (Hkf0 : 0 <= INR k * f) by (apply Rmult_le_pos; lra).
  assert (Hkfc : INR k * f = 0 \/ 1 <= INR k * f).
  { destruct (Nat.eq_dec k 0) as [->|Hz]; [left; cbn; lra|right].
    assert (1 <= INR k) by (apply (le_INR 1); lia). nra. }
  assert (HE : (INR k + 1) * f <= INR N * (1 + u64)).
  { eapply Rle_trans; [|exact S1]. apply Rmult_le_compat_r; lra. }
  assert (Hkf : INR k * f <= INR N).
  { unfold u64 in HE. lra. }
  set (start := rnd64 (INR k * f)).
  assert (Ds : Rabs (start - INR k * f) <= u64 * INR N).
  { eapply Rle_trans; [apply rnd64_rel; auto|]. apply Rmult_le_compat_l; [unfold u64|]; lra. }
  assert (Hs0 : 0 <= start).
  { unfold start. rewrite <- (rnd64_id 0) by apply generic_format_0. now apply rnd64_le. }
  set (end_ := if b_fma bld then rnd64 (INR k * f + f) else rnd64 (start + f)).
  set (E := (INR k + 1) * f) in *.
  assert (De : Rabs (end_ - E) <= 3 * u64 * INR N).
  { assert (EE : INR k * f + f = E) by (unfold E; ring). apply Rabs_le_inv in Ds. unfold end_. destruct (b_fma bld).
    - rewrite EE. eapply Rle_trans; [apply rnd64_rel|unfold u64 in *; lra].
      + lra.
      + right. lra.
    - pose proof (rnd64_rel (start + f)) as R. unfold u64 in *.
      replace (rnd64 (start + f) - E) with (rnd64 (start + f) - (start + f) + (start - INR k * f)) by lra.
      eapply Rle_trans; [apply Rabs_triang|].
      assert (Rabs (start - INR k * f) <= / 9007199254740992 * INR N) by (apply Rabs_le; lra).
      assert (Hsf : 1 <= start + f) by lra.
      specialize (R ltac:(lra) (or_intror Hsf)). lra. }
  assert (Fs : F64 start) by apply F64_rnd.
  assert (Fe : F64 end_) by (unfold end_; destruct (b_fma bld); apply F64_rnd).
  assert (Hsc : start = 0 \/ 1 <= start).
  { unfold start. destruct Hkfc as [->|H1]; [left; apply rnd64_id, generic_format_0|right].
    rewrite <- (rnd64_id 1) by (apply (F64_int 1); lia). now apply rnd64_le. }
  destruct (to_nat_floor_bounds start Hs0) as [M1 M2].
  set (imin := Z.to_nat (Zfloor start)) in *.
  assert (NN : INR N * INR N <= 1125899906842624) by nra.
  pose proof (Rabs_le_inv _ _ Ds) as Ds'. pose proof (Rabs_le_inv _ _ De) as De'.
  assert (Keps : INR k * f = INR k + INR k * eps) by (unfold eps; ring).
  assert (Heps : 0 < eps) by (unfold eps; lra).
  (* the last sample is beyond the first *)
  assert (He1 : INR imin + 1 <= end_).
  { assert (P : INR imin + 1 <= if b_fma bld then INR k * f + f else start + f).
    { destruct (b_fma bld); [|lra].
      destruct (Rle_dec (INR imin) (INR k * f)) as [|Hlt]; [lra|]. apply Rnot_le_lt in Hlt.
      assert (Hki : INR k + 1 <= INR imin).
      { rewrite <- S_INR. apply le_INR. apply INR_lt.
        eapply Rle_lt_trans; [|exact Hlt]. rewrite Keps. assert (0 <= INR k * eps) by (apply Rmult_le_pos; lra). lra. }
      assert (K2 : / 2 <= INR k * eps) by (unfold u64 in *; lra).
      assert (K3 : / 2 <= INR N * eps).
      { eapply Rle_trans; [exact K2|]. apply Rmult_le_compat_r; lra. }
      assert (K4 : u64 * INR N <= eps).
      { apply Rmult_le_reg_l with (INR N); [lra|]. unfold u64. lra. }
      unfold eps in *. lra. }
    rewrite <- S_INR in *. rewrite INR_IZR_INZ.
    rewrite <- (rnd64_id (IZR (Z.of_nat (S imin)))).
    - unfold end_. rewrite <- INR_IZR_INZ. destruct (b_fma bld); now apply rnd64_le.
    - apply F64_int. assert (INR imin < 33554434) by (unfold u64 in *; lra).
      rewrite INR_IZR_INZ in H. apply (lt_IZR _ 33554434) in H. lia. }
  (* and the first is not the last of the input *)
  assert (Hs1 : start < INR N - 1).
  { destruct (Rle_dec (INR N * eps) (/ 2)) as [Hsm|Hbig].
    - assert (INR k * eps <= / 2).
      { eapply Rle_trans; [|exact Hsm]. apply Rmult_le_compat_r; lra. }
      apply Rle_lt_trans with (INR N - 3 / 2); [|lra].
      rewrite <- (rnd64_id (INR N - 3 / 2)); [apply rnd64_le; lra|].
      replace (INR N - 3 / 2) with (IZR (2 * Z.of_nat N - 3) * / 2).
      + apply F64_half. lia.
      + rewrite minus_IZR, mult_IZR, <- INR_IZR_INZ. lra.
    - apply Rnot_le_lt in Hbig.
      assert (K4 : 2 * u64 * INR N < eps).
      { apply Rmult_lt_reg_l with (INR N); [lra|]. unfold u64. lra. }
      assert (E = INR k * f + 1 + eps) by (unfold E, eps; ring). lra. }
  set (imax := Z.to_nat (Z.min (Zfloor end_) (Z.of_nat (N - 1)))).
  destruct (to_nat_floor_bounds end_ ltac:(lra)) as [X1 X2].
  set (fe := Z.to_nat (Zfloor end_)) in *.
  assert (He0 : (0 <= Zfloor end_)%Z) by (apply Zfloor_lub; lra).
  assert (Eimax : imax = Nat.min fe (N - 1)) by (unfold imax, fe; lia).
  assert (Hfe : (imin < fe)%nat).
  { assert (INR imin + 1 < INR fe + 1) by lra. rewrite <- !S_INR in H. apply INR_lt in H. lia. }
  assert (HiN : (imin + 1 < N)%nat).
  { apply INR_lt. rewrite plus_INR. cbn [INR]. lra. }
  assert (Hii : (imin < imax)%nat) by lia.
  assert (HmN : (imax < N)%nat) by lia.
  assert (Eend : end_ <= INR N + 4 * u64 * INR N) by lra.
  assert (Hmx : INR imax <= end_ /\ Rmin end_ (INR N) <= INR imax + 1 /\ INR imax <= Rmin end_ (INR N)).
  { assert (INR imax <= INR N) by (apply le_INR; lia). rewrite Eimax in *. destruct (le_lt_dec fe (N - 1)).
    - rewrite Nat.min_l in * by lia. repeat split; [lra| |apply Rmin_glb; lra].
      eapply Rle_trans; [apply Rmin_l|]. lra.
    - rewrite Nat.min_r in * by lia. assert (INR N <= INR fe) by (apply le_INR; lia).
      rewrite minus_INR in * by lia. cbn [INR] in *. repeat split; [lra| |apply Rmin_glb; lra].
      eapply Rle_trans; [apply Rmin_r|]. lra. }
  destruct Hmx as (Hm1 & Hm2 & Hm3).
  assert (Eb : 0 <= end_ - Rmin end_ (INR N) <= 4 * u64 * INR N).
  { unfold Rmin. destruct (Rle_dec end_ (INR N)); unfold u64 in *; lra. }
  set (b := Rmin end_ (INR N)) in *.
  assert (Hb0 : start <= b).
  { apply Rmin_glb; lra. }
  (* the weights are exact in double precision *)
  set (wa := INR (imin + 1) - start). set (wb := end_ - INR imax).
  assert (Wa : 0 <= wa) by (unfold wa; rewrite plus_INR; cbn [INR]; lra).
  assert (Wb : 0 <= wb) by (unfold wb; lra).
  assert (Ra : Rabs (rnd32 (rnd64 wa) - wa) <= u32 * Rabs wa).
  { destruct (frac_exact start (Z.of_nat (imin + 1)) Fs Hsc) as (F & m & Em).
    { rewrite <- INR_IZR_INZ, Rabs_minus_sym. fold wa. rewrite Rabs_pos_eq by auto.
      unfold wa. rewrite plus_INR; cbn [INR]. lra. }
    rewrite <- INR_IZR_INZ in F, Em.
    assert (Ewa : wa = - (start - INR (imin + 1))) by (unfold wa; ring).
    rewrite (rnd64_id wa) by (rewrite Ewa; now apply generic_format_opp).
    apply (rnd32_weight wa (- m)). rewrite Ewa, Em, opp_IZR. ring. }
  assert (Rb : Rabs (rnd32 (rnd64 wb) - wb) <= u32 * Rabs wb).
  { destruct (frac_exact end_ (Z.of_nat imax) Fe) as (F & m & Em).
    { right. pose proof (pos_INR imin). lra. }
    { rewrite <- INR_IZR_INZ. fold wb. rewrite Rabs_pos_eq by auto. unfold wb, u64 in *. lra. }
    rewrite <- INR_IZR_INZ in F, Em. fold wb in F, Em.
    rewrite (rnd64_id wb F). now apply (rnd32_weight wb m). }
  (* run *)
  unfold ds_value. fold N. fold start. fold end_. fold imin. fold imax. fold wa. fold wb. cbv zeta.
  rewrite (rd_nth x imin 0) by (fold N; lia). cbn [bind].
  pose proof u32_pos as U. pose proof eta32_pos as ET.
  assert (G1 : 1 <= (1 + u32) * (1 + u32)).
  { apply Rle_trans with (1 * 1); [lra|]. apply Rmult_le_compat; lra. }
  rewrite (rd_range x 0) by (fold N; lia). cbn [bind]. rewrite (rd_nth x imax 0) by (fold N; lia). cbn [bind].
  eexists. split; [reflexivity|].
  set (m := (imax - (imin + 1))%nat) in *.
  set (terms := Prod (rnd32 (rnd64 wa)) (nth imin x 0) :: _).
  set (an := (Rabs (wa * nth imin x 0), 0 + eta32, wa * nth imin x 0) ::
     map (fun i => (Rabs (nth i x 0), 0, nth i x 0)) (seq (imin + 1) m) ++ [(Rabs (wb * nth imax x 0), 0 + eta32, wb * nth imax x 0)]).
  assert (TN : forall w v q, Rabs (v - w) <= u32 * Rabs w ->
    tnear ((1 + u32) * (1 + u32)) (Prod v q) (Rabs (w * q), 0 + eta32, w * q)).
  { intros w v q Hw. split; [unfold a_e; cbn; lra|]. split; [lra|]. exists 0. split; [lra|]. split; [reflexivity|].
    now apply near_weighted. }
  destruct (sum_near bld k terms an ((1 + u32) * (1 + u32))) as [Fv Nv]; [discriminate|exact G1| |].
  { unfold terms, an. constructor; [now apply TN|]. apply Forall2_app; [|constructor; [now apply TN|constructor]].
    rewrite map_map. assert (HI : forall i, In i (seq (imin + 1) m) -> (i < N)%nat) by (intros i Hi; apply in_seq in Hi; lia).
    revert HI. generalize (seq (imin + 1) m). intros q. induction q as [|i q IHq]; intros HI; constructor.
    - split; [unfold a_e; cbn; lra|]. split; [apply HF, HI; now left|].
      apply (near_weaken 1 _ _ 0 0); try lra. apply near_exact.
    - apply IHq. intros; apply HI; now right. }
  split; [exact Fv|].
  assert (LT : (length terms - 1 = m + 1)%nat).
  { unfold terms. cbn [length Nat.sub]. rewrite app_length, !map_length, seq_length. cbn. lia. }
  assert (TS : forall h : ann -> R, tot h an = h (Rabs (wa * nth imin x 0), 0 + eta32, wa * nth imin x 0)
     + rsum m (fun j => h (Rabs (nth (imin + 1 + j) x 0), 0, nth (imin + 1 + j) x 0))
     + h (Rabs (wb * nth imax x 0), 0 + eta32, wb * nth imax x 0)).
  { intros h. unfold an. cbn [tot fold_right]. fold (tot h (map (fun i => (Rabs (nth i x 0), 0, nth i x 0)) (seq (imin + 1) m)
      ++ [(Rabs (wb * nth imax x 0), 0 + eta32, wb * nth imax x 0)])).
    rewrite tot_app, tot_range. cbn [tot fold_right]. ring. }
  rewrite !TS, LT in Nv. unfold a_S, a_e, a_A in Nv. cbn [fst snd] in Nv. rewrite rsum_const, Rmult_0_r in Nv.
  set (v := o_sum (opsF rnd32 bld) k terms) in *.
  (* the number of operations *)
  assert (Hterms : (m + 3 <= ds_terms f)%nat).
  { unfold ds_terms. assert (m <= Z.to_nat (Zceil f))%nat; [|lia].
    pose proof (Zceil_ub f) as Hc. assert (0 <= Zceil f)%Z by (apply le_IZR; lra).
    apply Nat.lt_succ_r, INR_lt. rewrite S_INR, (INR_IZR_INZ (Z.to_nat _)), Z2Nat.id by auto.
    unfold m. rewrite minus_INR, plus_INR by lia. cbn [INR].
    assert (E = INR k * f + f) by (unfold E; ring). unfold u64 in *. lra. }
  assert (HgT : (1 + u32) ^ (m + 1) * ((1 + u32) * (1 + u32)) <= (1 + u32) ^ ds_terms f).
  { replace ((1 + u32) ^ (m + 1) * ((1 + u32) * (1 + u32))) with ((1 + u32) ^ (m + 3))
      by (rewrite !pow_add; cbn [pow]; ring).
    apply Rle_pow; [lra|exact Hterms]. }
  assert (Hg1 : 1 <= (1 + u32) ^ ds_terms f) by (apply pow_R1_Rle; lra).
  set (g := (1 + u32) ^ ds_terms f) in *.
  apply (near_weaken _ g _ _ (3 * eta32)) in Nv; auto; try lra.
  2:{ apply Rmult_le_pos; [apply pow_le; lra|lra]. }
  destruct Nv as [_ Nv].
  (* the sums as weighted sums over all samples *)
  assert (Q1 : wa * nth imin x 0 + rsum m (fun j => nth (imin + 1 + j) x 0) + wb * nth imax x 0
     = rsum N (fun i => nth i x 0 * weight i start b) + (end_ - b) * nth imax x 0).
  { rewrite (weight_sum (fun i => nth i x 0) N imin imax start b); try lia; try lra.
    - fold m. unfold wa, wb. rewrite plus_INR. cbn [INR]. ring.
    - right. apply Rmin_r. }
  assert (Q2 : Rabs (wa * nth imin x 0) + rsum m (fun j => Rabs (nth (imin + 1 + j) x 0)) + Rabs (wb * nth imax x 0)
     = rsum N (fun i => Rabs (nth i x 0 * weight i start b)) + (end_ - b) * Rabs (nth imax x 0)).
  { rewrite (rsum_ext N _ (fun i => Rabs (nth i x 0) * weight i start b)).
    2:{ intros i _. rewrite Rabs_mult, (Rabs_pos_eq (weight _ _ _)); auto. apply weight_nonneg. }
    rewrite (weight_sum (fun i => Rabs (nth i x 0)) N imin imax start b); try lia; try lra.
    - fold m. rewrite !Rabs_mult, (Rabs_pos_eq wa), (Rabs_pos_eq wb) by auto.
      unfold wa, wb. rewrite plus_INR. cbn [INR]. ring.
    - right. apply Rmin_r. }
  rewrite Q1, Q2 in Nv.
  assert (HEE : INR k * f <= E) by (unfold E; lra).
  pose proof (weight_change N start b (INR k * f) E ltac:(lra) ltac:(lra)) as WC.
  assert (Hbe : Rabs (b - E) + (end_ - b) <= 5 * u64 * INR N).
  { unfold b, Rmin in *. apply Rabs_le_inv in De. destruct (Rle_dec end_ (INR N)).
    - assert (Rabs (end_ - E) <= 3 * u64 * INR N) by (apply Rabs_le; lra). unfold u64 in *. lra.
    - unfold Rabs. destruct (Rcase_abs (INR N - E)); unfold u64 in *; lra. }
  set (D := Rabs (start - INR k * f) + Rabs (b - E)) in *.
  destruct (weighted_change N (fun i => nth i x 0) (fun i => weight i start b) (fun i => weight i (INR k * f) E) X D)
    as [C1 C2]; auto.
  change (rsum N (fun i => nth i x 0 * weight i (INR k * f) E)) with (ds_exact x f k) in C1.
  change (rsum N (fun i => Rabs (nth i x 0 * weight i (INR k * f) E))) with (ds_abs x f k) in C2.
  assert (Xm : (end_ - b) * Rabs (nth imax x 0) <= (end_ - b) * X) by (apply Rmult_le_compat_l; [lra|auto]).
  set (D' := D + (end_ - b)).
  assert (HD' : D' <= 8 * u64 * INR N) by (unfold D', D, u64 in *; lra).
  assert (T1 : Rabs (v - ds_exact x f k) <= ((g - 1) * (ds_abs x f k + D' * X) + g * (3 * eta32)) + D' * X).
  { replace (v - ds_exact x f k) with
      ((v - (rsum N (fun i => nth i x 0 * weight i start b) + (end_ - b) * nth imax x 0))
       + ((rsum N (fun i => nth i x 0 * weight i start b) - ds_exact x f k) + (end_ - b) * nth imax x 0)) by ring.
    eapply Rle_trans; [apply Rabs_triang|]. apply Rplus_le_compat.
    - eapply Rle_trans; [exact Nv|]. apply Rplus_le_compat_r. apply Rmult_le_compat_l; [lra|]. unfold D'. lra.
    - eapply Rle_trans; [apply Rabs_triang|]. rewrite (Rabs_mult (end_ - b)), (Rabs_pos_eq (end_ - b)) by lra.
      unfold D'. lra. }
  eapply Rle_trans; [exact T1|].
  assert (D' * X <= 8 * u64 * INR N * X) by (apply Rmult_le_compat_r; auto).
  assert (g * (D' * X) <= g * (8 * u64 * INR N * X)) by (apply Rmult_le_compat_l; lra).
  lra.
Qed.

Lemma downsample_values bld (x : list R) f (out : list R) :
  (Z.of_nat (length x) <= 33554432)%Z -> F64 f -> 1 < f <= INR (length x) ->
  (forall i, (i < length x)%nat -> F32 (nth i x 0)) ->
  let n := downsampled_size (numF bld) (length x) f in (n <= length out)%nat ->
  exists out', downsample (numF bld) x (length x) f out = Ok out' /\ length out' = length out /\
    forall k, (k < n)%nat -> ds_value bld x f k = Ok (nth k out' 0).
Proof.
  intros HN Ff Hf HF n Ho.
  assert (HX : exists X, forall i, (i < length x)%nat -> Rabs (nth i x 0) <= X).
  { clear. induction x as [|a x [X IH]]; [exists 0; cbn; intros; lia|]. exists (Rmax (Rabs a) X).
    intros [|i] Hi; cbn [nth]; [apply Rmax_l|]. eapply Rle_trans; [apply IH; cbn in Hi; lia|apply Rmax_r]. }
  destruct HX as [X HX].
  assert (HNf : F64 (INR (length x))) by (rewrite INR_IZR_INZ; apply F64_int; lia).
  assert (HV : valid_factor (numF bld) (length x) f = true).
  { unfold valid_factor. cbn [numF opsF n_ltb n_leb n_dbl o_ofZ].
    rewrite <- INR_IZR_INZ. rewrite (rnd64_id _ HNf).
    rewrite (rnd64_id 1) by (apply (F64_int 1); lia).
    rewrite Rlt_bool_true, Rle_bool_true by lra. reflexivity. }
  destruct (size_F bld (length x) f HN Ff Hf) as (_ & _ & Hn).
  unfold downsample. rewrite HV. cbn [guard bind]. fold n. fold n in Hn.
  set (P := fun k v => ds_value bld x f k = Ok v).
  match goal with |- context [for_ n 0 ?b ?s] =>
    destruct (for_inv (fun j (o : list R) => length o = length out /\ forall k, (k < j)%nat -> P k (nth k o 0)) b n 0%nat s)
      as (o' & E & L & V)
  end.
  { split; auto. intros; lia. }
  { intros k o Hk [HL HP]. cbn [Nat.add] in Hk.
    destruct (ds_value_near bld x f k X HN Ff Hf HF HX) as (v & Ev & _); [fold n; lia|]. pose proof Ev as Ev0.
    cbn [numF opsF n_T n_floor n_dbl n_sgl n_narrow o_mul o_sub o_mad o_ofZ o_add].
    assert (Fk : F64 (INR k)) by (rewrite INR_IZR_INZ; apply F64_int; lia).
    rewrite <- !INR_IZR_INZ. rewrite !(rnd64_id (INR k) Fk), !(rnd64_id _ HNf).
    rewrite (rnd64_id 1) by (apply (F64_int 1); lia).
    replace (Zfloor (rnd64 (INR (length x) - 1))) with (Z.of_nat (length x - 1)).
    2:{ replace (INR (length x) - 1) with (IZR (Z.of_nat (length x - 1))).
        - rewrite rnd64_id by (apply F64_int; lia). now rewrite Zfloor_IZR.
        - rewrite <- INR_IZR_INZ, minus_INR by lia. cbn; lra. }
    unfold ds_value in Ev.
    set (start := rnd64 (INR k * f)) in *.
    set (end_ := if b_fma bld then rnd64 (INR k * f + f) else rnd64 (start + f)) in *.
    set (imin := Z.to_nat (Zfloor start)) in *.
    set (imax := Z.to_nat (Z.min (Zfloor end_) (Z.of_nat (length x - 1)))) in *.
    assert (Hi : (imin < length x)%nat).
    { destruct (le_lt_dec (length x) imin); auto. cbv zeta in Ev. rewrite rd_oob in Ev by auto. discriminate. }
    assert (Hm : (imax < length x)%nat) by (unfold imax; lia).
    rewrite (rnd64_id (INR (imin + 1))) by (rewrite INR_IZR_INZ; apply F64_int; lia).
    rewrite (rnd64_id (INR imax)) by (rewrite INR_IZR_INZ; apply F64_int; lia).
    cbv zeta in Ev. rewrite (rd_nth x imin 0) in * by auto. cbn [bind] in *.
    match type of Ev with bind ?a _ = _ => destruct a as [xs| | |]; try discriminate Ev end.
    cbn [bind] in *. rewrite (rd_nth x imax 0) in * by auto. cbn [bind] in *.
    match type of Ev with Ok ?a = Ok ?b => assert (Ev' : a = b) by congruence end. rewrite wr_ok by (change (n_T (numF bld)) with R; lia).
    eexists. split; [reflexivity|]. change (n_T (numF bld)) with R in *.
    split; [now rewrite upd_length|]. intros j Hj. destruct (Nat.eq_dec j k) as [->|].
    - rewrite (nth_error_nth _ _ 0 (upd_same o k _ ltac:(lia))). match goal with |- P k ?t => change t with (o_sum (opsF rnd32 bld) k (Prod (rnd32 (rnd64 (INR (imin + 1) - start))) (nth imin x 0)
        :: map Val xs ++ [Prod (rnd32 (rnd64 (end_ - INR imax))) (nth imax x 0)])) end. rewrite Ev'. exact Ev0.
    - rewrite (nth_error_eq_nth (upd o k _) o j 0); [apply HP; lia|]. apply upd_other. auto. }
  exists o'. split; [exact E|]. split; [exact L|]. exact V.
Qed.

Lemma downsample_near bld (x : list R) f X (out : list R) :
  (Z.of_nat (length x) <= 33554432)%Z -> F64 f -> 1 < f <= INR (length x) ->
  (forall i, (i < length x)%nat -> F32 (nth i x 0)) ->
  (forall i, (i < length x)%nat -> Rabs (nth i x 0) <= X) ->
  let n := downsampled_size (numF bld) (length x) f in (n <= length out)%nat ->
  exists out', downsample (numF bld) x (length x) f out = Ok out' /\ length out' = length out /\
    forall k, (k < n)%nat -> F32 (nth k out' 0) /\
      let g := (1 + u32) ^ ds_terms f in
      Rabs (nth k out' 0 - ds_exact x f k)
        <= (g - 1) * ds_abs x f k + g * (8 * u64 * INR (length x) * X + 3 * eta32).
Proof.
  intros HN Ff Hf HF HX n Ho.
  destruct (downsample_values bld x f out HN Ff Hf HF Ho) as (o & E & L & V).
  exists o. split; [exact E|]. split; [exact L|]. intros k Hk.
  destruct (ds_value_near bld x f k X HN Ff Hf HF HX Hk) as (v & Ev & Fv & Bv).
  rewrite (V k Hk) in Ev. assert (nth k o 0 = v) as -> by congruence. split; [exact Fv|exact Bv].
Qed.
