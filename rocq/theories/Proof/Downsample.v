From Coq Require Import List Arith ZArith Bool Lia Reals Lra.
From Flocq Require Import Core Relative.
From Verif Require Import Base.Result Base.Buf Base.Num Model.Downsample Spec.Sums Spec.Overlap Proof.SumOrder.
Import ListNotations.
Local Open Scope R_scope.

Lemma to_nat_floor_bounds x : 0 <= x ->
  INR (Z.to_nat (Zfloor x)) <= x < INR (Z.to_nat (Zfloor x)) + 1.
Proof.
  intros H. assert (0 <= Zfloor x)%Z by (apply Zfloor_lub; auto).
  rewrite INR_IZR_INZ, Z2Nat.id by auto.
  split; [apply Zfloor_lb|apply Zfloor_ub].
Qed.

(** ** the weighted sum of one output sample *)
Lemma weight_sum (x : nat -> R) (N imin imax : nat) a b :
  (imin < imax)%nat -> (imax < N)%nat ->
  INR imin <= a < INR imin + 1 ->
  INR imax <= b <= INR imax + 1 -> (b < INR imax + 1 \/ b <= INR N) ->
  rsum N (fun i => x i * weight i a b) =
  (INR imin + 1 - a) * x imin + rsum (imax - (imin + 1)) (fun j => x (imin + 1 + j)%nat)
  + (b - INR imax) * x imax.
Proof.
  intros H1 H2 Ha Hb _.
  replace N with (imin + (1 + (imax - (imin + 1)) + 1 + (N - 1 - imax)))%nat by lia.
  rewrite rsum_split.
  rewrite (rsum_ext imin _ (fun _ => 0)), rsum_0.
  2:{ intros i Hi. assert (INR i + 1 <= INR imin) by (rewrite <- S_INR; apply le_INR; lia).
      replace (weight i a b) with 0 by minmax. lra. }
  rewrite !rsum_split.
  rewrite (rsum_ext (N - 1 - imax) _ (fun _ => 0)), rsum_0.
  2:{ intros i Hi.
      set (q := (imin + (1 + (imax - (imin + 1)) + 1 + i))%nat).
      assert (INR imax + 1 <= INR q) by (rewrite <- S_INR; apply le_INR; unfold q; lia).
      replace (weight q a b) with 0 by minmax. lra. }
  assert (Hlt : INR imin + 1 <= INR imax) by (rewrite <- S_INR; apply le_INR; lia).
  cbn [rsum]. rewrite !Nat.add_0_r.
  replace (imin + (1 + (imax - (imin + 1))))%nat with imax by lia.
  rewrite (rsum_ext (imax - (imin + 1)) _ (fun j => x (imin + 1 + j)%nat)).
  2:{ intros j Hj. replace (imin + (1 + j))%nat with (imin + 1 + j)%nat by lia.
      set (q := (imin + 1 + j)%nat).
      assert (INR imin + 1 <= INR q) by (rewrite <- S_INR; apply le_INR; unfold q; lia).
      assert (INR q + 1 <= INR imax) by (rewrite <- S_INR; apply le_INR; unfold q; lia).
      replace (weight q a b) with 1 by minmax. lra. }
  replace (weight imin a b) with (INR imin + 1 - a) by minmax.
  replace (weight imax a b) with (b - INR imax) by minmax.
  lra.
Qed.

Lemma for_acc (x : list R) (lo n : nat) (acc : R) : (lo + n <= length x)%nat ->
  for_ n lo (fun i acc => v <- rd x i ;; Ok (acc + v)) acc
  = Ok (acc + rsum n (fun j => nth (lo + j) x 0)).
Proof.
  revert lo acc; induction n as [|n IH]; intros lo acc H; cbn [for_].
  - cbn. f_equal. lra.
  - rewrite (rd_nth x lo 0) by lia. cbn [bind]. rewrite IH by lia.
    rewrite rsum_first, Nat.add_0_r. f_equal.
    rewrite (rsum_ext n _ (fun j => nth (lo + S j) x 0)); [lra|].
    intros i Hi. f_equal. lia.
Qed.

Lemma valid_factor_R size f : valid_factor numR size f = true <-> 1 < f <= INR size.
Proof.
  unfold valid_factor. rsimp. rewrite <- INR_IZR_INZ, andb_true_iff.
  split; intros [A B]; split.
  - destruct (Rlt_bool_spec 1 f); auto; discriminate.
  - destruct (Rle_bool_spec f (INR size)); auto; discriminate.
  - now apply Rlt_bool_true.
  - now apply Rle_bool_true.
Qed.

Lemma downsampled_size_R size f : 1 < f -> 
  INR (downsampled_size numR size f) * f <= INR size <
  (INR (downsampled_size numR size f) + 1) * f.
Proof.
  intros Hf. unfold downsampled_size. rsimp. rewrite <- INR_IZR_INZ.
  assert (0 <= INR size / f).
  { apply Rmult_le_pos; [apply pos_INR|]. left; apply Rinv_0_lt_compat; lra. }
  destruct (to_nat_floor_bounds (INR size / f)) as [A B]; auto.
  split.
  - apply Rmult_le_compat_r with (r := f) in A; [|lra]. field_simplify in A; lra.
  - apply Rmult_lt_compat_r with (r := f) in B; [|lra]. field_simplify in B; lra.
Qed.

Lemma downsample_spec (x : list R) f out :
  valid_factor numR (length x) f = true ->
  (downsampled_size numR (length x) f <= length out)%nat ->
  exists out', downsample numR x (length x) f out = Ok out' /\
    written out out' 0 (downsampled_size numR (length x) f)
      (fun k => rsum (length x) (fun i => nth i x 0 * weight i (INR k * f) ((INR k + 1) * f))).
Proof.
  intros HV Ho. unfold downsample. rewrite HV. cbn [guard bind].
  apply valid_factor_R in HV.
  set (n := downsampled_size numR (length x) f) in *. rsimp.
  apply (for_written _
      (fun k => rsum (length x) (fun i => nth i x 0 * weight i (INR k * f) ((INR k + 1) * f)))); auto.
  intros k b' Hk _ _. rewrite Nat.sub_0_r. cbn [Nat.add] in Hk |- *.
  rewrite <- !INR_IZR_INZ.
  destruct (downsampled_size_R (length x) f ltac:(lra)) as [Hn _]. fold n in Hn.
  assert (Hk1 : INR k + 1 <= INR n) by (rewrite <- S_INR; apply le_INR; lia).
  pose proof (pos_INR k) as Hk0.
  assert (Hend : (INR k + 1) * f <= INR (length x)).
  { apply Rle_trans with (INR n * f); [|exact Hn]. apply Rmult_le_compat_r; lra. }
  set (start := INR k * f) in *. set (end_ := start + f) in *.
  assert (Hend2 : end_ = (INR k + 1) * f) by (unfold end_, start; ring).
  assert (Hs0 : 0 <= start) by (apply Rmult_le_pos; lra).
  destruct (to_nat_floor_bounds start Hs0) as [M1 M2].
  set (imin := Z.to_nat (Zfloor start)) in *.
  assert (L1 : (1 <= length x)%nat) by (apply INR_le; cbn; lra).
  replace (Zfloor (INR (length x) - 1)) with (Z.of_nat (length x - 1)).
  2:{ replace (INR (length x) - 1) with (IZR (Z.of_nat (length x - 1))).
      - now rewrite Zfloor_IZR.
      - rewrite <- INR_IZR_INZ, minus_INR by lia. cbn; lra. }
  assert (He0 : 0 <= end_) by (unfold end_; lra).
  destruct (to_nat_floor_bounds end_ He0) as [X1 X2].
  assert (Hf0 : (0 <= Zfloor end_)%Z) by (apply Zfloor_lub; lra).
  set (imax := Z.to_nat (Z.min (Zfloor end_) (Z.of_nat (length x - 1)))).
  assert (Eimax : imax = Nat.min (Z.to_nat (Zfloor end_)) (length x - 1)) by (unfold imax; lia).
  set (fe := Z.to_nat (Zfloor end_)) in *.
  assert (Hfe : (imin < fe)%nat).
  { assert (imin + 1 <= fe)%nat; [|lia]. apply Nat.lt_succ_r. apply INR_lt.
    rewrite S_INR, plus_INR. cbn [INR].
    assert (start + 1 < end_) by (unfold end_, start; lra). lra. }
  assert (Hmax : (imin < imax)%nat).
  { destruct (le_lt_dec fe (length x - 1)); [lia|].
    rewrite Eimax, Nat.min_r by lia.
    assert (INR imin + 1 < INR (length x)).
    { assert (start + 1 < end_) by (unfold end_, start; lra). lra. }
    rewrite <- S_INR in H. apply INR_lt in H. lia. }
  assert (Hmx : INR imax <= end_ <= INR imax + 1).
  { destruct (le_lt_dec fe (length x - 1)).
    - rewrite Eimax, Nat.min_l by lia. lra.
    - rewrite Eimax, Nat.min_r by lia. rewrite minus_INR by lia. cbn [INR].
      assert (INR (length x) <= INR fe) by (apply le_INR; lia). lra. }
  rewrite (rd_nth x imin 0) by lia. cbn [bind].
  rewrite (rd_range x 0) by lia. cbn [bind].
  rewrite (rd_nth x imax 0) by lia. cbn [bind].
  f_equal.
  match goal with |- fold_right _ _ ?l = _ => change (exact_sum l = rsum (length x) (fun i => nth i x 0 * weight i start ((INR k + 1) * f))) end.
  rewrite exact_sum_cons, exact_sum_app, exact_sum_range, exact_sum_cons. cbn [term_val exact_sum fold_right].
  rewrite (weight_sum (fun i => nth i x 0) (length x) imin imax); try lia; try lra.
  rewrite plus_INR. cbn [INR]. rewrite <- Hend2. fold start. lra.
Qed.

(** weights of one output sample sum to [f] *)
Lemma weight_total (N : nat) a b : 0 <= a -> a <= b -> b <= INR N ->
  rsum N (fun i => weight i a b) = b - a.
Proof.
  assert (G : forall N c, 0 <= c -> rsum N (fun i => weight i 0 c) = Rmin c (INR N)).
  { clear. induction N as [|N IH]; intros c Hc; cbn [rsum].
    - cbn. minmax.
    - rewrite IH by auto. pose proof (pos_INR N). rewrite S_INR. minmax. }
  intros Ha Hab Hb.
  rewrite (rsum_ext N _ (fun i => weight i 0 b - weight i 0 a)).
  2:{ intros i Hi. pose proof (weight_split i 0 a b Ha Hab). lra. }
  rewrite rsum_minus, !G by lra. rewrite !Rmin_left by lra. lra.
Qed.

Lemma weight_steps (i n : nat) f : 0 <= f ->
  rsum n (fun k => weight i (INR k * f) ((INR k + 1) * f)) = weight i 0 (INR n * f).
Proof.
  intros Hf. induction n as [|n IH]; cbn [rsum].
  - cbn [INR]. rewrite Rmult_0_l. pose proof (pos_INR i). minmax.
  - rewrite IH, S_INR. apply weight_split.
    + apply Rmult_le_pos; [apply pos_INR|auto].
    + pose proof (pos_INR n). apply Rmult_le_compat_r; lra.
Qed.

(** ** binary64: memory safety *)
Notation fexp64 := (FLT_exp (-1074) 53).
Notation F64 := (generic_format radix2 fexp64).
#[export] Instance prec53 : Prec_gt_0 53 := eq_refl.

Lemma rnd64_le x y : x <= y -> rnd64 x <= rnd64 y.
Proof. apply round_le; typeclasses eauto. Qed.

Lemma rnd64_id x : F64 x -> rnd64 x = x.
Proof. apply round_generic; typeclasses eauto. Qed.

Lemma F64_half z : (Z.abs z < 2 ^ 53)%Z -> F64 (IZR z * / 2).
Proof.
  intros Hz. replace (IZR z * / 2) with (F2R (Float radix2 z (-1))) by reflexivity.
  apply generic_format_FLT. exists (Float radix2 z (-1)); cbn; auto; lia.
Qed.

Lemma F64_int z : (Z.abs z < 2 ^ 53)%Z -> F64 (IZR z).
Proof.
  intros Hz. replace (IZR z) with (F2R (Float radix2 z 0)) by (unfold F2R; cbn; lra).
  apply generic_format_FLT. exists (Float radix2 z 0); cbn; auto; lia.
Qed.

Definition u64 : R := / 9007199254740992.

Lemma rnd64_rel_up x : 1 <= x -> rnd64 x <= x * (1 + u64).
Proof.
  intros Hx.
  pose proof (relative_error_N_FLT radix2 (-1074) 53 eq_refl (fun z => negb (Z.even z)) x) as H.
  rewrite (Rabs_pos_eq x) in H by lra.
  assert (Hb : bpow radix2 (-1074 + 53 - 1) <= x).
  { apply Rle_trans with (bpow radix2 0); [apply bpow_le; lia|]. cbn; lra. }
  specialize (H Hb). change (round radix2 fexp64 (Znearest _) x) with (rnd64 x) in H.
  apply Rabs_le_inv in H.
  replace (/ 2 * bpow radix2 (- (53) + 1) * x) with (u64 * x) in H by (cbn; unfold u64; lra).
  lra.
Qed.

Lemma for_ok {S} (body : nat -> S -> res S) : forall n lo s,
  (forall i s, (lo <= i < lo + n)%nat -> exists s', body i s = Ok s') ->
  exists s', for_ n lo body s = Ok s'.
Proof.
  induction n as [|n IH]; intros lo s H; cbn; eauto.
  destruct (H lo s) as (s1 & ->); [lia|]. cbn. apply IH. intros; apply H; lia.
Qed.

Lemma downsample_float_safe bld (x : list R) f out :
  (Z.of_nat (length x) <= 2 ^ 50)%Z ->
  1 < f <= INR (length x) ->
  (downsampled_size (numF bld) (length x) f <= length out)%nat ->
  exists out', downsample (numF bld) x (length x) f out = Ok out' /\ length out' = length out.
Proof.
  intros HN Hf Ho.
  set (N := length x) in *.
  assert (HNf : F64 (INR N)) by (rewrite INR_IZR_INZ; apply F64_int; lia).
  assert (HNR : INR N <= 1125899906842624).
  { rewrite INR_IZR_INZ. apply (IZR_le _ 1125899906842624). lia. }
  unfold downsample.
  assert (HV : valid_factor (numF bld) N f = true).
  { unfold valid_factor. cbn [numF opsF n_ltb n_leb n_dbl o_ofZ].
    rewrite <- INR_IZR_INZ. rewrite (rnd64_id (INR N) HNf).
    rewrite (rnd64_id 1) by (apply (F64_int 1); lia).
    rewrite Rlt_bool_true, Rle_bool_true by lra. reflexivity. }
  rewrite HV. cbn [guard bind].
  set (n := downsampled_size (numF bld) N f) in *.
  assert (Hn : INR n * f <= INR N + / 8).
  { unfold n, downsampled_size. cbn [numF opsF n_floor n_dbl o_div o_ofZ].
    rewrite <- INR_IZR_INZ. rewrite (rnd64_id (INR N) HNf).
    assert (Hq : 1 <= INR N / f).
    { apply Rmult_le_reg_r with f; [lra|]. field_simplify; lra. }
    pose proof (rnd64_rel_up _ Hq) as R1.
    assert (0 <= rnd64 (INR N / f)).
    { rewrite <- (rnd64_id 0) by apply generic_format_0. apply rnd64_le. lra. }
    destruct (to_nat_floor_bounds (rnd64 (INR N / f))) as [A _]; auto.
    apply Rle_trans with (INR N / f * (1 + u64) * f).
    - apply Rmult_le_compat_r; lra.
    - replace (INR N / f * (1 + u64) * f) with (INR N * (1 + u64)) by (field; lra).
      unfold u64. lra. }
  assert (HnN : (Z.of_nat n <= 2 ^ 50)%Z).
  { apply le_IZR. rewrite <- INR_IZR_INZ.
    assert (INR n * 1 <= INR n * f) by (apply Rmult_le_compat_l; [apply pos_INR|lra]).
    change (IZR (2 ^ 50)) with 1125899906842624.
    assert (Hz : INR n < INR (S N)) by (rewrite S_INR; lra). apply INR_lt in Hz.
    assert (INR n <= INR N) by (apply le_INR; lia). lra. }
  match goal with |- context [for_ n 0 ?b ?s] =>
    destruct (for_inv (fun _ (o : list R) => length o = length out) b n 0%nat s) as (o' & E & L)
  end; auto.
  { intros k o Hk HL. cbn [Nat.add] in Hk.
    cbn [numF opsF n_T n_floor n_dbl n_sgl n_narrow o_mul o_sub o_mad o_ofZ o_add].
    assert (Fk : F64 (INR k)) by (rewrite INR_IZR_INZ; apply F64_int; lia).
    rewrite <- !INR_IZR_INZ.
    rewrite !(rnd64_id (INR k) Fk), !(rnd64_id (INR N) HNf).
    assert (Hk1 : INR k + 1 <= INR n) by (rewrite <- S_INR; apply le_INR; lia).
    pose proof (pos_INR k) as Hk0.
    assert (Hkf : 0 <= INR k * f <= INR N - / 2).
    { split; [apply Rmult_le_pos; lra|].
      assert ((INR k + 1) * f <= INR n * f) by (apply Rmult_le_compat_r; lra). lra. }
    assert (FNh : F64 (INR N - / 2)).
    { replace (INR N - / 2) with (IZR (2 * Z.of_nat N - 1) * / 2).
      - apply F64_half. lia.
      - rewrite minus_IZR, mult_IZR, <- INR_IZR_INZ. lra. }
    assert (Hst : 0 <= rnd64 (INR k * f) <= INR N - / 2).
    { split.
      - rewrite <- (rnd64_id 0) by apply generic_format_0. apply rnd64_le; lra.
      - rewrite <- (rnd64_id _ FNh). apply rnd64_le; lra. }
    set (start := rnd64 (INR k * f)) in *.
    set (imin := Z.to_nat (Zfloor start)).
    assert (Himin : (imin < N)%nat).
    { destruct (to_nat_floor_bounds start ltac:(lra)) as [A _]. fold imin in A.
      apply INR_lt. lra. }
    set (end_ := if b_fma bld then rnd64 (INR k * f + f) else rnd64 (start + f)).
    rewrite (rnd64_id 1) by (apply (F64_int 1); lia).
    set (lim := Zfloor (rnd64 (INR N - 1))).
    assert (Hlim : lim = Z.of_nat (N - 1)).
    { unfold lim. replace (INR N - 1) with (IZR (Z.of_nat (N - 1))).
      - rewrite rnd64_id by (apply F64_int; lia). apply Zfloor_IZR.
      - rewrite <- INR_IZR_INZ, minus_INR by lia. cbn; lra. }
    set (imax := Z.to_nat (Z.min (Zfloor end_) lim)).
    assert (Himax : (imax < N)%nat) by (unfold imax; rewrite Hlim; lia).
    rewrite (rd_nth x imin 0) by (unfold N in *; lia). cbn [bind].
    rewrite (rd_range x 0) by (unfold N in *; lia).
    cbn [bind]. rewrite (rd_nth x imax 0) by (unfold N in *; lia). cbn [bind].
    rewrite wr_ok by (cbn in *; lia). eexists; split; [reflexivity|].
    rewrite upd_length. exact HL. }
  exists o'. split; [exact E|exact L].
Qed.
