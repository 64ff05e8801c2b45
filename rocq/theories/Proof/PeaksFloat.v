(** Medians and percentiles with rounded arithmetic. *)
From Coq Require Import List Arith ZArith Bool Lia Reals Lra Permutation Sorted.
From Flocq Require Import Core.
From Verif Require Import Base.Result Base.Num Model.Cluster Model.Peaks Spec.Order Proof.Index Proof.Downsample
  Proof.Rounding Proof.SearchFloat Proof.ClusterFloat Props.Peaks.
Import ListNotations.
Local Open Scope R_scope.

Definition eta64 : R := bpow radix2 (-1075).
Lemma eta64_small : 0 < eta64 < / 1000.
Proof. unfold eta64. split; [apply bpow_gt_0|]. apply Rle_lt_trans with (bpow radix2 (-20)); [apply bpow_le; lia|cbn; lra]. Qed.
Lemma u64_small : 0 < u64 < / 1000. Proof. unfold u64. lra. Qed.

Lemma nsort_F bld (l : list R) : nsort (numF bld) l = nsort numR l.
Proof. reflexivity. Qed.

(** multiples of 1/4 *)
Lemma F64_quarter (z : Z) : (Z.abs z <= 2 ^ 52)%Z -> F64 (IZR z / 4).
Proof.
  intros H. replace (IZR z / 4) with (F2R (Float radix2 z (-2))) by (unfold F2R; cbn; field).
  apply generic_format_FLT. exists (Float radix2 z (-2)); [reflexivity| |cbn; lia].
  cbn [Fnum]. change (radix2 ^ 53)%Z with (2 ^ 53)%Z. lia.
Qed.

Lemma lerp_err (a b t B : R) : F64 a -> F64 b -> Rabs a <= B -> Rabs b <= B -> 0 <= t <= 1 ->
  Rabs (rnd64 (a + rnd64 (rnd64 (b - a) * t)) - (a + (b - a) * t)) <= 8 * u64 * B + 2 * eta64.
Proof.
  intros Fa Fb Ha Hb Ht. pose proof u64_small as U. pose proof eta64_small as E.
  destruct (rnd64_plus_error b (- a) Fb ltac:(now apply generic_format_opp)) as [_ E1].
  change (b + - a) with (b - a) in E1. set (d := rnd64 (b - a)) in *.
  assert (D : Rabs (b - a) <= 2 * B) by (pose proof (Rabs_triang b (- a)) as X; rewrite Rabs_Ropp in X; unfold Rminus; lra).
  assert (B0 : 0 <= B) by (pose proof (Rabs_pos a); lra).
  assert (E1' : Rabs (d - (b - a)) <= u64 * (2 * B)).
  { eapply Rle_trans; [exact E1|]. apply Rmult_le_compat_l; lra. }
  assert (UB : 0 <= u64 * B) by (apply Rmult_le_pos; lra).
  assert (UB' : u64 * B <= / 1000 * B) by (apply Rmult_le_compat_r; lra).
  assert (Dd : Rabs d <= 3 * B).
  { pose proof (Rabs_triang (d - (b - a)) (b - a)) as X. replace (d - (b - a) + (b - a)) with d in X by ring. lra. }
  pose proof (rnd64_err (d * t)) as E2. fold eta64 in E2. set (w := rnd64 (d * t)) in *.
  assert (DT : Rabs (d * t) <= Rabs d).
  { rewrite Rabs_mult, (Rabs_pos_eq t) by lra. rewrite <- (Rmult_1_r (Rabs d)) at 2.
    apply Rmult_le_compat_l; [apply Rabs_pos|lra]. }
  assert (Dd2 : Rabs d <= 2 * B + u64 * (2 * B)).
  { pose proof (Rabs_triang (d - (b - a)) (b - a)) as X. replace (d - (b - a) + (b - a)) with d in X by ring. lra. }
  assert (UUB : u64 * (u64 * B) <= / 1000 * (u64 * B)) by (apply Rmult_le_compat_r; lra).
  assert (E2' : Rabs (w - d * t) <= u64 * (2 * B + u64 * (2 * B)) + eta64).
  { eapply Rle_trans; [exact E2|]. apply Rplus_le_compat_r, Rmult_le_compat_l; lra. }
  destruct (rnd64_plus_error a w Fa (rnd64_F _)) as [_ E3]. set (z := rnd64 (a + w)) in *.
  assert (TB : Rabs (a + (b - a) * t) <= B).
  { replace (a + (b - a) * t) with (a * (1 - t) + b * t) by ring.
    apply Rabs_le. apply Rabs_le_inv in Ha, Hb. split.
    - assert (- B * (1 - t) <= a * (1 - t)) by (apply Rmult_le_compat_r; lra).
      assert (- B * t <= b * t) by (apply Rmult_le_compat_r; lra). lra.
    - assert (a * (1 - t) <= B * (1 - t)) by (apply Rmult_le_compat_r; lra).
      assert (b * t <= B * t) by (apply Rmult_le_compat_r; lra). lra. }
  assert (E4 : Rabs (d * t - (b - a) * t) <= u64 * (2 * B)).
  { replace (d * t - (b - a) * t) with ((d - (b - a)) * t) by ring.
    rewrite Rabs_mult, (Rabs_pos_eq t) by lra. rewrite <- (Rmult_1_r (u64 * (2 * B))).
    apply Rmult_le_compat; try lra. apply Rabs_pos. }
  assert (AW : Rabs (a + w - (a + (b - a) * t)) <= 5 * (u64 * B) + eta64).
  { replace (a + w - (a + (b - a) * t)) with ((w - d * t) + (d * t - (b - a) * t)) by ring.
    eapply Rle_trans; [apply Rabs_triang|]. lra. }
  assert (AB : Rabs (a + w) <= 2 * B + eta64).
  { pose proof (Rabs_triang (a + w - (a + (b - a) * t)) (a + (b - a) * t)) as X.
    replace (a + w - (a + (b - a) * t) + (a + (b - a) * t)) with (a + w) in X by ring. lra. }
  assert (E3' : Rabs (z - (a + w)) <= u64 * (2 * B + eta64)).
  { eapply Rle_trans; [exact E3|]. apply Rmult_le_compat_l; lra. }
  assert (UE : u64 * eta64 <= / 1000 * eta64) by (apply Rmult_le_compat_r; lra).
  replace (z - (a + (b - a) * t)) with ((z - (a + w)) + (a + w - (a + (b - a) * t))) by ring.
  eapply Rle_trans; [apply Rabs_triang|]. lra.
Qed.

Lemma rnd64_opp x : rnd64 (- x) = - rnd64 x.
Proof. apply round_NE_opp. Qed.

Lemma lerp_err' (a b t B : R) : F64 a -> F64 b -> Rabs a <= B -> Rabs b <= B -> 0 <= t <= 1 ->
  Rabs (rnd64 (b - rnd64 (rnd64 (b - a) * (1 - t))) - (a + (b - a) * t)) <= 8 * u64 * B + 2 * eta64.
Proof.
  intros Fa Fb Ha Hb Ht. pose proof (lerp_err b a (1 - t) B Fb Fa Hb Ha ltac:(lra)) as H.
  replace (b + (a - b) * (1 - t)) with (a + (b - a) * t) in H by ring.
  replace (a - b) with (- (b - a)) in H by ring. rewrite rnd64_opp, <- Ropp_mult_distr_l, rnd64_opp in H.
  exact H.
Qed.

Lemma nth_nsort (l : list R) (P : R -> Prop) k : Forall P l -> P 0 -> P (nth k (nsort numR l) 0).
Proof.
  intros F P0. destruct (nsort_R l) as [PM _]. destruct (Nat.lt_ge_cases k (length (nsort numR l))) as [H|H].
  - rewrite Forall_forall in F. apply F. apply (Permutation_in _ (Permutation_sym PM)). now apply nth_In.
  - now rewrite nth_overflow.
Qed.

(** the quartiles are rounded values of the exact ones *)
Lemma percentile_F bld (c : Z) (l : list R) (B : R) : (0 <= c <= 4)%Z -> l <> [] ->
  (Z.of_nat (length l) <= 2 ^ 50)%Z -> Forall F64 l -> Forall (fun x => Rabs x <= B) l ->
  Rabs (percentile (numF bld) (25 * c) l - percentile numR (25 * c) l) <= 8 * u64 * B + 2 * eta64.
Proof.
  intros Hc Hl HL F HB.
  assert (B0 : 0 <= B).
  { destruct l as [|x l]; [easy|]. inversion HB; subst. pose proof (Rabs_pos x). lra. }
  unfold percentile. rewrite nsort_F. rsimp. change (n_T (numF bld)) with R in *. numR_ty.
  cbn [numF opsF n_dbl o_ofZ o_sub o_add o_mul o_div n_floor].
  assert (L1 : (1 <= length l)%nat) by (destruct l; [easy|cbn; lia]).
  assert (I : forall z, (Z.abs z <= 2 ^ 52)%Z -> rnd64 (IZR z) = IZR z).
  { intros z Hz. apply rnd64_id. apply F64_int. lia. }
  rewrite !(I 0%Z), (I 100%Z), (I (25 * c)%Z) by lia.
  rewrite (I (Z.of_nat (length l - 1))) by lia.
  replace (IZR (25 * c) / 100) with (IZR c / 4) by (rewrite mult_IZR; lra).
  rewrite (rnd64_id (IZR c / 4)) by (apply F64_quarter; lia).
  set (v := IZR c / 4 * IZR (Z.of_nat (length l - 1))).
  assert (V : v = IZR (c * Z.of_nat (length l - 1)) / 4) by (unfold v; rewrite mult_IZR; lra).
  assert (RV : rnd64 v = v) by (apply rnd64_id; rewrite V; apply F64_quarter; nia).
  rewrite RV. set (k := Z.to_nat (Zfloor v)).
  assert (V0 : 0 <= v) by (rewrite V; assert (0 <= IZR (c * Z.of_nat (length l - 1))) by (apply IZR_le; nia); lra).
  assert (VL : v <= IZR (Z.of_nat (length l - 1))).
  { unfold v. rewrite <- (Rmult_1_l (IZR (Z.of_nat _))) at 2. apply Rmult_le_compat_r; [apply IZR_le; lia|].
    assert (IZR c <= 4) by (apply IZR_le; lia). lra. }
  assert (K0 : (0 <= Zfloor v)%Z) by (apply Zfloor_lub; lra).
  assert (KL : (Zfloor v <= Z.of_nat (length l - 1))%Z).
  { rewrite <- (Zfloor_IZR (Z.of_nat (length l - 1))). now apply Zfloor_le. }
  assert (KE : Z.of_nat k = Zfloor v) by (unfold k; lia).
  rewrite (I (Z.of_nat k)) by (rewrite KE; lia).
  assert (KV : IZR (Z.of_nat k) <= v < IZR (Z.of_nat k) + 1).
  { rewrite KE. split; [apply Zfloor_lb|apply Zfloor_ub]. }
  assert (RT : rnd64 (v - IZR (Z.of_nat k)) = v - IZR (Z.of_nat k)).
  { apply rnd64_id. rewrite V. replace (IZR (c * Z.of_nat (length l - 1)) / 4 - IZR (Z.of_nat k))
      with (IZR (c * Z.of_nat (length l - 1) - 4 * Z.of_nat k) / 4) by (rewrite minus_IZR, (mult_IZR 4); lra).
    apply F64_quarter. rewrite KE. nia. }
  rewrite RT. rewrite (I 1%Z), (I 2%Z) by lia.
  assert (RH : rnd64 (1 / 2) = 1 / 2).
  { apply rnd64_id. replace (1 / 2) with (IZR 2 / 4) by lra. now apply F64_quarter. }
  rewrite RH. set (t := v - IZR (Z.of_nat k)) in *.
  assert (RT1 : rnd64 (1 - t) = 1 - t).
  { apply rnd64_id. unfold t. rewrite V. replace (1 - (IZR (c * Z.of_nat (length l - 1)) / 4 - IZR (Z.of_nat k)))
      with (IZR (4 + 4 * Z.of_nat k - c * Z.of_nat (length l - 1)) / 4) by (rewrite minus_IZR, plus_IZR, (mult_IZR 4); lra).
    apply F64_quarter. rewrite KE. nia. }
  rewrite RT1.
  assert (T : 0 <= t <= 1) by (unfold t; lra).
  change (n_ltb (n:=numF bld)) with Rlt_bool. change (n_ltb (n:=numR)) with Rlt_bool.
  set (a := nth k (nsort numR l) 0). set (b := nth (Nat.min (S k) (length l - 1)) (nsort numR l) 0).
  assert (Fa : F64 a) by (apply nth_nsort; auto; apply generic_format_0).
  assert (Fb : F64 b) by (apply nth_nsort; auto; apply generic_format_0).
  assert (Ha : Rabs a <= B) by (apply (nth_nsort l (fun x => Rabs x <= B)); auto; now rewrite Rabs_R0).
  assert (Hb : Rabs b <= B) by (apply (nth_nsort l (fun x => Rabs x <= B)); auto; now rewrite Rabs_R0).
  destruct (Rlt_bool t (1 / 2)).
  - apply lerp_err; auto.
  - pose proof (lerp_err' a b t B Fa Fb Ha Hb T) as H.
    replace (a + (b - a) * t) with (b - (b - a) * (1 - t)) in H by ring. exact H.
Qed.

Lemma nmedian_F bld (l : list R) (B : R) : l <> [] -> Forall F64 l -> Forall (fun x => Rabs x <= B) l ->
  Rabs (nmedian (numF bld) l - nmedian numR l) <= 4 * u64 * B + 2 * eta64.
Proof.
  intros Hl F HB. pose proof u64_small as U. pose proof eta64_small as E.
  assert (B0 : 0 <= B).
  { destruct l as [|x l]; [easy|]. inversion HB; subst. pose proof (Rabs_pos x). lra. }
  assert (UB : 0 <= u64 * B) by (apply Rmult_le_pos; lra).
  unfold nmedian. rewrite nsort_F. rsimp. change (n_T (numF bld)) with R in *. numR_ty.
  cbn [numF opsF n_dbl o_ofZ o_sub o_add o_mul o_div].
  rewrite (rnd64_id (IZR 0)) by apply generic_format_0. rewrite (rnd64_id 2) by now apply F64_int.
  change (IZR 0) with 0. destruct (Nat.odd (length l)).
  { rewrite Rminus_diag_eq by reflexivity. rewrite Rabs_R0. lra. }
  set (a := nth (length l / 2 - 1) (nsort numR l) 0). set (b := nth (length l / 2) (nsort numR l) 0).
  assert (Fa : F64 a) by (apply nth_nsort; auto; apply generic_format_0).
  assert (Fb : F64 b) by (apply nth_nsort; auto; apply generic_format_0).
  assert (Ha : Rabs a <= B) by (apply (nth_nsort l (fun x => Rabs x <= B)); auto; now rewrite Rabs_R0).
  assert (Hb : Rabs b <= B) by (apply (nth_nsort l (fun x => Rabs x <= B)); auto; now rewrite Rabs_R0).
  destruct (rnd64_plus_error a b Fa Fb) as [_ E1]. set (c := rnd64 (a + b)) in *.
  pose proof (rnd64_err (c / 2)) as E2. fold eta64 in E2. set (z := rnd64 (c / 2)) in *.
  assert (AB : Rabs (a + b) <= 2 * B) by (pose proof (Rabs_triang a b); lra).
  assert (E1' : Rabs (c - (a + b)) <= u64 * (2 * B)).
  { eapply Rle_trans; [exact E1|]. apply Rmult_le_compat_l; lra. }
  assert (C : Rabs c <= 2 * B + u64 * (2 * B)).
  { pose proof (Rabs_triang (c - (a + b)) (a + b)) as X. replace (c - (a + b) + (a + b)) with c in X by ring. lra. }
  assert (E2' : Rabs (z - c / 2) <= u64 * (B + u64 * B) + eta64).
  { eapply Rle_trans; [exact E2|]. apply Rplus_le_compat_r, Rmult_le_compat_l; [lra|].
    unfold Rdiv. rewrite Rabs_mult, (Rabs_pos_eq (/ 2)) by lra. lra. }
  assert (UUB : u64 * (u64 * B) <= / 1000 * (u64 * B)) by (apply Rmult_le_compat_r; lra).
  assert (K : Rabs (z - (a + b) / 2) <= 4 * u64 * B + 2 * eta64); [|exact K].
  replace (z - (a + b) / 2) with ((z - c / 2) + (c - (a + b)) * / 2) by field.
  eapply Rle_trans; [apply Rabs_triang|]. rewrite Rabs_mult, (Rabs_pos_eq (/ 2)) by lra. lra.
Qed.

(** half the interquartile range over 0.6745 *)
Lemma spread_F (P1 P3 q1 q3 B : R) : F64 P1 -> F64 P3 -> Rabs q1 <= B -> Rabs q3 <= B ->
  Rabs (P1 - q1) <= 8 * u64 * B + 2 * eta64 -> Rabs (P3 - q3) <= 8 * u64 * B + 2 * eta64 ->
  Rabs (rnd64 (rnd64 (P3 - P1) / rnd64 (rnd64 1349 / rnd64 1000)) - (q3 - q1) / (1349 / 1000)) <= 32 * u64 * B + 8 * eta64.
Proof.
  intros F1 F3 H1 H3 E1 E3. pose proof u64_small as U. pose proof eta64_small as E.
  assert (B0 : 0 <= B) by (pose proof (Rabs_pos q1); lra).
  assert (UB : 0 <= u64 * B) by (apply Rmult_le_pos; lra).
  assert (UB' : u64 * B <= / 1000 * B) by (apply Rmult_le_compat_r; lra).
  rewrite (rnd64_id 1349) by now apply F64_int. rewrite (rnd64_id 1000) by now apply F64_int.
  set (k := 1349 / 1000). pose proof (rnd64_err k) as EK. fold eta64 in EK. set (c := rnd64 k) in *.
  assert (EK' : Rabs (c - k) <= 2 * u64).
  { eapply Rle_trans; [exact EK|]. rewrite Rabs_pos_eq by (unfold k; lra).
    assert (eta64 <= u64 * / 1000).
    { unfold eta64. apply Rle_trans with (bpow radix2 (-70)); [apply bpow_le; lia|unfold u64; cbn; lra]. }
    unfold k. lra. }
  assert (C : 13 / 10 <= c <= 14 / 10) by (apply Rabs_le_inv in EK'; unfold k in EK'; lra).
  destruct (rnd64_plus_error P3 (- P1) F3 ltac:(now apply generic_format_opp)) as [_ ED].
  change (P3 + - P1) with (P3 - P1) in ED. set (d := rnd64 (P3 - P1)) in *. set (q := q3 - q1).
  assert (Q : Rabs q <= 2 * B) by (pose proof (Rabs_triang q3 (- q1)) as X; rewrite Rabs_Ropp in X; unfold q, Rminus; lra).
  assert (PQ : Rabs (P3 - P1 - q) <= 16 * (u64 * B) + 4 * eta64).
  { replace (P3 - P1 - q) with ((P3 - q3) + - (P1 - q1)) by (unfold q; ring).
    eapply Rle_trans; [apply Rabs_triang|]. rewrite Rabs_Ropp. lra. }
  assert (PP : Rabs (P3 - P1) <= 2 * B + 16 * (u64 * B) + 4 * eta64).
  { pose proof (Rabs_triang (P3 - P1 - q) q) as X. replace (P3 - P1 - q + q) with (P3 - P1) in X by ring. lra. }
  assert (UUB : u64 * (u64 * B) <= / 1000 * (u64 * B)) by (apply Rmult_le_compat_r; lra).
  assert (UE : u64 * eta64 <= / 1000 * eta64) by (apply Rmult_le_compat_r; lra).
  assert (ED' : Rabs (d - (P3 - P1)) <= u64 * (2 * B + 16 * (u64 * B) + 4 * eta64)).
  { eapply Rle_trans; [exact ED|]. apply Rmult_le_compat_l; lra. }
  assert (DQ : Rabs (d - q) <= 19 * (u64 * B) + 5 * eta64).
  { replace (d - q) with ((d - (P3 - P1)) + (P3 - P1 - q)) by ring. eapply Rle_trans; [apply Rabs_triang|]. lra. }
  assert (D : Rabs d <= 2 * B + 19 * (u64 * B) + 5 * eta64).
  { pose proof (Rabs_triang (d - q) q) as X. replace (d - q + q) with d in X by ring. lra. }
  pose proof (rnd64_err (d / c)) as EZ. fold eta64 in EZ. set (z := rnd64 (d / c)) in *.
  assert (IC : 0 < / c <= 10 / 13).
  { split; [apply Rinv_0_lt_compat; lra|]. replace (10 / 13) with (/ (13 / 10)) by field. apply Rinv_le; lra. }
  assert (DC : Rabs (d / c) <= 2 * B + 19 * (u64 * B) + 5 * eta64).
  { unfold Rdiv. rewrite Rabs_mult, (Rabs_pos_eq (/ c)) by lra.
    apply Rle_trans with (Rabs d * 1); [apply Rmult_le_compat_l; [apply Rabs_pos|lra]|lra]. }
  assert (EZ' : Rabs (z - d / c) <= u64 * (2 * B + 19 * (u64 * B) + 5 * eta64) + eta64).
  { eapply Rle_trans; [exact EZ|]. apply Rplus_le_compat_r, Rmult_le_compat_l; lra. }
  assert (DQC : Rabs ((d - q) / c) <= 10 / 13 * (19 * (u64 * B) + 5 * eta64)).
  { unfold Rdiv at 1. rewrite Rabs_mult, (Rabs_pos_eq (/ c)) by lra. rewrite Rmult_comm.
    apply Rmult_le_compat; try lra; apply Rabs_pos. }
  assert (QC : Rabs (q / c - q / k) <= 3 * (u64 * B)).
  { replace (q / c - q / k) with (q * (k - c) * (/ c * / k)) by (field; unfold k; lra).
    rewrite Rabs_mult, (Rabs_pos_eq (/ c * / k)) by (apply Rmult_le_pos; [lra|apply Rlt_le, Rinv_0_lt_compat; unfold k; lra]).
    rewrite Rabs_mult, (Rabs_minus_sym k c).
    assert (IK : 0 <= / k <= 3 / 4) by (unfold k; lra).
    assert (II : 0 <= / c * / k <= 10 / 13 * (3 / 4)).
    { split; [apply Rmult_le_pos; lra|apply Rmult_le_compat; lra]. }
    apply Rle_trans with ((2 * B) * (2 * u64) * (10 / 13 * (3 / 4))); [|lra].
    apply Rmult_le_compat; try lra; try (apply Rmult_le_pos; apply Rabs_pos).
    apply Rmult_le_compat; try lra; apply Rabs_pos. }
  replace (z - q / k) with ((z - d / c) + (d - q) / c + (q / c - q / k)) by (field; unfold k; lra).
  eapply Rle_trans; [apply Rabs_triang|]. eapply Rle_trans; [apply Rplus_le_compat_r, Rabs_triang|]. lra.
Qed.

Lemma percentile_bound (c : Z) (l : list R) (B : R) : (0 <= c <= 100)%Z -> l <> [] ->
  Forall (fun x => Rabs x <= B) l -> Rabs (percentile numR c l) <= B.
Proof.
  intros Hc Hl HB. destruct (percentile_R c l Hc Hl) as (k & a & b & K & (Ia & _) & (Ib & _) & ->).
  rewrite Forall_forall in HB. apply HB in Ia, Ib. set (t := _ - INR k). assert (0 <= t <= 1) by (unfold t; lra).
  replace (a + (b - a) * t) with (a * (1 - t) + b * t) by ring.
  apply Rabs_le. apply Rabs_le_inv in Ia, Ib. split.
  - assert (- B * (1 - t) <= a * (1 - t)) by (apply Rmult_le_compat_r; lra).
    assert (- B * t <= b * t) by (apply Rmult_le_compat_r; lra). lra.
  - assert (a * (1 - t) <= B * (1 - t)) by (apply Rmult_le_compat_r; lra).
    assert (b * t <= B * t) by (apply Rmult_le_compat_r; lra). lra.
Qed.

Lemma percentile_F64 bld c l : F64 (percentile (numF bld) c l).
Proof. unfold percentile. destruct (n_ltb _ _); apply rnd64_F. Qed.
