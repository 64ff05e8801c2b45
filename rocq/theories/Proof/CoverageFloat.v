(** Every period of the range is next to a trial of the search in floating point. *)
From Coq Require Import List Arith ZArith Bool Lia Reals Lra Psatz.
From Flocq Require Import Core.
From Verif Require Import Base.Result Base.Num Model.Downsample Model.Periodogram Spec.Libm
  Proof.Index Proof.Downsample Proof.Periodogram Proof.PeriodogramR Proof.SearchFloat Proof.Detect
  Props.PeriodogramFloat Props.Detect.
Import ListNotations.
Local Open Scope R_scope.

Lemma U50 : / 2 ^ 50 = 8 * u64.
Proof. unfold u64. replace (2 ^ 50) with 1125899906842624 by (rewrite pow_IZR; reflexivity). lra. Qed.

Lemma u64_pos : 0 < u64.
Proof. unfold u64. lra. Qed.

(** ** exponentials *)
Lemma exp_low z : 1 + z <= exp z.
Proof. destruct (Req_dec z 0) as [->|E]; [rewrite exp_0; lra|]. left. now apply exp_ineq1. Qed.

Lemma exp_high z : 0 <= z <= / 2 -> exp z <= 1 + 2 * z.
Proof.
  intros Hz. pose proof (exp_low (- z)) as L. rewrite exp_Ropp in L. pose proof (exp_pos z) as P.
  apply Rmult_le_compat_r with (r := exp z) in L; [|lra]. rewrite Rinv_l in L by lra. nra.
Qed.

Lemma ln_le_minus x : 0 < x -> ln x <= x - 1.
Proof. intros H. pose proof (exp_low (ln x)) as L. rewrite exp_ln in L by auto. lra. Qed.

Lemma ln_ge_inv x : 0 < x -> 1 - / x <= ln x.
Proof.
  intros H. pose proof (ln_le_minus (/ x) ltac:(now apply Rinv_0_lt_compat)) as L.
  rewrite ln_Rinv in L by auto. lra.
Qed.

Lemma ln_le' x y : 0 < x -> x <= y -> ln x <= ln y.
Proof. intros H [H1|<-]; [left; now apply ln_increasing|lra]. Qed.

Lemma ln_pow2 n : ln (2 ^ n) = INR n * ln 2.
Proof.
  induction n as [|n IH]; [cbn; rewrite ln_1; ring|].
  cbn [pow]. rewrite ln_mult, IH, S_INR; [ring|lra|apply pow_lt; lra].
Qed.

Lemma pow_of_ln g n : 0 < g -> g ^ n = exp (INR n * ln g).
Proof. intros H. rewrite <- Rpower_pow by auto. reflexivity. Qed.

Lemma rel64_exact x : 0 <= x -> rel64 0 x x.
Proof. intros. unfold rel64. rewrite Rminus_diag_eq, Rabs_R0 by auto. lra. Qed.

Lemma rel64_weak c d a x : c <= d -> 0 <= x -> rel64 c a x -> rel64 d a x.
Proof.
  unfold rel64. intros H Hx R. eapply Rle_trans; [exact R|].
  apply Rmult_le_compat_r; auto. apply Rmult_le_compat_r; [|auto]. unfold u64. lra.
Qed.

Lemma rel64_bounds c a x : rel64 c a x -> x * (1 - c * u64) <= a <= x * (1 + c * u64).
Proof. unfold rel64. intros H. apply Rabs_le_inv in H. lra. Qed.

Lemma rel64_mul c a x k e d : 0 <= c <= 100 -> 0 <= k <= 100 -> 0 <= x -> 0 <= d ->
  rel64 c a x -> rel64 k e d -> rel64 (c + k + / 10) (a * e) (x * d).
Proof.
  unfold rel64. intros Hc Hk Hx Hd Ha He.
  replace (a * e - x * d) with ((a - x) * (e - d) + (a - x) * d + x * (e - d)) by ring.
  pose proof (Rabs_pos (a - x)) as P1. pose proof (Rabs_pos (e - d)) as P2.
  eapply Rle_trans; [apply Rabs_triang|]. rewrite (Rabs_mult x), (Rabs_pos_eq x) by auto.
  assert (Rabs ((a - x) * (e - d) + (a - x) * d) <= c * u64 * x * (k * u64 * d) + c * u64 * x * d).
  { eapply Rle_trans; [apply Rabs_triang|]. rewrite !Rabs_mult, (Rabs_pos_eq d) by auto.
    apply Rplus_le_compat; [now apply Rmult_le_compat|now apply Rmult_le_compat_r]. }
  apply Rmult_le_compat_l with (r := x) in He; auto.
  assert (0 <= x * d) by now apply Rmult_le_pos.
  assert (c * k * u64 <= / 10).
  { apply Rle_trans with (100 * 100 * u64); [|unfold u64; lra].
    apply Rmult_le_compat_r; [unfold u64; lra|]. apply Rmult_le_compat; lra. }
  assert (c * k * u64 * (u64 * (x * d)) <= / 10 * (u64 * (x * d))).
  { apply Rmult_le_compat_r; auto. apply Rmult_le_pos; [unfold u64; lra|auto]. }
  lra.
Qed.

(** ** the number of cycles *)
Lemma cycles_F (flog : R -> R) (q g : R) : accurate_log flog ->
  1 + / 2 ^ 40 <= q <= 2 ^ 63 -> 1 + / 2 ^ 30 <= g <= 2 ^ 63 ->
  let K := Zceil (rnd64 (flog (rnd64 q) / flog g)) in
  (1 <= K < 2 ^ 64)%Z /\ g ^ (Z.to_nat K - 1) <= q * (1 + 2400 * u64) /\ q * (1 - 1200 * u64) <= g ^ Z.to_nat K.
Proof.
  intros HL Hq Hg K.
  assert (E40 : / 2 ^ 40 = 8192 * u64).
  { unfold u64. replace (2 ^ 40) with 1099511627776 by (rewrite pow_IZR; reflexivity). lra. }
  rewrite E40 in Hq. clear E40.
  assert (E30 : / 2 ^ 30 = / 1073741824) by (f_equal; rewrite pow_IZR; reflexivity).
  rewrite E30 in Hg. clear E30.
  assert (E63 : 2 ^ 63 = 9223372036854775808) by (rewrite pow_IZR; reflexivity).
  assert (Hu : u64 <= / 1000000000) by (unfold u64; lra). pose proof u64_pos as U0.
  set (r := rnd64 q) in *.
  assert (B1000 : bpow radix2 (-1000) <= / 2 ^ 60).
  { replace (/ 2 ^ 60) with (bpow radix2 (-60)); [apply bpow_le; lia|].
    change (bpow radix2 (-60)) with (/ IZR (Z.pow_pos 2 60)). f_equal. rewrite pow_IZR. reflexivity. }
  assert (E60 : / 2 ^ 60 = / 1152921504606846976) by (f_equal; rewrite pow_IZR; reflexivity).
  assert (Rr : rel64 (0 + 1 + / 10) r q).
  { apply rel64_rnd; [lra| |apply rel64_exact; lra]. rewrite E60 in B1000. lra. }
  apply rel64_bounds in Rr.
  assert (r1 : 1 + 4096 * u64 <= r) by nra.
  assert (r2 : r <= 2 ^ 63).
  { unfold r. assert (F63 : F64 (2 ^ 63)).
    { replace (2 ^ 63) with (F2R (Float radix2 1 63)) by (unfold F2R; cbn; lra).
      apply generic_format_FLT. exists (Float radix2 1 63); cbn; auto; lia. }
    rewrite <- (rnd64_id _ F63). apply rnd64_le. lra. }
  assert (big : 2 ^ 63 <= 2 ^ 1000) by (apply Rle_pow; [lra|lia]).
  pose proof (HL r ltac:(lra)) as L1. pose proof (HL g ltac:(lra)) as L2. rewrite U50 in L1, L2.
  assert (lr : 1024 * u64 <= ln r).
  { pose proof (ln_ge_inv r ltac:(lra)) as I.
    assert (/ r <= 1 - 1024 * u64); [|lra].
    apply Rmult_le_reg_r with r; [lra|]. rewrite Rinv_l by lra. nra. }
  assert (l2 : ln 2 <= 1) by (pose proof (ln_le_minus 2 ltac:(lra)); lra).
  assert (lr2 : ln r <= 63).
  { apply Rle_trans with (ln (2 ^ 63)); [apply ln_le'; lra|].
    rewrite ln_pow2. replace (INR 63) with 63 by (cbn; lra). lra. }
  assert (lg : 0 < ln g) by (rewrite <- ln_1; apply ln_increasing; lra).
  assert (lg2 : ln g <= 63).
  { apply Rle_trans with (ln (2 ^ 63)); [apply ln_le'; lra|].
    rewrite ln_pow2. replace (INR 63) with 63 by (cbn; lra). lra. }
  pose proof (rel64_div 8 _ (ln r) 8 _ (ln g) ltac:(lra) ltac:(lra) ltac:(lra) lg L1 L2) as D.
  apply rel64_rnd in D; [|lra|].
  2:{ apply Rle_trans with (1024 * u64 / 64).
      - apply Rle_trans with (1 := B1000). rewrite E60. unfold u64. lra.
      - unfold Rdiv. apply Rmult_le_compat; try lra. apply Rinv_le_contravar; lra. }
  set (y := rnd64 (flog r / flog g)) in *. apply rel64_bounds in D.
  set (Y := ln r / ln g) in *.
  assert (EY : Y * ln g = ln r) by (unfold Y; field; lra).
  assert (Y0 : 0 < Y) by (unfold Y; apply Rdiv_lt_0_compat; lra).
  assert (y0 : 0 < y).
  { apply Rlt_le_trans with (2 := proj1 D). apply Rmult_lt_0_compat; auto. lra. }
  assert (K1 : (1 <= K)%Z).
  { unfold K. assert (0 < Zceil y)%Z; [|fold y; lia]. apply lt_IZR. apply Rlt_le_trans with (2 := Zceil_ub y). auto. }
  assert (KN : INR (Z.to_nat K) = IZR K) by (rewrite INR_IZR_INZ, Z2Nat.id; auto; lia).
  assert (KN1 : INR (Z.to_nat K - 1) = IZR K - 1) by (rewrite minus_INR, KN by lia; reflexivity).
  assert (Ku : y <= IZR K) by apply Zceil_ub.
  assert (Kl : IZR K - 1 <= y).
  { pose proof (Zceil_ub y). unfold K. fold y. assert (Zceil y - 1 < Zceil y)%Z by lia.
    pose proof (Zceil_lb y). lra. }
  assert (lru : ln r * u64 <= 63 * u64) by (apply Rmult_le_compat_r; lra).
  split; [|split].
  - split; auto. apply lt_IZR. change (IZR (2 ^ 64)) with 18446744073709551616.
    apply Rle_lt_trans with (1 + Y * (1 + 18 * u64)).
    { assert (0 <= Y * u64) by (apply Rmult_le_pos; lra). lra. }
    assert (Y <= 63 * 2147483648); [|nra].
    unfold Y, Rdiv. apply Rmult_le_compat; try lra; [left; now apply Rinv_0_lt_compat|].
    replace 2147483648 with (/ / 2147483648) by field. apply Rinv_le_contravar; [lra|].
    pose proof (ln_ge_inv g ltac:(lra)) as I. assert (/ g <= 1 - / 2147483648); [|lra].
    apply Rmult_le_reg_r with g; [lra|]. rewrite Rinv_l by lra. lra.
  - rewrite pow_of_ln, KN1 by lra.
    assert ((IZR K - 1) * ln g <= ln r + 1150 * u64).
    { apply Rle_trans with (Y * (1 + 18 * u64) * ln g).
      - apply Rmult_le_compat_r; [lra|]. assert (0 <= Y * u64) by (apply Rmult_le_pos; lra). lra.
      - replace (Y * (1 + 18 * u64) * ln g) with (ln r + 18 * (ln r * u64)) by (rewrite <- EY; ring). lra. }
    apply Rle_trans with (exp (ln r + 1150 * u64)).
    { destruct H as [H|H]; [left; now apply exp_increasing|rewrite H; lra]. }
    rewrite exp_plus, exp_ln by lra.
    pose proof (exp_high (1150 * u64) ltac:(lra)).
    apply Rle_trans with (r * (1 + 2300 * u64)); [apply Rmult_le_compat_l; lra|].
    apply Rle_trans with (q * (1 + 2 * u64) * (1 + 2300 * u64)).
    + apply Rmult_le_compat_r; [lra|]. nra.
    + rewrite Rmult_assoc. apply Rmult_le_compat_l; [lra|]. nra.
  - rewrite pow_of_ln, KN by lra.
    assert (ln r - 1150 * u64 <= IZR K * ln g).
    { apply Rle_trans with (Y * (1 - 18 * u64) * ln g).
      - replace (Y * (1 - 18 * u64) * ln g) with (ln r - 18 * (ln r * u64)) by (rewrite <- EY; ring). lra.
      - apply Rmult_le_compat_r; [lra|]. assert (0 <= Y * u64) by (apply Rmult_le_pos; lra). lra. }
    apply Rle_trans with (exp (ln r + - (1150 * u64))).
    2:{ destruct H as [H|H]; [left; now apply exp_increasing|]. unfold Rminus in H. rewrite H; lra. }
    rewrite exp_plus, exp_ln by lra.
    pose proof (exp_low (- (1150 * u64))).
    apply Rle_trans with (r * (1 - 1150 * u64)); [|apply Rmult_le_compat_l; lra].
    apply Rle_trans with (q * (1 - 2 * u64) * (1 - 1150 * u64)).
    + rewrite Rmult_assoc. apply Rmult_le_compat_l; [lra|]. nra.
    + apply Rmult_le_compat_r; [lra|]. nra.
Qed.

(** ** the number of bins and the shift *)
Lemma choose_bins (bmin bmax : nat) (x : R) : (1 <= bmin <= bmax)%nat ->
  INR bmin * (1 - 16 * u64) <= x <= (INR bmax + 1) * (1 + 18 * u64) ->
  exists b, (bmin <= b <= bmax)%nat /\ INR b <= x * (1 + 17 * u64) /\ x <= (INR b + 1) * (1 + 18 * u64).
Proof.
  intros Hb Hx. pose proof u64_pos as U0.
  assert (U1 : u64 <= / 1000000000) by (unfold u64; lra).
  assert (B1 : 1 <= INR bmin) by (apply (le_INR 1); lia).
  assert (X0 : 0 <= x).
  { apply Rle_trans with (2 := proj1 Hx). apply Rmult_le_pos; lra. }
  set (q := Z.to_nat (Zfloor x)).
  assert (Fx : (0 <= Zfloor x)%Z) by (apply Zfloor_lub; auto).
  assert (Q : INR q = IZR (Zfloor x)) by (unfold q; now rewrite INR_IZR_INZ, Z2Nat.id).
  pose proof (Zfloor_lb x) as Q1. pose proof (Zfloor_ub x) as Q2. rewrite <- Q in Q1, Q2.
  exists (Nat.max bmin (Nat.min bmax q)).
  split; [lia|].
  assert (Xu : 0 <= x * u64) by (apply Rmult_le_pos; lra).
  destruct (Nat.le_gt_cases q bmin) as [H|H].
  - replace (Nat.max bmin (Nat.min bmax q)) with bmin by lia. split.
    + apply Rle_trans with (INR bmin * ((1 - 16 * u64) * (1 + 17 * u64))).
      * rewrite <- (Rmult_1_r (INR bmin)) at 1. apply Rmult_le_compat_l; [lra|].
        assert (u64 * u64 <= / 1000000000 * u64) by (apply Rmult_le_compat_r; lra). lra.
      * rewrite <- Rmult_assoc. apply Rmult_le_compat_r; lra.
    + apply le_INR in H. assert (0 <= (INR bmin + 1) * u64) by (apply Rmult_le_pos; lra). lra.
  - destruct (Nat.le_gt_cases q bmax) as [H1|H1].
    + replace (Nat.max bmin (Nat.min bmax q)) with q by lia. split; [lra|].
      pose proof (pos_INR q). assert (0 <= (INR q + 1) * u64) by (apply Rmult_le_pos; lra). lra.
    + replace (Nat.max bmin (Nat.min bmax q)) with bmax by lia. split; [|lra].
      apply lt_INR in H1. lra.
Qed.

Lemma choose_shift (S : R) (rows eval : nat) : (2 <= rows)%nat -> (1 <= eval)%nat ->
  - / 4 <= S <= INR rows - 1 + / 4 -> S <= INR eval + / 4 ->
  exists s, (s < eval)%nat /\ (s + 1 < rows)%nat /\ INR s - / 4 <= S <= INR s + 1 + / 4.
Proof.
  intros Hr He HS HE.
  destruct (Rlt_le_dec S 0) as [H0|H0].
  { exists 0%nat. split; [lia|]. split; [lia|]. cbn [INR]. lra. }
  set (q := Z.to_nat (Zfloor S)).
  assert (Fx : (0 <= Zfloor S)%Z) by (apply Zfloor_lub; auto).
  assert (Q : INR q = IZR (Zfloor S)) by (unfold q; now rewrite INR_IZR_INZ, Z2Nat.id).
  pose proof (Zfloor_lb S) as Q1. pose proof (Zfloor_ub S) as Q2. rewrite <- Q in Q1, Q2.
  exists (Nat.min q (Nat.min (eval - 1) (rows - 2))).
  split; [lia|]. split; [lia|]. split.
  - assert (INR (Nat.min q (Nat.min (eval - 1) (rows - 2))) <= INR q) by (apply le_INR; lia). lra.
  - destruct (Nat.min_spec q (Nat.min (eval - 1) (rows - 2))) as [[_ ->]|[_ ->]]; [lra|].
    destruct (Nat.min_spec (eval - 1) (rows - 2)) as [[_ ->]|[_ ->]]; rewrite minus_INR by lia; cbn [INR]; lra.
Qed.

Section PlanF3.
Context (bld : build) (flog : R -> R) (fpow : R -> nat -> R).
Context (size : nat) (tsamp pmin pmax : R) (bmin bmax : nat).
Notation N := (numF bld).
Context (Hlog : accurate_log flog) (Hpow : good_pow fpow) (Apow : accurate_pow fpow).
Context (Fts : F64 tsamp).
Context (Hsize : (Z.of_nat size <= 33554432)%Z) (Hbb : (Z.of_nat bmax <= 4194304)%Z).
Context (Hcheck : check_arguments N tsamp pmin pmax bmin bmax = Ok tt).
Context (Hpt : pmax / tsamp <= 2 ^ 63) (Ht : bpow radix2 (-1000) <= tsamp).
Context (Hlong : 2 * pmax <= tsamp * INR size).
Context (Hwide : pmin * (1 + / 2 ^ 40) <= pmax).

Notation geo := (pl_geo N bmin bmax).
Notation cyc := (pl_cyc N flog pmin pmax bmin bmax).
Notation cycles := (pl_cycles N flog pmin pmax bmin bmax).
Notation f_ := (pl_f N fpow tsamp pmin bmin bmax).
Notation tau := (pl_tau N fpow tsamp pmin bmin bmax).
Notation pms := (pl_pms N fpow tsamp pmin pmax bmin bmax).
Notation n_ := (pl_n N fpow size tsamp pmin bmin bmax).
Notation bstop := (pl_bstop N fpow size tsamp pmin pmax bmin bmax).
Notation rows := (pl_rows N fpow size tsamp pmin bmin bmax).
Notation pceil := (pl_ceil N fpow tsamp pmin pmax bmin bmax).
Notation shift := (pl_shift N fpow size tsamp pmin pmax bmin bmax).
Notation eval := (pl_eval N fpow size tsamp pmin pmax bmin bmax).
Notation nb := (pl_nb N fpow size tsamp pmin pmax bmin bmax).

Lemma check_F3 : 0 < tsamp /\ 0 < pmin /\ pmin < pmax /\ (2 <= bmin)%nat /\ (bmin <= bmax)%nat /\
  rnd64 (tsamp * INR bmin) <= pmin.
Proof. apply (check_F bld size tsamp pmin pmax bmin bmax); auto. lia. Qed.

Lemma bins_R : 2 <= INR bmin <= INR bmax /\ INR bmax <= 4194304.
Proof.
  destruct check_F3 as (_ & _ & _ & H4 & H5 & _). repeat split.
  - apply (le_INR 2). auto.
  - now apply le_INR.
  - rewrite INR_IZR_INZ. now apply IZR_le.
Qed.

Lemma geo_rel : rel64 (3 / 2) geo ((INR bmax + 1) / INR bmin).
Proof.
  destruct check_F3 as (_ & _ & _ & H4 & H5 & _). destruct bins_R as [B1 B2].
  unfold pl_geo. cbn [numF opsF n_dbl o_ofZ o_mul o_div o_add]. rewrite <- !INR_IZR_INZ.
  rewrite (rnd64_id (INR bmin)) by (apply F64_nat; lia).
  rewrite (rnd64_id (INR bmax)) by (apply F64_nat; lia).
  rewrite (rnd64_id 1) by (apply (F64_int 1); lia).
  rewrite <- S_INR. rewrite (rnd64_id (INR (S bmax))) by (apply F64_nat; lia). rewrite S_INR.
  assert (1 <= (INR bmax + 1) / INR bmin).
  { apply Rmult_le_reg_r with (INR bmin); [lra|]. unfold Rdiv. rewrite Rmult_assoc, Rinv_l by lra. lra. }
  apply (rel64_weak (0 + 1 + / 10)); [lra|lra|]. apply rel64_rnd; [lra| |apply rel64_exact; lra].
  apply Rle_trans with (bpow radix2 0); [apply bpow_le; lia|]. cbn. lra.
Qed.

Lemma geo_range : 1 + / 2 ^ 30 <= geo <= 2 ^ 63.
Proof.
  destruct bins_R as [B1 B2]. pose proof geo_rel as G. apply rel64_bounds in G.
  assert (E30 : / 2 ^ 30 = / 1073741824) by (f_equal; rewrite pow_IZR; reflexivity).
  assert (E63 : 2 ^ 63 = 9223372036854775808) by (rewrite pow_IZR; reflexivity).
  set (x := (INR bmax + 1) / INR bmin) in *.
  assert (X1 : 1 + / 8388608 <= x).
  { unfold x. apply Rmult_le_reg_r with (INR bmin); [lra|]. unfold Rdiv. rewrite Rmult_assoc, Rinv_l by lra. lra. }
  assert (X2 : x <= 4194305).
  { unfold x. apply Rmult_le_reg_r with (INR bmin); [lra|]. unfold Rdiv. rewrite Rmult_assoc, Rinv_l by lra. lra. }
  rewrite E30, E63. assert (u64 * x <= u64 * 4194305) by (apply Rmult_le_compat_l; [unfold u64|]; lra).
  unfold u64 in *. lra.
Qed.

Lemma ratio_range : 1 + / 2 ^ 40 <= pmax / pmin <= 2 ^ 63.
Proof.
  destruct check_F3 as (H1 & H2 & H3 & H4 & H5 & H6). split.
  - apply Rmult_le_reg_r with pmin; auto. unfold Rdiv. rewrite Rmult_assoc, Rinv_l by lra. lra.
  - apply Rle_trans with (2 := Hpt). apply Rmult_le_compat_l; [lra|]. apply Rinv_le_contravar; auto.
    apply Rle_trans with (2 := H6). rewrite <- (rnd64_id tsamp Fts) at 1. apply rnd64_le.
    destruct bins_R. nra.
Qed.

Lemma cyc_F : (1 <= cyc < 2 ^ 64)%Z /\
  geo ^ (cycles - 1) <= pmax / pmin * (1 + 2400 * u64) /\ pmax / pmin * (1 - 1200 * u64) <= geo ^ cycles.
Proof.
  pose proof (cycles_F flog (pmax / pmin) geo Hlog ratio_range geo_range) as C. exact C.
Qed.

(** the factors *)
Lemma f_rel i : (i < cycles)%nat -> rel64 15 (f_ i) (pmin / (tsamp * INR bmin) * geo ^ i).
Proof.
  intros Hi. destruct check_F3 as (H1 & H2 & H3 & H4 & H5 & H6). destruct bins_R as [B1 B2].
  destruct cyc_F as (_ & C2 & _). pose proof geo_range as G. pose proof ratio_range as Q.
  assert (E63 : 2 ^ 63 = 9223372036854775808) by (rewrite pow_IZR; reflexivity).
  assert (Gi : 1 <= geo ^ i) by (apply pow_R1_Rle; destruct G; assert (0 < / 2 ^ 30) by (apply Rinv_0_lt_compat, pow_lt; lra); lra).
  assert (Gi2 : geo ^ i <= 2 ^ 1000).
  { apply Rle_trans with (geo ^ (cycles - 1)).
    - apply Rle_pow; [|lia]. assert (0 < / 2 ^ 30) by (apply Rinv_0_lt_compat, pow_lt; lra). lra.
    - apply Rle_trans with (1 := C2). apply Rle_trans with (2 ^ 63 * 2).
      + assert (0 < / 2 ^ 40) by (apply Rinv_0_lt_compat, pow_lt; lra).
        apply Rmult_le_compat; unfold u64; lra.
      + rewrite Rmult_comm. change (2 * 2 ^ 63) with (2 ^ 64). apply Rle_pow; [lra|lia]. }
  assert (Pw : rel64 8 (fpow geo i) (geo ^ i)).
  { pose proof (Apow geo i) as A. rewrite U50 in A. apply A; auto.
    assert (0 < / 2 ^ 30) by (apply Rinv_0_lt_compat, pow_lt; lra). lra. }
  assert (Tb : tsamp <= tsamp * INR bmin) by nra.
  assert (T0 : rel64 (0 + 1 + / 10) (rnd64 (tsamp * INR bmin)) (tsamp * INR bmin)).
  { apply rel64_rnd; [lra|lra|apply rel64_exact; lra]. }
  pose proof (rel64_div 0 pmin pmin (0 + 1 + / 10) _ (tsamp * INR bmin) ltac:(lra) ltac:(lra) H2 ltac:(lra) (rel64_exact pmin ltac:(lra)) T0) as D.
  assert (X1 : / 2 <= pmin / (tsamp * INR bmin)).
  { apply Rmult_le_reg_r with (tsamp * INR bmin); [lra|]. unfold Rdiv. rewrite Rmult_assoc, Rinv_l by lra.
    apply rel64_bounds in T0. assert (tsamp * INR bmin * u64 <= tsamp * INR bmin * / 10).
    { apply Rmult_le_compat_l; [lra|unfold u64; lra]. } lra. }
  assert (Bh : bpow radix2 (-1000) <= / 2).
  { apply Rle_trans with (bpow radix2 (-1)); [apply bpow_le; lia|cbn; lra]. }
  apply rel64_rnd in D; [|lra|lra].
  assert (Ei : pl_ini N tsamp pmin bmin = rnd64 (pmin / rnd64 (tsamp * INR bmin))).
  { apply (iniF bld size tsamp pmin pmax bmin bmax); auto. lia. }
  rewrite <- Ei in D.
  apply (rel64_weak _ 4) in D; [|lra|lra].
  pose proof (rel64_mul 4 _ (pmin / (tsamp * INR bmin)) 8 _ (geo ^ i) ltac:(lra) ltac:(lra) ltac:(lra) ltac:(lra) D Pw) as M.
  rewrite f_F. apply rel64_rnd in M; [|lra|].
  - apply (rel64_weak) with (3 := M); [lra|]. apply Rmult_le_pos; lra.
  - apply Rle_trans with (1 := Bh). nra.
Qed.

Lemma f_valid i : (i < cycles)%nat -> f_ i <= INR size.
Proof.
  intros Hi. destruct check_F3 as (H1 & H2 & H3 & H4 & H5 & H6). destruct bins_R as [B1 B2].
  destruct cyc_F as (_ & C2 & _). pose proof (f_rel i Hi) as F. apply rel64_bounds in F.
  apply Rle_trans with (1 := proj2 F).
  assert (P0 : 0 < pmin / (tsamp * INR bmin)) by (apply Rdiv_lt_0_compat; [lra|nra]).
  assert (Gi : geo ^ i <= pmax / pmin * 2).
  { apply Rle_trans with (geo ^ (cycles - 1)).
    - pose proof geo_range. apply Rle_pow; [|lia]. assert (0 < / 2 ^ 30) by (apply Rinv_0_lt_compat, pow_lt; lra). lra.
    - apply Rle_trans with (1 := C2). apply Rmult_le_compat_l; [|unfold u64; lra].
      left. apply Rdiv_lt_0_compat; lra. }
  assert (G0 : 0 <= geo ^ i).
  { pose proof geo_range. apply pow_le. assert (0 < / 2 ^ 30) by (apply Rinv_0_lt_compat, pow_lt; lra). lra. }
  apply Rle_trans with (pmin / (tsamp * INR bmin) * (pmax / pmin * 2) * 2).
  - apply Rmult_le_compat; [|unfold u64; lra| |unfold u64; lra].
    + apply Rmult_le_pos; lra.
    + apply Rmult_le_compat_l; lra.
  - replace (pmin / (tsamp * INR bmin) * (pmax / pmin * 2) * 2) with (2 * pmax * (2 / (tsamp * INR bmin))) by (field; lra).
    apply Rle_trans with (tsamp * INR size * (2 / (tsamp * INR bmin))).
    + apply Rmult_le_compat_r; auto. left. apply Rdiv_lt_0_compat; [lra|nra].
    + replace (tsamp * INR size * (2 / (tsamp * INR bmin))) with (INR size * (2 / INR bmin)) by (field; lra).
      rewrite <- (Rmult_1_r (INR size)) at 2. apply Rmult_le_compat_l; [apply pos_INR|].
      apply Rmult_le_reg_r with (INR bmin); [lra|]. unfold Rdiv. rewrite Rmult_assoc, Rinv_l by lra. lra.
Qed.

(** ** the trial next to a period *)
Lemma trial_F (period : R) : pmin <= period <= pmax * (1 - / 2 ^ 40) ->
  exists i j s : nat, (i < cycles)%nat /\ (j < nb i)%nat /\
    let b := (bmin + j)%nat in
    (s < eval i b)%nat /\ (s + 1 < rows i b)%nat /\
    INR s - / 4 <= drift (f_ i) tsamp b (rows i b) (/ period) <= INR s + 1 + / 4.
Proof.
  intros HP. destruct check_F3 as (H1 & H2 & H3 & H4 & H5 & H6). destruct bins_R as [B1 B2].
  destruct cyc_F as ([C0 _] & C1 & C2).
  assert (E40 : / 2 ^ 40 = 8192 * u64).
  { unfold u64. replace (2 ^ 40) with 1099511627776 by (rewrite pow_IZR; reflexivity). lra. }
  rewrite E40 in HP. pose proof u64_pos as U0.
  assert (U1 : u64 <= / 1000000000000) by (unfold u64; lra).
  assert (UU : u64 * u64 <= / 1000000000000 * u64) by (apply Rmult_le_compat_r; lra).
  assert (P0 : 0 < period) by lra.
  pose proof geo_rel as GR. apply rel64_bounds in GR. pose proof geo_range as GG.
  assert (G1 : 1 < geo) by (assert (0 < / 2 ^ 30) by (apply Rinv_0_lt_compat, pow_lt; lra); lra).
  destruct (last_below (fun i => pmin * geo ^ i) cycles period) as (i & Hi & Hle & Hnext).
  { unfold pl_cycles. lia. }
  { cbn [pow]. lra. }
  cbv beta in Hle, Hnext.
  assert (Gi : 0 < geo ^ i) by (apply pow_lt; lra).
  assert (Hup : period <= pmin * (geo * geo ^ i)).
  { change (geo * geo ^ i) with (geo ^ S i). rewrite <- Nat.add_1_r.
    destruct (Nat.lt_ge_cases (i + 1) cycles) as [L|L]; [left; auto|].
    replace (i + 1)%nat with cycles by lia.
    apply Rle_trans with (pmin * (pmax / pmin * (1 - 1200 * u64))).
    - replace (pmin * (pmax / pmin * (1 - 1200 * u64))) with (pmax * (1 - 1200 * u64)) by (field; lra).
      apply Rle_trans with (1 := proj2 HP). apply Rmult_le_compat_l; lra.
    - apply Rmult_le_compat_l; lra. }
  assert (F1 : 1 <= f_ i) by (apply (f_ge1F bld fpow size tsamp pmin pmax bmin bmax); auto; lia).
  pose proof (f_rel i Hi) as FR.
  set (f := f_ i) in *.
  assert (Pft : 0 < f * tsamp) by (apply Rmult_lt_0_compat; lra).
  (* the number of bins of the period *)
  set (F := pmin / (tsamp * INR bmin) * geo ^ i) in *.
  assert (F0 : 0 < F).
  { unfold F. apply Rmult_lt_0_compat; auto. apply Rdiv_lt_0_compat; [lra|]. apply Rmult_lt_0_compat; lra. }
  set (x := period / (f * tsamp)).
  set (X := period / (F * tsamp)).
  assert (XR : rel64 (0 + 15 + / 10) x X).
  { pose proof (rel64_div 0 period period 15 f F ltac:(lra) ltac:(lra) P0 F0 (rel64_exact period ltac:(lra)) FR) as D.
    apply (rel64_scale _ _ _ (/ tsamp)) in D; [|left; now apply Rinv_0_lt_compat].
    replace (period / f * / tsamp) with x in D by (unfold x; field; lra).
    replace (period / F * / tsamp) with X in D by (unfold X; field; lra). exact D. }
  apply rel64_bounds in XR.
  assert (EX : X = period * INR bmin / (pmin * geo ^ i)).
  { unfold X, F. field. repeat split; lra. }
  assert (X1 : INR bmin <= X).
  { rewrite EX. apply Rmult_le_reg_r with (pmin * geo ^ i); [apply Rmult_lt_0_compat; lra|].
    unfold Rdiv. rewrite (Rmult_assoc _ (/ _)), Rinv_l by (apply Rgt_not_eq, Rmult_lt_0_compat; lra).
    rewrite Rmult_1_r, Rmult_comm. apply Rmult_le_compat_r; lra. }
  assert (X2 : X <= (INR bmax + 1) * (1 + 3 / 2 * u64)).
  { apply Rle_trans with (INR bmin * geo).
    - rewrite EX. apply Rmult_le_reg_r with (pmin * geo ^ i); [apply Rmult_lt_0_compat; lra|].
      unfold Rdiv. rewrite (Rmult_assoc _ (/ _)), Rinv_l by (apply Rgt_not_eq, Rmult_lt_0_compat; lra).
      rewrite Rmult_1_r.
      replace (INR bmin * geo * (pmin * geo ^ i)) with (pmin * (geo * geo ^ i) * INR bmin) by ring.
      apply Rmult_le_compat_r; lra.
    - destruct GR as [_ GR]. apply Rmult_le_compat_l with (r := INR bmin) in GR; [|lra].
      apply Rle_trans with (1 := GR). right. field. lra. }
  assert (x1 : INR bmin * (1 - 16 * u64) <= x).
  { apply Rle_trans with (2 := proj1 XR). apply Rmult_le_compat; lra. }
  assert (x2 : x <= (INR bmax + 1) * (1 + 18 * u64)).
  { apply Rle_trans with (1 := proj2 XR).
    apply Rle_trans with ((INR bmax + 1) * (1 + 3 / 2 * u64) * (1 + (0 + 15 + / 10) * u64)).
    - apply Rmult_le_compat_r; lra.
    - rewrite Rmult_assoc. apply Rmult_le_compat_l; lra. }
  assert (x0 : 1 <= x).
  { apply Rle_trans with (2 := x1). apply Rle_trans with (2 * / 2); [lra|]. apply Rmult_le_compat; lra. }
  destruct (choose_bins bmin bmax x) as (b & Hb & Hb1 & Hb2); [lia|lra|].
  assert (b2 : 2 <= INR b) by (apply (le_INR 2); lia).
  assert (b3 : INR b <= 4194304) by (apply Rle_trans with (2 := B2), le_INR; lia).
  (* the limits of the plan *)
  assert (HPm : period * (1 + 8192 * u64) <= pmax).
  { apply Rle_trans with (pmax * (1 - 8192 * u64) * (1 + 8192 * u64)); [apply Rmult_le_compat_r; lra|].
    rewrite Rmult_assoc. rewrite <- (Rmult_1_r pmax) at 2. apply Rmult_le_compat_l; [lra|].
    assert (0 <= u64 * u64) by (apply Rmult_le_pos; lra). lra. }
  assert (Xm : x * (1 + 8192 * u64) <= pmax / (f * tsamp)).
  { unfold x. replace (period / (f * tsamp) * (1 + 8192 * u64)) with (period * (1 + 8192 * u64) * / (f * tsamp)) by (field; lra).
    apply Rmult_le_compat_r; auto. left. now apply Rinv_0_lt_compat. }
  assert (xu : 0 <= x * u64) by (apply Rmult_le_pos; lra).
  assert (Bh : bpow radix2 (-1000) <= / 2).
  { apply Rle_trans with (bpow radix2 (-1)); [apply bpow_le; lia|cbn; lra]. }
  assert (Hpms : x * (1 + 8000 * u64) <= pms i).
  { assert (T0 : rel64 (0 + 1 + / 10) (rnd64 (f * tsamp)) (f * tsamp)).
    { apply rel64_rnd; [lra| |apply rel64_exact; lra]. apply Rle_trans with (1 := Ht). rewrite <- (Rmult_1_l tsamp) at 1. apply Rmult_le_compat_r; lra. }
    pose proof (rel64_div 0 pmax pmax (0 + 1 + / 10) _ (f * tsamp) ltac:(lra) ltac:(lra) ltac:(lra) Pft
      (rel64_exact pmax ltac:(lra)) T0) as D.
    apply rel64_rnd in D; [|lra|lra]. apply rel64_bounds in D.
    change (rnd64 (pmax / rnd64 (f * tsamp))) with (pms i) in D.
    apply Rle_trans with (2 := proj1 D).
    apply Rle_trans with (x * (1 + 8192 * u64) * (1 - (0 + (0 + 1 + / 10) + / 10 + 1 + / 10) * u64)).
    - rewrite Rmult_assoc. apply Rmult_le_compat_l; lra.
    - apply Rmult_le_compat_r; lra. }
  assert (Hsf : 2 * x * (1 + 8000 * u64) <= rnd64 (INR size / f)).
  { assert (S1 : 2 * (x * (1 + 8192 * u64)) <= INR size / f).
    { apply Rle_trans with (2 * (pmax / (f * tsamp))); [lra|].
      replace (2 * (pmax / (f * tsamp))) with (2 * pmax * / (f * tsamp)) by (field; lra).
      replace (INR size / f) with (tsamp * INR size * / (f * tsamp)) by (field; lra).
      apply Rmult_le_compat_r; auto. left. now apply Rinv_0_lt_compat. }
    assert (D : rel64 (0 + 1 + / 10) (rnd64 (INR size / f)) (INR size / f)).
    { apply rel64_rnd; [lra|lra|apply rel64_exact; lra]. }
    apply rel64_bounds in D. apply Rle_trans with (2 := proj1 D).
    apply Rle_trans with (2 * (x * (1 + 8192 * u64)) * (1 - (0 + 1 + / 10) * u64)).
    - replace (2 * (x * (1 + 8192 * u64)) * (1 - (0 + 1 + / 10) * u64))
        with (2 * x * ((1 + 8192 * u64) * (1 - (0 + 1 + / 10) * u64))) by ring.
      apply Rmult_le_compat_l; lra.
    - apply Rmult_le_compat_r; lra. }
  assert (Hn : (2 * b <= n_ i)%nat).
  { rewrite (nF bld fpow size tsamp pmin bmin bmax) by lia. fold f. apply to_nat_floor_ge; [lra|].
    rewrite mult_INR. replace (INR 2) with 2 by (cbn; lra). lra. }
  assert (Hbs : (b <= bstop i)%nat).
  { unfold pl_bstop. apply Nat.min_glb; [lia|]. apply Nat.min_glb; [lia|].
    cbn [numF n_trunc]. rewrite Ztrunc_nonneg by lra. apply to_nat_floor_ge; lra. }
  set (m := rows i b).
  assert (Hm : (2 <= m)%nat) by (unfold m, pl_rows; apply Nat.div_le_lower_bound; lia).
  assert (Hmb : (m * b <= n_ i)%nat) by (apply (rows_mul bld fpow size tsamp pmin bmin bmax); lia).
  assert (Hnl : (n_ i <= size)%nat) by (apply (n_leF bld fpow size tsamp pmin pmax bmin bmax); auto; lia).
  assert (m2 : 2 <= INR m) by (apply (le_INR 2); auto).
  set (M := INR b * (INR m - 1)).
  assert (M1 : 2 <= M <= 33554432).
  { unfold M. split.
    - apply Rle_trans with (2 * 1); [lra|]. apply Rmult_le_compat; lra.
    - apply Rle_trans with (INR (m * b)).
    + rewrite mult_INR, Rmult_comm. apply Rmult_le_compat_r; lra.
    + rewrite INR_IZR_INZ. apply IZR_le. lia. }
  set (z := INR b / x).
  assert (Ez : z * x = INR b) by (unfold z; field; lra).
  assert (z1 : z <= 1 + 17 * u64).
  { apply Rmult_le_reg_r with x; [lra|]. rewrite Ez. lra. }
  assert (z2 : INR b <= z * ((INR b + 1) * (1 + 18 * u64))).
  { rewrite <- Ez at 1. apply Rmult_le_compat_l; auto. unfold z. left. apply Rdiv_lt_0_compat; lra. }
  assert (z0 : 0 < z) by (unfold z; apply Rdiv_lt_0_compat; lra).
  assert (ED : drift f tsamp b m (/ period) = (1 - z) * M).
  { unfold drift, z, M, x. field. lra. }
  assert (S1 : - / 4 <= (1 - z) * M).
  { assert ((- (17 * u64)) * M <= (1 - z) * M) by (apply Rmult_le_compat_r; lra).
    assert (u64 * M <= u64 * 33554432) by (apply Rmult_le_compat_l; lra). unfold u64 in *. lra. }
  assert (S2 : (1 - z) * M <= INR m - 1 + / 4).
  { assert (Z1 : (1 - z) * (INR b + 1) <= 1 + z * (18 * u64) * (INR b + 1)) by lra.
    assert (Z3 : z * (18 * u64) * (INR b + 1) <= 19 * u64 * (INR b + 1)).
    { apply Rmult_le_compat_r; [lra|]. assert (z * u64 <= (1 + 17 * u64) * u64) by (apply Rmult_le_compat_r; lra). lra. }
    assert (Z4 : (1 - z) * INR b <= 1 + 19 * u64 * (INR b + 1)).
    { destruct (Rle_lt_dec z 1) as [L|L]; [lra|].
      assert (0 <= (z - 1) * INR b) by (apply Rmult_le_pos; lra). assert (0 <= u64 * (INR b + 1)) by (apply Rmult_le_pos; lra). lra. }
    replace ((1 - z) * M) with ((1 - z) * INR b * (INR m - 1)) by (unfold M; ring).
    apply Rle_trans with ((1 + 19 * u64 * (INR b + 1)) * (INR m - 1)); [apply Rmult_le_compat_r; lra|].
    assert (u64 * ((INR b + 1) * (INR m - 1)) <= u64 * 67108864); [|unfold u64 in *; lra].
    apply Rmult_le_compat_l; [lra|]. apply Rle_trans with (2 * INR b * (INR m - 1)); [apply Rmult_le_compat_r; lra|].
    rewrite Rmult_assoc. fold M. lra. }
  (* the number of rows that are evaluated *)
  set (P := pceil i b).
  assert (HPc : INR b * (1 + 5000 * u64) <= P /\ x <= P * (1 + 18 * u64)).
  { unfold P, pl_ceil, min_dbl. cbn [numF opsF n_ltb n_dbl o_add o_ofZ].
    rewrite <- INR_IZR_INZ. rewrite (rnd64_id (INR b)) by (apply F64_nat; lia).
    rewrite (rnd64_id 1) by (apply (F64_int 1); lia). rewrite <- S_INR.
    rewrite (rnd64_id (INR (S b))) by (apply F64_nat; lia). rewrite S_INR.
    destruct (Rlt_bool _ _).
    - split; [|auto]. assert (u64 * INR b <= u64 * 4194304) by (apply Rmult_le_compat_l; lra). unfold u64 in *. lra.
    - split.
      + apply Rle_trans with (2 := Hpms). apply Rle_trans with (x * (1 + 17 * u64) * (1 + 5000 * u64)).
        * apply Rmult_le_compat_r; lra.
        * rewrite Rmult_assoc. apply Rmult_le_compat_l; lra.
      + assert (0 <= pms i * u64) by (apply Rmult_le_pos; lra). lra. }
  destruct HPc as [P1 P2].
  assert (Pp : 0 < P). { assert (0 <= u64 * INR b) by (apply Rmult_le_pos; lra). lra. }
  set (zP := INR b / P).
  assert (EzP : zP * P = INR b) by (unfold zP; field; lra).
  assert (zP0 : 0 < zP) by (unfold zP; apply Rdiv_lt_0_compat; lra).
  assert (zP1 : zP <= 1 - 4000 * u64).
  { apply Rmult_le_reg_r with P; auto. rewrite EzP.
    apply Rle_trans with (INR b * ((1 + 5000 * u64) * (1 - 4000 * u64))).
    - rewrite <- (Rmult_1_r (INR b)) at 1. apply Rmult_le_compat_l; lra.
    - rewrite <- Rmult_assoc, (Rmult_comm (1 - _) P). apply Rmult_le_compat_r; lra. }
  assert (zP2 : zP <= z + 20 * u64).
  { assert (zP <= z * (1 + 18 * u64)).
    { apply Rmult_le_reg_r with P; auto. rewrite EzP, <- Ez. 
      replace (z * (1 + 18 * u64) * P) with (z * (P * (1 + 18 * u64))) by ring. apply Rmult_le_compat_l; lra. }
    assert (z * u64 <= (1 + 17 * u64) * u64) by (apply Rmult_le_compat_r; lra). lra. }
  pose proof (rnd64_abs zP 1 ltac:(lra) ltac:(rewrite Rabs_pos_eq; lra)) as A1. apply Rabs_le_inv in A1.
  set (zh := rnd64 zP) in *.
  assert (zh0 : 0 <= zh) by (apply rnd_pos; lra).
  pose proof (rnd64_abs (1 - zh) 1 ltac:(lra) ltac:(apply Rabs_le; lra)) as A2. apply Rabs_le_inv in A2.
  set (q := rnd64 (1 - zh)) in *.
  assert (q1 : 3000 * u64 <= q <= 2) by lra.
  assert (Mq : 6000 * u64 <= M * q).
  { apply Rle_trans with (2 * (3000 * u64)); [lra|]. apply Rmult_le_compat; lra. }
  assert (D : rel64 (0 + 1 + / 10) (rnd64 (M * q)) (M * q)).
  { apply rel64_rnd; [lra| |apply rel64_exact; lra].
    apply Rle_trans with (2 := Mq). apply Rle_trans with (bpow radix2 (-53)); [apply bpow_le; lia|].
    change (bpow radix2 (-53)) with (/ 9007199254740992). unfold u64. lra. }
  apply rel64_bounds in D.
  assert (Esh : shift i b = Zceil (rnd64 (M * q))).
  { unfold pl_shift. fold m P. cbn [numF opsF n_ceil n_dbl o_mul o_sub o_div o_ofZ].
    rewrite <- !INR_IZR_INZ. rewrite !(rnd64_id (INR b)) by (apply F64_nat; lia).
    rewrite (rnd64_id (INR m)) by (apply F64_nat; nia).
    rewrite !(rnd64_id 1) by (apply (F64_int 1); lia).
    fold zP zh q. replace (INR m - 1) with (INR (m - 1)) by (rewrite minus_INR by lia; cbn; lra).
    rewrite (rnd64_id (INR (m - 1))) by (apply F64_nat; nia).
    rewrite <- mult_INR. rewrite (rnd64_id (INR (b * (m - 1)))) by (apply F64_nat; nia).
    unfold M. rewrite mult_INR, minus_INR by lia. reflexivity. }
  assert (Sh1 : (1 <= shift i b)%Z).
  { assert (0 < shift i b)%Z; [|lia]. apply lt_IZR. rewrite Esh. apply Rlt_le_trans with (2 := Zceil_ub _).
    apply Rlt_le_trans with (2 := proj1 D). apply Rmult_lt_0_compat; lra. }
  assert (Sh2 : (1 - z) * M <= IZR (shift i b) + / 4).
  { rewrite Esh. pose proof (Zceil_ub (rnd64 (M * q))) as CU.
    assert (Q2 : 1 - z - 24 * u64 <= q) by lra.
    apply Rmult_le_compat_l with (r := M) in Q2; [|lra].
    assert (M * q * u64 <= 33554432 * 2 * u64).
    { apply Rmult_le_compat_r; [lra|]. apply Rmult_le_compat; lra. }
    assert (M * u64 <= 33554432 * u64) by (apply Rmult_le_compat_r; lra).
    unfold u64 in *. lra. }
  assert (Ev : eval i b = Nat.min m (Z.to_nat (shift i b))) by reflexivity.
  destruct (choose_shift ((1 - z) * M) m (eval i b)) as (s & Hs1 & Hs2 & Hs3); auto.
  { rewrite Ev. lia. }
  { rewrite Ev. destruct (Nat.min_spec m (Z.to_nat (shift i b))) as [[_ ->]|[_ ->]]; [lra|].
    rewrite INR_IZR_INZ, Z2Nat.id by lia. exact Sh2. }
  exists i, (b - bmin)%nat, s. split; [auto|]. split; [unfold pl_nb; lia|].
  cbv zeta. replace (bmin + (b - bmin))%nat with b by lia. fold m f.
  split; [exact Hs1|]. split; [exact Hs2|]. rewrite ED. exact Hs3.
Qed.
End PlanF3.
