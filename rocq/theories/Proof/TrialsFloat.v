(** The periods of the trials in floating point: their range and order. *)
From Coq Require Import List Arith ZArith Bool Lia Reals Lra Psatz.
From Flocq Require Import Core.
From Verif Require Import Base.Result Base.Num Model.Downsample Model.Periodogram Spec.Libm
  Proof.Index Proof.Downsample Proof.Periodogram Proof.PeriodogramR Proof.SearchFloat Proof.Detect Proof.CoverageFloat
  Props.PeriodogramFloat Props.PeriodogramRounding Props.Detect.
Import ListNotations.
Local Open Scope R_scope.

Section TrialsF.
Context (bld : build) (flog : R -> R) (fpow : R -> nat -> R).
Context (size : nat) (tsamp pmin pmax : R) (bmin bmax : nat).
Notation N := (numF bld).
Context (Hlog : accurate_log flog) (Hpow : good_pow fpow) (Apow : accurate_pow fpow).
Context (Fts : F64 tsamp).
Context (Hsize : (Z.of_nat size <= 33554432)%Z) (Hbb : (Z.of_nat bmax <= 4194304)%Z).
Context (Hrows : (Z.of_nat (size / bmin) <= 4194304)%Z).
Context (Hcheck : check_arguments N tsamp pmin pmax bmin bmax = Ok tt).
Context (Hpt : pmax / tsamp <= 2 ^ 63) (Ht : bpow radix2 (-1000) <= tsamp).
Context (Hlong : 2 * pmax <= tsamp * INR size).
Context (Hwide : pmin * (1 + / 2 ^ 40) <= pmax).

Notation geo := (pl_geo N bmin bmax).
Notation cycles := (pl_cycles N flog pmin pmax bmin bmax).
Notation f_ := (pl_f N fpow tsamp pmin bmin bmax).
Notation tau := (pl_tau N fpow tsamp pmin bmin bmax).
Notation pms := (pl_pms N fpow tsamp pmin pmax bmin bmax).
Notation n_ := (pl_n N fpow size tsamp pmin bmin bmax).
Notation bstop := (pl_bstop N fpow size tsamp pmin pmax bmin bmax).
Notation rows := (pl_rows N fpow size tsamp pmin bmin bmax).
Notation pceil := (pl_ceil N fpow tsamp pmin pmax bmin bmax).
Notation shift := (pl_shift N fpow size tsamp pmin pmax bmin bmax).
Notation eval := (pl_eval N fpow size tsamp pmin pmax bmin bmax).
Notation nb := (pl_nb N fpow size tsamp pmin pmax bmin bmax).
Notation period := (pl_period N fpow size tsamp pmin bmin bmax).

Lemma pceil_le i b : (b <= bmax)%nat -> pceil i b <= pms i /\ pceil i b <= INR b + 1.
Proof.
  intros Hb. unfold pl_ceil, min_dbl. cbn [numF opsF n_ltb n_dbl o_add o_ofZ].
  rewrite <- INR_IZR_INZ. rewrite (rnd64_id (INR b)) by (apply F64_nat; lia).
  rewrite (rnd64_id 1) by (apply (F64_int 1); lia). rewrite <- S_INR.
  rewrite (rnd64_id (INR (S b))) by (apply F64_nat; lia). rewrite S_INR.
  destruct (Rlt_bool_spec (INR b + 1) (pms i)); lra.
Qed.

Lemma pms_le i : 1 <= pms i -> pms i * (f_ i * tsamp) <= pmax * (1 + 3 * u64).
Proof.
  intros HP. destruct (check_F3 bld size tsamp pmin pmax bmin bmax) as (H1 & H2 & H3 & H4 & H5 & H6); auto.
  assert (F1 : 1 <= f_ i) by (apply (f_ge1F bld fpow size tsamp pmin pmax bmin bmax); auto; lia).
  unfold pl_pms, pl_tau in *. set (f := f_ i) in *. cbn [numF opsF n_dbl o_mul o_div] in *.
  assert (Pft : 0 < f * tsamp) by (apply Rmult_lt_0_compat; lra).
  pose proof u64_pos as U0.
  assert (U1 : u64 <= / 1000000000000) by (unfold u64; lra).
  assert (T0 : rel64 (0 + 1 + / 10) (rnd64 (f * tsamp)) (f * tsamp)).
  { apply rel64_rnd; [lra| |apply rel64_exact; lra]. apply Rle_trans with (1 := Ht). rewrite <- (Rmult_1_l tsamp) at 1. apply Rmult_le_compat_r; lra. }
  pose proof (rel64_div 0 pmax pmax (0 + 1 + / 10) _ (f * tsamp) ltac:(lra) ltac:(lra) ltac:(lra) Pft
    (rel64_exact pmax ltac:(lra)) T0) as D.
  set (y := pmax / rnd64 (f * tsamp)) in *.
  assert (EB : pmax / (f * tsamp) * (f * tsamp) = pmax) by (field; lra).
  assert (B : bpow radix2 (-1000) <= pmax / (f * tsamp)).
  { destruct (Rle_lt_dec (/ 2) y) as [Y|Y].
    - apply rel64_bounds in D. apply Rle_trans with (/ 4).
      + apply Rle_trans with (bpow radix2 (-2)); [apply bpow_le; lia|cbn; lra].
      + set (w := pmax / (f * tsamp)) in *. assert (0 <= w) by (left; apply Rdiv_lt_0_compat; lra).
        assert (w * (1 + (0 + (0 + 1 + / 10) + / 10) * u64) <= w * 2) by (apply Rmult_le_compat_l; lra). lra.
    - exfalso. assert (rnd64 y <= / 2); [|lra].
      rewrite <- (rnd64_id (/ 2)).
      + apply rnd64_le. lra.
      + replace (/ 2) with (F2R (Float radix2 1 (-1))) by (unfold F2R; cbn; lra).
        apply generic_format_FLT. exists (Float radix2 1 (-1)); cbn; auto; lia. }
  apply rel64_rnd in D; [|lra|exact B]. apply rel64_bounds in D. destruct D as [_ D].
  apply Rmult_le_compat_r with (r := f * tsamp) in D; [|lra].
  apply Rle_trans with (1 := D).
  replace (pmax / (f * tsamp) * (1 + (0 + (0 + 1 + / 10) + / 10 + 1 + / 10) * u64) * (f * tsamp))
    with (pmax / (f * tsamp) * (f * tsamp) * (1 + (0 + (0 + 1 + / 10) + / 10 + 1 + / 10) * u64)) by ring.
  rewrite EB. apply Rmult_le_compat_l; lra.
Qed.

(** one trial *)
Lemma trial_bounds i j s : (i < cycles)%nat -> (j < nb i)%nat -> (s < eval i (bmin + j))%nat ->
  let b := (bmin + j)%nat in let f := f_ i in let m := rows i b in let Q := f * tsamp * INR b ^ 2 / (INR b - INR s / (INR m - 1)) in
  1 <= f /\ (bmin <= b <= bmax)%nat /\ (2 <= m)%nat /\ (s < m)%nat /\ (m * b <= size)%nat /\
  rel64 16 (period i b s) Q /\ f * tsamp * INR b <= Q /\ Q <= f * tsamp * pceil i b * (1 + 10 * u64) /\
  INR b <= pceil i b.
Proof.
  intros Hi Hj Hs b f m Q. fold b in Hs.
  destruct (check_F3 bld size tsamp pmin pmax bmin bmax) as (H1 & H2 & H3 & H4 & H5 & H6); auto.
  assert (Hbi : (bmin <= b <= bstop i)%nat) by (unfold pl_nb in Hj; unfold b; lia).
  assert (F1 : 1 <= f) by (apply (f_ge1F bld fpow size tsamp pmin pmax bmin bmax); auto; lia).
  assert (NL : (n_ i <= size)%nat) by (eapply n_leF with (pmax := pmax); eauto; lia).
  assert (RF : (Z.of_nat m <= 4194304)%Z) by (apply (rowsF bld fpow size tsamp pmin pmax bmin bmax) with (data := repeat 0 size); auto; try lia; apply repeat_length).
  destruct (bstopF bld fpow size tsamp pmin pmax bmin bmax Hpow Fts ltac:(lia) Hcheck Hpt i b) as (Hbm & Hbn & _); [lia|].
  assert (Hm2 : (2 <= m)%nat).
  { apply (rows_two bld fpow size tsamp pmin pmax bmin bmax (repeat 0 size)) with (s := s); auto; apply repeat_length. }
  assert (Hsm : (s < m)%nat) by (unfold pl_eval in Hs; unfold m; lia).
  assert (Hmb : (m * b <= size)%nat).
  { apply Nat.le_trans with (2 := NL). unfold m, pl_rows. rewrite Nat.mul_comm. apply Nat.mul_div_le. lia. }
  assert (PC : INR b <= pceil i b) by (eapply pceilF with (size := size) (pmax := pmax); eauto; lia).
  destruct (pceil_le i b Hbm) as [PC1 PC2].
  split; [exact F1|]. split; [lia|]. split; [exact Hm2|]. split; [exact Hsm|]. split; [exact Hmb|]. split.
  { unfold pl_period, pl_tau. fold f m. cbn [numF opsF n_dbl o_mul o_div o_sub o_ofZ].
    rewrite <- !INR_IZR_INZ. rewrite !(rnd64_id (INR _)) by (apply F64_nat; lia).
    rewrite !(rnd64_id 1) by (apply (F64_int 1); lia).
    apply period_F; auto; lia. }
  assert (b2 : 2 <= INR b) by (apply (le_INR 2); lia).
  assert (m2 : 2 <= INR m) by (apply (le_INR 2); lia).
  assert (s2 : 0 <= INR s <= INR m - 1).
  { split; [apply pos_INR|]. assert (INR s + 1 <= INR m) by (rewrite <- S_INR; apply le_INR; lia). lra. }
  assert (Pft : 0 < f * tsamp) by (apply Rmult_lt_0_compat; lra).
  set (g := INR m - 1) in *. set (r := INR s / g) in *.
  assert (g0 : 1 <= g) by (unfold g; lra). assert (Gm : g = INR m - 1) by reflexivity. clearbody g.
  assert (Eg : r * g = INR s) by (unfold r; field; lra).
  assert (r0 : 0 <= r) by (unfold r, Rdiv; apply Rmult_le_pos; [lra|]; left; apply Rinv_0_lt_compat; lra).
  assert (r1 : r <= 1). { apply Rmult_le_reg_r with g; [lra|]. rewrite Eg. lra. }
  assert (EQ : Q * (INR b - r) = f * tsamp * INR b ^ 2) by (unfold Q; fold r; field; lra).
  split.
  { apply Rmult_le_reg_r with (INR b - r); [lra|]. rewrite EQ.
    replace (f * tsamp * INR b ^ 2) with (f * tsamp * INR b * INR b) by ring.
    apply Rmult_le_compat_l; [apply Rmult_le_pos; lra|lra]. }
  split; [|exact PC].
  pose proof u64_pos as U0.
  assert (U1 : u64 <= / 1000000000000) by (unfold u64; lra).
  assert (UU : u64 * u64 <= / 1000000000000 * u64) by (apply Rmult_le_compat_r; lra).
  set (c := pceil i b) in *. set (z := INR b / c).
  assert (c0 : 0 < c) by lra.
  assert (Ez : z * c = INR b) by (unfold z; field; lra).
  assert (z1 : z <= 1). { apply Rmult_le_reg_r with c; auto. rewrite Ez. lra. }
  assert (z2 : 2 / 3 <= z). { apply Rmult_le_reg_r with c; auto. rewrite Ez. lra. }
  (* the bins shifted by the last trial *)
  assert (K : r <= INR b * (1 - z + 6 * u64)).
  { destruct s as [|s'].
    { replace r with 0 by (unfold r; cbn [INR]; field; lra). apply Rmult_le_pos; lra. }
    set (s := S s') in *.
    pose proof (rnd64_abs z 1 ltac:(lra) ltac:(rewrite Rabs_pos_eq; lra)) as A1. apply Rabs_le_inv in A1.
    set (zh := rnd64 z) in *.
    assert (zh1 : 0 <= zh <= 1) by (split; [apply rnd_pos; lra|apply rnd_le1; lra]).
    pose proof (rnd64_abs (1 - zh) 1 ltac:(lra) ltac:(apply Rabs_le; lra)) as A2. apply Rabs_le_inv in A2.
    set (q := rnd64 (1 - zh)) in *. set (M := INR b * g).
    assert (M0 : 0 <= M) by (unfold M; apply Rmult_le_pos; lra).
    assert (Esh : shift i b = Zceil (rnd64 (M * q))).
    { unfold pl_shift. fold m c. cbn [numF opsF n_ceil n_dbl o_mul o_sub o_div o_ofZ].
      rewrite <- !INR_IZR_INZ. rewrite !(rnd64_id (INR b)) by (apply F64_nat; lia).
      rewrite (rnd64_id (INR m)) by (apply F64_nat; nia).
      rewrite !(rnd64_id 1) by (apply (F64_int 1); lia).
      fold z zh q. replace (INR m - 1) with (INR (m - 1)) by (rewrite minus_INR by lia; cbn; lra).
      rewrite (rnd64_id (INR (m - 1))) by (apply F64_nat; nia).
      rewrite <- mult_INR. rewrite (rnd64_id (INR (b * (m - 1)))) by (apply F64_nat; nia).
      unfold M. rewrite Gm, mult_INR, minus_INR by lia. reflexivity. }
    assert (Y : INR s < rnd64 (M * q)).
    { assert (Z.of_nat s < Zceil (rnd64 (M * q)))%Z as L.
      { rewrite <- Esh. unfold pl_eval in Hs. lia. }
      unfold Zceil in L. apply Rnot_le_lt. intros C.
      assert (- Z.of_nat s <= Zfloor (- rnd64 (M * q)))%Z; [|lia].
      apply Zfloor_lub. rewrite opp_IZR, <- INR_IZR_INZ. lra. }
    assert (s1 : 1 <= INR s) by (apply (le_INR 1); lia).
    assert (MQ : 1 <= M * q).
    { apply Rnot_lt_le. intros C. pose proof (rnd_le1 (M * q) ltac:(lra)). lra. }
    assert (D : rel64 (0 + 1 + / 10) (rnd64 (M * q)) (M * q)).
    { apply rel64_rnd; [lra| |apply rel64_exact; lra].
      apply Rle_trans with (2 := MQ). apply Rle_trans with (bpow radix2 0); [apply bpow_le; lia|cbn; lra]. }
    apply rel64_bounds in D. destruct D as [_ D].
    assert (q2 : q <= 1 - z + 4 * u64) by lra.
    assert (MM : INR s <= M * (1 - z + 6 * u64)).
    { apply Rle_trans with (M * q * (1 + (0 + 1 + / 10) * u64)); [lra|].
      rewrite Rmult_assoc. apply Rmult_le_compat_l; [exact M0|].
      apply Rle_trans with ((1 - z + 4 * u64) * (1 + (0 + 1 + / 10) * u64)); [apply Rmult_le_compat_r; lra|].
      assert (0 <= z * u64) by (apply Rmult_le_pos; lra). lra. }
    apply Rmult_le_reg_r with g; [lra|]. rewrite Eg. unfold M in MM. lra. }
  assert (K2 : INR b * z * (1 - 9 * u64) <= INR b - r).
  { assert (0 <= INR b * ((z - 2 / 3) * (9 * u64))) by (apply Rmult_le_pos; [lra|]; apply Rmult_le_pos; lra). lra. }
  assert (Q0 : 0 < Q). { unfold Q. fold r. apply Rdiv_lt_0_compat; [|lra]. apply Rmult_lt_0_compat; auto. apply pow_lt; lra. }
  assert (K3 : Q * (z * (1 - 9 * u64)) <= f * tsamp * INR b).
  { apply Rmult_le_reg_r with (INR b); [lra|].
    replace (f * tsamp * INR b * INR b) with (f * tsamp * INR b ^ 2) by ring. rewrite <- EQ.
    rewrite (Rmult_assoc Q). apply Rmult_le_compat_l; lra. }
  rewrite <- Ez in K3.
  apply Rmult_le_reg_r with (z * (1 - 9 * u64)); [apply Rmult_lt_0_compat; lra|].
  apply Rle_trans with (1 := K3).
  replace (f * tsamp * c * (1 + 10 * u64) * (z * (1 - 9 * u64))) with (f * tsamp * (z * c) * ((1 + 10 * u64) * (1 - 9 * u64))) by ring.
  rewrite <- (Rmult_1_r (f * tsamp * (z * c))) at 1. apply Rmult_le_compat_l; [|lra].
  apply Rmult_le_pos; [lra|]. rewrite Ez. lra.
Qed.

(** limits of a period *)
Lemma trial_limits i j s : (i < cycles)%nat -> (j < nb i)%nat -> (s < eval i (bmin + j))%nat ->
  let b := (bmin + j)%nat in let P := period i b s in
  f_ i * tsamp * INR b * (1 - 16 * u64) <= P /\ P <= f_ i * tsamp * (INR b + 1) * (1 + 27 * u64) /\
  P <= pmax * (1 + 32 * u64) /\ pmin * geo ^ i * (1 - 32 * u64) <= P /\ P <= pmin * geo ^ (S i) * (1 + 46 * u64).
Proof.
  intros Hi Hj Hs b P.
  destruct (trial_bounds i j s Hi Hj Hs) as (F1 & Hb & Hm & Hsm & Hmb & HR & L & U & C). fold b in F1, Hb, Hm, Hsm, Hmb, HR, L, U, C.
  fold P in HR. set (f := f_ i) in *. set (Q := f * tsamp * INR b ^ 2 / (INR b - INR s / (INR (rows i b) - 1))) in *.
  destruct (check_F3 bld size tsamp pmin pmax bmin bmax) as (H1 & H2 & H3 & H4 & H5 & H6); auto.
  destruct (pceil_le i b ltac:(lia)) as [C1 C2]. set (c := pceil i b) in *.
  pose proof u64_pos as U0.
  assert (U1 : u64 <= / 1000000000000) by (unfold u64; lra).
  assert (UU : u64 * u64 <= / 1000000000000 * u64) by (apply Rmult_le_compat_r; lra).
  assert (UV : 0 <= u64 * u64) by (apply Rmult_le_pos; lra).
  assert (b2 : 2 <= INR b) by (apply (le_INR 2); lia).
  assert (B2 : 2 <= INR bmin) by (apply (le_INR 2); lia).
  assert (bb : INR bmin <= INR b) by (apply le_INR; lia). assert (bx : INR b <= INR bmax) by (apply le_INR; lia).
  assert (Pft : 0 < f * tsamp) by (apply Rmult_lt_0_compat; lra).
  apply rel64_bounds in HR. destruct HR as [R1 R2].
  assert (G0 : f * tsamp * INR b * (1 - 16 * u64) <= P).
  { apply Rle_trans with (2 := R1). apply Rmult_le_compat_r; lra. }
  assert (G1 : P <= f * tsamp * c * (1 + 27 * u64)).
  { apply Rle_trans with (1 := R2). apply Rle_trans with (f * tsamp * c * (1 + 10 * u64) * (1 + 16 * u64)).
    - apply Rmult_le_compat_r; lra.
    - rewrite Rmult_assoc. apply Rmult_le_compat_l; [apply Rmult_le_pos; lra|lra]. }
  assert (G2 : P <= f * tsamp * (INR b + 1) * (1 + 27 * u64)).
  { apply Rle_trans with (1 := G1). apply Rmult_le_compat_r; [lra|]. apply Rmult_le_compat_l; lra. }
  split; [exact G0|]. split; [exact G2|]. split.
  { apply Rle_trans with (1 := G1).
    apply Rle_trans with (pmax * (1 + 3 * u64) * (1 + 27 * u64)).
    - apply Rmult_le_compat_r; [lra|]. apply Rle_trans with (pms i * (f * tsamp)).
      + rewrite Rmult_comm. apply Rmult_le_compat_r; lra.
      + apply pms_le. lra.
    - rewrite Rmult_assoc. apply Rmult_le_compat_l; lra. }
  assert (FR : rel64 15 (f_ i) (pmin / (tsamp * INR bmin) * geo ^ i)) by (eapply f_rel; eauto).
  fold f in FR.
  assert (Gg : 1 <= geo).
  { assert (GG : 1 + / 2 ^ 30 <= geo <= 2 ^ 63) by (eapply (geo_range bld size tsamp pmin pmax); eauto).
    assert (0 < / 2 ^ 30) by (apply Rinv_0_lt_compat, pow_lt; lra). lra. }
  assert (Gi : 0 < geo ^ i) by (apply pow_lt; lra).
  assert (Pg : 0 < pmin * geo ^ i) by (apply Rmult_lt_0_compat; lra).
  assert (EF : pmin / (tsamp * INR bmin) * geo ^ i * tsamp * INR bmin = pmin * geo ^ i) by (field; lra).
  apply rel64_bounds in FR. set (F := pmin / (tsamp * INR bmin) * geo ^ i) in *. destruct FR as [FR1 FR2].
  assert (F0 : 0 < F).
  { unfold F. apply Rmult_lt_0_compat; auto. apply Rdiv_lt_0_compat; [lra|]. apply Rmult_lt_0_compat; lra. }
  split.
  - apply Rle_trans with (2 := G0).
    apply Rle_trans with (F * (1 - 15 * u64) * tsamp * INR bmin * (1 - 16 * u64)).
    + replace (F * (1 - 15 * u64) * tsamp * INR bmin * (1 - 16 * u64)) with (pmin * geo ^ i * ((1 - 15 * u64) * (1 - 16 * u64)))
        by (rewrite <- EF; ring).
      apply Rmult_le_compat_l; lra.
    + apply Rmult_le_compat_r; [lra|]. apply Rmult_le_compat; try lra.
      * apply Rmult_le_pos; [|lra]. apply Rmult_le_pos; lra.
      * apply Rmult_le_compat_r; lra.
  - assert (GR : rel64 (3 / 2) geo ((INR bmax + 1) / INR bmin)) by (eapply (geo_rel bld size tsamp pmin pmax); eauto). apply rel64_bounds in GR. destruct GR as [GR _].
    assert (GB : (INR bmax + 1) * (1 - 3 / 2 * u64) <= geo * INR bmin).
    { apply Rmult_le_compat_r with (r := INR bmin) in GR; [|lra].
      replace ((INR bmax + 1) / INR bmin * (1 - 3 / 2 * u64) * INR bmin) with ((INR bmax + 1) * (1 - 3 / 2 * u64)) in GR by (field; lra).
      exact GR. }
    assert (GB2 : INR b + 1 <= geo * INR bmin * (1 + 2 * u64)).
    { apply Rle_trans with ((INR bmax + 1) * (1 - 3 / 2 * u64) * (1 + 2 * u64)); [|apply Rmult_le_compat_r; lra].
      rewrite Rmult_assoc. apply Rle_trans with ((INR bmax + 1) * 1); [lra|]. apply Rmult_le_compat_l; lra. }
    apply Rle_trans with (1 := G2).
    apply Rle_trans with (F * (1 + 15 * u64) * tsamp * (geo * INR bmin * (1 + 2 * u64)) * (1 + 27 * u64)).
    + apply Rmult_le_compat_r; [lra|]. apply Rmult_le_compat; try lra. apply Rmult_le_compat_r; lra.
    + replace (F * (1 + 15 * u64) * tsamp * (geo * INR bmin * (1 + 2 * u64)) * (1 + 27 * u64))
        with (F * tsamp * INR bmin * geo * ((1 + 15 * u64) * (1 + 2 * u64) * (1 + 27 * u64))) by ring.
      rewrite EF. replace (pmin * geo ^ S i) with (pmin * geo ^ i * geo) by (cbn [pow]; ring).
      apply Rmult_le_compat_l; [apply Rmult_le_pos; lra|].
      apply Rle_trans with ((1 + 18 * u64) * (1 + 27 * u64)); [apply Rmult_le_compat_r; lra|lra].
Qed.

(** an earlier trial is not much longer *)
Lemma trial_order i j s i' j' s' : (i < cycles)%nat -> (j < nb i)%nat -> (s < eval i (bmin + j))%nat ->
  (i' < cycles)%nat -> (j' < nb i')%nat -> (s' < eval i' (bmin + j'))%nat ->
  (i < i' \/ i = i' /\ (j < j' \/ j = j' /\ s <= s'))%nat ->
  period i (bmin + j) s <= period i' (bmin + j') s' * (1 + 128 * u64).
Proof.
  intros Hi Hj Hs Hi' Hj' Hs' Hb.
  destruct (trial_limits i j s Hi Hj Hs) as (_ & L2 & _ & _ & L5).
  destruct (trial_limits i' j' s' Hi' Hj' Hs') as (L1' & _ & _ & L4' & _).
  pose proof u64_pos as U0.
  assert (U1 : u64 <= / 1000000000000) by (unfold u64; lra).
  assert (UU : u64 * u64 <= / 1000000000000 * u64) by (apply Rmult_le_compat_r; lra).
  assert (UV : 0 <= u64 * u64) by (apply Rmult_le_pos; lra).
  destruct (check_F3 bld size tsamp pmin pmax bmin bmax) as (H1 & H2 & H3 & H4 & H5 & H6); auto.
  assert (STEP : forall X P P' k, 0 <= X -> 0 <= k <= 50 -> P <= X * (1 + k * u64) -> X * (1 - 32 * u64) <= P' -> P <= P' * (1 + 128 * u64)).
  { intros X P P' k HX Hk HP HP'. apply Rle_trans with (1 := HP).
    apply Rle_trans with (X * (1 - 32 * u64) * (1 + 128 * u64)); [|apply Rmult_le_compat_r; lra].
    rewrite Rmult_assoc. apply Rmult_le_compat_l; [lra|].
    assert (k * u64 <= 50 * u64) by (apply Rmult_le_compat_r; lra). lra. }
  destruct Hb as [Hb|[-> [Hb|[-> Hb]]]].
  - assert (Gg : 1 <= geo).
    { assert (GG : 1 + / 2 ^ 30 <= geo <= 2 ^ 63) by (eapply (geo_range bld size tsamp pmin pmax); eauto).
      assert (0 < / 2 ^ 30) by (apply Rinv_0_lt_compat, pow_lt; lra). lra. }
    apply (STEP (pmin * geo ^ S i) _ _ 46); try lra.
    + apply Rmult_le_pos; [lra|]. apply pow_le. lra.
    + apply Rle_trans with (2 := L4'). apply Rmult_le_compat_r; [lra|]. apply Rmult_le_compat_l; [lra|]. apply Rle_pow; [lra|lia].
  - destruct (trial_bounds i' j s Hi Hj Hs) as (F1 & _).
    assert (Pft : 0 < f_ i' * tsamp) by (apply Rmult_lt_0_compat; lra).
    assert (BB : INR (bmin + j) + 1 <= INR (bmin + j')) by (rewrite <- S_INR; apply le_INR; lia).
    pose proof (pos_INR (bmin + j)) as B0.
    apply (STEP (f_ i' * tsamp * INR (bmin + j')) _ _ 27); try lra.
    + apply Rmult_le_pos; lra.
    + apply Rle_trans with (1 := L2). apply Rmult_le_compat_r; [lra|]. apply Rmult_le_compat_l; lra.
    + apply Rle_trans with (2 := L1'). apply Rmult_le_compat_l; [apply Rmult_le_pos; lra|lra].
  - destruct (trial_bounds i' j' s Hi Hj Hs) as (F1 & Hbb' & Hm & Hsm & _ & HR & L & _).
    destruct (trial_bounds i' j' s' Hi' Hj' Hs') as (_ & _ & _ & Hsm' & _ & HR' & _).
    cbv zeta in *. set (b := (bmin + j')%nat) in *. set (m := rows i' b) in *.
    assert (Pft : 0 < f_ i' * tsamp) by (apply Rmult_lt_0_compat; lra).
    assert (b2 : 2 <= INR b) by (apply (le_INR 2); lia).
    assert (m2 : 2 <= INR m) by (apply (le_INR 2); lia).
    assert (s2 : INR s' + 1 <= INR m) by (rewrite <- S_INR; apply le_INR; lia).
    assert (ss : INR s <= INR s') by (apply le_INR; lia). pose proof (pos_INR s) as s0.
    set (g := INR m - 1) in *. assert (g0 : 1 <= g) by (unfold g; lra). assert (s3 : INR s' <= g) by (unfold g; lra). clearbody g.
    assert (ig : 0 < / g) by (apply Rinv_0_lt_compat; lra).
    assert (q1 : INR s / g <= INR s' / g) by (unfold Rdiv; apply Rmult_le_compat_r; lra).
    assert (q2 : INR s' / g <= 1). { apply Rmult_le_reg_r with g; [lra|]. unfold Rdiv. rewrite Rmult_assoc, Rinv_l by lra. lra. }
    apply rel64_bounds in HR, HR'.
    set (Q := f_ i' * tsamp * INR b ^ 2 / (INR b - INR s / g)) in *. set (Q' := f_ i' * tsamp * INR b ^ 2 / (INR b - INR s' / g)) in *.
    assert (QQ : Q <= Q').
    { unfold Q, Q', Rdiv. apply Rmult_le_compat_l; [apply Rmult_le_pos; [lra|]; apply pow_le; lra|].
      apply Rinv_le_contravar; unfold Rdiv in *; lra. }
    assert (Q0 : 0 <= Q). { apply Rle_trans with (2 := L). apply Rmult_le_pos; lra. }
    apply (STEP Q _ _ 16); try lra.
    apply Rle_trans with (2 := proj1 HR'). apply Rle_trans with (Q' * (1 - 32 * u64)); [apply Rmult_le_compat_r; lra|].
    apply Rmult_le_compat_l; lra.
Qed.
End TrialsF.
