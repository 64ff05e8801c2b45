(** C134: the order of the trial periods in binary64 arithmetic. *)
From Coq Require Import List Arith ZArith Bool Lia Reals Lra Psatz.
From Flocq Require Import Core.
From Verif Require Import Base.Result Base.Buf Base.Num Model.Transforms Model.Downsample Model.Periodogram
  Spec.Sums Spec.FfaSpec Spec.Overlap Spec.Noise Spec.Boxcar Spec.Pulse Spec.Libm
  Proof.Transforms Proof.Index Proof.Ffa Proof.Downsample Proof.Snr Proof.Periodogram Proof.PeriodogramR Proof.Detect Proof.SnrFloat
  Proof.DownsampleFloat Proof.SearchFloat Proof.CoverageFloat Proof.TrialsFloat
  Props.Downsample Props.Snr Props.PeriodogramFloat Props.SnrFloat Props.DownsampleFloat
  Props.PeriodogramRounding Props.Detect Props.DetectFloat.
Import ListNotations.
Local Open Scope R_scope.

(** values of rounded numbers *)
Lemma rnd64_eval (x : R) (k e : Z) : (-1074 <= e)%Z -> bpow radix2 (e + 52) <= x < bpow radix2 (e + 53) ->
  ZnearestE (x * bpow radix2 (- e)) = k -> rnd64 x = IZR k * bpow radix2 e.
Proof.
  intros He Hx Hk. unfold rnd64, round, scaled_mantissa, cexp.
  assert (M : mag radix2 x = (e + 53)%Z :> Z).
  { apply mag_unique. rewrite Rabs_pos_eq.
    - replace (e + 53 - 1)%Z with (e + 52)%Z by lia. exact Hx.
    - pose proof (bpow_gt_0 radix2 (e + 52)). lra. }
  rewrite M. unfold FLT_exp. replace (Z.max (e + 53 - 53) (-1074)) with e by lia. rewrite Hk. reflexivity.
Qed.
Lemma near_int (x : R) (k : Z) : Rabs (x - IZR k) < / 2 -> ZnearestE x = k.
Proof. intros. now apply Znearest_imp. Qed.
Lemma near_tie (x : R) (k : Z) : x = IZR k + / 2 -> ZnearestE x = if Z.even k then k else (k + 1)%Z.
Proof.
  intros ->. unfold Znearest.
  assert (F : Zfloor (IZR k + / 2) = k) by (apply Zfloor_imp; rewrite plus_IZR; lra).
  rewrite F, Rcompare_Eq by lra. destruct (Z.even k); cbn [negb]; auto.
  rewrite Zceil_floor_neq; rewrite F; [lia|lra].
Qed.

(** powers of two as rational numbers *)
Ltac bp := repeat match goal with |- context [bpow radix2 ?e] =>
  let c := eval vm_compute in e in
  match c with
  | Zneg ?p => let v := eval vm_compute in (Z.pow_pos 2 p) in change (bpow radix2 e) with (/ IZR v)
  | Zpos ?p => let v := eval vm_compute in (Z.pow_pos 2 p) in change (bpow radix2 e) with (IZR v)
  | Z0 => change (bpow radix2 e) with 1
  end end.
Ltac rnd_int k e := apply (rnd64_eval _ k e); [lia|bp; lra|apply near_int; bp; apply Rabs_def1; lra].
Ltac rnd_tie k e := apply (rnd64_eval _ k e); [lia|bp; lra|].


(** 92 samples of a second, periods of 8 to 11 seconds, 7 to 9 bins *)
Notation fac := (IZR 5146971002709138 * bpow radix2 (-52)).
Notation q89 := (IZR 8006399337547548 * bpow radix2 (-53)).
Lemma r_fac : rnd64 (8 / 7) = fac.
Proof. rnd_int 5146971002709138%Z (-52)%Z. Qed.
Lemma r_n : rnd64 (92 / fac) = 161 / 2.
Proof. rewrite (rnd64_eval _ 5664683906301952 (-46)); [bp; lra|lia|bp; lra|apply near_int; bp; apply Rabs_def1; lra]. Qed.
Lemma r_pms : rnd64 (11 / fac) = 77 / 8.
Proof. rewrite (rnd64_eval _ 5418393301680128 (-49)); [bp; lra|lia|bp; lra|apply near_int; bp; apply Rabs_def1; lra]. Qed.
Lemma r_q : rnd64 (8 / 9) = q89.
Proof. rnd_int 8006399337547548%Z (-53)%Z. Qed.
Lemma r_1q : rnd64 (1 - q89) = 1 - q89.
Proof. rewrite (rnd64_eval _ 8006399337547552 (-56)); [bp; lra|lia|bp; lra|apply near_int; bp; apply Rabs_def1; lra]. Qed.
Lemma r_sh : rnd64 (72 * (1 - q89)) = IZR 4503599627370498 * bpow radix2 (-49).
Proof. rnd_int 4503599627370498%Z (-49)%Z. Qed.
Lemma r_8q : rnd64 (8 - q89) = IZR 8006399337547548 * bpow radix2 (-50).
Proof.
  apply (rnd64_eval _ 8006399337547548 (-50)); [lia|bp; lra|].
  rewrite (near_tie _ 8006399337547548); [reflexivity|bp; lra].
Qed.
Lemma r_P1 : rnd64 (fac * 64 / (IZR 8006399337547548 * bpow radix2 (-50))) = IZR 5790342378047781 * bpow radix2 (-49).
Proof. rnd_int 5790342378047781%Z (-49)%Z. Qed.
Lemma r_t8 : rnd64 (fac * 8) = fac * 8.
Proof. rewrite (rnd64_eval _ 5146971002709138 (-49)); [bp; lra|lia|bp; lra|apply near_int; bp; apply Rabs_def1; lra]. Qed.
Lemma r_t64 : rnd64 (fac * 8 * 8) = fac * 64.
Proof. rewrite (rnd64_eval _ 5146971002709138 (-46)); [bp; lra|lia|bp; lra|apply near_int; bp; apply Rabs_def1; lra]. Qed.
Lemma r_t9 : rnd64 (fac * 9) = IZR 5790342378047780 * bpow radix2 (-49).
Proof. rnd_int 5790342378047780%Z (-49)%Z. Qed.
Lemma r_t81 : rnd64 (IZR 5790342378047780 * bpow radix2 (-49) * 9) = IZR 6514135175303752 * bpow radix2 (-46).
Proof.
  apply (rnd64_eval _ 6514135175303752 (-46)); [lia|bp; lra|].
  rewrite (near_tie _ 6514135175303752); [reflexivity|bp; lra].
Qed.
Lemma r_P2 : rnd64 (IZR 6514135175303752 * bpow radix2 (-46) / 9) = IZR 5790342378047780 * bpow radix2 (-49).
Proof. rnd_int 5790342378047780%Z (-49)%Z. Qed.

(** the periodogram returned and its trials *)
Lemma float_run (bld : build) (flog : R -> R) (fpow : R -> nat -> R) (alloc : nat -> list R) (allocz : nat -> list Z)
    (data : list R) (ws : list nat) (tsamp pmin pmax : R) (bmin bmax : nat) :
  let size := length data in let N := numF bld in
  allocates alloc -> allocates allocz -> float_search flog fpow size ws tsamp pmin pmax bmin bmax ->
  pmin * (1 + / 2 ^ 40) <= pmax -> Forall single data ->
  check_arguments N tsamp pmin pmax bmin bmax = Ok tt /\ bpow radix2 (-1000) <= tsamp /\
  (1 <= pl_cycles N flog pmin pmax bmin bmax)%nat /\
  exists (P : list R) (B : list Z) (S : arr2 R),
    py_periodogram N flog fpow alloc allocz data tsamp ws pmin pmax bmin bmax = Ok (P, B, S) /\
    length P = pl_total N flog fpow size tsamp pmin pmax bmin bmax /\ a_rows S = length P /\ a_cols S = length ws /\
    forall i j s, (i < pl_cycles N flog pmin pmax bmin bmax)%nat -> (j < pl_nb N fpow size tsamp pmin pmax bmin bmax i)%nat ->
      (s < pl_eval N fpow size tsamp pmin pmax bmin bmax i (bmin + j))%nat ->
      nth (pl_off N fpow size tsamp pmin pmax bmin bmax i + pl_off2 N fpow size tsamp pmin pmax bmin bmax i j + s) P 0
      = pl_period N fpow size tsamp pmin bmin bmax i (bmin + j) s.
Proof.
  intros size N Ha Hz (Hl & Al & Hp & Ap & F1 & Ht & Hpm & Hpt & Hbm & Hbase & Hlong & Hs & Hb & Hr & Hws & Hw) Hwide HF.
  assert (HT0 : 0 < tsamp).
  { apply Rlt_le_trans with (2 := Ht). apply Rinv_0_lt_compat, pow_lt. lra. }
  assert (HC : check_arguments N tsamp pmin pmax bmin bmax = Ok tt).
  { unfold check_arguments, N. cbn [numF opsF n_ltb n_leb n_dbl o_ofZ o_mul].
    rewrite <- INR_IZR_INZ. rewrite (rnd64_id 0) by apply generic_format_0.
    rewrite !Rlt_bool_true by lra. rewrite (rnd64_id (INR bmin)) by (apply F64_nat; lia).
    rewrite Rle_bool_true by auto.
    destruct (Nat.ltb_spec 1 bmin); [|lia]. destruct (Nat.leb_spec bmin bmax); [|lia]. reflexivity. }
  assert (Ht' : bpow radix2 (-1000) <= tsamp).
  { change (bpow radix2 (-1000)) with (/ IZR (Z.pow_pos 2 1000)).
    replace (IZR (Z.pow_pos 2 1000)) with (2 ^ 1000); auto. rewrite pow_IZR. reflexivity. }
  destruct (cyc_F bld flog size tsamp pmin pmax bmin bmax Al F1 Hb HC Hpt Hwide) as ([Hc1 Hc] & _).
  split; [exact HC|]. split; [exact Ht'|]. split; [unfold pl_cycles; fold N in Hc1; lia|].
  assert (HV : forall i, (i < pl_cycles N flog pmin pmax bmin bmax)%nat ->
    pl_valid N fpow size tsamp pmin bmin bmax i = true).
  { intros i Hi. apply (valid_F bld fpow size tsamp pmin pmax bmin bmax); auto; try lia.
    right. eapply (f_valid bld flog fpow size tsamp pmin pmax bmin bmax); eauto. }
  assert (HVa : forallb (pl_valid N fpow size tsamp pmin bmin bmax)
    (seq 0 (pl_cycles N flog pmin pmax bmin bmax)) = true).
  { apply forallb_forall. intros i Hi. apply in_seq in Hi. apply HV. lia. }
  assert (HX : forall i, (i < size)%nat -> Rabs (nth i data 0) <= rsum size (fun k => Rabs (nth k data 0))).
  { intros i Hi. apply (rsum_one_abs _ (fun k => nth k data 0)); auto. }
  destruct (run_F2 bld flog fpow size tsamp pmin pmax bmin bmax Hl Hp F1 Hs Hb HC Hpt alloc allocz data ws _
    Ha Hz eq_refl Hws Hw Hc Hr HF HX HVa) as (P & B & S & E & LP & LB & LR & LC & LD & V).
  exists P, B, S. split; [exact E|]. split; [exact LP|]. split; [etransitivity; [exact LR|symmetry; exact LP]|]. split; [exact LC|].
  intros i j s Hi Hj Hss. apply (V i j s Hi Hj Hss).
Qed.

(** C28 says that the trial periods increase.  Rounded, the number of trials of a transform may be one more than it
    should be, and the last trial come after the first of the next transform. *)
Theorem trial_periods_float_refuted :
  forall (bld : build) (flog : R -> R) (fpow : R -> nat -> R) (alloc : nat -> list R) (allocz : nat -> list Z)
    (data : list R) (ws : list nat),
  allocates alloc -> allocates allocz -> good_log flog -> accurate_log flog -> good_pow fpow -> accurate_pow fpow ->
  (forall x, fpow x 0%nat = 1) ->
  length data = 92%nat -> Forall single data -> ws <> [] -> good_widths ws 7 ->
  exists (periods : list R) (bins : list Z) (snrs : arr2 R) (t : nat),
    py_periodogram (numF bld) flog fpow alloc allocz data 1 ws 8 11 7 9 = Ok (periods, bins, snrs) /\
    (t + 1 < length periods)%nat /\ nth (t + 1) periods 0 < nth t periods 0.
Proof.
  intros bld flog fpow alloc allocz data ws Ha Hz Hl Al Hp Ap Hp0 L HF Hws Hw.
  assert (SD : float_search flog fpow 92 ws 1 8 11 7 9).
  { unfold float_search. split; [exact Hl|]. split; [exact Al|]. split; [exact Hp|]. split; [exact Ap|].
    split; [apply (F64_int 1); lia|]. split. { rewrite <- Rinv_1. apply Rinv_le_contravar; [lra|]. apply pow_R1_Rle. lra. }
    split; [lra|]. split. { unfold Rdiv. rewrite Rinv_1, Rmult_1_r. replace (2 ^ 63) with (IZR (2 ^ 63)) by (rewrite pow_IZR; reflexivity). lra. }
    split; [lia|]. split. { replace (1 * INR 7) with (IZR 7) by (cbn [INR]; lra). rewrite rnd64_id by (apply F64_int; lia). lra. }
    split; [cbn [INR]; lra|]. split; [lia|]. split; [lia|]. split; [cbn; lia|]. split; assumption. }
  assert (W : 8 * (1 + / 2 ^ 40) <= 11) by lra.
  rewrite <- L in SD. destruct (float_run bld flog fpow alloc allocz data ws 1 8 11 7 9 Ha Hz SD W HF)
    as (HC & _ & C1 & P & B & S & E & LP & _ & _ & V).
  rewrite L in LP, V. set (N := numF bld) in *.
  assert (I3 : forall n, (n < 1000)%nat -> @o_ofZ N n_dbl (Z.of_nat n) = INR n).
  { intros n Hn. unfold N. cbn [numF opsF n_dbl o_ofZ]. rewrite INR_IZR_INZ. apply rnd64_id, F64_int. lia. }
  assert (I1 : @o_ofZ N n_dbl 1 = 1) by (apply (I3 1%nat); lia).
  assert (Ef : pl_f N fpow 1 8 7 9 0 = fac).
  { unfold pl_f. rewrite Hp0. unfold pl_ini. rewrite I3 by lia. unfold N. cbn [numF opsF n_dbl o_mul o_div].
    replace (1 * INR 7) with 7 by (cbn [INR]; lra). rewrite (rnd64_id 7) by (apply (F64_int 7); lia).
    rewrite r_fac, Rmult_1_r, <- r_fac. apply round_generic; [typeclasses eauto|apply generic_format_round; typeclasses eauto]. }
  assert (Et : pl_tau N fpow 1 8 7 9 0 = fac).
  { unfold pl_tau. rewrite Ef. unfold N. cbn [numF opsF n_dbl o_mul]. rewrite Rmult_1_r, <- r_fac.
    apply round_generic; [typeclasses eauto|apply generic_format_round; typeclasses eauto]. }
  assert (Ep : pl_pms N fpow 1 8 11 7 9 0 = 77 / 8).
  { unfold pl_pms. rewrite Et. exact r_pms. }
  assert (En : pl_n N fpow 92 1 8 7 9 0 = 80%nat).
  { unfold pl_n, downsampled_size. rewrite Ef, I3 by lia. unfold N. cbn [numF opsF n_dbl o_div n_floor].
    replace (INR 92) with 92 by (cbn [INR]; lra). rewrite r_n.
    replace (Zfloor (161 / 2)) with 80%Z; [reflexivity|]. symmetry. apply Zfloor_imp. rewrite plus_IZR. lra. }
  assert (Eb : pl_bstop N fpow 92 1 8 11 7 9 0 = 9%nat).
  { unfold pl_bstop. rewrite En, Ep. unfold N. cbn [numF n_trunc]. rewrite Ztrunc_floor by lra.
    replace (Zfloor (77 / 8)) with 9%Z; [reflexivity|]. symmetry. apply Zfloor_imp. rewrite plus_IZR. lra. }
  assert (Enb : pl_nb N fpow 92 1 8 11 7 9 0 = 3%nat) by (unfold pl_nb; now rewrite Eb).
  assert (R8 : pl_rows N fpow 92 1 8 7 9 0 8 = 10%nat) by (unfold pl_rows; now rewrite En).
  assert (R9 : pl_rows N fpow 92 1 8 7 9 0 9 = 8%nat) by (unfold pl_rows; now rewrite En).
  assert (E9 : @o_sub N n_dbl (INR 10) 1 = 9).
  { unfold N. cbn [numF opsF n_dbl o_sub]. replace (INR 10 - 1) with 9 by (cbn [INR]; lra). apply rnd64_id, (F64_int 9). lia. }
  assert (E8 : pl_eval N fpow 92 1 8 11 7 9 0 8 = 9%nat).
  { unfold pl_eval. rewrite R8. unfold pl_shift. rewrite R8, !I3, I1, E9 by lia.
    assert (EC : pl_ceil N fpow 1 8 11 7 9 0 8 = 9).
    { unfold pl_ceil, min_dbl. rewrite Ep, I3, I1 by lia. unfold N. cbn [numF opsF n_dbl o_add n_ltb].
      replace (INR 8 + 1) with 9 by (cbn [INR]; lra). rewrite (rnd64_id 9) by (apply (F64_int 9); lia).
      rewrite ?Rlt_bool_true, ?Rlt_bool_false by lra. reflexivity. }
    rewrite EC. unfold N. cbn [numF opsF n_dbl o_mul o_sub o_div n_ceil].
    replace (INR 8) with 8 by (cbn [INR]; lra). rewrite r_q, r_1q.
    replace (8 * 9) with 72 by lra. rewrite (rnd64_id 72) by (apply (F64_int 72); lia). rewrite r_sh.
    replace (Zceil _) with 9%Z; [reflexivity|]. symmetry. apply Zceil_imp. change (9 - 1)%Z with 8%Z. bp. lra. }
  assert (E90 : (0 < pl_eval N fpow 92 1%R 8%R 11%R 7 9 0 9)%nat).
  { unfold pl_eval. rewrite R9. apply Nat.min_glb_lt; [lia|]. unfold pl_shift. rewrite R9, !I3, I1 by lia.
    assert (EC : pl_ceil N fpow 1 8 11 7 9 0 9 = 77 / 8).
    { unfold pl_ceil, min_dbl. rewrite Ep, I3, I1 by lia. unfold N. cbn [numF opsF n_dbl o_add n_ltb].
      replace (INR 9 + 1) with 10 by (cbn [INR]; lra). rewrite (rnd64_id 10) by (apply (F64_int 10); lia).
      rewrite ?Rlt_bool_true, ?Rlt_bool_false by lra. reflexivity. }
    rewrite EC. unfold N. cbn [numF opsF n_dbl o_mul o_sub o_div n_ceil].
    replace (INR 9) with 9 by (cbn [INR]; lra). replace (INR 8 - 1) with 7 by (cbn [INR]; lra).
    rewrite (rnd64_id 7) by (apply (F64_int 7); lia). replace (9 * 7) with 63 by lra. rewrite (rnd64_id 63) by (apply (F64_int 63); lia).
    assert (Q1 : rnd64 (9 / (77 / 8)) <= 15 / 16).
    { rewrite <- (rnd64_id (15 / 16)); [apply rnd64_le; lra|].
      replace (15 / 16) with (F2R (Float radix2 15 (-4))) by (unfold F2R; cbn; lra).
      apply generic_format_FLT. exists (Float radix2 15 (-4)); cbn; auto; lia. }
    assert (Q2 : 1 / 16 <= rnd64 (1 - rnd64 (9 / (77 / 8)))).
    { rewrite <- (rnd64_id (1 / 16)); [apply rnd64_le; lra|].
      replace (1 / 16) with (F2R (Float radix2 1 (-4))) by (unfold F2R; cbn; lra).
      apply generic_format_FLT. exists (Float radix2 1 (-4)); cbn; auto; lia. }
    assert (Q3 : 1 <= rnd64 (63 * rnd64 (1 - rnd64 (9 / (77 / 8))))) by (apply rnd_ge1; lra).
    assert (1 <= Zceil (rnd64 (63 * rnd64 (1 - rnd64 (9 / (77 / 8))))))%Z; [|lia].
    apply le_IZR. eapply Rle_trans; [exact Q3|apply Zceil_ub]. }
  pose proof (V 0%nat 1%nat 8%nat ltac:(lia) ltac:(lia) ltac:(change (7 + 1)%nat with 8%nat; rewrite E8; lia)) as V1.
  pose proof (V 0%nat 2%nat 0%nat ltac:(lia) ltac:(lia) ltac:(change (7 + 2)%nat with 9%nat; lia)) as V2.
  change (7 + 1)%nat with 8%nat in V1. change (7 + 2)%nat with 9%nat in V2.
  set (t := (pl_off N fpow 92 1%R 8%R 11%R 7 9 0 + pl_off2 N fpow 92 1%R 8%R 11%R 7 9 0 1 + 8)%nat) in *.
  assert (T : (pl_off N fpow 92 1%R 8%R 11%R 7 9 0 + pl_off2 N fpow 92 1%R 8%R 11%R 7 9 0 2 + 0 = t + 1)%nat).
  { unfold t, pl_off2. cbn [nsum]. change (7 + 1)%nat with 8%nat. rewrite E8. lia. }
  rewrite T in V2.
  exists P, B, S, t. split; [exact E|]. split.
  { rewrite LP. pose proof (off_total N flog fpow 92 1%R 8%R 11%R 7 9 0 2 ltac:(lia) ltac:(lia)) as O. change (7 + 2)%nat with 9%nat in O. lia. }
  rewrite V1, V2. unfold pl_period. rewrite R8, R9, Et, !I3, I1, E9 by lia.
  unfold N. cbn [numF opsF n_dbl o_mul o_sub o_div].
  replace (INR 8) with 8 by (cbn [INR]; lra). replace (INR 9) with 9 by (cbn [INR]; lra). replace (INR 0) with 0 by reflexivity.
  rewrite r_q, r_8q, r_t8, r_t64, r_P1, r_t9, r_t81.
  replace (rnd64 (8 - 1)) with 7 by (replace (8 - 1) with 7 by lra; symmetry; apply rnd64_id, (F64_int 7); lia).
  unfold Rdiv at 2. rewrite Rmult_0_l, (rnd64_id 0) by apply generic_format_0. rewrite Rminus_0_r, (rnd64_id 9) by (apply (F64_int 9); lia).
  rewrite r_P2. bp. lra.
Qed.
Print Assumptions trial_periods_float_refuted.

(** What holds of every search: the trial periods are within the range asked for, and none is followed by a shorter one,
    up to a relative 2^-46. *)
Theorem trial_periods_float :
  forall (bld : build) (flog : R -> R) (fpow : R -> nat -> R) (alloc : nat -> list R) (allocz : nat -> list Z)
    (data : list R) (ws : list nat) (tsamp pmin pmax : R) (bmin bmax : nat),
  allocates alloc -> allocates allocz -> float_search flog fpow (length data) ws tsamp pmin pmax bmin bmax ->
  pmin * (1 + / 2 ^ 40) <= pmax -> Forall single data ->
  exists (periods : list R) (bins : list Z) (snrs : arr2 R),
    py_periodogram (numF bld) flog fpow alloc allocz data tsamp ws pmin pmax bmin bmax = Ok (periods, bins, snrs) /\
    a_rows snrs = length periods /\ a_cols snrs = length ws /\
    (forall t, (t < length periods)%nat -> pmin * (1 - / 2 ^ 48) <= nth t periods 0 <= pmax * (1 + / 2 ^ 48)) /\
    (forall t t', (t < t' < length periods)%nat -> nth t periods 0 <= nth t' periods 0 * (1 + / 2 ^ 46)).
Proof.
  intros bld flog fpow alloc allocz data ws tsamp pmin pmax bmin bmax Ha Hz HS Hwide HF.
  destruct (float_run bld flog fpow alloc allocz data ws tsamp pmin pmax bmin bmax Ha Hz HS Hwide HF)
    as (HC & Ht & C1 & P & B & S & E & LP & LR & LC & V).
  destruct HS as (Hl & Al & Hp & Ap & F1 & Ht' & Hpm & Hpt & Hbm & Hbase & Hlong & Hs & Hb & Hr & Hws & Hw).
  set (size := length data) in *. set (N := numF bld) in *.
  exists P, B, S. split; [exact E|]. split; [exact LR|]. split; [exact LC|].
  assert (K1 : / 2 ^ 48 = 32 * u64) by (unfold u64; lra). assert (K2 : / 2 ^ 46 = 128 * u64) by (unfold u64; lra).
  rewrite K1, K2. pose proof u64_pos as U0.
  assert (Gg : 1 <= pl_geo N bmin bmax).
  { assert (GG : 1 + / 2 ^ 30 <= pl_geo N bmin bmax <= 2 ^ 63) by (eapply (geo_range bld size tsamp pmin pmax); eauto).
    assert (0 < / 2 ^ 30) by (apply Rinv_0_lt_compat, pow_lt; lra). lra. }
  split.
  - intros t Ht0. rewrite LP in Ht0.
    destruct (off_decode _ _ _ _ _ _ _ _ _ _ Ht0) as (i & j & s & Hi & Hj & Hss & ->).
    rewrite V by auto.
    destruct (trial_limits bld flog fpow size tsamp pmin pmax bmin bmax Al Hp Ap F1 Hs Hb Hr HC Hpt Ht Hwide i j s Hi Hj Hss)
      as (_ & _ & L3 & L4 & _).
    split; [|exact L3]. apply Rle_trans with (2 := L4). apply Rmult_le_compat_r; [unfold u64; lra|].
    rewrite <- (Rmult_1_r pmin) at 1. apply Rmult_le_compat_l; [lra|]. apply pow_R1_Rle. exact Gg.
  - intros t t' [Htt Ht0]. rewrite LP in Ht0.
    destruct (off_decode N flog fpow size tsamp pmin pmax bmin bmax t ltac:(fold N in Ht0 |- *; lia)) as (i & j & s & Hi & Hj & Hss & ->).
    destruct (off_decode _ _ _ _ _ _ _ _ _ _ Ht0) as (i' & j' & s' & Hi' & Hj' & Hss' & ->).
    rewrite !V by auto.
    eapply (trial_order bld flog fpow size tsamp pmin pmax bmin bmax); eauto.
    destruct (Nat.lt_trichotomy i i') as [K|[<-|K]]; [left; exact K| |].
    + right. split; [reflexivity|]. destruct (Nat.lt_trichotomy j j') as [K|[<-|K]]; [left; exact K|right; split; [reflexivity|lia]|].
      pose proof (off_before N fpow size tsamp pmin pmax bmin bmax i j i j' s' ltac:(right; split; [reflexivity|lia]) Hss'). lia.
    + pose proof (off_before N fpow size tsamp pmin pmax bmin bmax i j i' j' s' ltac:(left; split; [exact K|exact Hj']) Hss'). lia.
Qed.
Print Assumptions trial_periods_float.

(** 10000 samples of 1/1024 s searched from 1/16 to 1 s, and 92 samples of 1 s searched from 8 to 11 s *)
Example trial_periods_float_ex :
  (exists data, float_search ln pow (length data) [20; 30]%nat (/ 1024) (/ 16) 1 40 44 /\
     / 16 * (1 + / 2 ^ 40) <= 1 /\ Forall single data) /\
  good_log ln /\ accurate_log ln /\ good_pow pow /\ accurate_pow pow /\ (forall x, pow x 0 = 1) /\
  length (repeat 1 92) = 92%nat /\ Forall single (repeat 1 92) /\ [1]%nat <> [] /\ good_widths [1]%nat 7.
Proof.
  destruct periodogram_float_detects_ex as (HS & HF & _). cbv zeta in HS, HF.
  pose proof HS as (H1 & H2 & H3 & H4 & _).
  split. { eexists. split; [exact HS|]. split; [lra|exact HF]. }
  split; [exact H1|]. split; [exact H2|]. split; [exact H3|]. split; [exact H4|]. split; [reflexivity|].
  split; [now rewrite repeat_length|]. split.
  { rewrite Forall_forall. intros y Hy. apply repeat_spec in Hy. subst y. apply (single_int 1). lia. }
  split; [discriminate|]. intros w [<-|[]]. lia.
Qed.
