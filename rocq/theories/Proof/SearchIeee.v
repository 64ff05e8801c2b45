(** The plan of the search in IEEE arithmetic. *)
From Coq Require Import List Arith ZArith Bool Lia Reals Lra SpecFloat.
From Flocq Require Import Core.
From Verif Require Import Base.Result Base.Buf Base.Num Model.Kernels Model.Transforms
  Model.Downsample Model.Snr Model.Periodogram Spec.FfaSpec Spec.Noise Proof.Transforms
  Proof.Ieee Proof.KernelsIeee Proof.DownsampleIeee Proof.Index Proof.Downsample
  Proof.Snr Proof.SnrFloat Proof.Periodogram Proof.DownsampleFloat Proof.Rounding Props.Snr Props.PeriodogramFloat.
Import ListNotations.
Local Open Scope R_scope.

(** What is assumed of log and pow on floating point data: finite results for finite arguments, equal
    to those of the functions on the numbers. *)
Definition libm_log (flogI : spec_float -> spec_float) (flog : R -> R) : Prop :=
  forall x r, fl64 x r -> 1 <= r -> fl64 (flogI x) (flog r).
Definition libm_pow (fpowI : spec_float -> nat -> spec_float) (fpow : R -> nat -> R) : Prop :=
  forall x r k, fl64 x r -> 1 <= r -> fpow r k <= 2 ^ 1000 -> fl64 (fpowI x k) (fpow r k).

Lemma bpow_pow n : bpow radix2 (Z.of_nat n) = 2 ^ n.
Proof. rewrite <- (IZR_Zpower radix2) by lia. rewrite pow_IZR. f_equal. Qed.

Section PlanI.
Context (bld : build) (flog : R -> R) (fpow : R -> nat -> R).
Context (flogI : spec_float -> spec_float) (fpowI : spec_float -> nat -> spec_float).
Context (size : nat) (tsamp pmin pmax : R) (bmin bmax : nat) (tsI pminI pmaxI : spec_float).
Notation NF := (numF bld).
Notation NI := (numI bld).
Context (Hlog : good_log flog) (Hpow : good_pow fpow).
Context (HlogI : libm_log flogI flog) (HpowI : libm_pow fpowI fpow).
Context (Lts : fl64 tsI tsamp) (Lmin : fl64 pminI pmin) (Lmax : fl64 pmaxI pmax).
Context (Hsize : (Z.of_nat size <= 33554432)%Z) (Hbb : (Z.of_nat bmax <= 4194304)%Z).
Context (Hcheck : check_arguments NF tsamp pmin pmax bmin bmax = Ok tt).
Context (Hpt : pmax / tsamp <= 2 ^ 63) (Hpm : pmax <= 2 ^ 900).

Notation ini := (pl_ini NF tsamp pmin bmin).
Notation geo := (pl_geo NF bmin bmax).
Notation cyc := (pl_cyc NF flog pmin pmax bmin bmax).
Notation f_ := (pl_f NF fpow tsamp pmin bmin bmax).
Notation tau := (pl_tau NF fpow tsamp pmin bmin bmax).
Notation pms := (pl_pms NF fpow tsamp pmin pmax bmin bmax).
Notation n_ := (pl_n NF fpow size tsamp pmin bmin bmax).
Notation bstop := (pl_bstop NF fpow size tsamp pmin pmax bmin bmax).
Notation nb := (pl_nb NF fpow size tsamp pmin pmax bmin bmax).
Notation rows := (pl_rows NF fpow size tsamp pmin bmin bmax).
Notation pceil := (pl_ceil NF fpow tsamp pmin pmax bmin bmax).
Notation shift := (pl_shift NF fpow size tsamp pmin pmax bmin bmax).
Notation eval := (pl_eval NF fpow size tsamp pmin pmax bmin bmax).
Notation sd := (pl_sd NF fpow size tsamp pmin bmin bmax).
Notation period := (pl_period NF fpow size tsamp pmin bmin bmax).
Notation off := (pl_off NF fpow size tsamp pmin pmax bmin bmax).
Notation off2 := (pl_off2 NF fpow size tsamp pmin pmax bmin bmax).
Notation cycles := (pl_cycles NF flog pmin pmax bmin bmax).
Notation total := (pl_total NF flog fpow size tsamp pmin pmax bmin bmax).

Notation iniI := (pl_ini NI tsI pminI bmin).
Notation geoI := (pl_geo NI bmin bmax).
Notation cycI := (pl_cyc NI flogI pminI pmaxI bmin bmax).
Notation fI := (pl_f NI fpowI tsI pminI bmin bmax).
Notation tauI := (pl_tau NI fpowI tsI pminI bmin bmax).
Notation pmsI := (pl_pms NI fpowI tsI pminI pmaxI bmin bmax).
Notation nI := (pl_n NI fpowI size tsI pminI bmin bmax).
Notation bstopI := (pl_bstop NI fpowI size tsI pminI pmaxI bmin bmax).
Notation nbI := (pl_nb NI fpowI size tsI pminI pmaxI bmin bmax).
Notation rowsI := (pl_rows NI fpowI size tsI pminI bmin bmax).
Notation pceilI := (pl_ceil NI fpowI tsI pminI pmaxI bmin bmax).
Notation shiftI := (pl_shift NI fpowI size tsI pminI pmaxI bmin bmax).
Notation evalI := (pl_eval NI fpowI size tsI pminI pmaxI bmin bmax).
Notation sdI := (pl_sd NI fpowI size tsI pminI bmin bmax).
Notation periodI := (pl_period NI fpowI size tsI pminI bmin bmax).
Notation offI := (pl_off NI fpowI size tsI pminI pmaxI bmin bmax).
Notation off2I := (pl_off2 NI fpowI size tsI pminI pmaxI bmin bmax).
Notation cyclesI := (pl_cycles NI flogI pminI pmaxI bmin bmax).
Notation totalI := (pl_total NI flogI fpowI size tsI pminI pmaxI bmin bmax).

Lemma Fts : F64 tsamp. Proof. apply Lts. Qed.
Lemma Fmin : F64 pmin. Proof. apply Lmin. Qed.
Lemma Fmax : F64 pmax. Proof. apply Lmax. Qed.

Lemma checkFI : 0 < tsamp /\ 0 < pmin /\ pmin < pmax /\ (2 <= bmin)%nat /\ (bmin <= bmax)%nat /\
  rnd64 (tsamp * INR bmin) <= pmin.
Proof. apply (check_F bld size tsamp pmin pmax bmin bmax); auto. lia. Qed.

Lemma ofnat_I k (j : nat) : (0 <= k <= 1023)%Z -> (Z.of_nat j <= 2 ^ k)%Z ->
  fb64 k (o_ofZ (@n_dbl NI) (Z.of_nat j)) (o_ofZ (@n_dbl NF) (Z.of_nat j)).
Proof. intros. apply d_ofZ; auto. lia. Qed.

Lemma ofnat_F (j : nat) : (Z.of_nat j <= 67108864)%Z -> o_ofZ (@n_dbl NF) (Z.of_nat j) = INR j.
Proof.
  intros Hj. cbn [numF opsF n_dbl o_ofZ]. rewrite <- INR_IZR_INZ. apply rnd64_id. rewrite INR_IZR_INZ. apply F64_int. lia.
Qed.

Lemma base_ge : tsamp <= rnd64 (tsamp * INR bmin).
Proof.
  destruct checkFI as (H1 & _ & _ & H4 & _).
  rewrite <- (rnd64_id tsamp Fts) at 1. apply rnd64_le.
  assert (2 <= INR bmin) by (apply (le_INR 2); lia). rewrite <- (Rmult_1_r tsamp) at 1. apply Rmult_le_compat_l; lra.
Qed.

Lemma sizes : tsamp <= pmin /\ pmin <= bpow radix2 900 /\ pmax <= bpow radix2 900.
Proof.
  destruct checkFI as (H1 & H2 & H3 & H4 & H5 & H6). pose proof base_ge.
  pose proof (bpow_pow 900) as E. change (Z.of_nat 900) with 900%Z in E. rewrite E. repeat split; lra.
Qed.

Lemma pow63 : 2 ^ 63 = bpow radix2 63.
Proof. symmetry. apply (bpow_pow 63). Qed.

Lemma quot63 a b : 0 < a <= pmax -> tsamp <= b -> 0 < a / b <= bpow radix2 63.
Proof.
  intros Ha Hb. destruct checkFI as (H1 & _). split.
  - apply Rmult_lt_0_compat; [lra|]. apply Rinv_0_lt_compat. lra.
  - rewrite <- pow63. eapply Rle_trans; [|exact Hpt]. apply Rmult_le_compat; try lra.
    + left. apply Rinv_0_lt_compat. lra.
    + apply Rinv_le_contravar; lra.
Qed.

Lemma div_I x y a b : fl64 x a -> fl64 y b -> 0 < a <= pmax -> tsamp <= b ->
  fb64 63 (o_div (@n_dbl NI) x y) (o_div (@n_dbl NF) a b).
Proof.
  intros Hx Hy Ha Hb. pose proof (quot63 a b Ha Hb) as Q. destruct checkFI as (H1 & _).
  assert (R1 : Rabs (a / b) <= bpow radix2 63) by (rewrite Rabs_pos_eq; lra).
  split.
  - apply (fl_div 53 1024 p53 e1024 inc64); auto; [lra|]. eapply Rle_trans; [exact R1|]. apply bpow_le. lia.
  - apply (rndf_bpow 53 1024 p53); auto. lia.
Qed.

Lemma ini_I : fb64 63 iniI ini.
Proof.
  destruct checkFI as (H1 & H2 & H3 & H4 & H5 & H6). destruct sizes as (S1 & S2 & S3).
  unfold pl_ini. apply div_I; auto; [|lra|].
  - apply (d_mul bld 900 22); [lia| |apply ofnat_I; lia]. split; auto. rewrite Rabs_pos_eq; lra.
  - rewrite ofnat_F by lia. apply base_ge.
Qed.

Lemma geo_I : fb64 23 geoI geo.
Proof.
  destruct checkFI as (H1 & H2 & H3 & H4 & H5 & H6). unfold pl_geo.
  apply (d_div bld 23 0); [lia| | |].
  - apply (d_add bld 22); [lia|apply ofnat_I; lia|apply (ofnat_I 22 1); lia].
  - apply (ofnat_I 22); lia.
  - rewrite ofnat_F by lia. change (bpow radix2 0) with 1. rewrite Rabs_pos_eq by apply pos_INR. apply (le_INR 1). lia.
Qed.

Lemma geo_gt : 1 < geo.
Proof. apply (geo_F bld size tsamp pmin pmax); auto. lia. Qed.

Lemma ini_ge : 1 <= ini.
Proof. apply (ini_geF bld size tsamp pmin pmax bmin bmax Fts); auto. lia. Qed.

(** the factor is not above the number of samples *)
Definition fits (ids : nat) : Prop := f_ ids <= INR size.

Lemma size_R : INR size <= bpow radix2 25.
Proof. rewrite INR_IZR_INZ. apply (IZR_le _ 33554432). lia. Qed.

Lemma f_ge1 ids : 1 <= f_ ids.
Proof. apply (f_ge1F bld fpow size tsamp pmin pmax bmin bmax Hpow Fts); auto. lia. Qed.

Lemma f_I ids : fits ids -> fb64 25 (fI ids) (f_ ids).
Proof.
  intros HF. pose proof (f_ge1 ids) as F1. pose proof size_R as SR. unfold fits in HF.
  split; [|rewrite Rabs_pos_eq; lra].
  pose proof geo_gt as G. pose proof ini_ge as I1. pose proof (Hpow geo ids ltac:(lra)) as P1.
  assert (PP : ini * fpow geo ids <= bpow radix2 26).
  { apply Rnot_lt_le. intros L. assert (bpow radix2 26 <= f_ ids).
    { rewrite f_F. rewrite <- (rnd64_id (bpow radix2 26)).
      - apply rnd64_le. lra.
      - apply generic_format_bpow. unfold FLT_exp. lia. }
    assert (bpow radix2 25 < bpow radix2 26) by (apply bpow_lt; lia). lra. }
  assert (Q : fpow geo ids <= bpow radix2 26).
  { eapply Rle_trans; [|exact PP]. rewrite <- (Rmult_1_l (fpow geo ids)) at 1. apply Rmult_le_compat_r; lra. }
  unfold pl_f. apply (fl_mul 53 1024 p53 e1024 inc64).
  - apply ini_I.
  - apply HpowI; [apply geo_I|lra|]. eapply Rle_trans; [exact Q|]. rewrite <- bpow_pow. apply bpow_le. lia.
  - rewrite Rabs_pos_eq by (apply Rmult_le_pos; lra). eapply Rle_trans; [exact PP|]. apply bpow_le. lia.
Qed.

Lemma tau_I ids : fits ids -> fb64 925 (tauI ids) (tau ids).
Proof.
  intros HF. destruct sizes as (S1 & S2 & S3). destruct checkFI as (H1 & _). unfold pl_tau.
  apply (d_mul bld 25 900); [lia|now apply f_I|]. split; auto. rewrite Rabs_pos_eq; lra.
Qed.

Lemma tau_ge ids : tsamp <= tau ids.
Proof. apply (tauF bld fpow size tsamp pmin pmax bmin bmax Hpow Fts); auto. lia. Qed.

Lemma pms_I ids : fits ids -> fb64 63 (pmsI ids) (pms ids).
Proof.
  intros HF. destruct checkFI as (H1 & H2 & H3 & _). unfold pl_pms. apply div_I; auto; [|lra|apply tau_ge].
  now apply tau_I.
Qed.

Lemma n_I ids : fits ids -> nI ids = n_ ids.
Proof. intros HF. unfold pl_n. apply size_I; auto; [now apply f_I|apply f_ge1]. Qed.

Lemma n_le ids : (n_ ids <= size)%nat.
Proof. apply (n_leF bld fpow size tsamp pmin pmax bmin bmax Hpow Fts); auto; try lia; auto. Qed.

Lemma bstop_I ids : fits ids -> bstopI ids = bstop ids.
Proof.
  intros HF. unfold pl_bstop. rewrite n_I by auto. do 3 f_equal. apply fl_trunc. now apply pms_I.
Qed.

Lemma rows_I ids b : fits ids -> rowsI ids b = rows ids b.
Proof. intros HF. unfold pl_rows. now rewrite n_I. Qed.

Lemma bstop_F ids b : (b <= bstop ids)%nat -> (b <= bmax)%nat /\ (b <= n_ ids)%nat /\ INR b <= pms ids.
Proof. apply (bstopF bld fpow size tsamp pmin pmax bmin bmax Hpow Fts ltac:(lia) Hcheck Hpt). Qed.

Lemma pceil_I ids b : fits ids -> (b <= bmax)%nat -> fb64 63 (pceilI ids b) (pceil ids b).
Proof.
  intros HF Hb. unfold pl_ceil, min_dbl.
  pose proof (pms_I ids HF) as HP.
  assert (HB : fb64 63 (o_add (@n_dbl NI) (o_ofZ (@n_dbl NI) (Z.of_nat b)) (o_ofZ (@n_dbl NI) 1))
    (o_add (@n_dbl NF) (o_ofZ (@n_dbl NF) (Z.of_nat b)) (o_ofZ (@n_dbl NF) 1))).
  { apply fb_weaken with (j := (22 + 1)%Z); [lia|].
    apply d_add; [lia|apply ofnat_I; lia|apply (ofnat_I 22 1); lia]. }
  change (@n_ltb NI) with SFltb. rewrite (fl_ltb _ _ _ _ (proj1 HB) (proj1 HP)).
  change (@n_ltb NF) with Rlt_bool. destruct (Rlt_bool _ _); auto.
Qed.

Lemma pceil_ge ids b : (1 <= b)%nat -> (b <= bstop ids)%nat -> INR b <= pceil ids b.
Proof. apply (pceilF bld fpow size tsamp pmin pmax bmin bmax Hpow Fts); auto; lia. Qed.

Lemma rows_le ids b : (1 <= b)%nat -> (rows ids b <= size)%nat.
Proof.
  intros Hb. unfold pl_rows. pose proof (n_le ids). apply Nat.le_trans with (n_ ids); auto.
  apply Nat.div_le_upper_bound; nia.
Qed.

Lemma rows1_I ids b : (1 <= b)%nat ->
  fb64 26 (o_sub (@n_dbl NI) (o_ofZ (@n_dbl NI) (Z.of_nat (rows ids b))) (o_ofZ (@n_dbl NI) 1))
    (o_sub (@n_dbl NF) (o_ofZ (@n_dbl NF) (Z.of_nat (rows ids b))) (o_ofZ (@n_dbl NF) 1)).
Proof.
  intros Hb. pose proof (rows_le ids b Hb). apply (d_sub bld 25); [lia|apply ofnat_I; lia|apply (ofnat_I 25 1); lia].
Qed.

Lemma shift_I ids b : fits ids -> (bmin <= b <= bstop ids)%nat -> shiftI ids b = shift ids b.
Proof.
  intros HF [Hb1 Hb2]. destruct checkFI as (_ & _ & _ & H4 & _).
  destruct (bstop_F ids b Hb2) as (Hbm & _ & _).
  pose proof (pceil_ge ids b ltac:(lia) Hb2) as PC.
  assert (1 <= INR b) by (apply (le_INR 1); lia).
  unfold pl_shift. rewrite rows_I by auto. apply fl_ceil.
  apply (d_mul bld (22 + 26) 23); [lia| |].
  - apply d_mul; [lia|apply ofnat_I; lia|apply rows1_I; lia].
  - apply (d_sub bld 22); [lia|apply (ofnat_I 22 1); lia|].
    apply (d_div bld 22 0); [lia|apply ofnat_I; lia|now apply pceil_I|].
    change (bpow radix2 0) with 1. rewrite Rabs_pos_eq; lra.
Qed.

Lemma eval_I ids b : fits ids -> (bmin <= b <= bstop ids)%nat -> evalI ids b = eval ids b.
Proof. intros HF Hb. unfold pl_eval. now rewrite rows_I, shift_I. Qed.

Lemma nb_I ids : fits ids -> nbI ids = nb ids.
Proof. intros HF. unfold pl_nb. now rewrite bstop_I. Qed.

Lemma off2_I ids k : fits ids -> (k <= nb ids)%nat -> off2I ids k = off2 ids k.
Proof.
  intros HF Hk. unfold pl_off2. apply nsum_ext. intros j Hj. apply eval_I; auto. unfold pl_nb in Hk. lia.
Qed.

Lemma off_I n : (forall ids, (ids < n)%nat -> fits ids) -> offI n = off n.
Proof.
  intros HF. unfold pl_off. apply nsum_ext. intros j Hj. rewrite nb_I by auto. apply off2_I; auto.
Qed.

Lemma sd_II ids b : fits ids -> (1 <= b <= bstop ids)%nat ->
  fl32 (sdI ids b) (sd ids b) /\ / 4 <= sd ids b.
Proof.
  intros HF [Hb1 Hb2]. unfold pl_sd. rewrite rows_I by auto.
  destruct (bstop_F ids b Hb2) as (_ & Hbn & _). pose proof (n_le ids).
  apply sd_I; auto.
  - now apply f_I.
  - split; [apply f_ge1|exact HF].
  - fold (n_ ids). lia.
  - split; [|now apply rows_le]. unfold pl_rows. apply Nat.div_le_lower_bound; lia.
Qed.

Lemma period_I ids b s : fits ids -> (bmin <= b <= bstop ids)%nat -> (2 <= rows ids b)%nat ->
  (s < rows ids b)%nat -> fl64 (periodI ids b s) (period ids b s).
Proof.
  intros HF [Hb1 Hb2] Hr Hs. destruct checkFI as (_ & _ & _ & H4 & _).
  destruct (bstop_F ids b Hb2) as (Hbm & _ & _). pose proof (rows_le ids b ltac:(lia)) as HR.
  unfold pl_period. rewrite rows_I by auto.
  assert (E1 : o_sub (@n_dbl NF) (o_ofZ (@n_dbl NF) (Z.of_nat (rows ids b))) (o_ofZ (@n_dbl NF) 1) = INR (rows ids b - 1)).
  { rewrite ofnat_F by lia. change 1%Z with (Z.of_nat 1). rewrite ofnat_F by lia. cbn [numF opsF n_dbl o_sub].
    rewrite <- minus_INR by lia. apply rnd64_id. rewrite INR_IZR_INZ. apply F64_int. lia. }
  assert (R1 : 1 <= INR (rows ids b - 1)) by (apply (le_INR 1); lia).
  assert (HQ : fb64 25 (o_div (@n_dbl NI) (o_ofZ (@n_dbl NI) (Z.of_nat s))
      (o_sub (@n_dbl NI) (o_ofZ (@n_dbl NI) (Z.of_nat (rows ids b))) (o_ofZ (@n_dbl NI) 1)))
    (o_div (@n_dbl NF) (o_ofZ (@n_dbl NF) (Z.of_nat s))
      (o_sub (@n_dbl NF) (o_ofZ (@n_dbl NF) (Z.of_nat (rows ids b))) (o_ofZ (@n_dbl NF) 1)))).
  { apply (d_div bld 25 0); [lia|apply ofnat_I; lia|apply rows1_I; lia|].
    rewrite E1. change (bpow radix2 0) with 1. rewrite Rabs_pos_eq; lra. }
  apply (d_div bld (925 + 22 + 22) 0); [lia| | |].
  - apply (d_mul bld (925 + 22) 22); [lia| |apply ofnat_I; lia].
    apply (d_mul bld 925 22); [lia|now apply tau_I|apply ofnat_I; lia].
  - apply (d_sub bld 25); [lia|apply ofnat_I; lia|exact HQ].
  - rewrite E1, !ofnat_F by lia. cbn [numF opsF n_dbl o_sub o_div]. change (bpow radix2 0) with 1.
    assert (Q1 : rnd64 (INR s / INR (rows ids b - 1)) <= 1).
    { apply rnd_le1. apply Rmult_le_reg_r with (INR (rows ids b - 1)); [lra|].
      unfold Rdiv. rewrite Rmult_assoc, Rinv_l by lra. rewrite Rmult_1_r, Rmult_1_l. apply le_INR. lia. }
    assert (2 <= INR b) by (apply (le_INR 2); lia).
    assert (1 <= rnd64 (INR b - rnd64 (INR s / INR (rows ids b - 1)))) by (apply rnd_ge1; lra).
    rewrite Rabs_pos_eq; lra.
Qed.

Lemma ratio_I : fl64 (o_div (@n_dbl NI) pmaxI pminI) (o_div (@n_dbl NF) pmax pmin) /\
  1 <= o_div (@n_dbl NF) pmax pmin.
Proof.
  destruct checkFI as (H1 & H2 & H3 & _). destruct sizes as (S1 & _). split.
  - apply div_I; auto. lra.
  - cbn [numF opsF n_dbl o_div]. apply rnd_ge1. apply Rmult_le_reg_r with pmin; auto.
    unfold Rdiv. rewrite Rmult_assoc, Rinv_l by lra. lra.
Qed.

Context (Hcyc : (cyc < 2 ^ 64)%Z).

Lemma cyc_I : cycI = cyc.
Proof.
  unfold pl_cyc. apply fl_ceil. destruct ratio_I as [RI R1]. destruct Hlog as [Hl1 Hl2].
  pose proof geo_gt as G. pose proof (Hl2 geo G) as LG. pose proof (Hl1 _ R1) as LR.
  apply (fl_div 53 1024 p53 e1024 inc64).
  - now apply HlogI.
  - apply HlogI; [apply geo_I|lra].
  - lra.
  - set (q := flog (o_div (@n_dbl NF) pmax pmin) / flog geo) in *.
    assert (Q0 : 0 <= q) by (apply Rmult_le_pos; [auto|left; now apply Rinv_0_lt_compat]).
    rewrite Rabs_pos_eq by auto. apply Rle_trans with (bpow radix2 64); [|apply bpow_le; lia].
    apply Rnot_lt_le. intros L.
    assert (HZ : (2 ^ 64 <= cyc)%Z); [|lia].
    apply le_IZR. unfold pl_cyc. cbn [numF opsF n_ceil]. eapply Rle_trans; [|apply Zceil_ub].
    change (IZR (2 ^ 64)) with (bpow radix2 64). rewrite <- (rnd64_id (bpow radix2 64)).
    + apply rnd64_le. left. exact L.
    + apply generic_format_bpow. unfold FLT_exp. lia.
Qed.

Lemma cycles_I : cyclesI = cycles.
Proof. unfold pl_cycles. now rewrite cyc_I. Qed.

Lemma total_I : (forall ids, (ids < cycles)%nat -> fits ids) -> totalI = total.
Proof. intros HF. unfold pl_total. rewrite cyc_I. now apply off_I. Qed.

Lemma check_I : check_arguments NI tsI pminI pmaxI bmin bmax = Ok tt.
Proof.
  rewrite <- Hcheck. destruct checkFI as (H1 & H2 & H3 & H4 & H5 & H6). destruct sizes as (S1 & S2 & S3).
  unfold check_arguments.
  assert (Z0 : fl64 (o_ofZ (@n_dbl NI) 0) (o_ofZ (@n_dbl NF) 0)) by (apply (d_ofZ bld 0); lia).
  change (@n_ltb NI) with SFltb. change (@n_leb NI) with SFleb.
  rewrite (fl_ltb _ _ _ _ Z0 Lts), (fl_ltb _ _ _ _ Z0 Lmin), (fl_ltb _ _ _ _ Lmin Lmax).
  assert (M : fb64 922 (o_mul (@n_dbl NI) tsI (o_ofZ (@n_dbl NI) (Z.of_nat bmin))) (o_mul (@n_dbl NF) tsamp (o_ofZ (@n_dbl NF) (Z.of_nat bmin)))).
  { apply (d_mul bld 900 22); [lia| |apply ofnat_I; lia]. split; auto. rewrite Rabs_pos_eq; lra. }
  rewrite (fl_leb _ _ _ _ (proj1 M) Lmin). reflexivity.
Qed.

Lemma conv_I : (forall ids, (ids < cycles)%nat -> fits ids) ->
  pl_conv NF flog fpow size tsamp pmin pmax bmin bmax ->
  pl_conv NI flogI fpowI size tsI pminI pmaxI bmin bmax.
Proof.
  intros HF [C1 C2]. split; [now rewrite cyc_I|]. rewrite cyc_I. intros ids Hi.
  assert (Hf : fits ids) by now apply HF. destruct (C2 ids Hi) as [P1 P2].
  split.
  - change (@n_trunc NI) with sf_trunc. rewrite (fl_trunc _ _ (proj1 (pms_I ids Hf))). exact P1.
  - intros b Hb. rewrite bstop_I in Hb by auto. rewrite shift_I by auto. now apply P2.
Qed.

Lemma valid_II ids : fits ids -> pl_valid NI fpowI size tsI pminI bmin bmax ids = true.
Proof.
  intros HF. unfold pl_valid. pose proof (proj1 (f_I ids HF)) as HI.
  rewrite (valid_I bld size (fI ids) (f_ ids)) by auto.
  change (@n_eqb NI) with SFeqb.
  assert (O1 : fl64 (o_ofZ (@n_dbl NI) 1) (o_ofZ (@n_dbl NF) 1)) by (apply (d_ofZ bld 0); lia).
  rewrite (fl_eqb _ _ _ _ HI O1).
  assert (V : pl_valid NF fpow size tsamp pmin bmin bmax ids = true).
  { apply (valid_F bld fpow size tsamp pmin pmax bmin bmax Hpow Fts); auto; lia. }
  exact V.
Qed.

Lemma buf_I : pl_buf NI size tsI pminI bmin = pl_buf NF size tsamp pmin bmin.
Proof. unfold pl_buf. apply size_I; auto; [apply ini_I|apply ini_ge]. Qed.
End PlanI.
