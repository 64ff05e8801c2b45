(** C106: rounding errors of the whole search. *)
From Coq Require Import List Arith ZArith Bool Lia Reals Lra Psatz.
From Flocq Require Import Core.
From Verif Require Import Base.Result Base.Buf Base.Num Model.Kernels Model.Transforms
  Model.Downsample Model.Snr Model.Periodogram Spec.Sums Spec.FfaSpec Spec.Overlap Spec.Boxcar Spec.Noise
  Proof.Transforms Proof.Index Proof.Ffa Proof.Downsample Proof.Kernels Proof.Snr
  Proof.Periodogram Proof.PeriodogramR Proof.Rounding Proof.SnrFloat Proof.DownsampleFloat Proof.SearchFloat
  Props.Downsample Props.Snr Props.Ffa Props.PeriodogramFloat Props.SnrFloat Props.DownsampleFloat.
Import ListNotations.
Local Open Scope R_scope.

(** The S/N of a profile close to the exact one, divided by a noise close to the exact one. *)
Lemma snr_total (prof pe : list R) (w : nat) (A T sd sg s r v : R) :
  length pe = length prof -> (0 < w < length prof)%nat ->
  rsum (length prof) (fun c => Rabs (nth c prof 0 - nth c pe 0)) <= T - A ->
  abs_sum prof <= T -> abs_sum pe <= A -> A <= T ->
  best_response prof w r -> best_response pe w v ->
  / 2 <= sg -> Rabs (sd - sg) <= 3 / 2 * u32 * sg ->
  Rabs (s - r / sd) <= snr_error (length prof) w (abs_sum prof) sd ->
  Rabs (s - v / sg) <=
    sqrt (INR (length prof) / (INR w * INR (length prof - w))) * ((1 + 31 * u32) * T - A) / sg + / 2 ^ 145.
Proof.
  intros Hl Hw H1 H2 H3 HAT Br Bv Hg Hs HS.
  set (H := sqrt _) in *. set (n := length prof) in *.
  assert (EH : bh n w + bb n w = H) by now apply height_sum.
  assert (H0 : 0 <= H) by apply sqrt_pos.
  pose proof (best_change prof pe w r v ltac:(auto) Hw Br Bv) as C1. fold n in C1. rewrite EH in C1.
  pose proof (best_size pe w v ltac:(rewrite Hl; auto) Bv) as C2. rewrite Hl in C2. fold n in C2. rewrite EH in C2.
  unfold abs_sum in H3. rewrite Hl in H3. fold n in H3.
  assert (A0 : 0 <= A).
  { eapply Rle_trans; [|exact H3]. apply rsum_nonneg. intros. apply Rabs_pos. }
  assert (P0 : 0 <= abs_sum prof) by (apply rsum_nonneg; intros; apply Rabs_pos).
  assert (C1' : Rabs (r - v) <= H * (T - A)).
  { eapply Rle_trans; [exact C1|]. apply Rmult_le_compat_l; auto. }
  assert (C2' : Rabs v <= H * A).
  { eapply Rle_trans; [exact C2|]. apply Rmult_le_compat_l; auto. }
  assert (U : 0 < u32 <= / 1000) by (unfold u32; lra).
  assert (Hsd : sg * (1 - 3 / 2 * u32) <= sd <= sg * (1 + 3 / 2 * u32)).
  { apply Rabs_le_inv in Hs. lra. }
  assert (Hsd0 : 2 / 5 <= sd).
  { apply Rle_trans with (sg * (1 - 3 / 2 * u32)); [|lra]. apply Rle_trans with (/ 2 * (1 - 3 / 2 * u32)); [lra|].
    apply Rmult_le_compat_r; lra. }
  assert (I1 : / sd <= (1 + 2 * u32) * / sg).
  { apply Rmult_le_reg_l with sd; [lra|]. rewrite Rinv_r by lra.
    apply Rmult_le_reg_r with sg; [lra|].
    replace (sd * ((1 + 2 * u32) * / sg) * sg) with (sd * (1 + 2 * u32)) by (field; lra).
    apply Rle_trans with (sg * (1 - 3 / 2 * u32) * (1 + 2 * u32)); [|apply Rmult_le_compat_r; lra].
    replace (sg * (1 - 3 / 2 * u32) * (1 + 2 * u32)) with (1 * sg + sg * (u32 * (/ 2 - 3 * u32))) by field.
    assert (0 <= sg * (u32 * (/ 2 - 3 * u32))); [|lra].
    apply Rmult_le_pos; [lra|]. apply Rmult_le_pos; lra. }
  assert (I2 : Rabs (/ sd - / sg) <= 2 * u32 * / sg).
  { replace (/ sd - / sg) with (- ((sd - sg) * (/ sd * / sg))) by (field; lra).
    rewrite Rabs_Ropp, Rabs_mult. rewrite (Rabs_pos_eq (/ sd * / sg)).
    2:{ apply Rmult_le_pos; left; apply Rinv_0_lt_compat; lra. }
    apply Rle_trans with (3 / 2 * u32 * sg * (/ sd * / sg)).
    { apply Rmult_le_compat_r; auto. apply Rmult_le_pos; left; apply Rinv_0_lt_compat; lra. }
    replace (3 / 2 * u32 * sg * (/ sd * / sg)) with (3 / 2 * u32 * / sd) by (field; lra).
    apply Rle_trans with (3 / 2 * u32 * ((1 + 2 * u32) * / sg)).
    - apply Rmult_le_compat_l; [lra|exact I1].
    - replace (3 / 2 * u32 * ((1 + 2 * u32) * / sg)) with (3 / 2 * (1 + 2 * u32) * (u32 * / sg)) by ring.
      rewrite (Rmult_assoc 2 u32). apply Rmult_le_compat_r; [|lra].
      apply Rmult_le_pos; [lra|]. left. apply Rinv_0_lt_compat. lra. }
  assert (G0 : 0 < / sg) by (apply Rinv_0_lt_compat; lra).
  assert (S0 : 0 < / sd) by (apply Rinv_0_lt_compat; lra).
  assert (S1 : / sd <= 5 / 2).
  { replace (5 / 2) with (/ (2 / 5)) by lra. apply Rinv_le_contravar; lra. }
  set (K := H * / sg). assert (K0 : 0 <= K) by (apply Rmult_le_pos; lra).
  replace (s - v / sg) with ((s - r / sd) + ((r - v) * / sd + v * (/ sd - / sg))) by (field; lra).
  eapply Rle_trans; [apply Rabs_triang|].
  eapply Rle_trans; [apply Rplus_le_compat; [exact HS|apply Rabs_triang]|].
  rewrite !Rabs_mult, (Rabs_pos_eq (/ sd)) by lra.
  assert (T0 : 0 <= T) by lra.
  assert (E1 : Rabs (r - v) * / sd <= (1 + 2 * u32) * (K * (T - A))).
  { apply Rle_trans with (H * (T - A) * ((1 + 2 * u32) * / sg)).
    - apply Rmult_le_compat; auto; [apply Rabs_pos|lra].
    - apply Req_le. unfold K. ring. }
  assert (E2 : Rabs v * Rabs (/ sd - / sg) <= 2 * u32 * (K * A)).
  { apply Rle_trans with (H * A * (2 * u32 * / sg)).
    - apply Rmult_le_compat; auto; apply Rabs_pos.
    - apply Req_le. unfold K. ring. }
  assert (E3 : snr_error n w (abs_sum prof) sd <= (29 * u32) * (K * T) + / 2 ^ 145).
  { unfold snr_error. fold H. fold n in H |- *. replace (/ 2 ^ 24) with u32 by (unfold u32; cbn; lra).
    apply Rplus_le_compat.
    - apply Rle_trans with (28 * u32 * (H * T * ((1 + 2 * u32) * / sg))).
      + apply Rmult_le_compat_l; [lra|]. unfold Rdiv. apply Rmult_le_compat; auto; [|lra|].
        * now apply Rmult_le_pos.
        * apply Rmult_le_compat_l; auto.
      + replace (28 * u32 * (H * T * ((1 + 2 * u32) * / sg))) with (28 * (1 + 2 * u32) * (u32 * (K * T)))
          by (unfold K; ring).
        rewrite (Rmult_assoc 29). apply Rmult_le_compat_r; [|lra].
        apply Rmult_le_pos; [lra|]. now apply Rmult_le_pos.
    - assert (E : / 2 ^ 145 = 16 * / 2 ^ 149).
      { change 149%nat with (4 + 145)%nat. rewrite pow_add. field. }
      rewrite E. apply Rmult_le_compat_r; [left; apply Rinv_0_lt_compat, pow_lt; lra|].
      unfold Rdiv. lra. }
  replace (H * ((1 + 31 * u32) * T - A) / sg) with ((1 + 31 * u32) * (K * T) - K * A) by (unfold K; field; lra).
  replace ((1 + 2 * u32) * (K * (T - A))) with ((1 + 2 * u32) * (K * T) - K * A - 2 * u32 * (K * A)) in E1 by ring.
  replace ((1 + 31 * u32) * (K * T)) with ((1 + 2 * u32) * (K * T) + 29 * u32 * (K * T)) by ring.
  lra.
Qed.

Section PlanF2.
Context (bld : build) (flog : R -> R) (fpow : R -> nat -> R).
Context (size : nat) (tsamp pmin pmax : R) (bmin bmax : nat).
Notation N := (numF bld).
Context (Hlog : good_log flog) (Hpow : good_pow fpow).
Context (Fts : F64 tsamp) (Fmin : F64 pmin) (Fmax : F64 pmax).
Context (Hsize : (Z.of_nat size <= 33554432)%Z) (Hbb : (Z.of_nat bmax <= 4194304)%Z).
Context (Hcheck : check_arguments N tsamp pmin pmax bmin bmax = Ok tt).
Context (Hpt : pmax / tsamp <= 2 ^ 63).

Notation cyc := (pl_cyc N flog pmin pmax bmin bmax).
Notation f_ := (pl_f N fpow tsamp pmin bmin bmax).
Notation n_ := (pl_n N fpow size tsamp pmin bmin bmax).
Notation bstop := (pl_bstop N fpow size tsamp pmin pmax bmin bmax).
Notation rows := (pl_rows N fpow size tsamp pmin bmin bmax).
Notation shift := (pl_shift N fpow size tsamp pmin pmax bmin bmax).
Notation eval := (pl_eval N fpow size tsamp pmin pmax bmin bmax).
Notation sd := (pl_sd N fpow size tsamp pmin bmin bmax).
Notation period := (pl_period N fpow size tsamp pmin bmin bmax).
Notation nb := (pl_nb N fpow size tsamp pmin pmax bmin bmax).
Notation off := (pl_off N fpow size tsamp pmin pmax bmin bmax).
Notation off2 := (pl_off2 N fpow size tsamp pmin pmax bmin bmax).
Notation profile := (pl_profile N fpow size tsamp pmin bmin bmax 0).
Notation cycles := (pl_cycles N flog pmin pmax bmin bmax).
Notation total := (pl_total N flog fpow size tsamp pmin pmax bmin bmax).
Notation valid := (pl_valid N fpow size tsamp pmin bmin bmax).

Context (alloc : nat -> list R) (allocz : nat -> list Z) (data : list R) (ws : list nat) (X : R).
Context (Halloc : allocates alloc) (Hallocz : allocates allocz) (Hdata : length data = size).
Context (Hws : ws <> []) (Hw : good_widths ws bmin).
Context (Hcyc : (cyc < 2 ^ 64)%Z) (Hrows : (Z.of_nat (size / bmin) <= 4194304)%Z).
Context (HF : Forall single data) (HX : forall i, (i < size)%nat -> Rabs (nth i data 0) <= X).

Lemma check_F2 : 0 < tsamp /\ 0 < pmin /\ pmin < pmax /\ (2 <= bmin)%nat /\ (bmin <= bmax)%nat /\
  rnd64 (tsamp * INR bmin) <= pmin.
Proof. apply (check_F bld size tsamp pmin pmax bmin bmax); auto. lia. Qed.

Definition ds_F (ids : nat) (x : list R) : Prop :=
  forall k, (k < n_ ids)%nat -> F32 (nth k x 0) /\
    Rabs (nth k x 0 - ds_exact data (f_ ids) k)
      <= ((1 + u32) ^ ds_terms (f_ ids) - 1) * ds_abs data (f_ ids) k
         + (1 + u32) ^ ds_terms (f_ ids) * (8 * u64 * INR size * X + 3 * eta32).

Definition sn_F (p : list R) (k : nat) (sd v : R) : Prop :=
  Forall single p -> 0 < sd ->
  exists r, best_response p (nth k ws 0%nat) r /\
    Rabs (v - r / sd) <= snr_error (length p) (nth k ws 0%nat) (abs_sum p) sd.

Lemma data_F32 i : (i < size)%nat -> F32 (nth i data 0).
Proof. intros Hi. rewrite Forall_forall in HF. apply HF. apply nth_In. now rewrite Hdata. Qed.

Lemma X_pos k : (k < size)%nat -> 0 <= X.
Proof. intros Hk. eapply Rle_trans; [apply Rabs_pos|apply (HX k Hk)]. Qed.

Lemma run_F2 : forallb valid (seq 0 cycles) = true ->
  exists (P : list R) B S,
    py_periodogram N flog fpow alloc allocz data tsamp ws pmin pmax bmin bmax = Ok (P, B, S) /\
    length P = total /\ length B = total /\ a_rows S = total /\ a_cols S = length ws /\
    length (a_data S) = (total * length ws)%nat /\
    forall i j s, (i < cycles)%nat -> (j < nb i)%nat -> (s < eval i (bmin + j))%nat ->
      let t := (off i + off2 i j + s)%nat in
      nth t P 0 = period i (bmin + j) s /\
      nth t B 0%Z = (Z.of_nat (bmin + j) mod 2 ^ 32)%Z /\
      exists x, ds_F i x /\
        forall k, (k < length ws)%nat ->
          sn_F (profile i (bmin + j) s x) k (sd i (bmin + j)) (nth (t * length ws + k) (a_data S) 0).
Proof.
  intros HV. destruct check_F2 as (H1 & H2 & H3 & H4 & H5 & H6).
  assert (HC : pl_conv N flog fpow size tsamp pmin pmax bmin bmax).
  { eapply convF; eauto; lia. }
  unfold py_periodogram. change (n_T N) with R in *. rewrite Hdata.
  rewrite length_spec by auto. cbn [bind].
  pose proof (periodogram_spec N flog fpow size tsamp pmin pmax bmin bmax alloc data ws 0
    (alloc total) (allocz total) (alloc (total * length ws)%nat) ds_F sn_F Halloc Hdata Hcheck
    HC ltac:(lia) (Halloc _) (Hallocz _) (Halloc _)) as HS.
  match type of HS with ?A -> ?B -> ?C -> ?D -> ?E -> ?F -> ?G =>
    assert (HR : G) end.
  { assert (NL : forall ids, (n_ ids <= size)%nat).
    { intros ids. eapply n_leF with (pmax := pmax); eauto; lia. }
    assert (NB : forall ids, (n_ ids <= pl_buf N size tsamp pmin bmin)%nat).
    { intros ids. eapply n_bufF with (pmax := pmax); eauto; lia. }
    assert (F1 : forall ids, 1 <= f_ ids).
    { intros ids. apply (f_ge1F bld fpow size tsamp pmin pmax bmin bmax); auto; lia. }
    assert (RF : forall ids b, (bmin <= b)%nat -> (Z.of_nat (rows ids b) <= 4194304)%Z).
    { intros ids b Hb. eapply rowsF with (pmax := pmax); eauto; lia. }
    apply HS; clear HS.
    - intros ids _. apply NB.
    - intros ids _ E1. split; [apply NL|]. intros k Hk. specialize (NL ids).
      assert (Ef : f_ ids = 1).
      { cbn [numF opsF n_T n_eqb n_dbl o_ofZ] in E1. rewrite (rnd64_id 1) in E1 by (apply (F64_int 1); lia).
        destruct (Req_bool_spec (f_ ids) 1); auto. discriminate. }
      split; [apply data_F32; lia|].
      assert (EE : ds_exact data (f_ ids) k = nth k data 0).
      { unfold ds_exact. rewrite Ef. eapply (weight_unit size bmin bmax); eauto; lia. }
      rewrite EE. rewrite Rminus_diag_eq, Rabs_R0 by auto.
      pose proof u32_pos as U.
      assert (G : 1 <= (1 + u32) ^ ds_terms (f_ ids)) by (apply pow_R1_Rle; lra).
      apply Rplus_le_le_0_compat; apply Rmult_le_pos; try lra.
      + unfold ds_abs. apply rsum_nonneg. intros. apply Rabs_pos.
      + assert (0 <= 8 * u64 * INR size * X).
        { apply Rmult_le_pos; [|apply (X_pos k); lia]. apply Rmult_le_pos; [unfold u64; lra|apply pos_INR]. }
        assert (0 < eta32) by apply bpow_gt_0. lra.
    - intros ids out _ E1 HVf Ho.
      assert (Hf : 1 < f_ ids <= INR (length data)).
      { cbn [numF opsF n_T n_eqb n_dbl o_ofZ] in E1. rewrite (rnd64_id 1) in E1 by (apply (F64_int 1); lia).
        destruct (Req_bool_spec (f_ ids) 1) as [|E2]; [discriminate|]. pose proof (F1 ids). split; [lra|].
        assert (HV' : valid ids = true).
        { unfold pl_valid. change (n_T N) with R in *. rewrite HVf. apply orb_true_r. }
        eapply valid_F with (pmax := pmax) in HV'; eauto; [|lia|lia]. rewrite Hdata. destruct HV'; [lra|auto]. }
      destruct (downsample_near bld data (f_ ids) X out) as (out' & E & L & V); auto.
      + now rewrite Hdata.
      + rewrite f_F. apply generic_format_round; typeclasses eauto.
      + rewrite Hdata. apply data_F32.
      + rewrite Hdata. exact HX.
      + rewrite Hdata. change (n_T N) with R in *. rewrite Ho. apply NB.
      + rewrite Hdata in E, V. exists out'. split; [exact E|]. split; [exact L|]. exact V.
    - intros ids b m _ Hb [Hm Hm2]. apply good_index_float; auto.
      pose proof (RF ids b ltac:(lia)). lia.
    - intros ids b _ Hb. pose proof (RF ids b ltac:(lia)). lia.
    - intros ids b blk out oo _ Hb Hl Ho.
      assert (Hb22 : (b <= bmax)%nat).
      { apply (bstopF bld fpow size tsamp pmin pmax bmin bmax Hpow Fts ltac:(lia) Hcheck Hpt ids b). lia. }
      assert (Hwb : good_widths ws b) by (intros w Hin; pose proof (Hw w Hin); lia).
      destruct (snr2_val N alloc blk (eval ids b) b ws (sd ids b) out oo) as (out' & E & FR & V); auto.
      exists out'. split; [exact E|]. split; [exact FR|]. intros i k Hi Hk.
      destruct (V i k Hi Hk) as (v & Ev & s & Es & Esk). exists v. split; [exact Ev|].
      intros Fp Hsd. change (n_T N) with R in *.
      set (x := firstn b (skipn (i * b) blk)) in *.
      assert (Lx : length x = b).
      { unfold x. rewrite firstn_length, skipn_length. nia. }
      destruct (snr1_rounding bld alloc x ws (sd ids b) (alloc (length ws)) 0) as (s' & Es' & V'); auto.
      { rewrite Lx. lia. }
      { rewrite Lx. auto. }
      { rewrite Halloc. lia. }
      rewrite Lx in Es'. change (n_T N) with R in *.
      rewrite Es' in Es. injection Es as ->.
      destruct (V' k Hk) as (v' & r & Ev' & Rr & Br). cbn [Nat.add] in Ev'.
      exists r. split; [exact Rr|].
      assert (v' = v) as -> by (rewrite Ev' in Esk; congruence). exact Br. }
  rewrite HV in HR.
  destruct HR as (st & E & (I1 & I2 & I3 & I4 & I5 & I6 & I7 & I8 & I9) & HCell).
  change (n_T N) with R in *. rewrite E. cbn [bind].
  exists (p_periods st), (p_bins st), (Arr2 total (length ws) (p_snr st)).
  split; [reflexivity|]. do 5 (split; [auto|]).
  intros i j s Hi Hj Hs. destruct (HCell i j s Hi Hj Hs) as (A & B & x & Hx & V). cbv zeta in *.
  split; [now apply nth_error_nth|]. split; [now apply nth_error_nth|].
  exists x. split; auto. intros k Hk. destruct (V k Hk) as (v & Ev & Hv).
  cbn [a_data]. change (n_T N) with R in *. rewrite (nth_error_nth _ _ 0 Ev). exact Hv.
Qed.

(** with one row nothing is evaluated *)
Lemma rows_two ids b s : (bmin <= b <= bstop ids)%nat -> (s < eval ids b)%nat -> (2 <= rows ids b)%nat.
Proof.
  intros Hb Hs. destruct (Nat.lt_ge_cases (rows ids b) 2) as [Hlt|]; auto. exfalso.
  assert (Hr0 : rows ids b <> 0%nat) by (intros E; unfold pl_eval in Hs; rewrite E in Hs; lia).
  assert (E1 : rows ids b = 1%nat) by lia.
  unfold pl_eval in Hs. unfold pl_shift in Hs. rewrite E1 in Hs.
  cbn [numF opsF n_ceil n_dbl o_mul o_sub o_div o_ofZ] in Hs.
  assert (Z0 : rnd64 0 = 0) by (apply rnd64_id, generic_format_0).
  change (Z.of_nat 1) with 1%Z in Hs. rewrite (Rminus_diag_eq (rnd64 1)) in Hs by auto.
  rewrite Z0, Rmult_0_r, Z0, Rmult_0_l, Z0 in Hs. rewrite Zceil_IZR in Hs. cbn in Hs. lia.
Qed.

Lemma cell_F i j s (x : list R) : (i < cycles)%nat -> valid i = true ->
  (j < nb i)%nat -> (s < eval i (bmin + j))%nat -> bpow radix2 (-1000) <= tsamp -> ds_F i x ->
  let b := (bmin + j)%nat in let f := f_ i in let n := n_ i in let m := rows i b in
  let sh := path (merge_index N) (S m) m s in
  let A := abs_sum data in
  let T := (1 + u32) ^ Nat.log2_up m * ((1 + u32) ^ ds_terms f * (A + INR n * (8 * u64 * INR size * X + 3 * eta32))) in
  1 <= f /\ INR n * f <= INR size * (1 + u64) /\ INR size * (1 - u64) < (INR n + 1) * f /\
  (bmin <= b <= bmax)%nat /\ (m * b <= n < (m + 1) * b)%nat /\ (2 <= m)%nat /\ (s < m)%nat /\
  rel64 16 (period i b s) (f * tsamp * INR b ^ 2 / (INR b - INR s / (INR m - 1))) /\
  folding_path m s sh /\
  (forall r, (r < m)%nat -> Rabs (INR (sh r) - INR r * INR s / (INR m - 1)) <= INR (Nat.log2_up m) - 1) /\
  exists prof V, length prof = b /\
    (forall c, (c < b)%nat -> nth c prof 0 = rsum m (fun r => ds_exact data f (r * b + (c + sh r) mod b)%nat)) /\
    noise_variance n f V /\
    forall k u, (k < length ws)%nat -> sn_F (profile i b s x) k (sd i b) u ->
      let w := nth k ws 0%nat in
      exists v, best_response prof w v /\
        Rabs (u - v / sqrt (INR m * V))
        <= sqrt (INR b / (INR w * INR (b - w))) * ((1 + 31 * u32) * T - A) / sqrt (INR m * V) + / 2 ^ 145.
Proof.
  intros Hi HV Hj Hs Ht Hx b f n m sh A T. fold b in Hs.
  destruct check_F2 as (H1 & H2 & H3 & H4 & H5 & H6).
  assert (Hbi : (bmin <= b <= bstop i)%nat) by (unfold pl_nb in Hj; unfold b; lia).
  assert (F1 : 1 <= f).
  { apply (f_ge1F bld fpow size tsamp pmin pmax bmin bmax); auto; lia. }
  assert (NL : (n <= size)%nat).
  { eapply n_leF with (pmax := pmax); eauto; lia. }
  assert (RF : (Z.of_nat m <= 4194304)%Z).
  { eapply rowsF with (pmax := pmax); eauto; lia. }
  destruct (bstopF bld fpow size tsamp pmin pmax bmin bmax Hpow Fts ltac:(lia) Hcheck Hpt i b)
    as (Hbm & Hbn & _); [lia|]. fold n in Hbn.
  pose proof (rows_two i b s Hbi Hs) as Hm2. fold m in Hm2.
  assert (Hsm : (s < m)%nat) by (unfold pl_eval in Hs; unfold m; lia).
  assert (Hmn : m = (n / b)%nat) by reflexivity.
  assert (Hrb : (m * b <= n < (m + 1) * b)%nat).
  { pose proof (Nat.mul_div_le n b ltac:(lia)) as M1.
    pose proof (Nat.mul_succ_div_gt n b ltac:(lia)) as M2. rewrite <- Hmn in M1, M2. lia. }
  assert (Hms : (m <= size)%nat) by nia.
  assert (Ff : F64 f) by (unfold f; rewrite f_F; apply generic_format_round; typeclasses eauto).
  assert (Hfs : f <= INR size).
  { eapply valid_F with (pmax := pmax) in HV; eauto; [|lia|lia]. fold f in HV.
    destruct HV as [->|]; auto. apply (le_INR 1). lia. }
  assert (Hn2 : INR n * f <= INR size * (1 + u64) /\ INR size * (1 - u64) < (INR n + 1) * f).
  { destruct (Req_dec f 1) as [E1|E1].
    - assert (En : n = size).
      { unfold n, pl_n, downsampled_size. fold f. rewrite E1.
        cbn [numF opsF n_dbl o_div o_ofZ n_floor]. rewrite <- INR_IZR_INZ.
        rewrite (rnd64_id (INR size)) by (apply F64_nat; lia). unfold Rdiv. rewrite Rinv_1, Rmult_1_r.
        rewrite (rnd64_id (INR size)) by (apply F64_nat; lia). rewrite INR_IZR_INZ, Zfloor_IZR. apply Nat2Z.id. }
      rewrite En, E1. pose proof (pos_INR size). assert (0 < u64) by (unfold u64; lra).
      assert (0 <= INR size * u64) by (apply Rmult_le_pos; lra). lra.
    - destruct (size_F bld size f Hsize Ff) as (S1 & S2 & _); [lra|]. split; assumption. }
  split; [exact F1|]. split; [apply Hn2|]. split; [apply Hn2|]. split; [lia|]. split; [exact Hrb|].
  split; [exact Hm2|]. split; [exact Hsm|]. split.
  { unfold pl_period, pl_tau. fold f m. cbn [numF opsF n_dbl o_mul o_div o_sub o_ofZ].
    rewrite <- !INR_IZR_INZ. rewrite !(rnd64_id (INR _)) by (apply F64_nat; lia).
    rewrite !(rnd64_id 1) by (apply (F64_int 1); lia).
    apply period_F; auto; lia. }
  assert (HG : forall m', (3 <= m' <= m)%nat -> good_index (merge_index N) m').
  { intros m' Hm'. apply good_index_float; lia. }
  split. { apply path_folding; auto; lia. }
  split. { intros r Hr'. rewrite <- (Rmult_1_l (INR (Nat.log2_up m) - 1)).
    apply path_deviation; auto; try lia; [lra|].
    intros m' H'. split; auto. apply near_index_float; lia. }
  (* the profile *)
  set (p := profile i b s x).
  set (del := fun k : nat => ((1 + u32) ^ ds_terms f - 1) * ds_abs data f k
       + (1 + u32) ^ ds_terms f * (8 * u64 * INR size * X + 3 * eta32)).
  assert (Lp : length p = b) by (unfold p, pl_profile; now rewrite map_length, seq_length).
  destruct (fold_error m b sh (fun k => nth k x 0) (ds_exact data f) del (fun c => nth c p 0)
    ((1 + u32) ^ Nat.log2_up m)) as (G1 & G2 & G3); auto; try lia.
  { intros k Hk. apply Hx. fold n. lia. }
  { intros c Hc. unfold p, pl_profile. fold m. rewrite nth_map_seq by auto. reflexivity. }
  cbv zeta in G2, G3.
  set (T0 := rsum (m * b) (fun k => Rabs (ds_exact data f k))) in *.
  set (D := rsum (m * b) del) in *.
  pose proof u32_pos as U.
  set (L := (1 + u32) ^ Nat.log2_up m) in *.
  assert (HL1 : 1 <= L) by (apply pow_R1_Rle; lra).
  set (G := (1 + u32) ^ ds_terms f) in *.
  assert (HG1 : 1 <= G) by (apply pow_R1_Rle; lra).
  set (B := rsum (m * b) (fun k => ds_abs data f k)).
  assert (HTB : T0 <= B).
  { apply rsum_le. intros k Hk. unfold ds_exact, ds_abs. apply rsum_abs. }
  assert (HBA : B <= A) by (apply ds_abs_total; auto).
  set (e := 8 * u64 * INR size * X + 3 * eta32) in *.
  assert (He : 0 <= e).
  { assert (0 <= 8 * u64 * INR size * X).
    { apply Rmult_le_pos; [|apply (X_pos 0); lia]. apply Rmult_le_pos; [unfold u64; lra|apply pos_INR]. }
    assert (0 < eta32) by apply bpow_gt_0. unfold e. lra. }
  assert (HD : D = (G - 1) * B + INR (m * b) * (G * e)).
  { unfold D, del, B. rewrite rsum_plus, rsum_scal, rsum_const. reflexivity. }
  assert (HmbR : INR (m * b) <= INR n) by (apply le_INR; lia).
  assert (HTD : T0 + D <= G * (A + INR n * e)).
  { rewrite HD.
    assert ((G - 1) * B <= (G - 1) * A) by (apply Rmult_le_compat_l; lra).
    assert (INR (m * b) * (G * e) <= INR n * (G * e)).
    { apply Rmult_le_compat_r; auto. apply Rmult_le_pos; lra. }
    lra. }
  assert (HT0 : 0 <= T0) by (apply rsum_nonneg; intros; apply Rabs_pos).
  assert (HTA : D <= G * (A + INR n * e) - A).
  { rewrite HD.
    assert ((G - 1) * B <= (G - 1) * A) by (apply Rmult_le_compat_l; lra).
    assert (INR (m * b) * (G * e) <= INR n * (G * e)).
    { apply Rmult_le_compat_r; auto. apply Rmult_le_pos; lra. }
    lra. }
  assert (HA0 : 0 <= A) by (apply rsum_nonneg; intros; apply Rabs_pos).
  assert (HT1 : L * (T0 + D) - T0 <= T - A).
  { assert ((L - 1) * T0 <= (L - 1) * A) by (apply Rmult_le_compat_l; lra).
    assert (L * D <= L * (G * (A + INR n * e) - A)) by (apply Rmult_le_compat_l; lra).
    unfold T. lra. }
  assert (HT2 : L * (T0 + D) <= T) by (apply Rmult_le_compat_l; lra).
  assert (HAT : A <= T).
  { assert (0 <= L * (T0 + D) - T0); [|lra].
    assert (0 <= D).
    { rewrite HD. assert (0 <= B) by lra.
      apply Rplus_le_le_0_compat; apply Rmult_le_pos; try lra; [apply pos_INR|apply Rmult_le_pos; lra]. }
    assert (0 <= (L - 1) * T0) by (apply Rmult_le_pos; lra).
    assert (0 <= L * D) by (apply Rmult_le_pos; lra). lra. }
  destruct (noise_F bld size m f Hsize Ff ltac:(lra) ltac:(lia) Hms) as (V & HVn & HVs).
  assert (Esd : sd i b = rnd32 (rnd64 (R_sqrt.sqrt (rnd64 (INR m * downsampled_variance N size f))))).
  { unfold pl_sd. fold m f. cbn [numF opsF n_narrow n_dbl o_sqrt o_mul o_ofZ]. rewrite <- INR_IZR_INZ.
    now rewrite (rnd64_id (INR m)) by (apply F64_nat; lia). }
  pose (prof := map (fun c => rsum m (fun r => ds_exact data f (r * b + (c + sh r) mod b)%nat)) (seq 0 b)).
  assert (Lpr : length prof = b) by (unfold prof; now rewrite map_length, seq_length).
  assert (Vpr : forall c, (c < b)%nat -> nth c prof 0 = rsum m (fun r => ds_exact data f (r * b + (c + sh r) mod b)%nat)).
  { intros c Hc. unfold prof. now rewrite nth_map_seq. }
  exists prof, V. split; [exact Lpr|]. split; [exact Vpr|]. split; [exact HVn|].
  intros k u Hk Hsn w.
  assert (Hin : In w ws) by (apply nth_In; auto). pose proof (Hw w Hin) as Hww.
  pose proof (noise_variance_low _ _ _ F1 HVn) as HV5.
  assert (Hsg : / 2 <= R_sqrt.sqrt (INR m * V)).
  { replace (/ 2) with (R_sqrt.sqrt (/ 4)).
    - apply sqrt_le_1_alt. assert (2 <= INR m) by (apply (le_INR 2); lia).
      assert (2 * (5 / 8) <= INR m * V) by (apply Rmult_le_compat; lra). lra.
    - replace (/ 4) with (/ 2 * / 2) by lra. apply sqrt_square. lra. }
  set (sg := R_sqrt.sqrt (INR m * V)) in *. rewrite <- Esd in HVs.
  assert (U2 : u32 <= / 1000) by (unfold u32; lra).
  assert (Hsd0 : 0 < sd i b).
  { apply Rabs_le_inv in HVs. assert (u32 * sg <= / 1000 * sg) by (apply Rmult_le_compat_r; lra). lra. }
  assert (Fp : Forall single p).
  { rewrite Forall_forall. intros y Hy. destruct (In_nth p y 0 Hy) as (c & Hc & <-). rewrite Lp in Hc. now apply G1. }
  destruct (Hsn Fp Hsd0) as (r & Br & Er). fold w in Br, Er. fold p in Br, Er.
  destruct (best_exists prof w) as (v & Bv); [rewrite Lpr; lia|].
  exists v. split; [exact Bv|].
  pose proof (snr_total p prof w A T (sd i b) sg u r v) as ST. change (n_T N) with R in *. rewrite Lp in ST.
  apply ST; auto; try lia; clear ST.
  - rewrite (rsum_ext b _ (fun c => Rabs (nth c p 0 - rsum m (fun r => ds_exact data f (r * b + (c + sh r) mod b)%nat)))).
    + eapply Rle_trans; [exact G2|]. exact HT1.
    + intros c Hc. now rewrite Vpr.
  - unfold abs_sum. rewrite Lp. eapply Rle_trans; [exact G3|exact HT2].
  - unfold abs_sum at 1. rewrite Lpr.
    apply Rle_trans with T0; [|lra].
    rewrite (rsum_ext b _ (fun c => Rabs (rsum m (fun r => ds_exact data f (r * b + (c + sh r) mod b)%nat)))).
    2:{ intros c Hc. now rewrite Vpr. }
    unfold T0. rewrite <- (rsum_fold m b sh (fun k => Rabs (ds_exact data f k))) by lia.
    apply rsum_le. intros c Hc. apply rsum_abs.
  - rewrite Lp in Er. exact Er.
Qed.
End PlanF2.

(** C106.  The search in floating point, on single precision data of absolute values at most
    [X] and sum of absolute values [A], sampled at more than [2^-1000] s.  Trial [t] is one of
    the exact algorithm (C30), for the factor [f] the code computes, on a path that leaves the
    straight line by less than one bin per doubling of the rows.  Its period is exact up to
    [2^-49], its S/N up to what a profile with the sum of absolute values of the error bound
    may have: all rounding errors together act as a change of the data by
    [(1 + 31 2^-24) T - A], where [T] grows by [2^-24] per level of the transform, and per
    input sample entering a downsampled one. *)
Theorem periodogram_rounding :
  forall (bld : build) (flog : R -> R) (fpow : R -> nat -> R)
    (alloc : nat -> list R) (allocz : nat -> list Z) (data : list R) (ws : list nat)
    (tsamp pmin pmax : R) (bmin bmax : nat) (X : R),
  let size := length data in
  good_log flog -> good_pow fpow -> allocates alloc -> allocates allocz ->
  double tsamp -> double pmin -> double pmax ->
  (Z.of_nat size <= 33554432)%Z -> (Z.of_nat bmax <= 4194304)%Z ->
  pmax / tsamp <= 2 ^ 63 -> (cycle_count flog pmin pmax bmin bmax < 2 ^ 64)%Z ->
  (Z.of_nat (size / bmin) <= 4194304)%Z ->
  ws <> [] -> good_widths ws bmin ->
  / 2 ^ 1000 <= tsamp -> 0 < pmin < pmax -> (2 <= bmin <= bmax)%nat -> rnd64 (tsamp * INR bmin) <= pmin ->
  (forall i, (Z.of_nat i < cycle_count flog pmin pmax bmin bmax)%Z ->
     factor fpow tsamp pmin bmin bmax i <= INR size) ->
  Forall single data -> (forall i, (i < size)%nat -> Rabs (nth i data 0) <= X) ->
  exists (periods : list R) (bins : list Z) (snrs : arr2 R),
    py_periodogram (numF bld) flog fpow alloc allocz data tsamp ws pmin pmax bmin bmax
      = Ok (periods, bins, snrs) /\
    length bins = length periods /\ a_rows snrs = length periods /\ a_cols snrs = length ws /\ arr2_wf snrs /\
    forall t, (t < length periods)%nat ->
      exists (i b n rows s : nat) (xd : nat -> R) (sh : nat -> nat) (prof : list R) (V : R),
        let f := factor fpow tsamp pmin bmin bmax i in
        let P := f * tsamp * INR b ^ 2 / (INR b - INR s / (INR rows - 1)) in
        let A := rsum size (fun j => Rabs (nth j data 0)) in
        let T := (1 + / 2 ^ 24) ^ (Nat.log2_up rows + Z.to_nat (Zceil f) + 3)
                 * (A + INR n * (INR size * / 2 ^ 50 * X + 3 * / 2 ^ 150)) in
        (Z.of_nat i < cycle_count flog pmin pmax bmin bmax)%Z /\
        1 <= f /\ INR n * f <= INR size * (1 + / 2 ^ 53) /\ INR size * (1 - / 2 ^ 53) < (INR n + 1) * f /\
        nth t bins 0%Z = Z.of_nat b /\ (bmin <= b <= bmax)%nat /\
        (rows * b <= n < (rows + 1) * b)%nat /\ (2 <= rows)%nat /\ (s < rows)%nat /\
        Rabs (nth t periods 0 - P) <= / 2 ^ 49 * P /\
        (forall k, (k < n)%nat -> xd k
          = rsum size (fun j => nth j data 0 * weight j (INR k * f) ((INR k + 1) * f))) /\
        folding_path rows s sh /\
        (forall r, (r < rows)%nat ->
           Rabs (INR (sh r) - INR r * INR s / (INR rows - 1)) <= INR (Nat.log2_up rows) - 1) /\
        length prof = b /\
        (forall c, (c < b)%nat ->
           nth c prof 0 = rsum rows (fun r => xd (r * b + (c + sh r) mod b)%nat)) /\
        noise_variance n f V /\
        forall k, (k < length ws)%nat -> let w := nth k ws 0%nat in
          exists v, best_response prof w v /\
            Rabs (at2 0 snrs t k - v / sqrt (INR rows * V))
            <= sqrt (INR b / (INR w * INR (b - w))) * ((1 + 31 * / 2 ^ 24) * T - A) / sqrt (INR rows * V)
               + / 2 ^ 145.
Proof.
  intros bld flog fpow alloc allocz data ws tsamp pmin pmax bmin bmax X size
    Hl Hp Ha Hz F1 F2 F3 Hs Hb Hpt Hc Hr Hws Hw Ht Hpm Hbm Hbase Hfac HF HX.
  set (N := numF bld).
  assert (HT0 : 0 < tsamp).
  { apply Rlt_le_trans with (2 := Ht). apply Rinv_0_lt_compat, pow_lt. lra. }
  assert (HC : check_arguments N tsamp pmin pmax bmin bmax = Ok tt).
  { unfold check_arguments, N. cbn [numF opsF n_ltb n_leb n_dbl o_ofZ o_mul].
    rewrite <- INR_IZR_INZ. rewrite (rnd64_id 0) by apply generic_format_0.
    rewrite !Rlt_bool_true by lra. rewrite (rnd64_id (INR bmin)) by (apply F64_nat; lia).
    rewrite Rle_bool_true by auto.
    destruct (Nat.ltb_spec 1 bmin); [|lia]. destruct (Nat.leb_spec bmin bmax); [|lia]. reflexivity. }
  assert (Egeo : pl_geo N bmin bmax = factor_ratio bmin bmax).
  { unfold pl_geo, factor_ratio, N.
    cbn [numF opsF n_dbl o_ofZ o_mul o_div o_add]. rewrite <- !INR_IZR_INZ.
    rewrite (rnd64_id (INR bmin)) by (apply F64_nat; lia).
    rewrite (rnd64_id (INR bmax)) by (apply F64_nat; lia).
    rewrite (rnd64_id 1) by (apply (F64_int 1); lia).
    rewrite <- S_INR. now rewrite (rnd64_id (INR (S bmax))) by (apply F64_nat; lia). }
  assert (Ecyc : pl_cyc N flog pmin pmax bmin bmax = cycle_count flog pmin pmax bmin bmax).
  { unfold pl_cyc, cycle_count. rewrite Egeo. reflexivity. }
  assert (Ef : forall i, pl_f N fpow tsamp pmin bmin bmax i = factor fpow tsamp pmin bmin bmax i).
  { intros i. unfold factor. rewrite <- Egeo. unfold first_factor.
    assert (Ei : pl_ini N tsamp pmin bmin = rnd64 (pmin / rnd64 (tsamp * INR bmin))).
    { apply (iniF bld size tsamp pmin pmax bmin bmax); auto. lia. }
    rewrite <- Ei. reflexivity. }
  assert (Hc' : (pl_cyc N flog pmin pmax bmin bmax < 2 ^ 64)%Z) by now rewrite Ecyc.
  assert (HV : forall i, (i < pl_cycles N flog pmin pmax bmin bmax)%nat ->
    pl_valid N fpow size tsamp pmin bmin bmax i = true).
  { intros i Hi. apply (valid_F bld fpow size tsamp pmin pmax bmin bmax); auto; try lia.
    right. fold N. rewrite Ef. apply Hfac. unfold pl_cycles in Hi. rewrite Ecyc in Hi. lia. }
  assert (HVa : forallb (pl_valid N fpow size tsamp pmin bmin bmax)
    (seq 0 (pl_cycles N flog pmin pmax bmin bmax)) = true).
  { apply forallb_forall. intros i Hi. apply in_seq in Hi. apply HV. lia. }
  destruct (run_F2 bld flog fpow size tsamp pmin pmax bmin bmax Hl Hp F1 Hs Hb HC Hpt alloc allocz data ws X
    Ha Hz eq_refl Hws Hw Hc' Hr HF HX HVa) as (P & B & S & E & LP & LB & LR & LC & LD & V).
  assert (U53 : / 2 ^ 53 = u64) by (unfold u64; f_equal; rewrite pow_IZR; reflexivity).
  assert (U24 : / 2 ^ 24 = u32) by (unfold u32; f_equal; rewrite pow_IZR; reflexivity).
  assert (U50 : / 2 ^ 50 = 8 * u64).
  { unfold u64. replace (2 ^ 50) with 1125899906842624 by (rewrite pow_IZR; reflexivity). lra. }
  assert (U49 : / 2 ^ 49 = 16 * u64).
  { unfold u64. replace (2 ^ 49) with 562949953421312 by (rewrite pow_IZR; reflexivity). lra. }
  assert (Ht' : bpow radix2 (-1000) <= tsamp).
  { change (bpow radix2 (-1000)) with (/ IZR (Z.pow_pos 2 1000)).
    replace (IZR (Z.pow_pos 2 1000)) with (2 ^ 1000); auto. rewrite pow_IZR. reflexivity. }
  exists P, B, S. split; [exact E|]. split; [now rewrite LB, LP|]. split; [now rewrite LP; exact LR|]. split; [exact LC|].
  split. { unfold arr2_wf. change (n_T (numF bld)) with R in *. now rewrite LD, LR, LC. }
  intros t Hti. rewrite LP in Hti.
  destruct (off_decode N flog fpow size tsamp pmin pmax bmin bmax t Hti) as (i & j & s & Hi & Hj & Hss & Et).
  destruct (V i j s Hi Hj Hss) as (VP & VB & x & Hx & VS). cbv zeta in VP, VB, VS. fold N in VP, VB, VS.
  rewrite <- Et in VP, VB, VS.
  destruct (cell_F bld flog fpow size tsamp pmin pmax bmin bmax Hp F1 Hs Hb HC Hpt data ws X eq_refl Hw Hr
    HX i j s x Hi (HV i Hi) Hj Hss Ht' Hx)
    as (A1 & A2 & A3 & A4 & A5 & A6 & A7 & A8 & A9 & A10 & prof & W & A11 & A12 & A13 & A14).
  fold N in A1, A2, A3, A4, A5, A6, A7, A8, A9, A10, A12, A13, A14. rewrite Ef in A1, A2, A3, A8, A12, A13, A14.
  exists i, (bmin + j)%nat, (pl_n N fpow size tsamp pmin bmin bmax i),
    (pl_rows N fpow size tsamp pmin bmin bmax i (bmin + j)), s, (ds_exact data (factor fpow tsamp pmin bmin bmax i)),
    (path (merge_index N) (Datatypes.S (pl_rows N fpow size tsamp pmin bmin bmax i (bmin + j)))
       (pl_rows N fpow size tsamp pmin bmin bmax i (bmin + j)) s), prof, W.
  cbv zeta. rewrite U53, U24, U50, U49, <- eta32_eq.
  split. { unfold pl_cycles in Hi. rewrite Ecyc in Hi. lia. }
  split; [exact A1|]. split; [exact A2|]. split; [exact A3|].
  split. { rewrite VB. apply Z.mod_small. lia. }
  split; [exact A4|]. split; [exact A5|]. split; [exact A6|]. split; [exact A7|].
  split. { rewrite VP. exact A8. }
  split; [intros; reflexivity|]. split; [exact A9|]. split; [exact A10|]. split; [exact A11|].
  split; [exact A12|]. split; [exact A13|].
  intros k Hk. destruct (A14 k _ Hk (VS k Hk)) as (v & Bv & Ev). exists v. split; [exact Bv|].
  unfold at2. change (n_T (numF bld)) with R in *. rewrite LC.
  eapply Rle_trans; [exact Ev|]. apply Req_le.
  rewrite <- Nat.add_assoc, pow_add. unfold ds_terms, abs_sum. fold size.
  replace (INR size * (8 * u64) * X) with (8 * u64 * INR size * X) by ring.
  rewrite (Rmult_assoc ((1 + u32) ^ _) ((1 + u32) ^ _)). reflexivity.
Qed.
Print Assumptions periodogram_rounding.

(** 4000 samples of 1/1024 s, periods from 1/32 to 3/64 s *)
Example periodogram_rounding_ex :
  let data := repeat 1 (40 * 100) in let size := length data in
  let tsamp := / 1024 in let pmin := / 32 in let pmax := 3 / 64 in
  good_log ln /\ good_pow pow /\ double tsamp /\ double pmin /\ double pmax /\
  (Z.of_nat size <= 33554432)%Z /\ (Z.of_nat 40 <= 4194304)%Z /\
  pmax / tsamp <= 2 ^ 63 /\ (cycle_count ln pmin pmax 20 40 < 2 ^ 64)%Z /\
  (Z.of_nat (size / 20) <= 4194304)%Z /\ [1; 2; 3]%nat <> [] /\ good_widths [1; 2; 3]%nat 20 /\
  / 2 ^ 1000 <= tsamp /\ 0 < pmin < pmax /\ (2 <= 20 <= 40)%nat /\ rnd64 (tsamp * INR 20) <= pmin /\
  (forall i, (Z.of_nat i < cycle_count ln pmin pmax 20 40)%Z -> factor pow tsamp pmin 20 40 i <= INR size) /\
  Forall single data /\ (forall i, (i < size)%nat -> Rabs (nth i data 0) <= 1).
Proof.
  cbv zeta. rewrite repeat_length.
  destruct periodogram_float_safe_ex as (G1 & G2 & F1 & F2 & _). cbv zeta in *.
  assert (E20 : INR 20 = 20) by (cbn; lra). assert (E40 : INR 40 = 40) by (cbn; lra).
  assert (F3 : F64 (3 / 64)).
  { replace (3 / 64) with (F2R (Float radix2 3 (-6))) by (unfold F2R; cbn; lra).
    apply generic_format_FLT. exists (Float radix2 3 (-6)); cbn; auto; lia. }
  assert (H32 : rnd64 (3 / 64 / / 32) = 3 / 2).
  { replace (3 / 64 / / 32) with (3 * / 2) by field. apply rnd64_id. apply (F64_half 3). lia. }
  assert (E2 : 2 <= factor_ratio 20 40).
  { unfold factor_ratio. rewrite E20, E40. rewrite <- (rnd64_id 2) by (apply (F64_int 2); lia).
    apply rnd64_le. lra. }
  assert (HC : (cycle_count ln (/ 32) (3 / 64) 20 40 <= 1)%Z).
  { unfold cycle_count. rewrite H32. apply Zceil_glb. rewrite <- (rnd64_id 1) by (apply (F64_int 1); lia).
    apply rnd64_le.
    assert (0 < ln (3 / 2)) by (rewrite <- ln_1; apply ln_increasing; lra).
    assert (ln (3 / 2) < ln (factor_ratio 20 40)) by (apply ln_increasing; lra).
    apply Rmult_le_reg_r with (ln (factor_ratio 20 40)); [lra|].
    unfold Rdiv. rewrite Rmult_assoc, Rinv_l by lra. lra. }
  assert (HB : rnd64 (/ 1024 * INR 20) = 5 / 256).
  { rewrite E20. replace (/ 1024 * 20) with (F2R (Float radix2 5 (-8))) by (unfold F2R; cbn; lra).
    rewrite rnd64_id; [unfold F2R; cbn; lra|].
    apply generic_format_FLT. exists (Float radix2 5 (-8)); cbn; auto; lia. }
  split; [exact G1|]. split; [exact G2|]. split; [exact F1|]. split; [exact F2|]. split; [exact F3|].
  split; [lia|]. split; [lia|]. split; [lra|]. split; [lia|].
  split. { apply Z.le_trans with (Z.of_nat (40 * 100)); [|lia].
    apply Nat2Z.inj_le. apply Nat.div_le_upper_bound; lia. }
  split; [discriminate|]. split; [intros w [<-|[<-|[<-|[]]]]; lia|].
  split. { apply Rle_trans with (/ 2 ^ 10); [|cbn; lra]. apply Rinv_le_contravar; [apply pow_lt; lra|].
    apply Rle_pow; [lra|lia]. }
  split; [lra|]. split; [lia|]. split; [rewrite HB; lra|].
  split. { intros i Hi. assert (i = 0%nat) as -> by lia. unfold factor, first_factor. rewrite HB.
    cbn [pow]. rewrite Rmult_1_r. apply Rle_trans with 2; [|apply (le_INR 2); lia].
    rewrite <- (rnd64_id 2) by (apply (F64_int 2); lia). apply rnd64_le.
    rewrite <- (rnd64_id 2) by (apply (F64_int 2); lia). apply rnd64_le. lra. }
  split.
  - rewrite Forall_forall. intros y Hy. apply repeat_spec in Hy. subst y. apply (single_int 1). lia.
  - intros i Hi.
    assert (In (nth i (repeat 1 (40 * 100)) 0) (repeat 1 (40 * 100))) as Hy by (apply nth_In; now rewrite repeat_length).
    apply repeat_spec in Hy. rewrite Hy, Rabs_R1. lra.
Qed.
