(** C136: when a worker returns, in floating point. *)
From Coq Require Import String List Arith ZArith Bool Lia Reals Lra Psatz.
From Flocq Require Import Core.
From Verif Require Import Base.Result Base.Buf Base.Num Model.FastRmed Model.Transforms Model.Libffa Model.Periodogram Model.Metadata
  Model.TimeSeries Model.Search Model.Cluster Model.Peaks Model.Pipeline Model.Ranges Model.Worker
  Spec.Sums Spec.Overlap Spec.Noise Spec.Pulse Spec.Libm
  Proof.Downsample Proof.Cluster Proof.ClusterFloat Proof.TimeSeries Proof.PeaksFloat Proof.SearchFloat Proof.CoverageFloat
  Props.Downsample Props.Snr Props.TimeSeries Props.Peaks Props.PeaksFloat Props.PeriodogramFloat Props.SnrFloat Props.DownsampleFloat
  Props.PeriodogramRounding Props.Detect Props.DetectFloat Props.WidthsFloat Props.NormFloat Props.Worker Props.Deredden
  Props.DereddenIeee Props.DereddenError Props.DereddenDetect Props.EndToEndFloat Props.WorkerFloat Proof.RunTotal.
Import ListNotations.
Local Open Scope R_scope.

(** a clustering radius is given, and a fit of at least [minseg] control points does not fail *)
Definition fit_works_rounded bld (fit : list R -> list R -> Z -> res (R -> R)) (q : peaks_kw (numF bld)) : Prop :=
  pk_clrad q <> None /\
  forall fc sc, (pk_minseg q <= Z.of_nat (length fc))%Z -> exists thr, fit fc sc (pk_polydeg q) = Ok thr.

Lemma segment_stats_ok bld (f s : list R) (T segwidth : R) :
  let segments := rnd64 (Rabs (rnd64 (last f 0 - nth 0 f 0)) / rnd64 (segwidth / T)) in
  (0 < length f)%nat -> 0 < segments <= INR (length f) -> exists o, segment_stats (numF bld) f s T segwidth = Ok o.
Proof.
  intros segments Hn [H0 H1].
  assert (NA : nabs (numF bld) (rnd64 (last f 0 - nth 0 f 0)) = Rabs (rnd64 (last f 0 - nth 0 f 0)))
    by apply nabs_F, rnd64_F.
  destruct (ceil_nat segments (length f) H0 H1) as (m & [M1 M2] & M3).
  assert (EC : Zceil segments = Z.of_nat m).
  { apply Zceil_imp. rewrite minus_IZR, <- INR_IZR_INZ. lra. }
  unfold segment_stats. change (n_T (numF bld)) with R in *.
  destruct (Nat.eqb_spec (length f) 0); [lia|].
  cbn [numF opsF n_dbl o_ofZ o_sub o_div n_ceil]. rewrite rnd64_0.
  change (n_T (numF bld)) with R in *. rewrite NA. fold segments. rewrite EC.
  destruct (Z.eqb_spec (Z.of_nat m) 0); [lia|]. destruct (Z.ltb_spec (Z.of_nat m) 0); [lia|]. rewrite Nat2Z.id.
  assert (Pm : (1 <= length f / m)%nat) by (apply Nat.div_le_lower_bound; lia).
  destruct (Nat.eqb_spec (length f / m) 0); [lia|]. eauto.
Qed.

Lemma find_peaks_ok_float bld (fit : list R -> list R -> Z -> res (R -> R)) argsort (f : list R) foldbins widths
  (snrs : arr2 R) (T : R) (dm : option R) (q : peaks_kw (numF bld)) (clrad : R) :
  let segments := rnd64 (Rabs (rnd64 (last f 0 - nth 0 f 0)) / rnd64 (pk_segwidth q / T)) in
  fit_works_rounded bld fit q -> (0 < length f)%nat -> 0 < segments <= INR (length f) ->
  exists l, find_peaks (numF bld) fit argsort f foldbins widths snrs T dm (pk_smin q) (pk_segwidth q) (pk_nstd q)
    (pk_minseg q) (pk_polydeg q) clrad = Ok l.
Proof.
  intros segments [_ HF] Hn HS.
  assert (S1 : forall s, exists idx,
    find_peaks_single (numF bld) fit argsort f s T (pk_smin q) (pk_segwidth q) (pk_nstd q) (pk_minseg q)
      (pk_polydeg q) clrad = Ok idx).
  { intros s. destruct (segment_stats_ok bld f s T (pk_segwidth q) Hn HS) as ([[fc smed] sstd] & E).
    unfold find_peaks_single. rewrite E. cbn [bind].
    destruct (Z.leb_spec (pk_minseg q) (Z.of_nat (length fc))) as [L|L]; [|cbn [bind]; eauto].
    match goal with |- context [fit fc ?sc (pk_polydeg q)] => destruct (HF fc sc L) as (thr & ET) end.
    rewrite ET. cbn [bind]. eauto. }
  unfold find_peaks.
  match goal with |- exists l, bind ?m _ = _ => assert (MM : exists o, m = Ok o) end.
  { apply mapM_total. intros iw. cbv zeta.
    match goal with |- context [find_peaks_single _ _ _ _ ?s] => destruct (S1 s) as (idx & E) end.
    rewrite E. cbn [bind]. eauto. }
  destruct MM as (o & ->). cbn [bind]. eauto.
Qed.

(** ** one search range *)
Lemma range_ok_float bld flog fpow alloc allocz fit argsort (ts : series (numF bld)) (k : search_kw (numF bld)) (q : peaks_kw (numF bld))
  (dm : option R) (rw : R) minpts :
  let size := length (se_data ts) in let tsamp : R := se_tsamp ts in
  allocates alloc -> allocates allocz ->
  float_search flog fpow size [1%nat] tsamp (sk_pmin k) (sk_pmax k) (sk_bmin k) (sk_bmax k) -> double (sk_ducy k) -> sk_ducy k < 1 ->
  Forall single (se_data ts) -> md_tobs (se_md ts) = Ok (rnd64 (INR size * tsamp)) ->
  md_dm (se_md ts) = Ok dm -> fit_works_rounded bld fit q ->
  segments_fit_rounded (INR size * tsamp) (sk_pmin k) (sk_pmax k) (sk_bmin k) (pk_segwidth q) ->
  exists pg l, ffa_search_ts (numF bld) flog fpow alloc allocz ts k false rw minpts true = Ok (ts, pg) /\
    find_peaks_pg (numF bld) fit argsort pg q = Ok l /\
    (sorts argsort -> (forall c, pk_clrad q = Some c -> 0 <= c) -> forall p, In p l -> p_dm p = dm /\ 0 < p_freq p).
Proof.
  intros size tsamp Ha Hz HA Fd Hd HF HT HD HW HS.
  assert (HA' := HA). destruct HA' as (A1 & A2 & A3 & A4 & A5 & A6 & A7 & A8 & A9 & A10 & A11 & A12 & A13 & A14 & _).
  destruct (width_trials_float bld (Z.of_nat (sk_bmin k)) (sk_ducy k) (sk_wtsp k) ltac:(lia)) as (ws & EW & _ & _ & Wn & Wf & _ & _ & Wlt).
  { assert (B0 : 0 <= IZR (Z.of_nat (sk_bmin k))) by (apply (IZR_le 0); lia).
    apply Rle_lt_trans with (IZR (Z.of_nat (sk_bmin k))).
    - apply Rmax_lub; [apply (IZR_le 1); lia|]. rewrite <- (rnd64_id (IZR (Z.of_nat (sk_bmin k)))) at 2 by (apply F64_int; lia).
      apply rnd64_le. rewrite <- (Rmult_1_l (IZR (Z.of_nat (sk_bmin k)))) at 2. apply Rmult_le_compat_r; [exact B0|now left].
    - apply Rle_lt_trans with 4194304; [apply IZR_le; lia|]. replace 4194304 with (2 ^ 22) by ring. apply Rlt_pow; [lra|lia]. }
  assert (HAw : float_search flog fpow size (map Z.to_nat ws) tsamp (sk_pmin k) (sk_pmax k) (sk_bmin k) (sk_bmax k)).
  { unfold float_search. repeat (split; [assumption|]). split; [intros E; apply map_eq_nil in E; contradiction|].
    intros w Hw. apply in_map_iff in Hw as (z & <- & Hz'). specialize (Wlt Fd Hd ltac:(lia)).
    rewrite Forall_forall in Wf, Wlt. specialize (Wf z Hz'). specialize (Wlt z Hz'). lia. }
  assert (W40 : sk_pmin k * (1 + / 2 ^ 40) <= sk_pmax k).
  { destruct HS as (W0 & _). apply Rle_trans with (2 := W0). apply Rmult_le_compat_l; [lra|]. apply Rplus_le_compat_l.
    apply Rinv_le_contravar; [apply pow_lt; lra|]. apply Rle_pow; [lra|lia]. }
  destruct (TrialsFloat.trial_periods_float bld flog fpow alloc allocz (se_data ts) _ tsamp _ _ _ _ Ha Hz HAw W40 HF)
    as (P & B & S & E & LS & _ & Rng & _).
  unfold ffa_search_ts. cbn [bind]. rewrite EW. cbn [bind].
  change (n_T (numF bld)) with R in *.
  match goal with |- context [bind ?x _] => replace x with (Ok (P, B, S)) by (symmetry; exact E) end. cbn [bind].
  destruct HW as [HC HF']. destruct (pk_clrad q) as [clrad|] eqn:EC; [|contradiction].
  destruct (segments_range bld flog fpow alloc allocz (se_data ts) _ tsamp _ _ _ _ (pk_segwidth q) P B S Ha Hz HAw HF HS E) as [Hn HSg].
  destruct (find_peaks_ok_float bld fit argsort (map (fun p => rnd64 (1 / p)) P) B ws S (rnd64 (INR size * tsamp)) dm q clrad) as (l & EL).
  { split; [congruence|exact HF']. }
  { now rewrite map_length. }
  { rewrite map_length. exact HSg. }
  eexists. exists l. split; [reflexivity|]. split.
  { unfold find_peaks_pg. cbn [pg_periods pg_md pg_foldbins pg_widths pg_snrs]. rewrite HT, HD, EC. cbn [bind].
    cbn [numF opsF n_dbl o_ofZ o_div]. rewrite (rnd64_id 1) by now apply F64_int. exact EL. }
  intros HA' HCl p Hp. specialize (HCl clrad eq_refl).
  destruct HS as (_ & [T1 T2] & _). fold size tsamp in T1, T2.
  assert (T3 : 0 < rnd64 (INR size * tsamp)).
  { assert (Rl : rel64 (0 + 1 + / 10) (rnd64 (INR size * tsamp)) (INR size * tsamp)).
    { apply rel64_rnd; [lra| |apply rel64_exact; lra]. apply Rle_trans with (2 := T1). rewrite bpow_1000.
      apply Rinv_le_contravar; [apply pow_lt; lra|apply Rle_pow; [lra|lia]]. }
    apply rel64_bounds in Rl. pose proof u64_pos. apply Rlt_le_trans with (2 := proj1 Rl).
    assert (0 < / 2 ^ 100) by (apply Rinv_0_lt_compat, pow_lt; lra).
    apply Rmult_lt_0_compat; [lra|]. unfold u64 in *. lra. }
  destruct (find_peaks_float bld fit argsort (map (fun p => rnd64 (1 / p)) P) B ws S (rnd64 (INR size * tsamp)) dm (pk_smin q)
    (pk_segwidth q) (pk_nstd q) (pk_minseg q) (pk_polydeg q) clrad l) as (_ & _ & thr & radius & _ & _ & HP & _); auto.
  { apply Forall_forall. intros x Hx. apply in_map_iff in Hx as (y & <- & _). apply rnd64_F. }
  { rewrite <- rnd64_0. apply rnd64_le. apply Rmult_le_pos; [exact HCl|]. left. now apply Rinv_0_lt_compat. }
  { now rewrite map_length. }
  destruct (HP p Hp) as (_ & (Hi & _) & _ & Hf & _ & _ & _ & Hd' & _). split; [exact Hd'|].
  change (n_T (numF bld)) with R in *. rewrite Hf. rewrite map_length in Hi.
  rewrite (nth_indep _ 0 (rnd64 (1 / 0))) by (now rewrite map_length). rewrite (map_nth (fun p => rnd64 (1 / p))). destruct (Rng _ Hi) as [R1 R2]. set (x := nth (p_ip p) P 0) in *.
  assert (K48 : 0 < / 2 ^ 48 <= / 2).
  { split; [apply Rinv_0_lt_compat, pow_lt; lra|]. apply Rinv_le_contravar; [lra|]. rewrite <- (pow_1 2) at 1. apply Rle_pow; [lra|lia]. }
  assert (X0 : 0 < x).
  { apply Rlt_le_trans with (2 := R1). apply Rmult_lt_0_compat; lra. }
  assert (X1 : x <= 2 ^ 901).
  { apply Rle_trans with (1 := R2). apply Rle_trans with (2 ^ 900 * 2); [|rewrite Rmult_comm, <- tech_pow_Rmult; apply Rle_refl].
    apply Rmult_le_compat; try lra. }
  assert (Rl : rel64 (0 + 1 + / 10) (rnd64 (1 / x)) (1 / x)).
  { assert (0 < 1 / x) by (apply Rdiv_lt_0_compat; lra). apply rel64_rnd; [lra| |apply rel64_exact; lra].
    rewrite bpow_1000. unfold Rdiv. rewrite Rmult_1_l. apply Rinv_le_contravar; [exact X0|]. apply Rle_trans with (1 := X1). apply Rle_pow; [lra|lia]. }
  apply rel64_bounds in Rl. pose proof u64_pos. apply Rlt_le_trans with (2 := proj1 Rl).
  apply Rmult_lt_0_compat; [apply Rdiv_lt_0_compat; lra|]. unfold u64 in *. lra.
Qed.

(** ** a file *)
Lemma new_series_ok_float bld (x : list R) (tsamp : R) md : 0 < rnd64 (rnd64 (IZR (Z.of_nat (length x))) * tsamp) ->
  forallb (item_valid (numF bld)) md = true ->
  exists s, new_series (N := numF bld) x tsamp md = Ok s /\ forallb (item_valid (numF bld)) (se_md s) = true.
Proof.
  intros LenPos V. unfold new_series, metadata_new. rewrite V. cbn [guard bind]. eexists. split; [reflexivity|].
  cbn [se_md]. unfold se_length. cbn [se_data se_tsamp numF opsF n_dbl o_mul o_ofZ].
  set (L := rnd64 (rnd64 _ * _)) in *.
  assert (VL : forall k, String.eqb "tobs" k = true -> item_valid (numF bld) (k, MFloat (N := numF bld) L) = true).
  { intros k Hk. apply String.eqb_eq in Hk. subst k. cbn. rewrite rnd64_0. now apply Rlt_bool_true. }
  assert (G : forall m, forallb (item_valid (numF bld)) m = true ->
    forallb (item_valid (numF bld)) (md_set "tobs" (MFloat (N := numF bld) L) m) = true).
  { induction m as [|[k v] m IH]; intros Vm; cbn [md_set forallb].
    - now rewrite VL.
    - cbn [forallb] in Vm. apply andb_true_iff in Vm as [V1 V2].
      destruct (String.eqb "tobs" k) eqn:Ek; cbn [forallb]; apply andb_true_iff; split; auto. }
  apply G. assert (Df : forall k m, In k reserved -> forallb (item_valid (numF bld)) m = true ->
    forallb (item_valid (numF bld)) (md_default k MNone m) = true).
  { intros k m Hk Vm. unfold md_default. destruct (md_get k m); auto.
    rewrite forallb_app. apply andb_true_iff. split; auto. cbn [forallb]. rewrite andb_true_r.
    cbn in Hk. decompose [or] Hk; subst; try reflexivity; contradiction. }
  unfold reserved. cbn [fold_left]. repeat (apply Df; [cbn; tauto|]). exact V.
Qed.

Lemma bounded_list (x : list R) : exists X, forall i, (i < length x)%nat -> Rabs (nth i x 0) <= X.
Proof.
  exists (fold_right (fun v m => Rmax (Rabs v) m) 0 x). induction x as [|a x IH]; intros i Hi; cbn in *; [lia|].
  destruct i; [apply Rmax_l|]. eapply Rle_trans; [apply IH; lia|apply Rmax_r].
Qed.

Lemma worker_ok_float :
  forall (bld : build) (flog : R -> R) (fpow : R -> nat -> R) (alloc : nat -> list R) (allocz : nat -> list Z) fit argsort
    (load : string -> res (series (numF bld))) (rw : R) (minpts : Z) confs fname (ts : series (numF bld)) (dm : R),
  allocates alloc -> allocates allocz ->
  load fname = Ok ts -> md_get "dm" (se_md ts) = Some (MFloat (N := numF bld) dm) ->
  forallb (item_valid (numF bld)) (se_md ts) = true ->
  let data : list R := se_data ts in let tsamp : R := se_tsamp ts in let size := length data in
  let wd := ZnearestE (rnd64 (rw / tsamp)) in
  Forall single data -> (Z.of_nat size <= 33554432)%Z -> / 2 ^ 1000 <= tsamp ->
  0 <= rw -> rw / tsamp <= 2 ^ 51 -> (0 < minpts <= 2 ^ 52)%Z -> Z.odd minpts = true -> window_fits wd minpts (Z.of_nat size) ->
  Forall (fun c : search_kw (numF bld) * peaks_kw (numF bld) => let k := fst c in let q := snd c in
    float_search flog fpow size [1%nat] tsamp (sk_pmin k) (sk_pmax k) (sk_bmin k) (sk_bmax k) /\ double (sk_ducy k) /\ sk_ducy k < 1 /\
    fit_works_rounded bld fit q /\ segments_fit_rounded (INR size * tsamp) (sk_pmin k) (sk_pmax k) (sk_bmin k) (pk_segwidth q)) confs ->
  exists peaks, process_fname (numF bld) flog fpow alloc allocz fit argsort load rw (PInt minpts) confs fname = Ok peaks /\
    (sorts argsort -> Forall (fun c : search_kw (numF bld) * peaks_kw (numF bld) => forall r, pk_clrad (snd c) = Some r -> 0 <= r) confs ->
     forall p, In p peaks -> p_dm p = Some dm /\ 0 < p_freq p) /\
    exists ts2, prepare_ts (numF bld) alloc rw (PInt minpts) ts = Ok ts2 /\ length (se_data ts2) = size /\ Forall single (se_data ts2).
Proof.
  intros bld flog fpow alloc allocz fit argsort load rw minpts confs fname ts dm Ha Hz EL ED HV data tsamp size wd HF Hsz Ht
    R0 R1 M0 MO Fit HC.
  assert (T0 : 0 < tsamp) by (apply Rlt_le_trans with (2 := Ht), Rinv_0_lt_compat, pow_lt; lra).
  destruct (bounded_list data) as (X & HX).
  destruct (deredden_rounding bld alloc data tsamp rw X minpts Ha T0 R0 R1 M0 MO Hsz HF HX Fit) as (r & rR & ER & _ & LR & LM & FM & _).
  assert (Size : (0 < size)%nat).
  { fold wd size in Fit. unfold window_fits in Fit. destruct size; [exfalso|lia]. destruct (Z.ltb_spec wd (2 * minpts)) as [L|L]; [lia|].
    rewrite Z.div_0_l in Fit; [lia|]. pose proof (Z.div_mod wd minpts ltac:(lia)). pose proof (Z.mod_pos_bound wd minpts ltac:(lia)). intros E. lia. }
  assert (LP : 0 < rnd64 (rnd64 (IZR (Z.of_nat size)) * tsamp)).
  { rewrite (rnd64_id (IZR _)) by (apply F64_int; lia).
    assert (Rl : rel64 (0 + 1 + / 10) (rnd64 (IZR (Z.of_nat size) * tsamp)) (IZR (Z.of_nat size) * tsamp)).
    { assert (1 <= IZR (Z.of_nat size)) by (apply (IZR_le 1); lia).
      assert (/ 2 ^ 1000 <= IZR (Z.of_nat size) * tsamp).
      { apply Rle_trans with (1 := Ht). rewrite <- (Rmult_1_l tsamp) at 1. apply Rmult_le_compat_r; lra. }
      apply rel64_rnd; [lra|rewrite bpow_1000; assumption|]. apply rel64_exact; lra. }
    apply rel64_bounds in Rl. pose proof u64_pos. apply Rlt_le_trans with (2 := proj1 Rl).
    apply Rmult_lt_0_compat; [apply Rmult_lt_0_compat; [apply (IZR_lt 0); lia|exact T0]|]. unfold u64 in *. lra. }
  assert (PT : exists ts1 ts2, se_deredden (numF bld) alloc ts rw (PInt minpts) = Ok ts1 /\ se_normalise (numF bld) ts1 = Ok ts2).
  { unfold se_deredden, fast_running_median_py. unfold rmed in ER. fold data tsamp.
    change (n_T (numF bld)) with R in *. rewrite ER. cbn [bind].
    change (n_T (numF bld)) with R in *. rewrite LR. fold size. rewrite Nat.eqb_refl. cbn [guard bind].
    destruct (new_series_ok_float bld (minus (numF bld) data r) tsamp (se_md ts)) as (t1 & E1 & V1).
    { rewrite LM. exact LP. }
    { exact HV. }
    exists t1. change (n_T (numF bld)) with R in *. pose proof E1 as E1'. apply new_series_gen in E1' as (D1 & D2 & _).
    unfold se_normalise. change (n_T (numF bld)) with R in *. rewrite D1, D2.
    destruct (new_series_ok_float bld (normalised (numF bld) (minus (numF bld) data r)) tsamp (se_md t1)) as (t2 & E2 & V2).
    { pose proof (normalised_length (numF bld) (minus (numF bld) data r)) as NL. change (n_T (numF bld)) with R in *. rewrite NL, LM. exact LP. }
    { exact V1. }
    exists t2. split; [exact E1|exact E2]. }
  destruct PT as (ts1 & ts2 & E1 & E2).
  destruct (prepare_gen (numF bld) alloc rw minpts ts ts1 ts2 r _ ER LR ED E1 E2) as (D1 & D2 & D3 & D4).
  unfold process_fname. rewrite EL. cbn [bind]. unfold md_dm at 1. rewrite ED. cbn [bind guard].
  unfold prepare_ts. rewrite E1. cbn [bind]. rewrite E2. cbn [bind].
  assert (M2 : md_dm (se_md ts2) = Ok (Some dm)) by (unfold md_dm; now rewrite D4).
  assert (HT : md_tobs (se_md ts2) = Ok (rnd64 (INR size * tsamp))) by (rewrite D3; f_equal; now apply se_length_float).
  assert (L2 : length (se_data ts2) = size) by (rewrite D1; etransitivity; [apply normalised_length|exact LM]).
  assert (F2 : Forall single (se_data ts2)).
  { rewrite D1. unfold normalised. apply Forall_forall. intros v Hv. apply in_map_iff in Hv as (y & <- & _).
    cbn [numF n_narrow]. change (single (rnd32 y)); unfold single, rnd32; apply generic_format_round; [now apply FLT_exp_valid|apply valid_rnd_N]. }
  set (clrads := Forall (fun c : search_kw (numF bld) * peaks_kw (numF bld) => forall r, pk_clrad (snd c) = Some r -> 0 <= r) confs).
  match goal with |- exists peaks, foreach confs ?b [] = _ /\ _ => set (body := b) end.
  destruct (foreach_total (fun acc : list (peak (numF bld)) => sorts argsort -> clrads -> forall p : peak (numF bld), In p acc -> p_dm p = Some dm /\ 0 < p_freq p) body confs)
    with (s := @nil (peak (numF bld))) as (peaks & EP & HP).
  - intros [k q] acc Hc AG. rewrite Forall_forall in HC. destruct (HC _ Hc) as (C1 & C2 & C3 & C4 & C5). cbn [fst snd] in *.
    destruct (range_ok_float bld flog fpow alloc allocz fit argsort ts2 k q (Some dm) rw (PInt minpts)) as (pg & l & G1 & G2 & G3); auto;
      try (rewrite L2, D2; auto).
    unfold body. cbn [fst snd]. rewrite G1. cbn [bind]. rewrite G2. cbn [bind]. eexists. split; [reflexivity|].
    intros HA CL p Hp. apply in_app_iff in Hp as [Hp|Hp]; [now apply AG|]. apply G3; auto. unfold clrads in CL. rewrite Forall_forall in CL.
    apply (CL _ Hc).
  - intros _ _ p [].
  - exists peaks. split; [exact EP|]. split; [exact HP|]. exists ts2. auto.
Qed.

(** C136. In floating point, a worker returns the peaks of a file if its metadata are valid and give a DM, the running median
    window suits the data, numpy.polyfit() does not fail, and every range of periods is well within the data, has some
    room between its limits, at least four steps of frequency and steps of at most a quarter of a segment.  (The
    trials may well be out of order by the last bits.)  For data which are constant once the running medians are subtracted,
    the division by a zero deviation is out of the model: see C128. *)
Theorem process_fname_float_total :
  forall (bld : build) (flog : R -> R) (fpow : R -> nat -> R) (alloc : nat -> list R) (allocz : nat -> list Z) fit argsort
    (load : string -> res (series (numF bld))) (rw : R) (minpts : Z) confs fname (ts : series (numF bld)) (dm : R),
  allocates alloc -> allocates allocz ->
  load fname = Ok ts -> md_get "dm" (se_md ts) = Some (MFloat (N := numF bld) dm) ->
  forallb (item_valid (numF bld)) (se_md ts) = true ->
  let data : list R := se_data ts in let tsamp : R := se_tsamp ts in let size := length data in
  let wd := ZnearestE (rnd64 (rw / tsamp)) in
  Forall single data -> (Z.of_nat size <= 33554432)%Z -> / 2 ^ 1000 <= tsamp ->
  0 <= rw -> rw / tsamp <= 2 ^ 51 -> (0 < minpts <= 2 ^ 52)%Z -> Z.odd minpts = true -> window_fits wd minpts (Z.of_nat size) ->
  Forall (fun c : search_kw (numF bld) * peaks_kw (numF bld) => let k := fst c in let q := snd c in
    float_search flog fpow size [1%nat] tsamp (sk_pmin k) (sk_pmax k) (sk_bmin k) (sk_bmax k) /\ double (sk_ducy k) /\ sk_ducy k < 1 /\
    fit_works_rounded bld fit q /\ segments_fit_rounded (INR size * tsamp) (sk_pmin k) (sk_pmax k) (sk_bmin k) (pk_segwidth q)) confs ->
  exists peaks, process_fname (numF bld) flog fpow alloc allocz fit argsort load rw (PInt minpts) confs fname = Ok peaks.
Proof.
  intros. edestruct worker_ok_float as (peaks & E & _); [..|exists peaks; exact E]; eauto.
Qed.
Print Assumptions process_fname_float_total.

Example process_fname_float_total_ex :
  forall bld, let ts := blips_file bld in let k := blips_kw bld in let q := blips_pk bld in
  let data : list R := se_data ts in let tsamp : R := se_tsamp ts in let rw := 31 / 1024 in let size := length data in
  md_get "dm" (se_md ts) = Some (MFloat (N := numF bld) 10) /\
  forallb (item_valid (numF bld)) (se_md ts) = true /\
  Forall single data /\ (Z.of_nat size <= 33554432)%Z /\ / 2 ^ 1000 <= tsamp /\
  0 <= rw /\ rw / tsamp <= 2 ^ 51 /\ (0 < 31 <= 2 ^ 52)%Z /\ Z.odd 31 = true /\
  window_fits (ZnearestE (rnd64 (rw / tsamp))) 31 (Z.of_nat size) /\
  float_search ln pow size [1%nat] tsamp (sk_pmin k) (sk_pmax k) (sk_bmin k) (sk_bmax k) /\ double (sk_ducy k) /\ sk_ducy k < 1 /\
  fit_works_rounded bld (fun _ _ _ => Ok (fun _ => 6)) q /\
  segments_fit_rounded (INR size * tsamp) (sk_pmin k) (sk_pmax k) (sk_bmin k) (pk_segwidth q).
Proof.
  intros bld ts k q data tsamp rw size.
  destruct (worker_float_finds_pulses_ex bld) as (H1 & H2 & _ & _ & _ & H3 & H4 & H5 & H6 & H7 & _ & _ & H8 & H9 & H10 & _).
  split; [exact H1|]. split.
  { cbn. rewrite rnd64_0. rewrite Rle_bool_true by lra. reflexivity. }
  split; [exact H2|].
  assert (EZ : Z.of_nat size = 10000%Z).
  { unfold size, data, ts, blips_file. cbn [se_data]. unfold blips. rewrite map_length, seq_length. reflexivity. }
  split; [rewrite EZ; lia|].
  pose proof H8 as (_ & _ & _ & _ & _ & H11 & _). split; [exact H11|].
  repeat (split; [assumption|]). split; [split; [discriminate|intros fc sc _; eauto]|].
  assert (EI : INR size = 10000) by (rewrite INR_IZR_INZ, EZ; reflexivity).
  assert (K30 : 2 ^ 30 = 1073741824) by (rewrite pow_IZR; reflexivity).
  assert (P900 : 2 ^ 10 <= 2 ^ 900) by (apply Rle_pow; [lra|lia]).
  assert (P100 : / 2 ^ 100 <= / 2 ^ 1) by (apply Rinv_le_contravar; [lra|apply Rle_pow; [lra|lia]]).
  unfold segments_fit_rounded. cbn [blips_kw blips_pk sk_pmin sk_pmax sk_bmin pk_segwidth k q]. unfold tsamp, ts, blips_file. cbn [se_tsamp].
  rewrite EI, K30. replace (INR 40) with 40 by (rewrite INR_IZR_INZ; reflexivity).
  assert (2 ^ 10 = 1024) by ring. lra.
Qed.
