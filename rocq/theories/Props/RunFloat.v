(** C132: a run of the pipeline finds pulses in floating point. *)
From Coq Require Import String List Arith ZArith Bool Lia Reals Lra Psatz Permutation Sorted Relations.
From Flocq Require Import Core.
From Verif Require Import Base.Result Base.Buf Base.Num Model.FastRmed Model.Transforms Model.Libffa Model.Periodogram Model.Metadata
  Model.TimeSeries Model.Search Model.Cluster Model.Peaks Model.Pipeline Model.Ranges Model.Worker Model.Rseek
  Spec.Friends Spec.Sums Spec.Overlap Spec.Noise Spec.Pulse Spec.Libm Spec.Order
  Proof.Index Proof.Downsample Proof.Snr Proof.Detect Proof.Cluster Proof.ClusterFloat Proof.Pipeline Proof.TimeSeries Proof.PeaksFloat
  Props.Downsample Props.Cluster Props.Snr Props.TimeSeries Props.Peaks Props.Pipeline Props.PeaksFloat Props.PeriodogramFloat Props.SnrFloat Props.DownsampleFloat
  Props.PeriodogramRounding Props.Sigproc Props.Detect Props.DetectFloat Props.WidthsFloat Props.NormFloat Props.Worker Props.Rseek Props.Deredden
  Props.DereddenIeee Props.DereddenError Props.DereddenDetect
  Model.Harmonic Model.Folding Model.DmIter Model.Writer Model.Process Proof.RunKeeps Props.FoldFloat Props.EndToEndFloat Props.Process Props.RunKeeps.
Import ListNotations.
Local Open Scope R_scope.

(** [m] is the last of [l] with this DM *)
Definition last_of {N : num} (l : list (meta N)) (k : N) (m : meta N) : Prop :=
  exists l1 l2, l = l1 ++ m :: l2 /\ m_dm m = k /\ forall m', In m' l2 -> m_dm m' <> k.

(** the first of the brightest peaks *)
Definition first_brightest_of {N : num} (snr : peak N -> R) (ps : list (peak N)) (p : peak N) : Prop :=
  exists l1 l2, ps = l1 ++ p :: l2 /\ (forall q, In q l1 -> snr q < snr p) /\ forall q, In q l2 -> snr q <= snr p.

Section Run.
Context (bld : build).
Local Notation NF := (numF bld).

Lemma dict_get_set_float (k k' : R) (m : meta NF) d :
  dict_get NF k' (dict_set NF k m d) = if Req_bool k k' then Ok m else dict_get NF k' d.
Proof.
  induction d as [|[a v] d IH]; cbn [dict_set dict_get].
  - change (@n_eqb NF k' k) with (Req_bool k' k). destruct (Req_bool_spec k' k), (Req_bool_spec k k'); auto; congruence.
  - change (@n_eqb NF k a) with (Req_bool k a). destruct (Req_bool_spec k a) as [->|Ne]; cbn [dict_get];
      change (@n_eqb NF k' a) with (Req_bool k' a).
    + destruct (Req_bool_spec k' a) as [->|Ne']; [now rewrite Req_bool_true|rewrite Req_bool_false; auto].
    + rewrite IH. destruct (Req_bool_spec k' a) as [->|Ne']; [now rewrite Req_bool_false|]. reflexivity.
Qed.

Lemma dict_of_float (l : list (meta NF)) k m : dict_get NF k (dict_of NF l) = Ok m -> last_of l k m.
Proof.
  revert k m. induction l as [|m0 l IH] using rev_ind; intros k m H; [discriminate|].
  unfold dict_of in *. rewrite fold_left_app in H. cbn [fold_left] in H. rewrite dict_get_set_float in H.
  destruct (Req_bool_spec (m_dm m0) k) as [E|E].
  - injection H as <-. exists l, []. split; [reflexivity|]. split; [exact E|intros m' []].
  - destruct (IH k m H) as (l1 & l2 & -> & E' & N). exists l1, (l2 ++ [m0]). split; [now rewrite <- app_assoc|]. split; auto.
    intros y Hy. apply in_app_iff in Hy as [Hy|[<-|[]]]; auto.
Qed.

Lemma prepare_float abs_sin read_meta (cf : config NF) files d : prepare NF abs_sin read_meta cf files = Ok d ->
  exists metas, Forall2 (fun f m => read_meta f = Ok m) files metas /\ di_dict d = dict_of NF metas /\ di_selected d <> [].
Proof.
  unfold prepare. intros H. apply bind_ok in H as (w & _ & H). apply bind_ok in H as (l & EL & H). apply bind_ok in H as (d' & ED & H).
  apply bind_ok in H as (u & _ & H). injection H as <-. exists l. split; [now apply mapM_inv|].
  unfold dm_iterator in ED. destruct l as [|m0 ms]; [discriminate|].
  apply bind_ok in ED as ([gl gb] & _ & ED). apply bind_ok in ED as ([[f0 f1] nc] & _ & ED). apply bind_ok in ED as (sel & ES & ED).
  injection ED as <-. cbn [di_dict di_selected]. split; [reflexivity|]. unfold select_dms in ES.
  destruct (sorted_asc _ _) as [|d0 ds]; [discriminate|]. apply bind_ok in ES as (l & _ & ES). injection ES as <-. discriminate.
Qed.

Lemma centre_float (c : cluster NF) best : centre c = Ok best -> first_brightest_of (fun p : peak NF => p_snr p) (c_peaks c) best.
Proof.
  unfold centre. destruct (c_peaks c) as [|p ps]; [discriminate|]. intros H. injection H as <-.
  exact (first_max_first (fun q : peak NF => p_snr q) p ps).
Qed.

Lemma fold_least (l : list R) (x y : R) : In y (x :: l) -> fold_left (fun a b : R => if Rlt_bool b a then b else a) l x <= y.
Proof.
  revert x y. induction l as [|b l IH]; intros x y; cbn [fold_left]; [intros [->|[]]; lra|].
  assert (L : (if Rlt_bool b x then b else x) <= x /\ (if Rlt_bool b x then b else x) <= b) by (destruct (Rlt_bool_spec b x); lra).
  intros [->|[->|H]]; [| |apply IH; now right].
  - eapply Rle_trans; [apply IH; now left|]. lra.
  - eapply Rle_trans; [apply IH; now left|]. lra.
Qed.

Lemma fold_largest (l : list R) (x y : R) : In y (x :: l) -> y <= fold_left (fun a b : R => if Rlt_bool a b then b else a) l x.
Proof.
  revert x y. induction l as [|b l IH]; intros x y; cbn [fold_left]; [intros [->|[]]; lra|].
  assert (L : x <= (if Rlt_bool x b then b else x) /\ b <= (if Rlt_bool x b then b else x)) by (destruct (Rlt_bool_spec x b); lra).
  intros [->|[->|H]]; [| |apply IH; now right].
  - eapply Rle_trans; [|apply IH; now left]. lra.
  - eapply Rle_trans; [|apply IH; now left]. lra.
Qed.

Lemma search_range_found (ranges : list (range_conf NF)) (P : R) :
  (exists r, In r ranges /\ rg_pmin r <= P < rg_pmax r) ->
  exists r, get_search_range NF ranges P = Ok (Some r) /\ In r ranges /\ rg_pmin r <= P < rg_pmax r.
Proof.
  intros (r & Hr & H1 & H2). unfold get_search_range.
  pose proof (sorted_asc_any (fun a b : range_conf NF => n_ltb (rg_pmax a) (rg_pmax b)) ranges) as PM.
  set (rs := sorted_asc _ ranges) in *. assert (Hr' : In r rs) by (eapply Permutation_in; eauto).
  assert (NE : rs <> []) by (intros E; rewrite E in Hr'; destruct Hr').
  assert (Q : forall x, In x rs -> In x ranges) by (intros x Hx; eapply Permutation_in; [symmetry; exact PM|exact Hx]).
  clearbody rs.
  assert (M1 : exists a : R, min_of NF (map rg_pmin rs) = Ok a /\ a <= P).
  { destruct rs as [|x rs]; [contradiction|]. eexists. split; [reflexivity|]. eapply Rle_trans; [|exact H1].
    apply (fold_least (map rg_pmin rs) (rg_pmin x) (rg_pmin r)). exact (in_map rg_pmin (x :: rs) r Hr'). }
  assert (M2 : exists a : R, max_of NF (map rg_pmax rs) = Ok a /\ P < a).
  { destruct rs as [|x rs]; [contradiction|]. eexists. split; [reflexivity|]. eapply Rlt_le_trans; [exact H2|].
    apply (fold_largest (map rg_pmax rs) (rg_pmax x) (rg_pmax r)). exact (in_map rg_pmax (x :: rs) r Hr'). }
  destruct M1 as (a & E1 & L1), M2 as (b & E2 & L2). change (n_T NF) with R in *. rewrite E1. cbn [bind]. rewrite E2. cbn [bind].
  change (@n_ltb NF P a) with (Rlt_bool P a). change (@n_ltb NF P b) with (Rlt_bool P b).
  rewrite (Rlt_bool_false P a), (Rlt_bool_true P b) by assumption. cbn [negb].
  destruct (find _ rs) as [x|] eqn:E.
  - apply find_some in E as [Ix Hx]. exists x. split; [reflexivity|]. split; [auto|].
    change (@n_leb NF (rg_pmin x) P) with (Rle_bool (rg_pmin x) P) in Hx. change (@n_ltb NF P (rg_pmax x)) with (Rlt_bool P (rg_pmax x)) in Hx.
    apply andb_true_iff in Hx as [X1 X2]. revert X1 X2. case Rle_bool_spec; [|discriminate]. case Rlt_bool_spec; [|discriminate]. auto.
  - exfalso. pose proof (find_none _ _ E r Hr') as F. cbn beta in F.
    change (@n_leb NF (rg_pmin r) P) with (Rle_bool (rg_pmin r) P) in F. change (@n_ltb NF P (rg_pmax r)) with (Rlt_bool P (rg_pmax r)) in F.
    rewrite Rle_bool_true, Rlt_bool_true in F by assumption. discriminate.
Qed.

(** the period [P] is in a range, and fits this file and the parameters of the candidates of such a range, with a margin *)
Definition can_fold (cf : config NF) (ts : series NF) (P : R) : Prop :=
  let n := INR (length (se_data ts)) in let t : R := se_tsamp ts in
  (Z.of_nat (length (se_data ts)) <= 33554432)%Z /\ double t /\ / 2 ^ 200 <= t /\ P * (1 + / 2 ^ 49) <= n * t /\
  (exists r, In r (cf_ranges cf) /\ sk_pmin (r_search r) <= P < sk_pmax (r_search r)) /\
  forall r, In r (cf_ranges cf) -> sk_pmin (r_search r) <= P < sk_pmax (r_search r) ->
    (1 <= r_cbins r < 2 ^ 53)%Z /\ t * (1 + / 2 ^ 49) <= P / IZR (r_cbins r) /\ (1 <= r_csubints r < 2 ^ 53)%Z /\
    (IZR (r_csubints r) * P * (1 + / 2 ^ 49) <= n * t \/ n * t <= IZR (r_csubints r) * P).

Lemma candidate_float (alloc : nat -> list R) (cf : config NF) (ts0 ts : series NF) (c : cluster NF) best :
  allocates alloc -> prepare_ts NF alloc (cf_rmed_width cf) (cf_rmed_minpts cf) ts0 = Ok ts ->
  centre c = Ok best -> can_fold cf ts0 (p_period best) ->
  exists cd, made_of NF alloc cf ts c = Ok cd /\ cd_params cd = best /\ cd_peaks cd = c_peaks c.
Proof.
  intros Ha EP EC (HN & Ft & T0 & HP & HR & HF). set (P := p_period best : R) in *.
  unfold prepare_ts in EP. apply bind_ok in EP as (ts1 & E1 & E2). unfold se_deredden in E1. apply bind_ok in E1 as (r & _ & E1).
  apply bind_ok in E1 as (u & G & E1). apply guard_ok in G. apply Nat.eqb_eq in G.
  apply new_series_gen in E1 as (A1 & A2 & _). apply new_series_gen in E2 as (B1 & B2 & _). rewrite A1 in B1.
  assert (LN : length (se_data ts) = length (se_data ts0)).
  { rewrite B1, normalised_length. unfold minus. rewrite map_length, combine_length, G. apply Nat.min_id. }
  assert (TS : se_tsamp ts = se_tsamp ts0) by congruence.
  assert (SG : Forall single (se_data ts)).
  { rewrite B1. unfold normalised. apply Forall_forall. intros x Hx. apply in_map_iff in Hx as (y & <- & _).
    change (n_narrow y) with (rnd32 y). unfold single, rnd32. apply generic_format_round; [now apply FLT_exp_valid|apply valid_rnd_N]. }
  assert (SL : se_length ts = rnd64 (INR (length (se_data ts0)) * se_tsamp ts0)).
  { rewrite <- TS, <- LN. apply se_length_float. rewrite LN. exact HN. }
  unfold made_of, candidate_from. rewrite EC. cbn [bind].
  destruct (search_range_found (ranges_of cf) P) as (rg & ER & IR & HG).
  { destruct HR as (r0 & I0 & H0). exists (range_conf_of r0). split; [unfold ranges_of; now apply in_map|exact H0]. }
  fold P. change (n_T NF) with R in *. rewrite ER. cbn [bind]. unfold ranges_of in IR. apply in_map_iff in IR as (r0 & <- & I0). cbn [range_conf_of rg_pmin rg_pmax] in HG.
  cbn [range_conf_of rg_cbins rg_csubints]. destruct (HF r0 I0 HG) as (C1 & C2 & S1 & S2).
  unfold from_pipeline_output. rewrite EC. cbn [bind].
  match goal with |- context [series_fold _ _ _ _ _ ?s] => set (sub := s) end.
  assert (FR : exists X, series_fold NF alloc ts (p_period best) (r_cbins r0) sub = Ok X).
  { unfold series_fold. apply fold_float_returns; auto.
    - rewrite LN. exact HN.
    - lia.
    - rewrite Z2Nat.id by lia. lia.
    - rewrite TS. exact Ft.
    - rewrite TS. exact T0.
    - rewrite LN, TS. exact HP.
    - rewrite TS. rewrite INR_IZR_INZ, Z2Nat.id by lia. exact C2.
    - rewrite LN, TS. unfold sub. destruct (negb _) eqn:E; [exact I|]. split; [lia|]. destruct S2 as [S2|S2]; [exact S2|]. exfalso.
      apply negb_false_iff in E. rewrite SL in E.
      cbn [numF opsF n_dbl o_mul o_ofZ n_ltb] in E. rewrite (rnd64_id (IZR _)) in E by (apply F64_int; lia).
      fold P in E. apply (rnd64_le) in S2. revert E. change (n_T NF) with R in *. case Rlt_bool_spec; [|discriminate]. intros L _. lra. }
  destruct FR as [X EX]. change (n_T NF) with R in *. rewrite EX. cbn [bind]. eexists. split; [reflexivity|]. split; reflexivity.
Qed.

Context (flog : R -> R) (fpow : R -> nat -> R) (alloc : nat -> list R) (allocz : nat -> list Z)
  (fit : list R -> list R -> Z -> res (R -> R)) (argsort : list R -> list nat) (as_fraction : R -> res fraction) (abs_sin : R -> R)
  (read_meta : string -> res (meta NF)) (load : string -> res (series NF)).
Context (peaks_csv : list (peak NF) -> string) (clusters_csv : list (row NF) -> string)
  (candidates_csv : list (peak NF) -> string) (to_json png : candidate NF (series NF) -> res string)
  (pieces : string -> list string).
Local Notation process := (process NF flog fpow alloc allocz fit argsort as_fraction abs_sin read_meta load peaks_csv clusters_csv
  candidates_csv to_json png pieces).

(** C129 for a whole run.  When a run returns and one of the DMs searched has a file with pulses that a range detects for
    sure, a cluster holds a peak at least as bright as sure, at that DM and linked to the period of the pulses.  The
    cluster has a brightest peak; if that passes the filters, none is dropped for its rank and it can be folded, it is a
    candidate with all the peaks of the cluster. *)
Theorem run_float_finds_pulses :
  forall faults (cf : config NF) files outdir s pr s' (minpts : Z),
  allocates alloc -> allocates allocz -> sorts argsort -> cf_processes cf <> 0%nat -> cf_rmed_minpts cf = PInt minpts ->
  process faults cf files outdir s (Ok pr) s' ->
  exists (metas : list (meta NF)) (dms : list R),
    Forall2 (fun f m => read_meta f = Ok m) files metas /\ dms <> [] /\
    (forall dm, In dm dms -> exists m, last_of metas dm m) /\
  forall dm m (ts : series NF) r (X M period phi w base : R) (on : nat -> bool),
  In dm dms -> last_of metas dm m -> load (m_fname m) = Ok ts -> md_get "dm" (se_md ts) = Some (MFloat (N := NF) dm) ->
  In r (cf_ranges cf) ->
  let k := r_search r in let q := r_peaks r in let rw : R := cf_rmed_width cf in
  let data : list R := se_data ts in let tsamp : R := se_tsamp ts in
  let size := length data in let sd0 := sqrt (rvar data) in
  let wd := ZnearestE (rnd64 (rw / tsamp)) in
  let e := deredden_accuracy (samples_per_mean wd minpts) X M in
  let T := rnd64 (INR size * tsamp) in
  (* the data *)
  Forall single data -> (forall i, (i < size)%nat -> Rabs (nth i data 0) <= X) ->
  (forall i, (i < size)%nat -> Rabs (nth i data 0 - base) <= M) -> M + e <= 2 ^ 20 * (sd0 - e) ->
  0 <= rw -> rw / tsamp <= 2 ^ 51 -> (0 < minpts <= 2 ^ 52)%Z -> Z.odd minpts = true -> window_fits wd minpts (Z.of_nat size) ->
  mostly_quiet data base (fst (groups_of wd (PInt minpts))) (snd (groups_of wd (PInt minpts))) ->
  pulsed tsamp period phi w base on data ->
  forall clrad,
  float_search flog fpow size [1%nat] tsamp (sk_pmin k) (sk_pmax k) (sk_bmin k) (sk_bmax k) -> double (sk_ducy k) -> sk_ducy k < 1 ->
  pk_clrad q = Some clrad -> 0 <= clrad -> sk_pmin k <= period <= sk_pmax k * (1 - / 2 ^ 40) ->
  exists (widths : list Z) (periods : list R) (bins : list Z) (snrs : arr2 R) (thr : nat -> R -> R) (t b rows n : nat) (f V sd : R),
    (* of the periodogram of the data *)
    (exists ts', ffa_search_ts NF flog fpow alloc allocz ts k true rw (PInt minpts) false
       = Ok (ts', Pgram (N := NF) widths periods bins snrs (se_md ts'))) /\
    generate_width_trials NF (Z.of_nat (sk_bmin k)) (sk_ducy k) (sk_wtsp k) = Ok widths /\
    (t < length periods)%nat /\ nth t bins 0%Z = Z.of_nat b /\ (sk_bmin k <= b <= sk_bmax k)%nat /\ (2 <= rows)%nat /\
    next_trial tsamp period (nth t periods 0) b rows f /\ noise_variance n f V /\ 0 < sd /\ Rabs (sd - sd0) <= e /\
    1 <= f /\ INR n * f <= INR size * (1 + / 2 ^ 53) /\ INR size * (1 - / 2 ^ 53) < (INR n + 1) * f /\
    (rows * b <= n < (rows + 1) * b)%nat /\
    (forall iw, (iw < length widths)%nat ->
       is_threshold_rounded bld fit (map (fun P => rnd64 (1 / P)) periods) (trials snrs iw) T
         (pk_smin q) (pk_segwidth q) (pk_nstd q) (pk_minseg q) (pk_polydeg q) (thr iw)) /\
    forall iw, (iw < length widths)%nat ->
      let W := Z.to_nat (nth iw widths 0%Z) in
      w * INR b + 2 * INR (Nat.log2_up rows) + 3 <= INR W ->
      let sure := sure_snr_rounded data base on M e b W rows n f V sd in
      pk_smin q < sure -> thr iw (rnd64 (1 / nth t periods 0)) < sure ->
      (* a cluster holds the peak found in this file and has a brightest peak *)
      exists c p best,
        In c (pr_clusters pr) /\ In p (c_peaks c) /\ p_width p = nth iw widths 0%Z /\ p_dm p = Some dm /\ sure <= p_snr p /\
        chain_rounded periods snrs (length widths) (pk_smin q) (rnd64 (clrad / T)) (rnd64 (1 / nth t periods 0)) (p_freq p) /\
        first_brightest_of (fun x : peak NF => p_snr x) (c_peaks c) best /\ sure <= p_snr best /\
        (* it is a candidate unless it is filtered out or cannot be folded *)
        (passes_any NF (cf_filters cf) c best -> fl_max_number (cf_filters cf) = None ->
         (forall dm' m' ts', p_dm best = Some dm' -> last_of metas dm' m' -> load (m_fname m') = Ok ts' -> can_fold cf ts' (p_period best)) ->
         exists cd, In cd (pr_candidates pr) /\ cd_params cd = best /\ cd_peaks cd = c_peaks c).
Proof.
  intros faults cf files outdir s pr s' minpts Ha Hz HS PR MP H.
  destruct (run_keeps_peaks NF flog fpow alloc allocz fit argsort as_fraction abs_sin read_meta load peaks_csv clusters_csv candidates_csv
    to_json png pieces faults cf files outdir s pr s' PR H) as (d & names & lists & EP & FN & FL & PM & CC & CT & _ & CA).
  destruct (prepare_float abs_sin read_meta cf files d EP) as (metas & RM & DD & SN).
  assert (LO : forall dm name, get_filename NF d dm = Ok name -> exists m, last_of metas dm m /\ m_fname m = name).
  { intros dm name E. unfold get_filename in E. apply bind_ok in E as (m & E & E'). injection E' as <-. rewrite DD in E.
    exists m. split; [now apply dict_of_float|reflexivity]. }
  assert (UN : forall dm m m', last_of metas dm m -> last_of metas dm m' -> m = m').
  { clear. intros dm m m' (l1 & l2 & E & D1 & N1) (k1 & k2 & E' & D2 & N2). rewrite E in E'.
    apply app_eq_app in E' as (l & [[E1 E2]|[E1 E2]]).
    - destruct l as [|x l]; cbn in E2; [congruence|]. injection E2 as <- E2. exfalso. apply (N2 m); [|exact D1].
      rewrite E2. apply in_app_iff. right. now left.
    - destruct l as [|x l]; cbn in E2; [congruence|]. injection E2 as <- E2. exfalso. apply (N1 m'); [|exact D2].
      rewrite E2. apply in_app_iff. right. now left. }
  exists metas, (di_selected d). split; [exact RM|]. split; [exact SN|]. split.
  { intros dm Hd. destruct (Forall2_in_l _ _ _ FN dm Hd) as (name & _ & E). destruct (LO dm name E) as (m & L & _). eauto. }
  intros dm m ts r X M period phi w base on Hd LW EL ED Ir k q rw data tsamp size sd0 wd e T HF HX HM HK R0 R1 M0 MO Fit MQ PU clrad
    FS Fd Hd1 EC C0 HPR.
  destruct (Forall2_in_l _ _ _ FN dm Hd) as (name & Hname & EN). destruct (LO dm name EN) as (m' & L' & <-).
  rewrite <- (UN dm m m' LW L') in *. clear m' L'.
  destruct (Forall2_in_l _ _ _ FL _ Hname) as (peaks & Ipk & EW). cbn beta in EW. unfold worker in EW. rewrite MP in EW.
  destruct (worker_float_finds_pulses bld flog fpow alloc allocz fit argsort load rw minpts (search_confs cf) (m_fname m) ts dm peaks
    X M period phi w base on Ha Hz HS EL ED HF HX HM HK R0 R1 M0 MO Fit MQ PU EW k q clrad)
    as (ws & P & B & S & thr & t & b & rows & n & f & V & sd & H1 & H2 & H3 & H4 & H5 & H6 & H7 & H8 & H9 & H10 & H11 & H12 & H13 & H14 & H15 & H16);
    auto.
  { unfold search_confs. apply in_map_iff. exists r. auto. }
  exists ws, P, B, S, thr, t, b, rows, n, f, V, sd. repeat (split; [assumption|]).
  intros iw Hiw W HW sure S1 S2. destruct (H16 iw Hiw HW S1 S2) as (p & Ip & Wp & Dp & Sp & Cp).
  assert (IP : In p (pr_peaks pr)).
  { apply (Permutation_in p (Permutation_sym PM)). apply in_concat. exists peaks. auto. }
  rewrite <- CC in IP. apply in_concat in IP as (l & Il & Ip'). apply in_map_iff in Il as (c & <- & Ic).
  destruct (CT c Ic) as (best & EB & IB). exists c, p, best. split; [exact Ic|]. split; [exact Ip'|]. split; [exact Wp|]. split; [exact Dp|].
  split; [exact Sp|]. split; [exact Cp|]. pose proof (centre_float c best EB) as FB. split; [exact FB|]. split.
  { destruct FB as (l1 & l2 & EQ & B1 & B2). eapply Rle_trans; [exact Sp|]. rewrite EQ in Ip'. apply in_app_iff in Ip' as [I|[I|I]].
    - left. exact (B1 p I).
    - subst p. apply Rle_refl.
    - exact (B2 p I). }
  intros PA MX CF. destruct (CA (or_introl MX) c best Ic EB PA) as (kd & ts2 & KD & RA & MO').
  destruct RA as (dm' & fname & ts0 & EK & GF & LD & PP). destruct (LO dm' fname GF) as (m2 & L2 & <-).
  assert (DB : p_dm best = Some dm').
  { destruct KD as [<-|KD]; [exact EK|]. rewrite EK in KD. unfold dm_eqb in KD. destruct (p_dm best) as [x|]; [|discriminate].
    change (@n_eqb NF x dm') with (Req_bool x dm') in KD. revert KD. case Req_bool_spec; [now intros ->|discriminate]. }
  destruct (candidate_float alloc cf ts0 ts2 c best Ha PP EB (CF dm' m2 ts0 DB L2 LD)) as (cd & E & E1 & E2).
  exists cd. split; [now apply MO'|]. auto.
Qed.
End Run.
Print Assumptions run_float_finds_pulses.

(** a run on the file of C129: the data conditions hold, and the pulses can be folded in 16 bins and 20 subintegrations *)
Definition blips_range bld : range (numF bld) := Rg (N := numF bld) (blips_kw bld) (blips_pk bld) 16 20.
Definition blips_config bld : config (numF bld) :=
  Config (N := numF bld) 2 None None None None None None (31 / 1024) (PInt 31) [blips_range bld]
    (/ 5) (Hflags (N := numF bld) 100 1 3 3) (Filters (N := numF bld) None (Some 7) None None) false.
Example run_float_finds_pulses_ex : forall bld,
  let ts := blips_file bld in let cf := blips_config bld in let k := blips_kw bld in
  let data : list R := se_data ts in let tsamp : R := se_tsamp ts in let rw := 31 / 1024 in
  let size := length data in let s := sqrt (rvar data) in let wd := ZnearestE (rnd64 (rw / tsamp)) in
  let e := deredden_accuracy (samples_per_mean wd 31) 3 2 in
  let on i := (i mod 96 =? 48)%nat in
  cf_processes cf <> 0%nat /\ cf_rmed_minpts cf = PInt 31 /\ In (blips_range bld) (cf_ranges cf) /\
  can_fold bld cf ts (3 / 32) /\
  md_get "dm" (se_md ts) = Some (MFloat (N := numF bld) 10) /\
  Forall single data /\ (forall i, (i < size)%nat -> Rabs (nth i data 0) <= 3) /\
  (forall i, (i < size)%nat -> Rabs (nth i data 0 - 1) <= 2) /\ 2 + e <= 2 ^ 20 * (s - e) /\
  0 <= rw /\ rw / tsamp <= 2 ^ 51 /\ (0 < 31 <= 2 ^ 52)%Z /\ Z.odd 31 = true /\ window_fits wd 31 (Z.of_nat size) /\
  mostly_quiet data 1 (fst (groups_of wd (PInt 31))) (snd (groups_of wd (PInt 31))) /\
  pulsed tsamp (3 / 32) (1 / 2) (/ 96) 1 on data /\
  float_search ln pow size [1%nat] tsamp (sk_pmin k) (sk_pmax k) (sk_bmin k) (sk_bmax k) /\ double (sk_ducy k) /\ sk_ducy k < 1 /\
  pk_clrad (blips_pk bld) = Some (/ 5) /\ 0 <= / 5 /\ sk_pmin k <= 3 / 32 <= sk_pmax k * (1 - / 2 ^ 40).
Proof.
  intros bld ts cf k data tsamp rw size s wd e on.
  split; [cbn; lia|]. split; [reflexivity|]. split; [now left|]. split; [|exact (worker_float_finds_pulses_ex bld)].
  assert (LN : length (se_data ts) = (100 * 100)%nat).
  { cbn [ts blips_file se_data]. unfold blips. rewrite map_length. apply seq_length. }
  assert (IN : INR (length (se_data ts)) = 10000) by (rewrite LN, mult_INR, !INR_IZR_INZ; cbn; lra).
  assert (U : 0 < / 2 ^ 49 <= / 1000).
  { split; [apply Rinv_0_lt_compat, pow_lt; lra|]. apply Rinv_le_contravar; [lra|]. replace (2 ^ 49) with 562949953421312 by ring. lra. }
  unfold can_fold. rewrite IN. split; [rewrite LN; lia|]. cbn [ts blips_file se_tsamp].
  split. { replace (/ 1024) with (bpow radix2 (-10)) by (cbn; lra). apply generic_format_bpow. unfold FLT_exp. lia. }
  split. { apply Rinv_le_contravar; [lra|]. replace 1024 with (2 ^ 10) by ring. apply Rle_pow; [lra|lia]. }
  split; [lra|]. split. { exists (blips_range bld). split; [now left|]. cbn [blips_range r_search blips_kw sk_pmin sk_pmax]. lra. }
  intros r [<-|[]]. cbn [blips_range r_cbins r_csubints]. split; [lia|]. split; [lra|]. split; [lia|]. left. lra.
Qed.
