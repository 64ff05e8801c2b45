(** C75-C78: the whole pipeline, from the input files to the files written. *)
From Coq Require Import String List Arith ZArith Bool Lia Reals Lra Psatz Permutation Sorted.
From Flocq Require Import Core.
From Verif Require Import Base.Result Base.Buf Base.Num Model.Transforms Model.Downsample Model.FastRmed Model.Snr
  Model.Libffa Model.Periodogram Model.Metadata Model.TimeSeries Model.Search Model.Cluster Model.Peaks Model.Harmonic
  Model.Folding Model.DmIter Model.Pipeline Model.Ranges Model.Pool Model.Writer Model.Sigproc Model.Presto
  Model.Worker Model.Process Spec.Sums Spec.FfaSpec Spec.Overlap Spec.Noise Spec.Boxcar Spec.Friends Spec.Smearing
  Proof.Cluster Proof.Pipeline Proof.TimeSeries Props.Downsample Props.Folding Props.FastRmed Props.Periodogram
  Props.Search Props.Peaks Props.DmIter Props.Pipeline Props.Ranges Props.Build Props.Pool Props.Writer
  Props.Sigproc Props.Presto Props.Worker.
Import ListNotations.
Local Open Scope R_scope.

Definition safe {A} (r : res A) : Prop := r <> UB /\ r <> Loop.

Lemma safe_bind {A B} (m : res A) (k : A -> res B) : safe m -> (forall a, m = Ok a -> safe (k a)) -> safe (bind m k).
Proof.
  intros [H1 H2] K. destruct m as [a|e| |]; cbn; try contradiction.
  - now apply K.
  - split; discriminate.
Qed.
Lemma safe_ok {A} (a : A) : safe (Ok a). Proof. split; discriminate. Qed.
Lemma safe_err {A} e : safe (@Err A e). Proof. split; discriminate. Qed.
Lemma safe_guard b e : safe (guard b e). Proof. destruct b; [apply safe_ok|apply safe_err]. Qed.
Lemma safe_mapM {A B} (f : A -> res B) l : (forall a, In a l -> safe (f a)) -> safe (mapM f l).
Proof.
  induction l as [|a l IH]; intros H; cbn [mapM]; [apply safe_ok|].
  apply safe_bind; [apply H; now left|]. intros b _. apply safe_bind; [apply IH; intros; apply H; now right|].
  intros; apply safe_ok.
Qed.
Lemma safe_foreach {A S} (f : A -> S -> res S) l : (forall a s, In a l -> safe (f a s)) -> forall s, safe (foreach l f s).
Proof.
  induction l as [|a l IH]; intros H s; cbn [foreach]; [apply safe_ok|].
  apply safe_bind; [apply H; now left|]. intros s' _. apply IH. intros; apply H; now right.
Qed.

(** a file is searched without undefined behaviour *)
(** a search followed by find_peaks returns or raises *)
Lemma search_safe alloc allocz (fit : list R -> list R -> Z -> res (R -> R)) argsort (ts' : series numR) k q (rw : R) minpts :
  allocates alloc -> allocates allocz -> (forall fc sc k, safe (fit fc sc k)) ->
  worker_fits (length (se_data ts')) (se_tsamp ts') k -> se_data ts' <> [] ->
  safe ('(_, pg) <- ffa_search_ts numR ln pow alloc allocz ts' k false rw minpts true ;; find_peaks_pg numR fit argsort pg q).
Proof.
  intros Ha Hz HF (HFi & Hd) NE.
  set (x := se_data ts') in *. set (tsamp := se_tsamp ts') in *. set (size := length x) in *.
  unfold ffa_search_ts. cbn [bind].
  destruct (Props.Libffa.width_trials (Z.of_nat (sk_bmin k)) (sk_ducy k) (sk_wtsp k)) as (ws & EW & _ & _ & Wn & _).
  numR_ty. rewrite EW. cbn [bind]. fold x tsamp.
  assert (SP : safe (py_periodogram numR ln pow alloc allocz x tsamp (map Z.to_nat ws) (sk_pmin k) (sk_pmax k) (sk_bmin k) (sk_bmax k))).
  { destruct (Classical_Prop.classic (search_args tsamp (sk_pmin k) (sk_pmax k) (sk_bmin k) (sk_bmax k))) as [HA|HA].
    2:{ destruct (periodogram_checks alloc allocz x (map Z.to_nat ws) tsamp _ _ _ _ HA) as [_ ->]. apply safe_err. }
    destruct (widths_nat (sk_ducy k) (sk_wtsp k) (sk_bmin k)) as (ws' & EW' & _ & _ & _ & _ & Wn' & WG);
      [now destruct HA as (_ & _ & _ & ? & _)|auto|].
    numR_ty. rewrite EW in EW'. injection EW' as <-.
    destruct (periodogram_returns alloc allocz x (map Z.to_nat ws) tsamp _ _ _ _ Ha Hz HA HFi Wn' WG) as [K1 K2].
    { destruct x; [now destruct NE|cbn; lia]. }
    destruct (Classical_Prop.classic (long_enough size tsamp (sk_pmin k) (sk_pmax k) (sk_bmin k) (sk_bmax k))) as [L|L].
    - destruct (K1 L) as (r & E). rewrite E. apply safe_ok.
    - rewrite (K2 L). apply safe_err. }
  numR_ty. revert SP.
  destruct (py_periodogram numR ln pow alloc allocz x tsamp (map Z.to_nat ws) _ _ _ _) as [[[P B] S]|e| |]; intros [SP1 SP2];
    cbn [bind]; [|apply safe_err|now destruct SP1|now destruct SP2].
  unfold find_peaks_pg.
  cbn [pg_md]. apply safe_bind; [unfold md_tobs; destruct (md_get _ _) as [[| | | | |]|]; apply safe_ok || apply safe_err|].
  intros T _. apply safe_bind; [unfold md_dm; destruct (md_get _ _) as [[| | | | |]|]; apply safe_ok || apply safe_err|].
  assert (SS : forall f s (c : R), safe (find_peaks_single numR fit argsort f s T (pk_smin q) (pk_segwidth q) (pk_nstd q)
    (pk_minseg q) (pk_polydeg q) c)).
  { intros f s c. unfold find_peaks_single. apply safe_bind.
    { unfold segment_stats. repeat match goal with |- context [if ?b then _ else _] => destruct b end;
        apply safe_ok || apply safe_err. }
    intros [[fc smed] sstd] _. apply safe_bind; [|intros; apply safe_ok].
    match goal with |- context [if ?b then _ else _] => destruct b end; [apply HF|apply safe_ok]. }
  intros dm _. cbn [pg_widths]. destruct (pk_clrad q) as [clrad|]; [|destruct ws; [apply safe_ok|]].
  - unfold find_peaks. apply safe_bind; [|intros; apply safe_ok]. apply safe_mapM. intros iw _. cbv zeta.
    apply safe_bind; [apply SS|intros; apply safe_ok].
  - apply safe_bind; [apply SS|intros; apply safe_err].
Qed.

Lemma process_fname_safe alloc allocz (fit : list R -> list R -> Z -> res (R -> R)) argsort
    (load : string -> res (series numR)) (rw : R) minpts (confs : list (search_kw numR * peaks_kw numR)) fname :
  allocates alloc -> allocates allocz -> minpts_positive minpts ->
  safe (load fname) -> (forall fc sc k, safe (fit fc sc k)) ->
  (forall ts, load fname = Ok ts -> Forall (fun c => worker_fits (length (se_data ts)) (se_tsamp ts) (fst c)) confs) ->
  safe (process_fname numR ln pow alloc allocz fit argsort load rw minpts confs fname).
Proof.
  intros Ha Hz Hm HL HF HC. unfold process_fname.
  apply safe_bind; [exact HL|]. intros ts EL. specialize (HC ts EL).
  apply safe_bind; [unfold md_dm; destruct (md_get _ _) as [[| | | | |]|]; apply safe_ok || apply safe_err|]. intros dm ED.
  apply safe_bind; [apply safe_guard|]. intros _ _.
  assert (NS : forall (x : list R) (tsamp : R) md, safe (new_series (N := numR) x tsamp md)).
  { intros x tsamp md. unfold new_series, metadata_new. apply safe_bind; [|intros; apply safe_ok].
    apply safe_bind; [apply safe_guard|]. intros; apply safe_ok. }
  apply safe_bind.
  { unfold prepare_ts, se_deredden, se_normalise. apply safe_bind; [|intros; apply NS].
    apply safe_bind; [|intros r _; apply safe_bind; [apply safe_guard|intros; apply NS]].
    destruct (deredden_accepts alloc (se_data ts) (se_tsamp ts) rw minpts Ha Hm) as [K1 K2].
    set (w := ZnearestE (rw / se_tsamp ts)) in *.
    assert (D : window_py_ok (length (se_data ts)) w minpts \/ ~ window_py_ok (length (se_data ts)) w minpts) by apply Classical_Prop.classic.
    destruct D as [D|D].
    - destruct (K1 D) as (r & E & _). rsimp. rewrite py_round_R. fold w. numR_ty. rewrite E. apply safe_ok.
    - rsimp. rewrite py_round_R. fold w. numR_ty. destruct (K2 D) as [-> | ->]; apply safe_err. }
  intros ts' EP.
  assert (MD : md_get "dm" (se_md ts) <> None).
  { unfold md_dm in ED. now destruct (md_get "dm" (se_md ts)). }
  destruct (prepare_ts_spec alloc rw minpts ts ts' Ha MD EP) as ((T2 & Lx & _) & TO).
  apply safe_foreach. intros conf acc Hc. rewrite Forall_forall in HC. specialize (HC conf Hc).
  rewrite <- Lx, <- T2 in HC. pose proof (prepare_ts_nonempty _ _ _ _ _ EP) as NE. clear - HC Ha Hz HF TO NE.
  destruct conf as [k q]. cbn [fst snd] in *.
  pose proof (search_safe alloc allocz fit argsort ts' k q rw minpts Ha Hz HF HC NE) as [S1 S2].
  destruct (ffa_search_ts _ _ _ _ _ _ _ _ _ _ _) as [[t pg]|e| |]; cbn [bind] in *; [|apply safe_err|now destruct S1|now destruct S2].
  apply safe_bind; [now split|intros; apply safe_ok].
Qed.

Lemma last_with_fun (l : list (meta numR)) k m m' : last_with l k m -> last_with l k m' -> m = m'.
Proof.
  intros (a & b & -> & E & N) (a' & b' & E' & F & N').
  revert a' E' N N'. induction a as [|x a IH]; intros [|x' a'] E' N N'; cbn in E'; injection E' as -> E'.
  - reflexivity.
  - exfalso. subst b. apply (N m'); [apply in_app_iff; right; now left|exact F].
  - exfalso. subst b'. apply (N' m); [apply in_app_iff; right; now left|exact E].
  - eapply IH; eauto.
Qed.
Lemma last_with_in (l : list (meta numR)) k m : last_with l k m -> In m l /\ m_dm m = k.
Proof. intros (a & b & -> & E & _). split; [apply in_app_iff; right; now left|exact E]. Qed.

Lemma Forall2_in_r {A B} (P : A -> B -> Prop) l l' : Forall2 P l l' -> forall b, In b l' -> exists a, In a l /\ P a b.
Proof.
  induction 1 as [|a b l l' H F IH]; intros c Hc; [destruct Hc|].
  destruct Hc as [<-|Hc]; [exists a; split; [now left|auto]|]. destruct (IH c Hc) as (x & Hx & Px).
  exists x. split; [now right|auto].
Qed.
Lemma Forall2_in_l {A B} (P : A -> B -> Prop) l l' : Forall2 P l l' -> forall a, In a l -> exists b, In b l' /\ P a b.
Proof.
  induction 1 as [|a b l l' H F IH]; intros c Hc; [destruct Hc|].
  destruct Hc as [<-|Hc]; [exists b; split; [now left|auto]|]. destruct (IH c Hc) as (x & Hx & Px).
  exists x. split; [now right|auto].
Qed.

Definition least (l : list R) (w : R) : Prop := In w l /\ forall v, In v l -> w <= v.

(** a selected DM, the series of its file before and after preparation, and the peaks found in
    it, range by range *)
Definition bin_widths (cf : config numR) : list R :=
  map (fun r : range numR => sk_pmin (r_search r) / INR (sk_bmin (r_search r))) (cf_ranges cf).
Record trial := Trial { tr_dm : R; tr_raw : series numR; tr_ts : series numR; tr_peaks : list (list (peak numR)) }.

Section Run.
Context (alloc : nat -> list R) (allocz : nat -> list Z) (fit : list R -> list R -> Z -> res (R -> R))
  (argsort : list R -> list nat) (as_fraction : R -> res fraction) (abs_sin : R -> R)
  (read_meta : string -> res (meta numR)) (load : string -> res (series numR)).
Local Notation worker := (worker numR ln pow alloc allocz fit argsort load).
Local Notation prepare := (prepare numR abs_sin read_meta).
Local Notation search_files := (search_files numR ln pow alloc allocz fit argsort load).

Definition environment_ok : Prop :=
  allocates alloc /\ allocates allocz /\ sorts argsort /\ forall fc sc k, safe (fit fc sc k).

(** a configuration that makes sense *)
Definition range_fine (r : range numR) : Prop :=
  0 < sk_pmin (r_search r) /\ (1 <= sk_bmin (r_search r))%nat /\
  (1 <= r_cbins r)%Z /\ (1 <= r_csubints r)%Z.
Definition config_ok (cf : config numR) : Prop :=
  cf_processes cf <> 0%nat /\ minpts_positive (cf_rmed_minpts cf) /\ Forall range_fine (cf_ranges cf) /\
  (forall n, fl_max_number (cf_filters cf) = Some n -> (0 < n)%Z).

(** the files have DMs that are not negative, can be searched, and are loaded with the DM and
    the sampling time their headers say *)
Definition files_ok (cf : config numR) (files : list string) : Prop :=
  forall f m, In f files -> read_meta f = Ok m ->
    0 <= m_dm m /\ safe (load (m_fname m)) /\
    forall ts, load (m_fname m) = Ok ts ->
      md_get "dm" (se_md ts) = Some (MFloat (N := numR) (m_dm m)) /\ se_tsamp ts = m_tsamp m /\
      Forall (fun r => worker_fits (length (se_data ts)) (se_tsamp ts) (r_search r)) (cf_ranges cf).

(** the observing band has been given or inferred and makes sense *)
Definition band_known (cf : config numR) (files : list string) : Prop :=
  forall metas f0 f1 nc, Forall2 (fun f m => read_meta f = Ok m) files metas ->
    band_of metas (cf_fmin cf) (cf_fmax cf) (cf_nchans cf) f0 f1 nc -> band_ok f0 f1 nc.

Lemma fold1_least (l : list R) w : min_of numR l = Ok w -> least l w.
Proof.
  unfold min_of, fold1. destruct l as [|a l]; [discriminate|]. intros H. injection H as <-.
  revert a. induction l as [|b l IH]; intros a; cbn [fold_left].
  - split; [now left|]. intros v [<-|[]]. numR_ty. lra.
  - rsimp. specialize (IH (if Rlt_bool b a then b else a)). destruct IH as [I1 I2]. split.
    + destruct I1 as [I1|I1]; [|right; now right]. rewrite <- I1.
      destruct (Rlt_bool b a); [right; now left|now left].
    + pose proof (I2 _ (or_introl eq_refl)) as L.
      intros v [<-|[<-|Hv]]; [| |apply I2; now right]; destruct (Rlt_bool_spec b a); numR_ty; lra.
Qed.
Lemma wmin_least (cf : config numR) w : Forall range_fine (cf_ranges cf) -> wmin numR (ranges_of cf) = Ok w ->
  least (bin_widths cf) w.
Proof.
  intros F H. unfold wmin in H. apply bind_ok in H as (l & E & H). apply fold1_least in H.
  replace (bin_widths cf) with l; [exact H|]. unfold bin_widths.
  unfold ranges_of in E. clear H. revert l E. induction (cf_ranges cf) as [|r rs IH]; intros l E; cbn [map mapM] in E.
  - now injection E as <-.
  - apply bind_ok in E as (x & E1 & E). apply bind_ok in E as (xs & E2 & E). injection E as <-.
    inversion F as [|? ? (_ & B & _) F']; subst. cbn [rg_bmin rg_pmin range_conf_of] in E1.
    destruct (Z.eqb_spec (Z.of_nat (sk_bmin (r_search r))) 0); [lia|]. injection E1 as <-. cbn [map]. rsimp.
    rewrite <- INR_IZR_INZ. f_equal. now apply IH.
Qed.

Lemma dm_iterator_list (l : list (meta numR)) a b c w f0 f1 n (d : dmiter numR) :
  dm_iterator numR abs_sin l a b c w f0 f1 n = Ok d -> di_list d = l /\ l <> [] /\ di_dict d = DmIter.dict_of numR l.
Proof.
  unfold dm_iterator. destruct l as [|m0 ms]; [discriminate|]. intros H.
  apply bind_ok in H as ([gl gb] & _ & H). apply bind_ok in H as ([[g0 g1] nc] & _ & H).
  apply bind_ok in H as (sel & _ & H). injection H as <-. split; [reflexivity|]. split; [discriminate|reflexivity].
Qed.

Lemma band_prepared cf files d : band_known cf files -> prepare cf files = Ok d -> band_ok (di_fmin d) (di_fmax d) (di_nchans d).
Proof.
  intros BK H. unfold Process.prepare in H. apply bind_ok in H as (w & _ & H). apply bind_ok in H as (l & E2 & H).
  apply bind_ok in H as (d' & E3 & H). apply bind_ok in H as ([] & _ & H). injection H as ->.
  destruct (dm_iterator_band _ _ _ _ _ _ _ _ _ _ E3) as (_ & _ & B). apply mapM_inv in E2. exact (BK _ _ _ _ E2 B).
Qed.

Lemma prepare_inv cf files d : config_ok cf -> files_ok cf files -> band_known cf files -> prepare cf files = Ok d ->
  exists metas w,
    Forall2 (fun f m => read_meta f = Ok m) files metas /\ metas <> [] /\ di_list d = metas /\ di_dict d = DmIter.dict_of numR metas /\
    least (bin_widths cf) w /\ 0 < w /\
    validate_ranges numR (ranges_of cf) (tsamp_max numR d) = Ok tt /\
    (forall m, In m metas -> 0 <= m_dm m) /\
    dm_iterator numR abs_sin metas (cf_dm_min cf) (cf_dm_max cf) (cf_dmsinb_max cf) w (cf_fmin cf) (cf_fmax cf)
      (cf_nchans cf) = Ok d.
Proof.
  intros (P & M & F & X) FO BK H. pose proof H as H0. unfold Process.prepare in H. apply bind_ok in H as (w & E1 & H).
  apply bind_ok in H as (l & E2 & H). apply bind_ok in H as (d' & E3 & H). apply bind_ok in H as ([] & E4 & H).
  injection H as ->. apply wmin_least in E1; auto. apply mapM_inv in E2. destruct (dm_iterator_list _ _ _ _ _ _ _ _ _ E3) as (L1 & L2 & L3).
  exists l, w. split; auto. split; auto. split; auto. split; auto. split; auto. split.
  { destruct E1 as [I _]. apply in_map_iff in I as (r & <- & Hr). rewrite Forall_forall in F. destruct (F r Hr) as (A & B & _).
    apply Rmult_lt_0_compat; auto. apply Rinv_0_lt_compat. apply (lt_INR 0). lia. }
  split; auto. split; auto.
  intros m Hm. destruct (Forall2_in_r _ _ _ E2 m Hm) as (f & Hf & Ef). apply (FO f m Hf Ef).
Qed.

(** where a trial comes from: the last of the files with its DM *)
Definition trial_of (cf : config numR) (metas : list (meta numR)) (t : trial) : Prop :=
  exists m, last_with metas (tr_dm t) m /\ load (m_fname m) = Ok (tr_raw t) /\
    prepared (cf_rmed_width cf) (cf_rmed_minpts cf) (tr_raw t) (tr_ts t) /\
    Forall2 (fun r : range numR => range_peaks fit (se_data (tr_ts t)) (se_tsamp (tr_raw t)) (Some (tr_dm t)) (r_search r, r_peaks r))
      (cf_ranges cf) (tr_peaks t).
Definition found (t : trial) : list (peak numR) := concat (tr_peaks t).

(** what the next steps read again *)
Definition reloads (cf : config numR) (d : dmiter numR) (t : trial) : Prop :=
  exists fname, get_filename numR d (tr_dm t) = Ok fname /\ load fname = Ok (tr_raw t) /\
    prepare_ts numR alloc (cf_rmed_width cf) (cf_rmed_minpts cf) (tr_raw t) = Ok (tr_ts t).

Lemma worker_ok cf files metas m : environment_ok -> config_ok cf -> files_ok cf files ->
  Forall2 (fun f m => read_meta f = Ok m) files metas -> In m metas ->
  safe (worker cf (m_fname m)) /\
  forall l, worker cf (m_fname m) = Ok l ->
    exists raw ts ls, load (m_fname m) = Ok raw /\
      prepare_ts numR alloc (cf_rmed_width cf) (cf_rmed_minpts cf) raw = Ok ts /\
      prepared (cf_rmed_width cf) (cf_rmed_minpts cf) raw ts /\
      l = concat ls /\
      Forall2 (range_peaks fit (se_data ts) (se_tsamp raw) (Some (m_dm m))) (search_confs cf) ls.
Proof.
  intros (Ha & Hz & Hs & Hf) (_ & Hm & _) FO RM Im.
  destruct (Forall2_in_r _ _ _ RM m Im) as (f & If & Ef). destruct (FO f m If Ef) as (_ & SL & LD).
  assert (W : forall ts, load (m_fname m) = Ok ts ->
    Forall (fun c : search_kw numR * peaks_kw numR => worker_fits (length (se_data ts)) (se_tsamp ts) (fst c)) (search_confs cf)).
  { intros ts Et. destruct (LD ts Et) as (_ & _ & F). unfold search_confs. rewrite Forall_map. exact F. }
  split; [unfold Process.worker; now apply process_fname_safe|].
  intros l E. unfold Process.worker in E.
  destruct (load (m_fname m)) as [raw|e| |] eqn:EL; try (unfold process_fname in E; rewrite EL in E; discriminate).
  destruct (process_fname_correct alloc allocz fit argsort load _ _ _ _ raw l Ha Hz Hs EL (W raw eq_refl) E)
    as (dm & ts & ls & ED & EP & PR & EC & RP).
  destruct (LD raw eq_refl) as (ED' & _). rewrite ED' in ED. injection ED as <-.
  exists raw, ts, ls. auto.
Qed.

Lemma search_trials faults cf files d peaks : environment_ok -> config_ok cf -> files_ok cf files -> band_known cf files ->
  prepare cf files = Ok d -> search_files faults cf d (Ok peaks) ->
  exists trials, map tr_dm trials = di_selected d /\
    Forall (fun t => trial_of cf (di_list d) t /\ reloads cf d t) trials /\
    Permutation peaks (concat (map found trials)) /\
    StronglySorted (fun p q : peak numR => p_period p <= p_period q) peaks /\
    peaks = sorted_asc (fun p q : peak numR => n_ltb (p_period p) (p_period q)) (concat (map found trials)).
Proof.
  intros EN CO FO BK EP H. destruct (prepare_inv cf files d CO FO BK EP) as (metas & w & RM & NE & LD & _ & _ & W0 & _ & POS & DI).
  destruct (dm_iterator_correct abs_sin metas _ _ _ w _ _ _ d POS W0 DI
    (band_prepared cf files d BK EP)) as (_ & _ & GF & CH).
  destruct CO as (PR & CO'). destruct (CH (cf_processes cf)) as (chunks & EC & _ & F2); [lia|]. clear CH.
  unfold Process.search_files in H. rewrite EC in H.
  assert (WK : forall m, In m metas -> _) by (intros m; exact (worker_ok cf files metas m EN (conj PR CO') FO RM)).
  apply search_correct in H; [|exact PR|].
  2:{ intros x Hx. destruct (Forall2_in_r _ _ _ F2 x Hx) as (k & _ & m & LW & <-).
      apply last_with_in in LW as [Im _]. apply (proj1 (WK m Im)). }
  destruct H as (ls & FL & PM & SS & EQ). rewrite LD.
  assert (T : exists trials, map tr_dm trials = di_selected d /\
    Forall (fun t => trial_of cf metas t /\ reloads cf d t) trials /\ map found trials = ls).
  { clear PM SS EQ EC. revert ls FL. induction F2 as [|x s dms names H F2 IH]; intros ls FL; inversion FL as [|? l ? ls' E FL' ]; subst.
    - exists []. repeat split; constructor.
    - destruct (IH ltac:(intros y Hy; apply GF; now right) ls' FL') as (trials & E1 & E2 & E3).
      destruct H as (m & LW & <-). pose proof (last_with_in _ _ _ LW) as [Im Em].
      destruct (proj2 (WK m Im) l E) as (raw & ts & pl & EL & EPT & PP & -> & RP).
      exists (Trial x raw ts pl :: trials). cbn [map tr_dm]. split; [now rewrite E1|]. split; [|unfold found at 1; cbn [tr_peaks]; now rewrite E3].
      constructor; auto. split.
      + exists m. cbn [tr_dm tr_raw tr_ts tr_peaks]. subst x. split; auto. split; auto. split; auto.
        unfold search_confs in RP. clear - RP. revert pl RP. induction (cf_ranges cf) as [|r rs IH]; intros pl RP; inversion RP; subst; constructor; auto.
      + destruct (GF x ltac:(now left)) as (m' & LW' & EG). rewrite (last_with_fun _ _ _ _ LW' LW) in EG.
        exists (m_fname m). cbn [tr_dm tr_raw tr_ts]. auto. }
  destruct T as (trials & T1 & T2 & T3). exists trials. rewrite T3. auto.
Qed.

(** ** what is made of the peaks *)
(** clusters: the friends of friends, two peaks being friends if their frequencies differ by no
    more than [radius] *)
Definition clustered (radius : R) (peaks : list (peak numR)) (cs : list (cluster numR)) : Prop :=
  exists groups : list (list nat),
    concat groups = seq 0 (length peaks) /\ (forall g, In g groups -> g <> []) /\
    (forall i j, (i < length peaks)%nat -> (j < length peaks)%nat ->
       (together groups i j <-> friends (fun k => (k < length peaks)%nat)
          (fun k => nth k (map p_freq peaks) 0) radius i j)) /\
    Forall2 (fun g c => Forall2 (fun i p => nth_error peaks i = Some p) g (c_peaks c)) groups cs.

(** ranks in order of decreasing S/N of the brightest peaks; a harmonic's parent is the
    brightest of the clusters above it that are not harmonics and pass the test *)
Definition flagged (test : peak numR -> peak numR -> res (bool * fraction)) (cs : list (cluster numR)) : Prop :=
  exists order : list nat,
    Permutation order (seq 0 (length cs)) /\
    let ranked k i c p := nth_error order k = Some i /\ nth_error cs i = Some c /\ first_brightest (c_peaks c) p in
    let unrelated p q := exists fr, test p q = Ok (false, fr) in
    (forall k i, nth_error order k = Some i -> exists c p, ranked k i c p /\ c_rank c = Some k) /\
    (forall k l i j c d p q, ranked k i c p -> ranked l j d q -> (k < l)%nat ->
       p_snr q < p_snr p \/ p_snr p = p_snr q /\ (i < j)%nat) /\
    (forall k i c p, ranked k i c p ->
       match c_parent c with
       | Some f => exists l d q fr, (l < k)%nat /\ ranked l f d q /\ c_parent d = None /\
           test q p = Ok (true, fr) /\ c_hfrac c = Some fr /\
           forall l' f' d' q', (l' < l)%nat -> ranked l' f' d' q' -> c_parent d' = None -> unrelated q' p
       | None => c_hfrac c = None /\
           forall l f d q, (l < k)%nat -> ranked l f d q -> c_parent d = None -> unrelated q p
       end).

(** the clusters that pass the filters, the brightest ones if their number is limited *)
Definition filtered (fl : filters numR) (cs : list (cluster numR)) (kept : list nat) : Prop :=
  let good i p := exists c, nth_error cs i = Some c /\ first_brightest (c_peaks c) p /\ passes fl c p in
  let before i j := forall p q, good i p -> good j q -> p_snr q < p_snr p \/ p_snr p = p_snr q /\ (i < j)%nat in
  (forall i, In i kept -> exists p, good i p) /\
  match fl_max_number fl with
  | None => StronglySorted lt kept /\ forall i p, good i p -> In i kept
  | Some n => StronglySorted before kept /\ NoDup kept /\ (Z.of_nat (length kept) <= n)%Z /\
      forall j q, good j q -> ~ In j kept -> Z.of_nat (length kept) = n /\ forall i, In i kept -> before i j
  end.

(** [X] is [data] folded at the period [P] *)
Definition folded_into (data : list R) (tsamp P : R) (bins : nat) (subints : option Z) (X : folded R) : Prop :=
  let f := P / INR bins / tsamp in
  exists m, (1 <= m)%nat /\ INR m <= INR (length data) * tsamp / P < INR m + 1 /\
    let cell r c := binned data f (r * bins + c) / sqrt (INR m * f) in
    match X with
    | Prof p => match subints with None => m = 1%nat | Some s => s = 1%Z end /\ length p = bins /\
        forall c, (c < bins)%nat -> nth c p 0 = rsum m (fun r => cell r c)
    | Subs Y =>
        let s := match subints with None => m | Some s => Z.to_nat s end in
        (2 <= s <= m)%nat /\ a_rows Y = s /\ a_cols Y = bins /\ arr2_wf Y /\
        forall q c, (q < s)%nat -> (c < bins)%nat ->
          at2 0 Y q c = rsum m (fun r =>
            cell r c * weight r (INR q * (INR m / INR s)) ((INR q + 1) * (INR m / INR s)))
    end.

(** what becomes of cluster [i]: folded at the period of its brightest peak, with the bins and
    sub-integrations of the range this period is in, from the data the peak was found in; unless
    the period is the very smallest the range may have *)
Definition candidate_of (cf : config numR) (trials : list trial) (cs : list (cluster numR)) (i : nat)
    (o : option (candidate numR (series numR))) : Prop :=
  exists c p t (r : range numR),
    nth_error cs i = Some c /\ first_brightest (c_peaks c) p /\
    In t trials /\ In p (found t) /\ p_dm p = Some (tr_dm t) /\
    In r (cf_ranges cf) /\ sk_pmin (r_search r) <= p_period p < sk_pmax (r_search r) /\
    let data := se_data (tr_ts t) in let tsamp := se_tsamp (tr_ts t) in
    (p_period p = IZR (r_cbins r) * tsamp -> o = None) /\
    (p_period p <> IZR (r_cbins r) * tsamp ->
       exists X, o = Some (Cand (N := numR) p (tr_ts t) (c_peaks c) X) /\
         folded_into data tsamp (p_period p) (Z.to_nat (r_cbins r))
           (if Rlt_dec (IZR (r_csubints r) * p_period p) (INR (length data) * tsamp) then Some (r_csubints r) else None) X).

Local Notation analyse := (analyse numR alloc argsort as_fraction load).

(** a trial period is at most the length of the data *)
Lemma folds_to_length x tsamp P b rows f prof : 0 < tsamp -> folds_to x tsamp P b rows f prof -> P <= INR (length x) * tsamp.
Proof.
  intros Ht (n & s & xd & sh & F1 & (F2 & _) & (N1 & N2) & S1 & -> & _).
  assert (B1 : (1 <= b)%nat) by (destruct b; lia). apply (le_INR 1) in B1. cbn in B1.
  assert (S2 : (s + 2 <= rows)%nat) by lia. apply le_INR in S2. rewrite plus_INR in S2. cbn [INR] in S2.
  pose proof (pos_INR s) as S0. apply le_INR in N1. rewrite mult_INR in N1.
  set (r := INR rows) in *. set (B := INR b) in *. set (S := INR s) in *. clearbody r B S.
  assert (E : f * tsamp * B ^ 2 / (B - S / (r - 1)) <= f * tsamp * (r * B)).
  { assert (D : 0 < B - S / (r - 1)).
    { enough (S / (r - 1) < 1) by lra. apply (Rmult_lt_reg_r (r - 1)); [lra|]. unfold Rdiv. rewrite Rmult_assoc, Rinv_l; lra. }
    apply (Rmult_le_reg_r (B - S / (r - 1))); [exact D|]. unfold Rdiv at 1. rewrite Rmult_assoc, Rinv_l, Rmult_1_r by lra.
    replace (f * tsamp * B ^ 2) with (f * tsamp * B * B) by ring.
    replace (f * tsamp * (r * B) * (B - S / (r - 1))) with (f * tsamp * B * (r * (B - S / (r - 1)))) by ring.
    apply Rmult_le_compat_l; [repeat apply Rmult_le_pos; lra|].
    enough (r * (S / (r - 1)) <= r * B - B) by lra.
    replace (r * (S / (r - 1))) with (r * S / (r - 1)) by (field; lra).
    apply (Rmult_le_reg_r (r - 1)); [lra|]. unfold Rdiv. rewrite Rmult_assoc, Rinv_l by lra.
    apply Rle_trans with (r * (r - 2) * 1); [apply Rmult_le_compat_r; [lra|]; apply Rmult_le_compat_l; lra|].
    apply Rle_trans with (1 * ((r - 1) * (r - 1))); [nra|].
    replace ((r * B - B) * (r - 1)) with (B * ((r - 1) * (r - 1))) by ring.
    apply Rmult_le_compat_r; [apply Rmult_le_pos; lra|lra]. }
  eapply Rle_trans; [exact E|]. replace (f * tsamp * (r * B)) with (r * B * f * tsamp) by ring.
  apply Rmult_le_compat_r; [lra|]. eapply Rle_trans; [|exact F2]. apply Rmult_le_compat_r; lra.
Qed.

Lemma found_peak cf metas t p : Forall range_fine (cf_ranges cf) -> trial_of cf metas t -> In p (found t) ->
  wave p /\ p_dm p = Some (tr_dm t) /\
  (0 < se_tsamp (tr_raw t) -> p_period p <= INR (length (se_data (tr_ts t))) * se_tsamp (tr_raw t)) /\
  exists r, In r (cf_ranges cf) /\ sk_pmin (r_search r) <= p_period p < sk_pmax (r_search r).
Proof.
  intros FR (m & _ & _ & _ & F2) Hp. unfold found in Hp. apply in_concat in Hp as (l & Hl & Hp).
  destruct (Forall2_in_r _ _ _ F2 l Hl) as (r & Hr & RP). rewrite Forall_forall in FR. destruct (FR r Hr) as (P0 & _).
  unfold range_peaks in RP. cbn [fst snd] in RP.
  destruct RP as (widths & periods & bins & snrs & thr & clrad & _ & _ & _ & _ & _ & _ & PB & _ & MF & RP). cbv zeta in RP.
  destruct RP as (_ & _ & PK & _). destruct (PK p Hp) as (Lw & Li & _ & _ & _ & EP & EF & _ & _ & ED & _).
  specialize (PB _ Li). rewrite <- EP in PB. numR_ty.
  assert (0 < p_period p) by lra.
  split; [|split; [exact ED|split; [|exists r; split; [exact Hr|exact PB]]]].
  2:{ intros T0. destruct (MF _ _ Li Lw) as (b & rows & f & prof & v & _ & _ & FT & _).
    rewrite EP. eapply folds_to_length; eauto. }
  split; [rewrite EF; apply Rmult_lt_0_compat; [lra|now apply Rinv_0_lt_compat]|]. rewrite EF.
  clear - H. change (n_T numR) with R. set (x := p_period p) in *. clearbody x. change (n_T numR) with R in x. field. lra.
Qed.

Lemma get_filename_meta (d : dmiter numR) k fname : di_dict d = DmIter.dict_of numR (di_list d) ->
  get_filename numR d k = Ok fname -> exists m, In m (di_list d) /\ m_fname m = fname /\ m_dm m = k.
Proof.
  intros ED H. unfold get_filename in H. rewrite ED in H. destruct (dict_of_spec (di_list d)) as (_ & _ & D3 & D4).
  destruct (in_dec Req_EM_T k (map m_dm (di_list d))) as [I|I].
  - destruct (D3 k I) as (m & E & LW). rewrite E in H. cbn [bind] in H. injection H as <-.
    apply last_with_in in LW as [? ?]. eauto.
  - rewrite (D4 k I) in H. discriminate.
Qed.

Lemma tsamp_max_ge (d : dmiter numR) m : In m (di_list d) -> m_tsamp m <= tsamp_max numR d.
Proof.
  unfold tsamp_max. generalize (di_list d). intros l Hm. destruct l as [|a l]; [destruct Hm|]. cbn [map].
  assert (G : forall (l : list R) (x : R), x <= fold_left (fun a b : R => if Rlt_bool a b then b else a) l x /\
     forall v, In v l -> v <= fold_left (fun a b : R => if Rlt_bool a b then b else a) l x).
  { clear. induction l as [|b l IH]; intros x; cbn [fold_left]; [split; [lra|easy]|].
    destruct (IH (if Rlt_bool x b then b else x)) as [I1 I2].
    split; [|intros v [<-|Hv]; [|auto]]; revert I1; destruct (Rlt_bool_spec x b); lra. }
  destruct (G (map m_tsamp l) (m_tsamp a)) as [G1 G2]. rsimp.
  destruct Hm as [<-|Hm]; [exact G1|]. apply G2. now apply in_map.
Qed.

Lemma contiguous_bounds (first : range_conf numR) rest r : contiguous (first :: rest) ->
  Forall (fun r : range_conf numR => rg_pmin r < rg_pmax r) (first :: rest) -> In r (first :: rest) ->
  rg_pmin first <= rg_pmin r /\ rg_pmax r <= rg_pmax (List.last (first :: rest) first).
Proof.
  revert first r. induction rest as [|b rest IH]; intros first r C F Hr.
  - destruct Hr as [<-|[]]. cbn. numR_ty. lra.
  - destruct C as [C1 C2]. inversion F as [|? ? F1 F2]; subst.
    assert (EL : List.last (first :: b :: rest) first = List.last (b :: rest) b).
    { change (List.last (first :: b :: rest) first) with (List.last (b :: rest) first).
      clear. destruct (exists_last (l := b :: rest)) as (l & x & ->); [discriminate|]. now rewrite !last_last. }
    rewrite EL. inversion F2 as [|? ? F3 _]; subst. numR_ty.
    destruct Hr as [<-|Hr].
    + destruct (IH b b C2 F2 (or_introl eq_refl)) as [_ I]. numR_ty. lra.
    + destruct (IH b r C2 F2 Hr) as [I1 I2]. numR_ty. lra.
Qed.

(** folding the prepared series of a file, for a range of the configuration *)
Lemma series_fold_spec (ts : series numR) (P : R) (bins : Z) (subints : option Z) :
  allocates alloc -> 0 < se_tsamp ts -> (1 <= bins)%Z ->
  let len := INR (length (se_data ts)) * se_tsamp ts in
  let X := series_fold numR alloc ts P bins subints in
  (fold_refused len (se_tsamp ts) P (Z.to_nat bins) subints -> X = Err ValueError) /\
  (~ fold_refused len (se_tsamp ts) P (Z.to_nat bins) subints ->
     exists Y, X = Ok Y /\ folded_into (se_data ts) (se_tsamp ts) P (Z.to_nat bins) subints Y).
Proof.
  intros Ha Ht Hb len X. unfold X, series_fold.
  destruct (fold_correct alloc (se_data ts) (se_tsamp ts) P (Z.to_nat bins) subints Ha Ht ltac:(lia)) as [F1 F2].
  split; [exact F1|]. intros NR. destruct (F2 NR) as (m & M1 & M2 & G). cbv zeta in G.
  destruct (match subints with None => (m =? 1)%nat | Some s => (s =? 1)%Z end) eqn:EB.
  - destruct G as (q & E & L & V). exists (Prof q). split; [exact E|]. exists m. split; auto. split; auto.
    split; [|split; [exact L|exact V]]. destruct subints; [now apply Z.eqb_eq|now apply Nat.eqb_eq].
  - destruct G as (Y & E & S & R1 & C & W & V & _). exists (Subs Y). split; [exact E|]. exists m. split; auto. split; auto.
Qed.

Lemma in_first_brightest ps p : first_brightest ps p -> In p ps.
Proof. intros (a & b & -> & _). apply in_app_iff. right. now left. Qed.
Lemma brightest_exists ps : ps <> [] -> exists p, first_brightest ps p.
Proof.
  intros H. destruct (centre_total (Cl (N := numR) ps None None None) H) as [p E]. apply centre_spec in E. eauto.
Qed.

Lemma clustered_members radius peaks cs : clustered radius peaks cs ->
  forall c, In c cs -> c_peaks c <> [] /\ forall p, In p (c_peaks c) -> In p peaks.
Proof.
  intros (groups & _ & NE & _ & F2) c Hc. destruct (Forall2_in_r _ _ _ F2 c Hc) as (g & Hg & G2). split.
  - intros E. rewrite E in G2. inversion G2; subst. now apply (NE [] Hg).
  - intros p Hp. destruct (Forall2_in_r _ _ _ G2 p Hp) as (i & _ & E). eapply nth_error_In; eauto.
Qed.

(** clusters, ranks and flags *)
Lemma clusters_flagged (radius tmed : R) (test : peak numR -> peak numR -> res (bool * fraction)) peaks cs :
  Forall wave peaks -> StronglySorted (fun p q : peak numR => p_period p <= p_period q) peaks ->
  (cs <- (if (length peaks =? 0)%nat then Ok [] else cluster_peaks numR argsort radius tmed peaks) ;;
   if (length cs =? 0)%nat then Ok cs else flag_harmonics numR test cs) = Ok cs ->
  clustered (radius / tmed) peaks cs /\ flagged test cs.
Proof.
  intros W S H. apply bind_ok in H as (cs0 & E0 & H).
  assert (C0 : exists groups, concat groups = seq 0 (length peaks) /\ (forall g, In g groups -> g <> []) /\
    (forall i j, (i < length peaks)%nat -> (j < length peaks)%nat ->
       (together groups i j <-> friends (fun k => (k < length peaks)%nat)
          (fun k => nth k (map p_freq peaks) 0) (radius / tmed) i j)) /\
    Forall2 (fun g c => Forall2 (fun i p => nth_error peaks i = Some p) g (c_peaks c) /\
       c_parent c = None /\ c_hfrac c = None) groups cs0).
  { destruct (Nat.eqb_spec (length peaks) 0) as [L|L].
    - injection E0 as <-. destruct peaks; [|discriminate]. exists []. repeat split; try constructor; cbn in *; try lia; intros ? [].
    - destruct (cluster_peaks_correct argsort radius tmed peaks W S) as (groups & cs' & E & A & B & C & D & _).
      numR_ty. rewrite E in E0. injection E0 as <-. exists groups. split; auto. split; auto. split; auto.
      clear - D. induction D as [|g c gs cs (D1 & _ & D2 & D3) D IH]; constructor; auto. }
  destruct C0 as (groups & A & B & C & D).
  assert (FR : Forall fresh cs0).
  { apply Forall_forall. intros c Hc. destruct (Forall2_in_r _ _ _ D c Hc) as (g & Hg & G1 & G2 & G3).
    split; [|split; auto]. intros E. rewrite E in G1. inversion G1; subst. now apply (B [] Hg). }
  assert (K : map c_peaks cs = map c_peaks cs0 /\ flagged test cs).
  { destruct (Nat.eqb_spec (length cs0) 0) as [L|L].
    - injection H as <-. split; [reflexivity|]. destruct cs0; [|discriminate]. exists []. split; [constructor|]. cbn zeta.
      split; [intros [|k] ? ?; discriminate|]. split; [intros [|k] l i j c d p q (X & _); discriminate|intros [|k] i c p (X & _); discriminate].
    - destruct (flag_harmonics_correct test cs0 cs FR H) as (LE & order & PM & O1 & O2 & O3). cbv zeta in *. split.
      + apply nth_ext with (d := []) (d' := []); [now rewrite !map_length|]. intros i Hi. rewrite map_length, LE in Hi.
        assert (Ii : In i order) by (apply (Permutation_in i (Permutation_sym PM)), in_seq; lia).
        apply In_nth_error in Ii as [k Ek]. destruct (O1 k i Ek) as (c & c' & p & E1 & (_ & E2 & _) & E3 & _).
        change [] with (c_peaks (Cl (N := numR) [] None None None)). rewrite !map_nth.
        rewrite (nth_error_nth cs i _ E2), (nth_error_nth cs0 i _ E1). exact E3.
      + exists order. rewrite LE. split; auto. split; [|split; auto].
        intros k i Ek. destruct (O1 k i Ek) as (c & c' & p & _ & Rk & _ & Er). exists c', p. auto. }
  destruct K as [K1 K2]. split; auto. exists groups. split; auto. split; auto. split; auto.
  clear - D K1. revert cs K1. induction D as [|g c gs cs0 (D1 & _) D IH]; intros [|c' cs] K; cbn in K; try discriminate; constructor.
  - injection K as K _. now rewrite K.
  - apply IH. now injection K.
Qed.

Local Notation prepare_series cf := (prepare_ts numR alloc (cf_rmed_width cf) (cf_rmed_minpts cf)).
Local Notation build cf d := (build_candidates numR (series numR) (@se_length numR) (series_fold numR alloc) (get_filename numR d) load
  (prepare_series cf) (ranges_of cf)).

(** what is loaded again for a candidate *)
Lemma source_series cf files d k (ts : series numR) : config_ok cf -> files_ok cf files -> band_known cf files ->
  prepare cf files = Ok d ->
  source (series numR) (get_filename numR d) load (prepare_series cf) k ts ->
  forall r, In r (cf_ranges cf) ->
  0 < se_tsamp ts <= tsamp_max numR d.
Proof.
  intros CO FO BK EP (f & raw & E1 & E2 & E3) r Hr.
  destruct (prepare_inv cf files d CO FO BK EP) as (metas & w & RM & NE & LD & DD & _).
  rewrite <- LD in DD. destruct (get_filename_meta d k f DD E1) as (m & Im & <- & _).
  pose proof Im as Im'. rewrite LD in Im'. destruct (Forall2_in_r _ _ _ RM m Im') as (fn & If & Ef).
  destruct (FO fn m If Ef) as (_ & _ & FL). destruct (FL raw E2) as (MD & TS & WF).
  assert (ND : md_get "dm" (se_md raw) <> None) by congruence.
  destruct (prepare_ts_shape alloc _ _ raw ts E3) as (T1 & L1).
  split; [|rewrite T1, TS; now apply tsamp_max_ge].
  apply prepare_ts_length in E3. pose proof (pos_INR (length (se_data ts))).
  apply Rnot_le_lt. intros X. numR_ty. nra.
Qed.

Lemma build_spec cf files d trials peaks cs fc kept cands :
  environment_ok -> config_ok cf -> files_ok cf files -> band_known cf files -> prepare cf files = Ok d ->
  Forall (fun t => trial_of cf (di_list d) t /\ reloads cf d t) trials ->
  Permutation peaks (concat (map found trials)) ->
  (forall c, In c cs -> c_peaks c <> [] /\ forall p, In p (c_peaks c) -> In p peaks) ->
  mapM (rd cs) kept = Ok fc -> build cf d fc [] = Ok cands ->
  StronglySorted (fun a b : candidate numR (series numR) => p_snr (cd_params b) <= p_snr (cd_params a)) cands /\
  exists outs, Permutation cands (somes outs) /\ Forall2 (candidate_of cf trials cs) kept outs.
Proof.
  intros EN CO FO BK EP FT PM CM EK H. pose proof EN as (Ha & _). pose proof CO as (_ & _ & FR & _).
  apply mapM_inv in EK.
  assert (INF : forall c, In c fc -> In c cs).
  { intros c Hc. destruct (Forall2_in_r _ _ _ EK c Hc) as (i & _ & E). apply rd_inv in E. eapply nth_error_In; eauto. }
  (* the trial a cluster's brightest peak was found in *)
  assert (TR : forall c p, In c fc -> first_brightest (c_peaks c) p ->
    exists t, In t trials /\ In p (found t) /\ trial_of cf (di_list d) t /\ reloads cf d t).
  { intros c p Hc B. destruct (CM c (INF c Hc)) as [_ M]. apply in_first_brightest in B. apply M in B.
    rewrite PM in B. apply in_concat in B as (l & Hl & Hp). apply in_map_iff in Hl as (t & <- & Ht).
    rewrite Forall_forall in FT. destruct (FT t Ht). eauto. }
  assert (SRC : forall t, reloads cf d t -> source (series numR) (get_filename numR d) load (prepare_series cf) (tr_dm t) (tr_ts t)).
  { intros t (f & E1 & E2 & E3). exists f, (tr_raw t). auto. }
  assert (NU : forall k ts P r s, source (series numR) (get_filename numR d) load (prepare_series cf) k ts ->
    In r (ranges_of cf) -> series_fold numR alloc ts P (rg_cbins r) s <> UB /\ series_fold numR alloc ts P (rg_cbins r) s <> Loop).
  { intros k ts P r s S Hr. unfold ranges_of in Hr. apply in_map_iff in Hr as (r0 & <- & Hr0).
    destruct (source_series cf files d k ts CO FO BK EP S r0 Hr0) as [T0 _].
    rewrite Forall_forall in FR. destruct (FR r0 Hr0) as (_ & _ & B1 & _).
    destruct (series_fold_spec ts P (r_cbins r0) s Ha T0 B1) as [F1 F2]. cbn [rg_cbins range_conf_of].
    destruct (Classical_Prop.classic (fold_refused (INR (length (se_data ts)) * se_tsamp ts) (se_tsamp ts) P (Z.to_nat (r_cbins r0)) s)) as [D|D].
    - rewrite (F1 D). split; discriminate.
    - destruct (F2 D) as (Y & -> & _). split; discriminate. }
  destruct (build_candidates_correct (series numR) (@se_length numR) (series_fold numR alloc) (get_filename numR d) load
    (prepare_series cf) (ranges_of cf) NU fc []) as (out & outs & EB & OC & PO & SO).
  { apply Forall_forall. intros c Hc. destruct (CM c (INF c Hc)) as [NE _]. destruct (brightest_exists _ NE) as [p B].
    destruct (TR c p Hc B) as (t & Ht & Hp & TO & RL). destruct (found_peak cf _ t p FR TO Hp) as (_ & DM & _).
    exists p, (tr_dm t), (tr_ts t). split; auto. }
  rewrite EB in H. injection H as ->. split.
  { destruct fc as [|c fc]; [|apply SO; discriminate]. inversion OC; subst. cbn in PO.
    apply Permutation_sym, Permutation_nil in PO as ->. constructor. }
  exists outs. split; [exact PO|].
  assert (VR : validate_ranges numR (ranges_of cf) (tsamp_max numR d) = Ok tt)
    by (destruct (prepare_inv cf files d CO FO BK EP) as (? & ? & _ & _ & _ & _ & _ & _ & V & _); exact V).
  apply (proj1 (validate_ranges_correct (ranges_of cf) (tsamp_max numR d))) in VR as [VR CT].
  clear EB PO SO. revert kept EK. induction OC as [|c o fc outs HO OC IH]; intros kept EK; inversion EK as [|i ? ki ? Ei EK']; subst; constructor.
  2:{ apply IH; auto; intros; [apply INF|eapply TR; eauto]; try now right. }
  apply rd_inv in Ei. destruct HO as (p & k & ts & B & DM & SR & HO).
  destruct (TR c p (or_introl eq_refl) B) as (t & Ht & Hp & TO & RL).
  destruct (found_peak cf _ t p FR TO Hp) as (_ & DM' & LP & r0 & Hr0 & H0). numR_ty.
  assert (k = tr_dm t) by congruence. subst k.
  assert (ts = tr_ts t).
  { destruct (SRC t RL) as (f1 & a1 & X1 & X2 & X3). destruct SR as (f2 & a2 & Y1 & Y2 & Y3). congruence. }
  subst ts.
  (* the range *)
  assert (GS : exists r, In r (cf_ranges cf) /\ sk_pmin (r_search r) <= p_period p < sk_pmax (r_search r) /\
    get_search_range numR (ranges_of cf) (p_period p) = Ok (Some (range_conf_of r))).
  { assert (FP : Forall (fun r : range_conf numR => rg_pmin r < rg_pmax r) (ranges_of cf)).
    { unfold ranges_of. apply Forall_map, Forall_forall. intros r Hr. destruct TO as (m & _ & _ & _ & F2).
      destruct (Forall2_in_l _ _ _ F2 r Hr) as (l & _ & RP).
      destruct RP as (_ & _ & _ & _ & _ & _ & _ & (_ & _ & L & _) & _). exact L. }
    assert (I0 : In (range_conf_of r0) (ranges_of cf)) by (unfold ranges_of; now apply in_map).
    destruct (ranges_of cf) as [|first rest] eqn:ER; [destruct I0|].
    destruct (contiguous_bounds first rest _ CT FP I0) as [L1 L2]. cbn [rg_pmin rg_pmax range_conf_of] in L1, L2. numR_ty.
    destruct (get_search_range_correct first rest (p_period p) CT FP) as (_ & _ & G).
    destruct G as (r & Hr & Hh & EG & _); [lra|]. rewrite <- ER in Hr. unfold ranges_of in Hr.
    apply in_map_iff in Hr as (r1 & <- & Hr1). exists r1. split; [exact Hr1|]. split; [exact Hh|exact EG]. }
  destruct GS as (r & Hr & Hh & EG). rewrite EG in HO. cbn [rg_cbins rg_csubints range_conf_of] in HO.
  destruct HO as (sub & HS & HO).
  destruct (source_series cf files d _ _ CO FO BK EP SR r Hr) as [T0 TM].
  rewrite Forall_forall in FR. destruct (FR r Hr) as (P0 & _ & B1 & S1). clear FR.
  rewrite Forall_forall in VR. destruct (VR (range_conf_of r)) as [_ V2]; [unfold ranges_of; now apply in_map|].
  cbn [rg_cbins rg_pmin range_conf_of] in V2.
  assert (EL : se_length (tr_ts t) = INR (length (se_data (tr_ts t))) * se_tsamp (tr_ts t)).
  { unfold se_length. rsimp. now rewrite <- INR_IZR_INZ. }
  rewrite EL in HS. numR_ty.
  exists c, p, t, r. split; [exact Ei|]. split; [exact B|]. split; [exact Ht|]. split; [exact Hp|]. split; [exact DM'|].
  split; [exact Hr|]. split; [exact Hh|]. cbv zeta.
  assert (L2 : p_period p <= INR (length (se_data (tr_ts t))) * se_tsamp (tr_ts t)).
  { destruct TO as (? & _ & _ & (TT & _) & _). rewrite TT in T0 |- *. now apply LP. }
  set (tsamp := se_tsamp (tr_ts t)) in *. set (len := INR (length (se_data (tr_ts t))) * tsamp) in *.
  assert (ES : (if Rlt_dec (IZR (r_csubints r) * p_period p) len then Some (r_csubints r) else None) = sub).
  { destruct (Rlt_dec _ _), HS as [[-> ?]|[-> ?]]; try reflexivity; exfalso; first [contradiction|eapply Rlt_not_le; eassumption]. }
  rewrite ES. assert (BP : 0 < IZR (r_cbins r)) by (apply IZR_lt; lia).
  assert (LB : IZR (r_cbins r) * tsamp <= p_period p).
  { apply Rle_trans with (IZR (r_cbins r) * tsamp_max numR d); [apply Rmult_le_compat_l; [lra|exact TM]|numR_ty; lra]. }
  assert (EB : INR (Z.to_nat (r_cbins r)) = IZR (r_cbins r)) by (rewrite INR_IZR_INZ, Z2Nat.id by lia; reflexivity).
  assert (PP : 0 < p_period p) by lra.
  destruct (series_fold_spec (tr_ts t) (p_period p) (r_cbins r) sub Ha T0 B1) as [F1 F2]. fold tsamp in F1, F2. fold len in F1, F2.
  split.
  - intros E. numR_ty. rewrite F1 in HO; [exact HO|]. right. left. rewrite EB, E. apply Req_le. field. lra.
  - intros NE. destruct F2 as (Y & EY & FI).
    + intros [X|[X|X]].
      * apply (Rlt_not_le _ _ X), L2.
      * rewrite EB in X. apply (Rmult_le_compat_r (IZR (r_cbins r))) in X; [|lra].
        unfold Rdiv in X. rewrite Rmult_assoc, Rinv_l in X by lra. numR_ty. lra.
      * destruct HS as [[-> HS]|[-> _]]; [|exact X]. destruct X as [X|X]; [lia|].
        apply (Rmult_lt_compat_r (p_period p)) in X; [|exact PP]. unfold Rdiv in X. rewrite Rmult_assoc, Rinv_l in X by lra. assert (L3 : IZR (r_csubints r) * p_period p < len) by exact HS. clearbody len. numR_ty. lra.
    + numR_ty. rewrite EY in HO. exists Y. split; [exact HO|exact FI].
Qed.

(** ** The whole run *)
Context (peaks_csv : list (peak numR) -> string) (clusters_csv : list (row numR) -> string)
  (candidates_csv : list (peak numR) -> string) (to_json png : candidate numR (series numR) -> res string)
  (pieces : string -> list string).
Local Notation process := (process numR ln pow alloc allocz fit argsort as_fraction abs_sin read_meta load peaks_csv clusters_csv
  candidates_csv to_json png pieces).
Local Notation save := (save numR peaks_csv clusters_csv candidates_csv to_json png pieces).

(** the DM trials [dms] are files' DMs, strictly increasing, in the configured range, and cover it:
    what some file of the range tolerates is tolerated by a selected one *)
Definition selection (cf : config numR) (metas : list (meta numR)) (f0 f1 : R) (nc : Z) (dms : list R) : Prop :=
  StronglySorted Rlt dms /\
  exists w start stop, least (bin_widths cf) w /\
    range_of abs_sin metas (cf_dm_min cf) (cf_dm_max cf) (cf_dmsinb_max cf) start stop /\
    (forall x, In x dms -> start <= x <= stop) /\
    forall m x, In m metas -> start <= m_dm m <= stop -> tolerable f0 f1 nc w (m_dm m) x -> covered f0 f1 nc w dms x.

Lemma process_ok_inv faults cf files outdir s pr s' : process faults cf files outdir s (Ok pr) s' ->
  exists d, prepare cf files = Ok d /\ search_files faults cf d (Ok (pr_peaks pr)) /\
    analyse cf d (pr_peaks pr) = Ok (pr_clusters pr, pr_candidates pr) /\ save faults cf outdir pr s (Ok tt) s'.
Proof.
  intros H. inversion H as [| | |d peaks cs cands r s1 E1 E2 E3 E4 E5 E6]; subst.
  destruct r as [[]|e| |]; try discriminate. cbn [bind] in E5. injection E5 as <-. exists d. auto.
Qed.

(** C76: what a run that returns has found, searched, clustered, flagged, filtered and folded *)
Theorem process_correct :
  forall faults cf files outdir s pr s',
  environment_ok -> config_ok cf -> files_ok cf files -> band_known cf files ->
  process faults cf files outdir s (Ok pr) s' ->
  exists metas f0 f1 nc trials tmed kept outs,
    Forall2 (fun f m => read_meta f = Ok m) files metas /\
    band_of metas (cf_fmin cf) (cf_fmax cf) (cf_nchans cf) f0 f1 nc /\
    selection cf metas f0 f1 nc (map tr_dm trials) /\
    Forall (trial_of cf metas) trials /\
    Permutation (pr_peaks pr) (concat (map found trials)) /\
    StronglySorted (fun p q : peak numR => p_period p <= p_period q) (pr_peaks pr) /\
    is_quantile (1 / 2) (map m_tobs metas) tmed /\
    clustered (cf_radius cf / tmed) (pr_peaks pr) (pr_clusters pr) /\
    flagged (fun F H : peak numR => htest numR as_fraction F H tmed f0 f1 (hf_denom_max (cf_harmonics cf))
               (hf_phase_max (cf_harmonics cf)) (hf_dm_max (cf_harmonics cf)) (hf_snr_max (cf_harmonics cf)))
      (pr_clusters pr) /\
    filtered (cf_filters cf) (pr_clusters pr) kept /\
    Forall2 (candidate_of cf trials (pr_clusters pr)) kept outs /\
    Permutation (pr_candidates pr) (somes outs) /\
    StronglySorted (fun a b : candidate numR (series numR) => p_snr (cd_params b) <= p_snr (cd_params a)) (pr_candidates pr).
Proof.
  intros faults cf files outdir s pr s' EN CO FO BK H.
  destruct (process_ok_inv _ _ _ _ _ _ _ H) as (d & EP & ES & EA & _). clear H.
  destruct (prepare_inv cf files d CO FO BK EP) as (metas & w & RM & NE & LD & DD & LW & W0 & VR & POS & DI).
  pose proof (band_prepared cf files d BK EP) as BD.
  destruct (dm_iterator_band _ _ _ _ _ _ _ _ _ _ DI) as (_ & _ & BO).
  destruct (dm_iterator_correct abs_sin metas _ _ _ w _ _ _ d POS W0 DI BD) as (SS & (start & stop & RG & R1 & R2) & _).
  destruct (search_trials faults cf files d (pr_peaks pr) EN CO FO BK EP ES) as (trials & TD & FT & PM & PS & _).
  unfold Process.analyse in EA. apply bind_ok in EA as (cs0 & A1 & EA). apply bind_ok in EA as (cs & A2 & EA).
  apply bind_ok in EA as (kept & A3 & EA). apply bind_ok in EA as (fc & A4 & EA). apply bind_ok in EA as (cands & A5 & EA).
  injection EA as <- <-.
  assert (WV : Forall wave (pr_peaks pr)).
  { apply Forall_forall. intros p Hp. apply (Permutation_in p PM) in Hp. apply in_concat in Hp as (l & Hl & Hp).
    apply in_map_iff in Hl as (t & <- & Ht). rewrite Forall_forall in FT. destruct (FT t Ht) as [Tt _].
    destruct CO as (_ & _ & FR & _). now destruct (found_peak cf _ t p FR Tt Hp). }
  destruct (clusters_flagged (cf_radius cf) (tobs_median numR d) (harmonic_test numR as_fraction cf d) (pr_peaks pr) cs WV PS) as [CL FL].
  { rewrite A1. exact A2. }
  assert (CM := clustered_members _ _ _ CL).
  assert (NEC : Forall (fun c : cluster numR => c_peaks c <> []) cs) by (apply Forall_forall; intros c Hc; now apply CM).
  pose proof CO as (_ & _ & _ & MX).
  pose proof (candidate_filters_correct (cf_filters cf) cs kept MX NEC A3) as FI.
  destruct (build_spec cf files d trials (pr_peaks pr) cs fc kept cands EN CO FO BK EP FT PM CM A4 A5) as (SC & outs & PO & F2).
  exists metas, (di_fmin d), (di_fmax d), (di_nchans d), trials, (tobs_median numR d), kept, outs.
  split; [exact RM|]. split; [exact BO|].
  split; [rewrite TD; split; [exact SS|]; exists w, start, stop; auto|].
  split; [rewrite <- LD; eapply Forall_impl; [|exact FT]; intros t [T _]; exact T|].
  split; [exact PM|]. split; [exact PS|].
  split; [unfold tobs_median; rewrite LD; apply nmedian_R; intros E; apply map_eq_nil in E; contradiction|].
  split; [exact CL|]. split; [exact FL|]. split; [exact FI|]. split; [exact F2|]. split; [exact PO|exact SC].
Qed.
End Run.
Print Assumptions process_correct.
