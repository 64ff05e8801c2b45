(** C131: whatever the arithmetic, a run of the pipeline keeps every peak found. *)
From Coq Require Import String List Arith ZArith Bool Lia Reals Lra Permutation SpecFloat.
From Verif Require Import Base.Result Base.Buf Base.Num Model.Metadata Model.TimeSeries Model.Cluster Model.Peaks Model.Harmonic
  Model.Folding Model.DmIter Model.Pipeline Model.Ranges Model.Pool Model.Writer Model.Worker Model.Process
  Proof.TimeSeries Proof.Pipeline Proof.RunKeeps Props.Peaks Props.Pipeline Props.Pool Props.Run.
Import ListNotations.

Lemma centre_same {N} (c c' : cluster N) : c_peaks c = c_peaks c' -> centre c = centre c'.
Proof. unfold centre. now intros ->. Qed.

Lemma flag_harmonics_centres (N : num) test (cs cs' : list (cluster N)) : flag_harmonics N test cs = Ok cs' ->
  forall c, In c cs' -> exists p, centre c = Ok p.
Proof.
  intros H c Hc. pose proof (flag_harmonics_keeps N test cs cs' H) as K. unfold flag_harmonics in H.
  apply bind_ok in H as (order & E & _). unfold by_snr in E. apply bind_ok in E as (ks & E & _). apply mapM_inv in E.
  destruct (In_nth_error _ _ Hc) as (i & Ei).
  assert (Ek : nth_error (map c_peaks cs) i = Some (c_peaks c)) by (rewrite <- K; now apply map_nth_error).
  rewrite nth_error_map in Ek. destruct (nth_error cs i) as [c0|] eqn:E0; [|discriminate]. cbn in Ek. injection Ek as Ek.
  assert (I0 : In (i, c0) (combine (seq 0 (length cs)) cs)).
  { apply combine_seq_in. rewrite Nat.sub_0_r. split; [lia|exact E0]. }
  clear - E I0 Ek. induction E as [|x y l ks Ex _ IH]; [destruct I0|]. destruct I0 as [->|I0]; [|now apply IH].
  apply bind_ok in Ex as (p & Ex & _). cbn in Ex. exists p. rewrite <- Ex. apply centre_same. now symmetry.
Qed.

Section Run.
Context (N : num) (flog : N -> N) (fpow : N -> nat -> N) (alloc : nat -> list N) (allocz : nat -> list Z)
  (fit : list N -> list N -> Z -> res (N -> N)) (argsort : list N -> list nat) (as_fraction : N -> res fraction) (abs_sin : N -> N)
  (read_meta : string -> res (meta N)) (load : string -> res (series N)).
Context (peaks_csv : list (peak N) -> string) (clusters_csv : list (row N) -> string)
  (candidates_csv : list (peak N) -> string) (to_json png : candidate N (series N) -> res string)
  (pieces : string -> list string).
Local Notation process := (process N flog fpow alloc allocz fit argsort as_fraction abs_sin read_meta load peaks_csv clusters_csv
  candidates_csv to_json png pieces).
Local Notation worker := (worker N flog fpow alloc allocz fit argsort load).
Local Notation prepare := (prepare N abs_sin read_meta).

(** the time series read again for the DM [k] *)
Definition read_again (cf : config N) (d : dmiter N) : option N -> series N -> Prop :=
  reloaded N (series N) (get_filename N d) load (prepare_ts N alloc (cf_rmed_width cf) (cf_rmed_minpts cf)).
(** the candidate made of a cluster and a time series *)
Definition made_of (cf : config N) : series N -> cluster N -> res (candidate N (series N)) :=
  candidate_from N (series N) se_length (series_fold N alloc) (ranges_of cf).

(** Every file selected has been searched, and the peaks are those its worker returned, all of them and no others.  The
    clusters share them out.  Every candidate is made of a cluster that passes the filters; and if no number of
    candidates is set, every cluster that passes becomes a candidate, unless folding raises. *)
Theorem run_keeps_peaks :
  forall faults cf files outdir s pr s',
  cf_processes cf <> 0 -> process faults cf files outdir s (Ok pr) s' ->
  exists (d : dmiter N) (names : list string) (lists : list (list (peak N))),
    prepare cf files = Ok d /\
    Forall2 (fun dm name => get_filename N d dm = Ok name) (di_selected d) names /\
    Forall2 (fun name l => worker cf name = Ok l) names lists /\
    Permutation (pr_peaks pr) (concat lists) /\
    concat (map c_peaks (pr_clusters pr)) = pr_peaks pr /\
    (forall c, In c (pr_clusters pr) -> exists best, centre c = Ok best /\ In best (c_peaks c)) /\
    (forall cd, In cd (pr_candidates pr) -> exists c k ts, In c (pr_clusters pr) /\ centre c = Ok (cd_params cd) /\
       cd_peaks cd = c_peaks c /\ passes_any N (cf_filters cf) c (cd_params cd) /\ read_again cf d k ts /\ made_of cf ts c = Ok cd) /\
    (fl_max_number (cf_filters cf) = None \/ fl_max_number (cf_filters cf) = Some 0%Z ->
     forall c best, In c (pr_clusters pr) -> centre c = Ok best -> passes_any N (cf_filters cf) c best ->
     exists k ts, (k = p_dm best \/ dm_eqb N (p_dm best) k = true) /\ read_again cf d k ts /\
       forall cd, made_of cf ts c = Ok cd -> In cd (pr_candidates pr)).
Proof.
  intros faults cf files outdir s pr s' PR H.
  inversion H as [| | |d peaks cs cands r s1 E1 E2 E3 E4 E5 E6]; subst.
  destruct r as [[]|e| |]; try discriminate. cbn [bind] in E5. injection E5 as <-. cbn [pr_peaks pr_clusters pr_candidates].
  exists d. unfold search_files in E2. destruct (iterate_filenames N d (cf_processes cf)) as [chunks| | |] eqn:EC; try contradiction; try discriminate.
  destruct (chunks_from_names N d _ _ _ _ EC) as (names & FN & CN). cbn [List.app] in CN.
  inversion E2 as [r0 SL EQ]. apply search_loop_spec in SL; [|exact PR].
  destruct r0 as [out|e| |]; try discriminate. cbn [bind] in EQ. injection EQ as <-. destruct SL as (ls & FL & ->). rewrite CN in FL.
  set (peaks := sorted_asc _ _) in *. exists names, ls. split; [exact E1|]. split; [exact FN|]. split; [exact FL|].
  split. { symmetry. apply sorted_asc_any. }
  unfold analyse in E3. apply bind_ok in E3 as (cs0 & A0 & E3). apply bind_ok in E3 as (cs1 & A1 & E3).
  apply bind_ok in E3 as (kept & A2 & E3). apply bind_ok in E3 as (filtered & A3 & E3). apply bind_ok in E3 as (cands1 & A4 & E3).
  injection E3 as <- <-.
  assert (K0 : concat (map c_peaks cs0) = peaks).
  { destruct (Nat.eqb_spec (length peaks) 0) as [L|L]; [|now apply cluster_peaks_keeps in A0].
    injection A0 as <-. destruct peaks; [reflexivity|discriminate]. }
  assert (K1 : map c_peaks cs1 = map c_peaks cs0 /\ forall c, In c cs1 -> exists best, centre c = Ok best).
  { destruct (Nat.eqb_spec (length cs0) 0) as [L|L].
    - injection A1 as <-. split; [reflexivity|]. destruct cs0; [intros c []|discriminate].
    - split; [now apply flag_harmonics_keeps in A1|]. eapply flag_harmonics_centres; eauto. }
  destruct K1 as [K1 K2]. split; [now rewrite K1|].
  split. { intros c Hc. destruct (K2 c Hc) as (b & Eb). exists b. split; [exact Eb|now apply centre_in]. }
  apply filters_keep in A2 as [F1 F2]. apply mapM_inv in A3.
  assert (FI : forall c, In c filtered <-> exists i, In i kept /\ nth_error cs1 i = Some c).
  { clear - A3. intros c. split.
    - intros Hc. induction A3 as [|i x kept fl Ex _ IH]; [destruct Hc|]. destruct Hc as [->|Hc].
      + exists i. split; [now left|now apply rd_inv].
      + destruct (IH Hc) as (j & Hj & Ej). exists j. split; [now right|exact Ej].
    - intros (i & Hi & Ei). induction A3 as [|j x kept fl Ex _ IH]; [destruct Hi|]. destruct Hi as [->|Hi].
      + left. apply rd_inv in Ex. congruence.
      + right. now apply IH. }
  apply build_candidates_keeps in A4 as [B1 B2]. split.
  - intros cd Hcd. destruct (B2 cd Hcd) as (c & k & ts & Ic & RL & CF). exists c, k, ts.
    apply FI in Ic as (i & Ik & Ei). destruct (F1 i Ik) as (c' & Ei' & PA). replace c' with c in * by congruence.
    split; [eapply nth_error_In; eauto|].
    pose proof CF as CF'. unfold candidate_from in CF'. apply bind_ok in CF' as (p & Ep & CF'). apply bind_ok in CF' as (rng & _ & CF').
    destruct rng as [rg|]; [|discriminate]. unfold from_pipeline_output in CF'. rewrite Ep in CF'. cbn [bind] in CF'.
    apply bind_ok in CF' as (X & _ & CF'). injection CF' as <-. cbn [cd_params cd_peaks].
    split; [exact Ep|]. split; [reflexivity|]. split; [now apply PA|]. split; [exact RL|exact CF].
  - intros MX c best Ic Eb PA. destruct (In_nth_error _ _ Ic) as (i & Ei).
    destruct (B1 c) as (p & k & ts & Ep & KD & RL & CF). { apply FI. exists i. split; [|exact Ei]. eapply F2; eauto. }
    rewrite Eb in Ep. injection Ep as <-. exists k, ts. auto.
Qed.

(** A run whose parts return, returns: the pool of workers adds no failure of its own. *)
Theorem run_returns :
  forall cf files outdir s d chunks lists cs cands rows,
  cf_processes cf <> 0 -> prepare cf files = Ok d -> iterate_filenames N d (cf_processes cf) = Ok chunks ->
  Forall2 (fun name l => worker cf name = Ok l) (concat chunks) lists ->
  let peaks := sorted_asc (fun p q => n_ltb (p_period p) (p_period q)) (concat lists) in
  analyse N alloc argsort as_fraction load cf d peaks = Ok (cs, cands) -> cluster_table N cs = Ok rows ->
  (forall c, In c cands -> (exists t, to_json c = Ok t) /\ (cf_plot cf = true -> exists t, png c = Ok t)) ->
  exists s', process False cf files outdir s (Ok (Products peaks cs cands)) s'.
Proof.
  intros cf files outdir s d chunks lists cs cands rows HP EP EC FL peaks EA ET WR.
  assert (G : forall ch ls acc, Forall2 (fun name l => worker cf name = Ok l) (concat ch) ls ->
    search_loop N string (worker cf) False (cf_processes cf) ch acc (Ok (acc ++ concat ls))).
  { clear - HP. induction ch as [|c ch IH]; intros ls acc F.
    { inversion F. cbn [concat]. rewrite app_nil_r. constructor. }
    cbn [concat] in F. apply Forall2_app_inv_l in F as (l1 & l2 & F1 & F2 & ->).
    assert (OKc : forall x, In x c -> exists l, worker cf x = Ok l).
    { clear - F1. induction F1 as [|x l c l1 E _ I]; intros y [<-|Hy] || intros y []; eauto. }
    assert (NUc : forall x, In x c -> worker cf x <> UB /\ worker cf x <> Loop).
    { intros x Hx. destruct (OKc x Hx) as [l ->]. split; discriminate. }
    destruct (pool_map_returns (O := Empty_set) (fun _ (s : unit) => s) (fun _ => []) (worker cf) (cf_processes cf) c tt HP NUc)
      as (r & [] & PM).
    pose proof (pool_map_correct _ _ _ _ _ _ _ _ _ HP NUc PM) as PC.
    destruct r as [v|e| |]; try contradiction.
    2:{ exfalso. destruct PC as [(x & Hx & E)|([] & _)]. destruct (OKc x Hx). congruence. }
    destruct PC as (bs & FB & EV).
    assert (EB : bs = l1).
    { clear - F1 FB. revert bs FB. induction F1 as [|x l c l1 E _ I]; intros bs FB; inversion FB; subst; [reflexivity|].
      f_equal; [congruence|auto]. }
    subst bs.
    assert (PL : process_fname_list N string (worker cf) False (cf_processes cf) c (Ok (concat l1))).
    { assert (E : (v' <- Ok v ;; l <- mapM (fun o : option (list (peak N)) => match o with Some x => Ok x | None => Err TypeError end) v' ;;
        Ok (concat l)) = Ok (concat l1)).
      { cbn [bind]. rewrite EV. clear. replace (mapM _ (map Some l1)) with (Ok l1 : res (list (list (peak N)))); [reflexivity|].
        symmetry. apply mapM_complete. induction l1; cbn [map]; constructor; auto. }
      rewrite <- E. now constructor. }
    rewrite concat_app, app_assoc. econstructor; [exact PL|]. now apply IH. }
  assert (ES : search_files N flog fpow alloc allocz fit argsort load False cf d (Ok peaks)).
  { unfold search_files. rewrite EC. exact (Search _ _ _ _ _ _ _ (G chunks lists [] FL)). }
  assert (SV : exists s', save N peaks_csv clusters_csv candidates_csv to_json png pieces False cf outdir (Products peaks cs cands) s (Ok tt) s').
  { set (csv := fun name o => match o with Some t => write_file pieces (path_join outdir name) t | None => [] end).
    set (s1 := fold_left (fun s o => run_fop o s) (csv "peaks.csv"%string (text_of peaks_csv peaks) ++
      csv "clusters.csv"%string (text_of clusters_csv rows) ++
      csv "candidates.csv"%string (text_of candidates_csv (map cd_params cands)))%list s).
    destruct (text_of peaks_csv peaks) eqn:ETX.
    2:{ exists s. apply Save_files with (rows := rows); [easy|]. cbn [pr_peaks]. rewrite ETX. now apply Save_none. }
    set (l := combine (seq 0 (length cands)) cands).
    assert (OK : forall x, In x l -> writer_result _ to_json png (cf_plot cf) x = Ok tt).
    { intros [r c] Hx. unfold writer_result. cbn [snd]. apply in_combine_r in Hx.
      destruct (WR c Hx) as [[t ->] Q]. cbn [bind]. destruct (cf_plot cf); [|reflexivity].
      destruct (Q eq_refl) as [t' ->]. reflexivity. }
    assert (NU : forall x, In x l -> writer_result _ to_json png (cf_plot cf) x <> UB /\ writer_result _ to_json png (cf_plot cf) x <> Loop).
    { intros x Hx. rewrite (OK x Hx). split; discriminate. }
    destruct (pool_map_returns run_fop (writer_ops _ to_json png pieces outdir (cf_plot cf)) (writer_result _ to_json png (cf_plot cf))
      (cf_processes cf) l s1 HP NU) as (r & s' & PM).
    pose proof (pool_map_correct _ _ _ _ _ _ _ _ _ HP NU PM) as PC.
    destruct r as [v|e| |]; try contradiction.
    2:{ exfalso. destruct PC as [(x & Hx & E)|([] & _)]. rewrite (OK x Hx) in E. discriminate. }
    exists s'. apply Save_files with (rows := rows); [intros _; exact ET|]. cbn [pr_peaks pr_candidates].
    change (Ok tt) with (_ <- Ok v ;; Ok tt). rewrite ETX. apply Save_some; [discriminate|exact PM]. }
  destruct SV as [s' SV]. exists s'.
  change (Ok (Products peaks cs cands)) with (_ <- Ok tt ;; Ok (Products peaks cs cands)). eapply Process_save; eauto.
Qed.
End Run.
Print Assumptions run_keeps_peaks.
Print Assumptions run_returns.

(** The whole pipeline, executed in IEEE arithmetic: two files of 128 samples at the same DM, of which the last is searched,
    with a pulse of 3 on a background of 1 every 9 samples.  The logarithm, the polynomial fit and the conversion to a
    fraction are stand-ins. *)
Local Notation NI := (numI left_to_right).
Definition ie (k : Z) : spec_float := @o_ofZ NI n_dbl k.
Definition iq (a b : Z) : spec_float := @o_div NI n_dbl (ie a) (ie b).
Definition ie_data : list spec_float := map (fun i => if i mod 9 =? 4 then ie 3 else ie 1) (seq 0 128).
Definition ie_load (_ : string) : res (series NI) :=
  Ok (Series (N := NI) ie_data (iq 1 64) [("dm"%string, MFloat (N := NI) (ie 10))]).
Definition ie_log (x : spec_float) : spec_float := @o_sub NI n_dbl x (ie 1).
Fixpoint ie_pow (x : spec_float) (n : nat) : spec_float := match n with O => ie 1 | S n' => @o_mul NI n_dbl x (ie_pow x n') end.
Definition ie_argsort (l : list spec_float) : list nat :=
  map snd (sorted_asc (fun a b => SFltb (fst a) (fst b)) (combine l (seq 0 (length l)))).
Definition ie_fit (_ _ : list spec_float) (_ : Z) : res (spec_float -> spec_float) := Ok (fun _ => ie 3).
Definition ie_fraction (x : spec_float) : res fraction :=
  match x with
  | S754_zero _ => Ok (0%Z, 1%Z)
  | S754_finite s m e => Ok (frac (cond_Zopp s (Zpos m) * 2 ^ (Z.max 0 (10 + e)) / 2 ^ Z.max 0 (- e - 10)) 1024)
  | _ => Err ValueError
  end.
Definition ie_range : range NI :=
  Rg (N := NI) (Search_kw (N := NI) (iq 8 64) (iq 10 64) 1 8 9 (iq 1 4) (iq 3 2))
    (Peaks_kw (N := NI) (ie 4) (ie 5) (ie 6) 10 2 (Some (iq 1 10))) 8 4.
Definition ie_config : config NI :=
  Config (N := NI) 2 None None None None None None (iq 31 64) (PInt 31) [ie_range]
    (iq 1 10) (Hflags (N := NI) 100 (ie 1) (ie 3) (ie 3)) (Filters (N := NI) None (Some (ie 5)) None None) false.
Definition ie_meta (f : string) : res (meta NI) :=
  Ok (Meta (N := NI) f (ie 10) (ie 2) (iq 1 64) (ie 0) (ie 30) (Some (ie 1000, ie 5, 100%Z))).
Definition ie_alloc (n : nat) : list spec_float := repeat (ie 0) n.
Local Notation ie_prepare := (prepare NI (fun _ => iq 1 2) ie_meta ie_config ["a.inf"%string; "b.inf"%string]).
Local Notation ie_worker := (worker NI ie_log ie_pow ie_alloc (fun n => repeat 0%Z n) ie_fit ie_argsort ie_load ie_config).
Local Notation ie_sorted := (sorted_asc (fun p q : peak NI => n_ltb (p_period p) (p_period q))).
Definition returns {A} (x : res A) : bool := match x with Ok _ => true | _ => false end.
Definition got {A} (a : A) (x : res A) : A := match x with Ok b => b | _ => a end.
Lemma got_ok {A} (a : A) (x : res A) : returns x = true -> x = Ok (got a x).
Proof. now destruct x. Qed.
Definition ie_d : dmiter NI := got (DMI (N := NI) [] [] [] (ie 0) (ie 0) 0%Z) ie_prepare.
Definition ie_peaks : list (peak NI) := got [] (ie_worker "b.inf"%string).
Definition ie_analysis : list (cluster NI) * list (candidate NI (series NI)) :=
  got ([], []) (analyse NI ie_alloc ie_argsort ie_fraction ie_load ie_config ie_d (ie_sorted (concat [ie_peaks]))).
Definition ie_rows := got [] (cluster_table NI (fst ie_analysis)).
Lemma ie_prepare_ok : ie_prepare = Ok ie_d.
Proof. unfold ie_d. apply got_ok. vm_compute. reflexivity. Qed.
Lemma ie_names : iterate_filenames NI ie_d (cf_processes ie_config) = Ok [["b.inf"%string]].
Proof. vm_compute. reflexivity. Qed.
Lemma ie_worker_ok : ie_worker "b.inf"%string = Ok ie_peaks.
Proof. unfold ie_peaks. apply got_ok. vm_compute. reflexivity. Qed.
Lemma ie_analysis_ok : analyse NI ie_alloc ie_argsort ie_fraction ie_load ie_config ie_d (ie_sorted (concat [ie_peaks])) =
  Ok (fst ie_analysis, snd ie_analysis).
Proof. rewrite <- surjective_pairing. unfold ie_analysis. apply got_ok. vm_compute. reflexivity. Qed.
Lemma ie_rows_ok : cluster_table NI (fst ie_analysis) = Ok ie_rows.
Proof. unfold ie_rows. apply got_ok. vm_compute. reflexivity. Qed.

Example run_keeps_peaks_used : forall s,
  length (fst ie_analysis) = 5 /\ length (snd ie_analysis) = 4 /\
  exists s', process NI ie_log ie_pow ie_alloc (fun n => repeat 0%Z n) ie_fit ie_argsort ie_fraction (fun _ => iq 1 2) ie_meta ie_load
    (fun _ => "p"%string) (fun _ => "c"%string) (fun _ => "k"%string) (fun _ => Ok "j"%string) (fun _ => Ok "g"%string) (fun t => [t])
    False ie_config ["a.inf"%string; "b.inf"%string] "out"%string s
    (Ok (Products (ie_sorted (concat [ie_peaks])) (fst ie_analysis) (snd ie_analysis))) s'.
Proof.
  intros s. split; [vm_compute; reflexivity|]. split; [vm_compute; reflexivity|].
  refine (run_returns NI ie_log ie_pow ie_alloc (fun n => repeat 0%Z n) ie_fit ie_argsort ie_fraction (fun _ => iq 1 2) ie_meta ie_load
    (fun _ => "p"%string) (fun _ => "c"%string) (fun _ => "k"%string) (fun _ => Ok "j"%string) (fun _ => Ok "g"%string) (fun t => [t])
    ie_config ["a.inf"%string; "b.inf"%string] "out"%string s ie_d [["b.inf"%string]] [ie_peaks] (fst ie_analysis) (snd ie_analysis) ie_rows
    _ _ _ _ _ _ _).
  - cbn. lia.
  - exact ie_prepare_ok.
  - exact ie_names.
  - cbn [concat List.app]. apply Forall2_cons; [exact ie_worker_ok|apply Forall2_nil].
  - cbv zeta. exact ie_analysis_ok.
  - exact ie_rows_ok.
  - intros c _. split; [eauto|]. cbn. discriminate.
Qed.
