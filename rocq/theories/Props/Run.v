(** C77-C80: the tables and the files of a run, that it is determined, and that it returns. *)
From Coq Require Import String List Arith ZArith Bool Lia Reals Lra Psatz Permutation Sorted.
From Flocq Require Import Core.
From Verif Require Import Base.Result Base.Buf Base.Num Model.Transforms Model.Downsample Model.FastRmed Model.Snr
  Model.Libffa Model.Periodogram Model.Metadata Model.TimeSeries Model.Search Model.Cluster Model.Peaks Model.Harmonic
  Model.Folding Model.DmIter Model.Pipeline Model.Ranges Model.Pool Model.Writer Model.Sigproc Model.Presto
  Model.Worker Model.Process Spec.Sums Spec.FfaSpec Spec.Overlap Spec.Noise Spec.Boxcar Spec.Friends Spec.Smearing
  Proof.Cluster Proof.Pipeline Proof.TimeSeries Props.Downsample Props.Folding Props.FastRmed Props.Periodogram
  Props.Snr Props.Response Props.Cluster Props.Search Props.Peaks Props.Harmonic Props.DmIter Props.Pipeline Props.Ranges Props.Build Props.Pool Props.Writer
  Props.Sigproc Props.Presto Props.Worker Props.Process.
Import ListNotations.
Local Open Scope R_scope.

(** ** The table of clusters *)
Lemma increasing_seq (l : list nat) n : StronglySorted lt l -> Permutation l (seq 0 n) -> l = seq 0 n.
Proof.
  assert (G : forall l m : list nat, StronglySorted lt l -> StronglySorted lt m -> (forall x, In x l <-> In x m) -> l = m).
  { clear. induction l as [|a l IH]; intros [|b m] S1 S2 H; auto.
    - exfalso. apply (proj2 (H b)). now left.
    - exfalso. apply (proj1 (H a)). now left.
    - inversion S1 as [|? ? S1' F1]; subst. inversion S2 as [|? ? S2' F2]; subst. rewrite Forall_forall in F1, F2.
      assert (a = b) as ->.
      { destruct (proj1 (H a) (or_introl eq_refl)) as [E|I1]; auto. destruct (proj2 (H b) (or_introl eq_refl)) as [E|I2]; auto.
        apply F2 in I1. apply F1 in I2. lia. }
      f_equal. apply IH; auto. intros x. split; intros Hx.
      + destruct (proj1 (H x) (or_intror Hx)) as [E|I]; auto. apply F1 in Hx. lia.
      + destruct (proj2 (H x) (or_intror Hx)) as [E|I]; auto. apply F2 in Hx. lia. }
  intros S P. apply G; auto.
  - clear. generalize 0%nat. induction n as [|n IH]; intros s; cbn; constructor; auto. apply Forall_forall. intros x Hx. apply in_seq in Hx. lia.
  - intros x. split; apply Permutation_in; [auto|now symmetry].
Qed.

(** the row of the cluster of rank [k] *)
Definition row_of (cs : list (cluster numR)) (k : nat) (r : row numR) : Prop :=
  row_rank r = Some k /\
  exists c, In c cs /\ c_rank c = Some k /\ first_brightest (c_peaks c) (row_centre r) /\ row_npeaks r = length (c_peaks c) /\
    match c_parent c with
    | None => row_hfrac_num r = 0%Z /\ row_hfrac_denom r = 0%Z /\ row_fundamental_rank r = Some k
    | Some f => exists F l, nth_error cs f = Some F /\ c_parent F = None /\ c_rank F = Some l /\ (l < k)%nat /\
        row_fundamental_rank r = Some l /\ c_hfrac c = Some (row_hfrac_num r, row_hfrac_denom r)
    end.

(** C77: the table of flagged clusters has one row per cluster, in the order of the ranks *)
Theorem cluster_table_correct :
  forall test (cs : list (cluster numR)),
  flagged test cs -> (forall c, In c cs -> c_peaks c <> []) ->
  exists rows, cluster_table numR cs = Ok rows /\ length rows = length cs /\
    forall k r, nth_error rows k = Some r -> row_of cs k r.
Proof.
  intros test cs (order & PO & RK & SN & FL) NE. cbv zeta in RK, SN, FL.
  set (ranked := fun k i c p => nth_error order k = Some i /\ nth_error cs i = Some c /\ first_brightest (c_peaks c) p) in *.
  (* every cluster has a place *)
  assert (PL : forall i c, nth_error cs i = Some c -> exists k p, ranked k i c p /\ c_rank c = Some k).
  { intros i c Hi. assert (Ii : In i order).
    { apply (Permutation_in i (Permutation_sym PO)), in_seq. split; [lia|]. cbn. apply nth_error_Some. congruence. }
    apply In_nth_error in Ii as [k Ek]. destruct (RK k i Ek) as (c' & p & R & E). exists k, p. destruct R as (R1 & R2 & R3).
    replace c' with c in * by congruence. split; [split; [auto|split; auto]|auto]. }
  set (tie := fun c d : cluster numR => forall p q k l, first_brightest (c_peaks c) p -> first_brightest (c_peaks d) q ->
    p_snr p = p_snr q -> c_rank c = Some k -> c_rank d = Some l -> (k < l)%nat).
  assert (ST : StronglySorted tie cs).
  { assert (K : forall i j c d, (i < j)%nat -> nth_error cs i = Some c -> nth_error cs j = Some d -> tie c d).
    { intros i j c d L Hi Hj p q k l Bp Bq E Ek El. destruct (PL i c Hi) as (k' & p' & R1 & E1). destruct (PL j d Hj) as (l' & q' & R2 & E2).
      replace k' with k in * by congruence. replace l' with l in * by congruence.
      destruct R1 as (A1 & A2 & A3), R2 as (B1 & B2 & B3).
      assert (p' = p) by (eapply first_brightest_fun; eauto). assert (q' = q) by (eapply first_brightest_fun; eauto). subst.
      destruct (lt_eq_lt_dec k l) as [[G|G]|G]; auto; exfalso.
      - subst l. rewrite A1 in B1. injection B1 as ->. lia.
      - destruct (SN l k j i d c q p) as [G'|[_ G']]; unfold ranked; auto; [numR_ty; lra|lia]. }
    clear - K. induction cs as [|c cs IH]; constructor.
    - apply IH. intros i j a b L Ha Hb. apply (K (S i) (S j)); auto. lia.
    - apply Forall_forall. intros d Hd. apply In_nth_error in Hd as [j Hj]. apply (K 0%nat (S j)); auto. lia. }
  destruct (by_snr_total (fun c => c) cs NE) as [s ES].
  destruct (by_snr_spec (fun c => c) _ _ _ ST ES) as (PM & SS & CT).
  assert (IS : forall x, In x s -> exists i, nth_error cs i = Some (fst x)).
  { intros x Hx. apply In_nth_error. apply (Permutation_in _ PM). now apply in_map. }
  assert (BR : forall x, In x s -> first_brightest (c_peaks (fst x)) (snd x)).
  { intros [c p] Hx. apply centre_spec. now apply CT. }
  set (rank := fun c : cluster numR => match c_rank c with Some k => k | None => 0%nat end).
  assert (LO : length order = length cs) by (rewrite (Permutation_length PO); apply seq_length).
  assert (RS : map (fun x => rank (fst x)) s = seq 0 (length cs)).
  { apply increasing_seq.
    - assert (ORD : forall x y, In x s -> In y s ->
        p_snr (snd y) < p_snr (snd x) \/ p_snr (snd x) = p_snr (snd y) /\ tie (fst x) (fst y) -> (rank (fst x) < rank (fst y))%nat).
      { intros x y Hx Hy H. destruct (IS x Hx) as [i Hi], (IS y Hy) as [j Hj].
        destruct (PL i _ Hi) as (k & p & Rk & Ek). destruct (PL j _ Hj) as (l & q & Rl & El).
        unfold rank. rewrite Ek, El. destruct H as [H|[H T]]; [|exact (T _ _ _ _ (BR x Hx) (BR y Hy) H Ek El)].
        destruct Rk as (A1 & A2 & A3), Rl as (B1 & B2 & B3).
        assert (p = snd x) by (eapply first_brightest_fun; eauto). assert (q = snd y) by (eapply first_brightest_fun; eauto). subst.
        destruct (lt_eq_lt_dec k l) as [[G|G]|G]; auto; exfalso.
        + subst l. rewrite A1 in B1. injection B1 as ->. rewrite Hi in Hj. injection Hj as E. rewrite E in A3.
          assert (snd x = snd y) by (eapply first_brightest_fun; eauto). rewrite H0 in H. numR_ty. lra.
        + destruct (SN l k j i (fst y) (fst x) (snd y) (snd x)) as [G'|[G' _]]; unfold ranked; auto; numR_ty; lra. }
      clear - SS ORD. induction SS as [|x l SS IH F]; cbn [map]; constructor.
      + apply IH. intros a b Ha Hb. apply ORD; now right.
      + apply Forall_forall. intros y Hy. apply in_map_iff in Hy as (z & <- & Hz). rewrite Forall_forall in F.
        apply ORD; [now left|now right|exact (F z Hz)].
    - transitivity (map rank cs); [rewrite <- (map_map fst rank); now apply Permutation_map|].
      apply NoDup_Permutation; [|apply seq_NoDup|].
      + apply (NoDup_nth _ 0%nat). rewrite map_length. intros i j Li Lj E.
        destruct (nth_error cs i) as [c|] eqn:Hi; [|apply nth_error_None in Hi; lia].
        destruct (nth_error cs j) as [d|] eqn:Hj; [|apply nth_error_None in Hj; lia].
        rewrite (nth_error_nth (map rank cs) i 0%nat (x := rank c)) in E by (rewrite nth_error_map, Hi; reflexivity).
        rewrite (nth_error_nth (map rank cs) j 0%nat (x := rank d)) in E by (rewrite nth_error_map, Hj; reflexivity).
        destruct (PL i c Hi) as (k & p & (A1 & _) & Ek). destruct (PL j d Hj) as (l & q & (B1 & _) & El).
        unfold rank in E. rewrite Ek, El in E. subst l. congruence.
      + intros k. rewrite in_seq. split.
        * intros H. apply in_map_iff in H as (c & <- & Hc). apply In_nth_error in Hc as [i Hi].
          destruct (PL i c Hi) as (k & p & (A1 & _) & Ek). unfold rank. rewrite Ek.
          assert (k < length order)%nat by (apply nth_error_Some; congruence). lia.
        * intros [_ L]. destruct (nth_error order k) as [i|] eqn:Ek; [|apply nth_error_None in Ek; lia].
          destruct (RK k i Ek) as (c & p & (_ & Hi & _) & Er). apply in_map_iff. exists c. unfold rank. rewrite Er.
          split; auto. eapply nth_error_In; eauto. }
  assert (LS : length s = length cs).
  { rewrite <- (Permutation_length PM). now rewrite map_length. }
  assert (ROW : forall c p, In (c, p) s -> exists r, cluster_row numR cs c = Ok r /\ row_of cs (rank c) r).
  { intros c p Hx. destruct (IS _ Hx) as [i Hi]. cbn [fst] in Hi. destruct (PL i c Hi) as (k & p' & Rk & Ek).
    pose proof (FL k i c p' Rk) as FC. unfold cluster_row. rewrite (CT c p Hx). cbn [bind].
    assert (ER : rank c = k) by (unfold rank; now rewrite Ek). rewrite ER.
    assert (Ic : In c cs) by (eapply nth_error_In; eauto).
    assert (Bp : first_brightest (c_peaks c) p) by exact (BR _ Hx).
    destruct (c_parent c) as [f|] eqn:EP.
    - destruct FC as (l & F & q & [n d] & Ll & (O1 & O2 & O3) & Pn & _ & EH & _).
      destruct (RK l f O1) as (F' & q' & (_ & O2' & _) & El). replace F' with F in * by congruence.
      unfold rd. rewrite O2. cbn [bind]. rewrite EH. eexists. split; [reflexivity|]. split; [exact Ek|].
      exists c. split; [exact Ic|]. split; [exact Ek|]. split; [exact Bp|]. split; [reflexivity|]. rewrite EP.
      exists F, l. cbn [row_hfrac_num row_hfrac_denom row_fundamental_rank]. auto 10.
    - eexists. split; [reflexivity|]. split; [exact Ek|].
      exists c. split; [exact Ic|]. split; [exact Ek|]. split; [exact Bp|]. split; [reflexivity|]. rewrite EP.
      cbn [row_hfrac_num row_hfrac_denom row_fundamental_rank]. auto. }
  unfold cluster_table. rewrite ES. cbn [bind].
  assert (G : forall l, (forall x, In x l -> In x s) -> exists rows, mapM (fun x => cluster_row numR cs (fst x)) l = Ok rows /\
    Forall2 (fun x r => row_of cs (rank (fst x)) r) l rows).
  { induction l as [|[c p] l IH]; intros IL; [exists []; split; [reflexivity|constructor]|]. cbn [mapM fst].
    destruct (ROW c p (IL _ (or_introl eq_refl))) as (r & -> & Hr). cbn [bind].
    destruct (IH ltac:(intros x Hx; apply IL; now right)) as (rows & -> & F). cbn [bind]. eexists. split; [reflexivity|].
    constructor; auto. }
  destruct (G s ltac:(auto)) as (rows & ER & F). exists rows. split; [exact ER|].
  assert (LR : length rows = length s) by (clear - F; induction F; cbn; auto).
  split; [lia|]. intros k r Hk.
  assert (exists x, nth_error s k = Some x /\ row_of cs (rank (fst x)) r) as (x & Hx & Rx).
  { clear - F Hk. revert k Hk. induction F as [|x r' l rows H F IH]; intros [|k] Hk; try discriminate; cbn in Hk.
    - injection Hk as <-. exists x. auto.
    - exact (IH k Hk). }
  assert (EK : rank (fst x) = k).
  { assert (E : nth_error (map (fun x => rank (fst x)) s) k = Some (rank (fst x))) by (rewrite nth_error_map, Hx; reflexivity).
    rewrite RS in E. assert (k < length cs)%nat by (rewrite <- LS; apply nth_error_Some; congruence).
    rewrite (nth_error_nth' _ 0%nat) in E by (now rewrite seq_length). injection E as E. rewrite seq_nth in E by auto. lia. }
  now rewrite EK in Rx.
Qed.
Print Assumptions cluster_table_correct.

(** flags of the example: the brighter cluster is the fundamental of the other *)
Example cluster_table_used :
  exists cs, flagged (fun _ _ => Ok (true, (2, 1)%Z)) cs /\ length cs = 3%nat /\ forall c, In c cs -> c_peaks c <> [].
Proof.
  assert (FR : Forall fresh ex_clusters).
  { unfold ex_clusters. repeat constructor; discriminate. }
  destruct (flag_harmonics_total (fun _ _ => Ok (true, (2, 1)%Z)) ex_clusters FR) as [cs E]; [intros; eauto|].
  exists cs. destruct (flag_harmonics_correct _ _ _ FR E) as (L & order & PO & RK & SN & FL). cbv zeta in RK, SN, FL.
  rewrite <- L in PO. split; [exists order; split; [exact PO|]; cbv zeta; split; [|split; [exact SN|exact FL]]|split; [exact L|]].
  - intros k i Ek. destruct (RK k i Ek) as (c & c' & p & _ & R & _ & Er). eauto.
  - intros c Hc. apply In_nth_error in Hc as [i Hi].
    assert (Ii : In i order).
    { apply (Permutation_in i (Permutation_sym PO)), in_seq. split; [lia|]. cbn. apply nth_error_Some. congruence. }
    apply In_nth_error in Ii as [k Ek]. destruct (RK k i Ek) as (c0 & c' & p & _ & (_ & Hc' & (a & b & Ep & _)) & _ & _).
    replace c' with c in * by congruence. rewrite Ep. now destruct a.
Qed.

(** ** The run *)
Definition with_processes (n : nat) (cf : config numR) : config numR :=
  Config n (cf_dm_min cf) (cf_dm_max cf) (cf_dmsinb_max cf) (cf_fmin cf) (cf_fmax cf) (cf_nchans cf)
    (cf_rmed_width cf) (cf_rmed_minpts cf) (cf_ranges cf) (cf_radius cf) (cf_harmonics cf) (cf_filters cf) (cf_plot cf).

Section Run.
Context (alloc : nat -> list R) (allocz : nat -> list Z) (fit : list R -> list R -> Z -> res (R -> R))
  (argsort : list R -> list nat) (as_fraction : R -> res fraction) (abs_sin : R -> R)
  (read_meta : string -> res (meta numR)) (load : string -> res (series numR)).
Context (peaks_csv : list (peak numR) -> string) (clusters_csv : list (row numR) -> string)
  (candidates_csv : list (peak numR) -> string) (to_json png : candidate numR (series numR) -> res string)
  (pieces : string -> list string).
Local Notation worker := (worker numR ln pow alloc allocz fit argsort load).
Local Notation prepare := (prepare numR abs_sin read_meta).
Local Notation search_files := (search_files numR ln pow alloc allocz fit argsort load).
Local Notation analyse := (analyse numR alloc argsort as_fraction load).
Local Notation save := (save numR peaks_csv clusters_csv candidates_csv to_json png pieces).
Local Notation process := (process numR ln pow alloc allocz fit argsort as_fraction abs_sin read_meta load peaks_csv clusters_csv
  candidates_csv to_json png pieces).
Local Notation environment_ok := (environment_ok alloc allocz fit argsort).
Local Notation files_ok := (files_ok read_meta load).
Local Notation band_known := (band_known read_meta).

(** writing a candidate raises nothing worse than an exception *)
Definition writable : Prop := forall c, safe (to_json c) /\ safe (png c).

Lemma process_clusters faults cf files outdir s pr s' :
  environment_ok -> config_ok cf -> files_ok cf files -> band_known cf files ->
  process faults cf files outdir s (Ok pr) s' ->
  exists rows, cluster_table numR (pr_clusters pr) = Ok rows /\ length rows = length (pr_clusters pr) /\
    (forall k r, nth_error rows k = Some r -> row_of (pr_clusters pr) k r) /\
    (pr_peaks pr <> [] -> rows <> []).
Proof.
  intros EN CO FO BK H.
  destruct (process_correct alloc allocz fit argsort as_fraction abs_sin read_meta load peaks_csv clusters_csv candidates_csv
    to_json png pieces faults cf files outdir s pr s' EN CO FO BK H)
    as (metas & f0 & f1 & nc & trials & tmed & kept & outs & _ & _ & _ & _ & _ & _ & _ & CL & FL & _).
  destruct (cluster_table_correct _ _ FL (fun c Hc => proj1 (clustered_members _ _ _ CL c Hc))) as (rows & E & L & R).
  exists rows. split; auto. split; auto. split; auto. intros NE ->. cbn in L.
  destruct (pr_clusters pr); [|discriminate]. destruct CL as (groups & G1 & G2 & _ & G4). inversion G4; subst. cbn in G1.
  destruct (pr_peaks pr); [easy|discriminate].
Qed.

(** C78: the files that a run leaves *)
Theorem process_files :
  forall faults cf files outdir s pr s',
  environment_ok -> config_ok cf -> files_ok cf files -> band_known cf files -> splits pieces -> writable ->
  process faults cf files outdir s (Ok pr) s' ->
  (pr_peaks pr = [] -> s' = s) /\
  (pr_peaks pr <> [] ->
   exists rows, length rows = length (pr_clusters pr) /\ (forall k r, nth_error rows k = Some r -> row_of (pr_clusters pr) k r) /\
   s' (path_join outdir "peaks.csv") = Some (peaks_csv (pr_peaks pr)) /\
   s' (path_join outdir "clusters.csv") = Some (clusters_csv rows) /\
   s' (path_join outdir "candidates.csv") =
     (if Nat.eqb (length (pr_candidates pr)) 0 then s (path_join outdir "candidates.csv")
      else Some (candidates_csv (map cd_params (pr_candidates pr)))) /\
   (forall rank c, nth_error (pr_candidates pr) rank = Some c ->
      (exists t, to_json c = Ok t /\ s' (candidate_fname outdir rank ".json") = Some t) /\
      (if cf_plot cf then exists t, png c = Ok t /\ s' (candidate_fname outdir rank ".png") = Some t
       else s' (candidate_fname outdir rank ".png") = s (candidate_fname outdir rank ".png"))) /\
   forall f, (forall rank ext, (rank < length (pr_candidates pr))%nat -> In ext [".json"; ".png"]%string ->
                f <> candidate_fname outdir rank ext) ->
     ~ In f (map (path_join outdir) ["peaks.csv"; "clusters.csv"; "candidates.csv"]%string) -> s' f = s f).
Proof.
  intros faults cf files outdir s pr s' EN CO FO BK SP WR H.
  destruct (process_clusters _ _ _ _ _ _ _ EN CO FO BK H) as (rows & ET & LR & RO & NR).
  destruct (process_ok_inv _ _ _ _ _ _ _ _ _ _ _ _ _ _ _ _ _ _ _ _ _ H) as (d & _ & _ & _ & SV).
  destruct CO as (HP & _).
  assert (NU : forall c, In c (pr_candidates pr) -> (to_json c <> UB /\ to_json c <> Loop) /\ (png c <> UB /\ png c <> Loop)).
  { intros c _. exact (WR c). }
  inversion SV as [|rows' r s1 ER SP1 E1 E2]; subst. split.
  - intros E. rewrite E in SP1. cbn [text_of] in SP1.
    now apply save_products_correct in SP1.
  - intros NE. specialize (ER NE). rewrite ET in ER. injection ER as <-.
    assert (EP : text_of peaks_csv (pr_peaks pr) = Some (peaks_csv (pr_peaks pr))) by (now destruct (pr_peaks pr)).
    assert (EC : text_of clusters_csv rows = Some (clusters_csv rows)) by (specialize (NR NE); now destruct rows).
    rewrite EP, EC in SP1. apply save_products_files in SP1; auto. cbv zeta in SP1.
    destruct SP1 as (W1 & W2 & W3 & W4 & W5). exists rows. split; auto. split; auto. split; auto. split; auto. split; [|split; auto].
    rewrite W3. destruct (pr_candidates pr); reflexivity.
Qed.

(** ** Determinism *)
Lemma files_ok_processes n cf files : files_ok (with_processes n cf) files <-> files_ok cf files.
Proof. reflexivity. Qed.

Lemma search_files_determined faults faults' n n' cf files d r r' :
  environment_ok -> config_ok cf -> files_ok cf files -> band_known cf files -> n <> 0%nat -> n' <> 0%nat ->
  prepare cf files = Ok d ->
  search_files faults (with_processes n cf) d r -> search_files faults' (with_processes n' cf) d r' ->
  (exists v, r = Ok v /\ r' = Ok v) \/ (exists e e', r = Err e /\ r' = Err e').
Proof.
  intros EN CO FO BK Hn Hn' EP H H'. 
  destruct (prepare_inv abs_sin read_meta load cf files d CO FO BK EP) as (metas & w & RM & NE & LD & _ & _ & W0 & _ & POS & DI).
  destruct (dm_iterator_correct abs_sin metas _ _ _ w _ _ _ d POS W0 DI
    (band_prepared abs_sin read_meta cf files d BK EP)) as (_ & _ & GF & CH).
  destruct (CH n) as (chunks & EC & _ & F2); [lia|]. destruct (CH n') as (chunks' & EC' & _ & F2'); [lia|]. clear CH.
  unfold Process.search_files in H, H'. cbn [with_processes cf_processes] in H, H'. rewrite EC in H. rewrite EC' in H'.
  assert (EQ : concat chunks = concat chunks').
  { destruct (iterate_filenames_chunks d n n' chunks ltac:(lia) ltac:(lia) EC) as (c2 & E2 & E3). rewrite EC' in E2. injection E2 as <-. auto. }
  change (Process.worker numR ln pow alloc allocz fit argsort load (with_processes n cf)) with (worker cf) in H.
  change (Process.worker numR ln pow alloc allocz fit argsort load (with_processes n' cf)) with (worker cf) in H'.
  refine (search_independent _ (worker cf) faults faults' n n' chunks chunks' r r' Hn Hn' EQ _ H H').
  intros x Hx. destruct (Forall2_in_r _ _ _ F2 x Hx) as (k & _ & m & LW & <-).
  apply last_with_in in LW as [Im _]. apply (proj1 (worker_ok alloc allocz fit argsort read_meta load cf files metas m EN CO FO RM Im)).
Qed.

Lemma save_products_agree C faults faults' (js pn : C -> res string) outdir plot procs procs' peaks clusters candidates (cands : list C) s0 r1 s1 r2 s2 :
  procs <> 0%nat -> procs' <> 0%nat ->
  (forall c, In c cands -> (js c <> UB /\ js c <> Loop) /\ (pn c <> UB /\ pn c <> Loop)) ->
  save_products C js pn pieces faults procs plot outdir peaks clusters candidates cands s0 r1 s1 ->
  save_products C js pn pieces faults' procs' plot outdir peaks clusters candidates cands s0 r2 s2 ->
  (r1 = Ok tt /\ r2 = Ok tt) \/ (exists e e', r1 = Err e /\ r2 = Err e') \/
  (faults' /\ r1 = Ok tt /\ exists e, r2 = Err e) \/ (faults /\ r2 = Ok tt /\ exists e, r1 = Err e).
Proof.
  intros HP HP' NU H1 H2.
  set (l := combine (seq 0 (List.length cands)) cands).
  assert (IN : forall x, In x l -> In (snd x) cands) by (intros [r c] Hx; unfold l in Hx; now apply in_combine_r in Hx).
  assert (NU' : forall x, In x l -> writer_result C js pn plot x <> UB /\ writer_result C js pn plot x <> Loop).
  { intros x Hx. apply IN, NU in Hx as [[A1 A2] [B1 B2]]. unfold writer_result.
    destruct (js (snd x)); cbn [bind]; try (split; (discriminate || contradiction)).
    destruct plot; [|split; discriminate]. destruct (pn (snd x)); cbn [bind]; split; (discriminate || contradiction). }
  assert (K : forall fl procs r s, procs <> 0%nat ->
    save_products C js pn pieces fl procs plot outdir peaks clusters candidates cands s0 r s ->
    (r = Ok tt /\ (peaks = None \/ exists bs, Forall2 (fun x b => writer_result C js pn plot x = Ok b) l bs)) \/
    (peaks <> None /\ exists e, r = Err e /\ (fl \/ exists x, In x l /\ writer_result C js pn plot x = Err e))).
  { clear procs procs' HP HP' H1 H2. intros fl procs r s HP H.
    inversion H as [E|r0 s' NE csv PM E1 E2]; subst; [left; auto|].
    apply pool_map_correct in PM; auto. destruct r0 as [v|e| |]; try contradiction; cbn [bind].
    - left. split; auto. right. destruct PM as (bs & F & _). eauto.
    - right. split; auto. exists e. split; auto. destruct PM as [(x & Hx & E)|(FL & _)]; eauto. }
  assert (X : forall bs x e, Forall2 (fun x b => writer_result C js pn plot x = Ok b) l bs -> In x l ->
    writer_result C js pn plot x = Err e -> False).
  { clear. intros bs x e F Hx E. destruct (Forall2_in_l _ _ _ F x Hx) as (b & _ & Eb). congruence. }
  destruct (K faults procs r1 s1 HP H1) as [(-> & A)|(NA & e & -> & A)]; destruct (K faults' procs' r2 s2 HP' H2) as [(-> & B)|(NB & e' & -> & B)].
  - left; auto.
  - right. right. left. destruct B as [B|(x & Hx & Ex)]; [eauto|]. exfalso. destruct A as [A|(bs & F)]; [contradiction|]. eapply X; eauto.
  - right. right. right. destruct A as [A|(x & Hx & Ex)]; [eauto|]. exfalso. destruct B as [B|(bs & F)]; [contradiction|]. eapply X; eauto.
  - right. left. eauto.
Qed.

(** C79: the products of a run and the files it leaves depend neither on the number of processes
    nor on their schedules.  Two runs end alike unless a worker of one failed to write its files
    ([faults]); only which of several errors is reported may depend on the schedule. *)
Theorem process_determined :
  forall faults faults' n n' cf files outdir s r1 s1 r2 s2,
  environment_ok -> config_ok cf -> files_ok cf files -> band_known cf files -> splits pieces -> writable ->
  n <> 0%nat -> n' <> 0%nat ->
  process faults (with_processes n cf) files outdir s r1 s1 ->
  process faults' (with_processes n' cf) files outdir s r2 s2 ->
  (exists pr, r1 = Ok pr /\ r2 = Ok pr /\ forall f, s1 f = s2 f) \/
  (exists e e', r1 = Err e /\ r2 = Err e') \/
  (faults' /\ (exists pr, r1 = Ok pr) /\ exists e, r2 = Err e) \/
  (faults /\ (exists pr, r2 = Ok pr) /\ exists e, r1 = Err e).
Proof.
  intros faults faults' n n' cf files outdir s r1 s1 r2 s2 EN CO FO BK SP WR Hn Hn' H1 H2.
  (* a run is a search, an analysis and saving *)
  assert (K : forall fl n r s1, process fl (with_processes n cf) files outdir s r s1 ->
    (exists e, prepare cf files = Err e /\ r = Err e) \/
    exists d, prepare cf files = Ok d /\
     ((exists e, search_files fl (with_processes n cf) d (Err e) /\ r = Err e) \/
      exists peaks, search_files fl (with_processes n cf) d (Ok peaks) /\
       ((exists e, analyse cf d peaks = Err e /\ r = Err e) \/
        exists cs cands r0, analyse cf d peaks = Ok (cs, cands) /\
          save fl (with_processes n cf) outdir (Products peaks cs cands) s r0 s1 /\
          r = (_ <- r0 ;; Ok (Products peaks cs cands))))).
  { clear n n' r1 s1 r2 s2 Hn Hn' H1 H2. intros fl n r s1 H.
    inversion H as [e E|d e E E'|d pk e E E' E''|d pk cs cands r0 s' E E' E'' E3]; subst.
    - left. eauto.
    - right. exists d. split; [exact E|]. left. eauto.
    - right. exists d. split; [exact E|]. right. exists pk. split; [exact E'|]. left. eauto.
    - right. exists d. split; [exact E|]. right. exists pk. split; [exact E'|]. right. exists cs, cands, r0. auto. }
  destruct (K faults n r1 s1 H1) as [(e & E1 & ->)|(d & E1 & K1)]; destruct (K faults' n' r2 s2 H2) as [(e' & E2 & ->)|(d' & E2 & K2)];
    try (exfalso; congruence); [right; left; eauto|].
  rewrite E1 in E2. injection E2 as <-.
  assert (SD : forall q q', search_files faults (with_processes n cf) d q -> search_files faults' (with_processes n' cf) d q' ->
    (exists v, q = Ok v /\ q' = Ok v) \/ (exists e e', q = Err e /\ q' = Err e')).
  { intros q q'. exact (search_files_determined faults faults' n n' cf files d q q' EN CO FO BK Hn Hn' E1). }
  destruct K1 as [(e & S1 & ->)|(pk & S1 & K1)]; destruct K2 as [(e' & S2 & ->)|(pk' & S2 & K2)];
    destruct (SD _ _ S1 S2) as [(v & A & B)|(e1 & e2 & A & B)]; try discriminate; [right; left; eauto|].
  injection A as ->. injection B as ->.
  destruct K1 as [(e & A1 & ->)|(cs & cands & q1 & A1 & V1 & ->)]; destruct K2 as [(e' & A2 & ->)|(cs' & cands' & q2 & A2 & V2 & ->)];
    try (exfalso; congruence); [right; left; eauto|].
  rewrite A1 in A2. injection A2 as <- <-.
  assert (NU : forall c, In c cands -> (to_json c <> UB /\ to_json c <> Loop) /\ (png c <> UB /\ png c <> Loop)) by (intros c _; exact (WR c)).
  inversion V1 as [e NE ET Q1 Q2|rows r0 s' ET SV Q1 Q2]; subst; inversion V2 as [e' NE' ET' Q1' Q2'|rows' r0' s'' ET' SV' Q1' Q2']; subst;
    cbn [pr_peaks pr_clusters pr_candidates] in *.
  - right. left. cbn [bind]. eauto.
  - exfalso. specialize (ET' NE). congruence.
  - exfalso. specialize (ET NE'). congruence.
  - cbn [with_processes cf_processes cf_plot] in SV, SV'.
    destruct v as [|p ps].
    + cbn [text_of] in SV, SV'. inversion SV as [E|? ? NE]; subst; [|easy]. inversion SV' as [E'|? ? NE]; subst; [|easy].
      left. cbn [bind]. eexists. auto.
    + assert (rows' = rows) as -> by (specialize (ET ltac:(discriminate)); specialize (ET' ltac:(discriminate)); congruence).
      destruct (save_products_agree _ _ _ _ _ _ _ _ _ _ _ _ _ _ _ _ _ _ Hn Hn' NU SV SV')
        as [[-> ->]|[(e & e' & -> & ->)|[(FL & -> & e & ->)|(FL & -> & e & ->)]]]; cbn [bind].
      * left. eexists. split; [reflexivity|]. split; [reflexivity|].
        exact (save_products_determined _ _ _ _ _ _ _ _ _ _ _ _ _ _ _ _ _ Hn Hn' SP NU SV SV').
      * right. left. eauto.
      * right. right. left. eauto.
      * right. right. right. eauto.
Qed.

(** ** Runs that return *)
Lemma mapM_complete {A B} (f : A -> res B) l o : Forall2 (fun a b => f a = Ok b) l o -> mapM f l = Ok o.
Proof. induction 1 as [|a b l o E F IH]; cbn [mapM]; [reflexivity|]. now rewrite E, IH. Qed.

Lemma wmin_returns (cf : config numR) : Forall range_fine (cf_ranges cf) -> cf_ranges cf <> [] ->
  exists w, wmin numR (ranges_of cf) = Ok w.
Proof.
  intros F NE. unfold wmin.
  match goal with |- context [mapM ?f _] => set (g := f) end.
  assert (E : exists l, mapM g (ranges_of cf) = Ok l /\ length l = length (cf_ranges cf)).
  { unfold ranges_of. clear NE. induction F as [|r rs (_ & B & _) F IH]; cbn [map mapM]; [exists []; auto|].
    destruct IH as (l & E & L). unfold g at 1. cbn [rg_bmin range_conf_of].
    destruct (Z.eqb_spec (Z.of_nat (sk_bmin (r_search r))) 0); [lia|]. cbn [bind]. rewrite E. cbn [bind].
    eexists. split; [reflexivity|]. cbn [length]. now rewrite L. }
  destruct E as (l & -> & L). cbn [bind]. destruct l as [|a l]; [destruct (cf_ranges cf); [easy|discriminate]|].
  unfold min_of, fold1. eauto.
Qed.

Lemma tsamp_max_in (d : dmiter numR) : di_list d <> [] -> exists m, In m (di_list d) /\ m_tsamp m = tsamp_max numR d.
Proof.
  unfold tsamp_max. generalize (di_list d). intros [|a l] NE; [easy|]. cbn [map]. clear NE.
  assert (G : forall (l : list R) (x : R), In (fold_left (fun a b : R => if Rlt_bool a b then b else a) l x) (x :: l)).
  { clear. induction l as [|b l IH]; intros x; cbn [fold_left]; [now left|].
    destruct (IH (if Rlt_bool x b then b else x)) as [I|I]; [|right; now right].
    rewrite <- I. destruct (Rlt_bool x b); [right; now left|now left]. }
  specialize (G (map m_tsamp l) (m_tsamp a)). apply (in_map_iff m_tsamp (a :: l)) in G as (m & E & Hm).
  exists m. split; [exact Hm|exact E].
Qed.

Lemma quantile_positive q (l : list R) v : is_quantile q l v -> (forall x, In x l -> 0 < x) -> 0 < v.
Proof.
  intros (k & a & b & K & (Ia & _) & (Ib & _) & ->) P. apply P in Ia, Ib.
  set (t := q * (INR (length l) - 1) - INR k) in *. assert (0 <= t < 1) by (unfold t; lra). nra.
Qed.

(** a file that the workers can search *)
Definition searchable (cf : config numR) (m : meta numR) : Prop :=
  exists ts, load (m_fname m) = Ok ts /\ forallb (item_valid numR) (se_md ts) = true /\ 0 < se_tsamp ts /\
    window_py_ok (length (se_data ts)) (ZnearestE (cf_rmed_width cf / se_tsamp ts)) (cf_rmed_minpts cf) /\
    Forall (fun r => range_fits (length (se_data ts)) (se_tsamp ts) (r_search r) /\ fit_works fit (r_peaks r) /\
      segments_fit (INR (length (se_data ts)) * se_tsamp ts) (r_search r) (r_peaks r)) (cf_ranges cf).

Lemma worker_returns cf files metas m : environment_ok -> config_ok cf -> files_ok cf files ->
  Forall2 (fun f m => read_meta f = Ok m) files metas -> In m metas -> searchable cf m ->
  exists l, worker cf (m_fname m) = Ok l.
Proof.
  intros (Ha & Hz & _) (_ & Hm & _) FO RM Im (ts & EL & IV & T0 & WO & FW).
  destruct (Forall2_in_r _ _ _ RM m Im) as (f & If & Ef). destruct (FO f m If Ef) as (_ & _ & LD).
  destruct (LD ts EL) as (ED & _ & WF). unfold Process.worker.
  apply (process_fname_total alloc allocz fit argsort load _ _ _ _ ts (m_dm m)); auto.
  unfold search_confs. rewrite Forall_map. exact FW.
Qed.

Lemma search_returns cf files d : environment_ok -> config_ok cf -> files_ok cf files -> band_known cf files ->
  prepare cf files = Ok d -> (forall m, In m (di_list d) -> searchable cf m) ->
  exists peaks, search_files False cf d (Ok peaks).
Proof.
  intros EN CO FO BK EP SE.
  destruct (prepare_inv abs_sin read_meta load cf files d CO FO BK EP) as (metas & w & RM & NE & LD & _ & _ & W0 & _ & POS & DI).
  destruct (dm_iterator_correct abs_sin metas _ _ _ w _ _ _ d POS W0 DI
    (band_prepared abs_sin read_meta cf files d BK EP)) as (_ & _ & _ & CH).
  pose proof CO as (PR & _). destruct (CH (cf_processes cf)) as (chunks & EC & _ & F2); [lia|]. clear CH.
  unfold Process.search_files. rewrite EC.
  assert (OK : forall x, In x (concat chunks) -> exists l, worker cf x = Ok l).
  { intros x Hx. destruct (Forall2_in_r _ _ _ F2 x Hx) as (k & _ & m & LW & <-). apply last_with_in in LW as [Im _].
    apply (worker_returns cf files metas m); auto. apply SE. now rewrite LD. }
  assert (G : forall cs acc, (forall x, In x (concat cs) -> exists l, worker cf x = Ok l) ->
    exists out, search_loop numR string (worker cf) False (cf_processes cf) cs acc (Ok out)).
  { clear - PR. induction cs as [|c cs IH]; intros acc OK; [eexists; constructor|].
    assert (OKc : forall x, In x c -> exists l, worker cf x = Ok l) by (intros x Hx; apply OK; cbn [concat]; apply in_app_iff; auto).
    assert (NUc : forall x, In x c -> worker cf x <> UB /\ worker cf x <> Loop).
    { intros x Hx. destruct (OKc x Hx) as [l ->]. split; discriminate. }
    destruct (pool_map_returns (O := Empty_set) (fun _ (s : unit) => s) (fun _ => []) (worker cf) (cf_processes cf) c tt PR NUc)
      as (r & [] & PM).
    pose proof (pool_map_correct _ _ _ _ _ _ _ _ _ PR NUc PM) as PC.
    destruct r as [v|e| |]; try contradiction.
    2:{ exfalso. destruct PC as [(x & Hx & E)|([] & _)]. destruct (OKc x Hx). congruence. }
    destruct PC as (bs & F & EV).
    assert (PL : process_fname_list numR string (worker cf) False (cf_processes cf) c (Ok (concat bs))).
    { assert (E : (v' <- Ok v ;; l <- mapM (fun o : option (list (peak numR)) => match o with Some x => Ok x | None => Err TypeError end) v' ;;
        Ok (concat l)) = Ok (concat bs)).
      { cbn [bind]. rewrite EV. clear. replace (mapM _ (map Some bs)) with (Ok bs : res (list (list (peak numR)))); [reflexivity|].
        symmetry. apply mapM_complete. induction bs; cbn [map]; constructor; auto. }
      rewrite <- E. now constructor. }
    destruct (IH (acc ++ concat bs)) as [out H]; [intros x Hx; apply OK; cbn [concat]; apply in_app_iff; auto|].
    exists out. econstructor; eauto. }
  destruct (G chunks [] OK) as [out H]. eexists. exact (Search _ _ _ _ _ _ _ H).
Qed.

Lemma prepare_returns cf files metas f0 f1 nc start stop :
  config_ok cf -> files_ok cf files -> Forall2 (fun f m => read_meta f = Ok m) files metas ->
  one_position metas -> band_of metas (cf_fmin cf) (cf_fmax cf) (cf_nchans cf) f0 f1 nc -> band_ok f0 f1 nc ->
  range_of abs_sin metas (cf_dm_min cf) (cf_dm_max cf) (cf_dmsinb_max cf) start stop ->
  (exists m, In m metas /\ start <= m_dm m <= stop) ->
  cf_ranges cf <> [] -> contiguous (ranges_of cf) ->
  (forall m r, In m metas -> In r (cf_ranges cf) ->
     INR (sk_bmin (r_search r)) * m_tsamp m <= sk_pmin (r_search r) /\ IZR (r_cbins r) * m_tsamp m <= sk_pmin (r_search r)) ->
  exists d, prepare cf files = Ok d.
Proof.
  intros CO FO RM OP BO BOK RG EX NR CT BN. pose proof CO as (_ & _ & FR & _).
  destruct (wmin_returns cf FR NR) as [w EW].
  assert (W0 : 0 < w).
  { destruct (wmin_least cf w FR EW) as [I _]. apply in_map_iff in I as (r & <- & Hr). rewrite Forall_forall in FR.
    destruct (FR r Hr) as (A & B & _). apply Rmult_lt_0_compat; auto. apply Rinv_0_lt_compat. apply (lt_INR 0). lia. }
  assert (POS : forall m, In m metas -> 0 <= m_dm m).
  { intros m Hm. destruct (Forall2_in_r _ _ _ RM m Hm) as (f & Hf & Ef). apply (FO f m Hf Ef). }
  assert (NE : metas <> []) by (destruct EX as (m & Hm & _); intros ->; destruct Hm).
  destruct (dm_iterator_refuses abs_sin metas (cf_dm_min cf) (cf_dm_max cf) (cf_dmsinb_max cf) w (cf_fmin cf) (cf_fmax cf) (cf_nchans cf))
    as [_ Q]. destruct (Q NE) as (_ & _ & Q3). destruct (Q3 OP f0 f1 nc start stop BO BOK W0 POS RG) as [Q4 _].
  destruct (Q4 EX) as [d ED]. exists d. unfold Process.prepare. rewrite EW. cbn [bind].
  rewrite (mapM_complete _ _ _ RM). cbn [bind]. numR_ty. rewrite ED. cbn [bind].
  destruct (dm_iterator_list _ _ _ _ _ _ _ _ _ _ ED) as (LD & _ & _).
  assert (V : validate_ranges numR (ranges_of cf) (tsamp_max numR d) = Ok tt).
  { apply validate_ranges_correct. split; [|exact CT]. apply Forall_forall. intros r Hr. unfold ranges_of in Hr.
    apply in_map_iff in Hr as (r0 & <- & Hr). destruct (tsamp_max_in d) as (m & Hm & <-); [now rewrite LD|].
    rewrite LD in Hm. cbn [rg_bmin rg_cbins rg_pmin range_conf_of]. rewrite <- INR_IZR_INZ. now apply BN. }
  now rewrite V.
Qed.

Lemma analyse_returns cf files d peaks : environment_ok -> config_ok cf -> files_ok cf files -> band_known cf files ->
  prepare cf files = Ok d -> search_files False cf d (Ok peaks) ->
  (forall m, In m (di_list d) -> 0 < m_tobs m) -> (1 <= hf_denom_max (cf_harmonics cf))%Z ->
  (forall x, 1 <= x -> exists n d, as_fraction x = Ok (n, d) /\ (0 < d <= n)%Z /\ Z.gcd n d = 1%Z) ->
  exists cs cands, analyse cf d peaks = Ok (cs, cands).
Proof.
  intros EN CO FO BK EP ES TP DM AF. pose proof EN as (Ha & _).
  destruct (prepare_inv abs_sin read_meta load cf files d CO FO BK EP) as (metas & w & RM & NE & LD & DD & LW & W0 & VR & POS & DI).
  destruct (search_trials _ _ _ _ abs_sin read_meta load False cf files d peaks EN CO FO BK EP ES) as (trials & TD & FT & PM & PS & _).
  pose proof CO as (_ & _ & FR & MX).
  assert (TR : forall p, In p peaks -> exists t, In t trials /\ In p (found t) /\
    trial_of fit load cf (di_list d) t /\ reloads alloc load cf d t).
  { intros p Hp. apply (Permutation_in p PM) in Hp. apply in_concat in Hp as (l & Hl & Hp).
    apply in_map_iff in Hl as (t & <- & Ht). rewrite Forall_forall in FT. destruct (FT t Ht). eauto. }
  assert (PK : forall p, In p peaks -> wave p /\ p_dm p <> None).
  { intros p Hp. destruct (TR p Hp) as (t & _ & Hf & TO & _). destruct (found_peak _ _ cf _ t p FR TO Hf) as (W & D & _).
    split; [exact W|rewrite D; discriminate]. }
  assert (WV : Forall wave peaks) by (apply Forall_forall; intros p Hp; now apply PK).
  assert (C0 : exists cs0, (if (length peaks =? 0)%nat then Ok [] else cluster_peaks numR argsort (cf_radius cf) (tobs_median numR d) peaks) = Ok cs0 /\
    Forall fresh cs0 /\ forall c p, In c cs0 -> In p (c_peaks c) -> In p peaks).
  { destruct (Nat.eqb_spec (length peaks) 0) as [L|L]; [exists []; split; [reflexivity|]; split; [constructor|easy]|].
    destruct (cluster_peaks_correct argsort (cf_radius cf) (tobs_median numR d) peaks WV PS) as (groups & cs & E & _ & G & _ & F & EC).
    exists cs. split; [exact E|]. split.
    - apply Forall_forall. intros c Hc. destruct (Forall2_in_r _ _ _ F c Hc) as (g & Hg & F' & _ & H2 & H3). split; [|auto].
      intros E0. rewrite E0 in F'. inversion F'; subst. now apply (G [] Hg).
    - intros c p Hc Hp. rewrite <- EC. apply in_concat. exists (c_peaks c). split; auto. now apply in_map. }
  destruct C0 as (cs0 & EC & FRE & IN0).
  assert (TM : 0 < tobs_median numR d).
  { apply (quantile_positive (1 / 2) (map m_tobs (di_list d))).
    - apply nmedian_R. rewrite LD. intros E. apply map_eq_nil in E. contradiction.
    - intros x Hx. apply in_map_iff in Hx as (m & <- & Hm). now apply TP. }
  assert (C1 : exists cs, (if (length cs0 =? 0)%nat then Ok cs0 else flag_harmonics numR (harmonic_test numR as_fraction cf d) cs0) = Ok cs).
  { destruct (length cs0 =? 0)%nat; [eauto|]. apply flag_harmonics_total; auto.
    intros c c' p q Hc Hc' Bp Bq. apply in_first_brightest in Bp, Bq.
    destruct (PK p (IN0 c p Hc Bp)) as [(P1 & _) P2]. destruct (PK q (IN0 c' q Hc' Bq)) as [(Q1 & _) Q2].
    unfold harmonic_test. apply htest_returns; auto.
    destruct (band_prepared abs_sin read_meta cf files d BK EP) as (B1 & _). exact B1. }
  destruct C1 as (cs & EF).
  destruct (clusters_flagged argsort (cf_radius cf) (tobs_median numR d) (harmonic_test numR as_fraction cf d) peaks cs WV PS) as [CL FL].
  { rewrite EC. exact EF. }
  assert (CM := clustered_members _ _ _ CL).
  assert (NEC : Forall (fun c : cluster numR => c_peaks c <> []) cs) by (apply Forall_forall; intros c Hc; now apply CM).
  destruct (candidate_filters_total (cf_filters cf) cs NEC) as [kept EK].
  { intros _ c p Hc B. apply in_first_brightest in B. apply PK. now apply (CM c Hc). }
  pose proof (candidate_filters_correct (cf_filters cf) cs kept MX NEC EK) as FI. cbv zeta in FI. destruct FI as [FI _].
  assert (ER : exists fc, mapM (rd cs) kept = Ok fc).
  { clear - FI. induction kept as [|i kept IH]; cbn [mapM]; [eauto|].
    destruct (FI i (or_introl eq_refl)) as (p & c & E & _). unfold rd at 1. rewrite E. cbn [bind].
    destruct IH as [fc ->]; [intros j Hj; apply FI; now right|]. cbn [bind]. eauto. }
  destruct ER as [fc ER].
  assert (INF : forall c, In c fc -> In c cs).
  { apply mapM_inv in ER. intros c Hc. destruct (Forall2_in_r _ _ _ ER c Hc) as (i & _ & E). apply rd_inv in E. eapply nth_error_In; eauto. }
  destruct (build_candidates_correct (series numR) (@se_length numR) (series_fold numR alloc) (get_filename numR d) load
    (prepare_ts numR alloc (cf_rmed_width cf) (cf_rmed_minpts cf)) (ranges_of cf)) with (filtered := fc) (old := @nil (candidate numR (series numR)))
    as (out & outs & EB & _).
  { intros k ts P r s S Hr. unfold ranges_of in Hr. apply in_map_iff in Hr as (r0 & <- & Hr0).
    destruct (source_series alloc abs_sin read_meta load cf files d k ts CO FO BK EP S r0 Hr0) as [T0 _].
    rewrite Forall_forall in FR. destruct (FR r0 Hr0) as (_ & _ & B1 & _).
    destruct (series_fold_spec alloc ts P (r_cbins r0) s Ha T0 B1) as [F1 F2]. cbn [rg_cbins range_conf_of].
    destruct (Classical_Prop.classic (fold_refused (INR (length (se_data ts)) * se_tsamp ts) (se_tsamp ts) P (Z.to_nat (r_cbins r0)) s)) as [D|D].
    - rewrite (F1 D). split; discriminate.
    - destruct (F2 D) as (Y & -> & _). split; discriminate. }
  { apply Forall_forall. intros c Hc. destruct (CM c (INF c Hc)) as [N0 MM]. destruct (brightest_exists _ N0) as [p B].
    destruct (TR p (MM p (in_first_brightest _ _ B))) as (t & Ht & Hp & TO & (f & R1 & R2 & R3)).
    destruct (found_peak _ _ cf _ t p FR TO Hp) as (_ & D & _).
    exists p, (tr_dm t), (tr_ts t). split; [exact B|]. split; [exact D|]. exists f, (tr_raw t). auto. }
  exists cs, out. unfold Process.analyse. rewrite EC. cbn [bind]. rewrite EF. cbn [bind]. numR_ty. rewrite EK. cbn [bind].
  rewrite ER. cbn [bind]. rewrite EB. reflexivity.
Qed.

(** a run returns if its candidates can be written *)
Lemma process_returns :
  forall cf files outdir s metas f0 f1 nc start stop,
  environment_ok -> config_ok cf -> files_ok cf files -> band_known cf files -> splits pieces ->
  Forall2 (fun f m => read_meta f = Ok m) files metas ->
  one_position metas -> band_of metas (cf_fmin cf) (cf_fmax cf) (cf_nchans cf) f0 f1 nc ->
  range_of abs_sin metas (cf_dm_min cf) (cf_dm_max cf) (cf_dmsinb_max cf) start stop ->
  (exists m, In m metas /\ start <= m_dm m <= stop) ->
  cf_ranges cf <> [] -> contiguous (ranges_of cf) ->
  (forall m r, In m metas -> In r (cf_ranges cf) ->
     INR (sk_bmin (r_search r)) * m_tsamp m <= sk_pmin (r_search r) /\ IZR (r_cbins r) * m_tsamp m <= sk_pmin (r_search r)) ->
  (forall m, In m metas -> 0 < m_tobs m /\ searchable cf m) ->
  (1 <= hf_denom_max (cf_harmonics cf))%Z ->
  (forall x, 1 <= x -> exists n d, as_fraction x = Ok (n, d) /\ (0 < d <= n)%Z /\ Z.gcd n d = 1%Z) ->
  writable ->
  (forall d peaks cs cands, prepare cf files = Ok d -> search_files False cf d (Ok peaks) ->
     analyse cf d peaks = Ok (cs, cands) ->
     forall c, In c cands -> (exists t, to_json c = Ok t) /\ (cf_plot cf = true -> exists t, png c = Ok t)) ->
  (exists pr s', process False cf files outdir s (Ok pr) s') /\
  forall r s', process False cf files outdir s r s' -> exists pr, r = Ok pr.
Proof.
  intros cf files outdir s metas f0 f1 nc start stop EN CO FO BK SP RM OP BO RG EX NR CT BN SE DM AF WR' WR.
  destruct (prepare_returns cf files metas f0 f1 nc start stop CO FO RM OP BO (BK _ _ _ _ RM BO) RG EX NR CT BN) as [d EP].
  destruct (prepare_inv abs_sin read_meta load cf files d CO FO BK EP) as (metas' & w & RM' & _ & LD & _).
  assert (EM : metas' = metas).
  { clear - RM RM'. revert metas' RM'. induction RM as [|f m fs ms E F IH]; intros l' RM'; inversion RM'; subst; auto.
    f_equal; [congruence|auto]. }
  rewrite EM in LD. clear RM' EM.
  destruct (search_returns cf files d EN CO FO BK EP) as [peaks ES]; [rewrite LD; intros m Hm; now apply SE|].
  destruct (analyse_returns cf files d peaks EN CO FO BK EP ES) as (cs & cands & EA); auto.
  { rewrite LD. intros m Hm. now apply SE. }
  assert (ST : exists rows, cluster_table numR cs = Ok rows).
  { assert (AN : clustered (cf_radius cf / tobs_median numR d) peaks cs /\ flagged (harmonic_test numR as_fraction cf d) cs).
    { unfold Process.analyse in EA. apply bind_ok in EA as (cs0 & A1 & EA). apply bind_ok in EA as (cs' & A2 & EA).
      apply bind_ok in EA as (kept & A3 & EA). apply bind_ok in EA as (fc & A4 & EA). apply bind_ok in EA as (cands' & A5 & EA).
      injection EA as <- <-.
      destruct (search_trials _ _ _ _ abs_sin read_meta load False cf files d peaks EN CO FO BK EP ES) as (trials & TD & FT & PM & PS & _).
      apply (clusters_flagged argsort); auto.
      - apply Forall_forall. intros p Hp. apply (Permutation_in p PM) in Hp. apply in_concat in Hp as (l & Hl & Hp).
        apply in_map_iff in Hl as (t & <- & Ht). rewrite Forall_forall in FT. destruct (FT t Ht) as [Tt _].
        destruct CO as (_ & _ & FR & _). now destruct (found_peak _ _ cf _ t p FR Tt Hp).
      - rewrite A1. exact A2. }
    destruct AN as [CL FL].
    destruct (cluster_table_correct _ _ FL (fun c Hc => proj1 (clustered_members _ _ _ CL c Hc))) as (rows & E & _). eauto. }
  destruct ST as [rows ET].
  pose proof CO as (HP & _).
  assert (SV : exists s', save False cf outdir (Products peaks cs cands) s (Ok tt) s').
  { set (csv := fun name o => match o with Some t => write_file pieces (path_join outdir name) t | None => [] end).
    set (s1 := fold_left (fun s o => run_fop o s) (csv "peaks.csv"%string (text_of peaks_csv peaks) ++
      csv "clusters.csv"%string (text_of clusters_csv rows) ++
      csv "candidates.csv"%string (text_of candidates_csv (map cd_params cands)))%list s).
    destruct peaks as [|p ps].
    { exists s. apply Save_files with (rows := rows); [easy|]. cbn [pr_peaks]. now apply Save_none. }
    set (l := combine (seq 0 (length cands)) cands).
    assert (OK : forall x, In x l -> writer_result _ to_json png (cf_plot cf) x = Ok tt).
    { intros [r c] Hx. unfold writer_result. cbn [snd]. apply in_combine_r in Hx.
      destruct (WR d (p :: ps) cs cands EP ES EA c Hx) as [[t ->] Q]. cbn [bind]. destruct (cf_plot cf); [|reflexivity].
      destruct (Q eq_refl) as [t' ->]. reflexivity. }
    assert (NU : forall x, In x l -> writer_result _ to_json png (cf_plot cf) x <> UB /\ writer_result _ to_json png (cf_plot cf) x <> Loop).
    { intros x Hx. rewrite (OK x Hx). split; discriminate. }
    destruct (pool_map_returns run_fop (writer_ops _ to_json png pieces outdir (cf_plot cf)) (writer_result _ to_json png (cf_plot cf))
      (cf_processes cf) l s1 HP NU) as (r & s' & PM).
    pose proof (pool_map_correct _ _ _ _ _ _ _ _ _ HP NU PM) as PC.
    destruct r as [v|e| |]; try contradiction.
    2:{ exfalso. destruct PC as [(x & Hx & E)|([] & _)]. rewrite (OK x Hx) in E. discriminate. }
    exists s'. apply Save_files with (rows := rows); [intros _; exact ET|]. cbn [pr_peaks pr_candidates].
    change (Ok tt) with (_ <- Ok v ;; Ok tt). apply Save_some; [discriminate|exact PM]. }
  destruct SV as [s' SV].
  assert (H0 : process False cf files outdir s (Ok (Products peaks cs cands)) s').
  { change (Ok (Products peaks cs cands)) with (_ <- Ok tt ;; Ok (Products peaks cs cands)). eapply Process_save; eauto. }
  split; [eauto|]. intros r s2 H.
  assert (EW : with_processes (cf_processes cf) cf = cf) by (now destruct cf).
  rewrite <- EW in H, H0.
  destruct (process_determined False False _ _ cf files outdir s r s2 _ s' EN CO FO BK SP WR' HP HP H H0)
    as [(pr & -> & _)|[(e & e' & _ & E)|[([] & _)|([] & _)]]]; [eauto|discriminate].
Qed.
(** C80: a run on files that the workers can search, with a position, a band and at least one DM
    in the range, and with search ranges that suit their sampling times, returns, whatever the
    schedule. *)
Theorem process_total :
  forall cf files outdir s metas f0 f1 nc start stop,
  environment_ok -> config_ok cf -> files_ok cf files -> band_known cf files -> splits pieces ->
  Forall2 (fun f m => read_meta f = Ok m) files metas ->
  one_position metas -> band_of metas (cf_fmin cf) (cf_fmax cf) (cf_nchans cf) f0 f1 nc ->
  range_of abs_sin metas (cf_dm_min cf) (cf_dm_max cf) (cf_dmsinb_max cf) start stop ->
  (exists m, In m metas /\ start <= m_dm m <= stop) ->
  cf_ranges cf <> [] -> contiguous (ranges_of cf) ->
  (forall m r, In m metas -> In r (cf_ranges cf) ->
     INR (sk_bmin (r_search r)) * m_tsamp m <= sk_pmin (r_search r) /\ IZR (r_cbins r) * m_tsamp m <= sk_pmin (r_search r)) ->
  (forall m, In m metas -> 0 < m_tobs m /\ searchable cf m) ->
  (1 <= hf_denom_max (cf_harmonics cf))%Z ->
  (forall x, 1 <= x -> exists n d, as_fraction x = Ok (n, d) /\ (0 < d <= n)%Z /\ Z.gcd n d = 1%Z) ->
  (forall c, (exists t, to_json c = Ok t) /\ exists t, png c = Ok t) ->
  (exists pr s', process False cf files outdir s (Ok pr) s') /\
  forall r s', process False cf files outdir s r s' -> exists pr, r = Ok pr.
Proof.
  intros cf files outdir s metas f0 f1 nc start stop EN CO FO BK SP RM OP BO RG EX NR CT BN SE DM AF WR.
  apply (process_returns cf files outdir s metas f0 f1 nc start stop); auto.
  - intros c. destruct (WR c) as [[t ->] [t' ->]]. split; split; discriminate.
  - intros d peaks cs cands _ _ _ c _. destruct (WR c) as [A B]. auto.
Qed.
End Run.
Print Assumptions process_files.
Print Assumptions process_determined.
Print Assumptions process_total.

(** ** A run: two PRESTO files, one impulse in each, thresholds that every trial exceeds *)
Definition ex_series (dm : R) : series numR :=
  Series (N := numR) impulse (1/1000)
    [("dm", MFloat (N := numR) dm); ("skycoord", MCoord 0); ("mjd", MFloat (N := numR) 58000);
     ("source_name", MStr "J0000+0000")]%string.
Definition ex_dm (f : string) : R := if String.eqb f "b.inf" then 10 else 0.
Definition ex_read_meta (f : string) : res (meta numR) :=
  Ok (Meta (N := numR) f (ex_dm f) 10 (1/1000) 0 30 (Some (1000, 5, 100%Z))).
Definition ex_load (f : string) : res (series numR) := Ok (ex_series (ex_dm f)).
Definition ex_fit (_ _ : list R) (_ : Z) : res (R -> R) := Ok (fun _ => -1).
Definition ex_alloc (n : nat) : list R := repeat 0 n.
Definition ex_allocz (n : nat) : list Z := repeat 0%Z n.
Definition ex_fraction (x : R) : res fraction := Ok (Zfloor x, 1%Z).
Definition ex_config (subints : Z) (plot : bool) : config numR :=
  Config (N := numR) 2 None None (Some 8) None None None 4 (PInt 101)
    [Rg (N := numR) (Search_kw (N := numR) 1 2 8 20 22 (1/5) (3/2)) (Peaks_kw (N := numR) (-1) 5 6 10 2 (Some (1/10))) 64 subints]
    (1/10) (Hflags (N := numR) 100 1 3 3) (Filters (N := numR) None None (Some true) (Some 10%Z)) plot.
Local Notation ex_files := ["a.inf"; "b.inf"]%string.

Definition ex_process png := process numR ln pow ex_alloc ex_allocz ex_fit argsort_R ex_fraction (fun _ => 1/2) ex_read_meta ex_load
    (fun _ => "p"%string) (fun _ => "k"%string) (fun _ => "c"%string) (fun _ => Ok "{}"%string) png (fun s => [s]).

Lemma ex_ok subints plot : (1 <= subints)%Z ->
  environment_ok ex_alloc ex_allocz ex_fit argsort_R /\ config_ok (ex_config subints plot) /\
  files_ok ex_read_meta ex_load (ex_config subints plot) ex_files /\ band_known ex_read_meta (ex_config subints plot) ex_files /\
  splits (fun s => [s]).
Proof.
  intros S1.
  assert (Ha : allocates ex_alloc) by (intros n; apply repeat_length).
  assert (Hz : allocates ex_allocz) by (intros n; apply repeat_length).
  split.
  { split; auto. split; auto. split; [exact argsort_R_sorts|]. intros; split; discriminate. }
  split.
  { split; [discriminate|]. split; [reflexivity|]. split; [|intros n E; injection E as <-; reflexivity].
    constructor; [|constructor]. unfold range_fine. cbn. repeat split; try lia; lra. }
  destruct impulse_fits as (WO & WF & SF). split.
  { intros f m _ E. injection E as <-. cbn [m_dm m_fname m_tsamp]. split; [unfold ex_dm; destruct (String.eqb _ _); lra|].
    split; [split; discriminate|]. intros ts E. injection E as <-. split; [reflexivity|]. split; [reflexivity|].
    constructor; [apply WF|constructor]. }
  set (ma := Meta (N := numR) "a.inf" 0 10 (1/1000) 0 30 (Some (1000, 5, 100%Z))).
  set (mb := Meta (N := numR) "b.inf" 10 10 (1/1000) 0 30 (Some (1000, 5, 100%Z))).
  split.
  { intros metas f0 f1 nc F B.
    assert (metas = [ma; mb]) as ->.
    { inversion F as [|? ? ? ? E1 F1]; subst. inversion F1 as [|? ? ? ? E2 F2]; subst. inversion F2; subst.
      injection E1 as <-. injection E2 as <-. reflexivity. }
    destruct B as [B|(_ & B & _)]; [|discriminate].
    destruct (B ma (or_introl eq_refl)) as (fb & cb & E & G). injection E as <- <- <-.
    revert G. rewrite Rmin_left, Rmax_right by lra. intros [-> ->]. split; [lra|lia]. }
  intros s. cbn. induction s as [|a s IH]; cbn; [reflexivity|now rewrite IH].
Qed.

Lemma ex_returns subints plot png : (1 <= subints)%Z ->
  writable (fun _ => Ok "{}"%string) png ->
  (forall d peaks cs cands, prepare numR (fun _ => 1/2) ex_read_meta (ex_config subints plot) ex_files = Ok d ->
     search_files numR ln pow ex_alloc ex_allocz ex_fit argsort_R ex_load False (ex_config subints plot) d (Ok peaks) ->
     analyse numR ex_alloc argsort_R ex_fraction ex_load (ex_config subints plot) d peaks = Ok (cs, cands) ->
     forall c, In c cands -> plot = true -> exists t, png c = Ok t) ->
  exists pr s', ex_process png False (ex_config subints plot) ex_files "/out" (fun _ => None) (Ok pr) s'.
Proof.
  intros S1 WR WC. destruct (ex_ok subints plot S1) as (EN & CO & FO & BK & SP).
  destruct impulse_fits as (WO & WF & SF).
  set (ma := Meta (N := numR) "a.inf" 0 10 (1/1000) 0 30 (Some (1000, 5, 100%Z))).
  set (mb := Meta (N := numR) "b.inf" 10 10 (1/1000) 0 30 (Some (1000, 5, 100%Z))).
  assert (RM : Forall2 (fun f m => ex_read_meta f = Ok m) ex_files [ma; mb]) by (repeat constructor).
  assert (BO : band_of [ma; mb] None None None 1000 1500 100).
  { left. intros x [<-|[<-|[]]]; exists 1000, 5; (split; [reflexivity|]); rewrite Rmin_left, Rmax_right by lra; lra. }
  destruct (process_returns ex_alloc ex_allocz ex_fit argsort_R ex_fraction (fun _ => 1/2) ex_read_meta ex_load
    (fun _ => "p"%string) (fun _ => "k"%string) (fun _ => "c"%string) (fun _ => Ok "{}"%string) png
    (fun s => [s]) (ex_config subints plot) ex_files "/out" (fun _ => None) [ma; mb] 1000 1500 100%Z 0 10) as ((pr & s' & H) & _); auto.
  - intros x y [<-|[<-|[]]] [<-|[<-|[]]]; cbn; auto.
  - split; [split; [intros x [<-|[<-|[]]]; cbn; lra|exists ma; split; [now left|reflexivity]]|].
    exists 10. split; [split; [intros x [<-|[<-|[]]]; cbn; lra|exists mb; split; [right; now left|reflexivity]]|].
    exists ma, 30. split; [now left|]. split; [reflexivity|]. rewrite Req_bool_false by lra. rewrite Rmin_left by lra. reflexivity.
  - exists ma. split; [now left|cbn; lra].
  - discriminate.
  - exact I.
  - intros m r [<-|[<-|[]]] [<-|[]]; cbn [r_search r_cbins sk_bmin sk_pmin m_tsamp ma mb]; cbn [INR]; lra.
  - intros m Hm. split; [destruct Hm as [<-|[<-|[]]]; cbn; lra|].
    exists (ex_series (ex_dm (m_fname m))). split; [reflexivity|]. split.
    { cbn [ex_series se_md forallb]. unfold item_valid. cbn [String.eqb]. cbn. unfold ex_dm.
      destruct (String.eqb _ _); rewrite !Rle_bool_true by lra; reflexivity. }
    split; [cbn; lra|]. split; [exact WO|]. constructor; [|constructor]. split; [exact WF|]. split; [split; [discriminate|intros fc sc _; unfold ex_fit; eauto]|now apply SF].
  - cbn. lia.
  - intros x Hx. exists (Zfloor x), 1%Z. split; [reflexivity|]. assert (1 <= Zfloor x)%Z by (apply Zfloor_lub; exact Hx).
    split; [lia|apply Z.gcd_1_r].
  - intros d peaks cs cands EP ES EA c Hc. split; [eauto|]. eapply WC; eauto.
  - exists pr, s'. exact H.
Qed.

Lemma ex_products subints plot png faults pr s s' : (1 <= subints)%Z ->
  ex_process png faults (ex_config subints plot) ex_files "/out" s (Ok pr) s' ->
  pr_peaks pr <> [] /\ pr_candidates pr <> [].
Proof.
  intros SI H. destruct (ex_ok subints plot SI) as (EN & CO & FO & BK & SP).
  destruct impulse_fits as (WO & WF & SF).
  set (ma := Meta (N := numR) "a.inf" 0 10 (1/1000) 0 30 (Some (1000, 5, 100%Z))).
  set (mb := Meta (N := numR) "b.inf" 10 10 (1/1000) 0 30 (Some (1000, 5, 100%Z))).
  destruct (process_correct _ _ _ _ _ _ _ _ _ _ _ _ _ _ _ _ _ _ _ _ _ EN CO FO BK H)
    as (metas & f0 & f1 & nc & trials & tmed & kept & outs & RM' & BO' & SEL & FT & PM & _ & _ & CL & FL & FI & CA & PC & _).
  assert (NP : pr_peaks pr <> []).
  {
    intros E. rewrite E in PM. apply Permutation_nil in PM.
    (* some DM was searched *)
    assert (EX : trials <> []).
    { destruct SEL as (_ & w & start & stop & LW & RG & _ & CV).
      assert (metas = [ma; mb]) as ->.
      { inversion RM' as [|? ? ? ? E1 F1]; subst. inversion F1 as [|? ? ? ? E2 F2]; subst. inversion F2; subst.
        injection E1 as <-. injection E2 as <-. reflexivity. }
      destruct RG as ((S1 & m1 & Hm1 & ->) & e & (S2 & m2 & Hm2 & ->) & m3 & gb & Hm3 & -> & ST).
      intros ->. destruct (CV m1 (m_dm m1) Hm1) as (k & [] & _).
      { split; [lra|]. revert ST. rewrite Req_bool_false by lra. intros ->. apply Rmin_glb; [now apply S2|].
        destruct Hm1 as [<-|[<-|[]]]; cbn; lra. }
      unfold tolerable, delay at 1. rewrite Rminus_diag_eq by reflexivity. rewrite Rabs_R0.
      destruct LW as [LW _]. cbn [bin_widths ex_config cf_ranges map r_search sk_pmin sk_bmin] in LW. destruct LW as [<-|[]].
      eapply Rle_trans; [|apply Rmax_l]. unfold Rdiv at 1. rewrite !Rmult_0_l.
      apply Rmult_le_pos; [lra|]. left. apply Rinv_0_lt_compat. apply (lt_INR 0). lia. }
    destruct trials as [|t ts]; [easy|]. inversion FT as [|? ? (m & _ & LD & (_ & Lx & _) & F2) _]; subst.
    assert (T20 : 2 * 1 <= INR (length (se_data (tr_ts t))) * se_tsamp (tr_raw t)).
    { injection LD as LD. rewrite Lx, <- LD. cbn [ex_series se_data se_tsamp]. destruct WF as (_ & T2 & _).
      cbn [sk_pmax] in T2. revert T2. set (L := INR _). clearbody L. intros T2. lra. }
    clear LD Lx. cbn [map concat] in PM. apply app_eq_nil in PM as [PM _]. unfold found in PM.
    inversion F2 as [|? l ? ls RP F3 E1 E2]; subst. rewrite <- E2 in PM. cbn [concat] in PM. apply app_eq_nil in PM as [-> _].
    destruct RP as (widths & periods & bins & snrs & thr & clrad & EC & _ & HW & _ & WB & NP & _ & _ & SN & TH & _ & _ & SL & _).
    cbn [fst snd r_search r_peaks] in *. destruct (NP T20) as [NP' _]. clear NP. rename NP' into NP.
    assert (NW : (0 < length widths)%nat) by (destruct widths; [cbn in HW; discriminate|cbn; lia]).
    destruct (SL 0%nat 0%nat NW) as (p & [] & _).
    assert (TH1 : thr 0%nat = fun _ => -1).
    { destruct (TH 0%nat NW) as (fc & smed & sstd & _ & D). destruct (_ <=? _)%Z; [injection D as D; now rewrite D|exact D]. }
    assert (S0 : 0 <= nth 0 (Peaks.trials snrs 0) 0).
    { unfold Peaks.trials. destruct (a_rows snrs) as [|rows] eqn:ER; [cbn; lra|]. cbn [seq map nth].
      destruct (SN 0%nat 0%nat NP NW) as (b & rw & f & prof & v & _ & (B1 & _) & FS & BR & ->).
      destruct FS as (n & s0 & xd & sh & _ & _ & _ & _ & _ & _ & _ & _ & LP & _).
      assert (HW0 : nth 0 widths 0%Z = 1%Z) by (rewrite <- HW; now destruct widths).
      rewrite HW0 in BR. change (Z.to_nat 1) with 1%nat in BR.
      destruct (best_response_nonneg prof 1 v) as [V0 _]; [cbn [fst sk_bmin] in B1; lia|exact BR|].
      unfold Rdiv. apply Rmult_le_pos; [exact V0|].
      match goal with |- 0 <= / sqrt ?a => destruct (sqrt_pos a) as [Q|Q] end.
      - left. now apply Rinv_0_lt_compat.
      - rewrite <- Q, Rinv_0. lra. }
    rewrite TH1. split; [rewrite map_length; exact NP|]. cbn [pk_smin]. split; (eapply Rlt_le_trans; [|exact S0]); lra.
  }
  split; [exact NP|].
  (* the brightest cluster is no harmonic *)
  assert (GD : exists i p c, nth_error (pr_clusters pr) i = Some c /\ first_brightest (c_peaks c) p /\ c_parent c = None).
  { destruct FL as (order & PO & FL). cbv zeta in FL. destruct FL as (F1 & _ & F3).
    destruct order as [|i order].
    - exfalso. apply Permutation_nil in PO. destruct (pr_clusters pr); [|discriminate].
      destruct CL as (groups & G1 & _ & _ & G4). inversion G4; subst. cbn in G1. destruct (pr_peaks pr); [easy|discriminate].
    - destruct (F1 0%nat i eq_refl) as (c & p & RK & _). specialize (F3 _ _ _ _ RK). destruct RK as (_ & RK1 & RK2).
      exists i, p, c. split; auto. split; auto. destruct (c_parent c); auto. destruct F3 as (l & ? & ? & ? & L & _). lia. }
  destruct GD as (i & p & c & GC & GB & GP).
  assert (NK : kept <> []).
  { intros ->. destruct FI as (_ & FI). cbn [ex_config cf_filters fl_max_number] in FI. destruct FI as (_ & _ & _ & FI).
    destruct (FI i p) as [E _]; [|easy|cbn in E; discriminate].
    exists c. split; auto. split; auto. split; [discriminate|]. split; [discriminate|auto]. }
  destruct kept as [|j kept]; [easy|]. inversion CA as [|? o ? ? (c' & p' & t & r & _ & _ & Ht & _ & _ & Hr & PR & _ & SO) _]; subst.
  rewrite Forall_forall in FT. destruct (FT t Ht) as (m & _ & LD & (TS & _) & _).
  destruct SO as (X & -> & _).
  { destruct Hr as [<-|[]]. cbn [r_cbins r_search sk_pmin] in *. rewrite TS. injection LD as <-. cbn [ex_series se_tsamp]. lra. }
  intros E. rewrite E in PC. apply Permutation_nil in PC. cbn [somes] in PC. discriminate.
Qed.

Example process_used :
  environment_ok ex_alloc ex_allocz ex_fit argsort_R /\ config_ok (ex_config 8 true) /\
  files_ok ex_read_meta ex_load (ex_config 8 true) ex_files /\ band_known ex_read_meta (ex_config 8 true) ex_files /\
  splits (fun s => [s]) /\ writable (fun _ => Ok "{}"%string) (fun _ => Ok "png"%string) /\
  exists pr s', ex_process (fun _ => Ok "png"%string) False (ex_config 8 true) ex_files "/out" (fun _ => None) (Ok pr) s' /\
    pr_peaks pr <> [] /\ pr_candidates pr <> [].
Proof.
  destruct (ex_ok 8 true ltac:(lia)) as (EN & CO & FO & BK & SP).
  assert (WR : writable (fun _ => Ok "{}"%string) (fun _ => Ok "png"%string)) by (intros c; split; split; discriminate).
  split; auto. split; auto. split; auto. split; auto. split; auto. split; auto.
  destruct (ex_returns 8 true (fun _ => Ok "png"%string)) as (pr & s' & H); [lia|auto|eauto|].
  exists pr, s'. split; [exact H|]. now apply ex_products in H.
Qed.
