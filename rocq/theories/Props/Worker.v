(** C72, C73, C74: what a worker finds in one file, and when it does. *)
From Coq Require Import String List Arith ZArith Bool Lia Reals Lra Psatz Permutation Sorted.
From Flocq Require Import Core.
From Verif Require Import Base.Result Base.Buf Base.Num Model.Transforms Model.Downsample Model.FastRmed Model.Snr
  Model.Libffa Model.Periodogram Model.Metadata Model.TimeSeries Model.Search Model.Cluster Model.Peaks
  Model.Worker Spec.Sums Spec.Order Spec.FfaSpec Spec.Overlap Spec.Noise Spec.Boxcar Spec.Friends
  Proof.Ffa Proof.FastRmed Proof.Cluster Proof.TimeSeries Props.Downsample Props.Snr Props.RunMed Props.FastRmed Props.Libffa
  Props.Periodogram Props.TimeSeries Props.Search Props.Cluster Props.Peaks Props.Sigproc.
Import ListNotations.
Local Open Scope R_scope.

(** ** The values of Model.Worker are those of the objects of Model.TimeSeries *)
Section Objects.
Context (N : num) (alloc : nat -> list N).

Definition series_of (h : heap N) (t : tseries N) : series N := Series (buf h (t_buf t)) (t_tsamp t) (t_md t).

(** the outcome of a method that makes a new object, and that of its model *)
Definition same_outcome (h : heap N) (r : res (heap N)) (v : res (series N)) : Prop :=
  match r, v with
  | Ok h', Ok s => exists t', nth_error (h_ts h') (length (h_ts h)) = Some t' /\ series_of h' t' = s
  | Err e, Err e' => e = e'
  | UB, UB => True
  | Loop, Loop => True
  | _, _ => False
  end.

Lemma fresh_same (h : heap N) x tsamp md : same_outcome h (ts_fresh N h x tsamp md) (new_series x tsamp md).
Proof.
  unfold ts_fresh, ts_new, new_series. cbn zeta.
  destruct (metadata_new md) as [m| | |]; cbn [bind same_outcome]; auto.
  eexists. cbn. split; [apply nth_snoc_new|]. unfold series_of, buf, se_length. cbn.
  rewrite app_nth2 by lia. rewrite Nat.sub_diag. reflexivity.
Qed.

Theorem worker_series_objects : forall (history : list (call N)) (i : nat) (t : tseries N) width minpts,
  let h := run N alloc history (empty N) in
  nth_error (h_ts h) i = Some t ->
  same_outcome h (step N alloc (CDeredden i width minpts false) h) (se_deredden N alloc (series_of h t) width (PInt minpts)) /\
  same_outcome h (step N alloc (CNormalise i false) h) (se_normalise N (series_of h t)).
Proof.
  intros history i t width minpts h E. cbn [step]. unfold rd at 1 2. numR_ty.
  rewrite !E. cbn [bind]. split; [|apply fresh_same].
  unfold se_deredden, series_of. cbn [se_data se_tsamp se_md]. cbn zeta.
  unfold rmed. cbn [fast_running_median_py]. destruct (fast_running_median N alloc _ _ _) as [r| | |]; cbn [bind same_outcome]; auto.
  destruct (_ =? _)%nat; cbn [guard bind same_outcome]; auto. apply fresh_same.
Qed.
End Objects.
Print Assumptions worker_series_objects.

(** C72: doing the pre-processing once for all ranges finds the peaks of one complete search
    (ffa_search with its own dereddening and normalisation, then find_peaks) per range, in the
    same order, and fails in the same way.  For any arithmetic. *)
Lemma foreach_concat {A B} (g : A -> res (list B)) l : forall acc,
  foreach l (fun c acc => x <- g c ;; Ok (acc ++ x)) acc = (ls <- mapM g l ;; Ok (acc ++ concat ls)).
Proof.
  induction l as [|c l IH]; intros acc; cbn; [now rewrite app_nil_r|].
  destruct (g c); cbn; auto. rewrite IH. destruct (mapM g l); cbn; auto. now rewrite app_assoc.
Qed.

Lemma foreach_ext {X S} (l : list X) (f g : X -> S -> res S) : (forall x s, f x s = g x s) ->
  forall s, foreach l f s = foreach l g s.
Proof. intros E. induction l as [|x l IH]; intros s; cbn; auto. rewrite E. destruct (g x s); cbn; auto. Qed.

Lemma mapM_ext {A B} (f g : A -> res B) l : (forall x, In x l -> f x = g x) -> mapM f l = mapM g l.
Proof.
  induction l as [|x l IH]; intros E; cbn; auto. rewrite (E x) by (now left).
  rewrite IH by (intros; apply E; now right). reflexivity.
Qed.

Theorem worker_common_preprocessing :
  forall (N : num) flog fpow alloc allocz fit argsort load (rw : N) minpts
    (confs : list (search_kw N * peaks_kw N)) fname,
  confs <> [] ->
  process_fname N flog fpow alloc allocz fit argsort load rw minpts confs fname =
  (ts <- load fname ;;
   dm <- md_dm (se_md ts) ;;
   _ <- guard (match dm with Some _ => true | None => false end) TypeError ;;
   ls <- mapM (fun conf =>
     '(_, pg) <- ffa_search_ts N flog fpow alloc allocz ts (fst conf) true rw minpts false ;;
     find_peaks_pg N fit argsort pg (snd conf)) confs ;;
   Ok (concat ls)).
Proof.
  intros N flog fpow alloc allocz fit argsort load rw minpts confs fname NE. unfold process_fname.
  destruct (load fname) as [ts| | |]; cbn [bind]; auto.
  destruct (md_dm (se_md ts)) as [dm| | |]; cbn [bind]; auto.
  destruct (guard _ _) as [u| | |]; cbn [bind]; auto.
  set (g := fun (ts : series N) d a (conf : search_kw N * peaks_kw N) =>
     '(_, pg) <- ffa_search_ts N flog fpow alloc allocz ts (fst conf) d rw minpts a ;;
     find_peaks_pg N fit argsort pg (snd conf)).
  change (mapM _ confs) with (mapM (g ts true false) confs).
  assert (G : forall conf, g ts true false conf = (ts' <- prepare_ts N alloc rw minpts ts ;; g ts' false true conf)).
  { intros conf. unfold g, ffa_search_ts, prepare_ts.
    destruct (se_deredden _ _ _ _ _) as [t1| | |]; cbn [bind]; auto.
    destruct (se_normalise _ _) as [t2| | |]; cbn [bind]; auto. }
  destruct (prepare_ts N alloc rw minpts ts) as [ts'| | |]; cbn [bind] in *.
  - rewrite (foreach_ext _ _ (fun c acc => x <- g ts' false true c ;; Ok (acc ++ x))).
    + rewrite foreach_concat. rewrite (mapM_ext _ _ _ (fun c _ => G c)). reflexivity.
    + intros conf acc. unfold g. destruct (ffa_search_ts _ _ _ _ _ _ _ _ _ _ _) as [[? pg]| | |]; cbn [bind]; auto.
  - destruct confs as [|c l]; [easy|]. cbn [mapM]. now rewrite G.
  - destruct confs as [|c l]; [easy|]. cbn [mapM]. now rewrite G.
  - destruct confs as [|c l]; [easy|]. cbn [mapM]. now rewrite G.
Qed.
Print Assumptions worker_common_preprocessing.

(** ffa_search of a TimeSeries is the function studied in Props.Search *)
Theorem worker_ffa_search :
  forall (N : num) flog fpow alloc allocz (ts ts' : series N) k d rw minpts a pg,
  ffa_search_ts N flog fpow alloc allocz ts k d rw (PInt minpts) a = Ok (ts', pg) ->
  ffa_search N flog fpow alloc allocz (se_data ts) (se_tsamp ts) (sk_pmin k) (sk_pmax k) (sk_fpmin k)
    (sk_bmin k) (sk_bmax k) (sk_ducy k) (sk_wtsp k) d rw minpts a
  = Ok (se_data ts', (pg_widths pg, pg_periods pg, pg_foldbins pg, pg_snrs pg)) /\
  se_tsamp ts' = se_tsamp ts /\ pg_md pg = se_md ts'.
Proof.
  intros N flog fpow alloc allocz ts ts' k d rw minpts a pg H. unfold ffa_search_ts, ffa_search in *.
  apply bind_ok in H as (t1 & E1 & H). apply bind_ok in H as (t2 & E2 & H).
  apply bind_ok in H as (ws & E3 & H). apply bind_ok in H as ([[P B] S] & E4 & H). injection H as <- <-.
  assert (F : forall (x : list N) tsamp md s, new_series x tsamp md = Ok s -> se_data s = x /\ se_tsamp s = tsamp).
  { unfold new_series. intros x tsamp md s Es. apply bind_ok in Es as (m & _ & Es). now injection Es as <-. }
  assert (T1 : (if d then r <- rmed N alloc (se_data ts) (se_tsamp ts) rw minpts ;;
      _ <- guard (length r =? length (se_data ts))%nat ValueError ;; Ok (minus N (se_data ts) r)
      else Ok (se_data ts)) = Ok (se_data t1) /\ se_tsamp t1 = se_tsamp ts).
  { destruct d; [|now injection E1 as <-]. unfold se_deredden in E1.
    apply bind_ok in E1 as (r & ER & E1). cbn [fast_running_median_py] in ER. unfold rmed. rewrite ER. cbn [bind].
    apply bind_ok in E1 as (u & -> & E1). cbn [bind].
    apply F in E1 as [-> ->]. auto. }
  destruct T1 as [-> T1]. cbn [bind]. rewrite <- T1.
  assert (T2 : (if a then se_data t1 else normalised N (se_data t1)) = se_data t2 /\ se_tsamp t2 = se_tsamp t1).
  { destruct a; [now injection E2 as <-|]. unfold se_normalise in E2. apply F in E2 as [-> ->]. auto. }
  destruct T2 as [-> T2]. rewrite E3. cbn [bind]. rewrite T2 in E4. rewrite E4. cbn. auto.
Qed.
Print Assumptions worker_ffa_search.

(** ** C73 *)
(** the counts of a search of [size] samples fit in the integers of the machine *)
Definition worker_fits (size : nat) (tsamp : R) (k : search_kw numR) : Prop :=
  search_fits size tsamp (sk_pmin k) (sk_pmax k) (sk_bmin k) (sk_bmax k) /\ sk_ducy k < 1.

(** a search range that can be searched in [size] samples *)
Definition range_fits (size : nat) (tsamp : R) (k : search_kw numR) : Prop :=
  search_args tsamp (sk_pmin k) (sk_pmax k) (sk_bmin k) (sk_bmax k) /\
  2 * sk_pmax k <= tsamp * INR size /\ worker_fits size tsamp k.

(** [prof] is a fold of [x] with [b] bins at the period [P]: [x] downsampled by [f], cut in [rows]
    turns of [b] bins, each shifted along a line to within half a bin per stage, and summed *)
Definition folds_to (x : list R) (tsamp P : R) (b rows : nat) (f : R) (prof : list R) : Prop :=
  exists (n s : nat) (xd : nat -> R) (sh : nat -> nat),
    1 <= f /\ INR n * f <= INR (length x) < (INR n + 1) * f /\
    (rows * b <= n < (rows + 1) * b)%nat /\ (s + 1 < rows)%nat /\
    P = f * tsamp * INR b ^ 2 / (INR b - INR s / (INR rows - 1)) /\
    (forall k, (k < n)%nat -> xd k
      = rsum (length x) (fun i => nth i x 0 * weight i (INR k * f) ((INR k + 1) * f))) /\
    folding_path rows s sh /\
    (forall i, (i < rows)%nat ->
       Rabs (INR (sh i) - INR i * INR s / (INR rows - 1)) <= / 2 * (INR (Nat.log2_up rows) - 1)) /\
    length prof = b /\
    (forall c, (c < b)%nat -> nth c prof 0 = rsum rows (fun i => xd (i * b + (c + sh i) mod b)%nat)).

(** the peaks [l] reported for one search range *)
Definition range_peaks fit (x : list R) (tsamp : R) (dm : option R) (conf : search_kw numR * peaks_kw numR)
    (l : list (peak numR)) : Prop :=
  let k := fst conf in let q := snd conf in
  let T := INR (length x) * tsamp in
  exists (widths : list Z) (periods : list R) (bins : list Z) (snrs : arr2 R) (thr : nat -> R -> R) (clrad : R),
    pk_clrad q = Some clrad /\
    search_args tsamp (sk_pmin k) (sk_pmax k) (sk_bmin k) (sk_bmax k) /\
    (* the trial widths and periods *)
    hd 0%Z widths = 1%Z /\ StronglySorted Z.lt widths /\
    (forall w, In w widths -> (1 <= w < Z.of_nat (sk_bmin k))%Z) /\
    (2 * sk_pmin k <= T -> (0 < length periods)%nat /\ nth 0 periods 0 = sk_pmin k) /\
    (forall t, (t < length periods)%nat -> sk_pmin k <= nth t periods 0 < sk_pmax k) /\
    (forall t t', (t < t' < length periods)%nat -> nth t periods 0 < nth t' periods 0) /\
    (* every S/N is a matched filter response of folded data *)
    (forall t iw, (t < length periods)%nat -> (iw < length widths)%nat ->
       exists b rows f prof v, nth t bins 0%Z = Z.of_nat b /\ (sk_bmin k <= b <= sk_bmax k)%nat /\
         folds_to x tsamp (nth t periods 0) b rows f prof /\
         best_response prof (Z.to_nat (nth iw widths 0%Z)) v /\
         at2 0 snrs t iw = v / sqrt (INR rows * assumed_variance (length x) f)) /\
    (* the peaks are the brightest of each group of significant trials *)
    let freqs := map (fun P => 1 / P) periods in
    (forall iw, (iw < length widths)%nat ->
       is_threshold fit freqs (trials snrs iw) T (pk_smin q) (pk_segwidth q) (pk_nstd q) (pk_minseg q)
         (pk_polydeg q) (thr iw)) /\
    let sel iw := selected freqs (trials snrs iw) (thr iw) (pk_smin q) in
    let linked iw := friends (sel iw) (fun i => nth i freqs 0) (clrad / T) in
    StronglySorted (fun p q : peak numR => p_snr q <= p_snr p) l /\
    (forall p, In p l ->
       let iw := p_iw p in let i := p_ip p in
       (iw < length widths)%nat /\ (i < length periods)%nat /\ sel iw i /\
       p_snr p = at2 0 snrs i iw /\ pk_smin q < p_snr p /\
       p_period p = nth i periods 0 /\ p_freq p = 1 / p_period p /\
       p_width p = nth iw widths 0%Z /\ p_ducy p = IZR (p_width p) / IZR (nth i bins 0%Z) /\
       p_dm p = dm /\
       forall j, linked iw i j -> at2 0 snrs j iw <= p_snr p) /\
    (forall iw i, (iw < length widths)%nat -> sel iw i ->
       exists p, In p l /\ p_iw p = iw /\ linked iw i (p_ip p)) /\
    (forall p q, In p l -> In q l -> p_iw p = p_iw q -> linked (p_iw p) (p_ip p) (p_ip q) -> p = q).

Lemma new_series_inv (x : list R) tsamp md (s : series numR) : new_series (N := numR) x tsamp md = Ok s ->
  se_data s = x /\ se_tsamp s = tsamp /\ md_tobs (se_md s) = Ok (INR (length x) * tsamp) /\
  forall k v, k <> "tobs"%string -> @md_get numR k md = Some v -> md_get k (se_md s) = Some v.
Proof.
  unfold new_series. intros H. apply bind_ok in H as (m & E & H). injection H as <-. cbn [se_data se_tsamp se_md].
  split; auto. split; auto. split.
  - unfold md_tobs. rewrite md_get_set. unfold se_length. cbn [se_data se_tsamp]. rsimp. now rewrite INR_IZR_INZ.
  - intros k v Hk Hv. rewrite md_get_set_other by (now apply not_eq_sym). eapply metadata_new_get in E as [E _]; eauto.
Qed.

Lemma md_default_inv {N} k k' (v : mval N) m : v <> MNone -> md_get k (md_default k' MNone m) = Some v -> md_get k m = Some v.
Proof.
  intros Hv. unfold md_default. destruct (md_get k' m) eqn:E; auto. rewrite md_get_app. destruct (md_get k m); auto.
  cbn [md_get]. destruct (String.eqb k k'); [intros H; injection H as <-; now destruct Hv|discriminate].
Qed.
(** no other metadata are added than [None] *)
Lemma new_series_keeps (x : list R) tsamp md (s : series numR) k v : new_series (N := numR) x tsamp md = Ok s ->
  k <> "tobs"%string -> v <> MNone -> (md_get k (se_md s) = Some v <-> md_get k md = Some v).
Proof.
  intros H Hk Hv. split; [|now apply (new_series_inv x tsamp md s H)].
  unfold new_series in H. apply bind_ok in H as (m & E & H). injection H as <-. cbn [se_md].
  rewrite md_get_set_other by (now apply not_eq_sym).
  unfold metadata_new in E. apply bind_ok in E as (u & _ & E). injection E as <-.
  unfold reserved. cbn [fold_left]. intros G. do 6 (apply md_default_inv in G; [|exact Hv]). exact G.
Qed.

Lemma trials_nth snrs iw i : (i < a_rows snrs)%nat -> nth i (trials snrs iw) 0 = at2 0 snrs i iw.
Proof.
  intros H. unfold trials. rewrite (nth_indep _ 0 (at2 0 snrs 0 iw)) by (now rewrite map_length, seq_length).
  rewrite (map_nth (fun i => at2 0 snrs i iw)). now rewrite seq_nth.
Qed.

(** a search that returns had valid arguments and enough data *)
Lemma search_inv alloc allocz (x : list R) ws (tsamp pmin pmax : R) bmin bmax r :
  allocates alloc -> allocates allocz -> search_fits (length x) tsamp pmin pmax bmin bmax ->
  ws <> [] -> (search_args tsamp pmin pmax bmin bmax -> good_widths ws bmin) -> x <> [] ->
  py_periodogram numR ln pow alloc allocz x tsamp ws pmin pmax bmin bmax = Ok r ->
  search_args tsamp pmin pmax bmin bmax /\ long_enough (length x) tsamp pmin pmax bmin bmax.
Proof.
  intros Ha Hz HF Hws Hg Hx H.
  destruct (Classical_Prop.classic (search_args tsamp pmin pmax bmin bmax)) as [HA|HA].
  - split; [exact HA|]. apply Classical_Prop.NNPP. intros HL.
    destruct (periodogram_returns alloc allocz x ws tsamp pmin pmax bmin bmax Ha Hz HA HF Hws (Hg HA)) as [_ K].
    { destruct x; [easy|cbn; lia]. }
    rewrite (K HL) in H. discriminate.
  - destruct (periodogram_checks alloc allocz x ws tsamp pmin pmax bmin bmax HA) as [_ K]. rewrite K in H. discriminate.
Qed.

Lemma range_peaks_ok alloc allocz fit argsort (ts : series numR) k q dm pg l ts' :
  allocates alloc -> allocates allocz -> sorts argsort ->
  worker_fits (length (se_data ts)) (se_tsamp ts) k -> se_data ts <> [] ->
  md_tobs (se_md ts) = Ok (INR (length (se_data ts)) * se_tsamp ts) ->
  md_dm (se_md ts) = Ok dm ->
  ffa_search_ts numR ln pow alloc allocz ts k false 0 (PInt 0) true = Ok (ts', pg) ->
  find_peaks_pg numR fit argsort pg q = Ok l ->
  range_peaks fit (se_data ts) (se_tsamp ts) dm (k, q) l.
Proof.
  intros Ha Hz HS (HF & Hd) Hne HT HD H1 H3.
  set (x := se_data ts) in *. set (tsamp := se_tsamp ts) in *. set (size := length x) in *.
  unfold ffa_search_ts in H1. cbn [bind] in H1.
  apply bind_ok in H1 as (ws & EW & H1). apply bind_ok in H1 as ([[P B] S] & EP & H1). injection H1 as <- <-.
  fold x tsamp in EP.
  assert (WN : ws <> []).
  { destruct (width_trials (Z.of_nat (sk_bmin k)) (sk_ducy k) (sk_wtsp k)) as (ws' & E & _ & _ & Hn & _). numR_ty. congruence. }
  assert (HA : search_args tsamp (sk_pmin k) (sk_pmax k) (sk_bmin k) (sk_bmax k) /\
    long_enough size tsamp (sk_pmin k) (sk_pmax k) (sk_bmin k) (sk_bmax k)).
  { eapply (search_inv alloc allocz x (map Z.to_nat ws)); eauto.
    - destruct ws; [easy|discriminate].
    - intros (_ & _ & _ & B2 & _). destruct (widths_nat (sk_ducy k) (sk_wtsp k) (sk_bmin k) B2 Hd) as (ws' & E & _ & _ & _ & _ & _ & G).
      numR_ty. rewrite EW in E. injection E as ->. exact G. }
  destruct HA as [HA HT'].
  destruct (widths_nat (sk_ducy k) (sk_wtsp k) (sk_bmin k)) as (ws' & EW' & Wn & W1 & WS & WB & Wn' & WG);
    [now destruct HA as (_ & _ & _ & ? & _)|auto|].
  numR_ty. rewrite EW in EW'. injection EW' as <-.
  destruct (periodogram_trials alloc allocz x (map Z.to_nat ws) tsamp _ _ _ _ Ha Hz HA HF Wn' WG HT')
    as (len & P' & B' & S' & _ & EP' & LP & LB & WFS & RS & CS & Rng & Mono & Bn & First).
  numR_ty. rewrite EP in EP'. injection EP' as <- <- <-.
  destruct (periodogram_snr alloc allocz x (map Z.to_nat ws) tsamp _ _ _ _ Ha Hz HA HF Wn' WG HT')
    as (P' & B' & S' & EP' & MF).
  numR_ty. rewrite EP in EP'. injection EP' as <- <- <-.
  unfold find_peaks_pg in H3. cbn [pg_periods pg_md pg_foldbins pg_widths pg_snrs] in H3.
  rewrite HT, HD in H3. cbn [bind] in H3. rsimp_all. change (IZR 1) with 1 in H3.
  set (freqs := map (fun P => 1 / P) P) in *.
  assert (LF : length freqs = length P) by apply map_length.
  assert (FN : forall i, (i < length P)%nat -> nth i freqs 0 = 1 / nth i P 0).
  { intros i Hi. unfold freqs. rewrite (nth_indep _ 0 (1 / 0)) by (now rewrite map_length).
    now rewrite (map_nth (fun P => 1 / P)). }
  assert (RS' : a_rows S = length freqs) by congruence.
  destruct (pk_clrad q) as [clrad|] eqn:EC.
  2:{ exfalso. destruct ws; [easy|]. apply bind_ok in H3 as (? & _ & H3). discriminate. }
  destruct (find_peaks_correct fit argsort freqs B ws S (INR size * tsamp) dm _ _ _ _ _ _ l HS RS' H3)
    as (SS & ND & thr & TH & C1 & C2 & C3).
  exists ws, P, B, S, thr, clrad. cbn [fst snd]. fold freqs size. split; [exact EC|]. split; [exact HA|].
  split; [auto|]. split; [auto|]. split; [auto|].
  split; [rewrite LP; intros H2; apply First; rewrite (Rmult_comm tsamp); exact H2|]. split; [now rewrite LP|]. split; [now rewrite LP|]. split.
  { intros t iw Ht Hiw. destruct (MF t Ht) as (f & b & n & rows & s & xd & sh & prof & M1 & M2 & M3 & M4 & M5 & M6 & M7 & M8 & M9 & M10 & M11 & M12).
    destruct (M12 iw) as (v & V1 & V2); [now rewrite map_length|].
    exists b, rows, f, prof, v. split; auto. split; [rewrite LP in Ht; apply Bn in Ht; numR_ty; lia|]. split; [exists n, s, xd, sh; auto 20|]. split; [|exact V2].
    rewrite (nth_indep _ 0%nat (Z.to_nat 0)) in V1 by (now rewrite map_length). now rewrite map_nth in V1. }
  split; [exact TH|]. split; [exact SS|].
  assert (PP : forall p, In p l -> (p_ip p < length P)%nat).
  { intros p Hp. destruct (C1 p Hp) as (_ & (Hi & _) & _). lia. }
  split; [|split].
  - intros p Hp. pose proof (PP p Hp) as Hi. destruct (C1 p Hp) as (Q1 & Q2 & Q3 & Q4 & Q5 & Q6 & Q7 & Q8 & Q9).
    assert (Q10 : pk_smin q < p_snr p).
    { destruct Q2 as (_ & _ & Q2). rewrite trials_nth in Q2 by lia. now rewrite Q3. }
    assert (0 < nth (p_ip p) P 0).
    { rewrite LP in Hi. apply Rng in Hi. destruct HA as (_ & ? & _). lra. }
    rewrite FN in Q4, Q5 by exact Hi.
    assert (Q11 : p_period p = nth (p_ip p) P 0) by (etransitivity; [exact Q5|]; change (n_T numR) with R; field; lra).
    repeat split; try assumption; try (apply Q2); try (now rewrite Q11); try (now rewrite Q6).
  - exact C2.
  - intros p p' Hp Hp' E L. pose proof (C3 p p' Hp Hp' E L) as E'.
    clear - ND Hp Hp' E E'. apply in_split in Hp as (l1 & l2 & ->). rewrite map_app in ND. cbn in ND.
    apply NoDup_remove_2 in ND. apply in_app_or in Hp' as [Hp'|[<-|Hp']]; auto; exfalso; apply ND; apply in_or_app.
    + left. apply in_map_iff. exists p'. split; [now rewrite E, E'|exact Hp'].
    + right. apply in_map_iff. exists p'. split; [now rewrite E, E'|exact Hp'].
Qed.

Lemma foreach_inv {A B} (g : A -> res (list B)) l out :
  foreach l (fun c acc => x <- g c ;; Ok (acc ++ x)) [] = Ok out ->
  exists ls, out = concat ls /\ Forall2 (fun c x => g c = Ok x) l ls.
Proof.
  rewrite foreach_concat. intros H. apply bind_ok in H as (ls & E & H). injection H as <-.
  apply mapM_inv in E. exists ls. auto.
Qed.

Lemma map_narrow (x : list R) : map (@n_narrow numR) x = x.
Proof. rewrite <- (map_id x) at 2. apply map_ext. reflexivity. Qed.

Lemma odd_of_Z w : (0 <= w)%Z -> Nat.odd (Z.to_nat w) = Z.odd w.
Proof.
  intros H. destruct (Nat.odd (Z.to_nat w)) eqn:E, (Z.odd w) eqn:F; auto; exfalso.
  - apply Nat.odd_spec in E as (m & E). rewrite <- Z.negb_even in F. apply negb_false_iff, Z.even_spec in F as (n & F). lia.
  - rewrite <- Nat.negb_even in E. apply negb_false_iff, Nat.even_spec in E as (m & E). apply Z.odd_spec in F as (n & F). lia.
Qed.

Lemma running_median_py_accepts (alloc : nat -> list R) (x : list R) (w : Z) : allocates alloc ->
  (Z.odd w = true /\ (0 < w < Z.of_nat (length x))%Z ->
     exists r, running_median_py numR alloc x w = Ok r /\ length r = length x) /\
  (~ (Z.odd w = true /\ (0 < w < Z.of_nat (length x))%Z) ->
     running_median_py numR alloc x w = Err (if (w <? 0)%Z then TypeError else ValueError)).
Proof.
  intros Ha. unfold running_median_py. numR_ty. rewrite map_narrow.
  destruct (RunMed.running_median_correct R Rlt_bool 0 0 alloc x (Z.to_nat w) Ha) as [K1 K2].
  destruct (Z.ltb_spec w 0) as [L|L].
  - split; [intros [_ ?]; lia|]. auto.
  - rewrite odd_of_Z in * by lia. split.
    + intros [O L2]. destruct K2 as (r & E & Lr & _); [split; auto; lia|]. eauto.
    + intros H. rsimp. apply K1. intros [O L2]. apply H. split; auto. split; [|lia].
      destruct (Z.eq_dec w 0); [subst; discriminate|lia].
Qed.

(** a float which Python's [% 2] makes 0 *)
Lemma even_float_R x : even_float numR x = true <-> exists k, x = 2 * IZR k.
Proof.
  unfold even_float. rsimp. split.
  - destruct (Req_bool_spec x (2 * IZR (Zfloor (x / 2)))); [eauto|discriminate].
  - intros [k ->]. apply Req_bool_true. replace (2 * IZR k / 2) with (IZR k) by lra. now rewrite Zfloor_IZR.
Qed.

(** Python's round is rounding to the nearest integer, ties to even *)
Lemma py_round_R (x : R) : py_round numR x = ZnearestE x.
Proof.
  unfold py_round. rsimp. unfold Znearest.
  assert (H2 : 1 / 2 = / 2) by lra. rewrite H2. pose proof (Zfloor_lb x) as LB.
  destruct (Rcompare_spec (x - IZR (Zfloor x)) (/ 2)) as [L|L|L].
  - now rewrite Rlt_bool_true.
  - rewrite !Rlt_bool_false by lra. rewrite Zceil_floor_neq by lra. now destruct (Z.even _).
  - rewrite Rlt_bool_false, Rlt_bool_true by lra. rewrite Zceil_floor_neq by lra. reflexivity.
Qed.

Lemma round_IZR (x : R) (n : Z) : x = IZR n -> ZnearestE x = n.
Proof. intros ->. apply Znearest_imp. rewrite Rminus_diag_eq, Rabs_R0 by reflexivity. lra. Qed.

(** ** The running median subtracted by deredden, described without its algorithm *)

(** [r] is the running median of [x] over [w] samples, the edge samples being repeated *)
Definition direct_median (x : list R) (w : Z) (r : list R) : Prop :=
  Z.odd w = true /\ (0 < w < Z.of_nat (length x))%Z /\
  forall c, (c < length x)%nat -> is_median Rlt_bool (centred_window 0 x (Z.to_nat w / 2) c) (nth c r 0).

(** [r] goes linearly through the running medians over [m] bins of the means of [x] over [f]
    samples, each mean being at the centre of its samples; it is constant before the first and
    after the last *)
Definition binned_median (x : list R) (f m : nat) (r : list R) : Prop :=
  let nb := (length x / f)%nat in
  let centre k := INR (k * f) + (INR f - 1) / 2 in
  (m < nb)%nat /\
  exists med : list R, length med = nb /\
    (forall k, (k < nb)%nat ->
       is_median Rlt_bool
         (centred_window 0 (map (fun j => rsum f (fun i => nth (j * f + i) x 0) / INR f) (seq 0 nb)) (m / 2) k)
         (nth k med 0)) /\
    (forall i k, (i < length x)%nat -> (S k < nb)%nat -> centre k <= INR i <= centre (S k) ->
       nth i r 0 = nth k med 0 + (nth (S k) med 0 - nth k med 0) * ((INR i - centre k) / INR f)) /\
    (forall i, (i < length x)%nat -> INR i <= centre 0%nat -> nth i r 0 = nth 0 med 0) /\
    (forall i, (i < length x)%nat -> centre (nb - 1)%nat <= INR i -> nth i r 0 = nth (nb - 1) med 0).

(** the running median over [w] samples computed with at least [m] points, [m] being an int or a
    float *)
Definition median_of (x : list R) (w : Z) (m : pynum numR) (r : list R) : Prop :=
  length r = length x /\
  match m with
  | PInt z => Z.odd z = true /\
      (((z < 0 \/ w < 2 * z)%Z /\ direct_median x w r) \/
       ((0 < z /\ 2 * z <= w)%Z /\ binned_median x (Z.to_nat (w / z)) (Z.to_nat z) r))
  | PFloat y => (forall k, y <> 2 * IZR k) /\ (y < 0 \/ IZR w < 2 * y) /\ direct_median x w r
  end.

Lemma float_factor (w : Z) (x : R) : x <> 0 -> (0 <= w)%Z ->
  ((if Rlt_bool 1 (IZR w / x) then Ztrunc (IZR w / x) else 1%Z) =? 1)%Z = true <-> (x < 0 \/ IZR w < 2 * x).
Proof.
  intros X0 W0. apply IZR_le in W0. rsimp. rewrite Z.eqb_eq. destruct (Rlt_or_le x 0) as [Xn|Xp].
  - rewrite Rlt_bool_false; [tauto|]. apply Rle_trans with 0; [|lra].
    unfold Rdiv. assert (/ x < 0) by now apply Rinv_lt_0_compat. nra.
  - assert (XP : 0 < x) by lra. assert (E : IZR w / x * x = IZR w) by (field; lra).
    set (y := IZR w / x) in *. clearbody y.
    destruct (Rlt_bool_spec (IZR 1) y) as [Y|Y].
    + rewrite Ztrunc_floor by lra. split.
      * intros F. right. pose proof (Zfloor_ub y) as U. rewrite F in U. assert (y < 2) by lra. nra.
      * intros [|L]; [lra|]. apply Zfloor_imp. rewrite plus_IZR. split; [lra|].
        apply Rnot_le_lt. intros Y2. assert (2 * x <= y * x) by (apply Rmult_le_compat_r; lra). lra.
    + split; auto. intros _. right. assert (y * x <= 1 * x) by (apply Rmult_le_compat_r; lra). lra.
Qed.

Lemma running_median_direct (alloc : nat -> list R) (x : list R) w r : allocates alloc -> running_median_py numR alloc x w = Ok r ->
  length r = length x /\ direct_median x w r.
Proof.
  intros Ha E. destruct (running_median_py_accepts alloc x w Ha) as [_ L2].
  assert (W : Z.odd w = true /\ (0 < w < Z.of_nat (length x))%Z).
  { assert (Dec : forall P, P \/ ~ P -> (~ P -> False) -> P) by tauto. apply Dec.
    - destruct (Bool.bool_dec (Z.odd w) true), (Z_lt_le_dec 0 w), (Z_lt_le_dec w (Z.of_nat (length x)));
        (left; tauto) || (right; intros [? ?]; (congruence || lia)).
    - intros H. apply L2 in H. pose proof (eq_trans (eq_sym E) H). discriminate. }
  unfold running_median_py in E. rewrite (proj2 (Z.ltb_ge w 0)) in E by lia. revert E. numR_ty. rewrite map_narrow. intros E.
  destruct (RunMed.running_median_correct R Rlt_bool 0 0 alloc x (Z.to_nat w) Ha) as [_ K2].
  destruct K2 as (out & E' & L & M). { destruct W as [W1 W2]. rewrite odd_of_Z by lia. split; [exact W1|lia]. }
  pose proof (eq_trans (eq_sym E) E') as Q. injection Q as <-. split; [exact L|].
  split; [apply W|]. split; [apply W|]. apply M. apply strict_weak_R.
Qed.

(** the running median with a value of either type *)
Lemma median_py_ok alloc (x : list R) w m r : allocates alloc ->
  fast_running_median_py numR alloc x w m = Ok r -> median_of x w m r.
Proof.
  intros Ha H. destruct m as [z|y].
  - cbn [fast_running_median_py] in H. unfold median_of.
    destruct (Z_lt_le_dec 0 z) as [Z0|Z0].
    + destruct (fast_running_median_correct alloc x w z Ha Z0) as (K1 & K2 & K3).
      destruct (Z.odd z) eqn:O; [|numR_ty; rewrite K1 in H by (rewrite <- Z.negb_odd, O; reflexivity); discriminate].
      destruct (Z_lt_le_dec w (2 * z)) as [L|L].
      * numR_ty. rewrite K2 in H by auto. destruct (running_median_direct _ _ _ _ Ha H). auto 6.
      * destruct (K3 eq_refl L) as [K4 _].
        destruct (Z_le_gt_dec (Z.of_nat (length x) / (w / z)) z) as [G|G]; [numR_ty; rewrite K4 in H by auto; discriminate|].
        destruct (fast_running_median_values alloc x w z Ha Z0 O L ltac:(lia)) as (out & med & E & L1 & L2 & M).
        pose proof (eq_trans (eq_sym H) E) as Q. injection Q as <-.
        split; [exact L1|]. split; [reflexivity|]. right. split; [lia|]. split; [|exists med; auto].
        assert (0 < w / z)%Z by (apply Z.div_str_pos; lia).
        apply Nat2Z.inj_lt. rewrite Nat2Z.inj_div, !Z2Nat.id by lia. lia.
    + unfold fast_running_median in H. destruct (z mod 2 =? 0)%Z eqn:EM; [discriminate|].
      assert (O : Z.odd z = true) by (rewrite Zmod_odd in EM; now destruct (Z.odd z)).
      assert (Zn : (z < 0)%Z) by (destruct (Z.eq_dec z 0); [subst; discriminate|lia]).
      destruct (_ =? 1)%Z.
      * destruct (running_median_direct _ _ _ _ Ha H). split; auto.
      * exfalso. apply bind_ok in H as (rm & H & _). unfold running_median_py in H.
        rewrite (proj2 (Z.ltb_lt z 0)) in H by lia. discriminate.
  - unfold fast_running_median_py in H. destruct (even_float numR y) eqn:EV; [discriminate|].
    assert (NE : forall k, y <> 2 * IZR k).
    { intros k E. assert (even_float numR y = true) by (apply even_float_R; eauto). congruence. }
    assert (X0 : y <> 0) by (intros ->; apply (NE 0%Z); lra).
    destruct (Z_lt_le_dec w 0) as [W|W].
    { exfalso. revert H. match goal with |- context [if ?b then _ else _] => destruct b end; [|discriminate].
      destruct (running_median_py_accepts alloc x w Ha) as [_ K]. rewrite K by lia. discriminate. }
    pose proof (float_factor w y X0 W) as FF.
    revert H. rsimp. cbv zeta. revert FF. rsimp. intros FF. destruct (_ =? 1)%Z eqn:EF; [|discriminate]. intros H.
    destruct (running_median_direct _ _ _ _ Ha H) as [L D]. split; [exact L|]. split; [exact NE|]. split; [now apply FF|exact D].
Qed.

Lemma direct_unique x w r r' : direct_median x w r -> direct_median x w r' ->
  length r = length x -> length r' = length x -> r = r'.
Proof.
  intros (_ & _ & A) (_ & _ & B) L L'. apply (nth_ext _ _ 0 0); [congruence|]. intros c Hc.
  eapply median_unique_R; [apply A|apply B]; lia.
Qed.

Lemma binned_unique x f m r r' : (0 < f)%nat -> binned_median x f m r -> binned_median x f m r' ->
  length r = length x -> length r' = length x -> r = r'.
Proof.
  intros Hf (B0 & med & L1 & M1 & I1 & F1 & E1) (_ & med' & L2 & M2 & I2 & F2 & E2) L L'.
  assert (EM : med = med').
  { apply (nth_ext _ _ 0 0); [congruence|]. intros k Hk. eapply median_unique_R; [apply M1|apply M2]; lia. }
  subst med'. apply (nth_ext _ _ 0 0); [congruence|]. intros i Hi. rewrite L in Hi.
  set (nb := (length x / f)%nat) in *. set (centre := fun k => INR (k * f) + (INR f - 1) / 2) in *.
  destruct (Rle_lt_dec (INR i) (centre 0%nat)) as [A|A]; [rewrite F1, F2; auto|].
  destruct (Rle_lt_dec (centre (nb - 1)%nat) (INR i)) as [B|B]; [rewrite E1, E2; auto|].
  assert (Q : forall n, INR i < centre n -> exists k, (S k <= n)%nat /\ centre k <= INR i <= centre (S k)).
  { induction n as [|n IH]; intros H; [lra|]. destruct (Rlt_le_dec (INR i) (centre n)) as [C|C].
    - destruct (IH C) as (k & K1 & K2). exists k. split; [lia|auto].
    - exists n. split; [lia|]. lra. }
  destruct (Q _ B) as (k & K1 & K2). rewrite (I1 i k), (I2 i k); auto; lia.
Qed.

(** the description leaves no choice *)
Theorem median_of_unique : forall (x : list R) (w : Z) (m : pynum numR) (r r' : list R),
  median_of x w m r -> median_of x w m r' -> r = r'.
Proof.
  intros x w m r r' [L H] [L' H']. destruct m as [z|y].
  - destruct H as [_ [[A H]|[A H]]], H' as [_ [[A' H']|[A' H']]]; try lia.
    + eapply direct_unique; eauto.
    + refine (binned_unique x (Z.to_nat (w / z)) (Z.to_nat z) r r' _ H H' L L'). apply Z2Nat.inj_lt with (n := 0%Z); [lia|apply Z.div_pos; lia|apply Z.div_str_pos; lia].
  - destruct H as (_ & _ & H), H' as (_ & _ & H'). eapply direct_unique; eauto.
Qed.
Print Assumptions median_of_unique.

(** [ts'] is [ts] prepared for the search: its samples are those of [ts] minus their running
    median, shifted and scaled to zero mean and unit variance; its metadata are those of [ts] *)
Definition prepared (rw : R) (minpts : pynum numR) (ts ts' : series numR) : Prop :=
  se_tsamp ts' = se_tsamp ts /\ length (se_data ts') = length (se_data ts) /\
  md_get "dm" (se_md ts') = md_get "dm" (se_md ts) /\
  (forall k v, k <> "tobs"%string -> v <> MNone -> (md_get k (se_md ts') = Some v <-> md_get k (se_md ts) = Some v)) /\
  md_get "tobs" (se_md ts') = Some (MFloat (N := numR) (INR (length (se_data ts)) * se_tsamp ts)) /\
  exists r, median_of (se_data ts) (ZnearestE (rw / se_tsamp ts)) minpts r /\
    let d := map (fun i => nth i (se_data ts) 0 - nth i r 0) (seq 0 (length (se_data ts))) in
    let x := se_data ts' in
    (exists u v, In u d /\ In v d /\ u <> v) ->
    rmean x = 0 /\ rvar x = 1 /\ exists a b, 0 < a /\ x = map (fun z => a * z + b) d.

Lemma prepare_ts_spec alloc rw minpts (ts ts' : series numR) :
  allocates alloc -> md_get "dm" (se_md ts) <> None ->
  prepare_ts numR alloc rw minpts ts = Ok ts' ->
  prepared rw minpts ts ts' /\ md_tobs (se_md ts') = Ok (INR (length (se_data ts)) * se_tsamp ts).
Proof.
  intros Ha ND E3. unfold prepare_ts in E3. apply bind_ok in E3 as (ts1 & E3 & E4).
  unfold se_deredden in E3. apply bind_ok in E3 as (r & ER & E3). apply bind_ok in E3 as (u' & LR & E3).
  apply guard_ok, Nat.eqb_eq in LR.
  pose proof (fun k v => new_series_keeps _ _ _ _ k v E3) as K1. pose proof (fun k v => new_series_keeps _ _ _ _ k v E4) as K2.
  apply new_series_inv in E3 as (D1 & D2 & D3 & D4). apply new_series_inv in E4 as (D5 & D6 & D7 & D8).
  set (d := map (fun i => nth i (se_data ts) 0 - nth i r 0) (seq 0 (length (se_data ts)))).
  assert (Ed : se_data ts1 = d).
  { rewrite D1. unfold minus, d. rsimp. numR_ty. revert LR. generalize (se_data ts). clear.
    intros l. revert r. induction l as [|a l IH]; intros [|b r] H; cbn in *; try discriminate; auto.
    f_equal. rewrite <- seq_shift, map_map. apply IH. lia. }
  assert (Ld : length d = length (se_data ts)) by (unfold d; now rewrite map_length, seq_length).
  rewrite Ed in *. rewrite normalised_R in D5.
  assert (Lx : length (se_data ts') = length (se_data ts)) by (rewrite D5, map_length; auto).
  assert (TO : md_tobs (se_md ts') = Ok (INR (length (se_data ts)) * se_tsamp ts)).
  { rewrite D7, normalised_R, map_length, Ld, D2. reflexivity. }
  split; [split; [congruence|]; split; [exact Lx|]; split; [|split; [|split]]|exact TO].
  - destruct (md_get "dm" (se_md ts)) as [v|] eqn:EV; [|easy]. apply D8; [discriminate|]. now apply D4.
  - intros k v Hk Hv. now rewrite K2, K1.
  - clear - TO. unfold md_tobs in TO. destruct (md_get "tobs" (se_md ts')) as [[| | | | |]|]; try discriminate. now injection TO as ->.
  - apply median_py_ok in ER; auto. rewrite py_round_R in ER. exists r. split; [exact ER|]. cbv zeta. fold d.
    intros (a & b & Ia & Ib & Nab). rewrite D5. change (In a d) in Ia. change (In b d) in Ib.
    assert (Hx : d <> []) by (intros E; now rewrite E in Ia).
    pose proof (rvar_pos d a b Ia Ib Nab) as HV.
    pose proof (sqrt_lt_R0 _ HV) as HQ. set (s := sqrt (rvar d)) in *.
    assert (Hss : s * s = rvar d) by (apply sqrt_sqrt; lra).
    assert (EY : map (fun v => (v - rmean d) / s) d = map (fun z => / s * z + - (rmean d / s)) d).
    { apply map_ext. intros z. field. lra. }
    rewrite EY. rewrite rmean_affine, rvar_affine by auto. rewrite <- Hss.
    split; [field; lra|]. split; [field; lra|].
    exists (/ s), (- (rmean d / s)). split; [now apply Rinv_0_lt_compat|reflexivity].
Qed.

Lemma prepare_ts_shape alloc rw minpts (ts ts' : series numR) :
  prepare_ts numR alloc rw minpts ts = Ok ts' ->
  se_tsamp ts' = se_tsamp ts /\ length (se_data ts') = length (se_data ts).
Proof.
  intros E3. unfold prepare_ts in E3. apply bind_ok in E3 as (ts1 & E3 & E4).
  unfold se_deredden in E3. apply bind_ok in E3 as (r & ER & E3). apply bind_ok in E3 as (u' & LR & E3).
  apply guard_ok, Nat.eqb_eq in LR.
  apply new_series_inv in E3 as (D1 & D2 & _). apply new_series_inv in E4 as (D5 & D6 & _).
  split; [congruence|]. rewrite D5, normalised_R, map_length, D1. unfold minus. rewrite map_length, combine_length.
  numR_ty. lia.
Qed.

(** empty data do not pass the validation of the metadata *)
Lemma prepare_ts_length alloc rw minpts (ts ts' : series numR) :
  prepare_ts numR alloc rw minpts ts = Ok ts' -> 0 < INR (length (se_data ts')) * se_tsamp ts'.
Proof.
  unfold prepare_ts. intros H. apply bind_ok in H as (ts1 & E1 & E2).
  unfold se_deredden in E1. apply bind_ok in E1 as (r & _ & E1). apply bind_ok in E1 as (u & _ & E1).
  apply new_series_inv in E1 as (B1 & B2 & TO & _). rewrite <- B1, <- B2 in TO.
  pose proof (new_series_inv _ _ _ _ E2) as (D1 & D2 & _).
  unfold se_normalise, new_series in E2. apply bind_ok in E2 as (m & E2 & _).
  unfold md_tobs in TO. destruct (md_get "tobs" (se_md ts1)) as [[|v| | | |]|] eqn:G; try discriminate. injection TO as TO.
  destruct (metadata_new_get _ _ _ _ E2 G) as [_ V].
  cbn [item_valid String.eqb Ascii.eqb Bool.eqb orb] in V. revert V. rsimp.
  destruct (Rlt_bool_spec 0 v) as [V|]; [|discriminate]. intros _.
  rewrite D1, D2, normalised_R, map_length, <- TO. exact V.
Qed.
Lemma prepare_ts_nonempty alloc rw minpts (ts ts' : series numR) :
  prepare_ts numR alloc rw minpts ts = Ok ts' -> se_data ts' <> [].
Proof. intros H E. apply prepare_ts_length in H. rewrite E in H. cbn in H. lra. Qed.

(** C73: everything a worker reports about a file *)
Theorem process_fname_correct :
  forall alloc allocz fit argsort load (rw : R) minpts confs fname (ts : series numR) peaks,
  allocates alloc -> allocates allocz -> sorts argsort ->
  load fname = Ok ts ->
  Forall (fun c => worker_fits (length (se_data ts)) (se_tsamp ts) (fst c)) confs ->
  process_fname numR ln pow alloc allocz fit argsort load rw minpts confs fname = Ok peaks ->
  exists (dm : R) (ts' : series numR) (ls : list (list (peak numR))),
    md_get "dm" (se_md ts) = Some (MFloat (N := numR) dm) /\
    prepare_ts numR alloc rw minpts ts = Ok ts' /\ prepared rw minpts ts ts' /\
    peaks = concat ls /\ Forall2 (range_peaks fit (se_data ts') (se_tsamp ts) (Some dm)) confs ls.
Proof.
  intros alloc allocz fit argsort load rw minpts confs fname ts peaks Ha Hz HS EL HC H.
  unfold process_fname in H. rewrite EL in H. cbn [bind] in H.
  apply bind_ok in H as (odm & E1 & H). apply bind_ok in H as (u & E2 & H). apply guard_ok in E2.
  destruct odm as [dm|]; [|discriminate].
  assert (ED : md_get "dm" (se_md ts) = Some (MFloat dm)).
  { unfold md_dm in E1. destruct (md_get "dm" (se_md ts)) as [[| | | | |]|]; try discriminate. now injection E1 as <-. }
  apply bind_ok in H as (ts2 & E3 & H).
  destruct (prepare_ts_spec alloc rw minpts ts ts2 Ha ltac:(congruence) E3) as (PR & TO).
  pose proof PR as (T2 & Lx & M2 & _).
  rewrite (foreach_ext _ _ (fun conf acc =>
      x <- ('(_, pg) <- ffa_search_ts numR ln pow alloc allocz ts2 (fst conf) false rw minpts true ;;
            find_peaks_pg numR fit argsort pg (snd conf)) ;; Ok (acc ++ x))) in H.
  2:{ intros c acc. destruct (ffa_search_ts _ _ _ _ _ _ _ _ _ _ _) as [[? ?]| | |]; reflexivity. }
  apply foreach_inv in H as (ls & EC & F).
  exists dm, ts2, ls. split; [auto|]. split; [auto|]. split; [exact PR|]. split; [exact EC|].
  assert (M3 : md_dm (se_md ts2) = Ok (Some dm)) by (unfold md_dm; now rewrite M2, ED).
  clear EC. revert HC. induction F as [|[k q] l confs ls E F IH]; intros HC; constructor.
  + inversion HC as [|? ? K1 K2]; subst. cbn [fst snd] in *.
    apply bind_ok in E as ([ts' pg] & G1 & G2).
    rewrite <- T2. eapply range_peaks_ok; eauto.
    * rewrite Lx, T2. exact K1.
    * now apply prepare_ts_nonempty in E3.
    * rewrite TO, Lx, T2. reflexivity.
  + apply IH. now inversion HC.
Qed.
Print Assumptions process_fname_correct.

(** ** C74: when a file can be searched *)
(** What deredden() accepts.  [w] is the window in samples. *)
Definition window_ok (size : nat) (w minpts : Z) : Prop :=
  Z.odd minpts = true /\
  ((w < 2 * minpts)%Z -> Z.odd w = true /\ (0 < w < Z.of_nat size)%Z) /\
  ((2 * minpts <= w)%Z -> (minpts < Z.of_nat size / (w / minpts))%Z).

(** the same for a value of either type *)
Definition window_py_ok (size : nat) (w : Z) (m : pynum numR) : Prop :=
  match m with
  | PInt z => (0 < z)%Z /\ window_ok size w z
  | PFloat x => (forall k, x <> 2 * IZR k) /\ (x < 0 \/ IZR w < 2 * x) /\ Z.odd w = true /\ (0 < w < Z.of_nat size)%Z
  end.
Definition minpts_positive (m : pynum numR) : Prop := match m with PInt z => (0 < z)%Z | PFloat _ => True end.

Lemma median_accepts :
  forall (alloc : nat -> list R) (x : list R) (w minpts : Z), allocates alloc -> (0 < minpts)%Z ->
  (window_ok (length x) w minpts -> exists r, fast_running_median numR alloc x w minpts = Ok r /\ length r = length x) /\
  (~ window_ok (length x) w minpts ->
     fast_running_median numR alloc x w minpts = Err ValueError \/ fast_running_median numR alloc x w minpts = Err TypeError).
Proof.
  intros alloc x w minpts Ha Hm. numR_ty.
  destruct (fast_running_median_correct alloc x w minpts Ha Hm) as (K1 & K2 & K3).
  destruct (running_median_py_accepts alloc x w Ha) as [L1 L2].
  unfold window_ok. split.
  - intros (O & A & B). destruct (Z_lt_le_dec w (2 * minpts)) as [L|L].
    + numR_ty. rewrite K2 by auto. auto.
    + destruct (K3 O L) as [_ K4]. destruct K4 as (r & E & Lr & _); auto. eauto.
  - intros H. destruct (Z.odd minpts) eqn:O.
    + destruct (Z_lt_le_dec w (2 * minpts)) as [L|L].
      * numR_ty. rewrite K2 by auto. rewrite L2; [destruct (_ <? _)%Z; auto|]. intros G. apply H. split; auto. split; [auto|lia].
      * destruct (K3 eq_refl L) as [K4 _]. left. apply K4.
        destruct (Z_le_gt_dec (Z.of_nat (length x) / (w / minpts)) minpts) as [G|G]; auto.
        exfalso. apply H. split; auto. split; [lia|]. intros _. lia.
    + left. apply K1. rewrite <- Z.negb_odd, O. reflexivity.
Qed.

Theorem deredden_accepts :
  forall (alloc : nat -> list R) (x : list R) (tsamp width : R) (minpts : pynum numR),
  allocates alloc -> minpts_positive minpts ->
  let w := ZnearestE (width / tsamp) in
  (window_py_ok (length x) w minpts ->
     exists r, fast_running_median_py numR alloc x w minpts = Ok r /\ length r = length x) /\
  (~ window_py_ok (length x) w minpts ->
     fast_running_median_py numR alloc x w minpts = Err ValueError \/
     fast_running_median_py numR alloc x w minpts = Err TypeError).
Proof.
  intros alloc x tsamp width minpts Ha Hm w. destruct minpts as [z|y]; cbn [minpts_positive] in Hm.
  - cbn [window_py_ok fast_running_median_py]. destruct (median_accepts alloc x w z Ha Hm) as [K1 K2].
    split; [intros [_ H]; now apply K1|]. intros H. apply K2. tauto.
  - cbn [window_py_ok fast_running_median_py]. destruct (running_median_py_accepts alloc x w Ha) as [K1 K2].
    destruct (even_float numR y) eqn:EV.
    { split; [|now left]. intros (NE & _). apply even_float_R in EV as [k Ek]. now apply NE in Ek. }
    assert (NE : forall k, y <> 2 * IZR k).
    { intros k E. assert (even_float numR y = true) by (apply even_float_R; eauto). congruence. }
    assert (X0 : y <> 0) by (intros ->; apply (NE 0%Z); lra).
    destruct (Z_lt_le_dec w 0) as [W|W].
    { split; [lia|]. intros _. cbv zeta. match goal with |- context [if ?b then _ else _] => destruct b end; [|now right].
      rewrite K2 by lia. destruct (_ <? _)%Z; auto. }
    pose proof (float_factor w y X0 W) as FF. revert FF. rsimp. cbv zeta. intros FF. destruct (_ =? 1)%Z.
    + split; [intros (_ & _ & G); now apply K1|]. intros H. rewrite K2 by tauto. destruct (_ <? _)%Z; auto.
    + split; [|now right]. intros (_ & G & _). now apply FF in G.
Qed.
Print Assumptions deredden_accepts.

(** With a sampling time of 20 ms the default window of 4 s is 200 samples, an even number below
    twice the default minimum of 101: no time series at all can be dereddened. *)
Theorem deredden_defaults_refuted : forall (alloc : nat -> list R) (x : list R), allocates alloc ->
  fast_running_median_py numR alloc x (ZnearestE (4 / (1 / 50))) (PInt 101) = Err ValueError.
Proof.
  intros alloc x Ha. cbn [fast_running_median_py].
  assert (E : ZnearestE (4 / (1 / 50)) = 200%Z).
  { apply round_IZR. lra. }
  numR_ty. rewrite E. destruct (fast_running_median_correct alloc x 200 101 Ha ltac:(lia)) as (_ & K & _).
  numR_ty. rewrite K by reflexivity. destruct (running_median_py_accepts alloc x 200 Ha) as [_ L].
  rewrite L; [reflexivity|]. intros [O _]. discriminate.
Qed.
Print Assumptions deredden_defaults_refuted.

(** a clustering radius is given, and a fit of at least [minseg] control points does not fail *)
Definition fit_works (fit : list R -> list R -> Z -> res (R -> R)) (q : peaks_kw numR) : Prop :=
  pk_clrad q <> None /\
  forall fc sc, (pk_minseg q <= Z.of_nat (length fc))%Z -> exists thr, fit fc sc (pk_polydeg q) = Ok thr.

(** the range has at least two trials, and more trials than segments *)
Definition segments_fit (T : R) (k : search_kw numR) (q : peaks_kw numR) : Prop :=
  let res := INR (sk_bmin k) * (T - 3 * sk_pmax k) in
  0 < pk_segwidth q /\ T <= pk_segwidth q * res /\ 1 < res * (/ sk_pmin k - / sk_pmax k).

Lemma frequency_steps (P : list R) (pmax d : R) :
  (forall t, (t < length P)%nat ->
     / nth t P 0 - / (if (t + 1 <? length P)%nat then nth (t + 1) P 0 else pmax) <= d) ->
  forall t, (t < length P)%nat -> / nth 0 P 0 - / nth t P 0 <= INR t * d.
Proof.
  intros H. induction t as [|t IH]; intros Ht; [cbn; lra|].
  specialize (H t ltac:(lia)). destruct (Nat.ltb_spec (t + 1) (length P)); [|lia].
  rewrite Nat.add_1_r in H. specialize (IH ltac:(lia)). rewrite S_INR. lra.
Qed.

Lemma ceil_nat y n : 0 < y -> y <= INR n -> exists m, (1 <= m <= n)%nat /\ INR m - 1 < y <= INR m.
Proof.
  intros H0 Hn. exists (Z.to_nat (Zceil y)).
  assert (C0 : (0 < Zceil y)%Z) by (apply lt_IZR; eapply Rlt_le_trans; [exact H0|apply Zceil_ub]).
  assert (Cn : (Zceil y <= Z.of_nat n)%Z) by (apply Zceil_glb; now rewrite <- INR_IZR_INZ).
  split; [lia|]. rewrite INR_IZR_INZ, Z2Nat.id by lia.
  split; [|apply Zceil_ub]. unfold Zceil. rewrite opp_IZR. pose proof (Zfloor_ub (- y)). lra.
Qed.

Lemma mapM_total {A B} (f : A -> res B) l : (forall a, exists b, f a = Ok b) -> exists o, mapM f l = Ok o.
Proof.
  intros H. induction l as [|a l (o & IH)]; [cbn; eauto|]. cbn [mapM]. destruct (H a) as (b & ->).
  cbn [bind]. rewrite IH. cbn [bind]. eauto.
Qed.

Lemma find_peaks_ok (fit : list R -> list R -> Z -> res (R -> R)) argsort (f : list R) foldbins widths
  (snrs : arr2 R) (T : R) (dm : option R) (q : peaks_kw numR) (clrad : R) :
  a_rows snrs = length f -> 0 < T -> 0 < pk_segwidth q -> fit_works fit q ->
  (0 < length f)%nat -> Rabs (last f 0 - nth 0 f 0) <> 0 ->
  Rabs (last f 0 - nth 0 f 0) * T / pk_segwidth q <= INR (length f) ->
  exists l, find_peaks numR fit argsort f foldbins widths snrs T dm (pk_smin q) (pk_segwidth q) (pk_nstd q)
    (pk_minseg q) (pk_polydeg q) clrad = Ok l.
Proof.
  intros HR HT HW [_ HF] Hn Hspan Hm.
  assert (Y0 : 0 < Rabs (last f 0 - nth 0 f 0) * T / pk_segwidth q).
  { pose proof (Rabs_pos (last f 0 - nth 0 f 0)). apply Rdiv_lt_0_compat; auto. apply Rmult_lt_0_compat; lra. }
  destruct (ceil_nat _ _ Y0 Hm) as (m & [M1 M2] & M3).
  assert (S1 : forall s, length s = length f -> exists idx,
    find_peaks_single numR fit argsort f s T (pk_smin q) (pk_segwidth q) (pk_nstd q) (pk_minseg q)
      (pk_polydeg q) clrad = Ok idx).
  { intros s Hs. destruct (segment_stats_correct f s T (pk_segwidth q) HT HW Hs) as (_ & _ & K).
    destruct (K m ltac:(lia) M1 M3) as [_ K2]. destruct (K2 M2) as (fc & smed & sstd & E & Lfc & _).
    unfold find_peaks_single. numR_ty. rewrite E. cbn [bind].
    destruct (Z.leb_spec (pk_minseg q) (Z.of_nat (length fc))) as [L|L]; [|cbn [bind]; eauto].
    destruct (HF fc (map (fun p => fst p + pk_nstd q * snd p) (combine smed sstd)) L) as (thr & ET).
    rsimp. rewrite ET. cbn [bind]. eauto. }
  unfold find_peaks.
  match goal with |- exists l, bind ?m _ = _ => assert (MM : exists o, m = Ok o) end.
  { apply mapM_total. intros iw. cbv zeta.
    destruct (S1 (map (fun i => at2 (o_ofZ (@n_dbl numR) 0) snrs i iw) (seq 0 (a_rows snrs)))) as (idx & E).
    { now rewrite map_length, seq_length. }
    numR_ty. rewrite E. cbn [bind]. eauto. }
  destruct MM as (o & ->). cbn [bind]. eauto.
Qed.

Lemma range_ok alloc allocz fit argsort (ts : series numR) (k : search_kw numR) (q : peaks_kw numR)
  (dm : option R) (rw : R) minpts :
  allocates alloc -> allocates allocz ->
  range_fits (length (se_data ts)) (se_tsamp ts) k ->
  md_tobs (se_md ts) = Ok (INR (length (se_data ts)) * se_tsamp ts) ->
  md_dm (se_md ts) = Ok dm -> fit_works fit q ->
  segments_fit (INR (length (se_data ts)) * se_tsamp ts) k q ->
  exists pg l, ffa_search_ts numR ln pow alloc allocz ts k false rw minpts true = Ok (ts, pg) /\
    find_peaks_pg numR fit argsort pg q = Ok l.
Proof.
  intros Ha Hz (HA & H2 & HF & Hd) HT HD HW (S1 & S2 & S3).
  set (x := se_data ts) in *. set (tsamp := se_tsamp ts) in *. set (size := length x) in *.
  set (T := INR size * tsamp) in *.
  assert (HP := HA). destruct HP as (A1 & A2 & A3 & A4 & A5 & A6).
  assert (B2 : 2 <= INR (sk_bmin k)) by (apply (le_INR 2); lia).
  assert (T0 : 0 <= tsamp * INR size) by (apply Rmult_le_pos; [lra|apply pos_INR]).
  destruct (widths_nat (sk_ducy k) (sk_wtsp k) (sk_bmin k)) as (ws & EW & Wn & W1 & WS & WB & Wn' & WG); auto.
  assert (HT' : long_enough size tsamp (sk_pmin k) (sk_pmax k) (sk_bmin k) (sk_bmax k)).
  { apply long_enough_simple. nra. }
  destruct (periodogram_trials alloc allocz x (map Z.to_nat ws) tsamp _ _ _ _ Ha Hz HA HF Wn' WG HT')
    as (len & P & B & S & _ & EP & LP & LB & WFS & RS & CS & Rng & Mono & Bn & First).
  destruct (periodogram_coverage alloc allocz x (map Z.to_nat ws) tsamp _ _ _ _ Ha Hz HA HF Wn' WG H2)
    as (P' & B' & S' & EP' & Pos & P0 & Cov).
  numR_ty. rewrite EP in EP'. injection EP' as <- <- <-.
  set (K := INR (sk_bmin k) * (T - 3 * sk_pmax k)) in *.
  assert (D0 : 0 < / sk_pmin k - / sk_pmax k).
  { assert (/ sk_pmax k < / sk_pmin k); [|lra]. apply Rinv_lt_contravar; [apply Rmult_lt_0_compat; lra|lra]. }
  assert (K0 : 0 < K) by nra.
  assert (St : forall t, (t < length P)%nat ->
     / nth t P 0 - / (if (t + 1 <? length P)%nat then nth (t + 1) P 0 else sk_pmax k) <= / K).
  { intros t Ht. destruct (Cov t Ht) as (b & rows & tau & C1 & C2 & C3 & C4 & C5 & C6 & C7). cbv zeta in C6, C7.
    set (df := / nth t P 0 - _) in *.
    assert (Hb : INR (sk_bmin k) <= INR b).
    { rewrite LP in Ht. apply Bn in Ht. apply le_INR. lia. }
    assert (Pt : nth t P 0 < sk_pmax k) by (rewrite LP in Ht; now apply Rng in Ht).
    change (length x) with size in C4.
    rewrite plus_INR in C4. rewrite minus_INR in C7 by lia. cbn [INR] in C4, C7.
    set (L := (INR rows - 1) * INR b * tau) in *.
    assert (HL : T - 3 * sk_pmax k <= L).
    { unfold T, L. assert (tau <= INR b * tau) by nra. nra. }
    apply Rmult_le_reg_r with K; auto. rewrite Rinv_l by lra.
    assert (TP : 0 < T - 3 * sk_pmax k) by (unfold K in K0; nra).
    apply Rle_trans with (df * L * INR b).
    - unfold K. rewrite (Rmult_comm (INR (sk_bmin k))), <- Rmult_assoc.
      apply Rmult_le_compat; try lra. + apply Rmult_le_pos; lra. + apply Rmult_le_compat_l; lra.
    - apply Rle_trans with (/ INR b * INR b); [apply Rmult_le_compat_r; lra|]. rewrite Rinv_l; lra. }
  pose proof (frequency_steps P (sk_pmax k) (/ K) St) as Fs.
  set (freqs := map (fun P => 1 / P) P).
  assert (LF : length freqs = length P) by apply map_length.
  assert (FN : forall i, (i < length P)%nat -> nth i freqs 0 = 1 / nth i P 0).
  { intros i Hi. unfold freqs. rewrite (nth_indep _ 0 (1 / 0)) by (now rewrite map_length).
    now rewrite (map_nth (fun P => 1 / P)). }
  assert (EL : last freqs 0 = 1 / nth (length P - 1) P 0).
  { rewrite <- FN by lia. rewrite <- LF. clear. induction freqs as [|a l IH]; auto.
    destruct l as [|b l]; auto. change (last (a :: b :: l) 0) with (last (b :: l) 0). rewrite IH.
    cbn [length]. now rewrite !Nat.sub_succ, !Nat.sub_0_r. }
  pose proof (Fs (length P - 1)%nat ltac:(lia)) as Fl.
  assert (PL : sk_pmin k <= nth (length P - 1) P 0 < sk_pmax k) by (apply Rng; lia).
  assert (N2 : (2 <= length P)%nat).
  { destruct (le_lt_dec 2 (length P)) as [|L]; auto. exfalso.
    assert (EP1 : length P = 1%nat) by lia. specialize (St 0%nat ltac:(lia)). rewrite EP1 in St. cbn in St.
    rewrite P0 in St.
    assert (K * (/ sk_pmin k - / sk_pmax k) <= 1); [|lra].
    apply Rmult_le_reg_l with (/ K); [now apply Rinv_0_lt_compat|]. rewrite <- Rmult_assoc, Rinv_l by lra. lra. }
  assert (Sp : Rabs (last freqs 0 - nth 0 freqs 0) = / nth 0 P 0 - / nth (length P - 1) P 0 /\
               0 < / nth 0 P 0 - / nth (length P - 1) P 0).
  { rewrite EL, FN by lia. pose proof (Mono 0%nat (length P - 1)%nat ltac:(lia)) as Hm.
    assert (HI : / nth (length P - 1) P 0 < / nth 0 P 0).
    { apply Rinv_lt_contravar; auto. rewrite P0 in *. apply Rmult_lt_0_compat; lra. }
    split; [|lra]. rewrite Rabs_left; unfold Rdiv; lra. }
  destruct Sp as [Sp1 Sp2].
  assert (TT : 0 < T) by (unfold T; unfold K in K0; nra).
  destruct (pk_clrad q) as [clrad|] eqn:EC; [|destruct HW; congruence].
  destruct (find_peaks_ok fit argsort freqs B ws S T dm q clrad) as (l & El); auto.
  - congruence.
  - lia.
  - rewrite Sp1. lra.
  - rewrite Sp1, LF. apply Rle_trans with (INR (length P - 1) * (/ K) * T / pk_segwidth q).
    + unfold Rdiv. apply Rmult_le_compat_r; [left; now apply Rinv_0_lt_compat|]. apply Rmult_le_compat_r; lra.
    + apply Rle_trans with (INR (length P - 1)); [|apply le_INR; lia].
      assert (C : / K * T / pk_segwidth q <= 1).
      { apply Rmult_le_reg_l with (K * pk_segwidth q); [now apply Rmult_lt_0_compat|].
        replace (K * pk_segwidth q * (/ K * T / pk_segwidth q)) with T by (field; lra). lra. }
      pose proof (pos_INR (length P - 1)) as Q0.
      replace (INR (length P - 1) * / K * T / pk_segwidth q)
        with (INR (length P - 1) * (/ K * T / pk_segwidth q)) by (field; lra). nra.
  - exists (Pgram (N := numR) ws P B S (se_md ts)), l. split.
    + unfold ffa_search_ts. cbn [bind]. numR_ty. rewrite EW. cbn [bind]. fold x tsamp. rewrite EP. reflexivity.
    + unfold find_peaks_pg. cbn [pg_periods pg_md pg_foldbins pg_widths pg_snrs]. rewrite HT, HD, EC. cbn [bind].
      exact El.
Qed.

(** 10 s of data sampled at 1 ms with one impulse, periods from 1 to 2 s *)
Definition impulse : list R := 1 :: repeat 0 (99 * 100 + 99).
Lemma impulse_fits : let k := Search_kw (N := numR) 1 2 8 20 22 (1/5) (3/2) in
  window_py_ok (length impulse) (ZnearestE (4 / (1/1000))) (PInt 101) /\ range_fits (length impulse) (1/1000) k /\
  forall q : peaks_kw numR, pk_segwidth q = 5 -> segments_fit (INR (length impulse) * (1/1000)) k q.
Proof.
  cbv zeta.
  assert (L : length impulse = (100 * 100)%nat).
  { unfold impulse. cbn [length]. rewrite repeat_length. reflexivity. }
  assert (E : INR (100 * 100) = 10000).
  { rewrite mult_INR, INR_IZR_INZ. cbn. lra. }
  assert (E20 : INR 20 = 20) by (cbn; lra).
  numR_ty. rewrite L.
  split.
  { assert (R4 : ZnearestE (4 / (1 / 1000)) = 4000%Z).
    { apply round_IZR. lra. }
    numR_ty. rewrite R4. split; [reflexivity|]. split; [reflexivity|]. rewrite Nat2Z.inj_mul. split; intros H; [lia|reflexivity]. }
  split.
  { unfold range_fits, worker_fits. cbn [sk_pmin sk_pmax sk_bmin sk_bmax sk_ducy]. rewrite E.
    split; [unfold search_args; rewrite E20; repeat split; try lia; lra|].
    split; [lra|]. split; [|lra]. unfold search_fits. split; [lia|]. split; [lra|]. split; [lia|].
    assert (L2 : ln (2 / 1) <= 1).
    { replace (2 / 1) with 2 by lra. rewrite <- (ln_exp 1). apply Rlt_le, ln_increasing; [lra|].
      pose proof (exp_ineq1 1). lra. }
    assert (L3 : 3 / 23 <= ln ((INR 22 + 1) / INR 20)).
    { replace ((INR 22 + 1) / INR 20) with (/ (20 / 23)) by (cbn; field).
      rewrite ln_Rinv by lra. pose proof (exp_ineq1_le (ln (20 / 23))) as Q.
      rewrite exp_ln in Q by lra. lra. }
    apply Rmult_le_reg_r with (ln ((INR 22 + 1) / INR 20)); [lra|].
    unfold Rdiv at 1. rewrite Rmult_assoc, Rinv_l by lra. nra. }
  intros q Hq. unfold segments_fit. cbn [sk_pmin sk_pmax sk_bmin]. rewrite Hq, E, E20. lra.
Qed.

Lemma new_series_valid (x : list R) (tsamp : R) md : 0 < INR (length x) * tsamp ->
  forallb (item_valid numR) md = true ->
  exists s, new_series (N := numR) x tsamp md = Ok s /\ forallb (item_valid numR) (se_md s) = true.
Proof.
  intros LenPos V. unfold new_series, metadata_new. rewrite V. cbn [guard bind]. eexists. split; [reflexivity|].
  cbn [se_md]. unfold se_length. cbn [se_data se_tsamp]. rsimp. numR_ty. rewrite <- INR_IZR_INZ.
  assert (G : forall m, forallb (item_valid numR) m = true ->
    forallb (item_valid numR) (md_set "tobs" (MFloat (N := numR) (INR (length x) * tsamp)) m) = true).
  { induction m as [|[k v] m IH]; intros Vm; cbn [md_set forallb].
    - cbn. rsimp. rewrite Rlt_bool_true; auto.
    - cbn [forallb] in Vm. apply andb_true_iff in Vm as [V1 V2].
      destruct (String.eqb_spec "tobs" k) as [<-|Nk]; cbn [forallb]; apply andb_true_iff; split; auto.
      cbn. rsimp. now rewrite Rlt_bool_true. }
  apply G. assert (Df : forall k m, In k reserved -> forallb (item_valid numR) m = true ->
    forallb (item_valid numR) (md_default k MNone m) = true).
  { intros k m Hk Vm. unfold md_default. destruct (md_get k m); auto.
    rewrite forallb_app. apply andb_true_iff. split; auto. cbn [forallb]. rewrite andb_true_r.
    cbn in Hk. decompose [or] Hk; subst; try reflexivity; contradiction. }
  unfold reserved. cbn [fold_left]. repeat (apply Df; [cbn; tauto|]). exact V.
Qed.
Lemma new_series_checks (x : list R) (tsamp : R) md s : new_series (N := numR) x tsamp md = Ok s ->
  forallb (item_valid numR) md = true.
Proof.
  unfold new_series, metadata_new. intros H. apply bind_ok in H as (m & H & _). apply bind_ok in H as (u & H & _).
  now apply guard_ok in H.
Qed.

(** data with valid metadata are pre-processed if the window suits them *)
Lemma prepare_ts_total alloc (rw : R) minpts (ts : series numR) dm :
  allocates alloc -> 0 < se_tsamp ts -> md_get "dm" (se_md ts) = Some dm ->
  forallb (item_valid numR) (se_md ts) = true ->
  window_py_ok (length (se_data ts)) (ZnearestE (rw / se_tsamp ts)) minpts ->
  exists ts', prepare_ts numR alloc rw minpts ts = Ok ts' /\ se_tsamp ts' = se_tsamp ts /\
    length (se_data ts') = length (se_data ts) /\ md_get "dm" (se_md ts') = Some dm /\
    md_tobs (se_md ts') = Ok (INR (length (se_data ts)) * se_tsamp ts).
Proof.
  intros Ha Ht ED HV HW.
  assert (Hm : minpts_positive minpts) by (destruct minpts; [exact (proj1 HW)|exact I]).
  destruct (deredden_accepts alloc (se_data ts) (se_tsamp ts) rw minpts Ha Hm) as [K _].
  destruct (K HW) as (r & ER & LR).
  assert (Size : (0 < length (se_data ts))%nat).
  { set (w := ZnearestE _) in *. destruct minpts as [mp|y]; [|destruct HW; lia]. clear Hm.
    destruct HW as (Hm & O & W1 & W2). destruct (length (se_data ts)); [exfalso|lia]. destruct (Z_lt_le_dec w (2 * mp)) as [L|L]; [apply W1 in L; lia|].
    apply W2 in L. rewrite Z.div_0_l in L; [lia|].
    intros E. pose proof (Z.div_mod w mp ltac:(lia)). pose proof (Z.mod_pos_bound w mp Hm). lia. }
  assert (LenPos : 0 < INR (length (se_data ts)) * se_tsamp ts).
  { apply Rmult_lt_0_compat; auto. now apply (lt_INR 0). }
  unfold prepare_ts, se_deredden. rsimp. numR_ty. rewrite py_round_R. numR_ty. rewrite ER. cbn [bind]. numR_ty. rewrite LR, Nat.eqb_refl. cbn [guard bind].
  assert (NS : forall (x : list R) md, forallb (item_valid numR) md = true -> length x = length (se_data ts) ->
    exists s, new_series (N := numR) x (se_tsamp ts) md = Ok s /\ forallb (item_valid numR) (se_md s) = true).
  { intros x md V Lx. apply new_series_valid; [rewrite Lx; exact LenPos|exact V]. }
  assert (L1 : length (minus numR (se_data ts) r) = length (se_data ts)).
  { unfold minus. rewrite map_length, combine_length. numR_ty. lia. }
  destruct (NS (minus numR (se_data ts) r) (se_md ts) HV L1) as (t1 & E1 & V1).
  numR_ty. rewrite E1. cbn [bind].
  apply new_series_inv in E1 as (D1 & D2 & D3 & D4).
  unfold se_normalise. rewrite D1, D2. numR_ty.
  assert (L2 : length (normalised numR (minus numR (se_data ts) r)) = length (se_data ts)).
  { rewrite normalised_R, map_length. exact L1. }
  destruct (NS _ (se_md t1) V1 L2) as (t2 & E2 & V2). numR_ty. rewrite E2. cbn [bind].
  apply new_series_inv in E2 as (D5 & D6 & D7 & D8).
  rewrite L2 in D7. exists t2. split; [reflexivity|]. split; [exact D6|].
  split; [rewrite D5; exact L2|]. split; [apply D8; [discriminate|]; apply D4; [discriminate|exact ED]|exact D7].
Qed.

(** C74: a file is searched to the end if its metadata are valid and give a DM, the running
    median window suits the data, and every range is well within the data, spans more than one
    trial and has no more segments than trials. *)
Theorem process_fname_total :
  forall alloc allocz fit argsort load (rw : R) minpts confs fname (ts : series numR) (dm : R),
  allocates alloc -> allocates allocz -> 0 < se_tsamp ts ->
  load fname = Ok ts -> md_get "dm" (se_md ts) = Some (MFloat (N := numR) dm) ->
  forallb (item_valid numR) (se_md ts) = true ->
  window_py_ok (length (se_data ts)) (ZnearestE (rw / se_tsamp ts)) minpts ->
  Forall (fun c => range_fits (length (se_data ts)) (se_tsamp ts) (fst c) /\ fit_works fit (snd c) /\
     segments_fit (INR (length (se_data ts)) * se_tsamp ts) (fst c) (snd c)) confs ->
  exists peaks, process_fname numR ln pow alloc allocz fit argsort load rw minpts confs fname = Ok peaks.
Proof.
  intros alloc allocz fit argsort load rw minpts confs fname ts dm Ha Hz Ht EL ED HV HW HC.
  destruct (prepare_ts_total alloc rw minpts ts _ Ha Ht ED HV HW) as (t2 & EP & D6 & L3 & ED' & D7).
  unfold process_fname. rewrite EL. cbn [bind]. unfold md_dm at 1. rewrite ED. cbn [bind guard].
  rewrite EP. cbn [bind].
  assert (M2 : md_dm (se_md t2) = Ok (Some dm)) by (unfold md_dm; now rewrite ED').
  generalize (@nil (peak numR)) as acc. induction HC as [|[k q] confs (C1 & C2 & C3) HC IH]; intros acc; [cbn; eauto|].
  cbn [foreach fst snd] in *.
  destruct (range_ok alloc allocz fit argsort t2 k q (Some dm) rw minpts) as (pg & l & G1 & G2); auto;
    try (rewrite L3, D6; auto).
  rewrite G1. cbn [bind]. rewrite G2. cbn [bind]. apply IH.
Qed.
Print Assumptions process_fname_total.

Example process_fname_total_ex : exists (ts : series numR) (k : search_kw numR) (q : peaks_kw numR),
  0 < se_tsamp ts /\ md_get "dm" (se_md ts) = Some (MFloat (N := numR) (23 / 10)) /\
  forallb (item_valid numR) (se_md ts) = true /\
  window_py_ok (length (se_data ts)) (ZnearestE (4 / se_tsamp ts)) (PInt 101) /\
  range_fits (length (se_data ts)) (se_tsamp ts) k /\ fit_works (fun _ _ _ => Ok (fun _ => 6)) q /\
  segments_fit (INR (length (se_data ts)) * se_tsamp ts) k q.
Proof.
  destruct impulse_fits as (F1 & F2 & F3).
  exists (Series (N := numR) impulse (1/1000) [("dm"%string, MFloat (N := numR) (23 / 10))]).
  exists (Search_kw (N := numR) 1 2 8 20 22 (1/5) (3/2)).
  exists (Peaks_kw (N := numR) 6 5 6 10 2 (Some (1/10))).
  cbn [se_data se_tsamp se_md]. split; [lra|]. split; [reflexivity|].
  split; [cbn [forallb]; unfold item_valid; cbn [String.eqb]; cbn; rewrite Rle_bool_true by lra; reflexivity|].
  split; [exact F1|]. split; [exact F2|]. split; [split; [discriminate|intros fc sc _; eauto]|]. now apply F3.
Qed.

(** A file whose metadata give no DM cannot be searched, although find_peaks() takes care of it. *)
Theorem worker_no_dm_refuted :
  forall (N : num) flog fpow alloc allocz fit argsort load (rw : N) minpts confs fname (ts : series N),
  load fname = Ok ts -> md_get "dm" (se_md ts) = Some MNone ->
  process_fname N flog fpow alloc allocz fit argsort load rw minpts confs fname = Err TypeError.
Proof.
  intros N flog fpow alloc allocz fit argsort load rw minpts confs fname ts EL ED.
  unfold process_fname. rewrite EL. cbn [bind]. unfold md_dm. rewrite ED. reflexivity.
Qed.
Print Assumptions worker_no_dm_refuted.

(** Dereddening with the default parameters stops every search of data sampled at 20 ms. *)
Theorem worker_even_width_refuted :
  forall alloc allocz fit argsort load confs fname (ts : series numR) (dm : R), allocates alloc ->
  load fname = Ok ts -> md_get "dm" (se_md ts) = Some (MFloat (N := numR) dm) -> se_tsamp ts = 1 / 50 ->
  process_fname numR ln pow alloc allocz fit argsort load 4 (PInt 101) confs fname = Err ValueError.
Proof.
  intros alloc allocz fit argsort load confs fname ts dm Ha EL ED ET.
  unfold process_fname. rewrite EL. cbn [bind]. unfold md_dm at 1. rewrite ED. cbn [bind guard].
  unfold prepare_ts, se_deredden. rsimp. numR_ty. rewrite ET, py_round_R. numR_ty. rewrite (deredden_defaults_refuted alloc _ Ha). reflexivity.
Qed.
Print Assumptions worker_even_width_refuted.
