(** C129: the programs find pulses in floating point. *)
From Coq Require Import String List Arith ZArith Bool Lia Reals Lra Psatz Permutation Sorted Relations.
From Flocq Require Import Core.
From Verif Require Import Base.Result Base.Buf Base.Num Model.FastRmed Model.Transforms Model.Libffa Model.Periodogram Model.Metadata
  Model.TimeSeries Model.Search Model.Cluster Model.Peaks Model.Pipeline Model.Ranges Model.Worker Model.Rseek
  Spec.Friends Spec.Sums Spec.Overlap Spec.Noise Spec.Pulse Spec.Libm Spec.Order
  Proof.Index Proof.Downsample Proof.Snr Proof.Detect Proof.Cluster Proof.ClusterFloat Proof.Pipeline Proof.TimeSeries Proof.PeaksFloat
  Props.Downsample Props.Cluster Props.Snr Props.TimeSeries Props.Peaks Props.Pipeline Props.PeaksFloat Props.PeriodogramFloat Props.SnrFloat Props.DownsampleFloat
  Props.PeriodogramRounding Props.Sigproc Props.Detect Props.DetectFloat Props.WidthsFloat Props.NormFloat Props.Worker Props.Rseek Props.Deredden
  Props.DereddenIeee Props.DereddenError Props.DereddenDetect.
Import ListNotations.
Local Open Scope R_scope.

(** a frequency at which a trial of one of [nw] widths exceeds [smin]; frequencies are rounded *)
Definition significant_rounded (periods : list R) (snrs : arr2 R) (nw : nat) (smin f : R) : Prop :=
  exists i iw, (i < length periods)%nat /\ (iw < nw)%nat /\ f = rnd64 (1 / nth i periods 0) /\ smin < at2 0 snrs i iw.

(** a chain of such frequencies, none further than [r (1 + 2^-52)] from the next, goes from [f] to [g] *)
Definition chain_rounded (periods : list R) (snrs : arr2 R) (nw : nat) (smin r f g : R) : Prop :=
  friends (significant_rounded periods snrs nw smin) (fun f => f) (r * (1 + / 2 ^ 52)) f g.

(** the lower bound of C127 on the S/N: a boxcar of [W] of [b] bins, [rows] rows of [f] samples per bin,
    dereddened samples of standard deviation [sd] off by at most [e] *)
Definition sure_snr_rounded (data : list R) (base : R) (on : nat -> bool) (M e : R) (b W rows n : nat) (f V sd : R) : R :=
  let size := length data in
  let folded := INR (rows * b) * f in
  let rho := norm_accuracy (M + e) sd in
  let zb := (Rabs (rmean data - base) + 2 * e) / sd in
  let A := INR size * (1 + 2 * rho) in
  let T := (1 + / 2 ^ 24) ^ (Nat.log2_up rows + Z.to_nat (Zceil f) + 3)
           * (A + INR n * (INR size * / 2 ^ 50 * 2 ^ 13 + 3 * / 2 ^ 150)) in
  (boxcar_response b W (flux data base on folded true / sd) ((flux data base on folded false + 2 * e * INR size) / sd)
   - sqrt (INR b / (INR W * INR (b - W)))
     * ((1 + 31 * / 2 ^ 24) * T - A + INR size * (rho * (3 + zb) + / 2 ^ 53 * (2 * zb + 1))))
  / sqrt (INR rows * V) - / 2 ^ 145.

Lemma friends_radius {A} (P : A -> Prop) v r r' a b : r <= r' -> friends P v r a b -> friends P v r' a b.
Proof.
  intros HR F. induction F as [c d (H1 & H2 & H3)|c|c d e _ IH1 _ IH2]; [|apply rt_refl|eapply rt_trans; eauto].
  apply rt_step. split; auto. split; auto. lra.
Qed.

(** ** the arrays of a periodogram have one entry per trial *)
Lemma for_keeps {S} (Inv : S -> Prop) body n : (forall i s s', Inv s -> body i s = Ok s' -> Inv s') ->
  forall lo s s', Inv s -> for_ n lo body s = Ok s' -> Inv s'.
Proof.
  intros H. induction n as [|n IH]; intros lo s s' I E; cbn [for_] in E; [injection E as <-; exact I|].
  apply bind_ok in E as (s1 & E1 & E). eapply IH; [|exact E]. eapply H; eauto.
Qed.

Lemma py_periodogram_rows (N : num) flog fpow (alloc : nat -> list (n_T N)) allocz data tsamp ws pmin pmax bmin bmax P B S :
  allocates alloc ->
  py_periodogram N flog fpow alloc allocz data tsamp ws pmin pmax bmin bmax = Ok (P, B, S) -> a_rows S = length P.
Proof.
  intros Ha H. unfold py_periodogram in H. apply bind_ok in H as (len & _ & H). apply bind_ok in H as (st & E & H).
  injection H as <- <- <-. cbn [a_rows].
  assert (K : length (p_periods st) = len); [|now symmetry].
  unfold periodogram in E. apply bind_ok in E as (? & _ & E). apply bind_ok in E as (nd & _ & E).
  revert E. apply (for_keeps (fun st => length (p_periods st) = len)); [|cbn [p_periods]; apply Ha].
  clear st. intros i st st' I E. apply bind_ok in E as ([inp im] & _ & E). apply bind_ok in E as (pms & _ & E).
  revert E. apply (for_keeps (fun st => length (p_periods st) = len)); [|exact I].
  clear - Ha. intros b st st' I E. apply bind_ok in E as (cs & _ & E). apply bind_ok in E as ([fb fo] & _ & E).
  apply bind_ok in E as (snr' & _ & E). apply bind_ok in E as ([per fbs] & E1 & E). injection E as <-. cbn [p_periods].
  change (length (fst (per, fbs)) = len). revert E1. generalize (per, fbs). intros pf E1.
  refine (for_keeps (fun pf : list (n_T N) * list Z => length (fst pf) = len) _ _ _ 0%nat (p_periods st, p_bins st) pf I E1).
  clear. intros s [p1 f1] [p2 f2] I1 E2. apply bind_ok in E2 as (p' & W & E2). apply bind_ok in E2 as (f' & _ & E2).
  injection E2 as <- <-. apply wr_inv in W as [_ ->]. cbn [fst] in *. now rewrite upd_length.
Qed.

(** ** what rseek reports *)
Theorem rseek_report_float :
  forall (bld : build) argsort (clrad len : R) (peaks : list (peak (numF bld))),
  sorts argsort -> Forall F64 (map p_freq peaks) -> 0 <= rnd64 (clrad / len) -> peaks <> [] ->
  exists (r : R) (groups : list (list nat)) (best out : list (peak (numF bld))),
    rseek_report (numF bld) argsort clrad len peaks = Ok (Some out) /\
    rnd64 (clrad / len) <= r <= rnd64 (clrad / len) * (1 + / 2 ^ 52) /\
    Permutation (concat groups) (seq 0 (length peaks)) /\
    (forall i j, (i < length peaks)%nat -> (j < length peaks)%nat ->
       (together groups i j <-> friends (fun k => (k < length peaks)%nat) (fun k => nth k (map p_freq peaks) 0) r i j)) /\
    Forall2 (fun g p => (exists i, In i g /\ nth_error peaks i = Some p) /\
       forall j q, In j g -> nth_error peaks j = Some q -> p_snr q <= p_snr p) groups best /\
    Permutation out best /\
    StronglySorted (fun p q : peak (numF bld) => p_snr q <= p_snr p) out.
Proof.
  intros bld argsort clrad len peaks HA FF HR HN. unfold rseek_report.
  destruct (Nat.eqb_spec (length peaks) 0) as [E|_]; [now destruct peaks|].
  destruct (cluster1d_F bld argsort (map p_freq peaks) (rnd64 (clrad / len)) false) as (r & EC & R1 & R2 & _); [exact FF|apply rnd64_F|].
  assert (LM : length (map (p_freq (N := numF bld)) peaks) = length peaks) by apply map_length.
  assert (GR : exists groups, cluster1d (numF bld) argsort (map p_freq peaks) (rnd64 (clrad / len)) false = groups /\
    Permutation (concat groups) (seq 0 (length peaks)) /\ (forall g, In g groups -> g <> []) /\
    (forall i j, (i < length peaks)%nat -> (j < length peaks)%nat ->
       (together groups i j <-> friends (fun k => (k < length peaks)%nat) (fun k => nth k (map p_freq peaks) 0) r i j))).
  { exists (cluster1d numR argsort (map p_freq peaks) r false). split; [exact EC|].
    destruct (cluster1d_friends argsort (map p_freq peaks) r false HA) as (PM & NE & FR & _ & _); [discriminate|].
    change (n_T (numF bld)) with R in *. rewrite LM in *. split; [exact PM|]. split; [exact NE|exact FR]. }
  destruct GR as (groups & EG & PM & NE & FR).
  change (@o_div (numF bld) n_dbl clrad len) with (rnd64 (clrad / len)). rewrite EG. clear EG EC.
  exists r.
  assert (RD : exists best, mapM (fun g => ps <- mapM (rd peaks) g ;;
      match ps with [] => Err ValueError | p :: ps => Ok (first_max snr_lt p ps) end) groups = Ok best /\
    Forall2 (fun g (p : peak (numF bld)) => (exists i, In i g /\ nth_error peaks i = Some p) /\
       forall j q, In j g -> nth_error peaks j = Some q -> p_snr q <= p_snr p) groups best).
  { assert (IN : forall i, In i (concat groups) -> (i < length peaks)%nat).
    { intros i Hi. apply (Permutation_in _ PM), in_seq in Hi. lia. }
    clear - IN NE. induction groups as [|g gs IH]; [exists []; split; [reflexivity|constructor]|].
    destruct IH as (best & E & F). { intros h Hh. apply NE. now right. } { intros i Hi. apply IN. cbn. apply in_app_iff. now right. }
    assert (G : exists ps, mapM (rd peaks) g = Ok ps /\ Forall2 (fun i p => nth_error peaks i = Some p) g ps).
    { assert (IG : forall i, In i g -> (i < length peaks)%nat) by (intros i Hi; apply IN; cbn; apply in_app_iff; now left).
      clear - IG. induction g as [|i g IH]; [exists []; split; [reflexivity|constructor]|].
      destruct IH as (ps & E & F); [intros j Hj; apply IG; now right|].
      destruct (rd_ok peaks i) as (p & E1 & E2); [apply IG; now left|].
      exists (p :: ps). cbn. rewrite E1. cbn [bind]. rewrite E. split; [reflexivity|]. now constructor. }
    destruct G as (ps & E1 & F1). cbn [mapM]. rewrite E1. cbn [bind].
    destruct ps as [|p ps]. { inversion F1; subst. now destruct (NE [] (or_introl eq_refl)). }
    cbn [bind]. rewrite E. cbn [bind]. eexists. split; [reflexivity|]. constructor; [|exact F].
    destruct (first_max_spec (fun q : peak (numF bld) => (p_snr q : R)) p ps) as [IB IP].
    change (first_max (fun a b : peak (numF bld) => Rlt_bool (p_snr a) (p_snr b)) p ps) with (first_max snr_lt p ps) in IB, IP.
    split.
    - revert IB. generalize (first_max snr_lt p ps). clear - F1. intros b.
      induction F1 as [|i q g qs H F IH]; intros Hb; [destruct Hb|]. destruct Hb as [<-|Hb].
      + exists i. split; [now left|exact H].
      + destruct (IH Hb) as (k & Hk & Ek). exists k. split; [now right|exact Ek].
    - intros j q Hj Eq. apply IP. clear - F1 Hj Eq. revert F1 Hj. generalize (p :: ps).
      intros qs F1. induction F1 as [|i r g rs H F IH]; intros Hj; [destruct Hj|]. destruct Hj as [<-|Hj].
      + left. congruence.
      + right. now apply IH. }
  destruct RD as (best & E & F). rewrite E. cbn [bind]. exists groups, best. eexists. split; [reflexivity|].
  split. { split; [exact R1|]. replace (/ 2 ^ 52) with (2 * u64) by (unfold u64; lra). now apply R2. }
  split; [exact PM|]. split; [exact FR|]. split; [exact F|]. split.
  - symmetry. exact (sorted_desc_perm (fun q : peak (numF bld) => (p_snr q : R)) best).
  - exact (sorted_desc_sorted (fun q : peak (numF bld) => (p_snr q : R)) best).
Qed.
Print Assumptions rseek_report_float.

(** ** the steps before the peaks *)
Lemma ffa_search_inv (N : num) flog fpow (alloc : nat -> list (n_T N)) allocz data tsamp pmin pmax fpmin bmin bmax ducy wtsp rw m x ws P B S :
  ffa_search N flog fpow alloc allocz data tsamp pmin pmax fpmin bmin bmax ducy wtsp true rw m false = Ok (x, (ws, P, B, S)) ->
  exists r, rmed N alloc data tsamp rw m = Ok r /\ length r = length data /\ x = normalised N (minus N data r) /\
    generate_width_trials N (Z.of_nat bmin) ducy wtsp = Ok ws /\
    py_periodogram N flog fpow alloc allocz x tsamp (map Z.to_nat ws) pmin pmax bmin bmax = Ok (P, B, S).
Proof.
  unfold ffa_search. intros H. apply bind_ok in H as (y & E & H). apply bind_ok in E as (r & ER & E).
  apply bind_ok in E as (u & L & E). apply guard_ok, Nat.eqb_eq in L. injection E as <-.
  apply bind_ok in H as (ws' & EW & H). apply bind_ok in H as ([[P' B'] S'] & EP & H). injection H as <- <- <- <- <-.
  exists r. auto.
Qed.

Lemma new_series_gen (N : num) (x : list (n_T N)) tsamp md s : new_series x tsamp md = Ok s ->
  se_data s = x /\ se_tsamp s = tsamp /\ md_tobs (se_md s) = Ok (se_length s) /\
  forall v, md_get "dm" md = Some v -> md_get "dm" (se_md s) = Some v.
Proof.
  unfold new_series. intros H. apply bind_ok in H as (m & E & H). injection H as <-. cbn [se_data se_tsamp se_md].
  split; auto. split; auto. split.
  - unfold md_tobs. now rewrite md_get_set.
  - intros v Hv. rewrite md_get_set_other by discriminate. eapply metadata_new_get in E as [E _]; eauto.
Qed.

Lemma normalised_length (N : num) (x : list (n_T N)) : length (normalised N x) = length x.
Proof. unfold normalised, normalised64. now rewrite !map_length. Qed.

Lemma prepare_gen (N : num) (alloc : nat -> list (n_T N)) rw m (ts ts1 ts2 : series N) r dm :
  rmed N alloc (se_data ts) (se_tsamp ts) rw m = Ok r -> length r = length (se_data ts) -> md_get "dm" (se_md ts) = Some dm ->
  se_deredden N alloc ts rw (PInt m) = Ok ts1 -> se_normalise N ts1 = Ok ts2 ->
  se_data ts2 = normalised N (minus N (se_data ts) r) /\ se_tsamp ts2 = se_tsamp ts /\
  md_tobs (se_md ts2) = Ok (se_length ts) /\ md_get "dm" (se_md ts2) = Some dm.
Proof.
  intros ER L HD E1 E2. unfold se_deredden, fast_running_median_py in E1. unfold rmed in ER. rewrite ER in E1. cbn [bind] in E1.
  rewrite L, Nat.eqb_refl in E1. cbn [guard bind] in E1.
  apply new_series_gen in E1 as (A1 & A2 & _ & A4). apply new_series_gen in E2 as (B1 & B2 & B3 & B4).
  rewrite A1 in B1. split; [exact B1|]. split; [congruence|]. split; [|now apply B4, A4].
  rewrite B3. unfold se_length. rewrite B1, B2, A2, normalised_length. unfold minus.
  rewrite map_length, combine_length, L, Nat.min_id. reflexivity.
Qed.

(** ** one search range *)
Lemma range_detects_float (bld : build) (flog : R -> R) (fpow : R -> nat -> R) (alloc : nat -> list R) (allocz : nat -> list Z)
    fit argsort (data : list R) (tsamp : R) (k : search_kw (numF bld)) (q : peaks_kw (numF bld)) (rw : R) (minpts : Z)
    (X M period phi w base : R) (on : nat -> bool) :
  let size := length data in let s := sqrt (rvar data) in
  let wd := ZnearestE (rnd64 (rw / tsamp)) in
  let e := deredden_accuracy (samples_per_mean wd minpts) X M in
  let T := rnd64 (INR size * tsamp) in
  allocates alloc -> allocates allocz -> sorts argsort ->
  float_search flog fpow size [1%nat] tsamp (sk_pmin k) (sk_pmax k) (sk_bmin k) (sk_bmax k) -> double (sk_ducy k) -> sk_ducy k < 1 ->
  Forall single data -> (forall i, (i < size)%nat -> Rabs (nth i data 0) <= X) ->
  (forall i, (i < size)%nat -> Rabs (nth i data 0 - base) <= M) -> M + e <= 2 ^ 20 * (s - e) ->
  0 <= rw -> rw / tsamp <= 2 ^ 51 -> (0 < minpts <= 2 ^ 52)%Z -> Z.odd minpts = true -> window_fits wd minpts (Z.of_nat size) ->
  mostly_quiet data base (fst (groups_of wd (PInt minpts))) (snd (groups_of wd (PInt minpts))) ->
  sk_pmin k <= period <= sk_pmax k * (1 - / 2 ^ 40) -> pulsed tsamp period phi w base on data ->
  exists (r : list R) (widths : list Z) (periods : list R) (bins : list Z) (snrs : arr2 R) (t b rows n : nat) (f V sd : R),
    rmed (numF bld) alloc data tsamp rw minpts = Ok r /\ length r = size /\
    generate_width_trials (numF bld) (Z.of_nat (sk_bmin k)) (sk_ducy k) (sk_wtsp k) = Ok widths /\
    py_periodogram (numF bld) flog fpow alloc allocz (normalised (numF bld) (minus (numF bld) data r)) tsamp
      (map Z.to_nat widths) (sk_pmin k) (sk_pmax k) (sk_bmin k) (sk_bmax k) = Ok (periods, bins, snrs) /\
    (t < length periods)%nat /\ nth t bins 0%Z = Z.of_nat b /\ (sk_bmin k <= b <= sk_bmax k)%nat /\ (2 <= rows)%nat /\
    next_trial tsamp period (nth t periods 0) b rows f /\ noise_variance n f V /\ 0 < sd /\ Rabs (sd - s) <= e /\
    1 <= f /\ INR n * f <= INR size * (1 + / 2 ^ 53) /\ INR size * (1 - / 2 ^ 53) < (INR n + 1) * f /\
    (rows * b <= n < (rows + 1) * b)%nat /\
    forall (clrad : R) (md : metadata (numF bld)) (dm : option R) l,
    pk_clrad q = Some clrad -> 0 <= clrad -> md_tobs md = Ok T -> md_dm md = Ok dm ->
    find_peaks_pg (numF bld) fit argsort (Pgram (N := numF bld) widths periods bins snrs md) q = Ok l ->
    (forall p, In p l -> significant_rounded periods snrs (length widths) (pk_smin q) (p_freq p)) /\
    exists thr : nat -> R -> R,
    (forall iw, (iw < length widths)%nat ->
       is_threshold_rounded bld fit (map (fun P => rnd64 (1 / P)) periods) (trials snrs iw) T
         (pk_smin q) (pk_segwidth q) (pk_nstd q) (pk_minseg q) (pk_polydeg q) (thr iw)) /\
    forall iw, (iw < length widths)%nat ->
      let W := Z.to_nat (nth iw widths 0%Z) in
      w * INR b + 2 * INR (Nat.log2_up rows) + 3 <= INR W ->
      let sure := sure_snr_rounded data base on M e b W rows n f V sd in
      pk_smin q < sure -> thr iw (rnd64 (1 / nth t periods 0)) < sure ->
      exists p : peak (numF bld), In p l /\ p_width p = nth iw widths 0%Z /\ p_dm p = dm /\ sure <= p_snr p /\
        chain_rounded periods snrs (length widths) (pk_smin q) (rnd64 (clrad / T)) (rnd64 (1 / nth t periods 0)) (p_freq p).
Proof.
  intros size s wd e T Ha Hz HS HA Fd Hd HF HX HM HK R0 R1 M0 MO Fit MQ HP PU.
  destruct (ffa_search_deredden_float_detects bld flog fpow alloc allocz data tsamp (sk_pmin k) (sk_pmax k) 1 (sk_bmin k) (sk_bmax k)
    (sk_ducy k) (sk_wtsp k) rw minpts X M period phi w base on)
    as (x & ws & P & B & S & t & b & rows & n & f & V & sd & E & EW & Ht & Hb & Hbb & F1 & F2 & F3 & Hn & Hr & NT & NV & SD0 & SD1 & G); auto.
  apply ffa_search_inv in E as (r & ER & LR & -> & _ & EP).
  exists r, ws, P, B, S, t, b, rows, n, f, V, sd. repeat (split; [assumption|]).
  intros clrad md dm l EC C0 HT HD H3.
  pose proof (py_periodogram_rows (numF bld) _ _ _ _ _ _ _ _ _ _ _ _ _ _ Ha EP) as RS.
  unfold find_peaks_pg in H3. cbn [pg_periods pg_md pg_foldbins pg_widths pg_snrs] in H3.
  rewrite HT, HD, EC in H3. cbn [bind] in H3.
  cbn [numF opsF n_dbl o_ofZ o_div] in H3. rewrite (rnd64_id 1) in H3 by now apply F64_int.
  change (n_T (numF bld)) with R in *.
  set (freqs := map (fun P => rnd64 (1 / P)) P) in *.
  assert (LF : length freqs = length P) by apply map_length.
  assert (FN : forall i, (i < length P)%nat -> nth i freqs 0 = rnd64 (1 / nth i P 0)).
  { intros i Hi. unfold freqs. rewrite (nth_indep _ 0 (rnd64 (1 / 0))) by (now rewrite map_length).
    now rewrite (map_nth (fun P => rnd64 (1 / P))). }
  assert (RS' : a_rows S = length freqs) by congruence.
  assert (T0 : 0 <= T).
  { unfold T. rewrite <- (rnd64_id 0) by (apply (F64_int 0); lia). apply rnd64_le. apply Rmult_le_pos; [apply pos_INR|].
    destruct HA as (_ & _ & _ & _ & _ & Ht' & _). eapply Rle_trans; [|exact Ht']. left. apply Rinv_0_lt_compat, pow_lt. lra. }
  assert (CT : 0 <= rnd64 (clrad / T)).
  { rewrite <- (rnd64_id 0) by (apply (F64_int 0); lia). apply rnd64_le.
    destruct (Req_dec T 0) as [->|NT0]; [unfold Rdiv; rewrite Rinv_0; lra|].
    apply Rmult_le_pos; [exact C0|]. left. apply Rinv_0_lt_compat. lra. }
  assert (FF : Forall F64 freqs).
  { apply Forall_forall. intros v Hv. apply in_map_iff in Hv as (? & <- & _). apply rnd64_F. }
  destruct (find_peaks_float bld fit argsort freqs B ws S T dm _ _ _ _ _ clrad l HS FF CT RS' H3)
    as (_ & _ & thr & radius & RD & TH & C1 & C2 & _).
  split.
  { intros p Hp. destruct (C1 p Hp) as (Q1 & (Q2 & _ & Q2') & Q3 & Q4 & _).
    exists (p_ip p), (p_iw p). rewrite LF in Q2. split; [exact Q2|]. split; [exact Q1|].
    rewrite <- FN by exact Q2. split; [exact Q4|]. rewrite trials_nth in Q2' by lia. exact Q2'. }
  exists thr. split; [exact TH|].
  intros iw Hiw W Hwide sure HS1 HS2.
  assert (BND : sure <= at2 0 S t iw) by exact (G iw Hiw Hwide).
  assert (TN : nth t (trials S iw) 0 = at2 0 S t iw) by (apply trials_nth; lia).
  destruct (C2 iw t Hiw) as (p & Hp & I & F).
  { split; [lia|]. rewrite FN by exact Ht. rewrite TN. lra. }
  exists p. split; [exact Hp|]. destruct (C1 p Hp) as (_ & _ & Q3 & Q4 & _ & Q6 & _ & Q8 & Q9).
  rewrite I in *. split; [exact Q6|]. split; [exact Q8|]. split; [eapply Rle_trans; [exact BND|]; apply Q9; now apply friends_sym|].
  change (n_T (numF bld)) with R in *. rewrite Q4, <- FN by exact Ht. unfold chain_rounded.
  apply (friends_radius _ _ _ _ _ _ (proj2 (RD iw Hiw))).
  revert F. apply (friends_map (fun i => nth i freqs 0)); [|reflexivity].
  intros i (V1 & _ & V3). rewrite LF in V1. exists i, iw. split; [exact V1|]. split; [exact Hiw|].
  split; [now apply FN|]. rewrite trials_nth in V3 by lia. exact V3.
Qed.

(** [T] is the length of the data *)
Lemma se_length_float bld (ts : series (numF bld)) : (Z.of_nat (length (se_data ts)) <= 33554432)%Z ->
  se_length ts = rnd64 (INR (length (se_data ts)) * se_tsamp ts).
Proof.
  intros H. unfold se_length. cbn [numF opsF n_dbl o_mul o_ofZ]. change (n_T (numF bld)) with R in *.
  now rewrite (rnd64_id (IZR _)), <- INR_IZR_INZ by (apply F64_int; lia).
Qed.

(** C129.  A worker of the pipeline, in floating point, on pulses above a constant level that the running
    medians do not see: for every range of periods which contains that of the pulses, if the bound of
    C127 exceeds the threshold, the peaks returned have one at least that bright, linked to the trial next to the
    period of the pulses by frequencies whose S/N exceeds the minimum.  (The worker may also raise an exception: in
    numpy.polyfit(), or because a range has too few trials for its segments.) *)
Theorem worker_float_finds_pulses :
  forall (bld : build) (flog : R -> R) (fpow : R -> nat -> R) (alloc : nat -> list R) (allocz : nat -> list Z) fit argsort
    (load : string -> res (series (numF bld))) (rw : R) (minpts : Z) confs fname (ts : series (numF bld)) (dm : R) peaks
    (X M period phi w base : R) (on : nat -> bool),
  allocates alloc -> allocates allocz -> sorts argsort ->
  load fname = Ok ts -> md_get "dm" (se_md ts) = Some (MFloat (N := numF bld) dm) ->
  let data : list R := se_data ts in let tsamp : R := se_tsamp ts in
  let size := length data in let s := sqrt (rvar data) in
  let wd := ZnearestE (rnd64 (rw / tsamp)) in
  let e := deredden_accuracy (samples_per_mean wd minpts) X M in
  let T := rnd64 (INR size * tsamp) in
  (* the data *)
  Forall single data -> (forall i, (i < size)%nat -> Rabs (nth i data 0) <= X) ->
  (forall i, (i < size)%nat -> Rabs (nth i data 0 - base) <= M) -> M + e <= 2 ^ 20 * (s - e) ->
  0 <= rw -> rw / tsamp <= 2 ^ 51 -> (0 < minpts <= 2 ^ 52)%Z -> Z.odd minpts = true -> window_fits wd minpts (Z.of_nat size) ->
  mostly_quiet data base (fst (groups_of wd (PInt minpts))) (snd (groups_of wd (PInt minpts))) ->
  pulsed tsamp period phi w base on data ->
  process_fname (numF bld) flog fpow alloc allocz fit argsort load rw (PInt minpts) confs fname = Ok peaks ->
  forall k q clrad, In (k, q) confs ->
  float_search flog fpow size [1%nat] tsamp (sk_pmin k) (sk_pmax k) (sk_bmin k) (sk_bmax k) -> double (sk_ducy k) -> sk_ducy k < 1 ->
  pk_clrad q = Some clrad -> 0 <= clrad -> sk_pmin k <= period <= sk_pmax k * (1 - / 2 ^ 40) ->
  exists (widths : list Z) (periods : list R) (bins : list Z) (snrs : arr2 R) (thr : nat -> R -> R) (t b rows n : nat) (f V sd : R),
    (* of the periodogram of the data *)
    (exists ts', ffa_search_ts (numF bld) flog fpow alloc allocz ts k true rw (PInt minpts) false
       = Ok (ts', Pgram (N := numF bld) widths periods bins snrs (se_md ts'))) /\
    generate_width_trials (numF bld) (Z.of_nat (sk_bmin k)) (sk_ducy k) (sk_wtsp k) = Ok widths /\
    (t < length periods)%nat /\ nth t bins 0%Z = Z.of_nat b /\ (sk_bmin k <= b <= sk_bmax k)%nat /\ (2 <= rows)%nat /\
    next_trial tsamp period (nth t periods 0) b rows f /\ noise_variance n f V /\ 0 < sd /\ Rabs (sd - s) <= e /\
    1 <= f /\ INR n * f <= INR size * (1 + / 2 ^ 53) /\ INR size * (1 - / 2 ^ 53) < (INR n + 1) * f /\
    (rows * b <= n < (rows + 1) * b)%nat /\
    (forall iw, (iw < length widths)%nat ->
       is_threshold_rounded bld fit (map (fun P => rnd64 (1 / P)) periods) (trials snrs iw) T
         (pk_smin q) (pk_segwidth q) (pk_nstd q) (pk_minseg q) (pk_polydeg q) (thr iw)) /\
    forall iw, (iw < length widths)%nat ->
      let W := Z.to_nat (nth iw widths 0%Z) in
      w * INR b + 2 * INR (Nat.log2_up rows) + 3 <= INR W ->
      let sure := sure_snr_rounded data base on M e b W rows n f V sd in
      pk_smin q < sure -> thr iw (rnd64 (1 / nth t periods 0)) < sure ->
      exists p : peak (numF bld), In p peaks /\ p_width p = nth iw widths 0%Z /\ p_dm p = Some dm /\ sure <= p_snr p /\
        chain_rounded periods snrs (length widths) (pk_smin q) (rnd64 (clrad / T)) (rnd64 (1 / nth t periods 0)) (p_freq p).
Proof.
  intros bld flog fpow alloc allocz fit argsort load rw minpts confs fname ts dm peaks X M period phi w base on Ha Hz HS EL ED
    data tsamp size s wd e T HF HX HM HK R0 R1 M0 MO Fit MQ PU EP k q clrad I HA Fd Hd EC C0 HP.
  unfold process_fname in EP. rewrite EL in EP. cbn [bind] in EP. unfold md_dm at 1 in EP. rewrite ED in EP. cbn [bind guard] in EP.
  apply bind_ok in EP as (ts2 & E3 & H). unfold prepare_ts in E3. apply bind_ok in E3 as (ts1 & E3 & E4).
  destruct (range_detects_float bld flog fpow alloc allocz fit argsort data tsamp k q rw minpts X M period phi w base on)
    as (r & ws & P & B & S & t & b & rows & n & f & V & sd & ER & LR & EW & EP & Ht & Hb & Hbb & Hr & NT & NV & SD0 & SD1 & F1 & F2 & F3 & Hn & G); auto.
  destruct (prepare_gen (numF bld) alloc rw minpts ts ts1 ts2 r _ ER LR ED E3 E4) as (D1 & D2 & D3 & D4).
  rewrite (foreach_ext _ _ (fun conf acc =>
      x <- ('(_, pg) <- ffa_search_ts (numF bld) flog fpow alloc allocz ts2 (fst conf) false rw (PInt minpts) true ;;
            find_peaks_pg (numF bld) fit argsort pg (snd conf)) ;; Ok (acc ++ x)%list)) in H.
  2:{ intros c acc. destruct (ffa_search_ts _ _ _ _ _ _ _ _ _ _ _) as [[? ?]| | |]; reflexivity. }
  apply Worker.foreach_inv in H as (ls & EQ & F). subst peaks.
  assert (L : exists l, In l ls /\ find_peaks_pg (numF bld) fit argsort (Pgram (N := numF bld) ws P B S (se_md ts2)) q = Ok l).
  { clear - F I EW EP D1 D2. induction F as [|[k' q'] l confs ls E F IH]; [destruct I|]. destruct I as [Q|I].
    - injection Q as -> ->. exists l. split; [now left|]. cbn [fst snd] in E. apply bind_ok in E as ([ts' pg] & G1 & G2).
      unfold ffa_search_ts in G1. cbn [bind] in G1. rewrite EW in G1. cbn [bind] in G1.
      rewrite D1, D2 in G1.
      match type of G1 with bind ?x _ = _ => replace x with (Ok (P, B, S)) in G1 by (symmetry; exact EP) end.
      cbn [bind] in G1. injection G1 as <- <-. exact G2.
    - destruct (IH I) as (l' & Il & Q). exists l'. split; [now right|exact Q]. }
  destruct L as (l & Il & EF).
  assert (HT : md_tobs (se_md ts2) = Ok T).
  { rewrite D3. f_equal. apply se_length_float. destruct HA as (_ & _ & _ & _ & _ & _ & _ & _ & _ & _ & _ & Hsz & _). exact Hsz. }
  assert (HD : md_dm (se_md ts2) = Ok (Some dm)) by (unfold md_dm; now rewrite D4).
  destruct (G clrad (se_md ts2) (Some dm) l EC C0 HT HD EF) as (_ & thr & TH & K).
  exists ws, P, B, S, thr, t, b, rows, n, f, V, sd.
  split.
  { exists ts2. unfold ffa_search_ts. rewrite E3. cbn [bind]. rewrite E4. cbn [bind]. rewrite EW. cbn [bind]. rewrite D1, D2.
    match goal with |- bind ?x _ = _ => replace x with (Ok (P, B, S)) by (symmetry; exact EP) end. reflexivity. }
  repeat (split; [assumption|]).
  intros iw Hiw W Hwide sure HS1 HS2. destruct (K iw Hiw Hwide HS1 HS2) as (p & Ip & Wp & Dp & Sp & Cp).
  exists p. split; [apply in_concat; eauto|]. repeat (split; [assumption|]). exact Cp.
Qed.
Print Assumptions worker_float_finds_pulses.

(** the arguments of rseek, as those of a search range *)
Definition rseek_kw_float bld (a : args (numF bld)) : search_kw (numF bld) :=
  Search_kw (N := numF bld) (ra_pmin a) (ra_pmax a) 1 (Z.to_nat (ra_bmin a)) (Z.to_nat (ra_bmax a)) (rnd64 (3 / 10)) (ra_wtsp a).
Definition rseek_pk_float bld (a : args (numF bld)) : peaks_kw (numF bld) :=
  Peaks_kw (N := numF bld) (ra_smin a) 5 6 10 2 (Some (ra_clrad a)).

(** C129.  So does rseek (called without --rmed_minpts); the row of its report which shows the pulses is the brightest
    of the peaks of a group, of any width. *)
Theorem rseek_float_finds_pulses :
  forall (bld : build) (flog : R -> R) (fpow : R -> nat -> R) (alloc : nat -> list R) (allocz : nat -> list Z) fit argsort
    load (a : args (numF bld)) (minpts : Z) (ts : series (numF bld)) out
    (X M period phi w base : R) (on : nat -> bool),
  allocates alloc -> allocates allocz -> sorts argsort ->
  load (ra_format a) (ra_fname a) = Ok ts -> md_get "dm" (se_md ts) <> None ->
  let data : list R := se_data ts in let tsamp : R := se_tsamp ts in
  let size := length data in let s := sqrt (rvar data) in
  let wd := ZnearestE (rnd64 (ra_rmed_width a / tsamp)) in
  let e := deredden_accuracy (samples_per_mean wd minpts) X M in
  let T := rnd64 (INR size * tsamp) in
  (* the arguments *)
  ra_rmed_minpts a = PInt minpts -> (0 <= ra_bmin a)%Z -> (0 <= ra_bmax a)%Z -> 0 <= ra_clrad a ->
  float_search flog fpow size [1%nat] tsamp (ra_pmin a) (ra_pmax a) (Z.to_nat (ra_bmin a)) (Z.to_nat (ra_bmax a)) ->
  (* the data *)
  Forall single data -> (forall i, (i < size)%nat -> Rabs (nth i data 0) <= X) ->
  (forall i, (i < size)%nat -> Rabs (nth i data 0 - base) <= M) -> M + e <= 2 ^ 20 * (s - e) ->
  0 <= ra_rmed_width a -> ra_rmed_width a / tsamp <= 2 ^ 51 -> (0 < minpts <= 2 ^ 52)%Z -> Z.odd minpts = true ->
  window_fits wd minpts (Z.of_nat size) ->
  mostly_quiet data base (fst (groups_of wd (PInt minpts))) (snd (groups_of wd (PInt minpts))) ->
  pulsed tsamp period phi w base on data ->
  ra_pmin a <= period <= ra_pmax a * (1 - / 2 ^ 40) ->
  run_program (numF bld) flog fpow alloc allocz fit argsort load a = Ok out ->
  exists (widths : list Z) (periods : list R) (bins : list Z) (snrs : arr2 R) (thr : nat -> R -> R) (t b rows n : nat) (f V sd : R),
    (* of the periodogram of the data *)
    (exists ts', ffa_search_ts (numF bld) flog fpow alloc allocz ts (rseek_kw_float bld a) true (ra_rmed_width a) (PInt minpts) false
       = Ok (ts', Pgram (N := numF bld) widths periods bins snrs (se_md ts'))) /\
    generate_width_trials (numF bld) (ra_bmin a) (rnd64 (3 / 10)) (ra_wtsp a) = Ok widths /\
    (t < length periods)%nat /\ nth t bins 0%Z = Z.of_nat b /\ (ra_bmin a <= Z.of_nat b <= ra_bmax a)%Z /\ (2 <= rows)%nat /\
    next_trial tsamp period (nth t periods 0) b rows f /\ noise_variance n f V /\ 0 < sd /\ Rabs (sd - s) <= e /\
    1 <= f /\ INR n * f <= INR size * (1 + / 2 ^ 53) /\ INR size * (1 - / 2 ^ 53) < (INR n + 1) * f /\
    (rows * b <= n < (rows + 1) * b)%nat /\
    (forall iw, (iw < length widths)%nat ->
       is_threshold_rounded bld fit (map (fun P => rnd64 (1 / P)) periods) (trials snrs iw) T (ra_smin a) 5 6 10 2 (thr iw)) /\
    forall iw, (iw < length widths)%nat ->
      let W := Z.to_nat (nth iw widths 0%Z) in
      w * INR b + 2 * INR (Nat.log2_up rows) + 3 <= INR W ->
      let sure := sure_snr_rounded data base on M e b W rows n f V sd in
      ra_smin a < sure -> thr iw (rnd64 (1 / nth t periods 0)) < sure ->
      exists peaks (p : peak (numF bld)), out = Some peaks /\ In p peaks /\ sure <= p_snr p /\
        chain_rounded periods snrs (length widths) (ra_smin a) (rnd64 (ra_clrad a / T)) (rnd64 (1 / nth t periods 0)) (p_freq p).
Proof.
  intros bld flog fpow alloc allocz fit argsort load a minpts ts out X M period phi w base on Ha Hz HS EL ED
    data tsamp size s wd e T EM B1 B2 C0 HA HF HX HM HK R0 R1 M0 MO Fit MQ PU HP ER.
  destruct (md_get "dm" (se_md ts)) as [dmv|] eqn:EDM; [clear ED|easy].
  unfold run_program in ER. rewrite EL in ER. cbn [bind] in ER. apply bind_ok in ER as (peaks & ES & H).
  unfold rseek_search in ES. apply bind_ok in ES as ([ts2 pg] & ES & EF). unfold ffa_search_py in ES.
  apply bind_ok in ES as (ts1 & E3 & ES). apply bind_ok in ES as (ts2' & E4 & ES). rewrite EM in E3.
  assert (L310 : @o_div (numF bld) n_dbl (@o_ofZ (numF bld) n_dbl 3) (@o_ofZ (numF bld) n_dbl 10) = rnd64 (3 / 10)).
  { cbn [numF opsF n_dbl o_div o_ofZ]. now rewrite (rnd64_id 3), (rnd64_id 10) by (apply F64_int; lia). }
  change (n_T (numF bld)) with R in *. rewrite L310 in ES.
  assert (L5 : forall z, (Z.abs z < 2 ^ 53)%Z -> @o_ofZ (numF bld) n_dbl z = IZR z).
  { intros z Hz'. cbn [numF opsF n_dbl o_ofZ]. apply rnd64_id, F64_int. exact Hz'. }
  change (n_T (numF bld)) with R in *. rewrite (L5 5%Z), (L5 6%Z) in EF by lia.
  destruct (range_detects_float bld flog fpow alloc allocz fit argsort data tsamp (rseek_kw_float bld a) (rseek_pk_float bld a)
      (ra_rmed_width a) minpts X M period phi w base on)
    as (r & ws & P & B & S & t & b & rows & n & f & V & sd & ER & LR & EW & EP & Ht & Hb & Hbb & Hr & NT & NV & SD0 & SD1 & F1 & F2 & F3 & Hn & G); auto.
  { cbn [rseek_kw_float sk_ducy]. apply rnd64_F. }
  { cbn [rseek_kw_float sk_ducy]. apply Rle_lt_trans with (rnd64 (/ 2)).
    - apply rnd64_le. lra.
    - rewrite rnd64_id; [lra|]. replace (/ 2) with (1 * / 2) by lra. apply (F64_half 1). lia. }
  destruct (prepare_gen (numF bld) alloc _ minpts ts ts1 ts2' r _ ER LR EDM E3 E4) as (D1 & D2 & D3 & D4).
  cbn [rseek_kw_float sk_pmin sk_pmax sk_bmin sk_bmax sk_ducy sk_wtsp] in EW, EP, Hbb. rewrite Z2Nat.id in EW by auto.
  match type of ES with bind ?x _ = _ => replace x with (Ok ws) in ES by (symmetry; exact EW) end. cbn [bind] in ES.
  apply bind_ok in ES as (u & _ & ES). rewrite D1, D2 in ES.
  match type of ES with bind ?x _ = _ => replace x with (Ok (P, B, S)) in ES by (symmetry; exact EP) end.
  cbn [bind] in ES. injection ES as <- <-.
  assert (SZ : (Z.of_nat size <= 33554432)%Z) by (destruct HA as (_ & _ & _ & _ & _ & _ & _ & _ & _ & _ & _ & Hsz & _); exact Hsz).
  assert (LT : se_length ts = T) by (apply se_length_float; exact SZ).
  assert (HT : md_tobs (se_md ts2') = Ok T) by (rewrite D3; now rewrite LT).
  assert (HD : exists dm, md_dm (se_md ts2') = Ok dm).
  { unfold find_peaks_pg in EF. apply bind_ok in EF as (T' & _ & EF). apply bind_ok in EF as (dm & Q & _). exists dm. exact Q. }
  destruct HD as (dm & HD).
  destruct (G (ra_clrad a) (se_md ts2') dm peaks eq_refl C0 HT HD EF) as (SG & thr & TH & K).
  exists ws, P, B, S, thr, t, b, rows, n, f, V, sd.
  split.
  { exists ts2'. unfold ffa_search_ts. rewrite E3. cbn [bind]. rewrite E4. cbn [bind rseek_kw_float sk_pmin sk_pmax sk_bmin sk_bmax sk_ducy sk_wtsp].
    rewrite Z2Nat.id by assumption.
    match goal with |- bind ?x _ = _ => replace x with (Ok ws) by (symmetry; exact EW) end. cbn [bind]. rewrite D1, D2.
    match goal with |- bind ?x _ = _ => replace x with (Ok (P, B, S)) by (symmetry; exact EP) end. reflexivity. }
  split; [exact EW|]. split; [exact Ht|]. split; [exact Hb|]. split; [lia|].
  repeat (split; [assumption|]).
  intros iw Hiw W Hwide sure HS1 HS2. destruct (K iw Hiw Hwide HS1 HS2) as (p & Ip & _ & _ & Sp & Cp).
  destruct peaks as [|p0 ps]; [destruct Ip|].
  assert (T0 : 0 <= T).
  { unfold T. rewrite <- (rnd64_id 0) by (apply (F64_int 0); lia). apply rnd64_le. apply Rmult_le_pos; [apply pos_INR|].
    destruct HA as (_ & _ & _ & _ & _ & Ht' & _). eapply Rle_trans; [|exact Ht']. left. apply Rinv_0_lt_compat, pow_lt. lra. }
  assert (CT : 0 <= rnd64 (ra_clrad a / T)).
  { rewrite <- (rnd64_id 0) by (apply (F64_int 0); lia). apply rnd64_le.
    destruct (Req_dec T 0) as [->|NT0]; [unfold Rdiv; rewrite Rinv_0; lra|].
    apply Rmult_le_pos; [exact C0|]. left. apply Rinv_0_lt_compat. lra. }
  destruct (rseek_report_float bld argsort (ra_clrad a) T (p0 :: ps) HS)
    as (rr & groups & best & out' & E & (_ & RR) & K1 & K2 & K3 & K4 & _); [|exact CT|discriminate|].
  { apply Forall_forall. intros v Hv. apply in_map_iff in Hv as (p1 & <- & Hp1).
    destruct (SG p1 Hp1) as (? & ? & _ & _ & -> & _). apply rnd64_F. }
  rewrite LT in H. change (n_T (numF bld)) with R in *. rewrite E in H. injection H as <-. exists out'.
  destruct (In_nth_error _ _ Ip) as (j & Ej).
  assert (IJ : In j (concat groups)).
  { apply (Permutation_in _ (Permutation_sym K1)), in_seq. split; [lia|]. apply nth_error_Some. congruence. }
  apply in_concat in IJ as (g & Ig & Jg).
  assert (F : exists p' i', In p' best /\ In i' g /\ nth_error (p0 :: ps) i' = Some p' /\
    forall j q, In j g -> nth_error (p0 :: ps) j = Some q -> p_snr q <= p_snr p').
  { clear - K3 Ig. induction K3 as [|g' p' gs bs [(i' & I1 & I2) Hg] _ IH]; [destruct Ig|].
    destruct Ig as [->|Ig]; [exists p', i'; split; [now left|split; [exact I1|split; [exact I2|exact Hg]]]|].
    destruct (IH Ig) as (p'' & i'' & I & Q). exists p'', i''. split; [now right|exact Q]. }
  destruct F as (p' & i' & Ip' & Ii' & Ei' & Q). exists p'. split; [reflexivity|].
  split; [now apply (Permutation_in _ (Permutation_sym K4))|].
  split; [eapply Rle_trans; [exact Sp|]; exact (Q j p Jg Ej)|].
  unfold chain_rounded in *. eapply rt_trans; [exact Cp|].
  assert (J1 : (j < length (p0 :: ps))%nat) by (apply nth_error_Some; congruence).
  assert (J2 : (i' < length (p0 :: ps))%nat) by (apply nth_error_Some; congruence).
  pose proof (proj1 (K2 j i' J1 J2)) as FR. specialize (FR ltac:(exists g; auto)).
  assert (N : forall i q, nth_error (p0 :: ps) i = Some q -> nth i (map p_freq (p0 :: ps)) 0 = p_freq q).
  { intros i0 q Eq. apply nth_error_nth. rewrite nth_error_map, Eq. reflexivity. }
  rewrite <- (N j p Ej), <- (N i' p' Ei'). apply (friends_radius _ _ _ _ _ _ RR). revert FR.
  apply (friends_map (fun k => nth k (map p_freq (p0 :: ps)) 0)); [|reflexivity].
  intros k Hk. destruct (nth_error (p0 :: ps) k) as [qk|] eqn:Ek; [|apply nth_error_None in Ek; lia].
  rewrite (N k qk Ek). apply SG. now apply nth_error_In in Ek.
Qed.
Print Assumptions rseek_float_finds_pulses.

(** a file with one sample of 3 in 96, the others 1, and a range of periods from 1/16 s to 1 s *)
Definition blips : list R := map (fun i => if (i mod 96 =? 48)%nat then 3 else 1) (seq 0 (100 * 100)).
Definition blips_file bld : series (numF bld) := Series (N := numF bld) blips (/ 1024) [("dm"%string, MFloat (N := numF bld) 10)].
Definition blips_kw bld : search_kw (numF bld) := Search_kw (N := numF bld) (/ 16) 1 1 40 44 (/ 2) (3 / 2).
Definition blips_pk bld : peaks_kw (numF bld) := Peaks_kw (N := numF bld) 7 5 6 10 2 (Some (/ 5)).

Example worker_float_finds_pulses_ex :
  forall bld, let ts := blips_file bld in let k := blips_kw bld in
  let data : list R := se_data ts in let tsamp : R := se_tsamp ts in let rw := 31 / 1024 in
  let size := length data in let s := sqrt (rvar data) in let wd := ZnearestE (rnd64 (rw / tsamp)) in
  let e := deredden_accuracy (samples_per_mean wd 31) 3 2 in
  let on i := (i mod 96 =? 48)%nat in
  md_get "dm" (se_md ts) = Some (MFloat (N := numF bld) 10) /\
  Forall single data /\ (forall i, (i < size)%nat -> Rabs (nth i data 0) <= 3) /\
  (forall i, (i < size)%nat -> Rabs (nth i data 0 - 1) <= 2) /\ 2 + e <= 2 ^ 20 * (s - e) /\
  0 <= rw /\ rw / tsamp <= 2 ^ 51 /\ (0 < 31 <= 2 ^ 52)%Z /\ Z.odd 31 = true /\ window_fits wd 31 (Z.of_nat size) /\
  mostly_quiet data 1 (fst (groups_of wd (PInt 31))) (snd (groups_of wd (PInt 31))) /\
  pulsed tsamp (3 / 32) (1 / 2) (/ 96) 1 on data /\
  float_search ln pow size [1%nat] tsamp (sk_pmin k) (sk_pmax k) (sk_bmin k) (sk_bmax k) /\ double (sk_ducy k) /\ sk_ducy k < 1 /\
  pk_clrad (blips_pk bld) = Some (/ 5) /\ 0 <= / 5 /\ sk_pmin k <= 3 / 32 <= sk_pmax k * (1 - / 2 ^ 40).
Proof.
  intros bld ts k data tsamp rw size s wd e on.
  destruct ffa_search_deredden_float_detects_ex as (H1 & H2 & H3 & H4 & H5 & H6 & H7 & H8 & H9 & H10 & H11 & H12 & H13 & H14 & H15).
  split; [reflexivity|]. split; [exact H4|]. split; [exact H5|]. split; [exact H6|]. split; [exact H7|]. split; [exact H8|].
  split; [exact H9|]. split; [exact H10|]. split; [exact H11|]. split; [exact H12|]. split; [exact H13|]. split; [exact H15|].
  split; [exact H1|]. split; [exact H2|]. split; [exact H3|]. split; [reflexivity|]. split; [lra|exact H14].
Qed.

Example rseek_report_float_ex : forall bld,
  let p := Peak (N := numF bld) (1 / 2) 2 4 (1 / 8) 1 7 9 None in
  Forall F64 (map p_freq [p; p]) /\ 0 <= rnd64 (1 / 4) /\ [p; p] <> [].
Proof.
  intros bld p. split; [|split; [|discriminate]].
  - repeat constructor; apply (F64_int 2); lia.
  - rewrite <- (rnd64_id 0) by (apply (F64_int 0); lia). apply rnd64_le. lra.
Qed.
