(** C122 - C123: a pulse train is found by the programs. *)
From Coq Require Import String List Arith ZArith Bool Lia Reals Lra Psatz Permutation Sorted Relations.
From Flocq Require Import Core.
From Verif Require Import Base.Result Base.Buf Base.Num Model.FastRmed Model.Transforms Model.Libffa Model.Periodogram
  Model.Metadata Model.TimeSeries Model.Cluster Model.Peaks Model.Pipeline Model.Ranges Model.Sigproc Model.Presto Model.Worker
  Model.Process Model.Rseek Spec.Friends Spec.Sums Spec.Overlap Spec.Noise Spec.Pulse Proof.Cluster Proof.TimeSeries Proof.Detect Props.Downsample Props.FastRmed
  Props.Cluster Props.Snr Props.TimeSeries
  Props.Periodogram Props.Search Props.Peaks Props.Sigproc Props.Presto Props.Worker Props.Process Props.Rseek Props.Loaders
  Props.RseekRun Props.Detect Props.Deredden.
Import ListNotations.
Local Open Scope R_scope.

(** A constant level [base] with pulses of any shape: the samples marked [on] lie within a fraction [w]
    of the turns of a rotation of the given period, all others are equal to [base], and at least one
    sample differs from it. *)
Definition pulse_train (tsamp period phi w base : R) (on : nat -> bool) (x : list R) : Prop :=
  (forall i, (i < length x)%nat -> on i = true -> on_pulse (/ period) phi w tsamp i) /\
  (forall i, (i < length x)%nat -> on i = false -> nth i x 0 = base) /\
  exists i, (i < length x)%nat /\ nth i x 0 <> base.

(** The pulses are short compared with the period and the running median, and there is none in the
    first and last [f] samples of the running median; [f] samples are [a] periods, and the running median is
    over [m] groups of [f] samples. *)
Definition median_blind (tsamp period w : R) (on : nat -> bool) (n f m : nat) : Prop :=
  let a := INR f * tsamp / period in
  (forall i, (i < f)%nat -> on i = false /\ on ((n / f - 1) * f + i)%nat = false) /\
  2 * ((INR m * a + w + 1) * (w / a + 2)) < INR m.

(** the S/N that a boxcar of [W] of [b] bins is sure to reach, for the flux of the pulses in units of the
    standard deviation of the data *)
Definition sure_snr (x : list R) (base : R) (on : nat -> bool) (b W rows : nat) (f : R) : R :=
  flux x base on (INR (rows * b) * f) true * sqrt (/ INR W - / INR b)
    / sqrt (rvar x) / sqrt (INR rows * assumed_variance (length x) f).

(** a frequency at which a trial of one of [nw] widths exceeds [smin] *)
Definition significant (periods : list R) (snrs : arr2 R) (nw : nat) (smin f : R) : Prop :=
  exists i iw, (i < length periods)%nat /\ (iw < nw)%nat /\ f = 1 / nth i periods 0 /\ smin < at2 0 snrs i iw.

(** a chain of such frequencies, none further than [r] from the next, goes from [f] to [g] *)
Definition chain (periods : list R) (snrs : arr2 R) (nw : nat) (smin r f g : R) : Prop :=
  friends (significant periods snrs nw smin) (fun f => f) r f g.

Lemma prepared_pulses rw minpts (ts ts' : series numR) (period phi w base : R) (on : nat -> bool) :
  let x := se_data ts in let tsamp := se_tsamp ts in
  let wd := ZnearestE (rw / tsamp) in
  0 < tsamp -> 0 < period -> 0 <= w ->
  prepared rw minpts ts ts' -> pulse_train tsamp period phi w base on x ->
  median_blind tsamp period w on (length x) (fst (groups_of wd minpts)) (snd (groups_of wd minpts)) ->
  exists a c, 0 < a /\ a * sqrt (rvar x) = 1 /\ se_data ts' = map (fun z => a * z + c) x.
Proof.
  intros x tsamp wd T0 P0 W0 (_ & _ & _ & _ & _ & r & MO & PR) (Hon & Hoff & i1 & Hi1 & Ni1) [Hends HC].
  fold x tsamp wd in MO, PR. numR_ty. assert (X0 : (1 <= length x)%nat) by lia.
  assert (WD0 : (0 < wd)%Z).
  { destruct MO as [_ MO]. destruct minpts as [z|y]; [destruct MO as (_ & [[_ D]|[C _]]); [apply D|lia]|].
    destruct MO as (_ & _ & D). apply D. }
  assert (G : (1 <= fst (groups_of wd minpts))%nat /\ (1 <= snd (groups_of wd minpts))%nat).
  { unfold groups_of. destruct minpts as [z|y]; cbn [fst snd]; [|lia].
    destruct (Z.leb_spec (2 * z) wd), (Z.ltb_spec 0 z); cbn [andb fst snd]; try lia. split; [|lia].
    assert (1 <= wd / z)%Z by (apply Z.div_le_lower_bound; lia). lia. }
  destruct G as [G1 G2].
  set (f := fst (groups_of wd minpts)) in *. set (m := snd (groups_of wd minpts)) in *.
  assert (NB : (1 <= length x / f)%nat).
  { destruct MO as [_ MO]. unfold f, groups_of. destruct minpts as [z|y]; cbn [fst]; [|rewrite Nat.div_1_r; exact X0].
    destruct MO as (_ & [[C D]|[C (M0 & _)]]).
    - destruct (Z.leb_spec (2 * z) wd), (Z.ltb_spec 0 z); cbn [andb fst]; try lia; rewrite Nat.div_1_r; exact X0.
    - destruct (Z.leb_spec (2 * z) wd), (Z.ltb_spec 0 z); cbn [andb fst]; try lia. }
  pose proof (pulse_train_is_mostly_quiet x tsamp period phi w base on f m T0 P0 W0 G1 G2 Hon Hoff Hends HC) as MQ.
  pose proof (running_median_of_quiet_data x wd minpts r base MO MQ) as RM.
  assert (FX : (f <= length x)%nat) by (pose proof (Nat.mul_div_le (length x) f ltac:(lia)); nia).
  assert (D : map (fun i => nth i x 0 - nth i r 0) (seq 0 (length x)) = map (fun z => z - base) x).
  { apply nth_ext with 0 0; [now rewrite !map_length, seq_length|]. intros k Hk. rewrite map_length, seq_length in Hk.
    rewrite (nth_indep _ 0 ((fun i => nth i x 0 - nth i r 0) 0%nat)) by now rewrite map_length, seq_length.
    rewrite (map_nth (fun i => nth i x 0 - nth i r 0)), seq_nth by auto. cbn [Nat.add].
    rewrite (nth_indep (map _ x) 0 ((fun z => z - base) 0)) by now rewrite map_length.
    rewrite (map_nth (fun z => z - base)). now rewrite RM. }
  rewrite D in PR. destruct PR as (M0 & V1 & a & b & A0 & EX).
  { exists (nth i1 x 0 - base), 0. split; [|split].
    - apply in_map_iff. exists (nth i1 x 0). split; auto. now apply nth_In.
    - apply in_map_iff. exists (nth 0 x 0). split; [|apply nth_In; lia].
      rewrite Hoff; [ring|lia|]. apply Hends. lia.
    - intros E. apply Ni1. lra. }
  rewrite map_map in EX. exists a, (b - a * base). split; [exact A0|].
  assert (EX' : se_data ts' = map (fun z => a * z + (b - a * base)) x).
  { rewrite EX. apply map_ext. intros z. ring. }
  split; [|exact EX'].
  rewrite EX', rvar_affine in V1 by (intros E; rewrite E in Hi1; cbn in Hi1; lia).
  assert (RV : 0 < rvar x).
  { apply (rvar_pos x (nth i1 x 0) (nth 0 x 0)); try (apply nth_In; lia).
    rewrite (Hoff 0%nat); [exact Ni1|lia|apply Hends; lia]. }
  pose proof (sqrt_sqrt (rvar x) ltac:(lra)) as SS. set (q := sqrt (rvar x)) in *.
  assert (Q : (a * q) * (a * q) = 1) by (rewrite <- V1, <- SS; ring).
  assert (0 < a * q) by (apply Rmult_lt_0_compat; auto; apply sqrt_lt_R0; lra). nra.
Qed.

(** one search range of prepared data *)
Lemma range_detects alloc allocz fit argsort (x0 : list R) (ts ts' : series numR) k q dm pg l (a c : R)
    (period phi w base : R) (on : nat -> bool) :
  allocates alloc -> allocates allocz -> sorts argsort ->
  0 < a -> a * sqrt (rvar x0) = 1 -> se_data ts = map (fun z => a * z + c) x0 ->
  range_fits (length x0) (se_tsamp ts) k ->
  md_tobs (se_md ts) = Ok (INR (length x0) * se_tsamp ts) ->
  md_dm (se_md ts) = Ok dm ->
  ffa_search_ts numR ln pow alloc allocz ts k false 0 (PInt 0) true = Ok (ts', pg) ->
  find_peaks_pg numR fit argsort pg q = Ok l ->
  sk_pmin k <= period < sk_pmax k -> pulse_train (se_tsamp ts) period phi w base on x0 ->
  exists (widths : list Z) (periods : list R) (bins : list Z) (snrs : arr2 R) (thr : nat -> R -> R) (t b rows : nat) (f clrad : R),
    pg = Pgram (N := numR) widths periods bins snrs (se_md ts) /\
    generate_width_trials numR (Z.of_nat (sk_bmin k)) (sk_ducy k) (sk_wtsp k) = Ok widths /\
    nearest_trial (length x0) (se_tsamp ts) period periods bins t b rows f /\ (sk_bmin k <= b <= sk_bmax k)%nat /\
    Forall (fun P => sk_pmin k <= P < sk_pmax k) periods /\
    pk_clrad q = Some clrad /\
    (forall p, In p l -> significant periods snrs (length widths) (pk_smin q) (p_freq p)) /\
    (forall iw, (iw < length widths)%nat ->
       is_threshold fit (map (fun P => 1 / P) periods) (trials snrs iw) (INR (length x0) * se_tsamp ts)
         (pk_smin q) (pk_segwidth q) (pk_nstd q) (pk_minseg q) (pk_polydeg q) (thr iw)) /\
    forall iw, (iw < length widths)%nat ->
      let W := Z.to_nat (nth iw widths 0%Z) in
      w * INR b + INR (Nat.log2_up rows) + 3 <= INR W ->
      let sure := sure_snr x0 base on b W rows f in
      pk_smin q < sure -> thr iw (1 / nth t periods 0) < sure ->
      exists p : peak numR, In p l /\ p_width p = nth iw widths 0%Z /\ p_dm p = dm /\ sure <= p_snr p /\
        chain periods snrs (length widths) (pk_smin q) (clrad / (INR (length x0) * se_tsamp ts)) (1 / nth t periods 0) (p_freq p).
Proof.
  intros Ha Hz HS A0 AV EX (HA & H2 & HF & Hd) HT HD H1 H3 HP (Hon & Hoff & _).
  set (x := se_data ts) in *. set (tsamp := se_tsamp ts) in *. set (size := length x0) in *.
  assert (Lx : length x = size) by (rewrite EX; apply map_length).
  unfold ffa_search_ts in H1. cbn [bind] in H1.
  apply bind_ok in H1 as (ws & EW & H1). apply bind_ok in H1 as ([[P B] S] & EP & H1). injection H1 as <- <-.
  fold x tsamp in EP.
  destruct (widths_nat (sk_ducy k) (sk_wtsp k) (sk_bmin k)) as (ws' & EW' & Wn & W1 & WS & WB & Wn' & WG);
    [now destruct HA as (_ & _ & _ & ? & _)|auto|].
  numR_ty. rewrite EW in EW'. injection EW' as <-.
  assert (Nx : forall i, (i < size)%nat -> nth i x 0 = a * nth i x0 0 + c).
  { intros i Hi. rewrite EX. rewrite (nth_indep _ 0 (a * 0 + c)) by (rewrite map_length; exact Hi).
    apply (map_nth (fun z => a * z + c)). }
  pose proof (periodogram_detects alloc allocz x (map Z.to_nat ws) tsamp (sk_pmin k) (sk_pmax k) (sk_bmin k) (sk_bmax k)
    period phi w (a * base + c) on Ha Hz HA) as PD. cbv zeta in PD. rewrite Lx in PD.
  destruct PD as (P' & B' & S' & t & b & rows & f & E' & NT & G); auto.
  { split; rewrite Lx; intros i Hi Ei; [now apply Hon|]. rewrite Nx by auto. rewrite (Hoff i Hi Ei). lra. }
  numR_ty. rewrite EP in E'. injection E' as <- <- <-.
  pose proof NT as (NT1 & _).
  destruct (periodogram_trials alloc allocz x (map Z.to_nat ws) tsamp _ _ _ _ Ha Hz HA ltac:(rewrite Lx; exact HF) Wn' WG)
    as (len & P' & B' & S' & _ & EP' & LP & LB & WFS & RS & CS & Rng & Mono & Bn & First).
  { apply long_enough_simple. rewrite Lx. destruct HA as (? & ? & ? & B2 & _).
    assert (1 <= INR (sk_bmin k)) by (apply (le_INR 1); lia). assert (0 <= INR size) by apply pos_INR.
    assert (0 <= tsamp * INR size) by (apply Rmult_le_pos; lra).
    replace (tsamp * INR (sk_bmin k) * INR size) with (INR (sk_bmin k) * (tsamp * INR size)) by ring. nra. }
  numR_ty. rewrite EP in EP'. injection EP' as <- <- <-.
  unfold find_peaks_pg in H3. cbn [pg_periods pg_md pg_foldbins pg_widths pg_snrs] in H3.
  rewrite HT, HD in H3. cbn [bind] in H3. rsimp_all. change (IZR 1) with 1 in H3.
  set (freqs := map (fun P => 1 / P) P) in *.
  assert (LF : length freqs = length P) by apply map_length.
  assert (FN : forall i, (i < length P)%nat -> nth i freqs 0 = 1 / nth i P 0).
  { intros i Hi. unfold freqs. rewrite (nth_indep _ 0 (1 / 0)) by (now rewrite map_length).
    now rewrite (map_nth (fun P => 1 / P)). }
  assert (RS' : a_rows S = length freqs) by congruence.
  destruct (pk_clrad q) as [clrad|] eqn:EC.
  2:{ exfalso. destruct ws; [easy|]. apply bind_ok in H3 as (? & _ & H3). discriminate. }
  destruct (find_peaks_correct fit argsort freqs B ws S (INR size * tsamp) dm _ _ _ _ _ _ l HS RS' H3)
    as (SS & ND & thr & TH & C1 & C2 & C3).
  exists ws, P, B, S, thr, t, b, rows, f, clrad. split; [reflexivity|]. split; [exact EW|]. split; [exact NT|].
  split. { destruct NT as (_ & _ & _ & N4 & _). specialize (Bn t ltac:(lia)). lia. }
  split. { apply Forall_nth. intros i d Hi. rewrite (nth_indep P d 0) by exact Hi. apply Rng. lia. }
  split; [reflexivity|].
  split.
  { intros p Hp. destruct (C1 p Hp) as (Q1 & (Q2 & _ & Q2') & Q3 & Q4 & _).
    exists (p_ip p), (p_iw p). rewrite LF in Q2. split; [exact Q2|]. split; [exact Q1|].
    rewrite <- FN by exact Q2. split; [exact Q4|]. rewrite trials_nth in Q2' by lia. exact Q2'. }
  split; [exact TH|].
  intros iw Hiw. set (W := Z.to_nat (nth iw ws 0%Z)). intros Hwide. set (sure := sure_snr x0 base on b W rows f). intros HS1 HS2.
  assert (BND : sure <= at2 0 S t iw).
  { rewrite map_length in G. specialize (G iw Hiw).
    replace (nth iw (map Z.to_nat ws) 0%nat) with W in G by (unfold W; symmetry; apply (map_nth Z.to_nat ws 0%Z)).
    specialize (G Hwide). eapply Rle_trans; [|exact G]. apply Req_le.
    assert (F1 : flux x (a * base + c) on (INR (rows * b) * f) true = a * flux x0 base on (INR (rows * b) * f) true).
    { unfold flux. rewrite Lx. fold size. rewrite <- rsum_scal. apply rsum_ext. intros i Hi. rewrite Nx by auto.
      destruct (Bool.eqb (on i) true); ring. }
    assert (F2 : flux x (a * base + c) on (INR (rows * b) * f) false = 0).
    { unfold flux. rewrite Lx. apply rsum_zero. intros i Hi. rewrite Nx by auto.
      destruct (on i) eqn:O; cbn [Bool.eqb]; [reflexivity|]. rewrite (Hoff i Hi O). ring. }
    rewrite F1, F2. unfold sure, sure_snr, boxcar_response. fold size.
    assert (sqrt (rvar x0) <> 0) by (intros Q; rewrite Q in AV; lra).
    replace a with (/ sqrt (rvar x0)) by (apply Rmult_eq_reg_r with (sqrt (rvar x0)); auto; rewrite Rinv_l; auto).
    unfold Rdiv. ring. }
  assert (TN : nth t (trials S iw) 0 = at2 0 S t iw) by (apply trials_nth; lia).
  destruct (C2 iw t Hiw) as (p & Hp & I & F).
  { split; [lia|]. rewrite FN by exact NT1. rewrite TN. lra. }
  exists p. split; [exact Hp|]. destruct (C1 p Hp) as (_ & _ & Q3 & Q4 & _ & Q6 & _ & Q8 & Q9).
  rewrite I in *. split; [exact Q6|]. split; [exact Q8|]. split; [eapply Rle_trans; [exact BND|]; apply Q9; now apply friends_sym|].
  rewrite Q4, <- FN by exact NT1. unfold chain.
  revert F. apply (friends_map (fun i => nth i freqs 0)); [|reflexivity].
  intros i (V1 & _ & V3). rewrite LF in V1. exists i, iw. split; [exact V1|]. split; [exact Hiw|].
  split; [now apply FN|]. rewrite trials_nth in V3 by lia. exact V3.
Qed.

(** preparing a series and then searching it is searching it with dereddening and normalisation *)
Lemma search_prepared (N : num) flog fpow (alloc : nat -> list (n_T N)) allocz rw minpts (ts ts2 : series N) k r :
  prepare_ts N alloc rw minpts ts = Ok ts2 ->
  forall rw' m', ffa_search_ts N flog fpow alloc allocz ts2 k false rw' m' true = r ->
  ffa_search_ts N flog fpow alloc allocz ts k true rw minpts false = r.
Proof.
  intros E rw' m' H. unfold prepare_ts in E. apply bind_ok in E as (ts1 & E1 & E2).
  unfold ffa_search_ts in *. rewrite E1. cbn [bind] in *. rewrite E2. exact H.
Qed.

Section Run.
Context (alloc : nat -> list R) (allocz : nat -> list Z).
Context (fit : list R -> list R -> Z -> res (R -> R)) (argsort : list R -> list nat).
Context (ob ob32 : Z -> R) (realpath : string -> string) (contents : string -> res file).
Context (skycoord : R -> R -> res nat).
Context (py_float : text -> res R) (skycoord_str : string -> string -> res nat) (other : ival numR -> nat).
Local Notation load := (loaders numR ob ob32 realpath contents skycoord py_float skycoord_str other).
Local Notation run := (run_program numR ln pow alloc allocz fit argsort load).

Theorem rseek_finds_pulses :
  forall (a : args numR) ts (period phi w base : R) (on : nat -> bool),
  allocates alloc -> allocates allocz -> sorts argsort ->
  load (ra_format a) (ra_fname a) = Ok ts -> 0 < se_tsamp ts ->
  let x := se_data ts in let tsamp := se_tsamp ts in
  let wd := ZnearestE (ra_rmed_width a / tsamp) in
  let T := INR (length x) * tsamp in
  (* rseek can run *)
  window_py_ok (length x) wd (ra_rmed_minpts a) ->
  (0 <= ra_bmin a < 2 ^ 64)%Z -> (0 <= ra_bmax a < 2 ^ 64)%Z ->
  (md_get "dm" (se_md ts) = Some MNone \/ exists dm : R, md_get "dm" (se_md ts) = Some (MFloat (N := numR) dm)) ->
  range_fits (length x) tsamp (rseek_kw a) -> fit_works fit (rseek_pk a) -> segments_fit T (rseek_kw a) (rseek_pk a) ->
  (* the data *)
  ra_pmin a <= period < ra_pmax a -> 0 <= w -> pulse_train tsamp period phi w base on x ->
  median_blind tsamp period w on (length x) (fst (groups_of wd (ra_rmed_minpts a))) (snd (groups_of wd (ra_rmed_minpts a))) ->
  exists r, run a = Ok r /\
  exists (widths : list Z) (periods : list R) (bins : list Z) (snrs : arr2 R) (thr : nat -> R -> R) (t b rows : nat) (f : R),
    (* of the periodogram of the data *)
    (exists ts', ffa_search_ts numR ln pow alloc allocz ts (rseek_kw a) true (ra_rmed_width a) (ra_rmed_minpts a) false
       = Ok (ts', Pgram (N := numR) widths periods bins snrs (se_md ts'))) /\
    generate_width_trials numR (ra_bmin a) (3 / 10) (ra_wtsp a) = Ok widths /\
    nearest_trial (length x) tsamp period periods bins t b rows f /\ (ra_bmin a <= Z.of_nat b <= ra_bmax a)%Z /\
    Forall (fun P => ra_pmin a <= P < ra_pmax a) periods /\
    (forall iw, (iw < length widths)%nat ->
       is_threshold fit (map (fun P => 1 / P) periods) (trials snrs iw) T (ra_smin a) 5 6 10 2 (thr iw)) /\
    forall iw, (iw < length widths)%nat ->
      let W := Z.to_nat (nth iw widths 0%Z) in
      w * INR b + INR (Nat.log2_up rows) + 3 <= INR W ->
      let sure := sure_snr x base on b W rows f in
      ra_smin a < sure -> thr iw (1 / nth t periods 0) < sure ->
      exists out p, r = Some out /\ In p out /\ sure <= p_snr p /\
        chain periods snrs (length widths) (ra_smin a) (ra_clrad a / T) (1 / nth t periods 0) (p_freq p).
Proof.
  intros a ts period phi w base on Ha Hz HS EL T0 x tsamp wd T HW B1 B2 HD RF FW SF HP W0 PT MB.
  destruct (rseek_total alloc allocz fit argsort ob ob32 realpath contents skycoord py_float skycoord_str other
    a ts Ha Hz HS EL T0 HW B1 B2 HD RF FW SF) as (r & ER).
  exists r. split; [exact ER|]. unfold run_program in ER. rewrite EL in ER. cbn [bind] in ER.
  apply bind_ok in ER as (peaks & ES & H). unfold rseek_search in ES. apply bind_ok in ES as ([t pg] & ES & EF).
  destruct (search_py alloc allocz ts a Ha t pg ES) as (Q1 & Q2 & M2 & M3).
  destruct (loaders_new _ _ _ _ _ _ _ _ _ _ _ EL) as (x' & tsamp' & md & EN). pose proof (new_series_dm _ _ _ _ EN) as DM.
  destruct (prepare_ts_spec alloc _ _ ts t Ha DM M2) as (PR & TO). pose proof PR as (T1 & L1 & D1 & _).
  assert (EF' := EF). unfold find_peaks_pg in EF'. apply bind_ok in EF' as (T' & _ & EF'). apply bind_ok in EF' as (dm & ED & _).
  assert (EM : pg_md pg = se_md t).
  { unfold ffa_search_ts in M3. cbn [bind] in M3. apply bind_ok in M3 as (ws & _ & M3).
    apply bind_ok in M3 as ([[? ?] ?] & _ & M3). injection M3 as <-. reflexivity. }
  rewrite EM in ED.
  assert (P0 : 0 < period).
  { destruct RF as ((A1 & A2 & A3 & A4 & A5 & A6) & _). assert (2 <= INR (sk_bmin (rseek_kw a))) by (apply (le_INR 2); lia).
    numR_ty. assert (0 < se_tsamp ts * INR (sk_bmin (rseek_kw a))) by (apply Rmult_lt_0_compat; lra).
    cbn [rseek_kw sk_pmin sk_bmin] in *. unfold tsamp in *. lra. }
  destruct (prepared_pulses _ _ ts t period phi w base on T0 P0 W0 PR PT MB) as (ca & cb & C0 & C1 & C2).
  destruct (range_detects alloc allocz fit argsort x t t (rseek_kw a) (rseek_pk a) dm pg peaks ca cb period phi w base on)
    as (widths & periods & bins & snrs & thr & i & b & rows & f & clrad & GP & G1 & G2 & G2' & GR & EC & G2'' & G3 & G4); auto.
  { rewrite T1. exact RF. } { rewrite TO, T1. reflexivity. } { rewrite T1. exact PT. }
  exists widths, periods, bins, snrs, thr, i, b, rows, f.
  cbn [rseek_kw sk_bmin sk_ducy sk_wtsp] in G1. rewrite Z2Nat.id in G1 by lia.
  rewrite T1 in G2, G3, G4. rewrite GP in M3. split; [exists t; exact (search_prepared _ _ _ _ _ _ _ _ _ _ _ M2 _ _ M3)|]. split; [exact G1|]. split; [exact G2|].
  split; [cbn [rseek_kw sk_bmin sk_bmax] in G2'; lia|]. split; [exact GR|]. split; [exact G3|].
  intros iw Hiw W Hwide sure HS1 HS2. destruct (G4 iw Hiw Hwide HS1 HS2) as (p & Ip & _ & _ & Sp & Cp). injection EC as <-.
  destruct peaks as [|p0 ps]; [destruct Ip|].
  destruct (rseek_report_correct argsort (ra_clrad a) (se_length ts) (p0 :: ps) HS)
    as (groups & best & out & E & K1 & K2 & K3 & K4 & _); [discriminate|].
  rewrite E in H. injection H as <-. exists out.
  destruct (In_nth_error _ _ Ip) as (j & Ej).
  assert (IJ : In j (concat groups)).
  { apply (Permutation_in _ (Permutation_sym K1)), in_seq. split; [lia|]. apply nth_error_Some. congruence. }
  apply in_concat in IJ as (g & Ig & Jg).
  assert (F : exists p' i', In p' best /\ In i' g /\ nth_error (p0 :: ps) i' = Some p' /\
    forall j q, In j g -> nth_error (p0 :: ps) j = Some q -> p_snr q <= p_snr p').
  { clear - K3 Ig. induction K3 as [|g' p' gs bs [(i' & I1 & I2) Hg] _ IH]; [destruct Ig|].
    destruct Ig as [->|Ig]; [exists p', i'; split; [now left|split; [exact I1|split; [exact I2|exact Hg]]]|].
    destruct (IH Ig) as (p'' & i'' & I & Q). exists p'', i''. split; [now right|exact Q]. }
  destruct F as (p' & i' & Ip' & Ii' & Ei' & Q). exists p'. split; [reflexivity|].
  split; [now apply (Permutation_in _ (Permutation_sym K4))|].
  split; [eapply Rle_trans; [exact Sp|]; exact (Q j p Jg Ej)|].
  unfold chain in *. eapply rt_trans; [exact Cp|].
  assert (J1 : (j < length (p0 :: ps))%nat) by (apply nth_error_Some; congruence).
  assert (J2 : (i' < length (p0 :: ps))%nat) by (apply nth_error_Some; congruence).
  pose proof (proj1 (K2 j i' J1 J2)) as FR. specialize (FR ltac:(exists g; auto)).
  assert (EL' : se_length ts = T).
  { unfold se_length. rsimp. now rewrite <- INR_IZR_INZ. }
  rewrite EL' in FR.
  assert (N : forall i q, nth_error (p0 :: ps) i = Some q -> nth i (map p_freq (p0 :: ps)) 0 = p_freq q).
  { intros i0 q Eq. apply nth_error_nth. rewrite nth_error_map, Eq. reflexivity. }
  rewrite <- (N j p Ej), <- (N i' p' Ei'). revert FR.
  apply (friends_map (fun k => nth k (map p_freq (p0 :: ps)) 0)); [|reflexivity].
  intros k Hk. destruct (nth_error (p0 :: ps) k) as [qk|] eqn:Ek; [|apply nth_error_None in Ek; lia].
  rewrite (N k qk Ek). apply G2''. now apply nth_error_In in Ek.
Qed.
End Run.
Print Assumptions rseek_finds_pulses.

(** a worker that returns has found the pulses with every range of periods that contains theirs *)
Lemma worker_detects alloc allocz fit argsort load (rw : R) minpts confs fname (ts : series numR) (dm : R) peaks k q
    (period phi w base : R) (on : nat -> bool) :
  allocates alloc -> allocates allocz -> sorts argsort ->
  load fname = Ok ts -> 0 < se_tsamp ts ->
  let x := se_data ts in let tsamp := se_tsamp ts in
  let wd := ZnearestE (rw / tsamp) in
  let T := INR (length x) * tsamp in
  md_get "dm" (se_md ts) = Some (MFloat (N := numR) dm) ->
  process_fname numR ln pow alloc allocz fit argsort load rw minpts confs fname = Ok peaks ->
  In (k, q) confs -> range_fits (length x) tsamp k -> sk_pmin k <= period < sk_pmax k ->
  0 < period -> 0 <= w -> pulse_train tsamp period phi w base on x ->
  median_blind tsamp period w on (length x) (fst (groups_of wd minpts)) (snd (groups_of wd minpts)) ->
  exists (widths : list Z) (periods : list R) (bins : list Z) (snrs : arr2 R) (thr : nat -> R -> R) (t b rows : nat) (f clrad : R),
    (* of the periodogram of the data *)
    (exists ts', ffa_search_ts numR ln pow alloc allocz ts k true rw minpts false
       = Ok (ts', Pgram (N := numR) widths periods bins snrs (se_md ts'))) /\
    generate_width_trials numR (Z.of_nat (sk_bmin k)) (sk_ducy k) (sk_wtsp k) = Ok widths /\
    nearest_trial (length x) tsamp period periods bins t b rows f /\ (sk_bmin k <= b <= sk_bmax k)%nat /\
    Forall (fun P => sk_pmin k <= P < sk_pmax k) periods /\
    pk_clrad q = Some clrad /\
    (forall iw, (iw < length widths)%nat ->
       is_threshold fit (map (fun P => 1 / P) periods) (trials snrs iw) T
         (pk_smin q) (pk_segwidth q) (pk_nstd q) (pk_minseg q) (pk_polydeg q) (thr iw)) /\
    forall iw, (iw < length widths)%nat ->
      let W := Z.to_nat (nth iw widths 0%Z) in
      w * INR b + INR (Nat.log2_up rows) + 3 <= INR W ->
      let sure := sure_snr x base on b W rows f in
      pk_smin q < sure -> thr iw (1 / nth t periods 0) < sure ->
      exists p, In p peaks /\ p_width p = nth iw widths 0%Z /\ p_dm p = Some dm /\ sure <= p_snr p /\
        chain periods snrs (length widths) (pk_smin q) (clrad / T) (1 / nth t periods 0) (p_freq p).
Proof.
  intros Ha Hz HS EL T0 x tsamp wd T ED EP I RF HP P0 W0 PT MB.
  unfold process_fname in EP. rewrite EL in EP. cbn [bind] in EP. unfold md_dm at 1 in EP. rewrite ED in EP. cbn [bind guard] in EP.
  apply bind_ok in EP as (ts2 & E3 & H).
  destruct (prepare_ts_spec alloc rw minpts ts ts2 Ha ltac:(congruence) E3) as (PR & TO).
  pose proof PR as (T2 & Lx & M2 & _).
  destruct (prepared_pulses _ _ ts ts2 period phi w base on T0 P0 W0 PR PT MB) as (ca & cb & C0 & C1 & C2).
  rewrite (foreach_ext _ _ (fun conf acc =>
      x <- ('(_, pg) <- ffa_search_ts numR ln pow alloc allocz ts2 (fst conf) false rw minpts true ;;
            find_peaks_pg numR fit argsort pg (snd conf)) ;; Ok (acc ++ x)%list)) in H.
  2:{ intros c acc. destruct (ffa_search_ts _ _ _ _ _ _ _ _ _ _ _) as [[? ?]| | |]; reflexivity. }
  apply foreach_inv in H as (ls & EC & F). subst peaks.
  assert (M3 : md_dm (se_md ts2) = Ok (Some dm)) by (unfold md_dm; now rewrite M2, ED).
  assert (L : exists l, In l ls /\ exists pg, ffa_search_ts numR ln pow alloc allocz ts2 k false 0 (PInt 0) true = Ok (ts2, pg) /\
    find_peaks_pg numR fit argsort pg q = Ok l).
  { clear - F I. induction F as [|[k' q'] l confs ls E F IH]; [destruct I|]. destruct I as [Q|I].
    - injection Q as -> ->. exists l. split; [now left|]. cbn [fst snd] in E. apply bind_ok in E as ([ts' pg] & G1 & G2).
      exists pg. split; [|exact G2]. unfold ffa_search_ts in *. cbn [bind] in *.
      apply bind_ok in G1 as (ws & Ew & G1). rewrite Ew. cbn [bind].
      apply bind_ok in G1 as ([[? ?] ?] & Ep & G1). rewrite Ep. cbn [bind]. injection G1 as <- <-. reflexivity.
    - destruct (IH I) as (l' & Il & Q). exists l'. split; [now right|exact Q]. }
  destruct L as (l & Il & pg & G1 & G2).
  destruct (range_detects alloc allocz fit argsort x ts2 ts2 k q (Some dm) pg l ca cb period phi w base on)
    as (widths & periods & bins & snrs & thr & i & b & rows & f & clrad & KP & K1 & K2 & K3 & KR & K4 & _ & K5 & K6); auto.
  { rewrite T2. exact RF. } { rewrite TO, T2. reflexivity. } { rewrite T2. exact PT. }
  exists widths, periods, bins, snrs, thr, i, b, rows, f, clrad.
  rewrite T2 in K2, K5, K6. rewrite KP in G1. split; [exists ts2; exact (search_prepared _ _ _ _ _ _ _ _ _ _ _ E3 _ _ G1)|]. do 6 (split; [assumption|]).
  intros iw Hiw W Hwide sure HS1 HS2. destruct (K6 iw Hiw Hwide HS1 HS2) as (p & Ip & Wp & Dp & Sp & Cp).
  exists p. split; [apply in_concat; eauto|]. repeat (split; [assumption|]). exact Cp.
Qed.

(** a worker returns and finds the pulses *)
Theorem worker_finds_pulses :
  forall alloc allocz fit argsort load (rw : R) minpts confs fname (ts : series numR) (dm : R)
    (period phi w base : R) (on : nat -> bool),
  allocates alloc -> allocates allocz -> sorts argsort ->
  load fname = Ok ts -> 0 < se_tsamp ts ->
  let x := se_data ts in let tsamp := se_tsamp ts in
  let wd := ZnearestE (rw / tsamp) in
  let T := INR (length x) * tsamp in
  (* the worker can run *)
  md_get "dm" (se_md ts) = Some (MFloat (N := numR) dm) -> forallb (item_valid numR) (se_md ts) = true ->
  window_py_ok (length x) wd minpts ->
  Forall (fun c => range_fits (length x) tsamp (fst c) /\ fit_works fit (snd c) /\ segments_fit T (fst c) (snd c)) confs ->
  (* the data *)
  0 < period -> 0 <= w -> pulse_train tsamp period phi w base on x ->
  median_blind tsamp period w on (length x) (fst (groups_of wd minpts)) (snd (groups_of wd minpts)) ->
  exists peaks, process_fname numR ln pow alloc allocz fit argsort load rw minpts confs fname = Ok peaks /\
  forall k q, In (k, q) confs -> sk_pmin k <= period < sk_pmax k ->
  exists (widths : list Z) (periods : list R) (bins : list Z) (snrs : arr2 R) (thr : nat -> R -> R) (t b rows : nat) (f clrad : R),
    (* of the periodogram of the data *)
    (exists ts', ffa_search_ts numR ln pow alloc allocz ts k true rw minpts false
       = Ok (ts', Pgram (N := numR) widths periods bins snrs (se_md ts'))) /\
    generate_width_trials numR (Z.of_nat (sk_bmin k)) (sk_ducy k) (sk_wtsp k) = Ok widths /\
    nearest_trial (length x) tsamp period periods bins t b rows f /\ (sk_bmin k <= b <= sk_bmax k)%nat /\
    Forall (fun P => sk_pmin k <= P < sk_pmax k) periods /\
    pk_clrad q = Some clrad /\
    (forall iw, (iw < length widths)%nat ->
       is_threshold fit (map (fun P => 1 / P) periods) (trials snrs iw) T
         (pk_smin q) (pk_segwidth q) (pk_nstd q) (pk_minseg q) (pk_polydeg q) (thr iw)) /\
    forall iw, (iw < length widths)%nat ->
      let W := Z.to_nat (nth iw widths 0%Z) in
      w * INR b + INR (Nat.log2_up rows) + 3 <= INR W ->
      let sure := sure_snr x base on b W rows f in
      pk_smin q < sure -> thr iw (1 / nth t periods 0) < sure ->
      exists p, In p peaks /\ p_width p = nth iw widths 0%Z /\ p_dm p = Some dm /\ sure <= p_snr p /\
        chain periods snrs (length widths) (pk_smin q) (clrad / T) (1 / nth t periods 0) (p_freq p).
Proof.
  intros alloc allocz fit argsort load rw minpts confs fname ts dm period phi w base on Ha Hz HS EL T0 x tsamp wd T
    ED HV HW HC P0 W0 PT MB.
  destruct (process_fname_total alloc allocz fit argsort load rw minpts confs fname ts dm Ha Hz T0 EL ED HV HW HC) as (peaks & EP).
  exists peaks. split; [exact EP|]. intros k q I HP.
  rewrite Forall_forall in HC. destruct (HC _ I) as (RF & _). cbn [fst] in RF.
  exact (worker_detects alloc allocz fit argsort load rw minpts confs fname ts dm peaks k q period phi w base on
    Ha Hz HS EL T0 ED EP I RF HP P0 W0 PT MB).
Qed.
Print Assumptions worker_finds_pulses.

(** ** An example: a file with 10 s of data sampled at 1 ms, with a pulse of 20 ms every second *)
Definition train_on (i : nat) : bool := ((500 <=? i mod 1000) && (i mod 1000 <? 520))%nat.
Definition train_size : nat := 100 * 100.
Definition train_bytes : list Ascii.ascii :=
  map (fun i => Ascii.ascii_of_nat (if train_on i then 1 else 0)) (seq 0 train_size).
Definition train_data : list R := map (fun i => if train_on i then 1 else 0) (seq 0 train_size).
Definition train_file : file := (SigprocFmt.enc_header one_header ++ train_bytes)%list.
Local Notation train_loaders := (loaders numR one_bits IZR (fun s => s) (fun _ => Ok train_file) (fun _ _ => Ok 0%nat)
  (fun _ => Ok 1) (fun _ _ => Ok 0%nat) (fun _ => 0%nat)).

Lemma train_length : length train_data = train_size.
Proof. unfold train_data. now rewrite map_length, seq_length. Qed.

Lemma train_nth i : (i < train_size)%nat -> nth i train_data 0 = if train_on i then 1 else 0.
Proof.
  intros H. unfold train_data.
  rewrite (nth_indep _ 0 ((fun i => if train_on i then 1 else 0) 0%nat)) by (rewrite map_length, seq_length; exact H).
  rewrite (map_nth (fun i => if train_on i then 1 else 0)). now rewrite seq_nth.
Qed.

Lemma train_loaded : exists ts, train_loaders Sigproc "x.tim"%string = Ok ts /\ se_data ts = train_data /\
  se_tsamp ts = 1 / 1000 /\ md_get "dm" (se_md ts) = Some MNone.
Proof.
  cbn [loaders]. unfold load_sigproc. cbn [bind]. unfold from_sigproc.
  destruct (sigproc_header_roundtrip [] one_header train_bytes) as (a & E & _ & U).
  { repeat constructor; try (apply text_ascii; reflexivity); try discriminate; cbn [fst snd];
      [exists TInt|exists TInt|exists TBool|exists TFloat|exists TFloat|exists TFloat]; cbn; (split; [reflexivity|]); exact I || lia. }
  unfold train_file. rewrite E, U; [|repeat constructor; cbn; intuition discriminate]. clear E U a.
  set (h := SigprocFmt.enc_header one_header). set (h' := Datatypes.length h).
  assert (LF : length (h ++ train_bytes) = (h' + train_size)%nat).
  { rewrite app_length. unfold h', train_bytes. now rewrite map_length, seq_length. }
  assert (PD : int8s numR false (skipn h' (h ++ train_bytes)) = train_data).
  { unfold h'. rewrite skipn_pre. unfold train_bytes, train_data, int8s. rewrite map_map. apply map_ext.
    intros i. destruct (train_on i); reflexivity. }
  clearbody h'.
  cbn [bind]. unfold metadata_from_sigproc. change (get_int one_header "nchans") with (@Ok Z 1%Z). cbn [bind].
  change (1 <? 1)%Z with false. cbn [negb guard bind].
  change (get_int one_header "nbits") with (@Ok Z 8%Z). cbn [bind]. change (8 =? 8)%Z with true. cbn [orb andb guard bind].
  change (lookup "signed" one_header) with (Some (ABool false)). cbn [negb guard bind].
  change (get_float numR one_bits one_header "src_raj") with (@Ok R 0).
  change (get_float numR one_bits one_header "src_dej") with (@Ok R 0). cbn [bind].
  unfold tobs, nsamp, bytes_per_sample. change (get_int one_header "nchans") with (@Ok Z 1%Z).
  change (get_int one_header "nbits") with (@Ok Z 8%Z).
  change (get_float numR one_bits one_header "tsamp") with (@Ok R (1 / 1000)). cbn [bind].
  replace (floordiv (1 * 8) 8) with (@Ok Z 1%Z) by reflexivity. cbn [bind]. rewrite LF.
  replace (floordiv _ 1) with (@Ok Z (Z.of_nat train_size))
    by (unfold floordiv; cbn [Z.eqb]; f_equal; rewrite Z.div_1_r, Nat2Z.inj_add; lia). cbn [bind].
  assert (TP : 0 < IZR (Z.of_nat train_size) * (1 / 1000)).
  { rewrite <- INR_IZR_INZ. apply Rmult_lt_0_compat; [apply (lt_INR 0); unfold train_size; lia|lra]. }
  rsimp. set (T := IZR (Z.of_nat train_size) * (1 / 1000)) in *.
  assert (V : forall md, (forall kv, In kv md -> item_valid numR kv = true) ->
    metadata_new (N := numR) md = Ok (fold_left (fun m k => md_default k MNone m) reserved md)).
  { intros md K. unfold metadata_new. rewrite (proj2 (forallb_forall _ _) K). reflexivity. }
  rewrite V.
  2:{ clearbody T. intros kv I. unfold md_or_none in I. cbn in I.
    repeat (destruct I as [<-|I]; [cbn; rsimp; rewrite ?Rlt_bool_true, ?Rle_bool_true by (exact TP || unfold one_bits; cbn; lra); reflexivity|]). destruct I. }
  cbn [bind]. numR_ty. rewrite PD.
  set (md := fold_left _ reserved _).
  assert (DM : md_get "dm" md = Some MNone).
  { unfold md. clear. unfold reserved. cbn [fold_left]. do 6 apply md_get_default. rewrite !md_get_set. reflexivity. }
  assert (NV : forallb (item_valid numR) md = true).
  { unfold md, md_or_none. clearbody T. cbn. rsimp. rewrite ?Rlt_bool_true, ?Rle_bool_true by (exact TP || unfold one_bits; cbn; lra). reflexivity. }
  clearbody md.
  destruct (new_series_valid train_data (1 / 1000) md) as (s & E & _); auto.
  { rewrite train_length. apply Rmult_lt_0_compat; [|lra]. apply (lt_INR 0). unfold train_size. lia. }
  exists s. split; [exact E|]. apply new_series_inv in E as (E1 & E2 & _ & E3). split; [exact E1|]. split; [exact E2|]. now apply E3; [discriminate|].
Qed.

Lemma train_pulses : pulse_train (1 / 1000) 1 (1 / 2) (1 / 50) 0 train_on train_data.
Proof.
  split; [|split].
  - intros i _ H. unfold train_on in H. apply andb_true_iff in H as [H1 H2].
    apply Nat.leb_le in H1. apply Nat.ltb_lt in H2. pose proof (Nat.div_mod i 1000 ltac:(lia)) as D.
    exists (Z.of_nat (i / 1000)). rewrite <- INR_IZR_INZ, Rinv_1.
    assert (K : INR i = 1000 * INR (i / 1000) + INR (i mod 1000)).
    { rewrite D at 1. rewrite plus_INR, mult_INR. f_equal. f_equal. rewrite INR_IZR_INZ. reflexivity. }
    apply (le_INR 500) in H1. apply (le_INR _ 520) in H2. rewrite S_INR in H2.
    replace (INR 500) with 500 in H1 by (rewrite INR_IZR_INZ; reflexivity).
    replace (INR 520) with 520 in H2 by (rewrite INR_IZR_INZ; reflexivity). lra.
  - intros i H E. rewrite train_length in H. rewrite train_nth by exact H. now rewrite E.
  - exists 500%nat. rewrite train_length. assert (500 < train_size)%nat by (unfold train_size; lia).
    split; [exact H|]. rewrite train_nth by exact H. change (train_on 500) with true. cbv iota. lra.
Qed.

Lemma train_blind : median_blind (1 / 1000) 1 (1 / 50) train_on train_size 39 101.
Proof.
  split.
  - intros i Hi. assert (train_size / 39 - 1 = 255)%nat as ->.
    { unfold train_size. apply Nat2Z.inj. rewrite Nat2Z.inj_sub_max, Nat2Z.inj_div, Nat2Z.inj_mul. reflexivity. }
    unfold train_on. rewrite (Nat.mod_small i) by lia.
    replace (255 * 39 + i)%nat with (945 + i + 9 * 1000)%nat by lia. rewrite Nat.mod_add, (Nat.mod_small (945 + i)) by lia.
    split; apply andb_false_iff; [left; apply Nat.leb_gt|right; apply Nat.ltb_ge]; lia.
  - cbv zeta. replace (INR 39) with 39 by (cbn; lra). replace (INR 101) with 101 by (rewrite INR_IZR_INZ; reflexivity). lra.
Qed.

(** nine pulses *)
Lemma train_count k : rsum (k * 1000) (fun i => if train_on i then 1 else 0) = 20 * INR k.
Proof.
  induction k as [|k IH]; [cbn; lra|]. replace (S k * 1000)%nat with (k * 1000 + (500 + (20 + 480)))%nat by lia.
  rewrite !rsum_split, IH, S_INR.
  assert (M : forall j, (j < 1000)%nat -> ((k * 1000 + j) mod 1000 = j)%nat).
  { intros j Hj. rewrite Nat.add_comm, Nat.mod_add by lia. now apply Nat.mod_small. }
  rewrite (rsum_ext 500 _ (fun _ => 0)), (rsum_ext 20 _ (fun _ => 1)), (rsum_ext 480 _ (fun _ => 0)), !rsum_const.
  - replace (INR 20) with 20 by (cbn; lra). lra.
  - intros i Hi. replace (k * 1000 + (500 + (20 + i)))%nat with (k * 1000 + (520 + i))%nat by lia.
    unfold train_on. rewrite M by lia. destruct (Nat.ltb_spec (520 + i) 520); [lia|]. now rewrite andb_false_r.
  - intros i Hi. unfold train_on. rewrite M by lia.
    rewrite (proj2 (Nat.leb_le _ _)), (proj2 (Nat.ltb_lt _ _)) by lia. reflexivity.
  - intros i Hi. unfold train_on. rewrite M by lia. now rewrite (proj2 (Nat.leb_gt _ _)) by lia.
Qed.

Lemma train_INR : INR train_size = 10000.
Proof. unfold train_size. rewrite mult_INR, INR_IZR_INZ. cbn. lra. Qed.

Lemma train_flux folded : 9000 <= folded -> 180 <= flux train_data 0 train_on folded true.
Proof.
  intros H. unfold flux. rewrite train_length.
  replace train_size with (9 * 1000 + 1000)%nat by (unfold train_size; lia). rewrite rsum_split.
  assert (E : rsum (9 * 1000) (fun i => if Bool.eqb (train_on i) true then (nth i train_data 0 - 0) * weight i 0 folded else 0) = 180).
  { replace 180 with (20 * INR 9) by (cbn; lra). rewrite <- train_count. apply rsum_ext. intros i Hi.
    rewrite train_nth by (unfold train_size; lia). destruct (train_on i); cbn [Bool.eqb]; [|reflexivity].
    assert (0 <= INR i) by apply pos_INR.
    assert (INR i + 1 <= 9000).
    { rewrite <- S_INR. apply Rle_trans with (INR (9 * 1000)); [apply le_INR; lia|].
      rewrite mult_INR, !INR_IZR_INZ. cbn. lra. }
    minmax; lra. }
  rewrite E. match goal with |- _ <= 180 + ?r => assert (0 <= r) end; [|lra].
  apply rsum_nonneg. intros i Hi. destruct (Bool.eqb _ true); [|lra]. apply Rmult_le_pos; [|apply weight_nonneg].
  rewrite train_nth by (unfold train_size; lia). destruct (train_on _); lra.
Qed.

Lemma train_rvar : rvar train_data <= 1 / 4.
Proof.
  unfold rvar. set (m := rmean train_data). rewrite train_length, train_INR.
  assert (S : rsum train_size (fun i => nth i train_data 0) = 10000 * m).
  { unfold m, rmean. rewrite train_length, train_INR. field. }
  rewrite (rsum_ext _ _ (fun i => (1 - 2 * m) * nth i train_data 0 + m ^ 2)).
  - rewrite rsum_plus, rsum_scal, S, rsum_const, train_INR. assert (0 <= (m - 1 / 2) ^ 2) by apply pow2_ge_0. nra.
  - intros i Hi. rewrite train_nth by exact Hi. destruct (train_on i); ring.
Qed.

Lemma train_widths : exists ws, generate_width_trials numR 240 (3 / 10) (3 / 2) = Ok ws /\ (6 < length ws)%nat /\ nth 6 ws 0%Z = 13%Z.
Proof.
  assert (N : forall w, (0 <= w)%Z -> next_width numR (3 / 2) w = if (2 * (w + 1) <? 3 * w)%Z then (3 * w / 2)%Z else (w + 1)%Z).
  { intros w Hw. unfold next_width. rsimp. apply IZR_le in Hw. rewrite plus_IZR.
    destruct (Z.ltb_spec (2 * (w + 1)) (3 * w)) as [H|H].
    - apply IZR_lt in H. rewrite !mult_IZR, plus_IZR in H. rewrite Rlt_bool_true by lra.
      rewrite Ztrunc_floor by lra. apply Zfloor_imp.
      pose proof (Z.div_mod (3 * w) 2 ltac:(lia)) as D. pose proof (Z.mod_pos_bound (3 * w) 2 ltac:(lia)) as M.
      set (q := (3 * w / 2)%Z) in *. set (r := ((3 * w) mod 2)%Z) in *.
      assert (2 * q <= 3 * w < 2 * (q + 1))%Z as [A B] by lia.
      apply IZR_le in A. apply IZR_lt in B. rewrite ?mult_IZR, ?plus_IZR in *. lra.
    - apply IZR_le in H. rewrite !mult_IZR, plus_IZR in H. rewrite Rlt_bool_false by lra. reflexivity. }
  assert (L : width_limit numR 240 (3 / 10) = 72%Z).
  { unfold width_limit. rsimp. rewrite Rlt_bool_true by lra. replace (3 / 10 * 240) with (IZR 72) by lra. apply Ztrunc_IZR. }
  assert (S : forall n w w' ws, (0 <= w <= 72)%Z -> (if (2 * (w + 1) <? 3 * w)%Z then (3 * w / 2)%Z else (w + 1)%Z) = w' ->
    width_loop numR n (3 / 2) 72 w' = Ok ws -> width_loop numR (S n) (3 / 2) 72 w = Ok (w :: ws)).
  { intros n w w' ws H E K. cbn [width_loop]. rewrite (proj2 (Z.leb_le w 72)) by lia. rewrite N, E, K by lia. reflexivity. }
  unfold generate_width_trials. rewrite L. change (Datatypes.S (Z.to_nat 72)) with 73%nat.
  exists [1; 2; 3; 4; 6; 9; 13; 19; 28; 42; 63]%Z. split; [|split; [cbn; lia|reflexivity]].
  do 11 (eapply S; [lia|vm_compute; reflexivity|]). reflexivity.
Qed.

Definition train_args : args numR :=
  parse_args numR Sigproc "x.tim" (Options (N := numR) None (Some 2) None None None None None None None).

Lemma train_fits :
  window_py_ok train_size (ZnearestE (4 / (1 / 1000))) (PInt 101) /\ range_fits train_size (1 / 1000) (rseek_kw train_args) /\
  segments_fit (INR train_size * (1 / 1000)) (rseek_kw train_args) (rseek_pk train_args).
Proof.
  assert (E240 : INR 240 = 240) by (rewrite INR_IZR_INZ; reflexivity).
  assert (E260 : INR 260 = 260) by (rewrite INR_IZR_INZ; reflexivity).
  split.
  { assert (R4 : ZnearestE (4 / (1 / 1000)) = 4000%Z).
    { apply round_IZR. lra. }
    numR_ty. rewrite R4. split; [reflexivity|]. split; [reflexivity|]. unfold train_size. rewrite Nat2Z.inj_mul. split; intros H; [lia|reflexivity]. }
  assert (K : rseek_kw train_args = Search_kw (N := numR) 1 2 (sk_fpmin (rseek_kw train_args)) 240 260 (3 / 10) (3 / 2)) by reflexivity.
  rewrite K. clear K.
  split.
  { unfold range_fits, worker_fits. cbn [sk_pmin sk_pmax sk_bmin sk_bmax sk_ducy]. rewrite train_INR.
    split; [unfold search_args; rewrite E240; repeat split; try lia; lra|].
    split; [lra|]. split; [|lra]. unfold search_fits. unfold train_size. split; [lia|]. split; [lra|]. split; [lia|].
    assert (L2 : ln (2 / 1) <= 1).
    { replace (2 / 1) with 2 by lra. rewrite <- (ln_exp 1). apply Rlt_le, ln_increasing; [lra|].
      pose proof (exp_ineq1 1). lra. }
    assert (L3 : 21 / 261 <= ln ((INR 260 + 1) / INR 240)).
    { rewrite E240, E260. replace ((260 + 1) / 240) with (/ (240 / 261)) by field.
      rewrite ln_Rinv by lra. pose proof (exp_ineq1_le (ln (240 / 261))) as Q.
      rewrite exp_ln in Q by lra. lra. }
    apply Rmult_le_reg_r with (ln ((INR 260 + 1) / INR 240)); [lra|].
    unfold Rdiv at 1. rewrite Rmult_assoc, Rinv_l by lra. nra. }
  unfold segments_fit. cbn [sk_pmin sk_pmax sk_bmin rseek_pk pk_segwidth]. rewrite train_INR, E240. lra.
Qed.

(** boxcars of 13 bins are wide enough and respond with an S/N above 9 *)
Lemma train_sure periods bins t b rows f :
  nearest_trial train_size (1 / 1000) 1 periods bins t b rows f -> (240 <= Z.of_nat b <= 260)%Z ->
  Forall (fun P => 1 <= P < 2) periods ->
  1 / 50 * INR b + INR (Nat.log2_up rows) + 3 <= INR 13 /\ 9 < sure_snr train_data 0 train_on b 13 rows f.
Proof.
  intros G2 G3 GR.
  destruct G2 as (N1 & N2 & _ & _ & N5 & N6 & N7).
  assert (B1 : 240 <= INR b) by (rewrite INR_IZR_INZ; apply IZR_le; lia).
  assert (B2 : INR b <= 260) by (rewrite INR_IZR_INZ; apply IZR_le; lia).
  rewrite train_INR, !mult_INR, plus_INR in N6. cbn [INR] in N6.
  assert (R0 : 0 <= INR rows) by apply pos_INR.
  rewrite Forall_forall in GR. specialize (GR _ (nth_In _ 0 N1)).
  set (P := nth t periods 0) in *. set (B := INR b) in *. set (Q := INR rows) in *.
  assert (FB : f * B <= 1000 < f * (B + 1)) by lra.
  assert (FB' : 995 <= f * B) by nra.
  assert (RQ : Q < 11).
  { apply Rnot_le_lt. intros H. assert (11 * 995 <= Q * (f * B)) by (apply Rmult_le_compat; lra). lra. }
  assert (RN : (rows <= 10)%nat).
  { apply Nat.lt_succ_r, INR_lt. fold Q. cbn. lra. }
  assert (Q10 : Q <= 10) by (apply le_INR in RN; cbn in RN; fold Q in RN; lra).
  assert (FO : 9000 <= INR (rows * b) * f) by (rewrite mult_INR; fold Q B; lra).
  assert (LG : INR (Nat.log2_up rows) <= 4).
  { replace 4 with (INR 4) by (cbn; lra). apply le_INR. apply Nat.le_trans with (Nat.log2_up 10); [now apply Nat.log2_up_le_mono|].
    vm_compute. lia. }
  assert (Q9 : 9 <= Q) by nra.
  assert (AV : 0 < assumed_variance train_size f <= 10).
  { assert (F5 : 3 <= f < 5) by nra.
    pose proof (Zfloor_lb f) as L1. pose proof (Zfloor_ub f) as L2. unfold assumed_variance.
    assert (K1 : (3 <= Zfloor f <= 4)%Z).
    { split; [now apply Zfloor_lub; lra|]. apply Z.lt_succ_r, lt_IZR. cbn. lra. }
    assert (X0 : 0 <= IZR (Zfloor (INR train_size / f))).
    { apply IZR_le, Zfloor_lub. rewrite train_INR. apply Rlt_le, Rdiv_lt_0_compat; lra. }
    set (kf := IZR (Zfloor f)) in *. assert (K2 : 3 <= kf <= 4) by (split; apply IZR_le; lia).
    set (n := IZR (Zfloor (INR train_size / f))) in *.
    assert (X1 : 0 <= n * (f - kf)) by (apply Rmult_le_pos; lra). set (x := n * (f - kf)) in *. clearbody x.
    destruct (Rlt_dec 1 x); nra. }
  assert (RV : 0 < rvar train_data).
  { apply (rvar_pos train_data 1 0); [| |lra].
    - replace 1 with (nth 500 train_data 0); [apply nth_In; rewrite train_length; unfold train_size; lia|].
      rewrite train_nth by (unfold train_size; lia). reflexivity.
    - replace 0 with (nth 0 train_data 0) at 1; [apply nth_In; rewrite train_length; unfold train_size; lia|].
      rewrite train_nth by (unfold train_size; lia). reflexivity. }
  assert (SU : 9 < sure_snr train_data 0 train_on b 13 rows f).
  { unfold sure_snr. rewrite train_length. fold B Q. pose proof (train_flux _ FO) as FL.
    set (F := flux _ _ _ _ _) in *. clearbody F.
    replace (INR 13) with 13 by (cbn; lra).
    assert (S1 : 26 / 100 <= sqrt (/ 13 - / B)).
    { rewrite <- (sqrt_Rsqr (26 / 100)) by lra. apply sqrt_le_1_alt. unfold Rsqr.
      assert (/ B <= / 240) by (apply Rinv_le_contravar; lra). lra. }
    set (s1 := sqrt (/ 13 - / B)) in *. clearbody s1.
    assert (S2 : 0 < sqrt (rvar train_data) <= 1 / 2).
    { split; [now apply sqrt_lt_R0|]. rewrite <- (sqrt_Rsqr (1 / 2)) by lra. apply sqrt_le_1_alt. unfold Rsqr. pose proof train_rvar. lra. }
    set (s2 := sqrt (rvar train_data)) in *. clearbody s2.
    assert (S3 : 0 < sqrt (Q * assumed_variance train_size f) <= 10).
    { split; [apply sqrt_lt_R0, Rmult_lt_0_compat; lra|]. rewrite <- (sqrt_Rsqr 10) by lra. apply sqrt_le_1_alt. unfold Rsqr.
      apply Rmult_le_compat; lra. }
    set (s3 := sqrt (Q * _)) in *. clearbody s3.
    replace (F * s1 / s2 / s3) with (F * s1 / (s2 * s3)) by (field; lra).
    assert (0 < s2 * s3) by (apply Rmult_lt_0_compat; lra). assert (s2 * s3 <= 5) by nra.
    apply Rmult_lt_reg_r with (s2 * s3); [assumption|]. unfold Rdiv. rewrite (Rmult_assoc (F * s1)), Rinv_l, Rmult_1_r by lra. nra. }
  split; [|exact SU]. replace (INR 13) with 13 by (cbn; lra). lra.
Qed.

(** rseek with its default options, except for the longest period, finds the pulses *)
Example rseek_finds_pulses_used : exists out p,
  run_program numR ln pow (fun n => repeat 0 n) (fun n => repeat 0%Z n) (fun _ _ _ => Ok (fun _ => 6)) argsort_R train_loaders train_args
    = Ok (Some out) /\ In p out /\ 9 < p_snr p.
Proof.
  destruct train_loaded as (ts & EL & ED & ET & EM). destruct train_fits as (F1 & F2 & F3).
  assert (R4 : ZnearestE (4 / (1 / 1000)) = 4000%Z).
  { apply round_IZR. lra. }
  destruct (rseek_finds_pulses (fun n => repeat 0 n) (fun n => repeat 0%Z n) (fun _ _ _ => Ok (fun _ => 6)) argsort_R
    one_bits IZR (fun s => s) (fun _ => Ok train_file) (fun _ _ => Ok 0%nat)
    (fun _ => Ok 1) (fun _ _ => Ok 0%nat) (fun _ => 0%nat) train_args ts 1 (1 / 2) (1 / 50) 0 train_on)
    as (r & ER & widths & periods & bins & snrs & thr & t & b & rows & f & _ & G1 & G2 & G3 & GR & G4 & G5);
    rewrite ?ED, ?ET, ?train_length.
  - intros k. apply repeat_length.
  - intros k. apply repeat_length.
  - exact argsort_R_sorts.
  - exact EL.
  - lra.
  - exact F1.
  - cbn. lia.
  - cbn. lia.
  - left. exact EM.
  - exact F2.
  - split; [discriminate|intros fc sc _; eauto].
  - exact F3.
  - cbn [train_args parse_args ra_pmin ra_pmax op_pmin op_pmax or]. rsimp. lra.
  - lra.
  - exact train_pulses.
  - change (ra_rmed_width train_args) with 4. numR_ty. rewrite R4.
    change (groups_of 4000 (ra_rmed_minpts train_args)) with (Z.to_nat (4000 / 101), Z.to_nat 101). exact train_blind.
  - numR_ty. rewrite ED, ET, train_length in G2, G5.
    destruct train_widths as (ws & EW & W1 & W2).
    change (ra_bmin train_args) with 240%Z in *. change (ra_bmax train_args) with 260%Z in *.
    change (ra_wtsp train_args) with (3 / 2) in G1. numR_ty. rewrite EW in G1. injection G1 as <-.
    specialize (G4 6%nat W1). specialize (G5 6%nat W1). rewrite W2 in G5. change (Z.to_nat 13) with 13%nat in G5.
    assert (P12 : Forall (fun P => 1 <= P < 2) periods) by exact GR.
    destruct (train_sure _ _ _ _ _ _ G2 G3 P12) as [WI SU]. set (P := nth t periods 0) in *.
    assert (TH : thr 6%nat (1 / P) <= 7).
    { destruct G4 as (fc & smed & sstd & _ & G4). destruct (10 <=? _)%Z.
      - injection G4 as G4. rewrite <- G4. lra.
      - rewrite G4. change (ra_smin train_args) with 7. lra. }
    destruct G5 as (out & p & -> & Ip & Sp & _).
    + exact WI.
    + change (ra_smin train_args) with 7. lra.
    + lra.
    + exists out, p. split; [exact ER|]. split; [exact Ip|]. lra.
Qed.
