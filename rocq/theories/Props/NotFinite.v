(** C128: infinities and NaNs in the data. *)
From Coq Require Import String List Arith ZArith Bool Lia Reals Lra SpecFloat.
From Flocq Require Import Core BinarySingleNaN.
From Verif Require Import Base.Result Base.Buf Base.Num Model.RunMed Model.FastRmed Model.Transforms Model.Libffa Model.Periodogram Model.Metadata Model.TimeSeries
  Model.Search Model.Cluster Model.Peaks Model.Worker Model.Rseek Spec.Ieee Proof.Ieee Proof.KernelsIeee Proof.Downsample Proof.Index Proof.DereddenIeee Proof.DereddenFloat
  Proof.RunMedRel Proof.Periodogram Proof.WidthsIeee Proof.NanIeee Proof.SearchIeee Proof.NotFinite Props.Ieee Props.Downsample Props.RunMed
  Props.PeriodogramFloat Props.PeriodogramRounding Props.PeriodogramIeee Props.NormIeee Props.DereddenIeee.
Import ListNotations.
Local Open Scope R_scope.

(** One infinity or NaN among the samples makes all of the normalised samples NaN, whatever the others
    are and however long the series is. *)
Theorem normalise_not_finite :
  forall (bld : build) (xI : list spec_float) (v : spec_float), In v xI -> not_finite v ->
  normalised (numI bld) xI = repeat S754_nan (length xI).
Proof. exact normalised_nf. Qed.

(** the outcome of fast_running_median on any data at all *)
Lemma fast_outcome_I bld (alloc : nat -> list spec_float) (x : list spec_float) w m : allocates alloc ->
  (0 < m <= 2 ^ 52)%Z -> Z.odd m = true -> (0 <= w <= 2 ^ 52)%Z ->
  (window_fits w m (Z.of_nat (length x)) -> exists r, fast_running_median (numI bld) alloc x w m = Ok r /\ length r = length x) /\
  (~ window_fits w m (Z.of_nat (length x)) -> fast_running_median (numI bld) alloc x w m = Err ValueError).
Proof.
  intros Ha Hm Om Hw. unfold fast_running_median, window_fits.
  assert (Hmod : (m mod 2 <> 0)%Z) by (rewrite Zmod_odd, Om; discriminate).
  destruct (scrunch_factor_I bld w m ltac:(lia) ltac:(lia) Hmod) as [ES _]. rewrite ES.
  destruct (Z.eqb_spec (m mod 2) 0) as [|_]; [contradiction|].
  rewrite scrunch_factor_F by lia. destruct (Z.ltb_spec w (2 * m)) as [L|L].
  - cbn [Z.eqb]. unfold running_median_py. destruct (Z.ltb_spec w 0); [lia|].
    destruct (running_median_correct spec_float SFltb (o_ofZ (@n_dbl (numI bld)) 0) (S754_zero false) alloc (map (@n_narrow (numI bld)) x) (Z.to_nat w) Ha) as [R1 R2].
    change (n_T (numI bld)) with spec_float in *. assert (LN : length (map (@n_narrow (numI bld)) x) = length x) by apply map_length.
    change (n_T (numI bld)) with spec_float in *. rewrite LN, odd_to_nat in * by lia. split.
    + intros [O B]. destruct R2 as (r & E & LR & _); [split; auto; lia|]. exists r. split; auto.
    + intros NF. apply R1. intros [O B]. apply NF. split; auto. destruct w; [discriminate|lia|lia].
  - assert (S2 : (2 <= w / m)%Z) by (apply Z.div_le_lower_bound; lia).
    destruct (Z.eqb_spec (w / m) 1); [lia|]. set (f := Z.to_nat (w / m)).
    assert (Ls : length (scrunch (numI bld) x f) = (length x / f)%nat) by (unfold scrunch; now rewrite map_length, seq_length).
    assert (EL : (Z.of_nat (length x) / (w / m))%Z = Z.of_nat (length x / f)).
    { rewrite Nat2Z.inj_div. unfold f. now rewrite Z2Nat.id by lia. }
    rewrite EL. set (s := scrunch (numI bld) x f) in *. unfold running_median_py. destruct (Z.ltb_spec m 0); [lia|].
    destruct (running_median_correct spec_float SFltb (o_ofZ (@n_dbl (numI bld)) 0) (S754_zero false) alloc (map (@n_narrow (numI bld)) s) (Z.to_nat m) Ha) as [R1 R2].
    change (n_T (numI bld)) with spec_float in *. assert (LN : length (map (@n_narrow (numI bld)) s) = length s) by apply map_length.
    change (n_T (numI bld)) with spec_float in *. rewrite LN, Ls, odd_to_nat in * by lia. split.
    + intros B. destruct R2 as (r & E & LR & _); [split; auto; lia|]. eexists. split.
      * match goal with |- bind ?q _ = _ => replace q with (Ok r) by (symmetry; exact E) end. cbn [bind]. reflexivity.
      * now rewrite map_length, seq_length.
    + intros B. match goal with |- bind ?q _ = _ => replace q with (Err (A := list spec_float) ValueError); [reflexivity|] end.
      symmetry. apply R1. intros [_ ?]. lia.
Qed.

Lemma rmed_outcome_I bld (alloc : nat -> list spec_float) (x : list spec_float) (tsamp width : R) tsI wI m : allocates alloc ->
  double_value tsI tsamp -> double_value wI width -> 0 < tsamp -> 0 <= width -> width / tsamp <= 2 ^ 51 ->
  (0 < m <= 2 ^ 52)%Z -> Z.odd m = true ->
  let w := ZnearestE (rnd64 (width / tsamp)) in
  py_round (numI bld) (o_div (@n_dbl (numI bld)) wI tsI) = w /\
  (window_fits w m (Z.of_nat (length x)) -> exists r, rmed (numI bld) alloc x tsI wI m = Ok r /\ length r = length x) /\
  (~ window_fits w m (Z.of_nat (length x)) -> rmed (numI bld) alloc x tsI wI m = Err ValueError).
Proof.
  intros Ha D1 D2 T0 W0 B Hm Om w.
  assert (W1 : 0 <= width / tsamp) by (apply Rmult_le_pos; [lra|left; now apply Rinv_0_lt_compat]).
  assert (B' : Rabs (width / tsamp) <= bpow radix2 51) by (rewrite Rabs_pos_eq by auto; change 51%Z with (Z.of_nat 51); rewrite bpow_2; exact B).
  assert (Ew : py_round (numF bld) (o_div (@n_dbl (numF bld)) width tsamp) = w).
  { apply py_round_F; [apply generic_format_round; typeclasses eauto|]. split.
    - rewrite <- (rnd64_id 0) by (apply (F64_int 0); lia). now apply rnd64_le.
    - rewrite <- (rnd64_id (bpow radix2 51)); [apply rnd64_le; change 51%Z with (Z.of_nat 51); rewrite bpow_2; exact B|].
      apply (F64_int (2 ^ 51)). lia. }
  destruct (py_round_I bld (o_div (@n_dbl (numI bld)) wI tsI) (o_div (@n_dbl (numF bld)) width tsamp)
      ltac:(split; [apply (fl_div 53 1024 p53 e1024 inc64); [now apply double_fl|now apply double_fl|lra|]|apply (rndf_bpow 53 1024 p53); [lia|exact B']];
            apply Rle_trans with (1 := B'); apply bpow_le; lia)) as [EI A].
  rewrite Ew in EI, A. split; [exact EI|].
  assert (Hw : (0 <= w <= 2 ^ 52)%Z).
  { split; [|lia]. unfold w. rewrite <- (Zrnd_IZR ZnearestE 0). apply Zrnd_le; [typeclasses eauto|].
    rewrite <- (rnd64_id 0) by (apply (F64_int 0); lia). now apply rnd64_le. }
  unfold rmed. rewrite EI. now apply fast_outcome_I.
Qed.

(** deredden() on any [float] data, with infinities and NaNs or not: it succeeds or raises ValueError as it
    does on finite data (C125), never leaves a buffer, and an infinity or NaN among the samples leaves one. *)
Theorem deredden_not_finite :
  forall (bld : build) (allocI : nat -> list spec_float) (dataI : list spec_float)
    (tsamp width : R) (tsampI widthI : spec_float) (m : Z),
  let size := Z.of_nat (length dataI) in
  let w := ZnearestE (rnd64 (width / tsamp)) in
  allocates allocI ->
  double_value tsampI tsamp -> double_value widthI width -> 0 < tsamp -> 0 <= width -> width / tsamp <= 2 ^ 51 ->
  (0 < m <= 2 ^ 52)%Z -> Z.odd m = true ->
  (window_fits w m size ->
   exists rI : list spec_float, rmed (numI bld) allocI dataI tsampI widthI m = Ok rI /\ length rI = length dataI /\
     forall v, In v dataI -> not_finite v -> exists v', In v' (minus (numI bld) dataI rI) /\ not_finite v') /\
  (~ window_fits w m size -> rmed (numI bld) allocI dataI tsampI widthI m = Err ValueError).
Proof.
  intros bld alloc x tsamp width tsI wI m size w Ha D1 D2 T0 W0 B Hm Om.
  destruct (rmed_outcome_I bld alloc x tsamp width tsI wI m Ha D1 D2 T0 W0 B Hm Om) as (_ & F1 & F2). split; [|exact F2].
  intros Fit. destruct (F1 Fit) as (r & E & L). exists r. split; auto. split; auto. intros v Hv Hn.
  now apply minus_nf with v.
Qed.

(** A search for periods [pmin] to [pmax] in [size] samples, whose arguments are accepted and not huge *)
Definition search_fits (flog : R -> R) (fpow : R -> nat -> R) (size : nat) (tsamp pmin pmax ducy wtsp : R) (bmin bmax : nat) : Prop :=
  Rabs ducy <= 2 ^ 900 /\ ducy < 1 /\ Rabs wtsp <= 2 ^ 900 /\
  (Z.of_nat size <= 33554432)%Z /\ (Z.of_nat bmax <= 4194304)%Z /\
  pmax / tsamp <= 2 ^ 63 /\ pmax <= 2 ^ 900 /\ (cycle_count flog pmin pmax bmin bmax < 2 ^ 64)%Z /\
  (Z.of_nat (size / bmin) <= 4194304)%Z /\
  0 < tsamp /\ 0 < pmin < pmax /\ (2 <= bmin <= bmax)%nat /\ rnd64 (tsamp * INR bmin) <= pmin /\
  (forall i, (Z.of_nat i < cycle_count flog pmin pmax bmin bmax)%Z -> factor fpow tsamp pmin bmin bmax i <= INR size).

Lemma nan_periodogram :
  forall (bld : build) (flog : R -> R) (fpow : R -> nat -> R)
    (flogI : spec_float -> spec_float) (fpowI : spec_float -> nat -> spec_float)
    (alloc : nat -> list R) (allocI : nat -> list spec_float) (allocz alloczI : nat -> list Z) (size : nat)
    (tsamp pmin pmax ducy wtsp : R) (tsampI pminI pmaxI ducyI wtspI : spec_float) (bmin bmax : nat),
  good_log flog -> good_pow fpow -> ieee_log flogI flog -> ieee_pow fpowI fpow ->
  allocates alloc -> allocates allocI -> allocates allocz -> allocates alloczI ->
  double_value tsampI tsamp -> double_value pminI pmin -> double_value pmaxI pmax ->
  double_value ducyI ducy -> double_value wtspI wtsp ->
  search_fits flog fpow size tsamp pmin pmax ducy wtsp bmin bmax ->
  exists (widths : list Z) (periodsI : list spec_float) (bins : list Z) (periods : list R) (zero_snrs : arr2 R),
    generate_width_trials (numI bld) (Z.of_nat bmin) ducyI wtspI = Ok widths /\
    py_periodogram (numI bld) flogI fpowI allocI alloczI (repeat S754_nan size) tsampI (map Z.to_nat widths) pminI pmaxI bmin bmax
    = Ok (periodsI, bins, Arr2 (length periods) (length widths) (repeat S754_nan (length periods * length widths))) /\
    py_periodogram (numF bld) flog fpow alloc allocz (repeat 0 size) tsamp (map Z.to_nat widths) pmin pmax bmin bmax
    = Ok (periods, bins, zero_snrs) /\
    Forall2 double_value periodsI periods.
Proof.
  intros bld flog fpow flogI fpowI alloc allocI allocz alloczI size tsamp pmin pmax ducy wtsp
    tsI pminI pmaxI ducyI wtspI bmin bmax Hl Hp HlI HpI Ha HaI Hz HzI D1 D2 D3 D4 D5
    (Bd & Hd & Bw & Hs & Hb & Hpt & Hpx & Hc & Hr & HT0 & Hpm & Hbm & Hbase & Hfac).
  destruct (widths_I bld (Z.of_nat bmin) ducyI ducy wtspI wtsp) as (ws & W1 & W2 & W3 & W4); auto; try lia.
  { split; [now apply double_fl|]. change 900%Z with (Z.of_nat 900). now rewrite bpow_2. }
  { split; [now apply double_fl|]. change 900%Z with (Z.of_nat 900). now rewrite bpow_2. }
  destruct (check_of bld tsamp pmin pmax bmin bmax HT0 Hpm Hbm Hb Hbase) as [HC Egeo].
  assert (Ecyc : pl_cyc (numF bld) flog pmin pmax bmin bmax = cycle_count flog pmin pmax bmin bmax).
  { unfold pl_cyc, cycle_count. rewrite Egeo. reflexivity. }
  assert (Ef : forall i, pl_f (numF bld) fpow tsamp pmin bmin bmax i = factor fpow tsamp pmin bmin bmax i).
  { intros i. unfold factor. rewrite <- Egeo. unfold first_factor.
    assert (Ei : pl_ini (numF bld) tsamp pmin bmin = rnd64 (pmin / rnd64 (tsamp * INR bmin))).
    { apply (iniF bld size tsamp pmin pmax bmin bmax); auto. lia. }
    rewrite <- Ei. reflexivity. }
  assert (L1 : fl64 tsI tsamp) by now apply double_fl.
  destruct (search_nan bld flog fpow flogI fpowI size tsamp pmin pmax bmin bmax tsI pminI pmaxI)
    with (ws := map Z.to_nat ws) (dI := repeat S754_nan size) (allocI := allocI) (alloc := alloc)
         (alloczI := alloczI) (allocz := allocz)
    as (PI & B & SI & P & S & E1 & E2 & F1 & R1 & R2 & R3); auto.
  - intros y r Hy Hr1. apply double_fl, HlI; auto. now apply double_fl.
  - intros y r k Hy Hr1 Hk. apply double_fl, HpI; auto. now apply double_fl.
  - now apply double_fl.
  - now apply double_fl.
  - now rewrite Ecyc.
  - intros i Hi. unfold fits. rewrite Ef. apply Hfac. unfold pl_cycles in Hi. rewrite Ecyc in Hi. lia.
  - destruct ws; [congruence|discriminate].
  - intros w Hw. apply in_map_iff in Hw as (z & <- & Hz'). specialize (W4 z Hz'). lia.
  - apply repeat_length.
  - intros i Hi. apply (repeat_spec size S754_nan). apply nth_In. now rewrite repeat_length.
  - exists ws, PI, B, P, S. split; [exact W1|]. split.
    { rewrite map_length in R2, R3. destruct SI as [ra ca da]. cbn [a_rows a_cols a_data] in *. now rewrite E1, R1, R2, R3. }
    split; [exact E2|]. eapply Forall2_mono; [|exact F1]. intros a r. apply double_fl.
Qed.

(** C128.  One infinity or NaN among the samples: ffa_search() raises nothing on its account, with
    dereddening or without; the samples searched are all NaN and so is every S/N of the periodogram.  The
    periods and bins are those of a search on zeros. *)
Theorem ffa_search_not_finite :
  forall (bld : build) (flog : R -> R) (fpow : R -> nat -> R)
    (flogI : spec_float -> spec_float) (fpowI : spec_float -> nat -> spec_float)
    (alloc : nat -> list R) (allocI : nat -> list spec_float) (allocz alloczI : nat -> list Z)
    (dataI : list spec_float) (v : spec_float)
    (tsamp pmin pmax ducy wtsp rw : R) (tsampI pminI pmaxI ducyI wtspI rwI : spec_float)
    (fpmin rmp : Z) (bmin bmax : nat) (deredden : bool),
  let size := length dataI in
  good_log flog -> good_pow fpow -> ieee_log flogI flog -> ieee_pow fpowI fpow ->
  allocates alloc -> allocates allocI -> allocates allocz -> allocates alloczI ->
  double_value tsampI tsamp -> double_value pminI pmin -> double_value pmaxI pmax ->
  double_value ducyI ducy -> double_value wtspI wtsp -> double_value rwI rw ->
  search_fits flog fpow size tsamp pmin pmax ducy wtsp bmin bmax ->
  0 <= rw -> rw / tsamp <= 2 ^ 51 -> (0 < rmp <= 2 ^ 52)%Z -> Z.odd rmp = true ->
  window_fits (ZnearestE (rnd64 (rw / tsamp))) rmp (Z.of_nat size) ->
  In v dataI -> not_finite v ->
  exists (widths : list Z) (periodsI : list spec_float) (bins : list Z) (periods : list R) (zero_snrs : arr2 R),
    ffa_search (numI bld) flogI fpowI allocI alloczI dataI tsampI pminI pmaxI fpmin bmin bmax ducyI wtspI
      deredden rwI rmp false
    = Ok (repeat S754_nan size,
          (widths, periodsI, bins, Arr2 (length periods) (length widths)
             (repeat S754_nan (length periods * length widths)))) /\
    py_periodogram (numF bld) flog fpow alloc allocz (repeat 0 size) tsamp (map Z.to_nat widths) pmin pmax bmin bmax
    = Ok (periods, bins, zero_snrs) /\
    Forall2 double_value periodsI periods.
Proof.
  intros bld flog fpow flogI fpowI alloc allocI allocz alloczI dataI v tsamp pmin pmax ducy wtsp rw
    tsI pminI pmaxI ducyI wtspI rwI fpmin rmp bmin bmax deredden size Hl Hp HlI HpI Ha HaI Hz HzI D1 D2 D3 D4 D5 D6 HS
    R0 R1 M0 MO Fit Hv Hn.
  assert (HT0 : 0 < tsamp) by apply HS.
  destruct (nan_periodogram bld flog fpow flogI fpowI alloc allocI allocz alloczI size tsamp pmin pmax ducy wtsp tsI pminI pmaxI ducyI wtspI
    bmin bmax) as (ws & PI & B & P & S & W & E1 & E2 & F); auto.
  exists ws, PI, B, P, S. split; [|now split]. unfold ffa_search.
  assert (EX : forall x : list spec_float, length x = size -> (exists v, In v x /\ not_finite v) -> normalised (numI bld) x = repeat S754_nan size).
  { intros x L (u & H1 & H2). rewrite <- L. now apply normalise_not_finite with u. }
  destruct deredden.
  - destruct (deredden_not_finite bld allocI dataI tsamp rw tsI rwI rmp HaI D1 D6 HT0 R0 R1 M0 MO) as [G _].
    destruct (G Fit) as (rI & E & L & HN). rewrite E. cbn [bind].
    change (n_T (numI bld)) with spec_float in *. rewrite L, Nat.eqb_refl. cbn [bind guard].
    rewrite EX; [|unfold minus; rewrite map_length, combine_length; change (n_T (numI bld)) with spec_float in *; unfold size; lia|now apply HN with v].
    rewrite W. cbn [bind]. rewrite E1. reflexivity.
  - cbn [bind]. rewrite EX; [|reflexivity|eauto]. rewrite W. cbn [bind]. rewrite E1. reflexivity.
Qed.

(** find_peaks() on S/Ns which are all NaN.  What it does is what it does on any other S/Ns up to the fit:
    the control points are NaN; if the fit returns (or if there are less than minseg points) no trial is
    above the threshold and no peak is found for this width, otherwise its exception is raised. *)
Theorem find_peaks_nan :
  forall (bld : build) (fit : list spec_float -> list spec_float -> Z -> res (spec_float -> spec_float))
    (argsort : list spec_float -> list nat) (f s : list spec_float) (T smin segwidth nstd : spec_float) (minseg polydeg : Z)
    (clrad : spec_float), length s = length f ->
  find_peaks_single (numI bld) fit argsort f (repeat S754_nan (length f)) T smin segwidth nstd minseg polydeg clrad
  = match segment_stats (numI bld) f s T segwidth with
    | Ok (fc, _, _) =>
      if (minseg <=? Z.of_nat (length fc))%Z then
        match fit fc (repeat S754_nan (length fc)) polydeg with
        | Ok _ => Ok [] | Err e => Err e | UB => UB | Loop => Loop
        end
      else Ok []
    | Err e => Err e | UB => UB | Loop => Loop
    end.
Proof.
  intros. rewrite (find_single_nan bld fit argsort f s) by auto. reflexivity.
Qed.

(** returns nothing, or raises an exception *)
Definition nothing {A} (r : res (list A)) : Prop := r = Ok [] \/ exists e, r = Err e.

Lemma mapM_nothing {A B} (g : A -> res (list B)) l : (forall a, In a l -> nothing (g a)) ->
  (exists n, mapM g l = Ok (repeat [] n)) \/ exists e, mapM g l = Err e.
Proof.
  induction l as [|a l IH]; intros H; [left; now exists 0%nat|]. cbn [mapM].
  destruct (H a ltac:(now left)) as [->|(e & ->)]; cbn [bind]; [|right; eauto].
  destruct IH as [(n & ->)|(e & ->)]; [intros; apply H; now right| |]; cbn [bind]; [left; now exists (S n)|right; eauto].
Qed.

Lemma segment_stats_outcome N (f s : list (n_T N)) T w :
  (exists r, segment_stats N f s T w = Ok r) \/ exists e, segment_stats N f s T w = Err e.
Proof.
  unfold segment_stats. cbv zeta.
  repeat match goal with |- context [if ?c then _ else _] => destruct c; [right; eexists; reflexivity|] end.
  left. eauto.
Qed.

Section Worker.
Context (bld : build) (flog : R -> R) (fpow : R -> nat -> R).
Context (flogI : spec_float -> spec_float) (fpowI : spec_float -> nat -> spec_float).
Context (fit : list spec_float -> list spec_float -> Z -> res (spec_float -> spec_float)).
Context (argsort : list spec_float -> list nat).
Context (Hfit : forall fc sc d, (exists thr, fit fc sc d = Ok thr) \/ exists e, fit fc sc d = Err e).
Notation NI := (numI bld).

Lemma single_nothing (f : list spec_float) T smin segwidth nstd minseg polydeg clrad :
  nothing (find_peaks_single NI fit argsort f (repeat S754_nan (length f)) T smin segwidth nstd minseg polydeg clrad).
Proof.
  rewrite (find_peaks_nan bld fit argsort f f) by reflexivity.
  destruct (segment_stats_outcome NI f f T segwidth) as [([[fc a] b] & ->)|(e & ->)]; [|right; eauto].
  destruct (minseg <=? Z.of_nat (length fc))%Z; [|now left].
  destruct (Hfit fc (repeat S754_nan (length fc)) polydeg) as [(thr & ->)|(e & ->)]; [now left|right; eauto].
Qed.

Lemma col_nan (snrs : arr2 spec_float) n c iw : snrs = Arr2 n c (repeat S754_nan (n * c)) -> (iw < c)%nat ->
  map (fun i => at2 (o_ofZ (@n_dbl NI) 0) snrs i iw) (seq 0 (a_rows snrs)) = repeat S754_nan n.
Proof.
  intros -> Hiw. cbn [a_rows]. rewrite (map_const _ S754_nan); [now rewrite seq_length|].
  intros i Hi. apply in_seq in Hi. unfold at2. cbn [a_cols a_data].
  apply (repeat_spec (n * c)). apply nth_In. rewrite repeat_length. nia.
Qed.

Lemma peaks_nothing (f : list spec_float) bins widths (snrs : arr2 spec_float) T dm smin segwidth nstd minseg polydeg clrad :
  snrs = Arr2 (length f) (length widths) (repeat S754_nan (length f * length widths)) ->
  nothing (find_peaks NI fit argsort f bins widths snrs T dm smin segwidth nstd minseg polydeg clrad).
Proof.
  intros HS. unfold find_peaks.
  match goal with |- nothing (bind (mapM ?g ?l) _) => destruct (mapM_nothing g l) as [(q & E)|(e & E)] end.
  - intros iw Hiw. apply in_seq in Hiw.
    match goal with |- nothing (bind ?r _) => enough (K : nothing r) by (destruct K as [K|(e & K)]; rewrite K; cbn [bind]; [now left|right; eauto]) end.
    pose proof (col_nan snrs (length f) (length widths) iw HS ltac:(lia)) as C.
    match goal with |- nothing (find_peaks_single _ _ _ _ ?s _ _ _ _ _ _ _) => replace s with (repeat S754_nan (length f)) by (symmetry; exact C) end.
    apply single_nothing.
  - rewrite E. cbn [bind]. left. f_equal. assert (K : forall m, concat (repeat (@nil (peak NI)) m) = []) by (induction m; auto). now rewrite K.
  - rewrite E. cbn [bind]. right. eauto.
Qed.

Lemma pg_nothing (pg : pgram NI) k (n : nat) :
  pg_snrs pg = Arr2 n (length (pg_widths pg)) (repeat S754_nan (n * length (pg_widths pg))) -> length (pg_periods pg) = n ->
  nothing (find_peaks_pg NI fit argsort pg k).
Proof.
  intros HS HP. unfold find_peaks_pg. cbv zeta.
  assert (T0 : (exists T, md_tobs (pg_md pg) = Ok T) \/ exists e, md_tobs (pg_md pg) = Err e).
  { unfold md_tobs. destruct (md_get _ _) as [[]|]; eauto. }
  assert (T1 : (exists d, md_dm (pg_md pg) = Ok d) \/ exists e, md_dm (pg_md pg) = Err e).
  { unfold md_dm. destruct (md_get _ _) as [[]|]; eauto. }
  destruct T0 as [(T & ->)|(e & ->)]; cbn [bind]; [|right; eauto].
  destruct T1 as [(d & ->)|(e & ->)]; cbn [bind]; [|right; eauto].
  set (f := map _ (pg_periods pg)).
  assert (Lf : @length spec_float f = n) by (unfold f; now rewrite map_length). rewrite <- Lf in HS.
  destruct (pk_clrad k) as [clrad|]; [now apply peaks_nothing|].
  destruct (pg_widths pg) as [|w ws] eqn:EW; [now left|].
  pose proof (col_nan (pg_snrs pg) (length f) (length (w :: ws)) 0 HS ltac:(cbn; lia)) as C.
  match goal with |- nothing (bind (find_peaks_single _ _ _ _ ?s _ _ _ _ _ _ _) _) => replace s with (repeat S754_nan (length f)) by (symmetry; exact C) end.
  match goal with |- nothing (bind ?r _) => assert (K : nothing r) by apply single_nothing; destruct K as [E|(e & E)]; rewrite E; cbn [bind]; right; eauto end.
Qed.

(** the sections of a search range *)
Definition range_fits (size : nat) (tsamp : R) (k : search_kw NI) : Prop :=
  exists pmin pmax ducy wtsp,
    double_value (sk_pmin k) pmin /\ double_value (sk_pmax k) pmax /\ double_value (sk_ducy k) ducy /\ double_value (sk_wtsp k) wtsp /\
    search_fits flog fpow size tsamp pmin pmax ducy wtsp (sk_bmin k) (sk_bmax k).

Lemma new_series_outcome (x : list spec_float) t md :
  (exists m, new_series (N := NI) x t md = Ok (Series (N := NI) x t m)) \/ exists e, new_series (N := NI) x t md = Err e.
Proof. unfold new_series, metadata_new. destruct (forallb _ _); cbn [guard bind]; [left; eexists; reflexivity|right; eauto]. Qed.
End Worker.

(** C128.  A worker given a file with one infinity or NaN among its samples reports no peak, for any of
    the search ranges, however bright the signals in it are; unless an exception is raised, by numpy.polyfit()
    for instance, which ends the run of the pipeline (C79). *)
Theorem worker_not_finite :
  forall (bld : build) (flog : R -> R) (fpow : R -> nat -> R)
    (flogI : spec_float -> spec_float) (fpowI : spec_float -> nat -> spec_float)
    (alloc : nat -> list R) (allocI : nat -> list spec_float) (allocz alloczI : nat -> list Z)
    (fit : list spec_float -> list spec_float -> Z -> res (spec_float -> spec_float)) (argsort : list spec_float -> list nat)
    (load : string -> res (series (numI bld))) (fname : string) (ts : series (numI bld)) (v : spec_float)
    (tsamp rw : R) (rwI : spec_float) (rmp : Z) (confs : list (search_kw (numI bld) * peaks_kw (numI bld))),
  let size := length (se_data ts) in
  good_log flog -> good_pow fpow -> ieee_log flogI flog -> ieee_pow fpowI fpow ->
  allocates alloc -> allocates allocI -> allocates allocz -> allocates alloczI ->
  (forall fc sc d, (exists thr, fit fc sc d = Ok thr) \/ exists e, fit fc sc d = Err e) ->
  load fname = Ok ts -> double_value (se_tsamp ts) tsamp -> double_value rwI rw -> 0 < tsamp ->
  0 <= rw -> rw / tsamp <= 2 ^ 51 -> (0 < rmp <= 2 ^ 52)%Z -> Z.odd rmp = true ->
  (forall conf, In conf confs -> range_fits bld flog fpow size tsamp (fst conf)) ->
  In v (se_data ts) -> not_finite v ->
  nothing (process_fname (numI bld) flogI fpowI allocI alloczI fit argsort load rwI (PInt rmp) confs fname).
Proof.
  intros bld flog fpow flogI fpowI alloc allocI allocz alloczI fit argsort load fname ts v tsamp rw rwI rmp confs size
    Hl Hp HlI HpI Ha HaI Hz HzI Hfit HL D1 D2 T0 R0 R1 M0 MO HC Hv Hn.
  unfold process_fname. rewrite HL. cbn [bind].
  assert (T1 : (exists d, md_dm (se_md ts) = Ok d) \/ exists e, md_dm (se_md ts) = Err e).
  { unfold md_dm. destruct (md_get _ _) as [[]|]; eauto. }
  destruct T1 as [(d & ->)|(e & ->)]; cbn [bind]; [|right; eauto].
  destruct d as [d|]; cbn [bind guard]; [|right; eauto].
  unfold prepare_ts, se_deredden, fast_running_median_py.
  destruct (deredden_not_finite bld allocI (se_data ts) tsamp rw (se_tsamp ts) rwI rmp HaI D1 D2 T0 R0 R1 M0 MO) as [G1 G2].
  fold size in G1, G2. unfold rmed in G1, G2.
  destruct (window_dec (ZnearestE (rnd64 (rw / tsamp))) rmp (Z.of_nat size)) as [Fit|NFit]; [|rewrite (G2 NFit); cbn [bind]; right; eauto].
  destruct (G1 Fit) as (r & E & Lr & HN). rewrite E. cbn [bind]. change (n_T (numI bld)) with spec_float in *. rewrite Lr, Nat.eqb_refl. cbn [bind guard].
  set (x := minus (numI bld) (se_data ts) r) in *.
  assert (Lx : length x = size) by (unfold x, minus; rewrite map_length, combine_length; change (n_T (numI bld)) with spec_float in *; unfold size; lia).
  destruct (new_series_outcome bld x (se_tsamp ts) (se_md ts)) as [(m1 & E1)|(e & E1)]; rewrite E1; cbn [bind]; [|right; eauto].
  unfold se_normalise. cbn [se_data se_tsamp se_md].
  destruct (HN v Hv Hn) as (v' & Hv' & Hn').
  assert (EX : normalised (numI bld) x = repeat S754_nan size).
  { rewrite <- Lx. now apply normalise_not_finite with v'. }
  rewrite EX.
  destruct (new_series_outcome bld (repeat S754_nan size) (se_tsamp ts) m1) as [(m2 & E2)|(e & E2)]; rewrite E2; cbn [bind]; [|right; eauto].
  clear E E1 E2 EX. induction confs as [|[k q] confs IH]; [now left|]. cbn [foreach]. unfold ffa_search_ts at 1. cbn [bind fst snd se_data se_tsamp se_md].
  destruct (HC (k, q) ltac:(now left)) as (pmin & pmax & ducy & wtsp & K1 & K2 & K3 & K4 & K5). cbn [fst] in *.
  destruct (nan_periodogram bld flog fpow flogI fpowI alloc allocI allocz alloczI size tsamp pmin pmax ducy wtsp (se_tsamp ts) (sk_pmin k) (sk_pmax k)
    (sk_ducy k) (sk_wtsp k) (sk_bmin k) (sk_bmax k)) as (ws & PI & B & P & S & W & E1 & E2 & F); auto.
  rewrite W. cbn [bind]. rewrite E1. cbn [bind].
  destruct (pg_nothing bld fit argsort Hfit (Pgram (N := numI bld) ws PI B (Arr2 (length P) (length ws) (repeat S754_nan (length P * length ws))) m2) q (length P))
    as [E|(e & E)].
  { reflexivity. }
  { exact (F2_len _ _ _ F). }
  - rewrite E. cbn [bind]. rewrite app_nil_r. apply IH. intros. apply HC. now right.
  - rewrite E. cbn [bind]. right. eauto.
Qed.

(** so does rseek (called without --rmed_minpts) *)
Theorem rseek_not_finite :
  forall (bld : build) (flog : R -> R) (fpow : R -> nat -> R)
    (flogI : spec_float -> spec_float) (fpowI : spec_float -> nat -> spec_float)
    (alloc : nat -> list R) (allocI : nat -> list spec_float) (allocz alloczI : nat -> list Z)
    (fit : list spec_float -> list spec_float -> Z -> res (spec_float -> spec_float)) (argsort : list spec_float -> list nat)
    (ts : series (numI bld)) (v : spec_float) (a : args (numI bld)) (tsamp pmin pmax wtsp rw : R) (rmp : Z),
  let size := length (se_data ts) in
  good_log flog -> good_pow fpow -> ieee_log flogI flog -> ieee_pow fpowI fpow ->
  allocates alloc -> allocates allocI -> allocates allocz -> allocates alloczI ->
  (forall fc sc d, (exists thr, fit fc sc d = Ok thr) \/ exists e, fit fc sc d = Err e) ->
  double_value (se_tsamp ts) tsamp -> double_value (ra_rmed_width a) rw -> double_value (ra_pmin a) pmin ->
  double_value (ra_pmax a) pmax -> double_value (ra_wtsp a) wtsp -> ra_rmed_minpts a = PInt rmp ->
  0 <= rw -> rw / tsamp <= 2 ^ 51 -> (0 < rmp <= 2 ^ 52)%Z -> Z.odd rmp = true ->
  (0 <= ra_bmin a)%Z -> (0 <= ra_bmax a)%Z ->
  search_fits flog fpow size tsamp pmin pmax (rnd64 (3 / 10)) wtsp (Z.to_nat (ra_bmin a)) (Z.to_nat (ra_bmax a)) ->
  In v (se_data ts) -> not_finite v ->
  nothing (rseek_search (numI bld) flogI fpowI allocI alloczI fit argsort a ts).
Proof.
  intros bld flog fpow flogI fpowI alloc allocI allocz alloczI fit argsort ts v a tsamp pmin pmax wtsp rw rmp size
    Hl Hp HlI HpI Ha HaI Hz HzI Hfit D1 D2 D3 D4 D5 EM R0 R1 M0 MO B1 B2 HS Hv Hn.
  assert (T0 : 0 < tsamp) by apply HS.
  unfold rseek_search, ffa_search_py, se_deredden, fast_running_median_py. rewrite EM.
  destruct (deredden_not_finite bld allocI (se_data ts) tsamp rw (se_tsamp ts) (ra_rmed_width a) rmp HaI D1 D2 T0 R0 R1 M0 MO) as [G1 G2].
  fold size in G1, G2. unfold rmed in G1, G2.
  destruct (window_dec (ZnearestE (rnd64 (rw / tsamp))) rmp (Z.of_nat size)) as [Fit|NFit]; [|rewrite (G2 NFit); cbn [bind]; right; eauto].
  destruct (G1 Fit) as (r & E & Lr & HN). rewrite E. cbn [bind]. change (n_T (numI bld)) with spec_float in *. rewrite Lr, Nat.eqb_refl. cbn [bind guard].
  set (x := minus (numI bld) (se_data ts) r) in *.
  assert (Lx : length x = size) by (unfold x, minus; rewrite map_length, combine_length; change (n_T (numI bld)) with spec_float in *; unfold size; lia).
  destruct (new_series_outcome bld x (se_tsamp ts) (se_md ts)) as [(m1 & E1)|(e & E1)]; rewrite E1; cbn [bind]; [|right; eauto].
  unfold se_normalise. cbn [se_data se_tsamp se_md].
  destruct (HN v Hv Hn) as (v' & Hv' & Hn').
  assert (EX : normalised (numI bld) x = repeat S754_nan size).
  { rewrite <- Lx. now apply normalise_not_finite with v'. }
  rewrite EX.
  destruct (new_series_outcome bld (repeat S754_nan size) (se_tsamp ts) m1) as [(m2 & E2)|(e & E2)]; rewrite E2; cbn [bind se_data se_tsamp se_md]; [|right; eauto].
  assert (D6 : double_value (o_div (@n_dbl (numI bld)) (o_ofZ (@n_dbl (numI bld)) 3) (o_ofZ (@n_dbl (numI bld)) 10)) (rnd64 (3 / 10))).
  { apply double_fl. destruct (lit_I bld 3 ltac:(lia)) as [L3 E3]. destruct (lit_I bld 10 ltac:(lia)) as [L10 E10].
    assert (K : fl64 (o_div (@n_dbl (numI bld)) (o_ofZ (@n_dbl (numI bld)) 3) (o_ofZ (@n_dbl (numI bld)) 10))
      (o_div (@n_dbl (numF bld)) (o_ofZ (@n_dbl (numF bld)) 3) (o_ofZ (@n_dbl (numF bld)) 10))).
    { apply (d_div bld 53 0 _ _ _ _); [lia|exact L3|apply L10|]. change (bpow radix2 0 <= Rabs (o_ofZ (@n_dbl (numF bld)) 10)). rewrite E10.
      change (bpow radix2 0) with 1. rewrite Rabs_pos_eq; lra. }
    rewrite E3, E10 in K. exact K. }
  destruct (nan_periodogram bld flog fpow flogI fpowI alloc allocI allocz alloczI size tsamp pmin pmax (rnd64 (3 / 10)) wtsp (se_tsamp ts) (ra_pmin a) (ra_pmax a)
    _ (ra_wtsp a) (Z.to_nat (ra_bmin a)) (Z.to_nat (ra_bmax a)) Hl Hp HlI HpI Ha HaI Hz HzI D1 D3 D4 D6 D5 HS) as (ws & PI & B & P & S & W & F1 & F2 & F).
  rewrite Z2Nat.id in W by auto.
  match goal with |- context [generate_width_trials ?n ?b ?c ?d] => replace (generate_width_trials n b c d) with (Ok ws) by (symmetry; exact W) end. cbn [bind].
  destruct (size_t (ra_bmin a) && size_t (ra_bmax a)); cbn [guard bind]; [|right; eauto].
  rewrite F1. cbn [bind]. apply pg_nothing with (n := length P); auto. exact (F2_len _ _ _ F).
Qed.

Example normalise_not_finite_ex :
  In (S754_infinity false) [sf_of 1; S754_infinity false; sf_of 2] /\ not_finite (S754_infinity false) /\ not_finite S754_nan.
Proof. split; [cbn; auto|]. now split. Qed.

(** 3999 good samples and one infinity *)
Definition spoiled : list spec_float := S754_infinity false :: repeat (sf_of 1) 3999.

Example ffa_search_not_finite_ex :
  let tsamp := / 1024 in let pmin := / 32 in let pmax := 3 / 64 in let ducy := / 4 in let wtsp := 3 / 2 in let rw := 3 / 1024 in
  let flog x := up64 (ln x) in let fpow x k := up64 (x ^ k) in
  good_log flog /\ good_pow fpow /\ (exists flogI fpowI, ieee_log flogI flog /\ ieee_pow fpowI fpow) /\
  (exists tsampI pminI pmaxI ducyI wtspI, double_value tsampI tsamp /\ double_value pminI pmin /\
     double_value pmaxI pmax /\ double_value ducyI ducy /\ double_value wtspI wtsp) /\
  (exists rwI, double_value rwI rw) /\
  search_fits flog fpow (length spoiled) tsamp pmin pmax ducy wtsp 20 40 /\
  0 <= rw /\ rw / tsamp <= 2 ^ 51 /\ (0 < 101 <= 2 ^ 52)%Z /\ Z.odd 101 = true /\
  window_fits (ZnearestE (rnd64 (rw / tsamp))) 101 (Z.of_nat (length spoiled)) /\
  In (S754_infinity false) spoiled /\ not_finite (S754_infinity false).
Proof.
  destruct ffa_search_deredden_ieee_ex as (G1 & G2 & G3 & G4 & A1 & A2 & A3 & A4 & A5 & A6 & A7 & A8 & A9 & A10 & A11 & A12 & A13 & A14 & _ & _ & A15 & _).
  destruct deredden_ieee_ex as ((tI & wI & _ & W) & B1 & B2 & B3 & B4 & B5 & _).
  cbv zeta in *.
  assert (LS : length spoiled = length blip).
  { rewrite blip_len. unfold spoiled. cbn [length]. rewrite repeat_length. reflexivity. }
  rewrite LS. repeat (match goal with |- _ /\ _ => split; [assumption|] end).
  split; [eauto|]. split; [unfold search_fits; repeat (match goal with |- _ /\ _ => split; [assumption|] end); assumption|].
  repeat (match goal with |- _ /\ _ => split; [assumption|] end). split; [now left|reflexivity].
Qed.

Example find_peaks_nan_ex : length [sf_of 3; sf_of 2; sf_of 1] = length [sf_of 1; sf_of 2; sf_of 4].
Proof. reflexivity. Qed.

Example worker_not_finite_ex : forall bld,
  let flog x := up64 (ln x) in let fpow x k := up64 (x ^ k) in
  exists (ts : series (numI bld)) (rwI : spec_float) (k : search_kw (numI bld)),
    double_value (se_tsamp ts) (/ 1024) /\ double_value rwI (3 / 1024) /\ 0 < / 1024 /\ 0 <= 3 / 1024 /\ 3 / 1024 / / 1024 <= 2 ^ 51 /\
    range_fits bld flog fpow (length (se_data ts)) (/ 1024) k /\
    In (S754_infinity false) (se_data ts) /\ not_finite (S754_infinity false).
Proof.
  intros bld. cbv zeta.
  destruct ffa_search_not_finite_ex as (_ & _ & _ & (tI & p1 & p2 & d & w & T & P1 & P2 & D & W) & (rI & RW) & SF & R0 & R1 & _ & _ & _ & V & NF).
  cbv zeta in *.
  exists (Series (N := numI bld) spoiled tI []), rI, (Search_kw (N := numI bld) p1 p2 8%Z 20%nat 40%nat d w). cbn [se_data se_tsamp].
  split; [exact T|]. split; [exact RW|]. split; [lra|]. split; [exact R0|]. split; [exact R1|]. split; [|now split].
  exists (/ 32), (3 / 64), (/ 4), (3 / 2). cbn [sk_pmin sk_pmax sk_ducy sk_wtsp sk_bmin sk_bmax]. auto 6.
Qed.

Example rseek_not_finite_ex : forall bld,
  let flog x := up64 (ln x) in let fpow x k := up64 (x ^ k) in
  exists (ts : series (numI bld)) (a : args (numI bld)),
    double_value (se_tsamp ts) (/ 1024) /\ double_value (ra_rmed_width a) (3 / 1024) /\ double_value (ra_pmin a) (/ 32) /\
    double_value (ra_pmax a) (3 / 64) /\ double_value (ra_wtsp a) (3 / 2) /\ ra_rmed_minpts a = PInt 101 /\
    search_fits flog fpow (length (se_data ts)) (/ 1024) (/ 32) (3 / 64) (rnd64 (3 / 10)) (3 / 2) (Z.to_nat (ra_bmin a)) (Z.to_nat (ra_bmax a)) /\
    In (S754_infinity false) (se_data ts).
Proof.
  intros bld. cbv zeta.
  destruct ffa_search_not_finite_ex as (_ & _ & _ & (tI & p1 & p2 & d & w & T & P1 & P2 & D & W) & (rI & RW) & SF & R0 & R1 & _ & _ & _ & V & NF).
  cbv zeta in *.
  exists (Series (N := numI bld) spoiled tI []), (Args (N := numI bld) Sigproc p1 p2 20 40 (S754_zero false) w rI (PInt 101) (S754_zero false) ""%string).
  cbn [se_data se_tsamp ra_rmed_width ra_pmin ra_pmax ra_wtsp ra_rmed_minpts ra_bmin ra_bmax].
  do 6 (split; [first [assumption|reflexivity]|]). split; [|exact V].
  destruct SF as (_ & _ & S). split; [|split; [|exact S]].
  - assert (K : 0 <= rnd64 (3 / 10) <= rnd64 1) by (split; [rewrite <- (rnd64_id 0) by (apply (F64_int 0); lia); apply rnd64_le; lra|apply rnd64_le; lra]).
    rewrite (rnd64_id 1) in K by (apply (F64_int 1); lia). rewrite Rabs_pos_eq by lra.
    assert (1 <= 2 ^ 900) by (apply pow_R1_Rle; lra). lra.
  - assert (K : rnd64 (3 / 10) <= rnd64 (1 / 2)) by (apply rnd64_le; lra).
    rewrite (rnd64_id (1 / 2)) in K by (apply (F64_half 1); lia). lra.
Qed.

Print Assumptions normalise_not_finite.
Print Assumptions deredden_not_finite.
Print Assumptions ffa_search_not_finite.
Print Assumptions find_peaks_nan.
Print Assumptions worker_not_finite.
Print Assumptions rseek_not_finite.
