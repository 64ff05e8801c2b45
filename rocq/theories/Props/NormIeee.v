(** normalise() and ffa_search() in IEEE arithmetic. *)
From Coq Require Import List Arith ZArith Bool Lia Reals Lra SpecFloat.
From Flocq Require Import Core.
From Verif Require Import Base.Result Base.Buf Base.Num Model.Transforms Model.Libffa Model.Periodogram Model.TimeSeries
  Model.Search Spec.Ieee Spec.Noise Proof.Ieee Proof.KernelsIeee Proof.SearchIeee Proof.NormIeee Proof.NanIeee
  Proof.WidthsIeee Proof.Index Proof.Downsample Proof.Periodogram Props.Ieee Props.Downsample Props.Snr
  Props.PeriodogramFloat Props.PeriodogramRounding Props.PeriodogramIeee.
Import ListNotations.
Local Open Scope R_scope.

Lemma Forall2_r {A B} (P : A -> B -> Prop) (Q : B -> Prop) l l' : (forall a b, P a b -> Q b) ->
  Forall2 P l l' -> Forall Q l'.
Proof. intros H. induction 1; constructor; eauto. Qed.

(** C112.  normalise() of finite [float] samples, two of which differ: finite samples again, those of
    normalise() on the numbers they stand for, none above 2^14.  No sum or square overflows and the
    standard deviation is not 0. *)
Theorem normalise_ieee :
  forall (bld : build) (xI : list spec_float) (x : list R) (u v : R),
  Forall2 single_value xI x -> (Z.of_nat (length x) <= 33554432)%Z ->
  In u x -> In v x -> u <> v ->
  Forall2 single_value (normalised (numI bld) xI) (normalised (numF bld) x) /\
  Forall (fun y => Rabs y <= 2 ^ 14) (normalised (numF bld) x).
Proof.
  intros bld xI x u v HF HL Hu Hv Hne.
  assert (HF' : Forall2 fl32 xI x) by (eapply Forall2_mono; [|exact HF]; intros a b; apply single_fl).
  assert (H1 : (1 <= length x)%nat) by (destruct x; [destruct Hu|cbn; lia]).
  pose proof (normalised_I bld xI x H1 HL HF' u v Hu Hv Hne) as G. split.
  - eapply Forall2_mono; [|exact G]. intros a b [H _]. now apply single_fl.
  - eapply Forall2_r; [|exact G]. intros a b [_ H]. cbv beta. rewrite <- bpow_2. exact H.
Qed.

(** if the samples are all equal, the result is NaN for every sample, without any error *)
Theorem normalise_constant_nan :
  forall (bld : build) (xI : list spec_float) (c : R),
  Forall (fun v => single_value v c) xI -> (1 <= length xI)%nat -> (Z.of_nat (length xI) <= 33554432)%Z ->
  normalised (numI bld) xI = repeat S754_nan (length xI).
Proof.
  intros bld xI c HF H1 HL. apply (const_nan bld xI c H1 HL).
  eapply Forall_impl; [|exact HF]. intros a. apply single_fl.
Qed.

Lemma single_small z : (1 <= z <= 8388608)%Z -> single_value (sf_of (IZR z)) (IZR z).
Proof.
  intros Hz. assert (B : Rabs (IZR z) <= bpow radix2 24).
  { rewrite Rabs_pos_eq by (apply (IZR_le 0); lia). apply (IZR_le _ 16777216). lia. }
  split; [apply sf_of_ok; [apply F64_int; lia|]|split].
  - apply Rle_lt_trans with (1 := B). apply bpow_lt. lia.
  - apply rnd32_id. apply F32_int. lia.
  - rewrite <- bpow_2. apply Rle_lt_trans with (1 := B). apply bpow_lt. lia.
Qed.

Example normalise_ieee_ex :
  let xI := [sf_of 1; sf_of 2; sf_of 1; sf_of 2] in let x := [1; 2; 1; 2] in
  Forall2 single_value xI x /\ (Z.of_nat (length x) <= 33554432)%Z /\ In 1 x /\ In 2 x /\ 1 <> 2.
Proof.
  cbv zeta. split; [repeat constructor; apply single_small; lia|]. split; [cbn; lia|].
  split; [cbn; auto|]. split; [cbn; auto|lra].
Qed.
Example normalise_constant_nan_ex :
  let xI := [sf_of 3; sf_of 3; sf_of 3] in
  Forall (fun v => single_value v 3) xI /\ (1 <= length xI)%nat /\ (Z.of_nat (length xI) <= 33554432)%Z.
Proof. cbv zeta. split; [repeat constructor; apply single_small; lia|]. cbn. lia. Qed.

(** C113.  ffa_search() without dereddening, on finite [float] samples (of any size) two of which differ:
    it returns finite samples, periods and S/Ns only, those of ffa_search() on the numbers the data
    stand for (every operation rounded, no overflow), and widths below the number of bins. *)
Theorem ffa_search_ieee :
  forall (bld : build) (flog : R -> R) (fpow : R -> nat -> R)
    (flogI : spec_float -> spec_float) (fpowI : spec_float -> nat -> spec_float)
    (alloc : nat -> list R) (allocI : nat -> list spec_float) (allocz alloczI : nat -> list Z)
    (data : list R) (dataI : list spec_float)
    (tsamp pmin pmax ducy wtsp rw : R) (tsampI pminI pmaxI ducyI wtspI rwI : spec_float)
    (fpmin rmp : Z) (bmin bmax : nat) (u v : R),
  let size := length data in
  good_log flog -> good_pow fpow -> ieee_log flogI flog -> ieee_pow fpowI fpow ->
  allocates alloc -> allocates allocI -> allocates allocz -> allocates alloczI ->
  double_value tsampI tsamp -> double_value pminI pmin -> double_value pmaxI pmax ->
  double_value ducyI ducy -> double_value wtspI wtsp ->
  Rabs ducy <= 2 ^ 900 -> ducy < 1 -> Rabs wtsp <= 2 ^ 900 ->
  (Z.of_nat size <= 33554432)%Z -> (Z.of_nat bmax <= 4194304)%Z ->
  pmax / tsamp <= 2 ^ 63 -> pmax <= 2 ^ 900 -> (cycle_count flog pmin pmax bmin bmax < 2 ^ 64)%Z ->
  (Z.of_nat (size / bmin) <= 4194304)%Z ->
  0 < tsamp -> 0 < pmin < pmax -> (2 <= bmin <= bmax)%nat -> rnd64 (tsamp * INR bmin) <= pmin ->
  (forall i, (Z.of_nat i < cycle_count flog pmin pmax bmin bmax)%Z ->
     factor fpow tsamp pmin bmin bmax i <= INR size) ->
  Forall2 single_value dataI data -> In u data -> In v data -> u <> v ->
  exists (xI : list spec_float) (x : list R) (widths : list Z) (periodsI : list spec_float)
    (periods : list R) (bins : list Z) (snrsI : arr2 spec_float) (snrs : arr2 R),
    ffa_search (numI bld) flogI fpowI allocI alloczI dataI tsampI pminI pmaxI fpmin bmin bmax ducyI wtspI
      false rwI rmp false = Ok (xI, (widths, periodsI, bins, snrsI)) /\
    ffa_search (numF bld) flog fpow alloc allocz data tsamp pmin pmax fpmin bmin bmax ducy wtsp
      false rw rmp false = Ok (x, (widths, periods, bins, snrs)) /\
    Forall2 single_value xI x /\ Forall (fun y => Rabs y <= 2 ^ 14) x /\
    widths <> [] /\ (forall w, In w widths -> (1 <= w < Z.of_nat bmin)%Z) /\
    Forall2 double_value periodsI periods /\
    a_rows snrsI = a_rows snrs /\ a_cols snrsI = a_cols snrs /\
    Forall2 single_value (a_data snrsI) (a_data snrs) /\
    Forall (fun s => Rabs s <= 2 ^ 122) (a_data snrs).
Proof.
  intros bld flog fpow flogI fpowI alloc allocI allocz alloczI data dataI tsamp pmin pmax ducy wtsp rw
    tsI pminI pmaxI ducyI wtspI rwI fpmin rmp bmin bmax u v size Hl Hp HlI HpI Ha HaI Hz HzI D1 D2 D3 D4 D5
    Bd Hd Bw Hs Hb Hpt Hpx Hc Hr HT0 Hpm Hbm Hbase Hfac HD Hu Hv Hne.
  destruct (normalise_ieee bld dataI data u v HD Hs Hu Hv Hne) as [HX BX].
  set (xI := normalised (numI bld) dataI) in *. set (x := normalised (numF bld) data) in *.
  assert (LX : @length R x = size) by (unfold x, normalised, normalised64; now rewrite !map_length).
  change (n_T (numF bld)) with R in *. change (n_T (numI bld)) with spec_float in *.
  destruct (widths_I bld (Z.of_nat bmin) ducyI ducy wtspI wtsp) as (ws & W1 & W2 & W3 & W4); auto; try lia.
  { split; [now apply double_fl|]. change 900%Z with (Z.of_nat 900). now rewrite bpow_2. }
  { split; [now apply double_fl|]. change 900%Z with (Z.of_nat 900). now rewrite bpow_2. }
  destruct (periodogram_ieee bld flog fpow flogI fpowI alloc allocI allocz alloczI x xI (map Z.to_nat ws)
    tsamp pmin pmax tsI pminI pmaxI bmin bmax) as (PI & P & B & SI & S & E1 & E2 & R); auto; try (rewrite LX; auto).
  { destruct ws; [congruence|discriminate]. }
  { intros w Hw. apply in_map_iff in Hw as (z & <- & Hz'). specialize (W4 z Hz'). lia. }
  { intros i Hi. apply Rle_trans with (2 ^ 14); [|apply Rle_pow; [lra|lia]].
    rewrite Forall_forall in BX. apply BX. apply nth_In. change (n_T (numF bld)) with R in *. rewrite LX. exact Hi. }
  exists xI, x, ws, PI, P, B, SI, S. unfold ffa_search. cbn [bind].
  fold xI x. rewrite W1, W2. cbn [bind]. rewrite E1, E2. cbn [bind].
  split; [reflexivity|]. split; [reflexivity|]. split; [exact HX|]. split; [exact BX|]. split; [exact W3|]. split; [exact W4|]. exact R.
Qed.

(** if the samples are all equal, ffa_search() raises nothing: the samples searched are NaN and so is
    every S/N of the periodogram.  The periods and bins are those of a search on zeros. *)
Theorem ffa_search_constant_nan :
  forall (bld : build) (flog : R -> R) (fpow : R -> nat -> R)
    (flogI : spec_float -> spec_float) (fpowI : spec_float -> nat -> spec_float)
    (alloc : nat -> list R) (allocI : nat -> list spec_float) (allocz alloczI : nat -> list Z)
    (dataI : list spec_float)
    (tsamp pmin pmax ducy wtsp : R) (tsampI pminI pmaxI ducyI wtspI rwI : spec_float)
    (fpmin rmp : Z) (bmin bmax : nat) (c : R),
  let size := length dataI in
  good_log flog -> good_pow fpow -> ieee_log flogI flog -> ieee_pow fpowI fpow ->
  allocates alloc -> allocates allocI -> allocates allocz -> allocates alloczI ->
  double_value tsampI tsamp -> double_value pminI pmin -> double_value pmaxI pmax ->
  double_value ducyI ducy -> double_value wtspI wtsp ->
  Rabs ducy <= 2 ^ 900 -> ducy < 1 -> Rabs wtsp <= 2 ^ 900 ->
  (Z.of_nat size <= 33554432)%Z -> (Z.of_nat bmax <= 4194304)%Z ->
  pmax / tsamp <= 2 ^ 63 -> pmax <= 2 ^ 900 -> (cycle_count flog pmin pmax bmin bmax < 2 ^ 64)%Z ->
  (Z.of_nat (size / bmin) <= 4194304)%Z ->
  0 < tsamp -> 0 < pmin < pmax -> (2 <= bmin <= bmax)%nat -> rnd64 (tsamp * INR bmin) <= pmin ->
  (forall i, (Z.of_nat i < cycle_count flog pmin pmax bmin bmax)%Z ->
     factor fpow tsamp pmin bmin bmax i <= INR size) ->
  (1 <= size)%nat -> Forall (fun v => single_value v c) dataI ->
  exists (widths : list Z) (periodsI : list spec_float) (bins : list Z) (periods : list R) (zero_snrs : arr2 R),
    ffa_search (numI bld) flogI fpowI allocI alloczI dataI tsampI pminI pmaxI fpmin bmin bmax ducyI wtspI
      false rwI rmp false
    = Ok (repeat S754_nan size,
          (widths, periodsI, bins, Arr2 (length periods) (length widths)
             (repeat S754_nan (length periods * length widths)))) /\
    py_periodogram (numF bld) flog fpow alloc allocz (repeat 0 size) tsamp (map Z.to_nat widths) pmin pmax bmin bmax
    = Ok (periods, bins, zero_snrs) /\
    Forall2 double_value periodsI periods.
Proof.
  intros bld flog fpow flogI fpowI alloc allocI allocz alloczI dataI tsamp pmin pmax ducy wtsp
    tsI pminI pmaxI ducyI wtspI rwI fpmin rmp bmin bmax c size Hl Hp HlI HpI Ha HaI Hz HzI D1 D2 D3 D4 D5
    Bd Hd Bw Hs Hb Hpt Hpx Hc Hr HT0 Hpm Hbm Hbase Hfac H1 HD.
  pose proof (normalise_constant_nan bld dataI c HD H1 Hs) as EX. fold size in EX.
  destruct (widths_I bld (Z.of_nat bmin) ducyI ducy wtspI wtsp) as (ws & W1 & W2 & W3 & W4); auto; try lia.
  { split; [now apply double_fl|]. change 900%Z with (Z.of_nat 900). now rewrite bpow_2. }
  { split; [now apply double_fl|]. change 900%Z with (Z.of_nat 900). now rewrite bpow_2. }
  destruct (check_of bld tsamp pmin pmax bmin bmax HT0 Hpm Hbm Hb Hbase) as [HC Egeo].
  assert (Ecyc : pl_cyc (numF bld) flog pmin pmax bmin bmax = cycle_count flog pmin pmax bmin bmax).
  { unfold pl_cyc, cycle_count. rewrite Egeo. reflexivity. }
  assert (Ef : forall i, pl_f (numF bld) fpow tsamp pmin bmin bmax i = factor fpow tsamp pmin bmin bmax i).
  { intros i. unfold factor. rewrite <- Egeo. unfold first_factor.
    assert (Ei : pl_ini (numF bld) tsamp pmin bmin = rnd64 (pmin / rnd64 (tsamp * INR bmin))).
    { apply (iniF bld size tsamp pmin pmax bmin bmax); auto. lia. }
    rewrite <- Ei. reflexivity. }
  assert (L1 : fl64 tsI tsamp) by now apply double_fl.
  destruct (search_nan bld flog fpow flogI fpowI size tsamp pmin pmax bmin bmax tsI pminI pmaxI)
    with (ws := map Z.to_nat ws) (dI := repeat S754_nan size) (allocI := allocI) (alloc := alloc)
         (alloczI := alloczI) (allocz := allocz)
    as (PI & B & SI & P & S & E1 & E2 & F1 & R1 & R2 & R3); auto.
  - intros y r Hy Hr1. apply double_fl, HlI; auto. now apply double_fl.
  - intros y r k Hy Hr1 Hk. apply double_fl, HpI; auto. now apply double_fl.
  - now apply double_fl.
  - now apply double_fl.
  - now rewrite Ecyc.
  - intros i Hi. unfold fits. rewrite Ef. apply Hfac. unfold pl_cycles in Hi. rewrite Ecyc in Hi. lia.
  - destruct ws; [congruence|discriminate].
  - intros w Hw. apply in_map_iff in Hw as (z & <- & Hz'). specialize (W4 z Hz'). lia.
  - apply repeat_length.
  - intros i Hi. apply (repeat_spec size S754_nan). apply nth_In. now rewrite repeat_length.
  - exists ws, PI, B, P, S. unfold ffa_search. cbn [bind]. rewrite EX, W1. cbn [bind]. rewrite E1. cbn [bind].
    split.
    { rewrite map_length in R2, R3. destruct SI as [ra ca da]. cbn [a_rows a_cols a_data] in *. now rewrite R1, R2, R3. }
    split; [exact E2|]. eapply Forall2_mono; [|exact F1]. intros a r. apply double_fl.
Qed.

Example ffa_search_ieee_ex :
  let data := 2 :: repeat 1 3999 in let dataI := sf_of 2 :: repeat (sf_of 1) 3999 in let size := length data in
  let tsamp := / 1024 in let pmin := / 32 in let pmax := 3 / 64 in let ducy := / 4 in let wtsp := 3 / 2 in
  let flog x := up64 (ln x) in let fpow x k := up64 (x ^ k) in
  good_log flog /\ good_pow fpow /\
  (exists flogI fpowI, ieee_log flogI flog /\ ieee_pow fpowI fpow) /\
  (exists tsampI pminI pmaxI ducyI wtspI, double_value tsampI tsamp /\ double_value pminI pmin /\
     double_value pmaxI pmax /\ double_value ducyI ducy /\ double_value wtspI wtsp) /\
  Rabs ducy <= 2 ^ 900 /\ ducy < 1 /\ Rabs wtsp <= 2 ^ 900 /\
  (Z.of_nat size <= 33554432)%Z /\ (Z.of_nat 40 <= 4194304)%Z /\
  pmax / tsamp <= 2 ^ 63 /\ pmax <= 2 ^ 900 /\ (cycle_count flog pmin pmax 20 40 < 2 ^ 64)%Z /\
  (Z.of_nat (size / 20) <= 4194304)%Z /\
  0 < tsamp /\ 0 < pmin < pmax /\ (2 <= 20 <= 40)%nat /\ rnd64 (tsamp * INR 20) <= pmin /\
  (forall i, (Z.of_nat i < cycle_count flog pmin pmax 20 40)%Z -> factor fpow tsamp pmin 20 40 i <= INR size) /\
  Forall2 single_value dataI data /\ In 1 data /\ In 2 data /\ 1 <> 2 /\
  (1 <= size)%nat /\ Forall (fun v => single_value v 1) (repeat (sf_of 1) size).
Proof.
  cbv zeta.
  destruct periodogram_ieee_ex as (G1 & G2 & G3 & (tI & p1 & p2 & T1 & T2 & T3) & A1 & A2 & A3 & A4 & A5 & A6 & _ & _ & A7 & A8 & A9 & A10 & A11 & A12 & _).
  cbv zeta in *. rewrite repeat_length in *.
  assert (LS : length (2 :: repeat 1 3999) = (40 * 100)%nat) by (cbn [length]; rewrite repeat_length; reflexivity).
  rewrite LS.
  assert (S1 : forall r, 0 < r <= 2 -> Rabs r < bpow radix2 1024).
  { intros r Hr. rewrite Rabs_pos_eq by lra. apply Rle_lt_trans with (bpow radix2 1); [cbn; lra|]. apply bpow_lt. lia. }
  assert (P2 : 2 <= 2 ^ 900).
  { rewrite <- (pow_1 2) at 1. apply Rle_pow; [lra|lia]. }
  split; [exact G1|]. split; [exact G2|]. split; [exact G3|].
  split. { exists tI, p1, p2, (sf_of (/ 4)), (sf_of (3 / 2)). do 3 (split; [assumption|]).
    split; (apply sf_of_ok; [|apply S1; lra]).
    - replace (/ 4) with (bpow radix2 (-2)) by (cbn; lra). apply double_bpow. lia.
    - unfold Rdiv. apply (F64_half 3). lia. }
  split; [rewrite Rabs_pos_eq; lra|]. split; [lra|]. split; [rewrite Rabs_pos_eq; lra|].
  do 11 (split; [assumption|]).
  split. { constructor; [apply (single_small 2); lia|].
    generalize 3999%nat. induction n as [|n IH]; cbn [repeat]; constructor; auto. apply (single_small 1). lia. }
  split. { right. left. reflexivity. }
  split; [left; reflexivity|]. split; [lra|]. split; [lia|].
  rewrite Forall_forall. intros y Hy. apply repeat_spec in Hy. subst y. apply (single_small 1). lia.
Qed.

(** C114.  normalise(inplace=True): the data are said to be in float32 format, but under the promotion
    rules of numpy 2 they are left in float64 *)
Theorem normalise_inplace_float32_refuted :
  ~ (forall (alloc : nat -> list spec_float) (h h' : heap numSF) (i : nat) (t : tseries numSF),
       nth_error (h_ts h) i = Some t -> Forall (fun v => @n_narrow numSF v = v) (buf h (t_buf t)) ->
       step numSF alloc (CNormalise i true) h = Ok h' ->
       forall t', nth_error (h_ts h') i = Some t' -> Forall (fun v => @n_narrow numSF v = v) (buf h' (t_buf t'))).
Proof.
  intros H. pose (k z := o_ofZ (@n_dbl numSF) z).
  pose (h := @Heap numSF [[k 1%Z; k 2%Z; k 3%Z]] [TS 0 (k 1%Z) []]).
  assert (H0 : Forall (fun v => @n_narrow numSF v = v) (buf h 0)).
  { unfold buf, h, k. cbn [h_bufs nth]. repeat constructor; vm_compute; reflexivity. }
  pose (h' := @Heap numSF ([[k 1%Z; k 2%Z; k 3%Z]] ++ [normalised64 numSF [k 1%Z; k 2%Z; k 3%Z]]) [TS 1 (k 1%Z) []]).
  assert (E : step numSF (repeat (S754_zero false)) (CNormalise 0 true) h = Ok h').
  { unfold step, h, h'. cbn [rd h_ts nth_error bind t_buf t_tsamp t_md h_bufs length]. reflexivity. }
  specialize (H (repeat (S754_zero false)) h h' 0%nat (TS 0 (k 1%Z) []) eq_refl H0 E (TS 1 (k 1%Z) []) eq_refl). clear E.
  set (l := normalised64 numSF [k 1%Z; k 2%Z; k 3%Z]).
  assert (H1 : Forall (fun v => @n_narrow numSF v = v) l) by exact H. clear H.
  assert (E : @nth_error spec_float l 0 = Some (S754_finite true 5515760546423086 (-52))).
  { vm_compute. reflexivity. }
  destruct l as [|v l']; [discriminate|]. injection E as ->. inversion H1 as [|? ? E]. vm_compute in E. discriminate.
Qed.

(** the object returned by normalise() does hold float32 data *)
Theorem normalise_float32 :
  forall (bld : build) (x : list R) (y : R), In y (normalised (numF bld) x) -> rnd32 y = y.
Proof.
  intros bld x y Hy. unfold normalised in Hy. apply in_map_iff in Hy as (z & <- & _).
  apply rnd32_id, generic_format_round; typeclasses eauto.
Qed.

Print Assumptions normalise_ieee.
Print Assumptions normalise_constant_nan.
Print Assumptions ffa_search_ieee.
Print Assumptions ffa_search_constant_nan.
Print Assumptions normalise_inplace_float32_refuted.
Print Assumptions normalise_float32.
