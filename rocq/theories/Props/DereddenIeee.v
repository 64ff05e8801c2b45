(** deredden(), and ffa_search() with dereddening, in IEEE arithmetic. *)
From Coq Require Import List Arith ZArith Bool Lia Reals Lra SpecFloat.
From Flocq Require Import Core.
From Verif Require Import Base.Result Base.Buf Base.Num Model.RunMed Model.FastRmed Model.Transforms Model.Libffa Model.Periodogram Model.TimeSeries
  Model.Search Spec.Ieee Spec.Noise Spec.Order Proof.Ieee Proof.KernelsIeee Proof.Downsample Proof.RunMedRel Proof.DereddenIeee Proof.DereddenFloat
  Proof.Index Proof.WidthsIeee Props.Ieee Props.Downsample Props.RunMed Props.Deredden
  Props.PeriodogramFloat Props.PeriodogramRounding Props.PeriodogramIeee Props.NormIeee.
Import ListNotations.
Local Open Scope R_scope.

(** Can medians be taken over [w] samples, when those over [2 m] samples or more are taken over [m]
    means of [w / m] samples each?  There must be more data than the window holds; a window of
    samples must be odd. *)
Definition window_fits (w m size : Z) : Prop :=
  if (w <? 2 * m)%Z then Z.odd w = true /\ (0 < w < size)%Z else (m < size / (w / m))%Z.

Lemma window_dec w m s : {window_fits w m s} + {~ window_fits w m s}.
Proof.
  unfold window_fits. destruct (w <? 2 * m)%Z.
  - destruct (Bool.bool_dec (Z.odd w) true) as [O|O]; [|right; tauto].
    destruct (Z_lt_dec 0 w); [|right; tauto]. destruct (Z_lt_dec w s); [left|right]; tauto.
  - apply Z_lt_dec.
Qed.

Lemma odd_to_nat z : (0 <= z)%Z -> Nat.odd (Z.to_nat z) = Z.odd z.
Proof.
  intros Hz. destruct (Z.odd z) eqn:O.
  - apply Nat.odd_spec. apply Z.odd_spec in O as [k Hk]. exists (Z.to_nat k). lia.
  - apply Bool.not_true_is_false. intros E. apply Nat.odd_spec in E as [k Hk]. enough (Z.odd z = true) by congruence.
    apply Z.odd_spec. exists (Z.of_nat k). lia.
Qed.

(** the outcome of fast_running_median *)
Lemma fast_outcome bld (alloc : nat -> list R) (x : list R) w m : allocates alloc ->
  (0 < m <= 2 ^ 52)%Z -> Z.odd m = true -> (0 <= w <= 2 ^ 52)%Z ->
  (window_fits w m (Z.of_nat (length x)) -> exists r, fast_running_median (numF bld) alloc x w m = Ok r /\ length r = length x) /\
  (~ window_fits w m (Z.of_nat (length x)) -> fast_running_median (numF bld) alloc x w m = Err ValueError).
Proof.
  intros Ha Hm Om Hw. unfold fast_running_median, window_fits. rewrite Zmod_odd, Om. cbn [Z.eqb].
  rewrite scrunch_factor_F by lia. destruct (Z.ltb_spec w (2 * m)) as [L|L].
  - cbn [Z.eqb]. unfold running_median_py. destruct (Z.ltb_spec w 0); [lia|].
    destruct (running_median_correct R Rlt_bool (o_ofZ (@n_dbl (numF bld)) 0) 0 alloc (map (@n_narrow (numF bld)) x) (Z.to_nat w) Ha) as [R1 R2].
    change (n_T (numF bld)) with R in *. assert (LN : length (map (@n_narrow (numF bld)) x) = length x) by apply map_length.
    change (n_T (numF bld)) with R in *. rewrite LN, odd_to_nat in * by lia. split.
    + intros [O B]. destruct R2 as (r & E & LR & _); [split; auto; lia|]. exists r. split; auto.
    + intros NF. apply R1. intros [O B]. apply NF. split; auto. destruct w; [discriminate|lia|lia].
  - assert (S2 : (2 <= w / m)%Z) by (apply Z.div_le_lower_bound; lia).
    destruct (Z.eqb_spec (w / m) 1); [lia|]. set (f := Z.to_nat (w / m)).
    assert (Ls : length (scrunch (numF bld) x f) = (length x / f)%nat) by (unfold scrunch; now rewrite map_length, seq_length).
    assert (EL : (Z.of_nat (length x) / (w / m))%Z = Z.of_nat (length x / f)).
    { rewrite Nat2Z.inj_div. unfold f. now rewrite Z2Nat.id by lia. }
    rewrite EL. set (s := scrunch (numF bld) x f) in *. unfold running_median_py. destruct (Z.ltb_spec m 0); [lia|].
    destruct (running_median_correct R Rlt_bool (o_ofZ (@n_dbl (numF bld)) 0) 0 alloc (map (@n_narrow (numF bld)) s) (Z.to_nat m) Ha) as [R1 R2].
    change (n_T (numF bld)) with R in *. assert (LN : length (map (@n_narrow (numF bld)) s) = length s) by apply map_length.
    change (n_T (numF bld)) with R in *. rewrite LN, Ls, odd_to_nat in * by lia. split.
    + intros B. destruct R2 as (r & E & LR & _); [split; auto; lia|]. eexists. split.
      * match goal with |- bind ?q _ = _ => replace q with (Ok r) by (symmetry; exact E) end. cbn [bind]. reflexivity.
      * now rewrite map_length, seq_length.
    + intros B. match goal with |- bind ?q _ = _ => replace q with (Err (A := list R) ValueError); [reflexivity|] end.
      symmetry. apply R1. intros [_ ?]. lia.
Qed.

Lemma single_fb x r : single_value x r -> Rabs r <= 2 ^ 90 -> fb32 90 x r.
Proof. intros H B. split; [now apply single_fl|]. change 90%Z with (Z.of_nat 90). now rewrite bpow_2. Qed.

Lemma data_fb dataI data : Forall2 single_value dataI data -> Forall (fun v => Rabs v <= 2 ^ 90) data ->
  Forall2 (fb32 90) dataI data.
Proof. intros H. induction H; intros B; inversion B; subst; constructor; auto. now apply single_fb. Qed.

(** C125.  The running median of deredden() on finite [float] samples of at most 2^90: the width in
    samples is width / tsamp, a [double], rounded to the nearest integer.  If the window fits, the
    medians are finite, those computed on the numbers the data stand for (every operation rounded), and so
    are the samples left after subtracting them: nothing overflows.  Otherwise ValueError is raised. *)
Theorem deredden_ieee :
  forall (bld : build) (alloc : nat -> list R) (allocI : nat -> list spec_float)
    (data : list R) (dataI : list spec_float) (tsamp width : R) (tsampI widthI : spec_float) (m : Z),
  let size := Z.of_nat (length data) in
  let w := ZnearestE (rnd64 (width / tsamp)) in
  allocates alloc -> allocates allocI ->
  double_value tsampI tsamp -> double_value widthI width -> 0 < tsamp -> 0 <= width -> width / tsamp <= 2 ^ 51 ->
  (0 < m <= 2 ^ 52)%Z -> Z.odd m = true -> (size <= 33554432)%Z ->
  Forall2 single_value dataI data -> Forall (fun v => Rabs v <= 2 ^ 90) data ->
  (window_fits w m size ->
   exists (rI : list spec_float) (r : list R),
     rmed (numI bld) allocI dataI tsampI widthI m = Ok rI /\ rmed (numF bld) alloc data tsamp width m = Ok r /\
     length r = length data /\ Forall2 double_value rI r /\
     Forall2 single_value (minus (numI bld) dataI rI) (minus (numF bld) data r) /\
     Forall (fun v => Rabs v <= 2 ^ 123) (minus (numF bld) data r)) /\
  (~ window_fits w m size ->
     rmed (numI bld) allocI dataI tsampI widthI m = Err ValueError /\
     rmed (numF bld) alloc data tsamp width m = Err ValueError).
Proof.
  intros bld alloc allocI data dataI tsamp width tsI wI m size w Ha HaI D1 D2 T0 W0 B Hm Om HL HF HB.
  assert (W1 : 0 <= width / tsamp) by (apply Rmult_le_pos; [lra|left; now apply Rinv_0_lt_compat]).
  assert (B' : Rabs (width / tsamp) <= bpow radix2 51) by (rewrite Rabs_pos_eq by auto; change 51%Z with (Z.of_nat 51); rewrite bpow_2; exact B).
  pose proof (data_fb dataI data HF HB) as HF'.
  pose proof (rmed_I bld 90 alloc allocI data dataI tsI tsamp wI width m Ha HaI ltac:(lia) HF' HL ltac:(lia)
    (proj1 (double_fl _ _) D1) (proj1 (double_fl _ _) D2) ltac:(lra) B') as G.
  assert (Ew : py_round (numF bld) (o_div (@n_dbl (numF bld)) width tsamp) = w).
  { apply py_round_F; [apply generic_format_round; typeclasses eauto|]. split.
    - rewrite <- (rnd64_id 0) by (apply (F64_int 0); lia). now apply rnd64_le.
    - rewrite <- (rnd64_id (bpow radix2 51)); [apply rnd64_le; change 51%Z with (Z.of_nat 51); rewrite bpow_2; exact B|].
      apply (F64_int (2 ^ 51)). lia. }
  assert (Hw : (0 <= w <= 2 ^ 52)%Z).
  { pose proof (proj2 (py_round_I bld (o_div (@n_dbl (numI bld)) wI tsI) (o_div (@n_dbl (numF bld)) width tsamp)
      ltac:(split; [apply (fl_div 53 1024 p53 e1024 inc64); [now apply double_fl|now apply double_fl|lra|]|apply (rndf_bpow 53 1024 p53); [lia|exact B']];
            apply Rle_trans with (1 := B'); apply bpow_le; lia))) as A. rewrite Ew in A. split; [|lia].
    unfold w. rewrite <- (Zrnd_IZR ZnearestE 0). apply Zrnd_le; [typeclasses eauto|].
    rewrite <- (rnd64_id 0) by (apply (F64_int 0); lia). now apply rnd64_le. }
  destruct (fast_outcome bld alloc data w m Ha Hm Om Hw) as [F1 F2].
  assert (ER : rmed (numF bld) alloc data tsamp width m = fast_running_median (numF bld) alloc data w m) by (unfold rmed; now rewrite Ew).
  fold size in F1, F2. split.
  - intros Fit. destruct (F1 Fit) as (r & E & Lr). rewrite ER, E in G.
    destruct (rmed (numI bld) allocI dataI tsI wI m) as [rI| | |]; cbn [rres] in G; try contradiction.
    exists rI, r. rewrite ER. split; [reflexivity|]. split; [exact E|]. split; [exact Lr|].
    split; [eapply Forall2_mono; [|exact G]; intros a b [H _]; now apply double_fl|].
    assert (M : Forall2 (fb32 123) (minus (numI bld) dataI rI) (minus (numF bld) data r)).
    { apply (minus_I bld 122); [lia| |exact G]. eapply Forall2_mono; [|exact HF']. intros a b H. apply fb_weaken with (j := 90%Z); [lia|exact H]. }
    split.
    + eapply Forall2_mono; [|exact M]. intros a b [H _]. now apply single_fl.
    + eapply Forall2_r; [|exact M]. intros a b [_ H]. cbv beta. rewrite <- bpow_2. exact H.
  - intros NFit. rewrite ER, (F2 NFit) in *.
    destruct (rmed (numI bld) allocI dataI tsI wI m); cbn [rres] in G; try contradiction. subst e. auto.
Qed.

(** C125.  ffa_search() with dereddening, two of the samples left after it being different: it returns
    finite samples, periods and S/Ns only, those of ffa_search() on the numbers the data stand for. *)
Theorem ffa_search_deredden_ieee :
  forall (bld : build) (flog : R -> R) (fpow : R -> nat -> R)
    (flogI : spec_float -> spec_float) (fpowI : spec_float -> nat -> spec_float)
    (alloc : nat -> list R) (allocI : nat -> list spec_float) (allocz alloczI : nat -> list Z)
    (data : list R) (dataI : list spec_float)
    (tsamp pmin pmax ducy wtsp rw : R) (tsampI pminI pmaxI ducyI wtspI rwI : spec_float)
    (fpmin rmp : Z) (bmin bmax : nat) (r : list R) (u v : R),
  let size := length data in
  good_log flog -> good_pow fpow -> ieee_log flogI flog -> ieee_pow fpowI fpow ->
  allocates alloc -> allocates allocI -> allocates allocz -> allocates alloczI ->
  double_value tsampI tsamp -> double_value pminI pmin -> double_value pmaxI pmax ->
  double_value ducyI ducy -> double_value wtspI wtsp -> double_value rwI rw ->
  Rabs ducy <= 2 ^ 900 -> ducy < 1 -> Rabs wtsp <= 2 ^ 900 ->
  (Z.of_nat size <= 33554432)%Z -> (Z.of_nat bmax <= 4194304)%Z ->
  pmax / tsamp <= 2 ^ 63 -> pmax <= 2 ^ 900 -> (cycle_count flog pmin pmax bmin bmax < 2 ^ 64)%Z ->
  (Z.of_nat (size / bmin) <= 4194304)%Z ->
  0 < tsamp -> 0 < pmin < pmax -> (2 <= bmin <= bmax)%nat -> rnd64 (tsamp * INR bmin) <= pmin ->
  (forall i, (Z.of_nat i < cycle_count flog pmin pmax bmin bmax)%Z ->
     factor fpow tsamp pmin bmin bmax i <= INR size) ->
  Forall2 single_value dataI data -> Forall (fun v => Rabs v <= 2 ^ 90) data ->
  0 <= rw -> rw / tsamp <= 2 ^ 51 -> (0 < rmp <= 2 ^ 52)%Z -> Z.odd rmp = true ->
  window_fits (ZnearestE (rnd64 (rw / tsamp))) rmp (Z.of_nat size) ->
  rmed (numF bld) alloc data tsamp rw rmp = Ok r ->
  In u (minus (numF bld) data r) -> In v (minus (numF bld) data r) -> u <> v ->
  exists (xI : list spec_float) (x : list R) (widths : list Z) (periodsI : list spec_float)
    (periods : list R) (bins : list Z) (snrsI : arr2 spec_float) (snrs : arr2 R),
    ffa_search (numI bld) flogI fpowI allocI alloczI dataI tsampI pminI pmaxI fpmin bmin bmax ducyI wtspI
      true rwI rmp false = Ok (xI, (widths, periodsI, bins, snrsI)) /\
    ffa_search (numF bld) flog fpow alloc allocz data tsamp pmin pmax fpmin bmin bmax ducy wtsp
      true rw rmp false = Ok (x, (widths, periods, bins, snrs)) /\
    length x = size /\ Forall2 single_value xI x /\ Forall (fun y => Rabs y <= 2 ^ 14) x /\
    widths <> [] /\ (forall w, In w widths -> (1 <= w < Z.of_nat bmin)%Z) /\
    Forall2 double_value periodsI periods /\
    a_rows snrsI = a_rows snrs /\ a_cols snrsI = a_cols snrs /\
    Forall2 single_value (a_data snrsI) (a_data snrs) /\
    Forall (fun s => Rabs s <= 2 ^ 122) (a_data snrs).
Proof.
  intros bld flog fpow flogI fpowI alloc allocI allocz alloczI data dataI tsamp pmin pmax ducy wtsp rw
    tsI pminI pmaxI ducyI wtspI rwI fpmin rmp bmin bmax r u v size Hl Hp HlI HpI Ha HaI Hz HzI D1 D2 D3 D4 D5 D6
    Bd Hd Bw Hs Hb Hpt Hpx Hc Hr HT0 Hpm Hbm Hbase Hfac HD HB R0 R1 M0 MO Fit ER Hu Hv Hne.
  destruct (deredden_ieee bld alloc allocI data dataI tsamp rw tsI rwI rmp Ha HaI D1 D6 HT0 R0 R1 M0 MO Hs HD HB) as [G _].
  destruct (G Fit) as (rI & r' & EI & ER' & Lr & FR & FM & _). clear G.
  assert (r' = r) by congruence. subst r'.
  set (d := minus (numF bld) data r) in *. set (dI := minus (numI bld) dataI rI) in *.
  assert (Ld : @length R d = size).
  { unfold d, minus. rewrite map_length, combine_length. change (n_T (numF bld)) with R in *. lia. }
  assert (LrI : length rI = length dataI).
  { rewrite (F2_len _ _ _ FR), (F2_len _ _ _ HD). exact Lr. }
  destruct (ffa_search_ieee bld flog fpow flogI fpowI alloc allocI allocz alloczI d dI tsamp pmin pmax ducy wtsp rw
    tsI pminI pmaxI ducyI wtspI rwI fpmin rmp bmin bmax u v) as (xI & x & ws & PI & P & B & SI & S & E1 & E2 & F1 & F2 & K);
    auto; try (change (n_T (numF bld)) with R in *; rewrite Ld; assumption).
  exists xI, x, ws, PI, P, B, SI, S.
  assert (LX : length x = size).
  { assert (x = normalised (numF bld) d).
    { unfold ffa_search in E2. cbn [bind] in E2. destruct (generate_width_trials _ _ _ _) as [a| | |] in E2; cbn [bind] in E2; try discriminate.
      destruct (py_periodogram _ _ _ _ _ _ _ _ _ _ _ _) as [[[a1 a2] a3]| | |] in E2; cbn [bind] in E2; try discriminate.
      injection E2 as <- _. reflexivity. }
    subst x. unfold normalised, normalised64. rewrite !map_length. exact Ld. }
  split; [|split; [|split; [exact LX|split; [exact F1|split; [exact F2|exact K]]]]].
  - rewrite <- E1. unfold ffa_search. rewrite EI. cbn [bind]. change (n_T (numI bld)) with spec_float in *. rewrite LrI, Nat.eqb_refl. reflexivity.
  - rewrite <- E2. unfold ffa_search. rewrite ER. cbn [bind]. change (n_T (numF bld)) with R in *. rewrite Lr, Nat.eqb_refl. reflexivity.
Qed.

(** one sample above the others: the running median over 3 samples does not see it *)
Definition blip : list R := 1 :: 2 :: repeat 1 3998.
Definition blipI : list spec_float := sf_of 1 :: sf_of 2 :: repeat (sf_of 1) 3998.

Lemma blip_len : length blip = (40 * 100)%nat.
Proof. unfold blip. cbn [length]. rewrite repeat_length. reflexivity. Qed.
Lemma blip_single : Forall2 single_value blipI blip.
Proof.
  unfold blip, blipI. constructor; [apply (single_small 1); lia|]. constructor; [apply (single_small 2); lia|].
  generalize 3998%nat. induction n as [|n IH]; cbn [repeat]; constructor; auto. apply (single_small 1). lia.
Qed.
Lemma blip_small : Forall (fun v => Rabs v <= 2 ^ 90) blip.
Proof.
  assert (P : 2 <= 2 ^ 90) by (rewrite <- (pow_1 2) at 1; apply Rle_pow; [lra|lia]).
  unfold blip. constructor; [rewrite Rabs_pos_eq; lra|]. constructor; [rewrite Rabs_pos_eq; lra|].
  apply Forall_forall. intros y Hy. apply repeat_spec in Hy. subst y. rewrite Rabs_pos_eq; lra.
Qed.
Lemma blip_width : ZnearestE (rnd64 (3 / 1024 / / 1024)) = 3%Z.
Proof.
  replace (3 / 1024 / / 1024) with (IZR 3) by field. rewrite rnd64_id by (apply F64_int; lia). apply (Zrnd_IZR ZnearestE 3).
Qed.

Lemma blip_median bld (alloc : nat -> list R) : allocates alloc ->
  exists r, rmed (numF bld) alloc blip (/ 1024) (3 / 1024) 101 = Ok r /\
    In 0 (minus (numF bld) blip r) /\ In 1 (minus (numF bld) blip r).
Proof.
  intros Ha. unfold rmed.
  assert (E3 : py_round (numF bld) (o_div (@n_dbl (numF bld)) (3 / 1024) (/ 1024)) = 3%Z).
  { cbn [numF opsF n_dbl o_div]. replace (3 / 1024 / / 1024) with (IZR 3) by field. rewrite rnd64_id by (apply F64_int; lia).
    assert (H : py_round (numF bld) (IZR 3) = 3%Z); [|exact H].
    rewrite py_round_F; [apply (Zrnd_IZR ZnearestE 3)|apply F64_int; lia|split; [lra|cbn; lra]]. }
  rewrite E3. unfold fast_running_median. cbn [Z.eqb]. change (101 mod 2 =? 0)%Z with false. cbv iota.
  rewrite scrunch_factor_F by lia. change (3 <? 2 * 101)%Z with true. cbv iota. change (1 =? 1)%Z with true. cbv iota.
  unfold running_median_py. change (3 <? 0)%Z with false. cbv iota.
  assert (EN : map (@n_narrow (numF bld)) blip = blip).
  { assert (R1 : rnd32 1 = 1) by (apply rnd32_id, (F32_int 1); lia). assert (R2 : rnd32 2 = 2) by (apply rnd32_id, (F32_int 2); lia).
    unfold blip. cbn [map numF n_narrow]. rewrite R1, R2. do 2 f_equal.
    generalize 3998%nat. induction n as [|n IH]; cbn [repeat map]; [reflexivity|]. now rewrite R1, IH. }
  change (n_T (numF bld)) with R in *. rewrite EN.
  destruct (running_median_correct R Rlt_bool (o_ofZ (@n_dbl (numF bld)) 0) 0 alloc blip (Z.to_nat 3) Ha) as [_ R2].
  destruct R2 as (r & E & Lr & M); [rewrite blip_len; split; [reflexivity|cbn; lia]|]. rewrite blip_len in *.
  exists r. split; [exact E|].
  assert (V : forall c, (c < 2)%nat -> nth c r 0 = 1).
  { intros c Hc. specialize (M strict_weak_R c ltac:(lia)). apply (median_majority _ 1 _ M).
    change (Z.to_nat 3 / 2)%nat with 1%nat. unfold centred_window. rewrite blip_len. rewrite map_length, seq_length.
    assert (Q1 : Req_bool 1 1 = true) by now apply Req_bool_true. assert (Q2 : Req_bool 2 1 = false) by (apply Req_bool_false; lra).
    destruct c as [|[|c]]; [| |lia]; cbn [Nat.mul Nat.add seq map Nat.sub Nat.min nth blip]; unfold count;
      change (nth 0 (repeat 1 3998) 0) with 1; cbn [filter]; rewrite ?Q1, ?Q2; cbn [length]; lia. }
  assert (S0 : rnd32 (rnd64 0) = 0) by (rewrite (rnd64_id 0) by (apply (F64_int 0); lia); apply rnd32_id, (F32_int 0); lia).
  assert (S1 : rnd32 (rnd64 1) = 1) by (rewrite (rnd64_id 1) by (apply (F64_int 1); lia); apply rnd32_id, (F32_int 1); lia).
  pose proof (V 0%nat ltac:(lia)) as V0. pose proof (V 1%nat ltac:(lia)) as V1.
  destruct r as [|r0 [|r1 r]]; [cbn in Lr; lia|cbn in Lr; lia|]. cbn [nth] in V0, V1. subst r0 r1.
  unfold minus, blip. cbn [combine map fst snd numF opsF n_dbl o_sub n_narrow].
  replace (1 - 1) with 0 by lra. replace (2 - 1) with 1 by lra. rewrite S0, S1. split; [now left|right; now left].
Qed.

Example deredden_ieee_ex : let tsamp := / 1024 in let width := 3 / 1024 in
  (exists tsampI widthI, double_value tsampI tsamp /\ double_value widthI width) /\
  0 < tsamp /\ 0 <= width /\ width / tsamp <= 2 ^ 51 /\ (0 < 101 <= 2 ^ 52)%Z /\ Z.odd 101 = true /\
  (Z.of_nat (length blip) <= 33554432)%Z /\ Forall2 single_value blipI blip /\ Forall (fun v => Rabs v <= 2 ^ 90) blip /\
  window_fits (ZnearestE (rnd64 (width / tsamp))) 101 (Z.of_nat (length blip)) /\
  window_fits 303 101 400 /\ ~ window_fits 303 101 300.
Proof.
  cbv zeta. split.
  { exists (sf_of (/ 1024)), (sf_of (3 / 1024)). assert (P : bpow radix2 1 < bpow radix2 1024) by (apply bpow_lt; lia). cbn [bpow Z.pow_pos] in P.
    split; (apply sf_of_ok; [|rewrite Rabs_pos_eq by lra; apply Rlt_trans with (2 := P); cbn; lra]).
    - replace (/ 1024) with (bpow radix2 (-10)) by (cbn; lra). apply double_bpow. lia.
    - replace (3 / 1024) with (F2R (Float radix2 3 (-10))) by (unfold F2R; cbn; lra).
      apply generic_format_FLT. exists (Float radix2 3 (-10)); cbn; auto; lia. }
  split; [lra|]. split; [lra|]. split. { replace (3 / 1024 / / 1024) with (2 ^ 1 + 1) by field. assert (2 ^ 2 <= 2 ^ 51) by (apply Rle_pow; [lra|lia]). lra. }
  split; [lia|]. split; [reflexivity|]. rewrite blip_len, blip_width. split; [cbn; lia|]. split; [apply blip_single|]. split; [apply blip_small|].
  split; [unfold window_fits; cbn; split; [reflexivity|lia]|]. split; unfold window_fits; cbn; lia.
Qed.

Example ffa_search_deredden_ieee_ex :
  let data := blip in let dataI := blipI in let size := length data in
  let tsamp := / 1024 in let pmin := / 32 in let pmax := 3 / 64 in let ducy := / 4 in let wtsp := 3 / 2 in let rw := 3 / 1024 in
  let flog x := up64 (ln x) in let fpow x k := up64 (x ^ k) in
  good_log flog /\ good_pow fpow /\
  (exists flogI fpowI, ieee_log flogI flog /\ ieee_pow fpowI fpow) /\
  (exists tsampI pminI pmaxI ducyI wtspI, double_value tsampI tsamp /\ double_value pminI pmin /\
     double_value pmaxI pmax /\ double_value ducyI ducy /\ double_value wtspI wtsp) /\
  Rabs ducy <= 2 ^ 900 /\ ducy < 1 /\ Rabs wtsp <= 2 ^ 900 /\
  (Z.of_nat size <= 33554432)%Z /\ (Z.of_nat 40 <= 4194304)%Z /\
  pmax / tsamp <= 2 ^ 63 /\ pmax <= 2 ^ 900 /\ (cycle_count flog pmin pmax 20 40 < 2 ^ 64)%Z /\
  (Z.of_nat (size / 20) <= 4194304)%Z /\
  0 < tsamp /\ 0 < pmin < pmax /\ (2 <= 20 <= 40)%nat /\ rnd64 (tsamp * INR 20) <= pmin /\
  (forall i, (Z.of_nat i < cycle_count flog pmin pmax 20 40)%Z -> factor fpow tsamp pmin 20 40 i <= INR size) /\
  Forall2 single_value dataI data /\ Forall (fun v => Rabs v <= 2 ^ 90) data /\
  window_fits (ZnearestE (rnd64 (rw / tsamp))) 101 (Z.of_nat size) /\
  (forall bld alloc, allocates alloc -> exists r, rmed (numF bld) alloc data tsamp rw 101 = Ok r /\
     In 0 (minus (numF bld) data r) /\ In 1 (minus (numF bld) data r)) /\ 0 <> 1.
Proof.
  destruct ffa_search_ieee_ex as (G1 & G2 & G3 & G4 & A1 & A2 & A3 & A4 & A5 & A6 & A7 & A8 & A9 & A10 & A11 & A12 & A13 & A14 & _).
  cbv zeta in *.
  assert (LS : length (2 :: repeat 1 3999) = length blip).
  { rewrite blip_len. cbn [length]. rewrite repeat_length. reflexivity. }
  rewrite LS in *. repeat (match goal with |- _ /\ _ => split; [assumption|] end).
  split; [apply blip_single|]. split; [apply blip_small|]. split.
  { rewrite blip_len, blip_width. unfold window_fits. cbn. split; [reflexivity|lia]. }
  split; [intros; now apply blip_median|lra].
Qed.

Print Assumptions deredden_ieee.
Print Assumptions ffa_search_deredden_ieee.
