(** C32, C62, C63: the top-level search function ffa_search. *)
From Coq Require Import List Arith ZArith Bool Lia Reals Lra Psatz SpecFloat Sorted.
From Flocq Require Import Core.
From Verif Require Import Base.Result Base.Buf Base.Num Model.Kernels Model.Transforms
  Model.Downsample Model.Snr Model.FastRmed Model.Libffa Model.Periodogram Model.TimeSeries
  Model.Search Spec.Sums Proof.FastRmed Props.Downsample Props.Snr Props.RunMed Props.FastRmed
  Props.Libffa Props.Periodogram Props.TimeSeries.
Import ListNotations.
Local Open Scope R_scope.

Lemma widths_nat ducy wtsp bmin : (2 <= bmin)%nat -> ducy < 1 ->
  exists ws, generate_width_trials numR (Z.of_nat bmin) ducy wtsp = Ok ws /\
    ws <> [] /\ hd 0%Z ws = 1%Z /\ StronglySorted Z.lt ws /\
    (forall w, In w ws -> (1 <= w < Z.of_nat bmin)%Z) /\
    map Z.to_nat ws <> [] /\ good_widths (map Z.to_nat ws) bmin.
Proof.
  intros Hb Hd. destruct (width_trials (Z.of_nat bmin) ducy wtsp) as (ws & E & S & Hh & Hne & F & _).
  assert (G : forall w, In w ws -> (1 <= w < Z.of_nat bmin)%Z).
  { intros w Hw. rewrite Forall_forall in F. destruct (F w Hw) as [F1 F2]. split; auto.
    apply lt_IZR. eapply Rle_lt_trans; [exact F2|]. rewrite <- INR_IZR_INZ.
    assert (2 <= INR bmin) by (apply (le_INR 2); lia). unfold Rmax. destruct (Rle_dec _ _); nra. }
  exists ws. split; auto. split; auto. split; auto. split; auto. split; auto. split.
  - destruct ws; [congruence|discriminate].
  - intros w Hw. apply in_map_iff in Hw as (z & <- & Hz). apply G in Hz. lia.
Qed.

(** C62: the whole search without dereddening, exact arithmetic. *)
Theorem ffa_search_correct :
  forall (alloc : nat -> list R) (allocz : nat -> list Z) (data : list R) (tsamp pmin pmax : R)
    (fpmin : Z) (bmin bmax : nat) (ducy wtsp rw : R) (minpts : Z) (already : bool) (u v : R),
  let size := length data in
  allocates alloc -> allocates allocz ->
  search_args tsamp pmin pmax bmin bmax -> search_fits size tsamp pmin pmax bmin bmax ->
  2 * pmax <= tsamp * INR size -> ducy < 1 -> In u data -> In v data -> u <> v ->
  exists (x : list R) (widths : list Z) (periods : list R) (bins : list Z) (snrs : arr2 R),
    ffa_search numR ln pow alloc allocz data tsamp pmin pmax fpmin bmin bmax ducy wtsp false rw
      minpts already = Ok (x, (widths, periods, bins, snrs)) /\
    (if already then x = data else
       rmean x = 0 /\ rvar x = 1 /\ exists a b, 0 < a /\ x = map (fun z => a * z + b) data) /\
    hd 0%Z widths = 1%Z /\ StronglySorted Z.lt widths /\
    (forall w, In w widths -> (1 <= w < Z.of_nat bmin)%Z) /\
    py_periodogram numR ln pow alloc allocz x tsamp (map Z.to_nat widths) pmin pmax bmin bmax
      = Ok (periods, bins, snrs) /\
    arr2_wf snrs /\ a_rows snrs = length periods /\ a_cols snrs = length widths /\
    length bins = length periods /\
    (0 < length periods)%nat /\ nth 0 periods 0 = pmin /\
    (forall t, (t < length periods)%nat -> pmin <= nth t periods 0 < pmax) /\
    (forall t t', (t < t' < length periods)%nat -> nth t periods 0 < nth t' periods 0).
Proof.
  intros alloc allocz data tsamp pmin pmax fpmin bmin bmax ducy wtsp rw minpts already u v size
    Ha Hz HA HF H2 Hd Hu Hv Hne.
  set (x := if already then data else normalised numR data).
  assert (Lx : length x = size).
  { unfold x. destruct already; auto. rewrite normalised_R. apply map_length. }
  destruct (widths_nat ducy wtsp bmin) as (ws & EW & Wn & W1 & WS & WB & Wn' & WG);
    [now destruct HA as (_ & _ & _ & ? & _)|auto|].
  assert (HT : long_enough size tsamp pmin pmax bmin bmax).
  { apply long_enough_simple. destruct HA as (H1 & H3 & H4 & H5 & H6 & H7).
    assert (2 <= INR bmin) by (apply (le_INR 2); lia).
    assert (0 <= tsamp * INR size) by (apply Rmult_le_pos; [lra|apply pos_INR]). nra. }
  pose proof (periodogram_trials alloc allocz x (map Z.to_nat ws) tsamp pmin pmax bmin bmax Ha Hz HA) as PT.
  cbv zeta in PT. rewrite Lx in PT.
  destruct (PT HF Wn' WG HT) as (len & P & B & S & _ & EP & LP & LB & WFS & RS & CS & Rng & Mono & _ & First).
  exists x, ws, P, B, S. split.
  { unfold ffa_search. cbn [bind]. fold x. rewrite EW. cbn [bind].
    change (n_T numR) with R in *. fold x. rewrite EP. reflexivity. }
  split.
  { unfold x. destruct already; auto. rewrite normalised_R.
    assert (Hx : data <> []) by (intros E; now rewrite E in Hu).
    pose proof (rvar_pos data u v Hu Hv Hne) as HV.
    pose proof (sqrt_lt_R0 _ HV) as HS. set (s := sqrt (rvar data)) in *.
    assert (Hss : s * s = rvar data) by (apply sqrt_sqrt; lra).
    assert (EY : map (fun v => (v - rmean data) / s) data = map (fun z => / s * z + - (rmean data / s)) data).
    { apply map_ext. intros z. field. lra. }
    rewrite EY. rewrite rmean_affine, rvar_affine by auto. rewrite <- Hss.
    split; [field; lra|]. split; [field; lra|].
    exists (/ s), (- (rmean data / s)). split; auto. now apply Rinv_0_lt_compat. }
  rewrite map_length in CS. subst len.
  destruct First as [F1 F2]. { destruct HA as (? & ? & ? & _). lra. }
  repeat (split; [auto; congruence|]). auto.
Qed.
Print Assumptions ffa_search_correct.

(** C32: the result does not depend on [fpmin], and beyond [length / fpmin] periods are
    searched whenever the requested range goes there. *)
Theorem ffa_search_fpmin_refuted :
  forall (alloc : nat -> list R) (allocz : nat -> list Z) (data : list R) (tsamp pmin pmax : R)
    (bmin bmax : nat) (ducy wtsp rw : R) (minpts : Z) (already : bool) (u v : R) (fpmin : Z),
  let size := length data in
  allocates alloc -> allocates allocz ->
  search_args tsamp pmin pmax bmin bmax -> search_fits size tsamp pmin pmax bmin bmax ->
  2 * pmax <= tsamp * INR size -> ducy < 1 -> In u data -> In v data -> u <> v ->
  tsamp * INR size / IZR fpmin < pmin ->
  exists (x : list R) (widths : list Z) (periods : list R) (bins : list Z) (snrs : arr2 R),
    ffa_search numR ln pow alloc allocz data tsamp pmin pmax fpmin bmin bmax ducy wtsp false rw
      minpts already = Ok (x, (widths, periods, bins, snrs)) /\
    (0 < length periods)%nat /\
    forall t, (t < length periods)%nat -> tsamp * INR size / IZR fpmin < nth t periods 0.
Proof.
  intros alloc allocz data tsamp pmin pmax bmin bmax ducy wtsp rw minpts already u v fpmin size
    Ha Hz HA HF H2 Hd Hu Hv Hne Hf.
  destruct (ffa_search_correct alloc allocz data tsamp pmin pmax fpmin bmin bmax ducy wtsp rw minpts
    already u v Ha Hz HA HF H2 Hd Hu Hv Hne)
    as (x & w & P & B & S & E & _ & _ & _ & _ & _ & _ & _ & _ & _ & L & _ & Rng & _).
  exists x, w, P, B, S. split; [exact E|]. split; auto.
  intros t Ht. specialize (Rng t Ht). lra.
Qed.
Print Assumptions ffa_search_fpmin_refuted.

(** 10 s of data, periods from 2 s to 4 s with the default fpmin = 8 *)
Example ffa_search_ex : let data := 1 :: repeat 0 (99 * 100 + 99) in
  search_args (1/1000) 2 4 20 22 /\ search_fits (length data) (1/1000) 2 4 20 22 /\
  2 * 4 <= 1/1000 * INR (length data) /\ In 1 data /\ In 0 data /\ 1 <> 0 /\
  1/1000 * INR (length data) / 8 < 2.
Proof.
  cbv zeta.
  assert (L : length (1 :: repeat 0 (99 * 100 + 99)) = (100 * 100)%nat).
  { cbn [length]. rewrite repeat_length. reflexivity. }
  assert (E : INR (100 * 100) = 10000).
  { rewrite mult_INR, INR_IZR_INZ. cbn. lra. }
  assert (E20 : INR 20 = 20) by (cbn; lra).
  rewrite L, E. split; [unfold search_args; rewrite E20; repeat split; try lia; lra|].
  split; [|split; [lra|]; split; [now left|]; split; [right; cbn [Nat.add Nat.mul repeat]; now left|]; lra].
  unfold search_fits. split; [lia|]. split; [lra|]. split; [lia|].
  assert (L2 : ln (4 / 2) <= 1).
  { replace (4 / 2) with 2 by lra. rewrite <- (ln_exp 1). apply Rlt_le, ln_increasing; [lra|].
    pose proof (exp_ineq1 1). lra. }
  assert (L3 : 3 / 23 <= ln ((INR 22 + 1) / INR 20)).
  { replace ((INR 22 + 1) / INR 20) with (/ (20 / 23)) by (cbn; field).
    rewrite ln_Rinv by lra. pose proof (exp_ineq1_le (ln (20 / 23))) as Q.
    rewrite exp_ln in Q by lra. lra. }
  apply Rmult_le_reg_r with (ln ((INR 22 + 1) / INR 20)); [lra|].
  unfold Rdiv at 1. rewrite Rmult_assoc, Rinv_l by lra. nra.
Qed.

(** C63: rescaling (by a positive factor) and shifting the data changes nothing. *)
Lemma normalised_affine (x : list R) a b : 0 < a ->
  normalised numR (map (fun z => a * z + b) x) = normalised numR x.
Proof.
  intros Ha. destruct x as [|z0 x0] eqn:Ex; [reflexivity|]. rewrite <- Ex in *.
  assert (Hx : x <> []) by (rewrite Ex; discriminate).
  rewrite !normalised_R, map_map, rmean_affine, rvar_affine by auto.
  apply map_ext_in. intros z Hz.
  rewrite sqrt_mult_alt by apply pow2_ge_0. rewrite sqrt_pow2 by lra.
  destruct (Rle_lt_or_eq_dec 0 _ (rvar_nonneg x)) as [HV|HV].
  - pose proof (sqrt_lt_R0 _ HV). field. lra.
  - assert (z = rmean x).
    { assert (A : forall w, In w x -> w = z).
      { intros w Hw. destruct (Req_dec w z) as [|NE]; auto.
        pose proof (rvar_pos x w z Hw Hz NE). lra. }
      unfold rmean. rewrite (rsum_ext _ _ (fun _ => z)).
      - rewrite rsum_const. field. apply not_0_INR. destruct x; [easy|discriminate].
      - intros i Hi. apply A. now apply nth_In. }
    rewrite <- H. replace (a * z + b - (a * z + b)) with 0 by ring. replace (z - z) with 0 by ring.
    unfold Rdiv. ring.
Qed.

Lemma running_median_affine alloc (x : list R) w a c : allocates alloc -> 0 < a ->
  running_median_py numR alloc (map (fun y => a * y + c) x) w
  = (r <- running_median_py numR alloc x w ;; Ok (map (fun y => a * y + c) r)).
Proof.
  intros Ha Hp. unfold running_median_py. destruct (w <? 0)%Z; [reflexivity|].
  rewrite !map_narrow_R. rsimp.
  destruct (running_median_correct R Rlt_bool 0 0 alloc x (Z.to_nat w) Ha) as [H1 H2].
  destruct (Nat.odd (Z.to_nat w)) eqn:O; [destruct (lt_dec (Z.to_nat w) (length x)) as [L|L]|].
  - destruct H2 as (out & E & _); auto. rewrite E. cbn [bind]. now apply rmed_affine.
  - rewrite H1 by tauto. cbn [bind].
    destruct (running_median_correct R Rlt_bool 0 0 alloc (map (fun y => a * y + c) x) (Z.to_nat w) Ha) as [H3 _].
    apply H3. rewrite map_length. tauto.
  - rewrite H1 by (intros [? _]; discriminate). cbn [bind].
    destruct (running_median_correct R Rlt_bool 0 0 alloc (map (fun y => a * y + c) x) (Z.to_nat w) Ha) as [H3 _].
    apply H3. intros [? _]. congruence.
Qed.

Lemma fast_affine alloc (x : list R) w m a c : allocates alloc -> 0 < a -> (0 < m)%Z ->
  fast_running_median numR alloc (map (fun y => a * y + c) x) w m
  = (r <- fast_running_median numR alloc x w m ;; Ok (map (fun y => a * y + c) r)).
Proof.
  intros Ha Hp Hm.
  destruct (fast_running_median_correct alloc x w m Ha Hm) as (A1 & A2 & A3).
  destruct (fast_running_median_correct alloc (map (fun y => a * y + c) x) w m Ha Hm) as (B1 & B2 & B3).
  destruct (Z.even m) eqn:Ev; [rewrite (A1 eq_refl), (B1 eq_refl); reflexivity|].
  assert (Od : Z.odd m = true) by (rewrite <- Z.negb_even, Ev; reflexivity).
  destruct (Z.lt_ge_cases w (2 * m)) as [L|L].
  - rewrite A2, B2 by auto. now apply running_median_affine.
  - destruct (A3 Od L) as [A4 A5]. destruct (B3 Od L) as [B4 _]. rewrite map_length in B4.
    destruct (Z.le_gt_cases (Z.of_nat (length x) / (w / m)) m) as [Q|Q].
    + rewrite A4, B4 by auto. reflexivity.
    + destruct (A5 Q) as (out & E & _ & _ & V). rewrite E. cbn [bind]. now apply V.
Qed.

Theorem ffa_search_affine :
  forall (alloc : nat -> list R) (allocz : nat -> list Z) (data : list R) (tsamp pmin pmax : R)
    (fpmin : Z) (bmin bmax : nat) (ducy wtsp : R) (deredden : bool) (rw : R) (minpts : Z) (a b : R),
  allocates alloc -> 0 < a -> (0 < minpts)%Z ->
  ffa_search numR ln pow alloc allocz (map (fun z => a * z + b) data) tsamp pmin pmax fpmin bmin bmax
    ducy wtsp deredden rw minpts false
  = ffa_search numR ln pow alloc allocz data tsamp pmin pmax fpmin bmin bmax
    ducy wtsp deredden rw minpts false.
Proof.
  intros alloc allocz data tsamp pmin pmax fpmin bmin bmax ducy wtsp deredden rw minpts a b Ha Hp Hm.
  unfold ffa_search. destruct deredden; cbn [bind].
  - unfold rmed. set (w := py_round numR _). numR_ty.
    rewrite (fast_affine alloc data w minpts a b Ha Hp Hm).
    destruct (fast_running_median numR alloc data w minpts) as [r| | |]; cbn [bind]; auto.
    numR_ty. rewrite !map_length. destruct (length r =? length data)%nat eqn:EL; cbn [guard bind]; auto.
    replace (minus numR (map (fun z => a * z + b) data) (map (fun y => a * y + b) r))
      with (map (fun z => a * z + 0) (minus numR data r)).
    { numR_ty. rewrite normalised_affine by auto. reflexivity. }
    unfold minus. rsimp. rewrite map_map. clear EL. revert r.
    induction data as [|d data IH]; intros [|r0 r]; cbn; auto.
    f_equal; [ring|]. apply IH.
  - numR_ty. rewrite normalised_affine by auto. reflexivity.
Qed.
Print Assumptions ffa_search_affine.
