(** C27 - C31: the periodogram (exact arithmetic; see PeriodogramFloat for C27 in binary64). *)
From Coq Require Import List Arith ZArith Bool Lia Reals Lra Psatz.
From Flocq Require Import Core.
From Verif Require Import Base.Result Base.Buf Base.Num Model.Kernels Model.Transforms
  Model.Downsample Model.Snr Model.Periodogram Spec.Sums Spec.FfaSpec Spec.Overlap Spec.Noise Spec.Boxcar
  Proof.Transforms Proof.Index Proof.Ffa Proof.Downsample Proof.Kernels Proof.Snr
  Proof.Periodogram Proof.PeriodogramR Props.Downsample Props.Noise Props.Snr.
Import ListNotations.
Local Open Scope R_scope.

(** the documented requirements on the arguments *)
Definition search_args (tsamp pmin pmax : R) (bmin bmax : nat) : Prop :=
  0 < tsamp /\ 0 < pmin /\ pmin < pmax /\ (2 <= bmin)%nat /\ (bmin <= bmax)%nat /\
  tsamp * INR bmin <= pmin.

(** counts fit in a size_t, bin numbers in a uint32_t *)
Definition search_fits (size : nat) (tsamp pmin pmax : R) (bmin bmax : nat) : Prop :=
  (Z.of_nat size < 2 ^ 64)%Z /\ pmax / tsamp < 2 ^ 64 /\ (Z.of_nat bmax < 2 ^ 32)%Z /\
  ln (pmax / pmin) / ln ((INR bmax + 1) / INR bmin) <= 2 ^ 63.

(** C27 (error side) *)
Theorem periodogram_checks :
  forall (alloc : nat -> list R) (allocz : nat -> list Z) (data : list R) (ws : list nat)
    (tsamp pmin pmax : R) (bmin bmax : nat),
  ~ search_args tsamp pmin pmax bmin bmax ->
  periodogram_length numR ln pow (length data) tsamp pmin pmax bmin bmax = Err ValueError /\
  py_periodogram numR ln pow alloc allocz data tsamp ws pmin pmax bmin bmax = Err ValueError.
Proof.
  intros alloc allocz data ws tsamp pmin pmax bmin bmax H.
  assert (HC : check_arguments numR tsamp pmin pmax bmin bmax = Err ValueError).
  { unfold check_arguments. rsimp. rewrite <- INR_IZR_INZ.
    destruct (Rlt_bool_spec 0 tsamp); [|reflexivity].
    destruct (Rlt_bool_spec 0 pmin); [|reflexivity].
    destruct (Rlt_bool_spec pmin pmax); [|reflexivity].
    destruct (Nat.ltb_spec 1 bmin); [|reflexivity].
    destruct (Nat.leb_spec bmin bmax); [|reflexivity].
    destruct (Rle_bool_spec (tsamp * INR bmin) pmin); [|reflexivity].
    exfalso. apply H. unfold search_args. repeat split; auto; lia. }
  unfold py_periodogram, periodogram_length. numR_ty. rewrite HC. cbn [bind]. auto.
Qed.
Print Assumptions periodogram_checks.

Example periodogram_checks_ex : ~ search_args 1 10 5 8 10.
Proof. unfold search_args. lra. Qed.

Section Facts.
Context (size : nat) (tsamp pmin pmax : R) (bmin bmax : nat).

Lemma fits_cyc : search_fits size tsamp pmin pmax bmin bmax ->
  (pl_cyc numR ln pmin pmax bmin bmax < 2 ^ 64)%Z.
Proof.
  intros (_ & _ & _ & H). unfold pl_cyc. rsimp. rewrite geo_eq.
  apply Z.le_lt_trans with (2 ^ 63)%Z; [|reflexivity]. apply Zceil_glb.
  change (IZR (2 ^ 63)) with 9223372036854775808. lra.
Qed.

(** Each downsampling starts [(bmax + 1) / bmin] times above the previous one.  The data are long
    enough if they have a sample left for the first trial of each. *)
Definition long_enough : Prop :=
  forall k, let P := pmin * ((INR bmax + 1) / INR bmin) ^ k in P < pmax -> P <= tsamp * INR bmin * INR size.

Lemma long_enough_simple : pmax <= tsamp * INR bmin * INR size -> long_enough.
Proof. intros H k P L. lra. Qed.

Lemma fits_valid : search_args tsamp pmin pmax bmin bmax -> long_enough ->
  forallb (pl_valid numR pow size tsamp pmin bmin bmax)
    (seq 0 (pl_cycles numR ln pmin pmax bmin bmax)) = true.
Proof.
  intros (H1 & H2 & H3 & H4 & H5 & H6) HT. apply forallb_forall. intros ids Hin.
  apply in_seq in Hin. apply valid_iff; auto. right.
  assert (Hc : (ids < pl_cycles numR ln pmin pmax bmin bmax)%nat) by lia.
  apply (cycles_iff tsamp) in Hc; auto. specialize (HT ids). cbv zeta in HT. rewrite <- geo_eq in HT.
  rewrite <- (tau_pow tsamp) in HT by auto. apply HT in Hc. rewrite tau_eq in Hc.
  assert (0 < tsamp * INR bmin).
  { apply Rmult_lt_0_compat; auto. apply (lt_INR 0). lia. }
  apply Rmult_le_reg_l with (tsamp * INR bmin); auto. lra.
Qed.

Lemma valid_fits : search_args tsamp pmin pmax bmin bmax -> (1 <= size)%nat ->
  forallb (pl_valid numR pow size tsamp pmin bmin bmax)
    (seq 0 (pl_cycles numR ln pmin pmax bmin bmax)) = true -> long_enough.
Proof.
  intros (H1 & H2 & H3 & H4 & H5 & H6) H1s EV k P L. unfold P in *. clear P. rewrite forallb_forall in EV.
  rewrite <- geo_eq, <- (tau_pow tsamp) in * by auto.
  apply (cycles_iff tsamp) in L; auto.
  assert (Hin : In k (seq 0 (pl_cycles numR ln pmin pmax bmin bmax))) by (apply in_seq; lia).
  apply EV in Hin. apply valid_iff in Hin; auto. apply (le_INR 1) in H1s. cbn [INR] in H1s.
  assert (Hf : pl_f numR pow tsamp pmin bmin bmax k <= INR size) by (destruct Hin as [->|Hin]; auto).
  rewrite tau_eq. assert (0 < tsamp * INR bmin).
  { apply Rmult_lt_0_compat; auto. apply (lt_INR 0). lia. }
  replace (pl_f numR pow tsamp pmin bmin bmax k * tsamp * INR bmin)
    with (tsamp * INR bmin * pl_f numR pow tsamp pmin bmin bmax k) by ring.
  apply Rmult_le_compat_l; lra.
Qed.
End Facts.

(** One run of the search (used by the proofs below). *)
Lemma search_run (alloc : nat -> list R) (allocz : nat -> list Z) (data : list R) (ws : list nat)
    (tsamp pmin pmax : R) (bmin bmax : nat) :
  let size := length data in
  let total := pl_total numR ln pow size tsamp pmin pmax bmin bmax in
  allocates alloc -> allocates allocz ->
  search_args tsamp pmin pmax bmin bmax -> search_fits size tsamp pmin pmax bmin bmax ->
  ws <> [] -> good_widths ws bmin ->
  long_enough size tsamp pmin pmax bmin bmax ->
  periodogram_length numR ln pow size tsamp pmin pmax bmin bmax = Ok total /\
  exists (P : list R) (B : list Z) (S : arr2 R),
    py_periodogram numR ln pow alloc allocz data tsamp ws pmin pmax bmin bmax = Ok (P, B, S) /\
    length P = total /\ length B = total /\ a_rows S = total /\ a_cols S = length ws /\
    arr2_wf S /\
    (forall i j s, (i < pl_cycles numR ln pmin pmax bmin bmax)%nat ->
      (j < pl_nb numR pow size tsamp pmin pmax bmin bmax i)%nat ->
      (s < pl_eval numR pow size tsamp pmin pmax bmin bmax i (bmin + j))%nat ->
      let t := (pl_off numR pow size tsamp pmin pmax bmin bmax i
         + pl_off2 numR pow size tsamp pmin pmax bmin bmax i j + s)%nat in
      (t < total)%nat /\ nth t P 0 = pl_period numR pow size tsamp pmin bmin bmax i (bmin + j) s /\
      nth t B 0%Z = Z.of_nat (bmin + j) /\
      exists x, ds_R size tsamp pmin bmin bmax data i x /\
        forall k, (k < length ws)%nat ->
          sn_R ws (pl_profile numR pow size tsamp pmin bmin bmax 0 i (bmin + j) s x) k
            (pl_sd numR pow size tsamp pmin bmin bmax i (bmin + j)) (at2 0 S t k)) /\
    forall t, (t < total)%nat -> exists i j s,
      (i < pl_cycles numR ln pmin pmax bmin bmax)%nat /\
      (j < pl_nb numR pow size tsamp pmin pmax bmin bmax i)%nat /\
      (s < pl_eval numR pow size tsamp pmin pmax bmin bmax i (bmin + j))%nat /\
      t = (pl_off numR pow size tsamp pmin pmax bmin bmax i
         + pl_off2 numR pow size tsamp pmin pmax bmin bmax i j + s)%nat /\
      nth t P 0 = pl_period numR pow size tsamp pmin bmin bmax i (bmin + j) s /\
      nth t B 0%Z = Z.of_nat (bmin + j) /\
      exists x, ds_R size tsamp pmin bmin bmax data i x /\
        forall k, (k < length ws)%nat ->
          sn_R ws (pl_profile numR pow size tsamp pmin bmin bmax 0 i (bmin + j) s x) k
            (pl_sd numR pow size tsamp pmin bmin bmax i (bmin + j)) (at2 0 S t k).
Proof.
  intros size total Ha Hz HA HF Hws Hw HT.
  assert (HA' := HA). destruct HA' as (H1 & H2 & H3 & H4 & H5 & H6).
  assert (HF' := HF). destruct HF' as (F1 & F2 & F3 & _).
  pose proof (fits_cyc size tsamp pmin pmax bmin bmax HF) as HC.
  pose proof (run_R size tsamp pmin pmax bmin bmax H1 H2 H3 H4 H5 H6 alloc allocz data ws Ha Hz
    eq_refl Hws Hw HC F2 F1) as HR. cbv zeta in HR.
  rewrite (fits_valid size tsamp pmin pmax bmin bmax HA HT) in HR.
  destruct HR as (P & B & S & E & LP & LB & LR & LC & LD & V). fold total in LP, LB, LR, LD.
  split. { apply length_spec; [now apply check_R|now apply conv_R]. }
  exists P, B, S. do 5 (split; [assumption|]).
  split. { unfold arr2_wf. numR_ty. now rewrite LD, LR, LC. }
  match goal with |- ?A /\ _ => assert (VV : A) end.
  { intros i j s Hi Hj Hs. cbv zeta. destruct (V i j s Hi Hj Hs) as (VP & VB & x & Hx & VS). split; [|split; [exact VP|]].
    - pose proof (off_total numR ln pow size tsamp pmin pmax bmin bmax i j Hi Hj) as HO.
      fold total in HO. lia.
    - split.
      { rewrite VB. apply Z.mod_small.
        destruct (range_R size tsamp pmin pmax bmin bmax H1 H2 H3 H4 H5 H6 i j s Hj Hs). lia. }
      exists x. split; [exact Hx|]. unfold at2. numR_ty. rewrite LC. exact VS. }
  split; [exact VV|].
  intros t Ht. destruct (off_decode numR ln pow size tsamp pmin pmax bmin bmax t Ht)
    as (i & j & s & Hi & Hj & Hs & Et).
  exists i, j, s. do 4 (split; [assumption|]).
  destruct (VV i j s Hi Hj Hs) as (_ & VX). rewrite <- Et in VX. exact VX.
Qed.

(** C27, C28.  [len] is the length computed beforehand to allocate the outputs. *)
Theorem periodogram_trials :
  forall (alloc : nat -> list R) (allocz : nat -> list Z) (data : list R) (ws : list nat)
    (tsamp pmin pmax : R) (bmin bmax : nat),
  let size := length data in
  allocates alloc -> allocates allocz ->
  search_args tsamp pmin pmax bmin bmax -> search_fits size tsamp pmin pmax bmin bmax ->
  ws <> [] -> good_widths ws bmin ->
  long_enough size tsamp pmin pmax bmin bmax ->
  exists (len : nat) (periods : list R) (bins : list Z) (snrs : arr2 R),
    periodogram_length numR ln pow size tsamp pmin pmax bmin bmax = Ok len /\
    py_periodogram numR ln pow alloc allocz data tsamp ws pmin pmax bmin bmax
      = Ok (periods, bins, snrs) /\
    length periods = len /\ length bins = len /\
    arr2_wf snrs /\ a_rows snrs = len /\ a_cols snrs = length ws /\
    (forall t, (t < len)%nat -> pmin <= nth t periods 0 < pmax) /\
    (forall t t', (t < t' < len)%nat -> nth t periods 0 < nth t' periods 0) /\
    (forall t, (t < len)%nat -> (Z.of_nat bmin <= nth t bins 0%Z <= Z.of_nat bmax)%Z) /\
    (2 * pmin <= tsamp * INR size -> (0 < len)%nat /\ nth 0 periods 0 = pmin).
Proof.
  intros alloc allocz data ws tsamp pmin pmax bmin bmax size Ha Hz HA HF Hws Hw HT.
  destruct (search_run alloc allocz data ws tsamp pmin pmax bmin bmax Ha Hz HA HF Hws Hw HT)
    as (EL & P & B & S & E & LP & LB & LR & LC & LW & V & D).
  fold size in EL, LP, LB, LR, V, D.
  destruct HA as (H1 & H2 & H3 & H4 & H5 & H6).
  eexists _, P, B, S. split; [exact EL|]. split; [exact E|]. do 5 (split; [assumption|]).
  split.
  { intros t Ht. destruct (D t Ht) as (i & j & s & Hi & Hj & Hs & _ & -> & _).
    now apply (range_R size tsamp pmin pmax bmin bmax H1 H2 H3 H4 H5 H6). }
  split.
  { intros t t' [Htt Ht'].
    destruct (D t ltac:(lia)) as (i & j & s & Hi & Hj & Hs & Et & -> & _).
    destruct (D t' Ht') as (i' & j' & s' & Hi' & Hj' & Hs' & Et' & -> & _).
    apply (order_R size tsamp pmin pmax bmin bmax H1 H2 H3 H4 H5 H6); auto. lia. }
  split.
  { intros t Ht. destruct (D t Ht) as (i & j & s & Hi & Hj & Hs & _ & _ & -> & _).
    destruct (range_R size tsamp pmin pmax bmin bmax H1 H2 H3 H4 H5 H6 i j s Hj Hs). lia. }
  intros H2p.
  pose proof (tau_0 tsamp pmin bmin bmax H1 H4 H5) as T0.
  destruct (first_trial size tsamp pmin pmax bmin bmax H1 H2 H3 H4 H5 H6 0 bmin)
    as (j & Ej & Hi & Hj & He & Ep); [lia|now rewrite T0|now rewrite T0|].
  assert (j = 0)%nat by lia. subst j. rewrite Nat.add_0_r in Ej.
  destruct (V 0%nat 0%nat 0%nat Hi Hj ltac:(now rewrite Nat.add_0_r)) as (Ht & VP & _).
  split; [exact Ht|].
  change (pl_off numR pow size tsamp pmin pmax bmin bmax 0
    + pl_off2 numR pow size tsamp pmin pmax bmin bmax 0 0 + 0)%nat with 0%nat in VP.
  rewrite VP, Nat.add_0_r. now rewrite Ep.
Qed.
Print Assumptions periodogram_trials.

Lemma search_fits_ex size : (Z.of_nat size < 2 ^ 64)%Z -> search_fits size (1/1000) (20/1000) 1 20 22.
Proof.
  intros Hs.
  assert (E20 : INR 20 = 20) by (cbn; lra). assert (E22 : INR 22 = 22) by (cbn; lra).
  unfold search_fits. rewrite E20, E22. repeat split; auto; try lra.
  assert (H1 : ln (1 / (20/1000)) <= 1 / (20/1000) - 1).
  { pose proof (exp_ineq1_le (ln (1 / (20/1000)))). rewrite exp_ln in H by lra. lra. }
  assert (H2 : / 8 <= ln ((22 + 1) / 20)).
  { assert (ln (20/23) <= 20/23 - 1).
    { pose proof (exp_ineq1_le (ln (20/23))). rewrite exp_ln in H by lra. lra. }
    replace ((22 + 1) / 20) with (/ (20/23)) by (field). rewrite ln_Rinv by lra. lra. }
  apply Rmult_le_reg_r with (ln ((22 + 1) / 20)); [lra|].
  unfold Rdiv at 1. rewrite Rmult_assoc, Rinv_l by lra. lra.
Qed.

Lemma search_args_ex : search_args (1/1000) (20/1000) 1 20 22.
Proof.
  assert (E20 : INR 20 = 20) by (cbn; lra). unfold search_args. rewrite E20.
  repeat split; try lia; lra.
Qed.

(** 10 s of data sampled at 1 ms, periods from 20 ms to 1 s *)
Lemma search_ex : let data := repeat 0 (100 * 100) in
  search_args (1/1000) (20/1000) 1 20 22 /\
  search_fits (length data) (1/1000) (20/1000) 1 20 22 /\
  1 <= 1/1000 * INR 20 * INR (length data) /\ 2 * 1 <= 1/1000 * INR (length data).
Proof.
  cbv zeta. rewrite repeat_length.
  assert (E : INR (100 * 100) = 10000).
  { rewrite mult_INR, INR_IZR_INZ. cbn. lra. }
  assert (E20 : INR 20 = 20) by (cbn; lra).
  split; [apply search_args_ex|]. split; [apply search_fits_ex; lia|].
  rewrite E, E20. lra.
Qed.

Example periodogram_trials_ex : let data := repeat 0 (100 * 100) in
  search_args (1/1000) (20/1000) 1 20 22 /\
  search_fits (length data) (1/1000) (20/1000) 1 20 22 /\
  [1; 2; 3]%nat <> [] /\ good_widths [1; 2; 3]%nat 20 /\
  long_enough (length data) (1/1000) (20/1000) 1 20 22.
Proof.
  destruct search_ex as (A & B & C & _). cbv zeta. split; [exact A|]. split; [exact B|]. split; [discriminate|].
  split; [intros w [<-|[<-|[<-|[]]]]; lia|]. apply long_enough_simple. exact C.
Qed.

(** the frequency step after a trial (used by the proofs below) *)
Lemma search_step (size : nat) (tsamp pmin pmax : R) (bmin bmax : nat) (P : list R) :
  let total := pl_total numR ln pow size tsamp pmin pmax bmin bmax in
  search_args tsamp pmin pmax bmin bmax -> 2 * pmax <= tsamp * INR size ->
  (forall i j s, (i < pl_cycles numR ln pmin pmax bmin bmax)%nat ->
      (j < pl_nb numR pow size tsamp pmin pmax bmin bmax i)%nat ->
      (s < pl_eval numR pow size tsamp pmin pmax bmin bmax i (bmin + j))%nat ->
      let t := (pl_off numR pow size tsamp pmin pmax bmin bmax i
         + pl_off2 numR pow size tsamp pmin pmax bmin bmax i j + s)%nat in
      (t < total)%nat /\ nth t P 0 = pl_period numR pow size tsamp pmin bmin bmax i (bmin + j) s) ->
  (forall t, (t < total)%nat -> pmin <= nth t P 0 < pmax) ->
  (forall t t', (t < t' < total)%nat -> nth t P 0 < nth t' P 0) ->
  forall t i j s, (t < total)%nat -> (i < pl_cycles numR ln pmin pmax bmin bmax)%nat ->
    (j < pl_nb numR pow size tsamp pmin pmax bmin bmax i)%nat ->
    (s < pl_eval numR pow size tsamp pmin pmax bmin bmax i (bmin + j))%nat ->
    nth t P 0 = pl_period numR pow size tsamp pmin bmin bmax i (bmin + j) s ->
    let next := if (t + 1 <? total)%nat then nth (t + 1) P 0 else pmax in
    let b := (bmin + j)%nat in
    0 < / nth t P 0 - / next /\
    / nth t P 0 - / next <= / (pl_tau numR pow tsamp pmin bmin bmax i * INR b ^ 2
      * (INR (pl_rows numR pow size tsamp pmin bmin bmax i b) - 1)).
Proof.
  intros total (H1 & H2 & H3 & H4 & H5 & H6) H2T V Rng Mono t i j s Ht Hi Hj Hs EP next b.
  assert (Hbb : (bmin <= b <= pl_bstop numR pow size tsamp pmin pmax bmin bmax i)%nat)
    by (unfold pl_nb in Hj; unfold b; lia).
  fold b in Hs, EP.
  set (rows := pl_rows numR pow size tsamp pmin bmin bmax i b).
  set (tau := pl_tau numR pow tsamp pmin bmin bmax i).
  assert (Htau : 0 < tau) by (now apply tau_pos).
  assert (Hrows : (2 <= rows)%nat).
  { pose proof (eval_rows size tsamp pmin pmax bmin bmax H1 H2 H3 H4 H5 H6 i b Hbb).
    unfold rows. fold b in Hs. lia. }
  assert (Hb2 : 2 <= INR b) by (apply (le_INR 2); unfold b; lia).
  assert (Pt : pmin <= nth t P 0 < pmax) by (now apply Rng).
  assert (Hnx : nth t P 0 < next /\ 0 < next).
  { unfold next. destruct (Nat.ltb_spec (t + 1) total).
    - assert (nth t P 0 < nth (t + 1) P 0) by (apply Mono; lia). lra.
    - lra. }
  split.
  { assert (/ next < / nth t P 0); [|lra]. apply Rinv_lt_contravar; [nra|apply Hnx]. }
  pose proof (coverage_R size tsamp pmin pmax bmin bmax H1 H2 H3 H4 H5 H6 i j s Hj Hs H2T) as HC.
    cbv zeta in HC. fold b in HC. fold rows in HC. fold tau in HC. rewrite <- EP in HC.
    (* any later value bounds [next] *)
    assert (G : forall q, next <= q -> / nth t P 0 - / q <= / (tau * INR b ^ 2 * (INR rows - 1)) ->
      / nth t P 0 - / next <= / (tau * INR b ^ 2 * (INR rows - 1))).
    { intros q Hq Hs'. assert (/ q <= / next); [|lra]. apply Rinv_le_contravar; [lra|auto]. }
    assert (G' : forall t', (t' < total)%nat -> nth t P 0 < nth t' P 0 -> next <= nth t' P 0).
    { intros t' Ht' Hlt.
      assert (t < t')%nat.
      { destruct (lt_eq_lt_dec t t') as [[?|Heq]|Hgt]; auto.
        - rewrite Heq in Hlt. lra.
        - assert (nth t' P 0 < nth t P 0) by (apply Mono; lia). lra. }
      unfold next. destruct (Nat.ltb_spec (t + 1) total); [|lia].
      destruct (Nat.eq_dec t' (t + 1)) as [->|Hne]; [lra|].
      left. apply Mono. lia. }
    destruct HC as [[Hs' EC]|[EC|(i' & j' & Hi' & Hj' & He' & Hlt & EC)]].
    - destruct (V i j (Datatypes.S s) Hi Hj Hs') as [Ht' VP]. fold b in VP. rewrite <- VP in EC.
      eapply G; [|rewrite EC; apply Rle_refl]. apply G'; auto.
      apply inv_lt_cancel; [lra| |].
      + rewrite VP. now destruct (period_freq size tsamp pmin pmax bmin bmax H1 H2 H3 H4 H5 H6 i b (Datatypes.S s) Hbb Hs').
      + assert (0 < / (tau * INR b ^ 2 * (INR rows - 1))).
        { apply Rinv_0_lt_compat. apply (le_INR 2) in Hrows. cbn [INR] in Hrows.
          apply Rmult_lt_0_compat; [apply Rmult_lt_0_compat|]; nra. }
        lra.
    - apply (G pmax); auto. unfold next. destruct (Nat.ltb_spec (t + 1) total); [|lra].
      left. now apply Rng.
    - destruct (V i' j' 0%nat Hi' Hj' He') as [Ht' VP]. rewrite <- VP in EC, Hlt.
      eapply G; [|exact EC]. now apply G'.
Qed.

(** C29.  Trial [t] comes from a fold of [rows] periods of [b] bins of duration [tau]; going
    to the next trial, or from the last one to [period_max], the frequency changes by at most
    the amount that makes the phase drift by one bin, [1 / b], over the [(rows - 1) * b * tau]
    seconds between the first and the last period. *)
Theorem periodogram_coverage :
  forall (alloc : nat -> list R) (allocz : nat -> list Z) (data : list R) (ws : list nat)
    (tsamp pmin pmax : R) (bmin bmax : nat),
  let size := length data in
  allocates alloc -> allocates allocz ->
  search_args tsamp pmin pmax bmin bmax -> search_fits size tsamp pmin pmax bmin bmax ->
  ws <> [] -> good_widths ws bmin ->
  2 * pmax <= tsamp * INR size ->
  exists (periods : list R) (bins : list Z) (snrs : arr2 R),
    py_periodogram numR ln pow alloc allocz data tsamp ws pmin pmax bmin bmax
      = Ok (periods, bins, snrs) /\
    (0 < length periods)%nat /\ nth 0 periods 0 = pmin /\
    forall t, (t < length periods)%nat ->
      exists (b rows : nat) (tau : R),
        nth t bins 0%Z = Z.of_nat b /\ (2 <= rows)%nat /\ 0 < tau /\
        INR rows * INR b * tau <= tsamp * INR size < INR (rows + 1) * INR b * tau + tau /\
        tau * INR b <= nth t periods 0 < tau * (INR b + 1) /\
        let next := if (t + 1 <? length periods)%nat then nth (t + 1) periods 0 else pmax in
        0 < / nth t periods 0 - / next /\
        (/ nth t periods 0 - / next) * (INR (rows - 1) * INR b * tau) <= / INR b.
Proof.
  intros alloc allocz data ws tsamp pmin pmax bmin bmax size Ha Hz HA HF Hws Hw H2T.
  assert (HT : long_enough size tsamp pmin pmax bmin bmax).
  { apply long_enough_simple. destruct HA as (H1 & H2 & H3 & H4 & H5 & H6).
    assert (2 <= INR bmin) by (apply (le_INR 2); lia).
    assert (0 <= tsamp * INR size) by (apply Rmult_le_pos; [lra|apply pos_INR]). nra. }
  destruct (search_run alloc allocz data ws tsamp pmin pmax bmin bmax Ha Hz HA HF Hws Hw HT)
    as (EL & P & B & S & E & LP & LB & LR & LC & LW & V & D).
  destruct (periodogram_trials alloc allocz data ws tsamp pmin pmax bmin bmax Ha Hz HA HF Hws Hw HT)
    as (len & P' & B' & S' & EL' & E' & LP' & _ & _ & _ & _ & Rng & Mono & _ & First).
  rewrite E in E'. injection E' as <- <- <-. rewrite LP in LP'. subst len.
  fold size in EL, LP, LB, LR, V, D, Rng, Mono, First.
  assert (HA' := HA). destruct HA' as (H1 & H2 & H3 & H4 & H5 & H6).
  exists P, B, S. split; [exact E|].
  destruct (First ltac:(fold size; lra)) as [Hpos Hfirst]. rewrite LP.
  split; [exact Hpos|]. split; [exact Hfirst|].
  set (total := pl_total numR ln pow size tsamp pmin pmax bmin bmax) in *.
  intros t Ht. destruct (D t Ht) as (i & j & s & Hi & Hj & Hs & Et & EP & EB & _).
  set (b := (bmin + j)%nat) in *.
  assert (Hbb : (bmin <= b <= pl_bstop numR pow size tsamp pmin pmax bmin bmax i)%nat)
    by (unfold pl_nb in Hj; unfold b; lia).
  set (rows := pl_rows numR pow size tsamp pmin bmin bmax i b).
  set (tau := pl_tau numR pow tsamp pmin bmin bmax i).
  assert (Htau : 0 < tau) by (now apply tau_pos).
  assert (Hrows : (2 <= rows)%nat).
  { pose proof (eval_rows size tsamp pmin pmax bmin bmax H1 H2 H3 H4 H5 H6 i b Hbb).
    unfold rows. lia. }
  assert (Hb2 : 2 <= INR b) by (apply (le_INR 2); unfold b; lia).
  exists b, rows, tau. split; [exact EB|]. split; [exact Hrows|]. split; [exact Htau|].
  split.
  { (* the fold uses all the data but an incomplete period *)
    pose proof (n_iff size tsamp pmin bmin bmax H1 H4 H5 H6 i) as NI.
    set (n := pl_n numR pow size tsamp pmin bmin bmax i) in *.
    assert (Hrn : rows = (n / b)%nat) by reflexivity.
    pose proof (Nat.mul_div_le n b ltac:(unfold b; lia)) as M1.
    pose proof (Nat.mul_succ_div_gt n b ltac:(unfold b; lia)) as M2. rewrite <- Hrn in M1, M2.
    assert (Ef : tau = pl_f numR pow tsamp pmin bmin bmax i * tsamp) by reflexivity.
    assert (Hf : 0 < pl_f numR pow tsamp pmin bmin bmax i).
    { pose proof (f_ge1 tsamp pmin bmin bmax H1 H4 H5 H6 i). lra. }
    split.
    - assert (Hle : (rows * b <= n)%nat) by lia. apply NI in Hle.
      rewrite mult_INR in Hle. rewrite Ef.
      replace (INR rows * INR b * (pl_f numR pow tsamp pmin bmin bmax i * tsamp))
        with (tsamp * (INR rows * INR b * pl_f numR pow tsamp pmin bmin bmax i)) by ring.
      apply Rmult_le_compat_l; lra.
    - assert (Hgt : ~ (Datatypes.S n <= n)%nat) by lia. rewrite NI in Hgt. apply Rnot_le_lt in Hgt.
      rewrite S_INR in Hgt.
      assert (INR n <= INR (rows + 1) * INR b).
      { rewrite <- mult_INR. apply le_INR. lia. }
      rewrite Ef. apply Rlt_le_trans with (tsamp * ((INR n + 1) * pl_f numR pow tsamp pmin bmin bmax i)).
      + apply Rmult_lt_compat_l; auto.
      + replace (INR (rows + 1) * INR b * (pl_f numR pow tsamp pmin bmin bmax i * tsamp)
          + pl_f numR pow tsamp pmin bmin bmax i * tsamp)
          with (tsamp * ((INR (rows + 1) * INR b + 1) * pl_f numR pow tsamp pmin bmin bmax i)) by ring.
        apply Rmult_le_compat_l; [lra|]. apply Rmult_le_compat_r; lra. }
  split.
  { rewrite EP. destruct (period_bounds size tsamp pmin pmax bmin bmax H1 H2 H3 H4 H5 H6 i b s Hbb Hs)
      as [A1 A2]. split; [exact A1|]. apply Rlt_le_trans with (1 := A2). apply Rmin_r. }
  cbv zeta.
  set (next := if (t + 1 <? total)%nat then nth (t + 1) P 0 else pmax).
  destruct (search_step size tsamp pmin pmax bmin bmax P HA H2T) with (t := t) (i := i) (j := j) (s := s) as [S1 Hstep]; auto.
  { intros i' j' s' Hi' Hj' Hs'. destruct (V i' j' s' Hi' Hj' Hs') as (A & B' & _). split; assumption. }
  fold total in S1, Hstep. fold next b rows tau in S1, Hstep. split; [exact S1|].
  apply (le_INR 2) in Hrows as HrR. cbn [INR] in HrR.
  rewrite minus_INR by lia. cbn [INR].
  apply Rmult_le_compat_r with (r := (INR rows - 1) * INR b * tau) in Hstep.
  - replace (/ (tau * INR b ^ 2 * (INR rows - 1)) * ((INR rows - 1) * INR b * tau)) with (/ INR b)
      in Hstep by (field; repeat split; lra). exact Hstep.
  - apply Rmult_le_pos; [apply Rmult_le_pos|]; lra.
Qed.
Print Assumptions periodogram_coverage.

Example periodogram_coverage_ex : let data := repeat 0 (100 * 100) in
  search_args (1/1000) (20/1000) 1 20 22 /\
  search_fits (length data) (1/1000) (20/1000) 1 20 22 /\ 2 * 1 <= 1/1000 * INR (length data).
Proof. destruct search_ex as (A & B & _ & C). auto. Qed.

(** one trial (used by the proofs below) *)
Lemma search_fold (size : nat) (tsamp pmin pmax : R) (bmin bmax i j s : nat) :
  search_args tsamp pmin pmax bmin bmax -> (Z.of_nat size < 2 ^ 64)%Z ->
  (j < pl_nb numR pow size tsamp pmin pmax bmin bmax i)%nat ->
  (s < pl_eval numR pow size tsamp pmin pmax bmin bmax i (bmin + j))%nat ->
  let b := (bmin + j)%nat in
  let f := pl_f numR pow tsamp pmin bmin bmax i in
  let n := pl_n numR pow size tsamp pmin bmin bmax i in
  let rows := pl_rows numR pow size tsamp pmin bmin bmax i b in
  exists sh : nat -> nat,
    1 <= f /\ INR n * f <= INR size < (INR n + 1) * f /\
    (rows * b <= n < (rows + 1) * b)%nat /\ (s + 1 < rows)%nat /\
    pl_period numR pow size tsamp pmin bmin bmax i b s
      = f * tsamp * INR b ^ 2 / (INR b - INR s / (INR rows - 1)) /\
    pl_sd numR pow size tsamp pmin bmin bmax i b = sqrt (INR rows * assumed_variance size f) /\
    folding_path rows s sh /\
    (forall r, (r < rows)%nat ->
       Rabs (INR (sh r) - INR r * INR s / (INR rows - 1)) <= / 2 * (INR (Nat.log2_up rows) - 1)) /\
    forall x, let prof := pl_profile numR pow size tsamp pmin bmin bmax 0 i b s x in
      length prof = b /\
      forall c, (c < b)%nat -> nth c prof 0 = rsum rows (fun r => nth (r * b + (c + sh r) mod b) x 0).
Proof.
  intros (H1 & H2 & H3 & H4 & H5 & H6) F1 Hj Hs b f n rows. fold b in Hs.
  assert (Hbb : (bmin <= b <= pl_bstop numR pow size tsamp pmin pmax bmin bmax i)%nat)
    by (unfold pl_nb in Hj; unfold b; lia).
  pose proof (n_iff size tsamp pmin bmin bmax H1 H4 H5 H6 i) as NI.
  pose proof (eval_rows size tsamp pmin pmax bmin bmax H1 H2 H3 H4 H5 H6 i b Hbb) as Hr.
  pose proof (rows_le size tsamp pmin bmin bmax H1 H4 H5 H6 i b) as Hrl.
  pose proof (f_ge1 tsamp pmin bmin bmax H1 H4 H5 H6 i) as Hf1.
  fold f n in NI. fold f in Hf1. fold rows in Hr, Hrl.
  assert (Hrn : rows = (n / b)%nat) by reflexivity.
  assert (Hb0 : (2 <= b)%nat) by (unfold b; lia).
  assert (Hrb : (rows * b <= n < (rows + 1) * b)%nat).
  { pose proof (Nat.mul_div_le n b ltac:(lia)) as M1.
    pose proof (Nat.mul_succ_div_gt n b ltac:(lia)) as M2. rewrite <- Hrn in M1, M2. lia. }
  assert (HG : forall m', (3 <= m' <= rows)%nat -> good_index (merge_index numR) m').
  { intros m' Hm'. apply good_index_exact. lia. }
  exists (path (merge_index numR) (Datatypes.S rows) rows s).
  split; [exact Hf1|]. split.
  { split; [now apply NI|].
    assert (Hgt : ~ (Datatypes.S n <= n)%nat) by lia. rewrite NI in Hgt. apply Rnot_le_lt in Hgt.
    now rewrite S_INR in Hgt. }
  split; [exact Hrb|]. split; [lia|].
  split; [rewrite period_eq by (fold rows; lia); reflexivity|].
  split. { unfold pl_sd. fold f rows. rsimp. rewrite <- INR_IZR_INZ. now rewrite downsampled_variance_R by lra. }
  split. { apply path_folding; auto; lia. }
  split. { intros r Hr'. apply path_deviation; auto; try lia; [lra|].
    intros m' H'. split; auto. apply near_index_exact. lia. }
  intros x prof. unfold prof, pl_profile. fold rows. split; [now rewrite map_length, seq_length|].
  intros c Hc. rewrite nth_map_seq by auto. rewrite teval_rsum by lia. reflexivity.
Qed.

(** C30.  Trial [t] belongs to a downsampling factor [f] and a number of bins [b].  The [n]
    downsampled samples [xd] are integrals of the data over steps of [f] samples; [rows]
    periods of [b] of them are folded along [sh], a path of drift [s] that never leaves the
    straight line by more than half a bin per doubling of the rows; the S/N is the best
    response of the folded profile [prof] to a boxcar divided by the noise the code assumes. *)
Theorem periodogram_snr :
  forall (alloc : nat -> list R) (allocz : nat -> list Z) (data : list R) (ws : list nat)
    (tsamp pmin pmax : R) (bmin bmax : nat),
  let size := length data in
  allocates alloc -> allocates allocz ->
  search_args tsamp pmin pmax bmin bmax -> search_fits size tsamp pmin pmax bmin bmax ->
  ws <> [] -> good_widths ws bmin ->
  long_enough size tsamp pmin pmax bmin bmax ->
  exists (periods : list R) (bins : list Z) (snrs : arr2 R),
    py_periodogram numR ln pow alloc allocz data tsamp ws pmin pmax bmin bmax
      = Ok (periods, bins, snrs) /\
    forall t, (t < length periods)%nat ->
      exists (f : R) (b n rows s : nat) (xd : nat -> R) (sh : nat -> nat) (prof : list R),
        1 <= f /\ INR n * f <= INR size < (INR n + 1) * f /\
        nth t bins 0%Z = Z.of_nat b /\
        (rows * b <= n < (rows + 1) * b)%nat /\ (s + 1 < rows)%nat /\
        nth t periods 0 = f * tsamp * INR b ^ 2 / (INR b - INR s / (INR rows - 1)) /\
        (forall k, (k < n)%nat -> xd k
          = rsum size (fun i => nth i data 0 * weight i (INR k * f) ((INR k + 1) * f))) /\
        folding_path rows s sh /\
        (forall i, (i < rows)%nat ->
           Rabs (INR (sh i) - INR i * INR s / (INR rows - 1))
           <= / 2 * (INR (Nat.log2_up rows) - 1)) /\
        length prof = b /\
        (forall c, (c < b)%nat ->
           nth c prof 0 = rsum rows (fun i => xd (i * b + (c + sh i) mod b)%nat)) /\
        forall k, (k < length ws)%nat ->
          exists v, best_response prof (nth k ws 0%nat) v /\
            at2 0 snrs t k = v / sqrt (INR rows * assumed_variance size f).
Proof.
  intros alloc allocz data ws tsamp pmin pmax bmin bmax size Ha Hz HA HF Hws Hw HT.
  destruct (search_run alloc allocz data ws tsamp pmin pmax bmin bmax Ha Hz HA HF Hws Hw HT)
    as (EL & P & B & S & E & LP & LB & LR & LC & LW & V & D).
  fold size in EL, LP, LB, LR, V, D.
  destruct HF as (F1 & _ & _ & _).
  exists P, B, S. split; [exact E|]. rewrite LP.
  intros t Ht. destruct (D t Ht) as (i & j & s & Hi & Hj & Hs & _ & EP & EB & x & Hx & VS).
  destruct (search_fold size tsamp pmin pmax bmin bmax i j s HA F1 Hj Hs)
    as (sh & A1 & A2 & A3 & A4 & A5 & A6 & A7 & A8 & A9). destruct (A9 x) as [A10 A11].
  exists (pl_f numR pow tsamp pmin bmin bmax i), (bmin + j)%nat, (pl_n numR pow size tsamp pmin bmin bmax i),
    (pl_rows numR pow size tsamp pmin bmin bmax i (bmin + j)), s, (fun k => nth k x 0), sh,
    (pl_profile numR pow size tsamp pmin bmin bmax 0 i (bmin + j) s x).
  rewrite EP. repeat (split; [assumption|]).
  intros k Hk. destruct (VS k Hk) as (v & Hv & Ev). exists v. split; [exact Hv|]. now rewrite Ev, A6.
Qed.
Print Assumptions periodogram_snr.

Example periodogram_snr_ex : let data := repeat 0 (100 * 100) in
  search_args (1/1000) (20/1000) 1 20 22 /\
  search_fits (length data) (1/1000) (20/1000) 1 20 22 /\
  [1; 2; 3]%nat <> [] /\ good_widths [1; 2; 3]%nat 20 /\
  long_enough (length data) (1/1000) (20/1000) 1 20 22.
Proof. exact periodogram_trials_ex. Qed.

(** C31.  "We don't check period_max, the search will automatically stop when the maximum
    allowable trial period is reached" (periodogram.hpp:39): instead the search raises
    ValueError, whatever the data, once period_max exceeds (bins_max + 1) times their
    duration. *)
Theorem periodogram_period_max_refuted :
  forall (alloc : nat -> list R) (allocz : nat -> list Z) (data : list R) (ws : list nat)
    (tsamp pmin pmax : R) (bmin bmax : nat),
  let size := length data in
  allocates alloc -> allocates allocz ->
  search_args tsamp pmin pmax bmin bmax -> search_fits size tsamp pmin pmax bmin bmax ->
  ws <> [] -> good_widths ws bmin -> (1 <= size)%nat ->
  tsamp * (INR bmax + 1) * INR size < pmax ->
  py_periodogram numR ln pow alloc allocz data tsamp ws pmin pmax bmin bmax = Err ValueError.
Proof.
  intros alloc allocz data ws tsamp pmin pmax bmin bmax size Ha Hz HA HF Hws Hw H1s HT.
  pose proof (fits_cyc size tsamp pmin pmax bmin bmax HF) as HC.
  destruct HF as (F1 & F2 & F3 & _). destruct HA as (H1 & H2 & H3 & H4 & H5 & H6).
  pose proof (run_R size tsamp pmin pmax bmin bmax H1 H2 H3 H4 H5 H6 alloc allocz data ws Ha Hz
    eq_refl Hws Hw HC F2 F1) as HR. cbv zeta in HR.
  destruct (forallb _ _) eqn:EV in HR; [exfalso|exact HR].
  rewrite forallb_forall in EV.
  set (cycles := pl_cycles numR ln pmin pmax bmin bmax) in *.
  assert (Hv : forall ids, (ids < cycles)%nat -> pl_f numR pow tsamp pmin bmin bmax ids <= INR size).
  { intros ids Hi. assert (Hin : In ids (seq 0 cycles)) by (apply in_seq; lia).
    apply EV in Hin. apply valid_iff in Hin; auto. apply (le_INR 1) in H1s. cbn [INR] in H1s.
    destruct Hin as [->|Hin]; auto. }
  (* hence there is always one more cycle *)
  assert (B0 : 2 <= INR bmin) by (apply (le_INR 2); lia).
  assert (Hall : forall ids, (ids < cycles)%nat).
  { induction ids as [|ids IH].
    - apply (cycles_iff tsamp); auto. now rewrite tau_0.
    - apply (cycles_iff tsamp); auto. rewrite tau_S, tau_eq by auto.
      apply Rle_lt_trans with (2 := HT). apply Hv in IH.
      replace (tsamp * (INR bmax + 1) * INR size) with (INR size * tsamp * (INR bmax + 1)) by ring.
      apply Rmult_le_compat_r; [pose proof (pos_INR bmax); lra|]. apply Rmult_le_compat_r; lra. }
  specialize (Hall cycles). lia.
Qed.
Print Assumptions periodogram_period_max_refuted.

(** two samples of 1 ms, periods from 20 ms to 1 s *)
Example periodogram_period_max_refuted_ex : let data := [0; 0] in
  search_args (1/1000) (20/1000) 1 20 22 /\
  search_fits (length data) (1/1000) (20/1000) 1 20 22 /\
  [1]%nat <> [] /\ good_widths [1]%nat 20 /\ (1 <= length data)%nat /\
  1/1000 * (INR 22 + 1) * INR (length data) < 1.
Proof.
  split; [apply search_args_ex|]. split; [apply search_fits_ex; cbn; lia|].
  split; [discriminate|]. split; [intros w [<-|[]]; lia|]. split; [cbn; lia|]. cbn. lra.
Qed.

(** C31: exactly when the search returns *)
Theorem periodogram_returns :
  forall (alloc : nat -> list R) (allocz : nat -> list Z) (data : list R) (ws : list nat)
    (tsamp pmin pmax : R) (bmin bmax : nat),
  let size := length data in
  allocates alloc -> allocates allocz ->
  search_args tsamp pmin pmax bmin bmax -> search_fits size tsamp pmin pmax bmin bmax ->
  ws <> [] -> good_widths ws bmin -> (1 <= size)%nat ->
  (long_enough size tsamp pmin pmax bmin bmax ->
     exists r, py_periodogram numR ln pow alloc allocz data tsamp ws pmin pmax bmin bmax = Ok r) /\
  (~ long_enough size tsamp pmin pmax bmin bmax ->
     py_periodogram numR ln pow alloc allocz data tsamp ws pmin pmax bmin bmax = Err ValueError).
Proof.
  intros alloc allocz data ws tsamp pmin pmax bmin bmax size Ha Hz HA HF Hws Hw H1s. split; intros HL.
  - destruct (periodogram_trials alloc allocz data ws tsamp pmin pmax bmin bmax Ha Hz HA HF Hws Hw HL)
      as (? & ? & ? & ? & _ & E & _). eauto.
  - pose proof (fits_cyc size tsamp pmin pmax bmin bmax HF) as HC.
    destruct HF as (F1 & F2 & F3 & _). assert (HA' := HA). destruct HA' as (H1 & H2 & H3 & H4 & H5 & H6).
    pose proof (run_R size tsamp pmin pmax bmin bmax H1 H2 H3 H4 H5 H6 alloc allocz data ws Ha Hz
      eq_refl Hws Hw HC F2 F1) as HR. cbv zeta in HR.
    destruct (forallb _ _) eqn:EV in HR; [|exact HR].
    exfalso. apply HL. now apply valid_fits.
Qed.
Print Assumptions periodogram_returns.

(** both cases occur: 10 s of data are enough for periods up to 1 s, 2 ms are not *)
Example periodogram_returns_ex :
  long_enough (100 * 100) (1/1000) (20/1000) 1 20 22 /\ ~ long_enough 2 (1/1000) (20/1000) 1 20 22.
Proof.
  split.
  - destruct periodogram_trials_ex as (_ & _ & _ & _ & H). now rewrite repeat_length in H.
  - intros H. specialize (H 6%nat). cbn in H. lra.
Qed.
