(** C99 - C101: the search does not miss a periodic signal in its range. *)
From Coq Require Import List Arith ZArith Bool Lia Reals Lra Psatz Sorted.
From Flocq Require Import Core.
From Verif Require Import Base.Result Base.Buf Base.Num Model.Transforms Model.Periodogram Model.Search
  Spec.Sums Spec.FfaSpec Spec.Overlap Spec.Noise Spec.Boxcar Spec.Pulse
  Proof.Snr Proof.Periodogram Proof.PeriodogramR Proof.Detect Props.Downsample Props.Snr Props.Periodogram
  Props.FastRmed Props.TimeSeries Props.Search Props.Signal Props.Noise.
Import ListNotations.
Local Open Scope R_scope.

Lemma bh_eq b W : (0 < W < b)%nat -> bh b W = sqrt (/ INR W - / INR b).
Proof.
  intros H. destruct (bh_facts b W H) as (_ & _ & _ & _ & En & P1 & P2).
  unfold bh. f_equal. rewrite mult_INR. replace (INR (b - W)) with (INR b - INR W) by lra. field.
  split; apply Rgt_not_eq; lra.
Qed.

Lemma bb_eq b W : (0 < W < b)%nat -> bb b W = INR W / (INR b - INR W) * bh b W.
Proof.
  intros H. destruct (bh_facts b W H) as (_ & _ & _ & _ & En & P1 & P2).
  unfold bb. do 2 f_equal. lra.
Qed.

(** the last of the values of an increasing sequence up to a bound *)
Lemma last_below (g : nat -> R) (n : nat) (x : R) : (0 < n)%nat -> g 0%nat <= x ->
  exists t, (t < n)%nat /\ g t <= x /\ ((t + 1 < n)%nat -> x < g (t + 1)%nat).
Proof.
  intros Hn H0. induction n as [|n IH]; [lia|].
  destruct (Nat.eq_dec n 0) as [->|N]; [exists 0%nat; repeat split; auto; lia|].
  destruct IH as (t & Ht & Hg & Hnext); [lia|].
  destruct (Nat.eq_dec (t + 1) n) as [E|E].
  - destruct (Rle_lt_dec (g n) x) as [L|L].
    + exists n. repeat split; auto; lia.
    + exists t. split; [lia|]. split; auto. intros _. rewrite E. exact L.
  - exists t. split; [lia|]. split; auto. intros _. apply Hnext. lia.
Qed.

(** the trial just below the period of the signal *)
Definition nearest_trial (size : nat) (tsamp period : R) (periods : list R) (bins : list Z) (t b rows : nat) (f : R) : Prop :=
  (t < length periods)%nat /\ nth t periods 0 <= period /\
  ((t + 1 < length periods)%nat -> period < nth (t + 1) periods 0) /\
  nth t bins 0%Z = Z.of_nat b /\
  1 <= f /\ INR (rows * b) * f <= INR size < INR ((rows + 1) * b) * f /\
  f * tsamp * INR b <= nth t periods 0 < f * tsamp * (INR b + 1).

(** used by the proofs below *)
Lemma sensitivity (alloc : nat -> list R) (allocz : nat -> list Z) (ws : list nat)
    (size : nat) (tsamp pmin pmax : R) (bmin bmax : nat) (period phi w : R) :
  allocates alloc -> allocates allocz ->
  search_args tsamp pmin pmax bmin bmax -> search_fits size tsamp pmin pmax bmin bmax ->
  ws <> [] -> good_widths ws bmin -> 2 * pmax <= tsamp * INR size -> pmin <= period < pmax ->
  exists (periods : list R) (bins : list Z) (t b rows : nat) (f : R) (coef : nat -> nat -> R),
    nearest_trial size tsamp period periods bins t b rows f /\ (bmin <= b)%nat /\ (0 < rows)%nat /\
    (forall W, (0 < W < b)%nat -> w * INR b + INR (Nat.log2_up rows) + 3 <= INR W ->
       (forall i, on_pulse (/ period) phi w tsamp i -> coef W i = bh b W * weight i 0 (INR (rows * b) * f)) /\
       (forall i, - bb b W * weight i 0 (INR (rows * b) * f) <= coef W i) /\
       rsum size (coef W) = 0) /\
    forall data : list R, length data = size -> exists snrs : arr2 R,
      py_periodogram numR ln pow alloc allocz data tsamp ws pmin pmax bmin bmax = Ok (periods, bins, snrs) /\
      forall k, (k < length ws)%nat ->
        rsum size (fun i => coef (nth k ws 0%nat) i * nth i data 0) / sqrt (INR rows * assumed_variance size f)
        <= at2 0 snrs t k.
Proof.
  intros Ha Hz HA HF Hws Hw H2T HP.
  assert (HA' := HA). destruct HA' as (H1 & H2 & H3 & H4 & H5 & H6).
  assert (HT : long_enough size tsamp pmin pmax bmin bmax).
  { apply long_enough_simple.
    assert (2 <= INR bmin) by (apply (le_INR 2); lia).
    assert (0 <= tsamp * INR size) by (apply Rmult_le_pos; [lra|apply pos_INR]). nra. }
  set (total := pl_total numR ln pow size tsamp pmin pmax bmin bmax).
  assert (RUN : forall data : list R, length data = size -> exists (P : list R) (B : list Z) (S : arr2 R),
    py_periodogram numR ln pow alloc allocz data tsamp ws pmin pmax bmin bmax = Ok (P, B, S) /\
    length P = total /\ length B = total /\
    (forall i j s, (i < pl_cycles numR ln pmin pmax bmin bmax)%nat ->
      (j < pl_nb numR pow size tsamp pmin pmax bmin bmax i)%nat ->
      (s < pl_eval numR pow size tsamp pmin pmax bmin bmax i (bmin + j))%nat ->
      let t := (pl_off numR pow size tsamp pmin pmax bmin bmax i
         + pl_off2 numR pow size tsamp pmin pmax bmin bmax i j + s)%nat in
      (t < total)%nat /\ nth t P 0 = pl_period numR pow size tsamp pmin bmin bmax i (bmin + j) s /\
      nth t B 0%Z = Z.of_nat (bmin + j) /\
      exists x, ds_R size tsamp pmin bmin bmax data i x /\
        forall k, (k < length ws)%nat ->
          sn_R ws (pl_profile numR pow size tsamp pmin bmin bmax 0 i (bmin + j) s x) k
            (pl_sd numR pow size tsamp pmin bmin bmax i (bmin + j)) (at2 0 S t k)) /\
    (forall t, (t < total)%nat -> pmin <= nth t P 0 < pmax) /\
    (forall t t', (t < t' < total)%nat -> nth t P 0 < nth t' P 0) /\
    (0 < total)%nat /\ nth 0 P 0 = pmin).
  { intros data L. subst size.
    destruct (search_run alloc allocz data ws tsamp pmin pmax bmin bmax Ha Hz HA HF Hws Hw HT)
      as (EL & P & B & S & E & LP & LB & LR & LC & LW & V & D).
    destruct (periodogram_trials alloc allocz data ws tsamp pmin pmax bmin bmax Ha Hz HA HF Hws Hw HT)
      as (len & P' & B' & S' & EL' & E' & LP' & _ & _ & _ & _ & Rng & Mono & _ & First).
    rewrite E in E'. injection E' as <- <- <-. fold total in LP, LB, V. rewrite LP in LP'. subst len.
    destruct First as [F1 F2]; [clear - H2T H3; lra|]. exists P, B, S. repeat (split; [assumption|]). assumption. }
  destruct (RUN (repeat 0 size) (repeat_length _ _)) as (P & B & S0 & _ & LP & LB & V & Rng & Mono & Hpos & Hfirst).
  destruct (last_below (fun t => nth t P 0) total period Hpos) as (t & Ht & Hle & Hnext); [rewrite Hfirst; lra|].
  cbv beta in Hle, Hnext.
  destruct (off_decode numR ln pow size tsamp pmin pmax bmin bmax t Ht) as (i & j & s & Hi & Hj & Hs & Et).
  destruct (V i j s Hi Hj Hs) as (_ & EP & EB & _). rewrite <- Et in EP, EB.
  destruct (search_step size tsamp pmin pmax bmin bmax P HA H2T) with (t := t) (i := i) (j := j) (s := s)
    as [_ Hstep]; auto.
  { intros i' j' s' Hi' Hj' Hs'. destruct (V i' j' s' Hi' Hj' Hs') as (A & B' & _). split; assumption. }
  fold total in Hstep.
  destruct HF as (F1 & _).
  destruct (search_fold size tsamp pmin pmax bmin bmax i j s HA F1 Hj Hs)
    as (sh & A1 & A2 & A3 & A4 & A5 & A6 & A7 & A8 & A9).
  set (b := (bmin + j)%nat) in *.
  set (f := pl_f numR pow tsamp pmin bmin bmax i) in *.
  set (rows := pl_rows numR pow size tsamp pmin bmin bmax i b) in *.
  set (n := pl_n numR pow size tsamp pmin bmin bmax i) in *.
  change (pl_tau numR pow tsamp pmin bmin bmax i) with (f * tsamp) in Hstep.
  assert (Hbb : (bmin <= b <= pl_bstop numR pow size tsamp pmin pmax bmin bmax i)%nat)
    by (unfold pl_nb in Hj; unfold b; lia).
  assert (Hb2 : (2 <= b)%nat) by lia. assert (HbR : 2 <= INR b) by (apply (le_INR 2); auto).
  assert (Hsize : INR (rows * b) * f <= INR size).
  { apply Rle_trans with (INR n * f); [|apply A2]. apply Rmult_le_compat_r; [lra|]. apply le_INR, A3. }
  assert (Hperiod : 0 < period) by lra.
  set (top := (INR b - INR s / (INR rows - 1)) / (f * tsamp * INR b ^ 2)).
  destruct (period_freq size tsamp pmin pmax bmin bmax H1 H2 H3 H4 H5 H6 i b s Hbb Hs) as (Q1 & Q2 & _).
  change (pl_tau numR pow tsamp pmin bmin bmax i) with (f * tsamp) in Q2. fold rows top in Q2. rewrite <- EP in Q1, Q2.
  assert (Hhi : / period <= top).
  { rewrite <- Q2. apply Rinv_le_contravar; auto. }
  assert (Hlo : top - / period <= / (f * tsamp * INR b ^ 2 * (INR rows - 1))).
  { rewrite <- Q2. apply Rle_trans with (2 := Hstep).
    assert (/ (if (t + 1 <? total)%nat then nth (t + 1) P 0 else pmax) <= / period); [|lra].
    apply Rinv_le_contravar; auto. destruct (Nat.ltb_spec (t + 1) total) as [G|G]; [|lra]. apply Rlt_le, Hnext, G. }
  pose (dev := / 2 * (INR (Nat.log2_up rows) - 1)).
  exists P, B, t, b, rows, f, (coefficient f b rows sh dev 0 phi).
  split; [|split; [|split; [|split]]].
  - unfold nearest_trial. rewrite LP. repeat (split; [assumption|]). split.
    + split; [exact Hsize|]. apply Rlt_le_trans with (1 := proj2 A2). apply Rmult_le_compat_r; [lra|].
      rewrite <- S_INR. apply le_INR. lia.
    + rewrite EP. destruct (period_bounds size tsamp pmin pmax bmin bmax H1 H2 H3 H4 H5 H6 i b s Hbb Hs) as [B1 B2].
      split; [exact B1|]. apply Rlt_le_trans with (1 := B2). apply Rmin_r.
  - unfold b. lia.
  - lia.
  - intros W HW Hwide. split; [|split].
    + intros q Hq. apply (coefficient_on f tsamp b rows s sh dev 0 A1 H1 Hb2 A4 (Rle_refl 0) A8 (/ period) phi w); auto.
      * pose proof (drift_bounds f tsamp b rows s (/ period) A1 H1 Hb2 A4 Hhi Hlo). lra.
      * unfold dev. lra.
      * lia.
      * left. now apply Rinv_0_lt_compat.
    + intros q. apply coefficient_ge with (s := s); auto.
    + apply coefficient_sum with (s := s); auto.
  - intros data L. destruct (RUN data L) as (P' & B' & S & E & LP' & LB' & V' & _).
    assert (P' = P) as ->.
    { apply (nth_ext _ _ 0 0); [congruence|]. intros q Hq. rewrite LP' in Hq.
      destruct (off_decode numR ln pow size tsamp pmin pmax bmin bmax q Hq) as (i' & j' & s' & Hi' & Hj' & Hs' & ->).
      destruct (V' i' j' s' Hi' Hj' Hs') as (_ & -> & _). now destruct (V i' j' s' Hi' Hj' Hs') as (_ & -> & _). }
    assert (B' = B) as ->.
    { apply (nth_ext _ _ 0%Z 0%Z); [congruence|]. intros q Hq. rewrite LB' in Hq.
      destruct (off_decode numR ln pow size tsamp pmin pmax bmin bmax q Hq) as (i' & j' & s' & Hi' & Hj' & Hs' & ->).
      destruct (V' i' j' s' Hi' Hj' Hs') as (_ & _ & -> & _). now destruct (V i' j' s' Hi' Hj' Hs') as (_ & _ & -> & _). }
    exists S. split; [exact E|]. intros k Hk.
    destruct (V' i j s Hi Hj Hs) as (_ & _ & _ & x & Hx & VS). rewrite <- Et in VS.
    destruct (VS k Hk) as (v & Hv & Ev). fold b in Ev, Hv. rewrite Ev, A6. destruct (A9 x) as [L1 L2].
    assert (Hwk : (0 < nth k ws 0 < bmin)%nat) by (apply Hw, nth_In, Hk).
    apply Rmult_le_compat_r.
    + assert (0 < pl_sd numR pow size tsamp pmin bmin bmax i b) by (now apply (sd_pos size tsamp pmin pmax bmin bmax)).
      rewrite <- A6. left. now apply Rinv_0_lt_compat.
    + apply (coefficient_response size f b rows s sh dev 0) with (x := x) (prof := pl_profile numR pow size tsamp pmin bmin bmax 0 i b s x); auto.
      * lia.
      * intros q Hq. apply Hx. fold n. lia.
Qed.

(** flux of the data above [base], in the samples marked or not, over the time that is folded *)
Definition flux (data : list R) (base : R) (on : nat -> bool) (folded : R) (marked : bool) : R :=
  rsum (length data) (fun i => if Bool.eqb (on i) marked then (nth i data 0 - base) * weight i 0 folded else 0).

(** a signal of the given period above a level [base]: in the on-pulse samples it takes any value,
    elsewhere it does not fall below the level *)
Definition pulsed (tsamp period phi w base : R) (on : nat -> bool) (data : list R) : Prop :=
  (forall i, (i < length data)%nat -> on i = true -> on_pulse (/ period) phi w tsamp i) /\
  (forall i, (i < length data)%nat -> on i = false -> base <= nth i data 0).

(** the response of a boxcar of [W] of [b] bins that receives the on-pulse flux *)
Definition boxcar_response (b W : nat) (on_flux off_flux : R) : R :=
  (on_flux - INR W / (INR b - INR W) * off_flux) * sqrt (/ INR W - / INR b).

Lemma response_bound (size b W : nat) (tsamp period phi w base folded : R) (on : nat -> bool) (data : list R) (coef : nat -> R) :
  (0 < W < b)%nat -> length data = size -> pulsed tsamp period phi w base on data ->
  (forall i, on_pulse (/ period) phi w tsamp i -> coef i = bh b W * weight i 0 folded) ->
  (forall i, - bb b W * weight i 0 folded <= coef i) -> rsum size coef = 0 ->
  boxcar_response b W (flux data base on folded true) (flux data base on folded false)
  <= rsum size (fun i => coef i * nth i data 0).
Proof.
  intros HW L [Hon Hoff] C1 C2 C3. unfold boxcar_response. rewrite <- bh_eq by auto.
  replace ((flux data base on folded true - INR W / (INR b - INR W) * flux data base on folded false) * bh b W)
    with (bh b W * flux data base on folded true + - bb b W * flux data base on folded false)
    by (rewrite bb_eq by auto; ring).
  replace (rsum size (fun i => coef i * nth i data 0)) with (rsum size (fun i => coef i * (nth i data 0 - base))).
  2:{ rewrite (rsum_ext size _ (fun i => coef i * nth i data 0 - base * coef i)) by (intros; ring).
      rewrite rsum_minus, rsum_scal, C3. ring. }
  unfold flux. rewrite L, <- !rsum_scal, <- rsum_plus. apply rsum_le. intros i Hi.
  destruct (on i) eqn:Ei; cbn [Bool.eqb].
  - rewrite C1 by (apply Hon; congruence). right. ring.
  - specialize (Hoff i ltac:(lia) Ei). specialize (C2 i).
    apply Rmult_le_compat_r with (r := nth i data 0 - base) in C2; lra.
Qed.

(** C99.  A signal of any period in the search range is not missed.  At the trial period just
    below it, a boxcar wider than the pulse by the number of doublings of the rows plus 3 bins
    receives all the on-pulse flux of the data folded, which are all but an incomplete period. *)
Theorem periodogram_detects :
  forall (alloc : nat -> list R) (allocz : nat -> list Z) (data : list R) (ws : list nat)
    (tsamp pmin pmax : R) (bmin bmax : nat) (period phi w base : R) (on : nat -> bool),
  let size := length data in
  allocates alloc -> allocates allocz ->
  search_args tsamp pmin pmax bmin bmax -> search_fits size tsamp pmin pmax bmin bmax ->
  ws <> [] -> good_widths ws bmin -> 2 * pmax <= tsamp * INR size ->
  pmin <= period < pmax -> pulsed tsamp period phi w base on data ->
  exists (periods : list R) (bins : list Z) (snrs : arr2 R) (t b rows : nat) (f : R),
    py_periodogram numR ln pow alloc allocz data tsamp ws pmin pmax bmin bmax = Ok (periods, bins, snrs) /\
    nearest_trial size tsamp period periods bins t b rows f /\
    let folded := INR (rows * b) * f in
    forall k, (k < length ws)%nat ->
      let W := nth k ws 0%nat in
      w * INR b + INR (Nat.log2_up rows) + 3 <= INR W ->
      boxcar_response b W (flux data base on folded true) (flux data base on folded false)
        / sqrt (INR rows * assumed_variance size f) <= at2 0 snrs t k.
Proof.
  intros alloc allocz data ws tsamp pmin pmax bmin bmax period phi w base on size Ha Hz HA HF Hws Hw H2 HP HS.
  destruct (sensitivity alloc allocz ws size tsamp pmin pmax bmin bmax period phi w Ha Hz HA HF Hws Hw H2 HP)
    as (P & B & t & b & rows & f & coef & NT & Hb & Hr & C & V).
  destruct (V data eq_refl) as (S & E & R).
  exists P, B, S, t, b, rows, f. split; [exact E|]. split; [exact NT|]. intros folded k Hk W Hwide.
  assert (HW : (0 < W < b)%nat) by (pose proof (Hw W (nth_In _ _ Hk)); lia).
  destruct (C W HW Hwide) as (C1 & C2 & C3).
  apply Rle_trans with (2 := R k Hk). fold W.
  apply Rmult_le_compat_r; [apply Rlt_le, Rinv_0_lt_compat, sqrt_lt_R0|].
  - apply Rmult_lt_0_compat; [apply (lt_INR 0); lia|].
    rewrite <- downsampled_variance_R by (destruct NT as (_ & _ & _ & _ & ? & _); lra).
    apply variance_pos. now destruct NT as (_ & _ & _ & _ & ? & _).
  - apply (response_bound size b W tsamp period phi w base folded on data (coef W)); auto.
Qed.
Print Assumptions periodogram_detects.

(** 10 s of data at 1 ms with a pulse of one sample every 25 ms; 20 to 22 bins and up to 512 rows *)
Example periodogram_detects_ex :
  let data := map (fun i => if (i mod 25 =? 0)%nat then 3 else 1) (seq 0 (100 * 100)) in
  search_args (1/1000) (20/1000) 1 20 22 /\ search_fits (length data) (1/1000) (20/1000) 1 20 22 /\
  [15; 18]%nat <> [] /\ good_widths [15; 18]%nat 20 /\ 2 * 1 <= 1/1000 * INR (length data) /\
  20/1000 <= 25/1000 < 1 /\
  pulsed (1/1000) (25/1000) 0 (/ 25) 1 (fun i => (i mod 25 =? 0)%nat) data /\
  forall b rows, (b <= 22)%nat -> (rows <= 512)%nat -> / 25 * INR b + INR (Nat.log2_up rows) + 3 <= INR 15.
Proof.
  cbv zeta. destruct search_ex as (A & B & _ & C).
  assert (L : length (map (fun i => if (i mod 25 =? 0)%nat then 3 else 1) (seq 0 (100 * 100))) = length (repeat 0 (100 * 100)))
    by (now rewrite map_length, seq_length, repeat_length).
  rewrite L. split; [exact A|]. split; [exact B|]. split; [discriminate|].
  split; [intros w [<-|[<-|[]]]; lia|]. split; [exact C|]. split; [lra|]. split.
  - split; rewrite map_length, seq_length; intros i Hi E.
    + apply Nat.eqb_eq in E. exists (Z.of_nat (i / 25)). rewrite <- INR_IZR_INZ.
      pose proof (Nat.div_mod i 25 ltac:(lia)) as D. rewrite E, Nat.add_0_r in D.
      assert (Di : INR i = 25 * INR (i / 25)).
      { rewrite D at 1. rewrite mult_INR. f_equal. cbn. lra. }
      rewrite Di. split; lra.
    + rewrite (nth_indep _ 0 (if (0 mod 25 =? 0)%nat then 3 else 1)) by (now rewrite map_length, seq_length).
      rewrite (map_nth (fun i => if (i mod 25 =? 0)%nat then 3 else 1)). rewrite seq_nth by auto.
      rewrite Nat.add_0_l, E. lra.
  - intros b rows Hb Hr. apply le_INR in Hb. replace (INR 22) with 22 in Hb by (cbn; lra).
    assert (Hl : (Nat.log2_up rows <= 9)%nat) by (apply (Nat.log2_up_le_mono rows 512) in Hr; exact Hr).
    apply le_INR in Hl. replace (INR 9) with 9 in Hl by (cbn; lra). replace (INR 15) with 15 by (cbn; lra). lra.
Qed.

(** an expectation that respects the order *)
Definition monotone_expectation {W : Type} (E : (W -> R) -> R) : Prop :=
  expectation E /\ forall X Y, (forall o, X o <= Y o) -> E X <= E Y.

(** C100.  The same for a signal in noise of zero mean, whatever its distribution: at the same
    trial the expectation of the S/N is at least the response to the signal alone. *)
Theorem periodogram_expected_snr :
  forall (O : Type) (E : (O -> R) -> R) (noise : O -> list R)
    (alloc : nat -> list R) (allocz : nat -> list Z) (signal : list R) (ws : list nat)
    (tsamp pmin pmax : R) (bmin bmax : nat) (period phi w base : R) (on : nat -> bool),
  let size := length signal in
  monotone_expectation E -> (forall o, length (noise o) = size) ->
  (forall i, (i < size)%nat -> E (fun o => nth i (noise o) 0) = 0) ->
  allocates alloc -> allocates allocz ->
  search_args tsamp pmin pmax bmin bmax -> search_fits size tsamp pmin pmax bmin bmax ->
  ws <> [] -> good_widths ws bmin -> 2 * pmax <= tsamp * INR size ->
  pmin <= period < pmax -> pulsed tsamp period phi w base on signal ->
  exists (periods : list R) (bins : list Z) (snrs : O -> arr2 R) (t b rows : nat) (f : R),
    (forall o (data : list R), length data = size ->
       (forall i, (i < size)%nat -> nth i data 0 = nth i signal 0 + nth i (noise o) 0) ->
       py_periodogram numR ln pow alloc allocz data tsamp ws pmin pmax bmin bmax = Ok (periods, bins, snrs o)) /\
    nearest_trial size tsamp period periods bins t b rows f /\
    let folded := INR (rows * b) * f in
    forall k, (k < length ws)%nat ->
      let W := nth k ws 0%nat in
      w * INR b + INR (Nat.log2_up rows) + 3 <= INR W ->
      boxcar_response b W (flux signal base on folded true) (flux signal base on folded false)
        / sqrt (INR rows * assumed_variance size f) <= E (fun o => at2 0 (snrs o) t k).
Proof.
  intros O E noise alloc allocz signal ws tsamp pmin pmax bmin bmax period phi w base on size
    [HE Mono] HN Zero Ha Hz HA HF Hws Hw H2 HP HS.
  destruct (sensitivity alloc allocz ws size tsamp pmin pmax bmin bmax period phi w Ha Hz HA HF Hws Hw H2 HP)
    as (P & B & t & b & rows & f & coef & NT & Hb & Hr & C & V).
  set (data := fun o => map (fun i => nth i signal 0 + nth i (noise o) 0) (seq 0 size)).
  assert (LD : forall o, length (data o) = size) by (intros o; unfold data; now rewrite map_length, seq_length).
  assert (ND : forall o i, (i < size)%nat -> nth i (data o) 0 = nth i signal 0 + nth i (noise o) 0).
  { intros o i Hi. unfold data. rewrite (nth_indep _ 0 (nth 0%nat signal 0 + nth 0%nat (noise o) 0)) by (now rewrite map_length, seq_length).
    rewrite (map_nth (fun i => nth i signal 0 + nth i (noise o) 0)). now rewrite seq_nth. }
  set (snrs := fun o => match py_periodogram numR ln pow alloc allocz (data o) tsamp ws pmin pmax bmin bmax with
                        | Ok (_, _, r) => r | _ => Arr2 0 0 [] end).
  assert (VS : forall o, py_periodogram numR ln pow alloc allocz (data o) tsamp ws pmin pmax bmin bmax = Ok (P, B, snrs o) /\
    forall k, (k < length ws)%nat ->
      rsum size (fun i => coef (nth k ws 0%nat) i * nth i (data o) 0) / sqrt (INR rows * assumed_variance size f)
      <= at2 0 (snrs o) t k).
  { intros o. destruct (V (data o) (LD o)) as (S & EP & R). unfold snrs. rewrite EP. split; [reflexivity|exact R]. }
  exists P, B, snrs, t, b, rows, f. split; [|split; [exact NT|]].
  { intros o d Ld Nd. replace d with (data o); [apply VS|]. apply (nth_ext _ _ 0 0); [congruence|].
    intros i Hi. rewrite LD in Hi. rewrite ND, Nd by auto. reflexivity. }
  intros folded k Hk W Hwide.
  assert (HW : (0 < W < b)%nat) by (pose proof (Hw W (nth_In _ _ Hk)); lia).
  destruct (C W HW Hwide) as (C1 & C2 & C3).
  set (sd := sqrt (INR rows * assumed_variance size f)).
  assert (Psd : 0 < sd).
  { apply sqrt_lt_R0, Rmult_lt_0_compat; [apply (lt_INR 0); lia|].
    rewrite <- downsampled_variance_R by (destruct NT as (_ & _ & _ & _ & ? & _); lra).
    apply variance_pos. now destruct NT as (_ & _ & _ & _ & ? & _). }
  apply Rle_trans with (E (fun o => rsum size (fun i => coef W i * nth i (data o) 0) / sd)).
  2:{ apply Mono. intros o. apply (proj2 (VS o) k Hk). }
  destruct HE as (Ext & Lin & Cst).
  assert (EE : E (fun o => rsum size (fun i => coef W i * nth i (data o) 0) / sd)
    = rsum size (fun i => coef W i * nth i signal 0) / sd).
  { rewrite (Ext _ (fun o => / sd * (rsum size (fun i => coef W i * nth i signal 0))
      + / sd * rsum size (fun i => coef W i * nth i (noise o) 0))).
    - rewrite Lin, Cst, (expectation_sum E size (coef W) (fun o i => nth i (noise o) 0) (conj Ext (conj Lin Cst))).
      rewrite (rsum_zero size (fun i => coef W i * E (fun o => nth i (noise o) 0))) by (intros i Hi; rewrite Zero by auto; ring). unfold Rdiv. ring.
    - intros o. rewrite (rsum_ext size (fun i => coef W i * nth i (data o) 0)
        (fun i => coef W i * nth i signal 0 + coef W i * nth i (noise o) 0)) by (intros i Hi; rewrite ND by auto; ring).
      rewrite rsum_plus. unfold Rdiv. ring. }
  rewrite EE. apply Rmult_le_compat_r; [left; now apply Rinv_0_lt_compat|].
  apply (response_bound size b W tsamp period phi w base folded on signal (coef W)); auto.
Qed.
Print Assumptions periodogram_expected_snr.

(** the noise is 1 in all samples or -1 in all samples *)
Example periodogram_expected_snr_ex :
  monotone_expectation (fun X : bool -> R => (X true + X false) / 2) /\
  forall i, (i < 100)%nat -> (fun X : bool -> R => (X true + X false) / 2) (fun o => nth i (repeat (if o then 1 else -1) 100) 0) = 0.
Proof.
  split.
  - split; [split; [|split]|].
    + intros X Y H. now rewrite !H.
    + intros a b X Y. field.
    + intros c. field.
    + intros X Y H. pose proof (H true). pose proof (H false). lra.
  - intros i Hi. rewrite (nth_indep _ 0 1), (nth_indep (repeat (-1) 100) 0 (-1)), !nth_repeat by (now rewrite repeat_length). lra.
Qed.

(** C101.  ffa_search without dereddening: the data are normalised first, so that fluxes are in
    units of the standard deviation of the data. *)
Theorem ffa_search_detects :
  forall (alloc : nat -> list R) (allocz : nat -> list Z) (data : list R) (tsamp pmin pmax : R)
    (fpmin : Z) (bmin bmax : nat) (ducy wtsp rw : R) (minpts : Z) (u v : R) (period phi w base : R) (on : nat -> bool),
  let size := length data in
  allocates alloc -> allocates allocz ->
  search_args tsamp pmin pmax bmin bmax -> search_fits size tsamp pmin pmax bmin bmax ->
  2 * pmax <= tsamp * INR size -> ducy < 1 -> In u data -> In v data -> u <> v ->
  pmin <= period < pmax -> pulsed tsamp period phi w base on data ->
  exists (x : list R) (widths : list Z) (periods : list R) (bins : list Z) (snrs : arr2 R) (t b rows : nat) (f : R),
    ffa_search numR ln pow alloc allocz data tsamp pmin pmax fpmin bmin bmax ducy wtsp false rw
      minpts false = Ok (x, (widths, periods, bins, snrs)) /\
    nearest_trial size tsamp period periods bins t b rows f /\
    let folded := INR (rows * b) * f in
    forall k, (k < length widths)%nat ->
      let W := Z.to_nat (nth k widths 0%Z) in
      w * INR b + INR (Nat.log2_up rows) + 3 <= INR W ->
      boxcar_response b W (flux data base on folded true) (flux data base on folded false)
        / sqrt (rvar data) / sqrt (INR rows * assumed_variance size f) <= at2 0 snrs t k.
Proof.
  intros alloc allocz data tsamp pmin pmax fpmin bmin bmax ducy wtsp rw minpts u v period phi w base on size
    Ha Hz HA HF H2 Hd Hu Hv Hne HP [S1 S2].
  destruct (ffa_search_correct alloc allocz data tsamp pmin pmax fpmin bmin bmax ducy wtsp rw minpts false u v
    Ha Hz HA HF H2 Hd Hu Hv Hne)
    as (x & widths & P & B & S & E & (M0 & V1 & a & c & Pa & Ex) & W1 & _ & WB & EP & _).
  assert (Lx : length x = size) by (rewrite Ex; apply map_length).
  assert (Va : a * sqrt (rvar data) = 1).
  { rewrite Ex, rvar_affine in V1.
    2:{ intros Q. rewrite Q in Hu. destruct Hu. }
    apply Rmult_eq_reg_r with (a * sqrt (rvar data)).
    - rewrite Rmult_1_l. pose proof (rvar_pos data u v Hu Hv Hne) as RV.
      pose proof (sqrt_sqrt (rvar data) ltac:(lra)) as SS. set (q := sqrt (rvar data)) in *.
      assert (Q : (a * q) * (a * q) = 1) by (rewrite <- V1, <- SS; ring).
      assert (0 < a * q) by (apply Rmult_lt_0_compat; auto; apply sqrt_lt_R0; lra). nra.
    - apply Rgt_not_eq, Rmult_lt_0_compat; auto. apply sqrt_lt_R0, (rvar_pos data u v); auto. }
  assert (Nx : forall i, (i < size)%nat -> nth i x 0 = a * nth i data 0 + c).
  { intros i Hi. rewrite Ex. rewrite (nth_indep _ 0 (a * 0 + c)) by (rewrite map_length; exact Hi).
    apply (map_nth (fun z => a * z + c)). }
  assert (Wn : map Z.to_nat widths <> []).
  { destruct widths; [cbn in W1; lia|discriminate]. }
  assert (WG : good_widths (map Z.to_nat widths) bmin).
  { intros q Hq. apply in_map_iff in Hq as (z & <- & Hz'). specialize (WB z Hz'). lia. }
  pose proof (periodogram_detects alloc allocz x (map Z.to_nat widths) tsamp pmin pmax bmin bmax period phi w (a * base + c) on
    Ha Hz HA) as PD. cbv zeta in PD. rewrite Lx in PD.
  destruct PD as (P' & B' & S' & t & b & rows & f & E' & NT & G); auto.
  { split; rewrite Lx; intros i Hi Ei; [now apply S1|]. rewrite Nx by auto. specialize (S2 i Hi Ei). nra. }
  rewrite EP in E'. injection E' as <- <- <-.
  exists x, widths, P, B, S, t, b, rows, f. split; [exact E|]. split; [exact NT|].
  intros folded k Hk W Hwide. rewrite map_length in G. specialize (G k Hk).
  replace (nth k (map Z.to_nat widths) 0%nat) with W in G by (unfold W; symmetry; apply (map_nth Z.to_nat widths 0%Z)).
  specialize (G Hwide). fold folded in G.
  assert (F : forall m, flux x (a * base + c) on folded m = a * flux data base on folded m).
  { intros m. unfold flux. rewrite Lx, <- rsum_scal. apply rsum_ext. intros i Hi. rewrite Nx by auto.
    destruct (Bool.eqb (on i) m); ring. }
  rewrite !F in G.
  replace (boxcar_response b W (flux data base on folded true) (flux data base on folded false) / sqrt (rvar data))
    with (boxcar_response b W (a * flux data base on folded true) (a * flux data base on folded false)); [exact G|].
  assert (sqrt (rvar data) <> 0) by (intros Q; rewrite Q in Va; lra).
  replace a with (/ sqrt (rvar data)) by (apply Rmult_eq_reg_r with (sqrt (rvar data)); auto; rewrite Rinv_l; auto).
  unfold boxcar_response, Rdiv. ring.
Qed.
Print Assumptions ffa_search_detects.

Example ffa_search_detects_ex :
  let data := map (fun i => if (i mod 25 =? 0)%nat then 3 else 1) (seq 0 (100 * 100)) in
  In 3 data /\ In 1 data /\ 3 <> 1 /\
  pulsed (1/1000) (25/1000) 0 (/ 25) 1 (fun i => (i mod 25 =? 0)%nat) data.
Proof.
  cbv zeta. split; [|split; [|split; [lra|apply periodogram_detects_ex]]]; apply in_map_iff; [exists 25%nat|exists 1%nat];
    (split; [reflexivity|apply in_seq; lia]).
Qed.
