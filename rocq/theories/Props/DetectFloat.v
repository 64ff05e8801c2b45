(** C107, C108: the search in floating point does not miss a periodic signal in its range. *)
From Coq Require Import List Arith ZArith Bool Lia Reals Lra Psatz.
From Flocq Require Import Core.
From Verif Require Import Base.Result Base.Buf Base.Num Model.Transforms Model.Periodogram
  Spec.Sums Spec.FfaSpec Spec.Overlap Spec.Noise Spec.Boxcar Spec.Pulse Spec.Libm
  Proof.Transforms Proof.Index Proof.Ffa Proof.Downsample Proof.Snr Proof.Periodogram Proof.PeriodogramR Proof.Detect Proof.SnrFloat
  Proof.DownsampleFloat Proof.SearchFloat Proof.CoverageFloat
  Props.Downsample Props.Snr Props.PeriodogramFloat Props.SnrFloat Props.DownsampleFloat
  Props.PeriodogramRounding Props.Detect.
Import ListNotations.
Local Open Scope R_scope.

(** the trial [t] is next to the period: their frequencies differ by at most 3/2 of the step of
    the transform of [rows] rows of [b] bins *)
Definition next_trial (tsamp period trial : R) (b rows : nat) (f : R) : Prop :=
  - / 2 <= (/ trial - / period) * (f * tsamp * INR b ^ 2 * (INR rows - 1)) <= 3 / 2.

Lemma next_trial_of (tsamp period trial f : R) (b rows s : nat) :
  0 < tsamp -> 1 <= f -> 0 < period -> (2 <= b)%nat -> (s + 1 < rows)%nat -> INR b * INR rows <= 67108864 ->
  rel64 16 trial (f * tsamp * INR b ^ 2 / (INR b - INR s / (INR rows - 1))) ->
  INR s - / 4 <= drift f tsamp b rows (/ period) <= INR s + 1 + / 4 ->
  next_trial tsamp period trial b rows f.
Proof.
  intros Ht Hf Hp Hb Hs Hbr HR HD. unfold next_trial.
  assert (b2 : 2 <= INR b) by (apply (le_INR 2); auto).
  assert (s2 : INR s + 1 <= INR rows - 1).
  { assert (INR (s + 1) + 1 <= INR rows) by (rewrite <- S_INR; apply le_INR; lia). rewrite plus_INR in H. cbn [INR] in H. lra. }
  pose proof (pos_INR s) as s0.
  set (m := INR rows - 1) in *. set (q := INR s / m) in *.
  assert (q1 : q <= 1).
  { unfold q. apply Rmult_le_reg_r with m; [lra|]. unfold Rdiv. rewrite Rmult_assoc, Rinv_l by lra. lra. }
  assert (q0 : 0 <= q). { unfold q. apply Rmult_le_pos; auto. left. apply Rinv_0_lt_compat. lra. }
  set (Q := f * tsamp * INR b ^ 2) in *.
  assert (Q0 : 0 < Q).
  { unfold Q. apply Rmult_lt_0_compat; [apply Rmult_lt_0_compat; lra|]. apply pow_lt. lra. }
  set (P := Q / (INR b - q)) in *.
  assert (P0 : 0 < P) by (unfold P; apply Rdiv_lt_0_compat; lra).
  pose proof (rel64_div 0 1 1 16 trial P ltac:(lra) ltac:(lra) ltac:(lra) P0 (rel64_exact 1 ltac:(lra)) HR) as D.
  unfold rel64 in D. apply Rabs_le_inv in D.
  assert (E1 : 1 / P = (INR b - q) / Q) by (unfold P; field; lra).
  assert (E2 : (1 / P - / period) * (Q * m) = drift f tsamp b rows (/ period) - INR s).
  { rewrite E1. unfold drift. fold m. unfold q, Q. field. repeat split; lra. }
  assert (E3 : 1 / P * (Q * m) = (INR b - q) * m) by (rewrite E1; field; lra).
  assert (E4 : (INR b - q) * m <= 67108864).
  { apply Rle_trans with (INR b * INR rows); auto. apply Rmult_le_compat; unfold m in *; lra. }
  assert (E5 : 0 <= (INR b - q) * m) by (apply Rmult_le_pos; lra).
  assert (Qm : 0 < Q * m) by (apply Rmult_lt_0_compat; lra).
  assert (B1 : (1 / trial - 1 / P) * (Q * m) <= (0 + 16 + / 10) * u64 * ((INR b - q) * m)).
  { rewrite <- E3, <- (Rmult_assoc _ (1 / P)). apply Rmult_le_compat_r; lra. }
  assert (B2 : - ((0 + 16 + / 10) * u64 * ((INR b - q) * m)) <= (1 / trial - 1 / P) * (Q * m)).
  { rewrite <- E3, <- (Rmult_assoc _ (1 / P)), <- Ropp_mult_distr_l_reverse. apply Rmult_le_compat_r; lra. }
  replace ((/ trial - / period) * (Q * m)) with ((1 / trial - 1 / P) * (Q * m) + (1 / P - / period) * (Q * m))
    by (unfold Rdiv; ring).
  rewrite E2. unfold u64 in *. lra.
Qed.

Lemma coefficient_le f b rows s sh dev e phi W i : 1 <= f -> (2 <= b)%nat -> (s + 1 < rows)%nat -> (0 < W < b)%nat ->
  coefficient f b rows sh dev e phi W i <= bh b W * weight i 0 (INR (rows * b) * f).
Proof.
  intros Hf Hb Hs HW. destruct (bh_facts b W HW) as (B1 & B2 & _).
  rewrite <- (weight_folded f b rows s sh Hf Hb Hs i), <- rsum_scal. apply rsum_le. intros r Hr.
  rewrite <- rsum_scal. apply rsum_le. intros c Hc. cbv zeta.
  apply Rmult_le_compat_r; [apply weight_nonneg|]. unfold template. destruct (in_window _ _ _ _); lra.
Qed.

(** as [response_bound] when part of the weights lies behind the data *)
Lemma response_bound_gen (size b W : nat) (tsamp period phi w base folded : R) (on : nat -> bool) (data : list R) (coef : nat -> R) :
  (0 < W < b)%nat -> length data = size -> pulsed tsamp period phi w base on data ->
  (forall i, on_pulse (/ period) phi w tsamp i -> coef i = bh b W * weight i 0 folded) ->
  (forall i, - bb b W * weight i 0 folded <= coef i) ->
  boxcar_response b W (flux data base on folded true) (flux data base on folded false) + base * rsum size coef
  <= rsum size (fun i => coef i * nth i data 0).
Proof.
  intros HW L [Hon Hoff] C1 C2. unfold boxcar_response. rewrite <- bh_eq by auto.
  replace ((flux data base on folded true - INR W / (INR b - INR W) * flux data base on folded false) * bh b W)
    with (bh b W * flux data base on folded true + - bb b W * flux data base on folded false)
    by (rewrite bb_eq by auto; ring).
  rewrite (rsum_ext size (fun i => coef i * nth i data 0) (fun i => coef i * (nth i data 0 - base) + base * coef i)) by (intros; ring).
  rewrite rsum_plus, rsum_scal. apply Rplus_le_compat_r.
  unfold flux. rewrite L, <- !rsum_scal, <- rsum_plus. apply rsum_le. intros i Hi.
  destruct (on i) eqn:Ei; cbn [Bool.eqb].
  - rewrite C1 by (apply Hon; congruence). right. ring.
  - specialize (Hoff i ltac:(lia) Ei). specialize (C2 i).
    apply Rmult_le_compat_r with (r := nth i data 0 - base) in C2; lra.
Qed.

(** the response of the exact profile to a boxcar that receives the pulse *)
Lemma profile_response (size : nat) (f tsamp : R) (b rows s : nat) (sh : nat -> nat) (dev period phi w base : R)
    (on : nat -> bool) (data prof : list R) (W : nat) (v : R) :
  1 <= f -> 0 < tsamp -> (2 <= b)%nat -> (s + 1 < rows)%nat -> 0 < period -> length data = size -> (0 < W < b)%nat ->
  INR (rows * b) * f <= INR size * (1 + u64) -> (Z.of_nat size <= 33554432)%Z ->
  (forall r, (r < rows)%nat -> Rabs (INR (sh r) - INR r * INR s / (INR rows - 1)) <= dev) ->
  INR s - / 4 <= drift f tsamp b rows (/ period) <= INR s + 1 + / 4 ->
  pulsed tsamp period phi w base on data ->
  w * INR b + 2 * dev + 5 <= INR W ->
  length prof = b ->
  (forall c, (c < b)%nat -> nth c prof 0 = rsum rows (fun r => ds_exact data f (r * b + (c + sh r) mod b)%nat)) ->
  best_response prof W v ->
  let folded := INR (rows * b) * f in
  boxcar_response b W (flux data base on folded true) (flux data base on folded false)
  - sqrt (INR b / (INR W * INR (b - W))) * (INR size * u64 * Rabs base) <= v.
Proof.
  intros Hf Ht Hb Hs Hp L HW Hsz Hs25 Hdev HD HS Hwide Lp Hprof Bv folded.
  set (coef := coefficient f b rows sh dev (/ 4) phi W).
  assert (C1 : forall i, on_pulse (/ period) phi w tsamp i -> coef i = bh b W * weight i 0 folded).
  { intros i Hi. apply (coefficient_on f tsamp b rows s sh dev (/ 4) Hf Ht Hb Hs ltac:(lra) Hdev (/ period) phi w HD); auto; try lia; try lra.
    left. now apply Rinv_0_lt_compat. }
  assert (C2 : forall i, - bb b W * weight i 0 folded <= coef i).
  { intros i. now apply (coefficient_ge f b rows s sh dev (/ 4) Hf Hb Hs phi W i). }
  assert (S0 : 0 <= INR size * u64 <= 1).
  { split; [apply Rmult_le_pos; [apply pos_INR|unfold u64; lra]|].
    apply Rle_trans with (33554432 * u64); [|unfold u64; lra].
    apply Rmult_le_compat_r; [unfold u64; lra|]. rewrite INR_IZR_INZ. now apply IZR_le. }
  assert (C3 : rsum (S size) coef = 0).
  { apply (coefficient_sum (S size) f b rows s sh dev (/ 4) Hf Hb Hs); auto. rewrite S_INR. lra. }
  cbn [rsum] in C3.
  assert (E : sqrt (INR b / (INR W * INR (b - W))) = bh b W + bb b W) by (symmetry; now apply height_sum).
  destruct (bh_facts b W HW) as (B1 & B2 & _).
  assert (C4 : Rabs (coef size) <= (bh b W + bb b W) * (INR size * u64)).
  { assert (Wt : 0 <= weight size 0 folded <= INR size * u64).
    { split; [apply weight_nonneg|]. unfold weight, overlap. apply Rmax_lub; [lra|].
      pose proof (Rmin_l (INR size + 1) folded). pose proof (Rmin_r (INR size + 1) folded).
      pose proof (Rmax_l (INR size) 0). unfold folded in *. lra. }
    pose proof (C2 size) as L1.
    pose proof (coefficient_le f b rows s sh dev (/ 4) phi W size Hf Hb Hs HW) as L2. fold coef folded in L2.
    apply Rabs_le.
    assert (bb b W * weight size 0 folded <= bb b W * (INR size * u64)) by (apply Rmult_le_compat_l; lra).
    assert (bh b W * weight size 0 folded <= bh b W * (INR size * u64)) by (apply Rmult_le_compat_l; lra).
    assert (0 <= bb b W * (INR size * u64)) by (apply Rmult_le_pos; lra).
    assert (0 <= bh b W * (INR size * u64)) by (apply Rmult_le_pos; lra). lra. }
  pose proof (response_bound_gen size b W tsamp period phi w base folded on data coef HW L HS C1 C2) as RB.
  assert (RV : rsum size (fun i => coef i * nth i data 0) <= v).
  { pose (x := map (ds_exact data f) (seq 0 (rows * b))).
    assert (Hx : forall k, (k < rows * b)%nat -> nth k x 0 = ds_exact data f k).
    { intros k Hk. unfold x. now rewrite nth_map_seq. }
    apply (coefficient_response size f b rows s sh dev (/ 4) Hb Hs phi W data x prof v); auto.
    - intros k Hk. rewrite Hx by auto. unfold ds_exact. rewrite L. reflexivity.
    - intros c Hc. rewrite Hprof by auto. apply rsum_ext. intros r Hr. rewrite Hx; auto.
      pose proof (Nat.mod_upper_bound (c + sh r) b ltac:(lia)). nia. }
  rewrite E.
  assert (Bs : - ((bh b W + bb b W) * (INR size * u64 * Rabs base)) <= base * rsum size coef).
  { replace (rsum size coef) with (- coef size) by lra.
    assert (Rabs (base * coef size) <= Rabs base * ((bh b W + bb b W) * (INR size * u64))).
    { rewrite Rabs_mult. apply Rmult_le_compat_l; [apply Rabs_pos|exact C4]. }
    apply Rabs_le_inv in H. lra. }
  fold folded in RB. lra.
Qed.

Lemma rsum_one_abs (n : nat) (g : nat -> R) (i : nat) : (i < n)%nat -> Rabs (g i) <= rsum n (fun k => Rabs (g k)).
Proof.
  induction n as [|n IH]; intros Hi; [lia|]. cbn [rsum].
  assert (0 <= rsum n (fun k => Rabs (g k))) by (apply rsum_nonneg; intros; apply Rabs_pos).
  destruct (Nat.eq_dec i n) as [->|N]; [lra|]. pose proof (IH ltac:(lia)). pose proof (Rabs_pos (g n)). lra.
Qed.

(** what is asked of the arguments of a search in floating point *)
Definition float_search (flog : R -> R) (fpow : R -> nat -> R) (size : nat) (ws : list nat)
    (tsamp pmin pmax : R) (bmin bmax : nat) : Prop :=
  good_log flog /\ accurate_log flog /\ good_pow fpow /\ accurate_pow fpow /\
  double tsamp /\ / 2 ^ 1000 <= tsamp /\ 0 < pmin < pmax /\ pmax / tsamp <= 2 ^ 63 /\
  (2 <= bmin <= bmax)%nat /\ rnd64 (tsamp * INR bmin) <= pmin /\ 2 * pmax <= tsamp * INR size /\
  (Z.of_nat size <= 33554432)%Z /\ (Z.of_nat bmax <= 4194304)%Z /\ (Z.of_nat (size / bmin) <= 4194304)%Z /\
  ws <> [] /\ good_widths ws bmin.

(** one trial, its period and the exact profile *)
Lemma trial_run (bld : build) (flog : R -> R) (fpow : R -> nat -> R) (alloc : nat -> list R) (allocz : nat -> list Z)
    (data : list R) (ws : list nat) (tsamp pmin pmax : R) (bmin bmax : nat) (X period : R) :
  let size := length data in
  allocates alloc -> allocates allocz ->
  float_search flog fpow size ws tsamp pmin pmax bmin bmax ->
  Forall single data -> (forall i, (i < size)%nat -> Rabs (nth i data 0) <= X) ->
  pmin <= period <= pmax * (1 - / 2 ^ 40) ->
  exists (periods : list R) (bins : list Z) (snrs : arr2 R) (t b rows n s : nat) (f V : R) (sh : nat -> nat) (prof : list R),
    let A := rsum size (fun j => Rabs (nth j data 0)) in
    let T := (1 + / 2 ^ 24) ^ (Nat.log2_up rows + Z.to_nat (Zceil f) + 3)
             * (A + INR n * (INR size * / 2 ^ 50 * X + 3 * / 2 ^ 150)) in
    py_periodogram (numF bld) flog fpow alloc allocz data tsamp ws pmin pmax bmin bmax = Ok (periods, bins, snrs) /\
    (t < length periods)%nat /\ nth t bins 0%Z = Z.of_nat b /\ (bmin <= b <= bmax)%nat /\
    1 <= f /\ INR n * f <= INR size * (1 + / 2 ^ 53) /\ INR size * (1 - / 2 ^ 53) < (INR n + 1) * f /\
    (rows * b <= n < (rows + 1) * b)%nat /\ (s + 1 < rows)%nat /\
    next_trial tsamp period (nth t periods 0) b rows f /\
    INR s - / 4 <= drift f tsamp b rows (/ period) <= INR s + 1 + / 4 /\
    (forall r, (r < rows)%nat -> Rabs (INR (sh r) - INR r * INR s / (INR rows - 1)) <= INR (Nat.log2_up rows) - 1) /\
    length prof = b /\
    (forall c, (c < b)%nat -> nth c prof 0 = rsum rows (fun r => ds_exact data f (r * b + (c + sh r) mod b)%nat)) /\
    noise_variance n f V /\
    forall k, (k < length ws)%nat -> let w := nth k ws 0%nat in
      exists v, best_response prof w v /\
        Rabs (at2 0 snrs t k - v / sqrt (INR rows * V))
        <= sqrt (INR b / (INR w * INR (b - w))) * ((1 + 31 * / 2 ^ 24) * T - A) / sqrt (INR rows * V) + / 2 ^ 145.
Proof.
  intros size Ha Hz (Hl & Al & Hp & Ap & F1 & Ht & Hpm & Hpt & Hbm & Hbase & Hlong & Hs & Hb & Hr & Hws & Hw) HF HX HP.
  set (N := numF bld).
  assert (HT0 : 0 < tsamp).
  { apply Rlt_le_trans with (2 := Ht). apply Rinv_0_lt_compat, pow_lt. lra. }
  assert (HC : check_arguments N tsamp pmin pmax bmin bmax = Ok tt).
  { unfold check_arguments, N. cbn [numF opsF n_ltb n_leb n_dbl o_ofZ o_mul].
    rewrite <- INR_IZR_INZ. rewrite (rnd64_id 0) by apply generic_format_0.
    rewrite !Rlt_bool_true by lra. rewrite (rnd64_id (INR bmin)) by (apply F64_nat; lia).
    rewrite Rle_bool_true by auto.
    destruct (Nat.ltb_spec 1 bmin); [|lia]. destruct (Nat.leb_spec bmin bmax); [|lia]. reflexivity. }
  assert (Ht' : bpow radix2 (-1000) <= tsamp).
  { change (bpow radix2 (-1000)) with (/ IZR (Z.pow_pos 2 1000)).
    replace (IZR (Z.pow_pos 2 1000)) with (2 ^ 1000); auto. rewrite pow_IZR. reflexivity. }
  assert (Hwide : pmin * (1 + / 2 ^ 40) <= pmax).
  { set (d := / 2 ^ 40) in *. assert (D0 : 0 < d) by (apply Rinv_0_lt_compat, pow_lt; lra).
    apply Rle_trans with (pmax * (1 - d) * (1 + d)); [apply Rmult_le_compat_r; lra|].
    assert (0 <= pmax * (d * d)) by (apply Rmult_le_pos; [lra|]; apply Rmult_le_pos; lra). lra. }
  destruct (cyc_F bld flog size tsamp pmin pmax bmin bmax Al F1 Hb HC Hpt Hwide) as ([_ Hc] & _).
  assert (HV : forall i, (i < pl_cycles N flog pmin pmax bmin bmax)%nat ->
    pl_valid N fpow size tsamp pmin bmin bmax i = true).
  { intros i Hi. apply (valid_F bld fpow size tsamp pmin pmax bmin bmax); auto; try lia.
    right. eapply (f_valid bld flog fpow size tsamp pmin pmax bmin bmax); eauto. }
  assert (HVa : forallb (pl_valid N fpow size tsamp pmin bmin bmax)
    (seq 0 (pl_cycles N flog pmin pmax bmin bmax)) = true).
  { apply forallb_forall. intros i Hi. apply in_seq in Hi. apply HV. lia. }
  destruct (run_F2 bld flog fpow size tsamp pmin pmax bmin bmax Hl Hp F1 Hs Hb HC Hpt alloc allocz data ws X
    Ha Hz eq_refl Hws Hw Hc Hr HF HX HVa) as (P & B & S & E & LP & LB & LR & LC & LD & V).
  destruct (trial_F bld flog fpow size tsamp pmin pmax bmin bmax Al Hp Ap F1 Hs Hb HC Hpt Ht' Hlong Hwide period HP)
    as (i & j & s & Hi & Hj & Hss & Hs1 & HD).
  destruct (V i j s Hi Hj Hss) as (VP & VB & x & Hx & VS). cbv zeta in VP, VB, VS. fold N in VP, VB, VS.
  destruct (cell_F bld flog fpow size tsamp pmin pmax bmin bmax Hp F1 Hs Hb HC Hpt data ws X eq_refl Hw Hr
    HX i j s x Hi (HV i Hi) Hj Hss Ht' Hx)
    as (A1 & A2 & A3 & A4 & A5 & A6 & A7 & A8 & A9 & A10 & prof & W & A11 & A12 & A13 & A14).
  assert (U53 : / 2 ^ 53 = u64) by (unfold u64; f_equal; rewrite pow_IZR; reflexivity).
  assert (U24 : / 2 ^ 24 = u32) by (unfold u32; f_equal; rewrite pow_IZR; reflexivity).
  fold N in A1, A2, A3, A4, A5, A6, A7, A8, A9, A10, A12, A13, A14, HD, Hs1, Hss, Hj.
  set (t := (pl_off N fpow size tsamp pmin pmax bmin bmax i + pl_off2 N fpow size tsamp pmin pmax bmin bmax i j + s)%nat) in *.
  assert (Htt : (t < pl_total N flog fpow size tsamp pmin pmax bmin bmax)%nat).
  { pose proof (off_total N flog fpow size tsamp pmin pmax bmin bmax i j Hi Hj). unfold t. lia. }
  set (f := pl_f N fpow tsamp pmin bmin bmax i) in *. set (n := pl_n N fpow size tsamp pmin bmin bmax i) in *.
  set (b := (bmin + j)%nat) in *. set (m := pl_rows N fpow size tsamp pmin bmin bmax i b) in *.
  exists P, B, S, t, b, m, n, s, f, W, (path (merge_index N) (Datatypes.S m) m s), prof.
  cbv zeta. rewrite U53, U24, U50, <- eta32_eq.
  split; [exact E|]. split; [now rewrite LP|].
  split. { rewrite VB. apply Z.mod_small. lia. }
  split; [exact A4|]. split; [exact A1|]. split; [exact A2|]. split; [exact A3|]. split; [exact A5|].
  split; [exact Hs1|]. split.
  { rewrite VP. apply (next_trial_of tsamp period _ f b m s); auto; [lra|lia|].
    - rewrite <- mult_INR, INR_IZR_INZ. apply IZR_le.
      assert (n <= size)%nat by (apply (n_leF bld fpow size tsamp pmin pmax bmin bmax); auto; lia). lia. }
  split; [exact HD|]. split; [exact A10|]. split; [exact A11|]. split; [exact A12|]. split; [exact A13|].
  intros k Hk. destruct (A14 k _ Hk (VS k Hk)) as (v & Bv & Ev). exists v. split; [exact Bv|].
  unfold at2. change (n_T (numF bld)) with R in *. rewrite LC.
  eapply Rle_trans; [exact Ev|]. apply Req_le.
  rewrite <- Nat.add_assoc, pow_add. unfold ds_terms, abs_sum. fold size.
  replace (INR size * (8 * u64) * X) with (8 * u64 * INR size * X) by ring.
  rewrite (Rmult_assoc ((1 + u32) ^ _) ((1 + u32) ^ _)). reflexivity.
Qed.

(** C107.  In floating point the trials still cover the range, if log() and pow() are accurate:
    next to every period from [pmin] to [pmax (1 - 2^-40)] there is a trial.  It belongs to a
    transform that uses all the data but an incomplete period, and the frequencies differ by at
    most 3/2 of the step of that transform. *)
Theorem periodogram_float_covers :
  forall (bld : build) (flog : R -> R) (fpow : R -> nat -> R) (alloc : nat -> list R) (allocz : nat -> list Z)
    (data : list R) (ws : list nat) (tsamp pmin pmax : R) (bmin bmax : nat) (period : R),
  let size := length data in
  allocates alloc -> allocates allocz ->
  float_search flog fpow size ws tsamp pmin pmax bmin bmax -> Forall single data ->
  pmin <= period <= pmax * (1 - / 2 ^ 40) ->
  exists (periods : list R) (bins : list Z) (snrs : arr2 R) (t b rows n : nat) (f : R),
    py_periodogram (numF bld) flog fpow alloc allocz data tsamp ws pmin pmax bmin bmax = Ok (periods, bins, snrs) /\
    (t < length periods)%nat /\ nth t bins 0%Z = Z.of_nat b /\ (bmin <= b <= bmax)%nat /\
    1 <= f /\ INR n * f <= INR size * (1 + / 2 ^ 53) /\ INR size * (1 - / 2 ^ 53) < (INR n + 1) * f /\
    (rows * b <= n < (rows + 1) * b)%nat /\ (2 <= rows)%nat /\
    next_trial tsamp period (nth t periods 0) b rows f.
Proof.
  intros bld flog fpow alloc allocz data ws tsamp pmin pmax bmin bmax period size Ha Hz HA HF HP.
  destruct (trial_run bld flog fpow alloc allocz data ws tsamp pmin pmax bmin bmax (abs_sum data) period)
    as (P & B & S & t & b & rows & n & s & f & V & sh & prof & E & H1 & H2 & H3 & H4 & H5 & H6 & H7 & H8 & H9 & _); auto.
  { intros i Hi. apply (rsum_one_abs _ (fun k => nth k data 0)); auto. }
  exists P, B, S, t, b, rows, n, f. repeat (split; [assumption|]). split; [|exact H9]. lia.
Qed.
Print Assumptions periodogram_float_covers.

(** C108.  A signal of such a period is not missed in floating point.  At that trial, a boxcar
    wider than the pulse by twice the number of doublings of the rows plus 3 bins has at least
    the S/N that a boxcar with all the on-pulse flux of the data folded has, less the effect of
    a change of the data by [(1 + 31 2^-24) T - A] (rounding errors, as in C106) and by
    [2^-53] of the sum of the base level. *)
Theorem periodogram_float_detects :
  forall (bld : build) (flog : R -> R) (fpow : R -> nat -> R) (alloc : nat -> list R) (allocz : nat -> list Z)
    (data : list R) (ws : list nat) (tsamp pmin pmax : R) (bmin bmax : nat) (X period phi w base : R) (on : nat -> bool),
  let size := length data in
  allocates alloc -> allocates allocz ->
  float_search flog fpow size ws tsamp pmin pmax bmin bmax ->
  Forall single data -> (forall i, (i < size)%nat -> Rabs (nth i data 0) <= X) ->
  pmin <= period <= pmax * (1 - / 2 ^ 40) -> pulsed tsamp period phi w base on data ->
  exists (periods : list R) (bins : list Z) (snrs : arr2 R) (t b rows n : nat) (f V : R),
    py_periodogram (numF bld) flog fpow alloc allocz data tsamp ws pmin pmax bmin bmax = Ok (periods, bins, snrs) /\
    (t < length periods)%nat /\ nth t bins 0%Z = Z.of_nat b /\ (bmin <= b <= bmax)%nat /\
    1 <= f /\ INR n * f <= INR size * (1 + / 2 ^ 53) /\ INR size * (1 - / 2 ^ 53) < (INR n + 1) * f /\
    (rows * b <= n < (rows + 1) * b)%nat /\ (2 <= rows)%nat /\
    next_trial tsamp period (nth t periods 0) b rows f /\
    noise_variance n f V /\
    let folded := INR (rows * b) * f in
    let A := rsum size (fun j => Rabs (nth j data 0)) in
    let T := (1 + / 2 ^ 24) ^ (Nat.log2_up rows + Z.to_nat (Zceil f) + 3)
             * (A + INR n * (INR size * / 2 ^ 50 * X + 3 * / 2 ^ 150)) in
    forall k, (k < length ws)%nat ->
      let W := nth k ws 0%nat in
      w * INR b + 2 * INR (Nat.log2_up rows) + 3 <= INR W ->
      (boxcar_response b W (flux data base on folded true) (flux data base on folded false)
       - sqrt (INR b / (INR W * INR (b - W)))
         * ((1 + 31 * / 2 ^ 24) * T - A + INR size * / 2 ^ 53 * Rabs base)) / sqrt (INR rows * V)
      - / 2 ^ 145 <= at2 0 snrs t k.
Proof.
  intros bld flog fpow alloc allocz data ws tsamp pmin pmax bmin bmax X period phi w base on size Ha Hz HA HF HX HP HS.
  destruct (trial_run bld flog fpow alloc allocz data ws tsamp pmin pmax bmin bmax X period)
    as (P & B & S & t & b & rows & n & s & f & V & sh & prof & E & H1 & H2 & H3 & H4 & H5 & H6 & H7 & H8 & H9 & H10 & H11 & H12 & H13 & H14 & H15);
    auto.
  exists P, B, S, t, b, rows, n, f, V. repeat (split; [assumption|]). split; [lia|]. split; [assumption|]. split; [assumption|].
  intros folded A T k Hk W Hwide.
  destruct HA as (_ & _ & _ & _ & _ & Ht & Hpm & _ & Hbm & _ & _ & Hsz & _ & _ & _ & Hw).
  assert (HW : (0 < W < b)%nat) by (pose proof (Hw W (nth_In _ _ Hk)); lia).
  assert (HT0 : 0 < tsamp).
  { apply Rlt_le_trans with (2 := Ht). apply Rinv_0_lt_compat, pow_lt. lra. }
  assert (U53 : / 2 ^ 53 = u64) by (unfold u64; f_equal; rewrite pow_IZR; reflexivity).
  destruct (H15 k Hk) as (v & Bv & Ev). fold W size A T in Bv, Ev.
  rewrite U53 in *.
  assert (RV : boxcar_response b W (flux data base on folded true) (flux data base on folded false)
    - sqrt (INR b / (INR W * INR (b - W))) * (INR size * u64 * Rabs base) <= v).
  { apply (profile_response size f tsamp b rows s sh (INR (Nat.log2_up rows) - 1) period phi w base on data prof W v); auto; try lia; try lra.
    apply Rle_trans with (2 := H5). apply Rmult_le_compat_r; [lra|]. apply le_INR. lia. }
  apply Rabs_le_inv in Ev.
  set (sg := sqrt (INR rows * V)) in *.
  assert (Psg : 0 < sg).
  { pose proof (noise_variance_low _ _ _ H4 H14). apply sqrt_lt_R0. apply Rmult_lt_0_compat; [apply (lt_INR 0); lia|lra]. }
  set (H := sqrt (INR b / (INR W * INR (b - W)))) in *. set (BR := boxcar_response _ _ _ _) in *.
  apply Rmult_le_compat_r with (r := / sg) in RV; [|left; now apply Rinv_0_lt_compat].
  replace ((BR - H * ((1 + 31 * / 2 ^ 24) * T - A + INR size * u64 * Rabs base)) / sg)
    with ((BR - H * (INR size * u64 * Rabs base)) * / sg - H * ((1 + 31 * / 2 ^ 24) * T - A) / sg)
    by (unfold Rdiv; ring).
  unfold Rdiv in *. lra.
Qed.
Print Assumptions periodogram_float_detects.

(** 10000 samples of 1/1024 s with a pulse of one sample every 96, searched from 1/16 to 1 s with
    40 to 44 bins; at most 256 rows *)
Example periodogram_float_detects_ex :
  let data := map (fun i => if (i mod 96 =? 0)%nat then 3 else 1) (seq 0 (100 * 100)) in
  let tsamp := / 1024 in let pmin := / 16 in let pmax := 1 in
  float_search ln pow (length data) [20; 30]%nat tsamp pmin pmax 40 44 /\
  Forall single data /\ (forall i, (i < length data)%nat -> Rabs (nth i data 0) <= 3) /\
  pmin <= 3 / 32 <= pmax * (1 - / 2 ^ 40) /\
  pulsed tsamp (3 / 32) 0 (/ 96) 1 (fun i => (i mod 96 =? 0)%nat) data /\
  forall b rows, (b <= 44)%nat -> (rows <= 256)%nat -> / 96 * INR b + 2 * INR (Nat.log2_up rows) + 3 <= INR 20.
Proof.
  cbv zeta. set (data := map _ _).
  assert (L : length data = (100 * 100)%nat) by (unfold data; now rewrite map_length, seq_length).
  assert (VD : forall i, (i < 100 * 100)%nat -> nth i data 0 = if (i mod 96 =? 0)%nat then 3 else 1).
  { intros i Hi. unfold data. now rewrite nth_map_seq. }
  rewrite L. clearbody data.
  destruct periodogram_float_safe_ex as (G1 & G2 & F1 & _). cbv zeta in *.
  assert (E40 : INR 40 = 40) by (cbn; lra).
  assert (ES : INR (100 * 100) = 10000) by (rewrite mult_INR; replace (INR 100) with 100 by (cbn; lra); lra).
  assert (HB : rnd64 (/ 1024 * INR 40) = 5 / 128).
  { rewrite E40. replace (/ 1024 * 40) with (F2R (Float radix2 5 (-7))) by (unfold F2R; cbn; lra).
    rewrite rnd64_id; [unfold F2R; cbn; lra|].
    apply generic_format_FLT. exists (Float radix2 5 (-7)); cbn; auto; lia. }
  assert (P50 : 0 < / 2 ^ 50) by (apply Rinv_0_lt_compat, pow_lt; lra).
  assert (P40 : 0 < / 2 ^ 40 <= / 2).
  { split; [apply Rinv_0_lt_compat, pow_lt; lra|].
    apply Rinv_le_contravar; [lra|]. rewrite <- (pow_1 2) at 1. apply Rle_pow; [lra|lia]. }
  split.
  { split; [exact G1|]. split.
    { intros x [Hx _]. rewrite Rminus_diag_eq, Rabs_R0 by auto. apply Rmult_le_pos; [lra|].
      rewrite <- ln_1. apply ln_le'; lra. }
    split; [exact G2|]. split.
    { intros x n Hx _. rewrite Rminus_diag_eq, Rabs_R0 by auto. apply Rmult_le_pos; [lra|].
      apply pow_le. lra. }
    split; [exact F1|].
    split. { apply Rle_trans with (/ 2 ^ 10); [|cbn; lra]. apply Rinv_le_contravar; [apply pow_lt; lra|].
      apply Rle_pow; [lra|lia]. }
    split; [lra|]. split. { replace (2 ^ 63) with 9223372036854775808 by (rewrite pow_IZR; reflexivity). lra. }
    split; [lia|]. split; [rewrite HB; lra|]. split; [rewrite ES; lra|].
    split; [lia|]. split; [lia|].
    split. { apply Z.le_trans with (Z.of_nat (100 * 100)); [|lia].
      apply Nat2Z.inj_le. apply Nat.div_le_upper_bound; lia. }
    split; [discriminate|]. intros w [<-|[<-|[]]]; lia. }
  split.
  { rewrite Forall_forall. intros y Hy. destruct (In_nth data y 0 Hy) as (i & Hi & <-). rewrite L in Hi.
    rewrite VD by auto. destruct (_ =? _)%nat; [apply (single_int 3)|apply (single_int 1)]; lia. }
  split.
  { intros i Hi. rewrite VD by auto. destruct (_ =? _)%nat; rewrite Rabs_pos_eq; lra. }
  split; [lra|]. split.
  - split; rewrite L; intros i Hi E.
    + apply Nat.eqb_eq in E. exists (Z.of_nat (i / 96)). rewrite <- INR_IZR_INZ.
      pose proof (Nat.div_mod i 96 ltac:(lia)) as D. rewrite E, Nat.add_0_r in D.
      assert (Di : INR i = 96 * INR (i / 96)).
      { rewrite D at 1. rewrite mult_INR. f_equal. cbn. lra. }
      rewrite Di. split; lra.
    + rewrite VD by auto. rewrite E. lra.
  - intros b rows Hb Hr. apply le_INR in Hb. replace (INR 44) with 44 in Hb by (cbn; lra).
    assert (Hl : (Nat.log2_up rows <= 8)%nat) by (apply (Nat.log2_up_le_mono rows 256) in Hr; exact Hr).
    apply le_INR in Hl. replace (INR 8) with 8 in Hl by (cbn; lra). replace (INR 20) with 20 by (cbn; lra). lra.
Qed.
