(** C136: the number of trials and of segments of a range, in floating point. *)
From Coq Require Import String List Arith ZArith Bool Lia Reals Lra Psatz.
From Flocq Require Import Core.
From Verif Require Import Base.Result Base.Buf Base.Num Model.Transforms Model.Downsample Model.Periodogram Model.Libffa
  Model.Cluster Model.Peaks Model.Metadata Model.Search Model.Worker
  Spec.Sums Spec.Overlap Spec.Noise Spec.Libm
  Proof.Downsample Proof.Periodogram Proof.Detect Proof.SearchFloat Proof.CoverageFloat Proof.ClusterFloat
  Props.Downsample Props.Snr Props.SnrFloat Props.DownsampleFloat Props.PeriodogramFloat Props.PeriodogramRounding
  Props.Detect Props.DetectFloat Props.TrialsFloat.
Import ListNotations.
Local Open Scope R_scope.

(** ** the number of intervals that cover a range *)
Lemma cover_count (l : nat -> R) (n : nat) (d a b : R) : a <= b ->
  (forall x, a <= x <= b -> exists t, (t < n)%nat /\ l t <= x <= l t + d) -> b - a <= INR n * d.
Proof.
  intros Hab H. destruct (Rle_or_lt (b - a) (INR n * d)) as [|C]; [assumption|exfalso].
  destruct n as [|n'] eqn:En; [destruct (H a ltac:(lra)) as (t & Ht & _); lia|]. rewrite <- En in *.
  assert (N0 : 1 <= INR n) by (apply (le_INR 1); lia).
  set (e := (b - a) / INR n).
  assert (Ee : e * INR n = b - a) by (unfold e; field; lra).
  assert (De : d < e) by (apply Rmult_lt_reg_r with (INR n); lra).
  assert (e0 : 0 <= e) by (apply Rmult_le_reg_r with (INR n); lra).
  assert (Ch : forall m, (m <= S n)%nat -> exists ts, length ts = m /\
    forall k, (k < m)%nat -> (nth k ts 0 < n)%nat /\ l (nth k ts 0%nat) <= a + INR k * e <= l (nth k ts 0%nat) + d).
  { induction m as [|m IH]; intros Hm; [exists []; split; [reflexivity|]; intros; lia|].
    destruct (IH ltac:(lia)) as (ts & L & V).
    assert (Hk : INR m <= INR n) by (apply le_INR; lia). pose proof (pos_INR m).
    destruct (H (a + INR m * e)) as (t & Ht & Hl).
    { split; [assert (0 <= INR m * e) by (apply Rmult_le_pos; lra); lra|].
      assert (INR m * e <= INR n * e) by (apply Rmult_le_compat_r; lra). lra. }
    exists (ts ++ [t])%list. split; [rewrite app_length, L; cbn; lia|]. intros k Hk'.
    destruct (Nat.eq_dec k m) as [->|Ne].
    - rewrite app_nth2, L, Nat.sub_diag by lia. cbn [nth]. auto.
    - rewrite app_nth1 by lia. apply V. lia. }
  destruct (Ch (S n) (le_n _)) as (ts & L & V).
  assert (ND : NoDup ts).
  { apply (NoDup_nth ts 0%nat). intros i j Hi Hj Eij. rewrite L in Hi, Hj.
    destruct (V i Hi) as [_ Vi]. destruct (V j Hj) as [_ Vj]. rewrite Eij in Vi.
    destruct (Nat.lt_trichotomy i j) as [Q|[Q|Q]]; auto; exfalso.
    - assert (INR i + 1 <= INR j) by (rewrite <- S_INR; apply le_INR; lia).
      assert ((INR i + 1) * e <= INR j * e) by (apply Rmult_le_compat_r; lra). lra.
    - assert (INR j + 1 <= INR i) by (rewrite <- S_INR; apply le_INR; lia).
      assert ((INR j + 1) * e <= INR i * e) by (apply Rmult_le_compat_r; lra). lra. }
  assert (IN : incl ts (seq 0 n)).
  { intros t Ht. destruct (In_nth ts t 0%nat Ht) as (k & Hk & <-). rewrite L in Hk. apply in_seq.
    destruct (V k Hk) as [Vk _]. lia. }
  pose proof (NoDup_incl_length ND IN) as Q. rewrite seq_length in Q. lia.
Qed.

(** ** the trials of a search *)
(** next to every period there is a trial; [K] bounds the inverse of the steps of frequency *)
Lemma near_trial (bld : build) (flog : R -> R) (fpow : R -> nat -> R) (alloc : nat -> list R) (allocz : nat -> list Z)
    (data : list R) (ws : list nat) (tsamp pmin pmax : R) (bmin bmax : nat) (P : list R) (B : list Z) (S : arr2 R) (period : R) :
  let K := INR bmin * (INR (length data) * tsamp - 3 * pmax) in
  allocates alloc -> allocates allocz -> float_search flog fpow (length data) ws tsamp pmin pmax bmin bmax -> Forall single data ->
  py_periodogram (numF bld) flog fpow alloc allocz data tsamp ws pmin pmax bmin bmax = Ok (P, B, S) ->
  0 < K -> pmin <= period <= pmax * (1 - / 2 ^ 40) ->
  exists t, (t < length P)%nat /\ / period - / 2 / K <= / nth t P 0 <= / period + 3 / 2 / K.
Proof.
  intros K Ha Hz HA HF E K0 HP.
  destruct (trial_run bld flog fpow alloc allocz data ws tsamp pmin pmax bmin bmax (rsum (length data) (fun k => Rabs (nth k data 0))) period)
    as (P' & B' & S' & t & b & rows & n & s & f & V & sh & prof & E' & Ht & _ & Hb & F1 & F2 & F3 & Hn & Hs & NT & HD & _); auto.
  { intros i Hi. apply (rsum_one_abs _ (fun k => nth k data 0)); auto. }
  rewrite E in E'. injection E' as <- <- <-. exists t. split; [exact Ht|].
  destruct HA as (_ & _ & _ & _ & _ & Ht' & Hpm & _ & Hbm & _ & Hlong & Hsz & _).
  set (size := length data) in *.
  assert (T0 : 0 < tsamp). { apply Rlt_le_trans with (2 := Ht'). apply Rinv_0_lt_compat, pow_lt. lra. }
  assert (b2 : 2 <= INR b) by (apply (le_INR 2); lia). assert (bb : INR bmin <= INR b) by (apply le_INR; lia).
  assert (B2 : 2 <= INR bmin) by (apply (le_INR 2); lia).
  assert (r2 : 2 <= INR rows) by (apply (le_INR 2); lia).
  assert (P40 : 0 < / 2 ^ 40 <= / 2).
  { split; [apply Rinv_0_lt_compat, pow_lt; lra|]. apply Rinv_le_contravar; [lra|]. rewrite <- (pow_1 2) at 1. apply Rle_pow; [lra|lia]. }
  assert (Pp : 0 < period <= pmax).
  { split; [lra|]. apply Rle_trans with (1 := proj2 HP). rewrite <- (Rmult_1_r pmax) at 2. apply Rmult_le_compat_l; lra. }
  assert (ip : 0 < / period) by (apply Rinv_0_lt_compat; lra).
  (* the shortest period of the transform *)
  set (y := f * tsamp * INR b).
  assert (y0 : 0 < y) by (unfold y; apply Rmult_lt_0_compat; [apply Rmult_lt_0_compat|]; lra).
  assert (Y : y <= 9 / 8 * period).
  { unfold drift in HD. pose proof (pos_INR s) as s0. destruct HD as [HD _].
    set (z := 1 - INR b * (/ period * (f * tsamp))) in HD.
    assert (Ez : y = (1 - z) * period) by (unfold z, y; field; lra).
    rewrite Ez. apply Rmult_le_compat_r; [lra|].
    destruct (Rle_or_lt (- / 8) z) as [|C]; [lra|exfalso].
    assert (2 <= INR b * (INR rows - 1)).
    { replace 2 with (2 * 1) by ring. apply Rmult_le_compat; lra. }
    assert (z * (INR b * (INR rows - 1)) <= z * 2).
    { rewrite !(Rmult_comm z). apply Rmult_le_compat_neg_l with (r := z) in H; lra. }
    rewrite <- Rmult_assoc in H0. lra. }
  (* the step of the transform *)
  assert (G1 : INR size * tsamp - 3 * pmax <= y * (INR rows - 1)).
  { assert (N1 : INR n + 1 <= (INR rows + 1) * INR b).
    { rewrite <- S_INR, <- (S_INR rows), <- mult_INR. apply le_INR. lia. }
    assert (Q1 : INR size * (1 - / 2 ^ 53) * tsamp <= (INR n + 1) * f * tsamp) by (apply Rmult_le_compat_r; lra).
    assert (Q2 : (INR n + 1) * f * tsamp <= (INR rows + 1) * INR b * f * tsamp).
    { apply Rmult_le_compat_r; [lra|]. apply Rmult_le_compat_r; lra. }
    assert (E3 : (INR rows + 1) * INR b * f * tsamp = y * (INR rows - 1) + 2 * y) by (unfold y; ring).
    assert (SZ : INR size <= 33554432) by (rewrite INR_IZR_INZ; apply IZR_le; exact Hsz).
    assert (Q4 : INR size * / 2 ^ 53 * tsamp <= / 100 * tsamp).
    { apply Rmult_le_compat_r; [lra|]. apply Rle_trans with (33554432 * / 2 ^ 53); [apply Rmult_le_compat_r; [left; apply Rinv_0_lt_compat, pow_lt; lra|exact SZ]|].
      replace (2 ^ 53) with 9007199254740992 by (rewrite pow_IZR; reflexivity). lra. }
    assert (Q5 : tsamp <= pmax).
    { destruct (Rle_or_lt tsamp pmax) as [|C]; [assumption|exfalso].
      assert (BT : tsamp * 2 <= tsamp * INR bmin) by (apply Rmult_le_compat_l; lra).
      assert (X : f * tsamp * INR b <= 9 / 8 * pmax) by (fold y; lra).
      assert (tsamp * 2 <= f * tsamp * INR b).
      { replace (tsamp * 2) with (1 * tsamp * 2) by ring. apply Rmult_le_compat; try lra. apply Rmult_le_compat_r; lra. }
      lra. }
    lra. }
  assert (G : K <= f * tsamp * INR b ^ 2 * (INR rows - 1)).
  { replace (f * tsamp * INR b ^ 2 * (INR rows - 1)) with (INR b * (y * (INR rows - 1))) by (unfold y; ring).
    unfold K in *. assert (D0 : 0 < INR size * tsamp - 3 * pmax).
    { apply Rmult_lt_reg_l with (INR bmin); lra. }
    apply Rmult_le_compat; lra. }
  unfold next_trial in NT. set (g := f * tsamp * INR b ^ 2 * (INR rows - 1)) in *. set (v := / nth t P 0 - / period) in *.
  assert (ik : 0 < / K) by (apply Rinv_0_lt_compat; lra).
  assert (U : v <= 3 / 2 / K).
  { destruct (Rle_or_lt v 0) as [|C]; [unfold Rdiv; lra|].
    apply Rmult_le_reg_r with K; [lra|]. unfold Rdiv. rewrite Rmult_assoc, Rinv_l, Rmult_1_r by lra.
    apply Rle_trans with (v * g); [apply Rmult_le_compat_l; lra|lra]. }
  assert (W : - (/ 2 / K) <= v).
  { destruct (Rle_or_lt 0 v) as [|C]; [unfold Rdiv; lra|].
    apply Rmult_le_reg_r with K; [lra|]. unfold Rdiv. rewrite Ropp_mult_distr_l_reverse, Rmult_assoc, Rinv_l, Rmult_1_r by lra.
    apply Rle_trans with (v * g); [lra|]. apply Ropp_le_cancel. rewrite <- !Ropp_mult_distr_l_reverse. apply Rmult_le_compat_l; lra. }
  unfold v in U, W. lra.
Qed.

(** at least half of [K] times the width of the range of frequencies, up to rounding *)
Lemma trial_count (bld : build) (flog : R -> R) (fpow : R -> nat -> R) (alloc : nat -> list R) (allocz : nat -> list Z)
    (data : list R) (ws : list nat) (tsamp pmin pmax : R) (bmin bmax : nat) (P : list R) (B : list Z) (S : arr2 R) :
  let K := INR bmin * (INR (length data) * tsamp - 3 * pmax) in
  allocates alloc -> allocates allocz -> float_search flog fpow (length data) ws tsamp pmin pmax bmin bmax -> Forall single data ->
  py_periodogram (numF bld) flog fpow alloc allocz data tsamp ws pmin pmax bmin bmax = Ok (P, B, S) ->
  0 < K -> pmin <= pmax * (1 - / 2 ^ 40) ->
  K * (/ pmin - / (pmax * (1 - / 2 ^ 40))) <= 2 * INR (length P).
Proof.
  intros K Ha Hz HA HF E K0 HW.
  assert (P0 : 0 < pmin) by (destruct HA as (_ & _ & _ & _ & _ & _ & Hpm & _); lra).
  set (q := pmax * (1 - / 2 ^ 40)) in *.
  assert (IQ : / q <= / pmin) by (apply Rinv_le_contravar; lra). assert (Q0 : 0 < / q) by (apply Rinv_0_lt_compat; lra).
  assert (C : / pmin - / q <= INR (length P) * (2 / K)).
  { apply (cover_count (fun t => / nth t P 0 - 3 / 2 / K)); [exact IQ|].
    intros x [X1 X2]. destruct (near_trial bld flog fpow alloc allocz data ws tsamp pmin pmax bmin bmax P B S (/ x) Ha Hz HA HF E K0) as (t & Ht & Hl).
    { split.
      - rewrite <- (Rinv_inv pmin). apply Rinv_le_contravar; lra.
      - fold q. rewrite <- (Rinv_inv q). apply Rinv_le_contravar; lra. }
    exists t. split; [exact Ht|]. fold K in Hl. rewrite Rinv_inv in Hl. unfold Rdiv in *. lra. }
  apply Rmult_le_compat_l with (r := K) in C; [|lra].
  replace (K * (INR (length P) * (2 / K))) with (2 * INR (length P)) in C by (field; lra). exact C.
Qed.

(** ** the segments of a range *)
(** what is asked of a range of periods for data of length [T]: room between the periods, steps of frequency at most a quarter
    of a segment, at least four steps; numbers far from the limits of double precision *)
Definition segments_fit_rounded (T pmin pmax : R) (bmin : nat) (segwidth : R) : Prop :=
  let K := INR bmin * (T - 3 * pmax) in
  pmin * (1 + / 2 ^ 30) <= pmax /\ / 2 ^ 100 <= T <= 2 ^ 900 /\ segwidth <= 2 ^ 900 /\
  4 * T <= segwidth * K /\ 4 <= K * (/ pmin - / pmax).

Lemma last_nth_R (l : list R) : last l 0 = nth (length l - 1) l 0.
Proof.
  induction l as [|a l IH]; auto. destruct l as [|b l]; auto. change (last (a :: b :: l) 0) with (last (b :: l) 0). rewrite IH.
  cbn [length]. now rewrite !Nat.sub_succ, !Nat.sub_0_r.
Qed.

Lemma bpow_1000 : bpow radix2 (-1000) = / 2 ^ 1000.
Proof.
  change (bpow radix2 (-1000)) with (/ IZR (Z.pow_pos 2 1000)). f_equal. rewrite pow_IZR. reflexivity.
Qed.

Lemma segments_range (bld : build) (flog : R -> R) (fpow : R -> nat -> R) (alloc : nat -> list R) (allocz : nat -> list Z)
    (data : list R) (ws : list nat) (tsamp pmin pmax : R) (bmin bmax : nat) (segwidth : R) (P : list R) (B : list Z) (S : arr2 R) :
  allocates alloc -> allocates allocz -> float_search flog fpow (length data) ws tsamp pmin pmax bmin bmax -> Forall single data ->
  segments_fit_rounded (INR (length data) * tsamp) pmin pmax bmin segwidth ->
  py_periodogram (numF bld) flog fpow alloc allocz data tsamp ws pmin pmax bmin bmax = Ok (P, B, S) ->
  let freqs := map (fun p => rnd64 (1 / p)) P in
  let segments := rnd64 (Rabs (rnd64 (last freqs 0 - nth 0 freqs 0)) / rnd64 (segwidth / rnd64 (INR (length data) * tsamp))) in
  (0 < length P)%nat /\ 0 < segments <= INR (length P).
Proof.
  intros Ha Hz HA HF (W0 & [TL TU] & SU & C1 & C2) E freqs segments.
  set (T0 := INR (length data) * tsamp) in *. set (K := INR bmin * (T0 - 3 * pmax)) in *.
  pose proof HA as (_ & _ & _ & _ & _ & Ht & Hpm & _ & Hbm & _ & Hlong & Hsz & Hbz & _).
  assert (K30 : / 2 ^ 30 = / 1073741824) by (f_equal; rewrite pow_IZR; reflexivity).
  assert (K40 : / 2 ^ 40 = / 1099511627776) by (f_equal; rewrite pow_IZR; reflexivity).
  assert (K100 : 0 < / 2 ^ 100) by (apply Rinv_0_lt_compat, pow_lt; lra).
  pose proof u64_pos as U0. assert (U1 : u64 <= / 9007199254740991) by (unfold u64; lra).
  set (A := / pmin) in *. set (Bq := / pmax) in *.
  assert (A0 : 0 < A) by (apply Rinv_0_lt_compat; lra). assert (B0 : 0 < Bq) by (apply Rinv_0_lt_compat; lra).
  assert (AB : Bq * (1 + / 1073741824) <= A).
  { unfold A, Bq. apply Rmult_le_reg_r with (pmin * pmax); [apply Rmult_lt_0_compat; lra|].
    replace (/ pmax * (1 + / 1073741824) * (pmin * pmax)) with (pmin * (1 + / 1073741824)) by (field; lra).
    replace (/ pmin * (pmin * pmax)) with pmax by (field; lra). rewrite K30 in W0. lra. }
  set (D := A - Bq) in *. assert (DA : A <= D * 2147483648) by (unfold D; lra).
  assert (D0 : 0 < D) by lra.
  assert (eA : u64 * A <= D * / 1000000).
  { apply Rle_trans with (u64 * (D * 2147483648)); [apply Rmult_le_compat_l; lra|].
    replace (u64 * (D * 2147483648)) with (D * (u64 * 2147483648)) by ring. apply Rmult_le_compat_l; lra. }
  assert (uA0 : 0 < u64 * A) by (apply Rmult_lt_0_compat; lra).
  assert (uB : 0 < u64 * Bq <= u64 * A). { split; [apply Rmult_lt_0_compat; lra|]. apply Rmult_le_compat_l; unfold D in *; lra. }
  assert (uD : u64 * D <= D * / 1000000). { rewrite Rmult_comm. apply Rmult_le_compat_l; lra. }
  assert (uD0 : 0 < u64 * D) by (apply Rmult_lt_0_compat; lra).
  assert (K0 : 0 < K).
  { apply Rmult_lt_reg_r with D; [exact D0|]. rewrite Rmult_0_l. lra. }
  assert (B2 : 2 <= INR bmin) by (apply (le_INR 2); lia).
  assert (T1 : 0 < T0) by lra.
  assert (SW : 0 < segwidth).
  { apply Rmult_lt_reg_r with K; [exact K0|]. rewrite Rmult_0_l. lra. }
  (* the periods *)
  assert (W40 : pmin * (1 + / 2 ^ 40) <= pmax).
  { apply Rle_trans with (2 := W0). apply Rmult_le_compat_l; rewrite ?K30, ?K40; lra. }
  assert (W41 : pmin <= pmax * (1 - / 2 ^ 40)).
  { rewrite K40. rewrite K30 in W0. apply Rle_trans with (pmin * (1 + / 1073741824) * (1 - / 1099511627776)); [|apply Rmult_le_compat_r; lra].
    rewrite Rmult_assoc. rewrite <- (Rmult_1_r pmin) at 1. apply Rmult_le_compat_l; lra. }
  destruct (trial_periods_float bld flog fpow alloc allocz data ws tsamp pmin pmax bmin bmax Ha Hz HA W40 HF)
    as (P' & B' & S' & E' & _ & _ & Rng & Ord). rewrite E in E'. injection E' as <- <- <-.
  pose proof (trial_count bld flog fpow alloc allocz data ws tsamp pmin pmax bmin bmax P B S Ha Hz HA HF E K0 W41) as Cnt.
  set (q := pmax * (1 - / 2 ^ 40)) in *.
  assert (Hq : 0 < q) by lra.
  assert (IQ : / q <= Bq + D * / 200).
  { assert (X : / q = Bq * / (1 - / 2 ^ 40)) by (unfold q, Bq; apply Rinv_mult). rewrite X.
    apply Rle_trans with (Bq * (1 + / 549755813888)).
    - apply Rmult_le_compat_l; [lra|]. rewrite K40. lra.
    - assert (Bq * / 549755813888 <= A * / 549755813888) by (apply Rmult_le_compat_r; unfold D in *; lra). lra. }
  destruct (near_trial bld flog fpow alloc allocz data ws tsamp pmin pmax bmin bmax P B S pmin Ha Hz HA HF E K0) as (t0 & Ht0 & Lt0 & _).
  { fold q. lra. }
  destruct (near_trial bld flog fpow alloc allocz data ws tsamp pmin pmax bmin bmax P B S q Ha Hz HA HF E K0) as (t1 & Ht1 & _ & Lt1).
  { fold q. lra. }
  change (INR bmin * (INR (length data) * tsamp - 3 * pmax)) with K in Lt0, Lt1. change (/ pmin) with A in Lt0.
  assert (IK : / K <= D / 4).
  { apply Rmult_le_reg_l with K; [exact K0|]. rewrite Rinv_r by lra. unfold Rdiv. lra. }
  assert (IK0 : 0 < / K) by (apply Rinv_0_lt_compat; lra).
  set (n := length P) in *. assert (n1 : (0 < n)%nat) by lia.
  assert (E46 : / 2 ^ 46 = 128 * u64) by (unfold u64; lra). assert (E48 : / 2 ^ 48 = 32 * u64) by (unfold u64; lra).
  rewrite E48 in Rng. rewrite E46 in Ord.
  assert (PP : forall t, (t < n)%nat -> 0 < nth t P 0 /\ Bq * (1 - 32 * u64) <= / nth t P 0 <= A * (1 + 33 * u64)).
  { intros t Htn. destruct (Rng t Htn) as [R1 R2]. set (p := nth t P 0) in *.
    assert (Lp : 0 < pmin * (1 - 32 * u64)) by (apply Rmult_lt_0_compat; lra).
    assert (p0 : 0 < p) by lra. split; [exact p0|]. split.
    - apply Rmult_le_reg_r with p; [exact p0|]. rewrite Rinv_l by lra.
      apply Rle_trans with (Bq * (1 - 32 * u64) * (pmax * (1 + 32 * u64))); [apply Rmult_le_compat_l; [apply Rmult_le_pos; lra|exact R2]|].
      replace (Bq * (1 - 32 * u64) * (pmax * (1 + 32 * u64))) with ((1 - 32 * u64) * (1 + 32 * u64)) by (unfold Bq; field; lra).
      assert (0 <= u64 * u64) by (apply Rmult_le_pos; lra). lra.
    - apply Rmult_le_reg_r with p; [exact p0|]. rewrite Rinv_l by lra.
      apply Rle_trans with (A * (1 + 33 * u64) * (pmin * (1 - 32 * u64))); [|apply Rmult_le_compat_l; [apply Rmult_le_pos; lra|exact R1]].
      replace (A * (1 + 33 * u64) * (pmin * (1 - 32 * u64))) with ((1 + 33 * u64) * (1 - 32 * u64)) by (unfold A; field; lra).
      assert (u64 * u64 <= / 9007199254740991 * u64) by (apply Rmult_le_compat_r; lra). lra. }
  (* the first and the last *)
  assert (OR : forall t t', (t <= t' < n)%nat -> / nth t' P 0 <= / nth t P 0 * (1 + 128 * u64)).
  { intros t t' Htt. destruct (PP t ltac:(lia)) as [p0 _]. destruct (PP t' ltac:(lia)) as [p0' _].
    assert (O : nth t P 0 <= nth t' P 0 * (1 + 128 * u64)).
    { destruct (Nat.eq_dec t t') as [->|Ne]; [|apply Ord; unfold n in *; lia].
      rewrite <- (Rmult_1_r (nth t' P 0)) at 1. apply Rmult_le_compat_l; lra. }
    apply Rmult_le_reg_r with (nth t' P 0 * nth t P 0); [apply Rmult_lt_0_compat; lra|].
    replace (/ nth t' P 0 * (nth t' P 0 * nth t P 0)) with (nth t P 0) by (field; lra).
    replace (/ nth t P 0 * (1 + 128 * u64) * (nth t' P 0 * nth t P 0)) with (nth t' P 0 * (1 + 128 * u64)) by (field; lra). exact O. }
  set (F0 := / nth 0 P 0). set (Fl := / nth (n - 1) P 0).
  destruct (PP 0%nat ltac:(lia)) as (_ & L0 & U0'). destruct (PP (n - 1)%nat ltac:(lia)) as (_ & Ll & Ul). fold F0 in L0, U0'. fold Fl in Ll, Ul.
  assert (LF0 : A - D / 8 - 129 * (u64 * A) <= F0).
  { pose proof (OR 0%nat t0 ltac:(lia)) as O. fold F0 in O.
    assert (F0 * (1 + 128 * u64) <= F0 + 129 * (u64 * A)).
    { assert (F0 * (128 * u64) <= A * (1 + 33 * u64) * (128 * u64)) by (apply Rmult_le_compat_r; lra).
      assert (A * (1 + 33 * u64) * (128 * u64) <= 129 * (u64 * A)).
      { replace (A * (1 + 33 * u64) * (128 * u64)) with (u64 * A * ((1 + 33 * u64) * 128)) by ring.
        rewrite (Rmult_comm 129). apply Rmult_le_compat_l; lra. }
      lra. }
    unfold Rdiv in *. lra. }
  assert (UFl : Fl <= Bq + 2 / 5 * D).
  { pose proof (OR t1 (n - 1)%nat ltac:(lia)) as O. fold Fl in O.
    destruct (PP t1 Ht1) as (_ & _ & U3). 
    assert (/ nth t1 P 0 * (128 * u64) <= A * (1 + 33 * u64) * (128 * u64)) by (apply Rmult_le_compat_r; lra).
    assert (A * (1 + 33 * u64) * (128 * u64) <= 129 * (u64 * A)).
    { replace (A * (1 + 33 * u64) * (128 * u64)) with (u64 * A * ((1 + 33 * u64) * 128)) by ring.
      rewrite (Rmult_comm 129). apply Rmult_le_compat_l; lra. }
    unfold Rdiv in *. lra. }
  (* numbers large enough *)
  assert (TB : forall m, (m <= 1000)%nat -> bpow radix2 (-1000) <= / 2 ^ m).
  { intros m Hm. rewrite bpow_1000. apply Rinv_le_contravar; [apply pow_lt; lra|]. apply Rle_pow; [lra|exact Hm]. }
  assert (Big : / 2 ^ 901 <= Bq * (1 - 32 * u64)).
  { assert (PM : pmax <= 2 ^ 900). { unfold T0 in *. lra. }
    replace (2 ^ 901) with (2 ^ 900 * 2) by (replace 901%nat with (900 + 1)%nat by reflexivity; rewrite pow_add; ring).
    assert (X900 : 0 < 2 ^ 900) by (apply pow_lt; lra). set (big := 2 ^ 900) in *. clearbody big.
    rewrite Rinv_mult. assert (/ big <= Bq) by (unfold Bq; apply Rinv_le_contravar; lra).
    apply Rmult_le_compat; try lra. left. apply Rinv_0_lt_compat. exact X900. }
  assert (FR : forall t, (t < n)%nat -> rel64 (11 / 10) (nth t freqs 0) (/ nth t P 0)).
  { intros t Htn. unfold freqs. rewrite (nth_indep _ 0 (rnd64 (1 / 0))) by (now rewrite map_length).
    rewrite (map_nth (fun p => rnd64 (1 / p))). destruct (PP t Htn) as (p0 & L1 & _).
    replace (1 / nth t P 0) with (/ nth t P 0) by (field; lra).
    replace (11 / 10) with (0 + 1 + / 10) by lra. apply rel64_rnd; [lra| |apply rel64_exact; lra].
    apply Rle_trans with (/ 2 ^ 901); [apply TB; lia|lra]. }
  assert (EL : last freqs 0 = nth (n - 1) freqs 0) by (unfold n; rewrite last_nth_R; unfold freqs; now rewrite map_length).
  pose proof (FR 0%nat ltac:(lia)) as R0. pose proof (FR (n - 1)%nat ltac:(lia)) as Rl. fold F0 in R0. fold Fl in Rl.
  apply rel64_bounds in R0, Rl. unfold segments. rewrite EL.
  set (f0 := nth 0 freqs 0) in *. set (fl := nth (n - 1) freqs 0) in *.
  assert (uF0 : 0 <= u64 * F0 <= 2 * (u64 * A)).
  { split; [apply Rmult_le_pos; lra|]. apply Rle_trans with (u64 * (A * (1 + 33 * u64))); [apply Rmult_le_compat_l; lra|].
    replace (u64 * (A * (1 + 33 * u64))) with (u64 * A * (1 + 33 * u64)) by ring. rewrite (Rmult_comm 2). apply Rmult_le_compat_l; lra. }
  assert (uFl : 0 <= u64 * Fl <= 2 * (u64 * A)).
  { split; [apply Rmult_le_pos; lra|]. apply Rle_trans with (u64 * (A * (1 + 33 * u64))); [apply Rmult_le_compat_l; lra|].
    replace (u64 * (A * (1 + 33 * u64))) with (u64 * A * (1 + 33 * u64)) by ring. rewrite (Rmult_comm 2). apply Rmult_le_compat_l; lra. }
  set (d := f0 - fl).
  assert (d1 : D / 8 <= d). { unfold d, D in *. unfold Rdiv in *. lra. }
  assert (d2 : d <= D * (1001 / 1000)). { unfold d, D in *. unfold Rdiv in *. lra. }
  assert (AT : 2 <= A * T0).
  { apply Rle_trans with (Bq * T0); [|apply Rmult_le_compat_r; [lra|unfold D in *; lra]].
    apply Rmult_le_reg_l with pmax; [lra|]. replace (pmax * (Bq * T0)) with T0 by (unfold Bq; field; lra). unfold T0 in *. lra. }
  assert (X900 : 0 < 2 ^ 900) by (apply pow_lt; lra).
  assert (dT : / 2 ^ 34 <= d * T0).
  { assert (E34 : / 2 ^ 34 = / 17179869184) by (f_equal; rewrite pow_IZR; reflexivity). rewrite E34.
    assert (A * T0 <= D * 2147483648 * T0) by (apply Rmult_le_compat_r; lra).
    assert (D / 8 * T0 <= d * T0) by (apply Rmult_le_compat_r; lra). lra. }
  assert (dB : bpow radix2 (-1000) <= d).
  { apply Rle_trans with (/ 2 ^ 935); [apply TB; lia|].
    replace (2 ^ 935) with (2 ^ 34 * 2 * 2 ^ 900) by (change 935%nat with (34 + 1 + 900)%nat; rewrite !pow_add; ring).
    rewrite Rinv_mult. apply Rmult_le_reg_r with (2 ^ 900); [exact X900|]. rewrite Rmult_assoc, Rinv_l by lra. rewrite Rmult_1_r.
    apply Rle_trans with (d * T0); [|apply Rmult_le_compat_l; lra]. apply Rle_trans with (2 := dT).
    apply Rinv_le_contravar; [apply pow_lt; lra|]. assert (0 < 2 ^ 34) by (apply pow_lt; lra). lra. }
  assert (ED : Rabs (rnd64 (fl - f0)) = rnd64 d).
  { replace (fl - f0) with (- d) by (unfold d; ring).
    assert (On : rnd64 (- d) = - rnd64 d) by apply round_NE_opp.
    rewrite On, Rabs_Ropp, Rabs_pos_eq; [reflexivity|]. apply rnd64_nonneg. lra. }
  rewrite ED.
  assert (RD : rel64 (11 / 10) (rnd64 d) d).
  { replace (11 / 10) with (0 + 1 + / 10) by lra. apply rel64_rnd; [lra|exact dB|apply rel64_exact; lra]. }
  assert (RT : rel64 (11 / 10) (rnd64 T0) T0).
  { replace (11 / 10) with (0 + 1 + / 10) by lra. apply rel64_rnd; [lra| |apply rel64_exact; lra].
    apply Rle_trans with (/ 2 ^ 100); [apply TB; lia|exact TL]. }
  assert (KT : K <= 4194304 * T0).
  { unfold K. apply Rle_trans with (INR bmin * T0); [apply Rmult_le_compat_l; lra|]. apply Rmult_le_compat_r; [lra|].
    rewrite INR_IZR_INZ. apply IZR_le. lia. }
  assert (SL : 4 / 4194304 <= segwidth).
  { apply Rmult_le_reg_r with (4194304 * T0); [lra|]. apply Rle_trans with (segwidth * K); [unfold Rdiv; lra|]. apply Rmult_le_compat_l; lra. }
  assert (WB : bpow radix2 (-1000) <= segwidth / T0).
  { apply Rle_trans with (/ 2 ^ 920); [apply TB; lia|].
    replace (2 ^ 920) with (2 ^ 20 * 2 ^ 900) by (change 920%nat with (20 + 900)%nat; now rewrite pow_add).
    rewrite Rinv_mult. unfold Rdiv. apply Rmult_le_compat.
    - left. apply Rinv_0_lt_compat, pow_lt. lra.
    - left. now apply Rinv_0_lt_compat.
    - replace (2 ^ 20) with 1048576 by (rewrite pow_IZR; reflexivity). lra.
    - apply Rinv_le_contravar; lra. }
  assert (RW : rel64 (23 / 10) (rnd64 (segwidth / rnd64 T0)) (segwidth / T0)).
  { replace (23 / 10) with (12 / 10 + 1 + / 10) by lra. apply rel64_rnd; [lra|exact WB|].
    replace (12 / 10) with (0 + 11 / 10 + / 10) by lra. apply rel64_div; try lra; [apply rel64_exact; lra|exact RT]. }
  assert (W1 : 0 < segwidth / T0) by (apply Rdiv_lt_0_compat; lra).
  set (z := d / (segwidth / T0)). assert (Ez : z = d * T0 / segwidth) by (unfold z; field; lra).
  assert (ZB : bpow radix2 (-1000) <= z).
  { apply Rle_trans with (/ 2 ^ 934); [apply TB; lia|].
    replace (2 ^ 934) with (2 ^ 34 * 2 ^ 900) by (change 934%nat with (34 + 900)%nat; now rewrite pow_add).
    rewrite Ez, Rinv_mult. unfold Rdiv. apply Rmult_le_compat.
    - left. apply Rinv_0_lt_compat, pow_lt. lra.
    - left. now apply Rinv_0_lt_compat.
    - exact dT.
    - apply Rinv_le_contravar; lra. }
  assert (RZ : rel64 (46 / 10) (rnd64 (rnd64 d / rnd64 (segwidth / rnd64 T0))) z).
  { replace (46 / 10) with (35 / 10 + 1 + / 10) by lra. apply rel64_rnd; [lra|exact ZB|].
    replace (35 / 10) with (11 / 10 + 23 / 10 + / 10) by lra. unfold z. apply rel64_div; try lra; assumption. }
  apply rel64_bounds in RZ. set (sg := rnd64 (rnd64 d / rnd64 (segwidth / rnd64 T0))) in *.
  assert (Z0 : 0 < z) by (pose proof (bpow_gt_0 radix2 (-1000)); lra).
  split; [exact n1|]. split.
  - apply Rlt_le_trans with (2 := proj1 RZ). apply Rmult_lt_0_compat; lra.
  - apply Rle_trans with (1 := proj2 RZ). apply Rle_trans with (z * (1001 / 1000)); [apply Rmult_le_compat_l; lra|].
    assert (Zu : z <= K * D * (1001 / 4000)).
    { rewrite Ez. apply Rmult_le_reg_r with segwidth; [exact SW|]. unfold Rdiv at 1. rewrite Rmult_assoc, Rinv_l, Rmult_1_r by lra.
      apply Rle_trans with (D * (1001 / 1000) * T0); [apply Rmult_le_compat_r; lra|].
      replace (D * (1001 / 1000) * T0) with (D * (1001 / 4000) * (4 * T0)) by field.
      replace (K * D * (1001 / 4000) * segwidth) with (D * (1001 / 4000) * (segwidth * K)) by field.
      apply Rmult_le_compat_l; [apply Rmult_le_pos; lra|exact C1]. }
    assert (Cn : K * D * (199 / 200) <= 2 * INR n).
    { apply Rle_trans with (2 := Cnt). change (K * (D * (199 / 200)) <= K * (A - / q)) || (replace (K * D * (199 / 200)) with (K * (D * (199 / 200))) by ring; change (K * (D * (199 / 200)) <= K * (A - / q))).
      apply Rmult_le_compat_l; [now left|]. unfold D in *. lra. }
    assert (0 < K * D) by (apply Rmult_lt_0_compat; lra). lra.
Qed.
