(** C94, C95, C96: synthetic time series. *)
From Coq Require Import String List Arith ZArith Bool Lia Reals Lra Psatz.
From Flocq Require Import Core.
From Verif Require Import Base.Result Base.Num Model.Metadata Model.TimeSeries Model.Sigproc Model.Worker Model.Signal
  Spec.Sums Spec.Pulse Proof.SumOrder Proof.TimeSeries Props.Sigproc Props.Worker.
Import ListNotations.
Local Open Scope R_scope.

(** ** The von Mises pulse *)
Lemma cos_turns (x : R) (k : Z) : cos (x + 2 * PI * IZR k) = cos x.
Proof.
  destruct (Z_le_gt_dec 0 k) as [H|H].
  - rewrite <- (Z2Nat.id k) by lia. rewrite <- INR_IZR_INZ.
    replace (x + 2 * PI * INR (Z.to_nat k)) with (x + 2 * INR (Z.to_nat k) * PI) by ring. apply cos_period.
  - rewrite <- (cos_period (x + 2 * PI * IZR k) (Z.to_nat (- k))). f_equal.
    rewrite INR_IZR_INZ, Z2Nat.id, opp_IZR by lia. ring.
Qed.

Lemma cos_abs (x : R) : cos (Rabs x) = cos x.
Proof. unfold Rabs. destruct (Rcase_abs x); auto. apply cos_neg. Qed.

(** the pulse repeats at every turn and falls on both sides of its centre; what is at least half
    as high as the peak is exactly the phases within half the duty cycle of a centre *)
Theorem von_mises_shape : forall (ducy : R) (v : R -> R), 0 < ducy <= 1 -> von_mises ducy v ->
  v 0 = 1 /\ (forall u, 0 < v u <= 1) /\ (forall u (k : Z), v (u + IZR k) = v u) /\ (forall u, v (- u) = v u) /\
  (forall u w, 0 <= u -> u < w -> w <= / 2 -> v w < v u) /\
  (forall u, / 2 <= v u <-> within_phase u (ducy / 2)).
Proof.
  intros ducy v Hd (kappa & K & V & H). pose proof PI_RGT_0 as P.
  assert (V0 : v 0 = 1) by (rewrite V, Rmult_0_r, cos_0, Rminus_diag_eq, Rmult_0_r, exp_0; auto).
  assert (Per : forall u (k : Z), v (u + IZR k) = v u).
  { intros u k. rewrite !V. replace (2 * PI * (u + IZR k)) with (2 * PI * u + 2 * PI * IZR k) by ring.
    now rewrite cos_turns. }
  assert (Even : forall u, v (- u) = v u).
  { intros u. rewrite !V. replace (2 * PI * - u) with (- (2 * PI * u)) by ring. now rewrite cos_neg. }
  assert (Dec : forall u w, 0 <= u -> u < w -> w <= / 2 -> v w < v u).
  { intros u w U0 UW W. rewrite !V. apply exp_increasing. apply Rmult_lt_compat_l; auto.
    assert (cos (2 * PI * w) < cos (2 * PI * u)); [|lra].
    apply cos_decreasing_1; nra. }
  assert (Abs : forall u, v (Rabs u) = v u).
  { intros u. unfold Rabs. destruct (Rcase_abs u); auto. }
  split; [exact V0|]. split.
  { intros u. rewrite V. split; [apply exp_pos|].
    destruct (Rle_lt_or_eq_dec (kappa * (cos (2 * PI * u) - 1)) 0) as [L|E]; [pose proof (COS_bound (2 * PI * u)); nra| |].
    - pose proof (exp_increasing _ _ L) as G. rewrite exp_0 in G. lra.
    - right. rewrite E. apply exp_0. }
  split; [exact Per|]. split; [exact Even|]. split; [exact Dec|].
  assert (Mono : forall a, 0 <= a <= / 2 -> (/ 2 <= v a <-> a <= ducy / 2)).
  { intros a Ha. split; intros G.
    - destruct (Rle_lt_dec a (ducy / 2)) as [L|L]; auto. exfalso.
      pose proof (Dec (ducy / 2) a ltac:(lra) L ltac:(lra)). lra.
    - destruct (Rle_lt_or_eq_dec _ _ G) as [L|E]; [|rewrite E; lra].
      pose proof (Dec a (ducy / 2) ltac:(lra) L ltac:(lra)). lra. }
  intros u. split.
  - intros G. exists (ZnearestE u).
    assert (Rabs (u - IZR (ZnearestE u)) <= / 2) as N by apply Znearest_half.
    apply Mono; [split; [apply Rabs_pos|lra]|]. rewrite Abs.
    replace (u - IZR (ZnearestE u)) with (u + IZR (- ZnearestE u)) by (rewrite opp_IZR; ring). now rewrite Per.
  - intros (k & L). apply Mono in L; [|split; [apply Rabs_pos|lra]]. rewrite Abs in L.
    replace (u - IZR k) with (u + IZR (- k)) in L by (rewrite opp_IZR; ring). now rewrite Per in L.
Qed.
Print Assumptions von_mises_shape.

(** the shape is determined by the duty cycle *)
Theorem von_mises_unique : forall (ducy : R) (v w : R -> R), 0 < ducy <= 1 ->
  von_mises ducy v -> von_mises ducy w -> forall u, v u = w u.
Proof.
  intros ducy v w Hd (k & K & V & H) (k' & K' & W & H') u. rewrite V, W. do 2 f_equal.
  rewrite V in H. rewrite W in H'. rewrite <- H' in H. apply exp_inv in H.
  pose proof PI_RGT_0 as P.
  assert (C : cos (2 * PI * (ducy / 2)) < cos 0) by (apply cos_decreasing_1; nra). rewrite cos_0 in C.
  apply Rmult_eq_reg_r in H; auto. lra.
Qed.
Print Assumptions von_mises_unique.

(** ** libffa.generate_signal *)
Lemma sum_squares_R (x : list R) : sum_squares numR x = rsum (length x) (fun i => nth i x 0 ^ 2).
Proof.
  unfold sum_squares. rewrite <- (map_map (fun v => o_mul (@n_dbl numR) v v) Val).
  etransitivity; [exact (exact_sum_list (map (fun v => v * v) x))|]. rewrite map_length.
  apply rsum_ext. intros i Hi. rewrite (nth_indep _ 0 ((fun v => v * v) 0)) by now rewrite map_length.
  rewrite (map_nth (fun v => v * v)). ring.
Qed.

Lemma nth_map_seq (f : nat -> R) n i : (i < n)%nat -> nth i (map f (seq 0 n)) 0 = f i.
Proof.
  intros H. rewrite (nth_indep _ 0 (f 0%nat)) by (now rewrite map_length, seq_length).
  rewrite map_nth, seq_nth by auto. reflexivity.
Qed.

Lemma vm_kappa_R ducy : 0 < ducy < 2 -> exists kappa, vm_kappa numR ln sin PI ducy = kappa /\ 0 < kappa /\
  exp (kappa * (cos (PI * ducy) - 1)) = / 2.
Proof.
  intros Hd. exists (vm_kappa numR ln sin PI ducy). split; [reflexivity|]. unfold vm_kappa. rsimp.
  set (s := sin (PI * ducy / 2)). pose proof PI_RGT_0 as P.
  assert (S0 : 0 < s) by (apply sin_gt_0; nra).
  assert (L2 : 0 < ln 2) by (rewrite <- ln_1; apply ln_increasing; lra).
  assert (S2 : 0 < s * s) by (apply Rmult_lt_0_compat; auto).
  split; [apply Rdiv_lt_0_compat; lra|].
  replace (PI * ducy) with (2 * (PI * ducy / 2)) by field. rewrite cos_2a_sin. fold s.
  replace (ln 2 / (2 * (s * s)) * (1 - 2 * s * s - 1)) with (- ln 2) by (field; lra).
  rewrite exp_Ropp, exp_ln; lra.
Qed.

Lemma Rpower_half s : 0 < s -> Rpower s (-1 / 2) * Rpower s (-1 / 2) * s = 1.
Proof.
  intros H. rewrite <- Rpower_plus. replace (-1 / 2 + -1 / 2) with (- (1)) by lra.
  rewrite Rpower_Ropp, Rpower_1 by auto. field. lra.
Qed.

(** the signal before the noise: a train of von Mises pulses with the right period, phase, width
    and sum of squares *)
Definition pulse_train (n : nat) (period phi0 ducy amplitude : R) (s : list R) : Prop :=
  length s = n /\ rsum n (fun i => nth i s 0 ^ 2) = amplitude ^ 2 /\
  exists v c, von_mises ducy v /\ 0 < c /\
    forall i, (i < n)%nat -> nth i s 0 = c * amplitude * v (INR i / period - phi0).

Lemma generate_train nsamp period phi0 ducy amplitude : (0 < nsamp)%Z -> 0 < ducy < 2 ->
  exists s, pulse_train (Z.to_nat nsamp) period phi0 ducy amplitude s /\ forall normal stdnoise,
    let generate := generate_signal numR ln sin cos exp Rpower PI normal in
    (stdnoise <= 0 -> generate nsamp period phi0 ducy amplitude stdnoise = Ok s) /\
    (0 < stdnoise -> length (normal (Z.to_nat nsamp) stdnoise) = Z.to_nat nsamp ->
     generate nsamp period phi0 ducy amplitude stdnoise
     = Ok (map (fun i => nth i s 0 + nth i (normal (Z.to_nat nsamp) stdnoise) 0) (seq 0 (Z.to_nat nsamp)))).
Proof.
  intros Hn Hd. destruct (vm_kappa_R ducy Hd) as (kappa & EK & K0 & KH).
  set (n := Z.to_nat nsamp).
  set (v := fun u => exp (kappa * (cos (2 * PI * u) - 1))).
  set (g := map (fun i => v (INR i / period - phi0)) (seq 0 n)).
  set (S := rsum n (fun i => nth i g 0 ^ 2)).
  set (c := Rpower S (-1 / 2)).
  assert (Lg : length g = n) by (unfold g; now rewrite map_length, seq_length).
  assert (S0 : 0 < S).
  { unfold S. replace n with (Datatypes.S (n - 1)) by lia. rewrite rsum_first.
    assert (0 < nth 0 g 0) by (unfold g; rewrite nth_map_seq by lia; apply exp_pos).
    assert (0 <= rsum (n - 1) (fun i => nth (Datatypes.S i) g 0 ^ 2)); [apply rsum_nonneg; intros; nra|nra]. }
  assert (C0 : 0 < c) by apply exp_pos.
  set (s := map (fun i => c * amplitude * v (INR i / period - phi0)) (seq 0 n)).
  assert (Ls : length s = n) by (unfold s; now rewrite map_length, seq_length).
  assert (Es : map (fun v0 : R => v0 * (amplitude * Rpower (sum_squares numR g) (-1 / 2))) g = s).
  { rewrite sum_squares_R. numR_ty. rewrite Lg. fold S. fold c. unfold g, s. rewrite map_map. apply map_ext.
    intros i. ring. }
  assert (EG : map (fun i : nat => vm_pulse numR cos exp (vm_kappa numR ln sin PI ducy) (vm_phase numR PI period phi0 i)) (seq 0 n) = g).
  { unfold g. apply map_ext. intros i. rewrite EK. unfold vm_pulse, vm_phase, v. rsimp. rewrite <- INR_IZR_INZ.
    do 3 f_equal. f_equal. numR_ty. ring. }
  exists s. split; [|intros normal stdnoise; split].
  - split; [exact Ls|]. split.
    + rewrite (rsum_ext _ _ (fun i => (c * amplitude) ^ 2 * nth i g 0 ^ 2)).
      * rewrite rsum_scal. fold S. pose proof (Rpower_half S S0) as Q. fold c in Q.
        transitivity (amplitude ^ 2 * (c * c * S)); [ring|]. rewrite Q. ring.
      * intros i Hi. unfold s, g. rewrite !nth_map_seq by auto. ring.
    + exists v, c. split; [|split; [exact C0|]].
      * exists kappa. split; [exact K0|]. split; [reflexivity|]. unfold v.
        replace (2 * PI * (ducy / 2)) with (PI * ducy) by field. exact KH.
      * intros i Hi. unfold s. now rewrite nth_map_seq.
  - intros Hs. unfold generate_signal. fold n. rsimp. rewrite Rlt_bool_false by auto.
    revert EG Es. rsimp. numR_ty. intros -> ->. f_equal. rewrite <- (map_id s) at 2. apply map_ext. intros a. rsimp. ring.
  - intros Hs Ln. unfold generate_signal. fold n. rsimp. rewrite Rlt_bool_true by auto.
    rewrite (proj2 (Z.leb_le 0 nsamp)) by lia. cbn [guard bind].
    revert EG Es. rsimp. numR_ty. intros -> ->. f_equal. fold n in Ln. set (z := normal n stdnoise) in *.
    apply (nth_ext _ _ 0 0).
    + rewrite !map_length, combine_length, seq_length. numR_ty. lia.
    + intros i Hi. rewrite map_length, combine_length in Hi. numR_ty.
      rewrite nth_map_seq by lia.
      rewrite (nth_indep _ 0 ((fun p : R * R => fst p + snd p) (0, 0))) by (rewrite map_length, combine_length; numR_ty; lia).
      etransitivity; [apply (map_nth (fun p : R * R => fst p + snd p) (combine s z) (0, 0) i)|].
      rewrite combine_nth by lia. reflexivity.
Qed.

Section Signal.
Context (normal : nat -> R -> list R).
Notation generate := (generate_signal numR ln sin cos exp Rpower PI normal).

(** C94.  Without noise, [nsamp] samples of pulses with the requested period, phase and duty
    cycle; the root of the sum of their squares is the amplitude. *)
Theorem generate_signal_correct : forall nsamp period phi0 ducy amplitude stdnoise,
  (0 < nsamp)%Z -> 0 < ducy < 2 -> stdnoise <= 0 ->
  exists s, generate nsamp period phi0 ducy amplitude stdnoise = Ok s /\
    pulse_train (Z.to_nat nsamp) period phi0 ducy amplitude s.
Proof.
  intros nsamp period phi0 ducy amplitude stdnoise Hn Hd Hs.
  destruct (generate_train nsamp period phi0 ducy amplitude Hn Hd) as (s & P & E). exists s. split; [|exact P].
  now apply (E normal stdnoise).
Qed.

(** a pulse train is determined by its description *)
Theorem pulse_train_unique : forall n period phi0 ducy amplitude s s', 0 < ducy <= 1 ->
  pulse_train n period phi0 ducy amplitude s -> pulse_train n period phi0 ducy amplitude s' -> s = s'.
Proof.
  intros n period phi0 ducy amplitude s s' Hd (L & Q & v & c & V & C & H) (L' & Q' & v' & c' & V' & C' & H').
  pose proof (von_mises_unique ducy v v' Hd V V') as EV.
  destruct (Nat.eq_dec n 0) as [N0|N0]; [subst n; destruct s, s'; auto; discriminate|].
  destruct (Req_dec amplitude 0) as [A0|A0].
  { apply (nth_ext _ _ 0 0); [congruence|]. intros i Hi. rewrite H, H' by lia. rewrite A0. ring. }
  set (S := rsum n (fun i => v (INR i / period - phi0) ^ 2)).
  assert (S0 : 0 < S).
  { unfold S. replace n with (Datatypes.S (n - 1)) by lia. rewrite rsum_first.
    destruct (von_mises_shape ducy v Hd V) as (_ & B & _). pose proof (B (INR 0 / period - phi0)).
    assert (0 <= rsum (n - 1) (fun i => v (INR (Datatypes.S i) / period - phi0) ^ 2)); [apply rsum_nonneg; intros; nra|nra]. }
  assert (E1 : (c * amplitude) ^ 2 * S = amplitude ^ 2).
  { rewrite <- Q. unfold S. rewrite <- rsum_scal. apply rsum_ext. intros i Hi. rewrite H by auto. ring. }
  assert (E2 : (c' * amplitude) ^ 2 * S = amplitude ^ 2).
  { rewrite <- Q'. unfold S. rewrite <- rsum_scal. apply rsum_ext. intros i Hi. rewrite H', EV by auto. ring. }
  assert (Ec : c = c').
  { assert (A2 : 0 < amplitude ^ 2) by nra.
    assert ((c * c - c' * c') * (amplitude ^ 2 * S) = 0) as Z0 by nra.
    apply Rmult_integral in Z0 as [Z0|Z0]; [|nra]. assert ((c - c') * (c + c') = 0) as Z1 by lra.
    apply Rmult_integral in Z1 as [Z1|Z1]; lra. }
  subst c'. apply (nth_ext _ _ 0 0); [congruence|]. intros i Hi. rewrite H, H', EV by lia. reflexivity.
Qed.

(** the samples repeat with a whole period *)
Theorem pulse_train_periodic : forall n p phi0 ducy amplitude s, (0 < p)%nat -> 0 < ducy <= 1 ->
  pulse_train n (INR p) phi0 ducy amplitude s ->
  forall i, (i + p < n)%nat -> nth (i + p) s 0 = nth i s 0.
Proof.
  intros n p phi0 ducy amplitude s Hp Hd (L & Q & v & c & V & C & H) i Hi.
  destruct (von_mises_shape ducy v Hd V) as (_ & _ & Per & _). rewrite !H by lia. f_equal.
  rewrite <- (Per (INR i / INR p - phi0) 1%Z). f_equal. rewrite plus_INR. field. apply not_0_INR. lia.
Qed.
End Signal.
Print Assumptions generate_signal_correct.
Print Assumptions pulse_train_unique.
Print Assumptions pulse_train_periodic.

(** 256 samples, period 64 samples, duty cycle 1/4: 256 is a whole number of periods *)
Example generate_signal_ex : (0 < 256)%Z /\ 0 < / 4 <= 1 /\ 0 <= 0.
Proof. lra || (split; [lia|lra]). Qed.

(** ** The S/N of a generated signal *)
Lemma rsum_single n i (c : R) : (i < n)%nat -> rsum n (fun j => if Nat.eqb i j then c else 0) = c.
Proof.
  induction n as [|n IH]; intros H; [lia|]. cbn [rsum].
  change (rsum n (fun j => if Nat.eqb i j then c else 0) + (if Nat.eqb i n then c else 0) = c).
  destruct (Nat.eqb_spec i n) as [->|E]; [|rewrite IH by lia; ring].
  rewrite (rsum_ext _ _ (fun _ => 0)); [rewrite rsum_0; ring|]. intros j Hj. destruct (Nat.eqb_spec n j); [lia|auto].
Qed.

Lemma expectation_sum {W} (E : (W -> R) -> R) n (a : nat -> R) (X : W -> nat -> R) : expectation E ->
  E (fun o => rsum n (fun i => a i * X o i)) = rsum n (fun i => a i * E (fun o => X o i)).
Proof.
  intros (Ext & Lin & Cst). induction n as [|n IH]; [exact (Cst 0)|].
  change (rsum (S n) (fun i => a i * E (fun o => X o i))) with (rsum n (fun i => a i * E (fun o => X o i)) + a n * E (fun o => X o n)).
  rewrite (Ext _ (fun o => 1 * rsum n (fun i => a i * X o i) + a n * X o n)) by (intros; cbn [rsum]; ring).
  rewrite Lin, IH. ring.
Qed.

(** C95.  The template of the reference paper: the signal itself with unit sum of squares.  For
    white noise of standard deviation [stdnoise], the response of the data to it has expectation
    [amplitude] and standard deviation [stdnoise]. *)
Theorem generate_signal_snr :
  forall (W : Type) (E : (W -> R) -> R) (draw : W -> nat -> R -> list R)
    (nsamp : Z) (period phi0 ducy amplitude stdnoise : R),
  expectation E -> (0 < nsamp)%Z -> 0 < ducy < 2 -> 0 < amplitude -> 0 < stdnoise ->
  let n := Z.to_nat nsamp in
  (forall o, length (draw o n stdnoise) = n) ->
  white_noise E n stdnoise (fun o i => nth i (draw o n stdnoise) 0) ->
  exists (s t : list R) (x : W -> list R),
    pulse_train n period phi0 ducy amplitude s /\
    t = map (fun v => v / amplitude) s /\ rsum n (fun i => nth i t 0 ^ 2) = 1 /\
    (forall o, generate_signal numR ln sin cos exp Rpower PI (draw o) nsamp period phi0 ducy amplitude stdnoise = Ok (x o)) /\
    (forall o, length (x o) = n) /\
    let response o := rsum n (fun i => nth i (x o) 0 * nth i t 0) in
    E response = amplitude /\ E (fun o => (response o - amplitude) ^ 2) = stdnoise ^ 2.
Proof.
  intros W E draw nsamp period phi0 ducy amplitude stdnoise HE Hn Hd HA HS n HL (Z1 & Z2).
  destruct (generate_train nsamp period phi0 ducy amplitude Hn Hd) as (s & P & G). fold n in G, P.
  pose proof P as (Ls & Q & _).
  set (t := map (fun v => v / amplitude) s).
  set (z := fun o i => nth i (draw o n stdnoise) 0) in *.
  change (forall i, (i < n)%nat -> E (fun o => z o i) = 0) in Z1.
  change (forall i j, (i < n)%nat -> (j < n)%nat -> E (fun o => z o i * z o j) = if Nat.eqb i j then stdnoise ^ 2 else 0) in Z2.
  exists s, t, (fun o => map (fun i => nth i s 0 + z o i) (seq 0 n)).
  assert (Nt : forall i, (i < n)%nat -> nth i t 0 = nth i s 0 / amplitude).
  { intros i Hi. unfold t. rewrite (nth_indep _ 0 (0 / amplitude)) by (rewrite map_length; lia).
    now rewrite (map_nth (fun v => v / amplitude)). }
  assert (T1 : rsum n (fun i => nth i t 0 ^ 2) = 1).
  { rewrite (rsum_ext _ _ (fun i => / amplitude ^ 2 * nth i s 0 ^ 2)) by (intros i Hi; rewrite Nt by auto; field; lra).
    rewrite rsum_scal, Q. field. lra. }
  split; [exact P|]. split; [reflexivity|]. split; [exact T1|].
  split. { intros o. destruct (G (draw o) stdnoise) as [_ K]. apply K; auto. }
  split. { intros o. now rewrite map_length, seq_length. }
  cbv zeta.
  assert (ER : forall o, rsum n (fun i => nth i (map (fun i0 => nth i0 s 0 + z o i0) (seq 0 n)) 0 * nth i t 0)
    = amplitude + rsum n (fun i => nth i t 0 * z o i)).
  { intros o. rewrite (rsum_ext _ _ (fun i => / amplitude * nth i s 0 ^ 2 + nth i t 0 * z o i)).
    - rewrite rsum_plus, rsum_scal, Q. f_equal. field. lra.
    - intros i Hi. rewrite nth_map_seq, Nt by auto. field. lra. }
  pose proof HE as (Ext & Lin & Cst). split.
  - rewrite (Ext _ _ ER).
    rewrite (Ext _ (fun o => 1 * amplitude + 1 * rsum n (fun i => nth i t 0 * z o i))) by (intros; ring).
    rewrite Lin, Cst, (expectation_sum E n (fun i => nth i t 0) z HE).
    rewrite (rsum_ext _ _ (fun _ => 0)) by (intros i Hi; rewrite Z1 by auto; ring). rewrite rsum_0. ring.
  - rewrite (Ext _ (fun o => rsum n (fun i => nth i t 0 * rsum n (fun j => nth j t 0 * (z o i * z o j))))).
    2:{ intros o. rewrite ER.
        transitivity (rsum n (fun i => nth i t 0 * z o i) * rsum n (fun i => nth i t 0 * z o i)); [ring|].
        rewrite <- rsum_scal. apply rsum_ext. intros i Hi. 
        rewrite (rsum_ext _ (fun j => nth j t 0 * (z o i * z o j)) (fun j => z o i * (nth j t 0 * z o j))) by (intros; ring).
        rewrite rsum_scal. ring. }
    rewrite (expectation_sum E n (fun i => nth i t 0) (fun o i => rsum n (fun j => nth j t 0 * (z o i * z o j))) HE).
    rewrite (rsum_ext _ _ (fun i => stdnoise ^ 2 * nth i t 0 ^ 2)); [rewrite rsum_scal, T1; ring|].
    intros i Hi. rewrite (expectation_sum E n (fun j => nth j t 0) (fun o j => z o i * z o j) HE).
    rewrite (rsum_ext _ _ (fun j => if Nat.eqb i j then stdnoise ^ 2 * nth i t 0 else 0)).
    + rewrite rsum_single by auto. ring.
    + intros j Hj. rewrite Z2 by auto. destruct (Nat.eqb_spec i j); [subst; ring|ring].
Qed.
Print Assumptions generate_signal_snr.

(** two samples, each plus or minus the standard deviation, all four cases equally likely *)
Definition coins (X : bool * bool -> R) : R :=
  (X (true, true) + X (true, false) + X (false, true) + X (false, false)) / 4.
Definition toss (o : bool * bool) (n : nat) (sd : R) : list R :=
  [if fst o then sd else - sd; if snd o then sd else - sd].
Example generate_signal_snr_ex : expectation coins /\ (0 < 2)%Z /\ 0 < / 4 < 2 /\
  (forall o, length (toss o (Z.to_nat 2) 3) = Z.to_nat 2) /\
  white_noise coins (Z.to_nat 2) 3 (fun o i => nth i (toss o (Z.to_nat 2) 3) 0).
Proof.
  split; [|split; [lia|split; [lra|split; [reflexivity|]]]].
  - unfold coins. split; [|split]; intros; [rewrite !H; reflexivity|lra|lra].
  - change (Z.to_nat 2) with 2%nat. unfold coins, toss.
    split; [intros [|[|i]] Hi|intros [|[|i]] [|[|j]] Hi Hj]; try lia; cbn; lra.
Qed.

(** ** TimeSeries.generate *)
Definition fake_metadata (tobs period phi0 ducy : R) (md : metadata numR) : Prop :=
  md_get "source_name" md = Some (MStr "fake") /\ md_get "signal_shape" md = Some (MStr "Von Mises") /\
  md_get "signal_period" md = Some (MFloat (N := numR) period) /\
  md_get "signal_initial_phase" md = Some (MFloat (N := numR) phi0) /\
  md_get "signal_duty_cycle" md = Some (MFloat (N := numR) ducy) /\
  md_get "tobs" md = Some (MFloat (N := numR) tobs) /\
  md_get "dm" md = Some MNone /\ md_get "mjd" md = Some MNone /\ md_get "skycoord" md = Some MNone /\
  md_get "fname" md = Some MNone.

Section Generate.
Context (normal : nat -> R -> list R).
Notation generate := (ts_generate numR ln sin cos exp Rpower PI normal).

(** C96.  The number of samples is the length in sampling times, rounded; sample [i] is what the
    pulses show at time [i * tsamp], plus noise. *)
Theorem ts_generate_correct : forall length tsamp period phi0 ducy amplitude stdnoise n,
  0 < tsamp -> ZnearestE (length / tsamp) = Z.of_nat n -> (0 < n)%nat -> 0 < ducy < 2 ->
  (0 < stdnoise -> List.length (normal n stdnoise) = n) ->
  exists ts s, generate length tsamp period phi0 ducy amplitude stdnoise = Ok ts /\
    se_tsamp ts = tsamp /\ List.length (se_data ts) = n /\
    Rabs (INR n * tsamp - length) <= tsamp / 2 /\
    pulse_train n (period / tsamp) phi0 ducy amplitude s /\
    (forall i, (i < n)%nat ->
       nth i (se_data ts) 0 = nth i s 0 + if Rlt_dec 0 stdnoise then nth i (normal n stdnoise) 0 else 0) /\
    fake_metadata (INR n * tsamp) period phi0 ducy (se_md ts).
Proof.
  intros length tsamp period phi0 ducy amplitude stdnoise n Ht En Hn Hd Hz.
  destruct (generate_train (Z.of_nat n) (period / tsamp) phi0 ducy amplitude ltac:(lia) Hd) as (s & P & G).
  rewrite Nat2Z.id in P, G. pose proof P as (Ls & _).
  unfold ts_generate. rsimp. rewrite Req_bool_false by lra. cbn [negb guard bind]. numR_ty. rewrite py_round_R.
  numR_ty. rewrite En. destruct (G normal stdnoise) as [G1 G2].
  assert (GE : exists data, generate_signal numR ln sin cos exp Rpower PI normal (Z.of_nat n) (period / tsamp) phi0 ducy amplitude stdnoise = Ok data /\
    List.length data = n /\ forall i, (i < n)%nat ->
       nth i data 0 = nth i s 0 + if Rlt_dec 0 stdnoise then nth i (normal n stdnoise) 0 else 0).
  { destruct (Rlt_dec 0 stdnoise) as [L|L].
    - eexists. split; [apply G2; auto|]. split; [now rewrite map_length, seq_length|]. intros i Hi. now rewrite nth_map_seq.
    - exists s. split; [apply G1; lra|]. split; [exact Ls|]. intros i Hi. symmetry. apply Rplus_0_r. }
  destruct GE as (data & -> & Ld & Vd). cbn [bind]. unfold new_series.
  cbn -[INR]. eexists. exists s. split; [reflexivity|]. cbn [se_tsamp se_data se_md]. rewrite map_id.
  split; [reflexivity|]. split; [exact Ld|]. split.
  { assert (Rabs (length / tsamp - INR n) <= / 2) as K.
    { rewrite INR_IZR_INZ, <- En. apply Znearest_half. }
    replace (INR n * tsamp - length) with (- (length / tsamp - INR n) * tsamp) by (field; lra).
    rewrite Rabs_mult, Rabs_Ropp, (Rabs_pos_eq tsamp) by lra. nra. }
  split; [exact P|]. split; [exact Vd|].
  unfold fake_metadata. cbn. repeat split; auto. numR_ty. rewrite Ld, <- INR_IZR_INZ. reflexivity.
Qed.

(** when it raises *)
Theorem ts_generate_raises : forall length tsamp period phi0 ducy amplitude stdnoise,
  (tsamp = 0 -> generate length tsamp period phi0 ducy amplitude stdnoise = Err ZeroDivisionError) /\
  (tsamp <> 0 -> 0 < stdnoise -> (ZnearestE (length / tsamp) < 0)%Z ->
     generate length tsamp period phi0 ducy amplitude stdnoise = Err ValueError) /\
  (tsamp <> 0 -> stdnoise <= 0 \/ (0 <= ZnearestE (length / tsamp))%Z ->
     exists ts, generate length tsamp period phi0 ducy amplitude stdnoise = Ok ts).
Proof.
  intros length tsamp period phi0 ducy amplitude stdnoise. unfold ts_generate, generate_signal. rsimp.
  split; [|split].
  - intros ->. now rewrite Req_bool_true.
  - intros T S L. rewrite Req_bool_false by auto. cbn [negb guard bind]. numR_ty. rewrite py_round_R.
    rewrite Rlt_bool_true by auto. rewrite (proj2 (Z.leb_gt 0 _)) by exact L. reflexivity.
  - intros T H. rewrite Req_bool_false by auto. cbn [negb guard bind]. numR_ty. rewrite py_round_R.
    destruct (Rlt_bool_spec 0 stdnoise) as [L|L].
    + destruct H as [H|H]; [lra|]. rewrite (proj2 (Z.leb_le 0 _)) by exact H. cbn [guard bind]. eexists. reflexivity.
    + cbn [bind]. eexists. reflexivity.
Qed.
End Generate.
Print Assumptions ts_generate_correct.
Print Assumptions ts_generate_raises.

(** 1 s at 1 ms *)
Example ts_generate_ex : 0 < / 1000 /\ ZnearestE (1 / / 1000) = Z.of_nat 1000 /\ (0 < 1000)%nat /\ 0 < / 50 < 2.
Proof.
  split; [lra|]. split; [|split; [lia|lra]]. rewrite (round_IZR _ 1000); [|lra]. reflexivity.
Qed.

(** ** Arrays and files *)
Section Files.
Context (ob32 : Z -> R) (read : string -> res file) (load : string -> res (list R)).

(** a series without metadata except its length *)
Definition bare (x : list R) (tsamp : R) (ts : series numR) : Prop :=
  se_data ts = x /\ se_tsamp ts = tsamp /\
  md_get "tobs" (se_md ts) = Some (MFloat (N := numR) (INR (List.length x) * tsamp)) /\
  forall k v, md_get k (se_md ts) = Some v ->
    (k = "tobs"%string /\ v = MFloat (N := numR) (INR (List.length x) * tsamp)) \/ v = MNone.

Lemma bare_series x tsamp : exists ts, new_series (N := numR) x tsamp [] = Ok ts /\ bare x tsamp ts.
Proof.
  unfold new_series. cbn. eexists. split; [reflexivity|]. split; [reflexivity|]. split; [reflexivity|].
  split; [cbn; numR_ty; now rewrite <- INR_IZR_INZ|]. intros k v. cbn [se_md md_get]. numR_ty. rewrite <- INR_IZR_INZ.
  repeat match goal with |- (if String.eqb k ?c then _ else _) = _ -> _ =>
    destruct (String.eqb_spec k c) as [->|_]; [intros H; injection H as <-; auto|] end. discriminate.
Qed.

(** C97.  Each constructor returns the samples it was given: the elements of an array, the float32
    values of a raw file (an incomplete last one being dropped), the array in a .npy file. *)
Theorem series_constructors : forall (tsamp : R),
  (forall x, exists ts, from_numpy_array numR x tsamp = Ok ts /\ bare x tsamp ts) /\
  (forall fname bytes, read fname = Ok bytes ->
     exists x ts, from_binary numR ob32 read fname tsamp = Ok ts /\ bare x tsamp ts /\
       holds_samples 4 (fun b => ob32 (le_uint b)) bytes x) /\
  (forall fname x, load fname = Ok x -> exists ts, from_npy_file numR load fname tsamp = Ok ts /\ bare x tsamp ts).
Proof.
  intros tsamp. split; [|split].
  - intros x. unfold from_numpy_array. rsimp. rewrite map_id. apply bare_series.
  - intros fname bytes E. unfold from_binary. rewrite E. cbn [bind].
    destruct (bare_series (float32s numR ob32 bytes) tsamp) as (ts & E1 & B).
    exists (float32s numR ob32 bytes), ts. split; [exact E1|]. split; [exact B|apply float32s_spec].
  - intros fname x E. unfold from_npy_file. rewrite E. cbn [bind]. rsimp. rewrite map_id. apply bare_series.
Qed.
End Files.
Print Assumptions series_constructors.

(** in any arithmetic, the elements of an array are narrowed to single precision *)
Theorem series_narrow : forall (N : num) (x : list N) (tsamp : N) (ts : series N),
  from_numpy_array N x tsamp = Ok ts \/ (exists load fname, load fname = Ok x /\ from_npy_file N load fname tsamp = Ok ts) ->
  se_data ts = map n_narrow x /\ se_tsamp ts = tsamp.
Proof.
  intros N x tsamp ts H.
  assert (E : new_series (map n_narrow x) tsamp [] = Ok ts).
  { destruct H as [H|(load & fname & L & H)]; [exact H|]. unfold from_npy_file in H. rewrite L in H. exact H. }
  unfold new_series in E. apply bind_ok in E as (md & _ & E). injection E as <-. split; reflexivity.
Qed.
Print Assumptions series_narrow.

Example series_constructors_ex : exists x : list R,
  holds_samples 4 (fun b => IZR (le_uint b)) (map Ascii.ascii_of_nat [1; 0; 0; 0; 2; 1; 0; 0; 7]%nat) x /\ x = [1; 258].
Proof. eexists. split; [|reflexivity]. apply (float32s_spec IZR). Qed.
