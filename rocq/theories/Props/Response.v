(** C81: no S/N is negative, and which profiles have none at all. *)
From Coq Require Import List Arith ZArith Bool Lia Reals Lra Psatz.
From Verif Require Import Base.Result Base.Buf Base.Num Model.Transforms Model.Libffa Model.Snr Spec.Sums Spec.Boxcar
  Proof.Snr Props.Downsample Props.Snr.
Import ListNotations.
Local Open Scope R_scope.

(** the windows of all phases together cover every bin [w] times *)
Lemma window_sums n w g : (0 < n)%nat -> rsum n (fun phi => window_sum n phi w g) = INR w * rsum n g.
Proof.
  intros Hn. unfold window_sum. rewrite rsum_swap. rewrite (rsum_ext w _ (fun _ => rsum n g)); [now rewrite rsum_const|].
  intros j _. rewrite (rsum_ext n _ (fun i => g ((i + j) mod n)%nat)); [now apply rsum_rot|]. intros i _. do 2 f_equal. lia.
Qed.

Lemma sum_nonpos_zero n f : (forall i, (i < n)%nat -> f i <= 0) -> rsum n f = 0 -> forall i, (i < n)%nat -> f i = 0.
Proof.
  induction n as [|n IH]; intros H E i Hi; [lia|]. cbn [rsum] in E.
  assert (A : rsum n f <= 0). { rewrite <- (rsum_0 n). apply rsum_le. intros; apply H; lia. }
  pose proof (H n ltac:(lia)). destruct (Nat.eq_dec i n) as [->|]; [lra|]. apply IH; [intros; apply H; lia|lra|lia].
Qed.

Lemma window_next n w g phi : (0 < n)%nat ->
  window_sum n (S phi) w g = window_sum n phi w g - g (phi mod n)%nat + g ((phi + w) mod n)%nat.
Proof.
  intros Hn. unfold window_sum. pose proof (rsum_first w (fun j => g ((j + phi) mod n)%nat)) as A. cbn [rsum] in A.
  cbv beta in A. rewrite Nat.add_0_l, (Nat.add_comm w) in A.
  rewrite (rsum_ext w _ (fun j => g ((S j + phi) mod n)%nat)); [lra|]. intros j _. do 2 f_equal. lia.
Qed.

Theorem best_response_nonneg :
  forall (x : list R) (w : nat) (v : R), (0 < w < length x)%nat -> best_response x w v ->
  0 <= v /\ (v = 0 <-> forall i, (i < length x)%nat -> nth ((i + w) mod length x) x 0 = nth i x 0).
Proof.
  intros x w v Hw BR. set (n := length x) in *. set (g := fun i => nth i x 0).
  destruct (bh_facts n w Hw) as (B1 & B2 & B3 & B4 & Hn & W1 & W2).
  set (resp := fun phi => (bh n w + bb n w) * window_sum n phi w g - bb n w * rsum n g).
  assert (EQ : forall phi t, (phi < n)%nat -> boxcar_template n w phi t -> inner n g t = resp phi).
  { intros phi t Hp Ht. unfold resp. now apply inner_template. }
  destruct BR as [(phi0 & t0 & Hp0 & Ht0 & E0) MX]. fold n in Hp0, Ht0, E0, MX. fold g in E0, MX.
  rewrite (EQ phi0 t0 Hp0 Ht0) in E0.
  assert (LE : forall phi, (phi < n)%nat -> resp phi <= v).
  { intros phi Hp. rewrite <- (EQ phi _ Hp (template_exists n w phi Hp Hw)). apply (MX phi); auto. now apply template_exists. }
  assert (SUM : rsum n resp = 0).
  { unfold resp. rewrite rsum_minus, !rsum_scal, window_sums, rsum_const by lia. rewrite Hn.
    transitivity ((INR w * bh n w - INR (n - w) * bb n w) * rsum n g); [ring|]. rewrite B3. ring. }
  assert (V0 : 0 <= v).
  { destruct (Rle_lt_dec 0 v) as [|L]; auto. exfalso.
    assert (rsum n resp <= rsum n (fun _ => v)) by (apply rsum_le; exact LE). rewrite rsum_const in H.
    assert (0 < INR n) by (apply (lt_INR 0); lia). nra. }
  split; [exact V0|]. split.
  - intros -> i Hi.
    assert (Z : forall phi, (phi < n)%nat -> resp phi = 0) by (apply sum_nonpos_zero; auto).
    assert (WE : window_sum n (S i mod n) w g = window_sum n i w g).
    { assert (Hs : (S i mod n < n)%nat) by (apply Nat.mod_upper_bound; lia).
      pose proof (Z i Hi) as Z1. pose proof (Z _ Hs) as Z2. unfold resp in Z1, Z2.
      apply Rmult_eq_reg_l with (bh n w + bb n w); lra. }
    assert (WM : window_sum n (S i mod n) w g = window_sum n (S i) w g).
    { unfold window_sum. apply rsum_ext. intros j _. rewrite Nat.add_mod_idemp_r by lia. reflexivity. }
    rewrite WM, window_next, (Nat.mod_small i) in WE by lia. unfold g in WE. lra.
  - intros P.
    assert (WE : forall phi, (phi < n)%nat -> window_sum n phi w g = window_sum n 0 w g).
    { induction phi as [|phi IH]; intros Hp; [reflexivity|]. rewrite window_next by lia. rewrite IH by lia.
      rewrite (Nat.mod_small phi) by lia. unfold g. rewrite P by lia. lra. }
    assert (RE : forall phi, (phi < n)%nat -> resp phi = resp 0%nat) by (intros phi Hp; unfold resp; now rewrite WE).
    rewrite (rsum_ext n resp (fun _ => resp 0%nat) RE), rsum_const in SUM.
    assert (0 < INR n) by (apply (lt_INR 0); lia). rewrite <- E0, RE by auto. nra.
Qed.
Print Assumptions best_response_nonneg.

(** C81: the S/N of a profile is never negative, and zero at a width only for the profiles that
    repeat themselves with this width as a period. *)
Theorem snr_nonneg :
  forall (alloc : nat -> list R) (x : list R) (ws : list nat) (sd : R), allocates alloc ->
  (Z.of_nat (length x) < 2 ^ 64)%Z -> ws <> [] -> good_widths ws (length x) -> 0 < sd ->
  exists out : list R, py_snr1 numR alloc x ws sd = Ok out /\ length out = length ws /\
    forall k, (k < length ws)%nat ->
      0 <= nth k out 0 /\
      (nth k out 0 = 0 <->
       forall i, (i < length x)%nat -> nth ((i + nth k ws 0%nat) mod length x) x 0 = nth i x 0).
Proof.
  intros alloc x ws sd Ha Hx Hn Hw Hs.
  destruct (snr_matched_filter alloc x ws sd Ha Hx Hn Hw Hs) as (out & E & L & V). exists out. split; auto. split; auto.
  intros k Hk. destruct (V k Hk) as (v & BR & EV). rewrite EV.
  destruct (best_response_nonneg x _ v (Hw _ (nth_In _ _ Hk)) BR) as [V0 VZ]. split.
  - unfold Rdiv. apply Rmult_le_pos; auto. left. now apply Rinv_0_lt_compat.
  - rewrite <- VZ. split; intros H.
    + apply Rmult_eq_reg_r with (/ sd); [unfold Rdiv in H; lra|]. apply Rinv_neq_0_compat. lra.
    + rewrite H. unfold Rdiv. ring.
Qed.
Print Assumptions snr_nonneg.

(** widths 1 and 2 for a profile of period 2: nothing at width 2, something at width 1 *)
Example snr_nonneg_ex : let x := [0; 1; 0; 1] in
  good_widths [1; 2]%nat (length x) /\
  (forall i, (i < length x)%nat -> nth ((i + 2) mod length x) x 0 = nth i x 0) /\
  ~ (forall i, (i < length x)%nat -> nth ((i + 1) mod length x) x 0 = nth i x 0).
Proof.
  cbn [length]. split; [intros w [<-|[<-|[]]]; lia|]. split.
  - intros [|[|[|[|i]]]] Hi; try reflexivity; lia.
  - intros H. specialize (H 0%nat ltac:(lia)). cbn in H. lra.
Qed.
