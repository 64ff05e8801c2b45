(** C143: harmonic testing in floating point. *)
From Coq Require Import List Arith ZArith Bool Lia Reals Lra.
From Flocq Require Import Core.
From Verif Require Import Base.Result Base.Num Model.Cluster Model.Peaks Model.DmIter Model.Harmonic Spec.BestApprox
  Proof.Downsample Proof.SearchFloat Proof.Cluster Proof.ClusterFloat Proof.RadiusFloat Proof.Harmonic Props.Harmonic Props.DownsampleFloat.
Import ListNotations.
Local Open Scope R_scope.

(** a number of usual size *)
Definition usual (x : R) : Prop := bpow radix2 (-100) <= x <= bpow radix2 100.

(** the three distances between the frequencies, DMs and S/N of two signals, in exact arithmetic *)
Definition phase_distance (slow fast ducy tobs : R) (a b : Z) : R := Rabs (IZR a / IZR b * slow - fast) * tobs / ducy.
Definition dm_distance (dF dH fmin fmax wF wH : R) : R := Rabs (dF - dH) * 4150 * (/ fmin ^ 2 - / fmax ^ 2) / Rmin wF wH.
Definition snr_distance (sF sH : R) (p q : Z) : R := Rabs (sH - sF / sqrt (IZR p * IZR q)).

(** as close as any fraction of denominator at most [dmax], up to rounding *)
Definition near_best (x : R) (dmax a b : Z) : Prop :=
  (0 < a)%Z /\ (0 < b <= dmax)%Z /\ Z.gcd a b = 1%Z /\
  forall p q : Z, (0 < q <= dmax)%Z -> Rabs (IZR a / IZR b - x) <= Rabs (IZR p / IZR q - x) + / 2 ^ 51 * x.

Lemma usual_pos x : usual x -> 0 < x.
Proof. intros [H _]. pose proof (bpow_gt_0 radix2 (-100)). lra. Qed.

Lemma U53 : u64 = bpow radix2 (-53). Proof. cbn. unfold u64. lra. Qed.

(** an absolute error, relative to a bound of the value *)
Lemma absr e c x X : 0 <= e <= 100 -> bpow radix2 (-1000) <= X -> Rabs x <= X -> Rabs (c - x) <= e * u64 * X -> Rabs (rnd64 c - x) <= (e + 2) * u64 * X.
Proof.
  intros He HX Hx H. pose proof (bpow_gt_0 radix2 (-1000)) as B0. pose proof (rnd64_err c) as E.
  assert (T : bpow radix2 (-1075) <= / 4 * (u64 * X)).
  { apply Rle_trans with (/ 4 * u64 * bpow radix2 (-1000)).
    - replace (/ 4 * u64) with (bpow radix2 (-55)) by (cbn; unfold u64; lra). rewrite <- bpow_plus. apply bpow_le. lia.
    - rewrite <- Rmult_assoc. apply Rmult_le_compat_l; [unfold u64; lra|auto]. }
  assert (UX : 0 < u64 * X) by (apply Rmult_lt_0_compat; [unfold u64|]; lra).
  assert (EX : e * u64 * X <= 100 * (u64 * X)) by (rewrite Rmult_assoc; apply Rmult_le_compat_r; lra).
  assert (A : Rabs c <= 3 / 2 * X).
  { replace c with ((c - x) + x) by ring. eapply Rle_trans; [apply Rabs_triang|]. assert (100 * (u64 * X) <= / 2 * X); [unfold u64|]; lra. }
  assert (u64 * Rabs c <= u64 * (3 / 2 * X)) by (apply Rmult_le_compat_l; [unfold u64; lra|auto]).
  replace (rnd64 c - x) with ((rnd64 c - c) + (c - x)) by ring. eapply Rle_trans; [apply Rabs_triang|]. lra.
Qed.

Lemma abs_near c x e : Rabs (c - x) <= e -> Rabs (Rabs c - Rabs x) <= e.
Proof. intros H. eapply Rle_trans; [apply Rabs_triang_inv2|exact H]. Qed.

Lemma rel_abs e a x : 0 <= x -> rel e a x -> rel e (Rabs a) x.
Proof. unfold rel. intros Hx H. rewrite <- (Rabs_pos_eq x Hx) at 1. now apply abs_near. Qed.

Lemma rel_min e a b x y : 0 <= e <= 1 -> 0 <= x -> 0 <= y -> rel e a x -> rel e b y -> rel e (Rmin a b) (Rmin x y).
Proof.
  unfold rel. intros He Hx Hy Ha Hb. apply Rabs_le_inv in Ha, Hb. apply Rabs_le.
  destruct (Rle_or_lt a b) as [A|A]; [rewrite (Rmin_left a b) by lra|rewrite (Rmin_right a b) by lra];
    (destruct (Rle_or_lt x y) as [X|X]; [rewrite (Rmin_left x y) by lra|rewrite (Rmin_right x y) by lra]); try lra.
  - assert (y * (1 - e) <= x * (1 - e)) by (apply Rmult_le_compat_r; lra). lra.
  - assert (x * (1 - e) <= y * (1 - e)) by (apply Rmult_le_compat_r; lra). lra.
Qed.

Lemma rel_sqrt e a x : 0 <= e <= / 2 -> 0 < x -> rel e a x -> rel e (sqrt a) (sqrt x).
Proof.
  unfold rel. intros He Hx H. pose proof (sqrt_lt_R0 x Hx) as SX. pose proof (sqrt_pos a) as SA.
  assert (A0 : 0 <= a) by (apply Rabs_le_inv in H; assert (e * x <= / 2 * x) by (apply Rmult_le_compat_r; lra); lra).
  apply Rmult_le_reg_r with (sqrt a + sqrt x); [lra|].
  rewrite <- (Rabs_pos_eq (sqrt a + sqrt x)) at 1 by lra. rewrite <- Rabs_mult.
  replace ((sqrt a - sqrt x) * (sqrt a + sqrt x)) with (sqrt a * sqrt a - sqrt x * sqrt x) by ring. rewrite !sqrt_sqrt by lra.
  eapply Rle_trans; [exact H|]. rewrite <- (sqrt_sqrt x) at 1 by lra. rewrite Rmult_assoc. apply Rmult_le_compat_l; [lra|].
  apply Rmult_le_compat_l; lra.
Qed.

Lemma big x y k : (0 <= k <= 800)%Z -> bpow radix2 (-k) <= x -> usual y -> bpow radix2 (-1000) <= x * y /\ bpow radix2 (- (k + 100)) <= x * y.
Proof.
  intros Hk Hx Hy. assert (A : bpow radix2 (- (k + 100)) <= x * y).
  { replace (- (k + 100))%Z with (- k + -100)%Z by ring. rewrite bpow_plus. pose proof (bpow_gt_0 radix2 (-k)). pose proof (bpow_gt_0 radix2 (-100)).
    destruct Hy. apply Rmult_le_compat; lra. }
  split; [|exact A]. eapply Rle_trans; [apply bpow_le|exact A]. lia.
Qed.

Lemma usual_inv x : usual x -> usual (/ x).
Proof.
  intros H. pose proof (usual_pos x H). destruct H as [H1 H2]. split.
  - change (-100)%Z with (- (100))%Z. rewrite bpow_opp. apply Rinv_le_contravar; lra.
  - replace (bpow radix2 100) with (/ bpow radix2 (-100)) by (rewrite <- bpow_opp; reflexivity). apply Rinv_le_contravar; [apply bpow_gt_0|lra].
Qed.

Section Distances.
Context (bld : build).

Lemma phase_err (slow fast ducy tobs : R) (a b : Z) : usual slow -> usual fast -> usual ducy -> usual tobs ->
  (0 < a < 2 ^ 53)%Z -> (0 < b < 2 ^ 53)%Z -> / 4 * fast <= IZR a / IZR b * slow <= 7 / 4 * fast ->
  Rabs (rnd64 (rnd64 (Rabs (rnd64 (rnd64 (rnd64 (rnd64 (IZR a) / rnd64 (IZR b)) * slow) - fast)) * tobs) / ducy) - phase_distance slow fast ducy tobs a b)
    <= 13 * u64 * (fast * tobs / ducy).
Proof.
  intros Hs Hf Hd Ht Ha Hb [Y1 Y2]. rewrite !lit_F by lia. pose proof (usual_pos _ Hs). pose proof (usual_pos _ Hf). pose proof (usual_pos _ Hd). pose proof (usual_pos _ Ht).
  set (y := IZR a / IZR b * slow) in *. assert (A1 : 1 <= IZR a) by (apply IZR_le; lia). assert (B1 : 0 < IZR b) by (apply IZR_lt; lia).
  assert (BB : bpow radix2 (-53) <= IZR a / IZR b).
  { unfold Rdiv. apply Rle_trans with (1 * / IZR b); [|apply Rmult_le_compat_r; [apply Rlt_le, Rinv_0_lt_compat; auto|auto]].
    rewrite Rmult_1_l. change (-53)%Z with (- (53))%Z. rewrite bpow_opp. apply Rinv_le_contravar; auto.
    replace (bpow radix2 53) with (IZR (2 ^ 53)) by (cbn; lra). apply IZR_le. lia. }
  assert (U : 0 < u64) by (unfold u64; lra).
  assert (R1 : rel (2 * u64) (rnd64 (IZR a / IZR b)) (IZR a / IZR b)).
  { apply rel_rnd0. eapply Rle_trans; [apply bpow_le|exact BB]. lia. }
  assert (R2 : rel (4 * u64) (rnd64 (rnd64 (IZR a / IZR b) * slow)) y).
  { replace (4 * u64) with (2 * u64 + 2 * u64) by ring. apply rel_rnd; [unfold u64; lra| |].
    - apply (big _ _ 53); [lia|exact BB|exact Hs].
    - unfold rel, y. replace (rnd64 (IZR a / IZR b) * slow - IZR a / IZR b * slow) with ((rnd64 (IZR a / IZR b) - IZR a / IZR b) * slow) by ring.
      rewrite Rabs_mult, (Rabs_pos_eq slow), <- Rmult_assoc by lra. apply Rmult_le_compat_r; [lra|exact R1]. }
  assert (D1 : Rabs (rnd64 (rnd64 (rnd64 (IZR a / IZR b) * slow) - fast) - (y - fast)) <= 9 * u64 * fast).
  { replace (9 * u64 * fast) with ((7 + 2) * u64 * fast) by ring. apply absr; [lra| |apply Rabs_le; lra|].
    - eapply Rle_trans; [apply bpow_le|apply Hf]. lia.
    - replace (rnd64 (rnd64 (IZR a / IZR b) * slow) - fast - (y - fast)) with (rnd64 (rnd64 (IZR a / IZR b) * slow) - y) by ring.
      eapply Rle_trans; [exact R2|]. apply Rle_trans with (4 * u64 * (7 / 4 * fast)); [apply Rmult_le_compat_l; lra|lra]. }
  apply abs_near in D1. set (c := Rabs (rnd64 _)) in *.
  assert (YF : 0 <= Rabs (y - fast) <= fast) by (split; [apply Rabs_pos|apply Rabs_le; lra]).
  destruct (big fast tobs 100) as [X1 X2]; [lia|apply Hf|exact Ht|].
  assert (D2 : Rabs (rnd64 (c * tobs) - Rabs (y - fast) * tobs) <= 11 * u64 * (fast * tobs)).
  { replace (11 * u64 * (fast * tobs)) with ((9 + 2) * u64 * (fast * tobs)) by ring. apply absr; [lra|exact X1| |].
    - rewrite Rabs_pos_eq by (apply Rmult_le_pos; lra). apply Rmult_le_compat_r; lra.
    - replace (c * tobs - Rabs (y - fast) * tobs) with ((c - Rabs (y - fast)) * tobs) by ring. rewrite Rabs_mult, (Rabs_pos_eq tobs) by lra.
      rewrite <- (Rmult_assoc _ fast). apply Rmult_le_compat_r; [lra|exact D1]. }
  unfold phase_distance. fold y. replace (13 * u64 * (fast * tobs / ducy)) with ((11 + 2) * u64 * (fast * tobs / ducy)) by ring.
  assert (DI : 0 < / ducy) by (now apply Rinv_0_lt_compat).
  apply absr; [lra| | |].
  - apply (big (fast * tobs) (/ ducy) (100 + 100)); [lia|exact X2|now apply usual_inv].
  - unfold Rdiv. rewrite Rabs_pos_eq by (repeat apply Rmult_le_pos; lra). apply Rmult_le_compat_r; [lra|]. apply Rmult_le_compat_r; lra.
  - unfold Rdiv. set (z := rnd64 (c * tobs)) in *. replace (z * / ducy - Rabs (y - fast) * tobs * / ducy) with ((z - Rabs (y - fast) * tobs) * / ducy) by ring.
    rewrite Rabs_mult, (Rabs_pos_eq (/ ducy)), <- (Rmult_assoc _ (fast * tobs)) by lra. apply Rmult_le_compat_r; [lra|exact D2].
Qed.

Lemma snr_err (sF sH : R) (n : Z) : usual sF -> (1 <= n)%Z -> IZR n <= bpow radix2 100 ->
  Rabs (Rabs (rnd64 (sH - rnd64 (sF / rnd64 (sqrt (rnd64 (IZR n)))))) - Rabs (sH - sF / sqrt (IZR n))) <= 9 * u64 * (sF + Rabs sH).
Proof.
  intros HF Hn HB. apply IZR_le in Hn. pose proof (usual_pos _ HF). set (x := IZR n) in *.
  assert (U : 0 < u64) by (unfold u64; lra).
  assert (L : forall y, 1 <= y -> bpow radix2 (-1000) <= y) by (intros; apply Rle_trans with (bpow radix2 0); [apply bpow_le; lia|cbn; lra]).
  assert (S1 : 1 <= sqrt x) by (rewrite <- sqrt_1; apply sqrt_le_1; lra).
  assert (R1 : rel (2 * u64) (rnd64 x) x) by (apply rel_rnd0, L; lra).
  apply rel_sqrt in R1; [|unfold u64; lra|lra]. apply rel_rnd in R1; [|unfold u64; lra|now apply L].
  assert (R2 : rel (5 * u64) (1 / rnd64 (sqrt (rnd64 x))) (/ sqrt x)) by (apply rel_inv with (3 := ltac:(lra) : 0 < sqrt x) (4 := R1); unfold u64; lra).
  assert (SI : 0 < / sqrt x <= 1) by (split; [apply Rinv_0_lt_compat; lra|rewrite <- Rinv_1; apply Rinv_le_contravar; lra]).
  assert (SX : sqrt x <= bpow radix2 100).
  { apply Rle_trans with x; auto. rewrite <- (sqrt_sqrt x) at 2 by lra. rewrite <- (Rmult_1_l (sqrt x)) at 1. apply Rmult_le_compat_r; lra. }
  assert (R3 : rel (7 * u64) (rnd64 (sF / rnd64 (sqrt (rnd64 x)))) (sF / sqrt x)).
  { replace (7 * u64) with (5 * u64 + 2 * u64) by ring. apply rel_rnd; [unfold u64; lra| |].
    - apply (big sF (/ sqrt x) 100); [lia|apply HF|]. apply usual_inv. split; [|exact SX]. apply Rle_trans with (bpow radix2 0); [apply bpow_le; lia|cbn; lra].
    - unfold rel, Rdiv in *. rewrite Rmult_1_l in R2. rewrite <- Rmult_minus_distr_l, Rabs_mult, (Rabs_pos_eq sF) by lra.
      replace (5 * u64 * (sF * / sqrt x)) with (sF * (5 * u64 * / sqrt x)) by ring. apply Rmult_le_compat_l; [lra|exact R2]. }
  set (e := rnd64 (sF / _)) in *. set (y := sF / sqrt x) in *.
  assert (Y : 0 <= y <= sF). { unfold y, Rdiv. split; [apply Rmult_le_pos; lra|]. rewrite <- (Rmult_1_r sF) at 2. apply Rmult_le_compat_l; lra. }
  apply abs_near. replace (9 * u64 * (sF + Rabs sH)) with ((7 + 2) * u64 * (sF + Rabs sH)) by ring. pose proof (Rabs_pos sH). apply absr; [lra| | |].
  - apply Rle_trans with sF; [|lra]. eapply Rle_trans; [apply bpow_le|apply HF]. lia.
  - unfold Rminus. eapply Rle_trans; [apply Rabs_triang|]. rewrite Rabs_Ropp, (Rabs_pos_eq y) by lra. lra.
  - replace (sH - e - (sH - y)) with (- (e - y)) by ring. rewrite Rabs_Ropp. eapply Rle_trans; [exact R3|]. apply Rmult_le_compat_l; lra.
Qed.

Lemma dm_err (dF dH fmin fmax uF uH gF gH : R) : dF = dH \/ usual (Rabs (dF - dH)) -> usual fmin -> 17 / 16 * fmin <= fmax <= 4 * fmin ->
  usual uF -> usual uH -> usual gF -> usual gH ->
  let w := dm_distance dF dH fmin fmax (uF / gF) (uH / gH) in
  Rabs (rnd64 (rnd64 (rnd64 (Rabs (rnd64 (dF - dH)) * 4150) * Rabs (rnd64 (inv2 (numF bld) fmin - inv2 (numF bld) fmax))) /
    Rmin (rnd64 (uF / gF)) (rnd64 (uH / gH))) - w) <= 134 * u64 * w.
Proof.
  intros HD Hf HB HuF HuH HgF HgH w. unfold w, dm_distance. destruct HD as [E|HD].
  { rewrite E, (Rminus_diag_eq dH dH), rnd64_0, Rabs_R0, Rmult_0_l, rnd64_0, Rmult_0_l, rnd64_0 by reflexivity. unfold Rdiv. rewrite !Rmult_0_l, rnd64_0, Rminus_0_r, Rabs_R0. lra. }
  pose proof (usual_pos _ Hf) as F0. assert (U : 0 < u64) by (unfold u64; lra).
  assert (K : forall z x, (-1000 <= z)%Z -> bpow radix2 z <= x -> bpow radix2 (-1000) <= x) by (intros z x Hz Hx; eapply Rle_trans; [apply bpow_le; exact Hz|exact Hx]).
  rewrite <- rnd64_abs. set (d := Rabs (dF - dH)) in *. pose proof (usual_pos _ HD) as D0.
  assert (R1 : rel (4 * u64) (rnd64 (rnd64 d * 4150)) (d * 4150)).
  { replace (4 * u64) with (2 * u64 + 2 * u64) by ring. apply rel_rnd; [unfold u64; lra|apply (K (-100)%Z); [lia|]; destruct HD; lra|].
    apply (rel_mul (2 * u64) 0); try (unfold u64; lra); try lra; [|apply rel_exact]. apply rel_rnd0. apply (K (-100)%Z); [lia|apply HD]. }
  destruct (inv2_rel bld 0 fmin fmin) as [A1 A2]; [lra| |rewrite Rmult_0_l; apply rel_exact|].
  { destruct Hf. split; eapply Rle_trans; try eassumption; apply bpow_le; lia. }
  destruct (inv2_rel bld 0 fmax fmax) as [B1 B2]; [lra| |rewrite Rmult_0_l; apply rel_exact|].
  { destruct Hf as [H1 H2]. split; [eapply Rle_trans; [|apply Rle_trans with (2 := proj1 HB)]; [|apply Rle_trans with (1 * fmin); [rewrite Rmult_1_l; exact H1|apply Rmult_le_compat_r; lra]]; apply bpow_le; lia|].
    apply Rle_trans with (4 * bpow radix2 100); [lra|]. replace 4 with (bpow radix2 2) by (cbn; lra). rewrite <- bpow_plus. apply bpow_le. lia. }
  set (lo := / fmin ^ 2) in *. set (hi := / fmax ^ 2) in *. pose proof (bpow_gt_0 radix2 (-206)) as P206.
  assert (SD : lo + hi <= 17 * (lo - hi)).
  { apply sum_diff; [lra|]. assert (17 / 16 * fmin * (17 / 16 * fmin) <= fmax * fmax) by (apply Rmult_le_compat; lra).
    assert (0 < fmin * fmin) by (apply Rmult_lt_0_compat; lra). lra. }
  assert (LH : bpow radix2 (-210) <= lo - hi).
  { apply Rle_trans with (/ 16 * bpow radix2 (-206)).
    - replace (/ 16) with (bpow radix2 (-4)) by (cbn; lra). rewrite <- bpow_plus. apply bpow_le. lia.
    - lra. }
  pose proof (bpow_gt_0 radix2 (-210)) as P210.
  assert (R2 : rel (121 * u64) (Rabs (rnd64 (inv2 (numF bld) fmin - inv2 (numF bld) fmax))) (lo - hi)).
  { apply rel_abs; [lra|]. replace (121 * u64) with (119 * u64 + 2 * u64) by ring. apply rel_rnd; [unfold u64; lra|apply (K (-210)%Z); [lia|exact LH]|].
    apply rel_sub with ((2 * 0 + 7) * u64) 17; auto; try lra; try (unfold u64; lra). }
  assert (DL : bpow radix2 (-310) <= d * 4150 * (lo - hi)).
  { apply Rle_trans with (bpow radix2 (-100) * bpow radix2 (-210)); [rewrite <- bpow_plus; apply bpow_le; lia|].
    pose proof (bpow_gt_0 radix2 (-100)). destruct HD. apply Rmult_le_compat; lra. }
  assert (R3 : rel (128 * u64) (rnd64 (rnd64 (rnd64 d * 4150) * Rabs (rnd64 (inv2 (numF bld) fmin - inv2 (numF bld) fmax)))) (d * 4150 * (lo - hi))).
  { replace (128 * u64) with (126 * u64 + 2 * u64) by ring. apply rel_rnd; [unfold u64; lra|apply (K (-310)%Z); [lia|exact DL]|].
    apply (rel_mul (4 * u64) (121 * u64)); auto; try (unfold u64; lra); lra. }
  assert (W : forall a b, usual a -> usual b -> rel (2 * u64) (rnd64 (a / b)) (a / b) /\ bpow radix2 (-200) <= a / b <= bpow radix2 200).
  { intros a b Ha Hb. pose proof (usual_inv b Hb) as Ib. destruct (big a (/ b) 100) as [W1 W2]; [lia|apply Ha|exact Ib|].
    split; [now apply rel_rnd0|]. split; [exact W2|]. unfold Rdiv. replace (bpow radix2 200) with (bpow radix2 100 * bpow radix2 100) by (rewrite <- bpow_plus; reflexivity).
    pose proof (usual_pos _ Ha). pose proof (usual_pos _ Ib). destruct Ha, Ib. apply Rmult_le_compat; lra. }
  destruct (W uF gF HuF HgF) as [WF [F1 F2]]. destruct (W uH gH HuH HgH) as [WH [H1 H2]]. pose proof (bpow_gt_0 radix2 (-200)) as P200.
  set (m := Rmin (uF / gF) (uH / gH)). assert (M : bpow radix2 (-200) <= m <= bpow radix2 200).
  { unfold m. split; [apply Rmin_glb; auto|]. eapply Rle_trans; [apply Rmin_l|exact F2]. }
  assert (R4 : rel (2 * u64) (Rmin (rnd64 (uF / gF)) (rnd64 (uH / gH))) m) by (apply rel_min; auto; try lra; unfold u64; lra).
  assert (R5 : rel (3 * u64) (1 / Rmin (rnd64 (uF / gF)) (rnd64 (uH / gH))) (/ m)) by (apply rel_inv with (4 := R4); try lra; unfold u64; lra).
  assert (MI : bpow radix2 (-200) <= / m).
  { change (-200)%Z with (- (200))%Z. rewrite bpow_opp. apply Rinv_le_contravar; lra. }
  set (X := rnd64 (rnd64 (rnd64 d * 4150) * _)) in *. set (Y := Rmin (rnd64 _) _) in *.
  replace (134 * u64) with (132 * u64 + 2 * u64) by ring. apply rel_rnd; [unfold u64; lra| |].
  - apply (K (-510)%Z); [lia|]. apply Rle_trans with (bpow radix2 (-310) * bpow radix2 (-200)); [rewrite <- bpow_plus; apply bpow_le; lia|].
    pose proof (bpow_gt_0 radix2 (-310)). unfold Rdiv. apply Rmult_le_compat; lra.
  - replace (X / Y) with (X * (1 / Y)) by (unfold Rdiv; ring). apply (rel_mul (128 * u64) (3 * u64)); auto; try (unfold u64; lra); try lra.
    pose proof (bpow_gt_0 radix2 (-310)). lra.
Qed.
End Distances.

Section Test.
Context (bld : build).
Local Notation NF := (numF bld).

Lemma peak_eqb_freq_F (a b : peak NF) : p_freq a <> p_freq b -> peak_eqb NF a b = false.
Proof. intros H. unfold peak_eqb. cbn [numF n_eqb]. rewrite (Req_bool_false (p_freq a) (p_freq b) H). rewrite andb_false_r. reflexivity. Qed.

Lemma peak_eqb_refl_F (a : peak NF) : peak_eqb NF a a = true.
Proof.
  unfold peak_eqb. cbn [numF n_eqb]. rewrite !Req_bool_true by reflexivity. rewrite Z.eqb_refl, !Nat.eqb_refl. cbn.
  destruct (p_dm a); [|reflexivity]. now rewrite Req_bool_true.
Qed.

Lemma nmin2_F (a b : R) : Harmonic.nmin2 NF a b = Rmin a b.
Proof. unfold Harmonic.nmin2. cbn [numF n_ltb]. destruct (Rlt_bool_spec b a); [rewrite Rmin_right|rewrite Rmin_left]; auto; lra. Qed.

Lemma pow_m2_inv2 (x : R) : 0 < x -> pow_m2 NF x = Ok (inv2 NF x).
Proof. intros H. unfold pow_m2. cbn [numF opsF n_dbl o_ofZ n_eqb]. rewrite rnd64_0, Req_bool_false by lra. reflexivity. Qed.

(** the fraction found for a rounded ratio *)
Lemma near_best_rnd (x : R) (dmax a b : Z) : 1 <= x <= 1048576 -> (1 <= dmax <= 1048576)%Z -> best_approx (rnd64 x) dmax a b ->
  near_best x dmax a b /\ / 4 * x <= IZR a / IZR b <= 7 / 4 * x /\ (a < 2 ^ 42)%Z.
Proof.
  intros Hx Hd BA. assert (G1 : 1 <= rnd64 x). { rewrite <- (rnd64_id 1) by (apply (F64_int 1); lia). now apply rnd64_le. }
  assert (AP := best_positive _ _ _ _ G1 (proj1 Hd) BA). destruct BA as (B1 & B2 & B3).
  assert (R1 : rel (2 * u64) (rnd64 x) x) by (apply rel_rnd0; apply Rle_trans with (bpow radix2 0); [apply bpow_le; lia|cbn; lra]).
  unfold rel in R1. pose proof (Rabs_le_inv _ _ R1) as R2.
  assert (H0 : Rabs (IZR a / IZR b - rnd64 x) <= / 2).
  { eapply Rle_trans; [apply (B3 (ZnearestE (rnd64 x)) 1%Z); lia|]. unfold Rdiv. rewrite Rinv_1, Rmult_1_r, Rabs_minus_sym. apply Znearest_half. }
  apply Rabs_le_inv in H0. assert (AB : / 4 * x <= IZR a / IZR b <= 7 / 4 * x) by (unfold u64 in *; lra).
  assert (Bp : 0 < IZR b) by (apply IZR_lt; lia).
  split; [split; [exact AP|]; split; [exact B1|]; split; [exact B2|]|split; [exact AB|]].
  - intros p q Hq. replace (IZR a / IZR b - x) with ((IZR a / IZR b - rnd64 x) + (rnd64 x - x)) by ring. eapply Rle_trans; [apply Rabs_triang|].
    specialize (B3 p q Hq). assert (Rabs (IZR p / IZR q - rnd64 x) <= Rabs (IZR p / IZR q - x) + Rabs (rnd64 x - x)).
    { replace (IZR p / IZR q - rnd64 x) with ((IZR p / IZR q - x) - (rnd64 x - x)) by ring. unfold Rminus at 1. eapply Rle_trans; [apply Rabs_triang|]. rewrite Rabs_Ropp. lra. }
    replace (/ 2 ^ 51) with (4 * u64) by (unfold u64; cbn; lra). lra.
  - apply lt_IZR. replace (IZR a) with (IZR a / IZR b * IZR b) by (field; lra).
    assert (IZR b <= 1048576) by (apply IZR_le; lia).
    apply Rle_lt_trans with (7 / 4 * 1048576 * 1048576); [|cbn; lra]. apply Rmult_le_compat; try lra; apply Rle_trans with (/ 4 * x); lra.
Qed.

(** C143.  In floating point, for signals of usual frequencies, duty cycles and S/N whose frequencies are within a factor of 2^20,
    htest() finds a fraction as close to the ratio of the frequencies as any of allowed denominator up to 2^-51 of
    the ratio, and compares with the limits the three distances up to small rounding errors: for the phase, 13 units
    of 2^-53 of the pulses elapsed over the observation times the inverse duty cycle; for the DM, 134 units relative;
    for the S/N, 9 units of the sum of both. *)
Theorem htest_float_distances :
  forall as_fraction (F H : peak NF) (tobs fmin fmax : R) (denom_max : Z) (phase_max dm_max snr_max dF dH : R),
  (* Fraction(x) is x in lowest terms *)
  (forall x, double x -> 1 <= x -> exists n d, as_fraction x = Ok (n, d) /\ (0 < d)%Z /\ Z.gcd n d = 1%Z /\ IZR n / IZR d = x) ->
  usual (p_freq F) -> usual (p_freq H) -> usual (p_ducy F) -> usual (p_ducy H) -> usual (p_snr F) -> usual tobs ->
  usual fmin -> 17 / 16 * fmin <= fmax <= 4 * fmin ->
  (1 <= denom_max <= 1048576)%Z -> p_freq F / p_freq H <= 1048576 -> p_freq H / p_freq F <= 1048576 ->
  p_dm F = Some dF -> p_dm H = Some dH -> dF = dH \/ usual (Rabs (dF - dH)) ->
  exists related p q x y z,
    htest NF as_fraction F H tobs fmin fmax denom_max phase_max dm_max snr_max = Ok (related, (p, q)) /\
    (related = true <-> x <= phase_max /\ y <= dm_max /\ z <= snr_max) /\
    (if Rle_bool (p_freq F) (p_freq H)
     then near_best (p_freq H / p_freq F) denom_max p q /\
          Rabs (x - phase_distance (p_freq F) (p_freq H) (p_ducy H) tobs p q) <= 13 * / 2 ^ 53 * (p_freq H * tobs / p_ducy H)
     else near_best (p_freq F / p_freq H) denom_max q p /\
          Rabs (x - phase_distance (p_freq H) (p_freq F) (p_ducy F) tobs q p) <= 13 * / 2 ^ 53 * (p_freq F * tobs / p_ducy F)) /\
    (let w := dm_distance dF dH fmin fmax (p_ducy F / p_freq F) (p_ducy H / p_freq H) in Rabs (y - w) <= 134 * / 2 ^ 53 * w) /\
    Rabs (z - snr_distance (p_snr F) (p_snr H) p q) <= 9 * / 2 ^ 53 * (p_snr F + Rabs (p_snr H)).
Proof.
  intros as_fraction F H tobs fmin fmax denom_max phase_max dm_max snr_max dF dH EX UF UH VF VH SF UT UB HB HD Q1 Q2 DF DH DD.
  replace (/ 2 ^ 53) with u64 by (unfold u64; cbn; lra). change (n_T NF) with R in *.
  pose proof (usual_pos _ UF) as PF. pose proof (usual_pos _ UH) as PH. pose proof (usual_pos _ UT) as PT. pose proof (usual_pos _ UB) as PB.
  assert (DM := dm_err bld dF dH fmin fmax (p_ducy F) (p_ducy H) (p_freq F) (p_freq H) DD UB HB VF VH UF UH). cbv zeta in DM.
  set (y := rnd64 (rnd64 (rnd64 (Rabs (rnd64 (dF - dH)) * 4150) * Rabs (rnd64 (inv2 NF fmin - inv2 NF fmax))) /
    Rmin (rnd64 (p_ducy F / p_freq F)) (rnd64 (p_ducy H / p_freq H)))) in *.
  (* the fraction *)
  assert (FR : forall slow fast : R, usual slow -> usual fast -> slow <= fast -> fast / slow <= 1048576 ->
    exists n d a b, as_fraction (rnd64 (fast / slow)) = Ok (n, d) /\ limit_denominator (n, d) denom_max = Ok (a, b) /\
      near_best (fast / slow) denom_max a b /\ / 4 * fast <= IZR a / IZR b * slow <= 7 / 4 * fast /\ (0 < a < 2 ^ 42)%Z /\ (0 < b <= 1048576)%Z /\
      (slow = fast -> a = b)).
  { intros slow fast Us Uf L Lq. pose proof (usual_pos _ Us) as Ps. pose proof (usual_pos _ Uf) as Pf.
    assert (L1 : 1 <= fast / slow) by (apply Rmult_le_reg_r with slow; [lra|]; unfold Rdiv; rewrite Rmult_assoc, Rinv_l by lra; lra).
    destruct (EX (rnd64 (fast / slow))) as (n & d & E & D1 & D2 & D3).
    { apply rnd64_F. }
    { rewrite <- (rnd64_id 1) by (apply (F64_int 1); lia). now apply rnd64_le. }
    destruct (limit_denominator_best n d denom_max D1 D2 (proj1 HD)) as (a & b & EL & BA). rewrite D3 in BA.
    destruct (near_best_rnd (fast / slow) denom_max a b (conj L1 Lq) HD BA) as (NB & [S1 S2] & S3).
    exists n, d, a, b. split; [exact E|]. split; [exact EL|]. split; [exact NB|]. pose proof NB as (A0 & B0 & _). split; [|split; [lia|split; [lia|]]].
    - apply (Rmult_le_compat_r slow) in S1, S2; try lra. replace (/ 4 * (fast / slow) * slow) with (/ 4 * fast) in S1 by (field; lra).
      replace (7 / 4 * (fast / slow) * slow) with (7 / 4 * fast) in S2 by (field; lra). lra.
    - intros ->. destruct BA as (_ & G & B3). specialize (B3 1%Z 1%Z ltac:(lia)). replace (fast / fast) with 1 in B3 by (field; lra).
      rewrite (rnd64_id 1) in B3 by (apply (F64_int 1); lia). replace (1 / 1 - 1) with 0 in B3 by lra. rewrite Rabs_R0 in B3.
      assert (Hb : 0 < IZR b) by (apply IZR_lt; lia).
      assert (Z0 : IZR a / IZR b - 1 = 0).
      { destruct (Req_dec (IZR a / IZR b - 1) 0); auto; exfalso. apply (Rabs_no_R0 (IZR a / IZR b - 1)); auto.
        pose proof (Rabs_pos (IZR a / IZR b - 1)). lra. }
      apply eq_IZR. replace (IZR a) with (IZR a / IZR b * IZR b) by (field; lra). replace (IZR a / IZR b) with 1 by lra. ring. }
  assert (PR : forall a b, (0 < a < 2 ^ 42)%Z -> (0 < b <= 1048576)%Z -> (1 <= a * b)%Z /\ IZR (a * b) <= bpow radix2 100).
  { intros a b Ha Hb. split; [nia|]. replace (bpow radix2 100) with (IZR (2 ^ 100)) by (cbn; lra). apply IZR_le. nia. }
  unfold htest, hdiag. rewrite DF, DH. cbn [numF opsF n_dbl o_ofZ o_div o_mul o_sub o_sqrt n_ltb n_leb]. change (n_T NF) with R in *. rewrite rnd64_0.
  rewrite (Rlt_bool_true fmin fmax) by lra. rewrite (Rlt_bool_true 0 tobs) by lra. cbn [guard bind].
  rewrite !pow_m2_inv2 by lra. rewrite (lit_F 4150) by lia.
  assert (LE : forall (x z : R) (fr : fraction), Rle_bool x phase_max && Rle_bool y dm_max && Rle_bool z snr_max = true <-> x <= phase_max /\ y <= dm_max /\ z <= snr_max).
  { intros x z _. rewrite !andb_true_iff, !Rle_bool_iff. tauto. }
  destruct (Rlt_bool_spec (p_freq H) (p_freq F)) as [L|L].
  - destruct (FR (p_freq H) (p_freq F) UH UF ltac:(lra) Q1) as (n & d & a & b & E & EL & NB & Y & A & B & _).
    rewrite E. cbn [bind]. rewrite EL. cbn [bind]. rewrite peak_eqb_refl_F. rewrite frac_gcd by (try lia; apply NB). cbn [bind fst snd].
    unfold to_float. cbn [numF opsF n_dbl o_ofZ o_div fst snd]. rewrite !(nabs_F bld) by apply rnd64_F. rewrite nmin2_F.
    rewrite (Rle_bool_false (p_freq F) (p_freq H)) by lra. destruct (PR a b A B) as [P1 P2]. rewrite (Z.mul_comm b a).
    assert (SE := snr_err (p_snr F) (p_snr H) (a * b) SF P1 P2).
    assert (PE := phase_err (p_freq H) (p_freq F) (p_ducy F) tobs a b UH UF VF UT ltac:(lia) ltac:(lia) Y).
    eexists _, b, a, _, y, _. split; [reflexivity|]. split; [apply (LE _ _ (a, b))|]. split; [split; [exact NB|exact PE]|]. split; [exact DM|].
    unfold snr_distance. rewrite <- mult_IZR, (Z.mul_comm b a). exact SE.
  - destruct (FR (p_freq F) (p_freq H) UF UH L Q2) as (n & d & a & b & E & EL & NB & Y & A & B & AB).
    rewrite E. cbn [bind]. rewrite EL. cbn [bind].
    assert (EI : (if peak_eqb NF H F then frac_inv (a, b) else @Ok fraction (a, b)) = Ok (a, b)).
    { destruct (Req_dec (p_freq H) (p_freq F)) as [EE|EE].
      - specialize (AB (eq_sym EE)). destruct (peak_eqb NF H F); auto. rewrite frac_gcd by (try lia; apply NB). now rewrite AB.
      - now rewrite peak_eqb_freq_F. }
    change (n_T NF) with R in *. rewrite EI. cbn [bind fst snd].
    unfold to_float. cbn [numF opsF n_dbl o_ofZ o_div fst snd]. rewrite !(nabs_F bld) by apply rnd64_F. rewrite nmin2_F.
    rewrite (Rle_bool_true (p_freq F) (p_freq H)) by lra. destruct (PR a b A B) as [P1 P2].
    assert (SE := snr_err (p_snr F) (p_snr H) (a * b) SF P1 P2).
    assert (PE := phase_err (p_freq F) (p_freq H) (p_ducy H) tobs a b UF UH VH UT ltac:(lia) ltac:(lia) Y).
    eexists _, a, b, _, y, _. split; [reflexivity|]. split; [apply (LE _ _ (a, b))|]. split; [split; [exact NB|exact PE]|]. split; [exact DM|].
    unfold snr_distance. rewrite <- mult_IZR. exact SE.
Qed.
End Test.
Print Assumptions htest_float_distances.

(** 3 Hz against 1 Hz: a harmonic, whatever the roundings *)
Example htest_float_used : forall bld as_fraction,
  (forall x, double x -> 1 <= x -> exists n d, as_fraction x = Ok (n, d) /\ (0 < d)%Z /\ Z.gcd n d = 1%Z /\ IZR n / IZR d = x) ->
  let pk freq snr := Peak (N := numF bld) (/ freq) freq 1 (/ 8) 0 0 snr (Some 5) in
  exists p q, htest (numF bld) as_fraction (pk 1 10) (pk 3 6) 128 1024 2048 100 1 3 3 = Ok (true, (p, q)) /\ near_best 3 100 p q.
Proof.
  intros bld af EX pk. assert (B : forall x, / 128 <= x <= 4096 -> usual x).
  { intros x Hx. split; [apply Rle_trans with (bpow radix2 (-7)); [apply bpow_le; lia|cbn; lra]|].
    apply Rle_trans with (bpow radix2 12); [cbn; lra|apply bpow_le; lia]. }
  destruct (htest_float_distances bld af (pk 1 10) (pk 3 6) 128 1024 2048 100 1 3 3 5 5 EX) as (r & p & q & x & y & z & E & R & X & Y & Z);
    cbn [pk p_freq p_ducy p_snr p_dm] in *; try (apply B; lra); try lra; try lia; try reflexivity; try (now left).
  rewrite Rle_bool_true in X by lra. destruct X as [NB X]. replace (3 / 1) with 3 in NB by field. exists p, q. split; [|exact NB].
  (* the fraction is 3 up to rounding, hence 3 *)
  pose proof NB as (P0 & Q0 & G & N3). specialize (N3 3%Z 1%Z ltac:(lia)). replace (3 / 1 - 3) with 0 in N3 by field. rewrite Rabs_R0 in N3.
  assert (Qp : 0 < IZR q) by (apply IZR_lt; lia). assert (Qb : IZR q <= 100) by (apply IZR_le; lia).
  assert (E3 : p = (3 * q)%Z).
  { assert (A : (-1 < p - 3 * q < 1)%Z); [|lia]. assert (K : Rabs (IZR (p - 3 * q)) < 1).
    { replace (IZR (p - 3 * q)) with ((IZR p / IZR q - 3) * IZR q) by (rewrite minus_IZR, mult_IZR; field; lra).
      rewrite Rabs_mult, (Rabs_pos_eq (IZR q)) by lra. apply Rle_lt_trans with (/ 1000000 * 100); [|lra]. apply Rmult_le_compat; [apply Rabs_pos|lra| |lra].
      eapply Rle_trans; [exact N3|]. cbn. lra. }
    apply Rabs_def2 in K. split; apply lt_IZR; lra. }
  assert (E1 : q = 1%Z).
  { subst p. assert (D : Z.divide q (Z.gcd (3 * q) q)) by (apply Z.gcd_greatest; [exists 3%Z|exists 1%Z]; lia).
    rewrite G in D. apply Z.divide_1_r_nonneg in D; lia. }
  subst q. subst p. change (3 * 1)%Z with 3%Z in *. rewrite E. do 3 f_equal. apply R.
  unfold phase_distance, dm_distance, snr_distance in *. replace (3 / 1 * 1 - 3) with 0 in X by field. rewrite Rabs_R0 in X.
  replace (0 * 128 / / 8) with 0 in X by field. replace (5 - 5) with 0 in Y by ring. rewrite Rabs_R0 in Y.
  cbv zeta in Y. unfold Rdiv in Y. rewrite !Rmult_0_l in Y.
  assert (S3 : 17 / 10 < sqrt 3 < 18 / 10).
  { split; apply Rsqr_incrst_0; try (rewrite Rsqr_sqrt by lra; unfold Rsqr; lra); try lra; apply sqrt_pos. }
  replace (3 * 1) with 3 in Z by ring. assert (10 / (18 / 10) < 10 / sqrt 3 < 10 / (17 / 10)).
  { unfold Rdiv. split; apply Rmult_lt_compat_l; try lra; apply Rinv_lt_contravar; try lra; apply Rmult_lt_0_compat; lra. }
  replace (10 / (18 / 10)) with (100 / 18) in * by field. replace (10 / (17 / 10)) with (100 / 17) in * by field.
  rewrite (Rabs_pos_eq (6 - 10 / sqrt 3)) in Z by lra. rewrite (Rabs_pos_eq 6) in Z by lra.
  apply Rabs_le_inv in X, Y, Z. cbn in X, Z. repeat split; lra.
Qed.
