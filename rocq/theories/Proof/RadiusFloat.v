(** The coverage radius of a trial DM in floating point. *)
From Coq Require Import List Arith ZArith Bool Lia Reals Lra.
From Flocq Require Import Core.
From Verif Require Import Base.Result Base.Num Model.DmIter Proof.Downsample Proof.SearchFloat.
Import ListNotations.
Local Open Scope R_scope.

(** [a] is [x >= 0] up to the relative error [e] *)
Definition rel (e a x : R) : Prop := Rabs (a - x) <= e * x.

Lemma rel_exact x : rel 0 x x.
Proof. unfold rel. replace (x - x) with 0 by ring. rewrite Rabs_R0. lra. Qed.

Lemma rel_weak e e' a x : 0 <= x -> e <= e' -> rel e a x -> rel e' a x.
Proof. unfold rel. intros Hx He H. eapply Rle_trans; [exact H|]. now apply Rmult_le_compat_r. Qed.

Lemma rel_rnd e a x : 0 <= e <= / 2 -> bpow radix2 (-1000) <= x -> rel e a x -> rel (e + 2 * u64) (rnd64 a) x.
Proof.
  unfold rel. intros He Hx H. pose proof (bpow_gt_0 radix2 (-1000)) as B0.
  pose proof (rnd64_err a) as E.
  assert (T : bpow radix2 (-1075) <= / 4 * u64 * x).
  { apply Rle_trans with (/ 4 * u64 * bpow radix2 (-1000)).
    - replace (/ 4 * u64) with (bpow radix2 (-55)) by (cbn; unfold u64; lra). rewrite <- bpow_plus. apply bpow_le. lia.
    - apply Rmult_le_compat_l; [unfold u64; lra|auto]. }
  assert (A : Rabs a <= 3 / 2 * x).
  { replace a with ((a - x) + x) by ring. eapply Rle_trans; [apply Rabs_triang|]. rewrite (Rabs_pos_eq x) by lra.
    assert (e * x <= / 2 * x) by (apply Rmult_le_compat_r; lra). lra. }
  assert (u64 * Rabs a <= u64 * (3 / 2 * x)) by (apply Rmult_le_compat_l; [unfold u64; lra|auto]).
  replace (rnd64 a - x) with ((rnd64 a - a) + (a - x)) by ring. eapply Rle_trans; [apply Rabs_triang|].
  assert (0 <= u64 * x) by (apply Rmult_le_pos; [unfold u64|]; lra).
  lra.
Qed.

Lemma rel_rnd0 x : bpow radix2 (-1000) <= x -> rel (2 * u64) (rnd64 x) x.
Proof. intros H. replace (2 * u64) with (0 + 2 * u64) by ring. apply rel_rnd; [lra|auto|apply rel_exact]. Qed.

Lemma rel_mul e1 e2 e3 a b x y : 0 <= e1 -> 0 <= e2 -> e1 + e2 + e1 * e2 <= e3 -> 0 <= x -> 0 <= y ->
  rel e1 a x -> rel e2 b y -> rel e3 (a * b) (x * y).
Proof.
  unfold rel. intros H1 H2 H3 Hx Hy Ha Hb. assert (Hxy : 0 <= x * y) by now apply Rmult_le_pos.
  apply Rle_trans with ((e1 + e2 + e1 * e2) * (x * y)); [|now apply Rmult_le_compat_r].
  replace (a * b - x * y) with ((a - x) * (b - y) + ((a - x) * y + x * (b - y))) by ring.
  eapply Rle_trans; [apply Rabs_triang|]. eapply Rle_trans; [apply Rplus_le_compat_l, Rabs_triang|].
  rewrite !Rabs_mult, (Rabs_pos_eq x), (Rabs_pos_eq y) by auto.
  assert (Rabs (a - x) * Rabs (b - y) <= (e1 * x) * (e2 * y)) by (apply Rmult_le_compat; auto using Rabs_pos).
  assert (Rabs (a - x) * y <= (e1 * x) * y) by (apply Rmult_le_compat_r; auto).
  assert (x * Rabs (b - y) <= x * (e2 * y)) by (apply Rmult_le_compat_l; auto).
  lra.
Qed.

Lemma rel_inv e e' a x : 0 <= e <= / 2 -> e <= e' * (1 - e) -> 0 < x -> rel e a x -> rel e' (1 / a) (/ x).
Proof.
  unfold rel. intros He H' Hx H. apply Rabs_le_inv in H.
  assert (EX : e * x <= / 2 * x) by (apply Rmult_le_compat_r; lra).
  assert (A : (1 - e) * x <= a) by lra. assert (A0 : 0 < a) by lra.
  replace (1 / a - / x) with ((x - a) * / (a * x)) by (field; lra).
  assert (P : 0 < a * x) by (apply Rmult_lt_0_compat; lra).
  rewrite Rabs_mult, (Rabs_pos_eq (/ (a * x))) by (apply Rlt_le, Rinv_0_lt_compat; auto).
  apply Rmult_le_reg_r with (a * x); auto. rewrite Rmult_assoc, Rinv_l, Rmult_1_r by lra.
  replace (e' * / x * (a * x)) with (e' * a) by (field; lra).
  apply Rle_trans with (e * x); [apply Rabs_le; lra|].
  apply Rle_trans with (e' * ((1 - e) * x)).
  - rewrite <- Rmult_assoc. apply Rmult_le_compat_r; lra.
  - apply Rmult_le_compat_l; auto. assert (0 <= e' * (1 - e)) by lra.
    apply Rmult_le_reg_r with (1 - e); lra.
Qed.

Lemma rel_sub e e' m a b x y : 0 <= e -> 0 <= y <= x -> x + y <= m * (x - y) -> e * m <= e' ->
  rel e a x -> rel e b y -> rel e' (a - b) (x - y).
Proof.
  unfold rel. intros He Hxy Hm He' Ha Hb.
  apply Rle_trans with (e * m * (x - y)); [|apply Rmult_le_compat_r; lra].
  replace (a - b - (x - y)) with ((a - x) - (b - y)) by ring.
  unfold Rminus at 1. eapply Rle_trans; [apply Rabs_triang|]. rewrite Rabs_Ropp.
  assert (e * (x + y) <= e * (m * (x - y))) by (apply Rmult_le_compat_l; auto). lra.
Qed.

Lemma rel_max e a x w : 0 <= e -> 0 <= x -> 0 <= w -> Rabs (a - x) <= e * Rmax w x -> rel e (Rmax w a) (Rmax w x).
Proof.
  unfold rel. intros He Hx Hw H. eapply Rle_trans; [|exact H].
  unfold Rmax at 1 2. apply Rabs_le_inv in H. unfold Rabs. destruct (Rle_dec w a), (Rle_dec w x);
    repeat destruct Rcase_abs; lra.
Qed.

Lemma inv2_F bld x : inv2 (numF bld) x = rnd64 (1 / rnd64 (x * x)).
Proof.
  unfold inv2. cbn [numF opsF n_dbl o_ofZ o_mul o_div]. rewrite (rnd64_id 1); [reflexivity|apply (F64_int 1); lia].
Qed.

Lemma inv2_rel bld c g f : 0 <= c <= 40 -> bpow radix2 (-101) <= f <= bpow radix2 103 -> rel (c * u64) g f ->
  rel ((2 * c + 7) * u64) (inv2 (numF bld) g) (/ f ^ 2) /\ bpow radix2 (-206) <= / f ^ 2.
Proof.
  intros Hc Hf H. rewrite inv2_F. pose proof (bpow_gt_0 radix2 (-101)). pose proof (bpow_gt_0 radix2 103).
  assert (f0 : 0 < f) by lra. assert (F2 : f ^ 2 = f * f) by ring. rewrite F2.
  assert (L1 : bpow radix2 (-202) <= f * f).
  { change (-202)%Z with (-101 + -101)%Z. rewrite bpow_plus. apply Rmult_le_compat; lra. }
  assert (L2 : f * f <= bpow radix2 206).
  { change 206%Z with (103 + 103)%Z. rewrite bpow_plus. apply Rmult_le_compat; lra. }
  assert (P : 0 < f * f) by (apply Rmult_lt_0_compat; lra).
  assert (L3 : bpow radix2 (-206) <= / (f * f)).
  { change (-206)%Z with (- (206))%Z. rewrite bpow_opp. now apply Rinv_le. }
  assert (U : 0 < u64) by (unfold u64; lra).
  assert (CU : 0 <= c * u64 <= 40 * u64) by (split; [apply Rmult_le_pos|apply Rmult_le_compat_r]; lra).
  assert (CC : c * u64 * (c * u64) <= 40 * u64 * (c * u64)) by (apply Rmult_le_compat_r; lra).
  assert (U40 : 40 * u64 * (c * u64) <= u64 * u64 * 1600) by (unfold u64 in *; lra).
  assert (U41 : u64 * u64 * 1600 <= / 2 * u64) by (unfold u64; lra).
  assert (M : rel ((2 * c + 1) * u64) (g * g) (f * f)) by (apply rel_mul with (c * u64) (c * u64); auto; lra).
  apply rel_rnd in M; [|unfold u64 in *; lra|eapply Rle_trans; [|exact L1]; apply bpow_le; lia].
  set (e := (2 * c + 1) * u64 + 2 * u64) in *.
  assert (E1 : e <= 83 * u64) by (unfold e; lra).
  assert (E0 : 0 <= e) by (unfold e; lra).
  assert (I : rel ((2 * c + 4) * u64) (1 / rnd64 (g * g)) (/ (f * f))).
  { apply rel_inv with e; auto; [unfold u64 in *; lra|].
    assert ((2 * c + 4) * u64 * e <= (2 * c + 4) * u64 * (83 * u64)) by (apply Rmult_le_compat_l; lra).
    assert ((2 * c + 4) * u64 * (83 * u64) <= / 2 * u64) by (unfold u64 in *; lra). unfold e at 1. lra. }
  apply rel_rnd in I; [|unfold u64 in *; lra|eapply Rle_trans; [|exact L3]; apply bpow_le; lia].
  split; auto. eapply rel_weak; [|  |exact I]; [apply Rlt_le, Rinv_0_lt_compat; auto|lra].
Qed.

Lemma sum_diff lo hi m : 0 < lo < hi -> hi * hi + lo * lo <= m * (hi * hi - lo * lo) ->
  / lo ^ 2 + / hi ^ 2 <= m * (/ lo ^ 2 - / hi ^ 2).
Proof.
  intros H1 H2. assert (P : 0 < / (lo ^ 2 * hi ^ 2)).
  { apply Rinv_0_lt_compat, Rmult_lt_0_compat; apply pow_lt; lra. }
  replace (/ lo ^ 2 + / hi ^ 2) with ((hi * hi + lo * lo) * / (lo ^ 2 * hi ^ 2)) by (field; lra).
  replace (m * (/ lo ^ 2 - / hi ^ 2)) with (m * (hi * hi - lo * lo) * / (lo ^ 2 * hi ^ 2)) by (field; lra).
  apply Rmult_le_compat_r; lra.
Qed.

Section Radius.
Context (bld : build) (fmin fmax : R) (nchans : Z) (wmin : R).
Context (HF : bpow radix2 (-100) <= fmin <= bpow radix2 100) (HB : 17 / 16 * fmin <= fmax <= 4 * fmin).
Context (HN : (1 <= nchans <= 16384)%Z) (HW : bpow radix2 (-500) <= wmin).
Notation cw := ((fmax - fmin) / IZR nchans).
Notation mid := ((fmin + fmax) / 2).
Notation K := (/ (241 / 1000000)).
Notation kd := (K * (/ fmin ^ 2 - / fmax ^ 2)).
Notation ks := (K * (/ (mid - cw / 2) ^ 2 - / (mid + cw / 2) ^ 2)).

Lemma lit_F z : (Z.abs z < 2 ^ 53)%Z -> rnd64 (IZR z) = IZR z.
Proof. intros H. now apply rnd64_id, F64_int. Qed.

Lemma K_F : rel (5 * u64) (KDM (numF bld)) K.
Proof.
  unfold KDM. cbn [numF opsF n_dbl o_ofZ o_mul o_div]. rewrite !lit_F by lia.
  assert (B : bpow radix2 (-1000) <= / 1000000000).
  { apply Rle_trans with (bpow radix2 (-40)); [apply bpow_le; lia|cbn; lra]. }
  assert (R1 := rel_rnd0 (241 / 1000000) ltac:(lra)).
  assert (R2 : rel (3 * u64) (1 / rnd64 (241 / 1000000)) K).
  { apply rel_inv with (2 * u64); auto; unfold u64; lra. }
  apply rel_rnd in R2; [|unfold u64; lra|].
  - eapply rel_weak; [| |exact R2]; [|unfold u64; lra]. apply Rlt_le, Rinv_0_lt_compat. lra.
  - replace K with (1000000 / 241) by field. lra.
Qed.

Lemma F0 : 0 < fmin. Proof. pose proof (bpow_gt_0 radix2 (-100)). lra. Qed.
Lemma F_lo : bpow radix2 (-1000) <= / 1000000000000 * fmin.
Proof.
  apply Rle_trans with (bpow radix2 (-40) * bpow radix2 (-100)).
  - rewrite <- bpow_plus. apply bpow_le. lia.
  - apply Rmult_le_compat; try apply bpow_ge_0; [cbn; lra|lra].
Qed.

Lemma n_bounds : 1 <= IZR nchans <= 16384.
Proof. split; apply IZR_le; lia. Qed.

Lemma cw_b : / 278528 * fmax <= cw <= fmax - fmin.
Proof.
  pose proof n_bounds. pose proof F0. split.
  - apply Rmult_le_reg_r with (IZR nchans); [lra|]. unfold Rdiv. rewrite (Rmult_assoc _ (/ IZR nchans)), Rinv_l by lra.
    apply Rle_trans with (/ 278528 * fmax * 16384); [apply Rmult_le_compat_l; lra|lra].
  - apply Rmult_le_reg_r with (IZR nchans); [lra|]. unfold Rdiv. rewrite Rmult_assoc, Rinv_l by lra.
    apply Rmult_le_compat_l; lra.
Qed.

Lemma edges_F : rel (21 * u64) (rnd64 (rnd64 (rnd64 (fmax + fmin) / 2) - rnd64 (rnd64 (rnd64 (fmax - fmin) / IZR nchans) / 2))) (mid - cw / 2) /\
  rel (21 * u64) (rnd64 (rnd64 (rnd64 (fmax + fmin) / 2) + rnd64 (rnd64 (rnd64 (fmax - fmin) / IZR nchans) / 2))) (mid + cw / 2).
Proof.
  pose proof F0. pose proof F_lo. pose proof n_bounds. pose proof cw_b.
  assert (U : 0 < u64 <= / 1000000000000) by (unfold u64; lra).
  assert (S1 := rel_rnd0 (fmax + fmin) ltac:(lra)).
  assert (S2 : rel (4 * u64) (rnd64 (rnd64 (fmax + fmin) / 2)) mid).
  { apply rel_weak with (2 * u64 + 2 * u64); [lra|lra|]. apply rel_rnd; [lra|lra|]. unfold rel in *.
    replace (rnd64 (fmax + fmin) / 2 - mid) with ((rnd64 (fmax + fmin) - (fmax + fmin)) * / 2) by field.
    rewrite Rabs_mult, (Rabs_pos_eq (/ 2)) by lra. lra. }
  assert (D1 := rel_rnd0 (fmax - fmin) ltac:(lra)).
  assert (D2 : rel (4 * u64) (rnd64 (rnd64 (fmax - fmin) / IZR nchans)) cw).
  { apply rel_weak with (2 * u64 + 2 * u64); [lra|lra|]. apply rel_rnd; [lra|lra|]. unfold rel in *.
    replace (rnd64 (fmax - fmin) / IZR nchans - cw) with ((rnd64 (fmax - fmin) - (fmax - fmin)) * / IZR nchans) by (field; lra).
    assert (0 < / IZR nchans) by (apply Rinv_0_lt_compat; lra).
    rewrite Rabs_mult, (Rabs_pos_eq (/ IZR nchans)) by lra.
    apply (Rmult_le_compat_r (/ IZR nchans)) in D1; [|lra]. unfold Rdiv. lra. }
  assert (D3 : rel (6 * u64) (rnd64 (rnd64 (rnd64 (fmax - fmin) / IZR nchans) / 2)) (cw / 2)).
  { apply rel_weak with (4 * u64 + 2 * u64); [lra|lra|]. apply rel_rnd; [lra|lra|]. unfold rel in *.
    replace (rnd64 (rnd64 (fmax - fmin) / IZR nchans) / 2 - cw / 2)
      with ((rnd64 (rnd64 (fmax - fmin) / IZR nchans) - cw) * / 2) by (field; lra).
    rewrite Rabs_mult, (Rabs_pos_eq (/ 2)) by lra. lra. }
  set (s := rnd64 (rnd64 (fmax + fmin) / 2)) in *. set (d := rnd64 (rnd64 (rnd64 (fmax - fmin) / IZR nchans) / 2)) in *.
  set (h := cw / 2) in *. assert (Hh : h <= 3 / 2 * fmin) by (unfold h; lra).
  assert (Hl : fmin <= mid - h) by (unfold h; lra). assert (h0 : 0 < h) by (unfold h; lra).
  assert (U1 : u64 * mid <= u64 * (5 / 2 * (mid - h))) by (apply Rmult_le_compat_l; lra).
  assert (U2 : u64 * h <= u64 * (3 / 2 * (mid - h))) by (apply Rmult_le_compat_l; lra).
  assert (U3 : 0 <= u64 * h) by (apply Rmult_le_pos; lra). assert (U4 : 0 <= u64 * mid) by (apply Rmult_le_pos; lra).
  unfold rel in S2, D3. apply Rabs_le_inv in S2, D3.
  split.
  - apply rel_weak with (19 * u64 + 2 * u64); [lra|lra|]. apply rel_rnd; [lra|lra|]. unfold rel. apply Rabs_le. lra.
  - apply rel_weak with (19 * u64 + 2 * u64); [lra|lra|]. apply rel_rnd; [lra|lra|]. unfold rel. apply Rabs_le. lra.
Qed.

Lemma kd_F : rel (140 * u64) (rnd64 (KDM (numF bld) * rnd64 (inv2 (numF bld) fmin - inv2 (numF bld) fmax))) kd /\
  bpow radix2 (-206) <= kd <= bpow radix2 220.
Proof.
  pose proof F0. pose proof F_lo. assert (U : 0 < u64 <= / 1000000000000) by (unfold u64; lra).
  assert (B1 : bpow radix2 (-101) <= fmin <= bpow radix2 103).
  { split; [eapply Rle_trans; [|apply HF]|eapply Rle_trans; [apply HF|]]; apply bpow_le; lia. }
  assert (B2 : bpow radix2 (-101) <= fmax <= bpow radix2 103).
  { split; [lra|]. eapply Rle_trans; [apply HB|]. apply Rle_trans with (4 * bpow radix2 100); [lra|].
    change 4 with (bpow radix2 2). rewrite <- bpow_plus. apply bpow_le. lia. }
  destruct (inv2_rel bld 0 fmin fmin ltac:(lra) B1) as [A1 A2]; [rewrite Rmult_0_l; apply rel_exact|].
  destruct (inv2_rel bld 0 fmax fmax ltac:(lra) B2) as [A3 A4]; [rewrite Rmult_0_l; apply rel_exact|].
  set (a := / fmin ^ 2) in *. set (b := / fmax ^ 2) in *.
  assert (SD : a + b <= 17 * (a - b)).
  { apply sum_diff; [lra|]. assert (17 / 16 * fmin * (17 / 16 * fmin) <= fmax * fmax) by (apply Rmult_le_compat; lra).
    assert (0 <= fmin * fmin) by (apply Rmult_le_pos; lra). lra. }
  pose proof (bpow_gt_0 radix2 (-206)) as T0.
  assert (TL : bpow radix2 (-1000) <= / 1000000 * bpow radix2 (-206)).
  { apply Rle_trans with (bpow radix2 (-40) * bpow radix2 (-206)).
    - rewrite <- bpow_plus. apply bpow_le. lia.
    - apply Rmult_le_compat_r; [lra|cbn; lra]. }
  assert (D : rel (119 * u64) (inv2 (numF bld) fmin - inv2 (numF bld) fmax) (a - b)).
  { apply rel_sub with ((2 * 0 + 7) * u64) 17; auto; lra. }
  apply rel_rnd in D; [|lra|lra].
  assert (M : rel (127 * u64) (KDM (numF bld) * rnd64 (inv2 (numF bld) fmin - inv2 (numF bld) fmax)) (K * (a - b))).
  { apply rel_mul with (5 * u64) (119 * u64 + 2 * u64); try lra; [unfold u64; lra|apply K_F|exact D]. }
  assert (KV : K = 1000000 / 241) by field.
  apply rel_rnd in M; [|lra|fold a b; lra]. split; [|split].
  - eapply rel_weak; [| |exact M]; fold a b; lra.
  - fold a b. lra.
  - assert (a <= bpow radix2 200).
    { unfold a. change 200%Z with (- (-200))%Z. rewrite bpow_opp. apply Rinv_le; [apply bpow_gt_0|].
      replace (fmin ^ 2) with (fmin * fmin) by ring. change (-200)%Z with (-100 + -100)%Z. rewrite bpow_plus.
      apply Rmult_le_compat; try apply bpow_ge_0; lra. }
    assert (E : bpow radix2 220 = 1048576 * bpow radix2 200).
    { change 220%Z with (20 + 200)%Z. rewrite bpow_plus. f_equal. }
    fold a b. rewrite E. lra.
Qed.

Lemma ks_F : rel (27300010 * u64) (rnd64 (KDM (numF bld) *
    rnd64 (inv2 (numF bld) (rnd64 (rnd64 (rnd64 (fmax + fmin) / 2) - rnd64 (rnd64 (rnd64 (fmax - fmin) / IZR nchans) / 2))) -
           inv2 (numF bld) (rnd64 (rnd64 (rnd64 (fmax + fmin) / 2) + rnd64 (rnd64 (rnd64 (fmax - fmin) / IZR nchans) / 2)))))) ks /\ 0 < ks.
Proof.
  pose proof F0. pose proof F_lo. pose proof cw_b. assert (U : 0 < u64 <= / 1000000000000) by (unfold u64; lra).
  destruct edges_F as [E1 E2]. set (g1 := rnd64 (_ - _)) in *. set (g2 := rnd64 (_ + rnd64 _)) in *.
  set (x1 := mid - cw / 2) in *. set (x2 := mid + cw / 2) in *.
  assert (G1 : fmin <= x1) by (unfold x1; lra). assert (G2 : x2 <= fmax) by (unfold x2; lra).
  assert (G3 : x2 - x1 = cw) by (unfold x1, x2; lra). assert (G4 : x1 < x2) by lra.
  assert (B4 : fmax <= bpow radix2 103).
  { eapply Rle_trans; [apply HB|]. apply Rle_trans with (4 * bpow radix2 100); [lra|].
    change 4 with (bpow radix2 2). rewrite <- bpow_plus. apply bpow_le. lia. }
  assert (B0 : bpow radix2 (-101) <= bpow radix2 (-100)) by (apply bpow_le; lia).
  destruct (inv2_rel bld 21 g1 x1 ltac:(lra) ltac:(lra) E1) as [A1 A2].
  destruct (inv2_rel bld 21 g2 x2 ltac:(lra) ltac:(lra) E2) as [A3 A4].
  set (a := / x1 ^ 2) in *. set (b := / x2 ^ 2) in *.
  assert (SD : a + b <= 557056 * (a - b)).
  { apply sum_diff; [lra|]. assert (C : / 278528 * x2 <= x2 - x1) by lra.
    assert (/ 278528 * x2 * (x2 + x1) <= (x2 - x1) * (x2 + x1)) by (apply Rmult_le_compat_r; lra).
    assert (x1 * x1 <= x2 * x2) by (apply Rmult_le_compat; lra). assert (0 <= x1 * x2) by (apply Rmult_le_pos; lra).
    assert (0 <= x1 * x1) by (apply Rmult_le_pos; lra). lra. }
  pose proof (bpow_gt_0 radix2 (-206)) as T0.
  assert (TL : bpow radix2 (-1000) <= / 1000000000000 * bpow radix2 (-206)).
  { apply Rle_trans with (bpow radix2 (-40) * bpow radix2 (-206)).
    - rewrite <- bpow_plus. apply bpow_le. lia.
    - apply Rmult_le_compat_r; [lra|cbn; lra]. }
  assert (D : rel (49 * 557056 * u64) (inv2 (numF bld) g1 - inv2 (numF bld) g2) (a - b)).
  { apply rel_sub with ((2 * 21 + 7) * u64) 557056; auto; lra. }
  apply rel_rnd in D; [|unfold u64; lra|lra].
  assert (KV : K = 1000000 / 241) by field.
  assert (M : rel (27300000 * u64) (KDM (numF bld) * rnd64 (inv2 (numF bld) g1 - inv2 (numF bld) g2)) (K * (a - b))).
  { apply rel_mul with (5 * u64) (49 * 557056 * u64 + 2 * u64); try lra; [unfold u64; lra|apply K_F|exact D]. }
  apply rel_rnd in M; [|unfold u64; lra|fold a b; lra]. split; [|fold a b; lra].
  eapply rel_weak; [| |exact M]; fold a b; lra.
Qed.

Lemma radius_F d : dm_radius (numF bld) fmin fmax nchans wmin d =
  rnd64 (Rmax wmin (rnd64 (rnd64 (KDM (numF bld) *
    rnd64 (inv2 (numF bld) (rnd64 (rnd64 (rnd64 (fmax + fmin) / 2) - rnd64 (rnd64 (rnd64 (fmax - fmin) / IZR nchans) / 2))) -
           inv2 (numF bld) (rnd64 (rnd64 (rnd64 (fmax + fmin) / 2) + rnd64 (rnd64 (rnd64 (fmax - fmin) / IZR nchans) / 2))))) * d)) /
    rnd64 (KDM (numF bld) * rnd64 (inv2 (numF bld) fmin - inv2 (numF bld) fmax))).
Proof.
  unfold dm_radius, nmax2. cbn [numF opsF n_dbl o_ofZ o_add o_sub o_mul o_div n_ltb].
  rewrite (lit_F 2), (lit_F nchans) by lia.
  f_equal. f_equal. match goal with |- (if Rlt_bool ?a ?b then _ else _) = _ => destruct (Rlt_bool_spec a b) end.
  - rewrite Rmax_right; [reflexivity|lra].
  - rewrite Rmax_left; [reflexivity|lra].
Qed.

(** the rounded radius is the exact one up to a relative error of [2 ^ -28] *)
Lemma radius_err d : 0 <= d ->
  rel (33554432 * u64) (dm_radius (numF bld) fmin fmax nchans wmin d) (Rmax wmin (ks * d) / kd) /\
  bpow radix2 (-720) <= Rmax wmin (ks * d) / kd.
Proof.
  intros Hd. rewrite radius_F. destruct ks_F as [KS ks0]. destruct kd_F as [KD [kd0 kd1]].
  set (FS := rnd64 (KDM (numF bld) * rnd64 (inv2 (numF bld) (rnd64 _) - _))) in *.
  set (FD := rnd64 (KDM (numF bld) * rnd64 (inv2 (numF bld) fmin - _))) in *.
  set (S := ks) in *. set (D := kd) in *.
  assert (U : 0 < u64 <= / 1000000000000) by (unfold u64; lra).
  pose proof (bpow_gt_0 radix2 (-206)) as T0. pose proof (bpow_gt_0 radix2 (-500)) as T1.
  assert (x0 : 0 <= S * d) by (apply Rmult_le_pos; lra).
  set (m := Rmax wmin (S * d)) in *.
  assert (m1 : wmin <= m) by apply Rmax_l. assert (m2 : S * d <= m) by apply Rmax_r.
  assert (N1 : Rabs (FS * d - S * d) <= 27300010 * u64 * (S * d)).
  { replace (FS * d - S * d) with ((FS - S) * d) by ring. rewrite Rabs_mult, (Rabs_pos_eq d) by auto.
    apply (Rmult_le_compat_r d) in KS; lra. }
  assert (N2 : Rabs (rnd64 (FS * d) - S * d) <= 27300020 * u64 * m).
  { pose proof (rnd64_err (FS * d)) as E.
    assert (bpow radix2 (-1075) <= u64 * m).
    { apply Rle_trans with (u64 * bpow radix2 (-500)); [|apply Rmult_le_compat_l; lra].
      replace u64 with (bpow radix2 (-53)) by (cbn; unfold u64; lra). rewrite <- bpow_plus. apply bpow_le. lia. }
    assert (M : 27300010 * u64 * (S * d) <= 27300010 * u64 * m) by (apply Rmult_le_compat_l; lra).
    assert (M' : 27300010 * u64 * m <= / 2 * m) by (apply Rmult_le_compat_r; [lra|unfold u64; lra]).
    assert (A : Rabs (FS * d) <= 2 * m) by (apply Rabs_le_inv in N1; apply Rabs_le; lra).
    assert (u64 * Rabs (FS * d) <= u64 * (2 * m)) by (apply Rmult_le_compat_l; lra).
    assert (0 <= u64 * m) by (apply Rmult_le_pos; lra).
    apply Rabs_le_inv in E, N1. apply Rabs_le. lra. }
  assert (N3 := rel_max (27300020 * u64) _ _ wmin ltac:(lra) x0 ltac:(lra) N2). fold m in N3.
  assert (I : rel (141 * u64) (1 / FD) (/ D)) by (apply rel_inv with (140 * u64); auto; unfold u64; lra).
  assert (P : 0 < / D) by (apply Rinv_0_lt_compat; lra).
  assert (Q : rel (27300170 * u64) (Rmax wmin (rnd64 (FS * d)) * (1 / FD)) (m * / D)).
  { apply rel_mul with (27300020 * u64) (141 * u64); auto; try lra. unfold u64; lra. }
  assert (L : bpow radix2 (-720) <= m * / D).
  { change (-720)%Z with (-500 + - (220))%Z. rewrite bpow_plus. apply Rmult_le_compat; try apply bpow_ge_0; [lra|].
    rewrite bpow_opp. apply Rinv_le; lra. }
  split; [|exact L].
  replace (Rmax wmin (rnd64 (FS * d)) / FD) with (Rmax wmin (rnd64 (FS * d)) * (1 / FD)) by (unfold Rdiv; ring).
  apply rel_rnd in Q; [|unfold u64; lra|eapply Rle_trans; [|exact L]; apply bpow_le; lia].
  eapply rel_weak; [| |exact Q]; [|lra]. apply Rmult_le_pos; lra.
Qed.
End Radius.
