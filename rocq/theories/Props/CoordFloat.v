(** C145: the coordinates of SIGPROC headers in floating point. *)
From Coq Require Import List Arith ZArith Bool Lia Reals Lra.
From Flocq Require Import Core Sterbenz.
From Verif Require Import Base.Result Base.Num Model.Sigproc Proof.Downsample Proof.SearchFloat Proof.ClusterFloat Proof.RadiusFloat.
Local Open Scope R_scope.

Definition nil_or_usual (x : R) : Prop := x = 0 \/ bpow radix2 (-1000) <= x.

Lemma rel_rndz e a x : 0 <= e <= / 2 -> nil_or_usual x -> rel e a x -> rel (e + 2 * u64) (rnd64 a) x.
Proof.
  intros He [->|Hx] H; [|now apply rel_rnd]. unfold rel in *. rewrite Rmult_0_r in *. rewrite Rminus_0_r in *.
  assert (a = 0) by (unfold Rabs in H; destruct (Rcase_abs a); lra).
  subst a. unfold rnd64. rewrite round_0 by typeclasses eauto. rewrite Rabs_R0. lra.
Qed.

Lemma rel_add e a b x y : rel e a x -> rel e b y -> rel e (a + b) (x + y).
Proof. unfold rel. intros H1 H2. apply Rabs_le_inv in H1, H2. apply Rabs_le. lra. Qed.

Section Coord.
Context (bld : build).
Local Notation NF := (numF bld).

(** Python's divmod by [y] of [q * y + r], for a small remainder: exact *)
Lemma divmod_F (q y : Z) (r : R) : (0 <= q < 2 ^ 30)%Z -> (1 <= y <= 10000)%Z -> 0 <= r <= 3 / 4 * IZR y ->
  F64 (IZR q * IZR y + r) -> divmod NF (IZR q * IZR y + r : R) (IZR y : R) = ((IZR q : R), (r : R)).
Proof.
  intros Hq Hy Hr F. assert (Y : 1 <= IZR y <= 10000) by (split; apply IZR_le; lia). assert (Q : 0 <= IZR q) by (apply IZR_le; lia).
  unfold divmod. cbn [numF opsF n_dbl o_ofZ o_div o_sub o_mul n_floor]. change (n_T NF) with R in *.
  assert (FL : Zfloor (rnd64 ((IZR q * IZR y + r) / IZR y)) = q).
  { apply Zfloor_imp. rewrite plus_IZR.
    assert (E : (IZR q * IZR y + r) / IZR y = IZR q + r / IZR y) by (field; lra). rewrite E.
    assert (A : 0 <= r / IZR y <= 3 / 4).
    { split; [apply Rmult_le_pos; [lra|apply Rlt_le, Rinv_0_lt_compat; lra]|].
      apply Rmult_le_reg_r with (IZR y); [lra|]. unfold Rdiv at 1. rewrite Rmult_assoc, Rinv_l by lra. lra. }
    assert (B : F64 (IZR q + 3 / 4)).
    { replace (IZR q + 3 / 4) with (F2R (Float radix2 (4 * q + 3) (-2))) by (unfold F2R; cbn [Fnum Fexp]; rewrite plus_IZR, mult_IZR; cbn; lra).
      apply generic_format_FLT. exists (Float radix2 (4 * q + 3) (-2)); [reflexivity| |cbn; lia]. cbn [Fnum]. change (Zpower radix2 53) with (2 ^ 53)%Z. lia. }
    split.
    - rewrite <- (lit_F q) at 1 by lia. apply rnd64_le. lra.
    - apply Rle_lt_trans with (IZR q + 3 / 4); [|lra]. rewrite <- (rnd64_id _ B). apply rnd64_le. lra. }
  rewrite FL, lit_F by lia. f_equal.
  rewrite <- mult_IZR. rewrite (lit_F (q * y)) by nia. rewrite mult_IZR. replace (IZR q * IZR y + r - IZR q * IZR y) with r by ring.
  apply rnd64_id. destruct (Z.eq_dec q 0) as [->|N]; [replace r with (0 * IZR y + r) by ring; exact F|].
  assert (Q1 : 1 <= IZR q) by (apply IZR_le; lia). assert (QY : IZR y <= IZR q * IZR y) by (rewrite <- (Rmult_1_l (IZR y)) at 1; apply Rmult_le_compat_r; lra).
  replace r with ((IZR q * IZR y + r) + - (IZR q * IZR y)) by ring.
  apply generic_format_plus_weak; try typeclasses eauto.
  - exact F.
  - apply generic_format_opp. rewrite <- mult_IZR. apply F64_int. nia.
  - replace ((IZR q * IZR y + r) + - (IZR q * IZR y)) with r by ring. rewrite Rabs_Ropp, !Rabs_pos_eq by lra. apply Rmin_glb; lra.
Qed.

(** C145.  In floating point, sign * (hh mm ss.s) with minutes and seconds up to 60 is read as sign * (hh + mm/60 + ss.s/3600) within a relative
    6 * 2^-53; minutes and seconds are split exactly.  (Both divisions being exact, the quotient of the model is that of
    CPython, which takes fmod() first.) *)
Theorem parse_float_coord_float (negative : bool) (hh mm : Z) (ss : R) :
  (0 <= hh < 2 ^ 30)%Z -> (0 <= mm <= 60)%Z -> 0 <= ss <= 60 -> ss = 0 \/ / 2 ^ 900 <= ss ->
  let v := 10000 * IZR hh + 100 * IZR mm + ss in let sign := if negative then -1 else 1 in
  F64 v -> exists w : R, parse_float_coord NF (sign * v : R) = sign * w /\
    Rabs (w - (IZR hh + IZR mm / 60 + ss / 3600)) <= 6 * / 2 ^ 53 * (IZR hh + IZR mm / 60 + ss / 3600).
Proof.
  intros Hh Hm Hs Hs0 v sign Fv. assert (Ih : 0 <= IZR hh) by (apply IZR_le; lia). assert (Im : 0 <= IZR mm <= 60) by (split; apply IZR_le; lia).
  assert (V : 0 <= v) by (unfold v; lra).
  assert (P900 : bpow radix2 (-1000) <= / 2 ^ 900 / 3600).
  { replace (/ 2 ^ 900) with (bpow radix2 (-900)).
    - change (-1000)%Z with (-100 + -900)%Z. rewrite bpow_plus. unfold Rdiv. rewrite Rmult_comm. apply Rmult_le_compat_l; [apply bpow_ge_0|].
      change (bpow radix2 (-100)) with (/ IZR (Z.pow_pos 2 100)). apply Rinv_le_contravar; [lra|]. apply IZR_le. cbn. lia.
    - change (bpow radix2 (-900)) with (/ IZR (Z.pow_pos 2 900)). f_equal. rewrite pow_IZR. reflexivity. }
  pose proof (bpow_gt_0 radix2 (-1000)) as B0.
  assert (B1 : bpow radix2 (-1000) <= / 60).
  { apply Rle_trans with (bpow radix2 (-6)); [apply bpow_le; lia|]. cbn. lra. }
  set (w := rnd64 (rnd64 (IZR hh + rnd64 (IZR mm / 60)) + rnd64 (ss / 3600))).
  assert (U : u64 = / 2 ^ 53) by (unfold u64; cbn; lra). assert (U0 : 0 < u64 <= / 1000) by (unfold u64; lra).
  assert (ZM : IZR mm = 0 \/ 1 <= IZR mm) by (destruct (Z.eq_dec mm 0) as [->|]; [now left|right; apply IZR_le; lia]).
  assert (ZH : IZR hh = 0 \/ 1 <= IZR hh) by (destruct (Z.eq_dec hh 0) as [->|]; [now left|right; apply IZR_le; lia]).
  assert (ZS : ss = 0 \/ bpow radix2 (-1000) <= ss / 3600) by (destruct Hs0 as [->|L]; [now left|right; lra]).
  assert (W : rel (6 * u64) w (IZR hh + IZR mm / 60 + ss / 3600)).
  { assert (M : rel (2 * u64) (rnd64 (IZR mm / 60)) (IZR mm / 60)).
    { replace (2 * u64) with (0 + 2 * u64) by ring. apply rel_rndz; [lra| |apply rel_exact]. unfold nil_or_usual. destruct ZM; [left|right]; lra. }
    assert (H : rel (4 * u64) (rnd64 (IZR hh + rnd64 (IZR mm / 60))) (IZR hh + IZR mm / 60)).
    { replace (4 * u64) with (2 * u64 + 2 * u64) by ring. apply rel_rndz; [lra| |].
      - unfold nil_or_usual. destruct ZM, ZH; [left|right|right|right]; lra.
      - apply rel_add; [|exact M]. apply rel_weak with 0; [lra|lra|apply rel_exact]. }
    assert (S : rel (4 * u64) (rnd64 (ss / 3600)) (ss / 3600)).
    { apply rel_weak with (0 + 2 * u64); [lra|lra|]. apply rel_rndz; [lra| |apply rel_exact]. unfold nil_or_usual. destruct ZS; [left|right]; lra. }
    replace (6 * u64) with (4 * u64 + 2 * u64) by ring. apply rel_rndz; [lra| |now apply rel_add].
    unfold nil_or_usual. destruct ZM, ZH, ZS; [left|right|right|right|right|right|right|right]; lra. }
  exists w. split; [|rewrite <- U; exact W].
  assert (Fs : F64 (100 * IZR mm + ss)).
  { pose proof (divmod_F hh 10000 (100 * IZR mm + ss) Hh ltac:(lia) ltac:(lra)) as D.
    replace (IZR hh * 10000 + (100 * IZR mm + ss)) with v in D by (unfold v; ring). specialize (D Fv).
    unfold divmod in D. cbn [numF opsF n_dbl o_ofZ o_div o_sub o_mul n_floor] in D. injection D as _ <-. apply rnd64_F. }
  assert (W0 : rnd64 w = w) by (apply rnd64_id, rnd64_F).
  unfold parse_float_coord. cbn [numF opsF n_dbl o_ofZ o_div o_sub o_mul o_add n_ltb]. change (n_T NF) with R in *.
  rewrite !(lit_F 0), (lit_F 1), (lit_F (-1)), (lit_F 10000), (lit_F 100), (lit_F 60), (lit_F 3600) by lia.
  assert (A : (if Rlt_bool (sign * v) 0 then rnd64 (0 - sign * v) else sign * v) = IZR hh * 10000 + (100 * IZR mm + ss)).
  { replace (IZR hh * 10000 + (100 * IZR mm + ss)) with v by (unfold v; ring). unfold sign. destruct negative.
    - destruct (Rlt_bool_spec (-1 * v) 0) as [L|L]; [|lra]. replace (0 - -1 * v) with v by ring. now apply rnd64_id.
    - rewrite Rlt_bool_false by lra. lra. }
  match goal with |- context [divmod NF ?x _] => replace x with (IZR hh * 10000 + (100 * IZR mm + ss)) by (symmetry; exact A) end.
  rewrite (divmod_F hh 10000 (100 * IZR mm + ss)); [|exact Hh|lia|lra|].
  2: { replace (IZR hh * 10000 + (100 * IZR mm + ss)) with v by (unfold v; ring). exact Fv. }
  replace (100 * IZR mm + ss) with (IZR mm * 100 + ss) in Fs |- * by ring.
  rewrite (divmod_F mm 100 ss); [|lia|lia|lra|exact Fs]. cbn beta iota. fold w.
  assert (Z0 : v = 0 -> w = 0).
  { intros E. unfold v in E. assert (IZR hh = 0 /\ IZR mm = 0 /\ ss = 0) as (E1 & E2 & E3) by lra. unfold rel in W. rewrite E1, E2, E3 in W.
    apply Rabs_le_inv in W. lra. }
  unfold sign. destruct negative.
  - rewrite Rlt_bool_false by lra. destruct (Rlt_bool_spec (-1 * v) 0) as [L|L].
    + replace (-1 * w) with (- w) by ring. rewrite rnd64_opp, W0. ring.
    + rewrite Z0 by lra. rewrite !Rmult_0_r. apply round_0; typeclasses eauto.
  - destruct (Rlt_bool_spec 0 (1 * v)) as [L|L].
    + rewrite !Rmult_1_l. exact W0.
    + rewrite Z0 by lra. rewrite !Rmult_0_r. destruct (Rlt_bool (1 * v) 0); apply round_0; typeclasses eauto.
Qed.
End Coord.
Print Assumptions parse_float_coord_float.

(** -30 15.5, and a right ascension with seconds that are not integers *)
Example parse_float_coord_float_ex : forall bld, exists w : R,
  parse_float_coord (numF bld) (-1 * (10000 * 0 + 100 * 30 + 31 / 2) : R) = -1 * w /\ Rabs (w - (0 + 30 / 60 + 31 / 2 / 3600)) <= / 2 ^ 50.
Proof.
  intros bld. assert (F : F64 (10000 * 0 + 100 * 30 + 31 / 2)).
  { apply generic_format_FLT. exists (Float radix2 6031 (-1)); [unfold F2R; cbn; lra|cbn; lia|cbn; lia]. }
  destruct (parse_float_coord_float bld true 0 30 (31 / 2) ltac:(lia) ltac:(lia) ltac:(lra) ltac:(right; apply Rle_trans with 1; [rewrite <- Rinv_1; apply Rinv_le_contravar; [lra|apply pow_R1_Rle; lra]|lra]) F)
    as (w & E & B). exists w. split; [exact E|]. eapply Rle_trans; [exact B|]. cbn. lra.
Qed.
