(** The floating point operations of the model: infinities, NaNs, and the numbers of the other
    statements. *)
From Coq Require Import ZArith Reals Bool Lia Lra SpecFloat.
From Flocq Require Import Core BinarySingleNaN.
From Verif Require Import Base.Num Spec.Ieee Proof.Ieee.
Local Open Scope R_scope.

Lemma bpow_2 n : bpow radix2 (Z.of_nat n) = 2 ^ n.
Proof. rewrite <- (IZR_Zpower radix2) by lia. rewrite pow_IZR. f_equal. Qed.

Lemma double_fl x r : double_value x r <-> fl64 x r.
Proof.
  split.
  - intros H. destruct (flo_fmt 53 1024 x r H) as [G B]. destruct H as (F & V & E). now repeat split.
  - intros (F & V & E & _). now repeat split.
Qed.

Lemma single_fl x r : single_value x r <-> fl32 x r.
Proof.
  pose proof (bpow_2 128) as E8. change (Z.of_nat 128) with 128%Z in E8. unfold single_value. rewrite <- E8.
  split.
  - intros ((F & V & E) & G & B). repeat split; auto. rewrite <- G.
    apply generic_format_round; [now apply FLT_exp_valid|apply valid_rnd_N].
  - intros (F & V & E & G & B). repeat split; auto. apply round_generic; [apply valid_rnd_N|exact G].
Qed.

(** ** overflow *)
Section Overflow.
Context (p e : Z) (Hp : Prec_gt_0 p) (He : Prec_lt_emax p e).

Lemma over_inf (b : binary_float p e) s : B2SF b = binary_overflow p e mode_NE s -> is_finite_SF (B2SF b) = false.
Proof. intros ->. reflexivity. Qed.

Lemma add_over x y a b : flo p e x a -> flo p e y b -> bpow radix2 e <= Rabs (rndf p e (a + b)) ->
  is_finite_SF (SFadd p e x y) = false.
Proof.
  intros Hx Hy H. destruct (flo_B p e x a Hx) as (u & -> & Fu & <-). destruct (flo_B p e y b Hy) as (v & -> & Fv & <-).
  pose proof (Bplus_correct p e Hp He mode_NE u v Fu Fv) as C. rewrite Rlt_bool_false in C by exact H.
  rewrite (add_equiv p e Hp He). destruct C as [C _]. eapply over_inf, C.
Qed.

Lemma sub_over x y a b : flo p e x a -> flo p e y b -> bpow radix2 e <= Rabs (rndf p e (a - b)) ->
  is_finite_SF (SFsub p e x y) = false.
Proof.
  intros Hx Hy H. destruct (flo_B p e x a Hx) as (u & -> & Fu & <-). destruct (flo_B p e y b Hy) as (v & -> & Fv & <-).
  pose proof (Bminus_correct p e Hp He mode_NE u v Fu Fv) as C. rewrite Rlt_bool_false in C by exact H.
  rewrite (sub_equiv p e Hp He). destruct C as [C _]. eapply over_inf, C.
Qed.

Lemma mul_over x y a b : flo p e x a -> flo p e y b -> bpow radix2 e <= Rabs (rndf p e (a * b)) ->
  is_finite_SF (SFmul p e x y) = false.
Proof.
  intros Hx Hy H. destruct (flo_B p e x a Hx) as (u & -> & Fu & <-). destruct (flo_B p e y b Hy) as (v & -> & Fv & <-).
  pose proof (Bmult_correct p e Hp He mode_NE u v) as C. rewrite Rlt_bool_false in C by exact H.
  rewrite (mul_equiv p e Hp He). eapply over_inf, C.
Qed.

Lemma div_over x y a b : flo p e x a -> flo p e y b -> b <> 0 -> bpow radix2 e <= Rabs (rndf p e (a / b)) ->
  is_finite_SF (SFdiv p e x y) = false.
Proof.
  intros Hx Hy Hb H. destruct (flo_B p e x a Hx) as (u & -> & Fu & <-). destruct (flo_B p e y b Hy) as (v & -> & Fv & <-).
  pose proof (Bdiv_correct p e Hp He mode_NE u v Hb) as C. rewrite Rlt_bool_false in C by exact H.
  rewrite (div_equiv p e Hp He). eapply over_inf, C.
Qed.

(** division by zero *)
Lemma div_zero x y a : flo p e x a -> flo p e y 0 -> is_finite_SF (SFdiv p e x y) = false.
Proof.
  intros (F & _) (F' & V' & E'). destruct y as [s|s| |s m ex]; try discriminate.
  - destruct x; try discriminate; reflexivity.
  - exfalso. cbn [SF2R] in E'. destruct s.
    + apply (Rlt_irrefl 0). rewrite <- E' at 1. now apply F2R_lt_0.
    + apply (Rlt_irrefl 0). rewrite <- E' at 2. now apply F2R_gt_0.
Qed.

Lemma sqrt_neg x a : flo p e x a -> a < 0 -> is_finite_SF (SFsqrt p e x) = false.
Proof.
  intros (F & _ & E) Ha. destruct x as [s|s| |s m ex]; try discriminate.
  - cbn in E. lra.
  - destruct s; [reflexivity|]. exfalso. cbn [SF2R cond_Zopp] in E.
    assert (0 < F2R (Float radix2 (Z.pos m) ex)) by now apply F2R_gt_0. lra.
Qed.

Lemma round_over x : is_finite_SF x = true -> bpow radix2 e <= Rabs (rndf p e (SF2R radix2 x)) ->
  is_finite_SF (sf_round p e x) = false.
Proof.
  destruct x as [s|s| |s m ex]; intros F H; try discriminate.
  - exfalso. cbn [SF2R] in H. rewrite round_0 in H by apply valid_rnd_N. rewrite Rabs_R0 in H.
    pose proof (bpow_gt_0 radix2 e). lra.
  - cbn [sf_round SF2R] in *.
    pose proof (binary_normalize_correct p e Hp He mode_NE (cond_Zopp s (Zpos m)) ex s) as C. cbv zeta in C.
    rewrite Rlt_bool_false in C by exact H. rewrite (normalize_equiv p e Hp He). eapply over_inf, C.
Qed.

Lemma up_not x : is_finite_SF x = false -> is_finite_SF (sf_round 53 1024 x) = false.
Proof. now destruct x. Qed.
End Overflow.

Section Split.
Context (p e : Z) (Hp : Prec_gt_0 p) (He : Prec_lt_emax p e).
Context (Hinc : (p <= 53 /\ e <= 1024 /\ -1074 <= 3 - e - p)%Z).

(** [z] is what an operation of exact result [v] returns *)
Definition result_pe (z : spec_float) (v : R) : Prop :=
  (Rabs (rndf p e v) < bpow radix2 e -> fl p e z (rndf p e v)) /\
  (bpow radix2 e <= Rabs (rndf p e v) -> is_finite_SF z = false).

Lemma split_up z v : (Rabs (rndf p e v) < bpow radix2 e -> flo p e z (rndf p e v)) ->
  (bpow radix2 e <= Rabs (rndf p e v) -> is_finite_SF z = false) -> result_pe (sf_round 53 1024 z) v.
Proof.
  intros A B. split; intros H.
  - apply fl_up; auto.
  - apply up_not; auto.
Qed.
End Split.

Lemma result64 z v : result_pe 53 1024 z v ->
  (Rabs (rnd64 v) < 2 ^ 1024 /\ double_value z (rnd64 v)) \/ (2 ^ 1024 <= Rabs (rnd64 v) /\ not_finite z).
Proof.
  pose proof (bpow_2 1024) as E. change (Z.of_nat 1024) with 1024%Z in E. intros [A B]. rewrite E in A, B.
  destruct (Rlt_le_dec (Rabs (rnd64 v)) (2 ^ 1024)) as [H|H].
  - left. split; auto. apply double_fl. now apply A.
  - right. split; auto. now apply B.
Qed.

Lemma result32 z v : result_pe 24 128 z v ->
  (Rabs (rnd32 v) < 2 ^ 128 /\ single_value z (rnd32 v)) \/ (2 ^ 128 <= Rabs (rnd32 v) /\ not_finite z).
Proof.
  pose proof (bpow_2 128) as E. change (Z.of_nat 128) with 128%Z in E. intros [A B]. rewrite E in A, B.
  destruct (Rlt_le_dec (Rabs (rnd32 v)) (2 ^ 128)) as [H|H].
  - left. split; auto. apply single_fl. now apply A.
  - right. split; auto. now apply B.
Qed.

Definition rounded64 (z : spec_float) (v : R) : Prop :=
  (Rabs (rnd64 v) < 2 ^ 1024 /\ double_value z (rnd64 v)) \/ (2 ^ 1024 <= Rabs (rnd64 v) /\ not_finite z).
Definition rounded32 (z : spec_float) (v : R) : Prop :=
  (Rabs (rnd32 v) < 2 ^ 128 /\ single_value z (rnd32 v)) \/ (2 ^ 128 <= Rabs (rnd32 v) /\ not_finite z).

(** C110.  On finite operands the operations of the IEEE numbers round the exact result to the nearest
    number of the format, ties to even; where that is beyond the range they return an infinity or a
    NaN.  Comparisons and conversions to integers are those of the values. *)
Theorem ieee_double (bld : build) (x y z : spec_float) (a b c : R) :
  let N := numI bld in
  double_value x a -> double_value y b -> double_value z c ->
  rounded64 (o_add (@n_dbl N) x y) (a + b) /\
  rounded64 (o_sub (@n_dbl N) x y) (a - b) /\
  rounded64 (o_mul (@n_dbl N) x y) (a * b) /\
  (b <> 0 -> rounded64 (o_div (@n_dbl N) x y) (a / b)) /\
  (b = 0 -> not_finite (o_div (@n_dbl N) x y)) /\
  (0 <= a -> double_value (o_sqrt (@n_dbl N) x) (rnd64 (sqrt a))) /\
  (a < 0 -> not_finite (o_sqrt (@n_dbl N) x)) /\
  (b_fma bld = true -> Rabs (rnd64 (a * b + c)) < 2 ^ 1024 ->
     double_value (o_mad (@n_dbl N) x y z) (rnd64 (a * b + c))) /\
  (b_fma bld = false -> Rabs (rnd64 (a * b)) < 2 ^ 1024 ->
     rounded64 (o_mad (@n_dbl N) x y z) (rnd64 (a * b) + c)) /\
  rounded32 (@n_narrow N x) a /\
  (@n_ltb N x y = true <-> a < b) /\ (@n_leb N x y = true <-> a <= b) /\ (@n_eqb N x y = true <-> a = b) /\
  @n_floor N x = Zfloor a /\ @n_ceil N x = Zceil a /\ @n_trunc N x = Ztrunc a.
Proof.
  intros N Hx Hy Hz. pose proof (proj1 (double_fl _ _) Hx) as Fx. pose proof (proj1 (double_fl _ _) Hy) as Fy.
  pose proof (proj1 (double_fl _ _) Hz) as Fz.
  assert (I : (53 <= 53 /\ 1024 <= 1024 /\ -1074 <= 3 - 1024 - 53)%Z) by lia.
  assert (I3 : (24 <= 53 /\ 128 <= 1024 /\ -1074 <= 3 - 128 - 24)%Z) by lia.
  pose proof (fl_dn 53 1024 p53 e1024 x a Fx) as Dx. pose proof (fl_dn 53 1024 p53 e1024 y b Fy) as Dy.
  pose proof (fl_dn 53 1024 p53 e1024 z c Fz) as Dz.
  pose proof (bpow_2 1024) as E4. change (Z.of_nat 1024) with 1024%Z in E4.
  split. { apply result64, split_up; auto using p53, e1024; intros; [now apply add_flo|eapply add_over; eauto using p53, e1024]. }
  split. { apply result64, split_up; auto using p53, e1024; intros; [now apply sub_flo|eapply sub_over; eauto using p53, e1024]. }
  split. { apply result64, split_up; auto using p53, e1024; intros; [now apply mul_flo|eapply mul_over; eauto using p53, e1024]. }
  split. { intros Hb. apply result64, split_up; auto using p53, e1024; intros; [now apply div_flo|eapply div_over; eauto using p53, e1024]. }
  split. { intros ->. apply up_not. eapply div_zero; eauto. }
  split. { intros Ha. apply double_fl. now apply (fl_sqrt 53 1024 p53 e1024 I bld). }
  split. { intros Ha. apply up_not. eapply sqrt_neg; eauto. }
  split. { intros EB H. apply double_fl. unfold N. cbn [numI n_dbl n_sgl opsI o_mad]. rewrite EB. apply fl_up; auto. apply fma_flo; auto using p53, e1024. now rewrite E4. }
  split. { intros EB H. unfold N. cbn [numI n_dbl n_sgl opsI o_mad]. rewrite EB. apply result64, split_up; auto.
    - intros H'. apply add_flo; auto using p53, e1024. apply mul_flo; auto using p53, e1024. now rewrite E4.
    - intros H'. eapply add_over; eauto using p53, e1024. apply mul_flo; auto using p53, e1024. now rewrite E4. }
  split. { apply result32. destruct Fx as (F & V & E & _). rewrite <- E. apply split_up; auto using p24, e128; intros.
    - now apply round_flo; auto using p24, e128.
    - now apply round_over; auto using p24, e128. }
  cbn [numI N n_ltb n_leb n_eqb n_floor n_ceil n_trunc].
  rewrite (fl_ltb x y a b), (fl_leb x y a b), (fl_eqb x y a b) by auto.
  split. { destruct (Rlt_bool_spec a b); split; auto; try discriminate; lra. }
  split. { destruct (Rle_bool_spec a b); split; auto; try discriminate; lra. }
  split. { destruct (Req_bool_spec a b); split; auto; try discriminate; lra. }
  split; [now apply fl_floor|]. split; [now apply fl_ceil|now apply fl_trunc].
Qed.
Print Assumptions ieee_double.

(** the same for [float] *)
Theorem ieee_single (bld : build) (x y z : spec_float) (a b c : R) :
  let N := numI bld in
  single_value x a -> single_value y b -> single_value z c ->
  double_value x a /\
  rounded32 (o_add (@n_sgl N) x y) (a + b) /\
  rounded32 (o_sub (@n_sgl N) x y) (a - b) /\
  rounded32 (o_mul (@n_sgl N) x y) (a * b) /\
  (b <> 0 -> rounded32 (o_div (@n_sgl N) x y) (a / b)) /\
  (b = 0 -> not_finite (o_div (@n_sgl N) x y)) /\
  (0 <= a -> single_value (o_sqrt (@n_sgl N) x) (rnd32 (sqrt a))) /\
  (a < 0 -> not_finite (o_sqrt (@n_sgl N) x)) /\
  (b_fma bld = true -> Rabs (rnd32 (a * b + c)) < 2 ^ 128 ->
     single_value (o_mad (@n_sgl N) x y z) (rnd32 (a * b + c))) /\
  (b_fma bld = false -> Rabs (rnd32 (a * b)) < 2 ^ 128 ->
     rounded32 (o_mad (@n_sgl N) x y z) (rnd32 (a * b) + c)).
Proof.
  intros N Hx Hy Hz. pose proof (proj1 (single_fl _ _) Hx) as Fx. pose proof (proj1 (single_fl _ _) Hy) as Fy.
  pose proof (proj1 (single_fl _ _) Hz) as Fz.
  assert (I : (24 <= 53 /\ 128 <= 1024 /\ -1074 <= 3 - 128 - 24)%Z) by lia.
  pose proof (fl_dn 24 128 p24 e128 x a Fx) as Dx. pose proof (fl_dn 24 128 p24 e128 y b Fy) as Dy.
  pose proof (fl_dn 24 128 p24 e128 z c Fz) as Dz.
  pose proof (bpow_2 128) as E4. change (Z.of_nat 128) with 128%Z in E4.
  split; [apply Hx|].
  split. { apply result32, split_up; auto using p24, e128; intros; [now apply add_flo|eapply add_over; eauto using p24, e128]. }
  split. { apply result32, split_up; auto using p24, e128; intros; [now apply sub_flo|eapply sub_over; eauto using p24, e128]. }
  split. { apply result32, split_up; auto using p24, e128; intros; [now apply mul_flo|eapply mul_over; eauto using p24, e128]. }
  split. { intros Hb. apply result32, split_up; auto using p24, e128; intros; [now apply div_flo|eapply div_over; eauto using p24, e128]. }
  split. { intros ->. apply up_not. eapply div_zero; eauto. }
  split. { intros Ha. apply single_fl. now apply (fl_sqrt 24 128 p24 e128 I bld). }
  split. { intros Ha. apply up_not. eapply sqrt_neg; eauto. }
  split. { intros EB H. apply single_fl. unfold N. cbn [numI n_dbl n_sgl opsI o_mad]. rewrite EB. apply fl_up; auto. apply fma_flo; auto using p24, e128. now rewrite E4. }
  intros EB H. unfold N. cbn [numI n_dbl n_sgl opsI o_mad]. rewrite EB. apply result32, split_up; auto.
  - intros H'. apply add_flo; auto using p24, e128. apply mul_flo; auto using p24, e128. now rewrite E4.
  - intros H'. eapply add_over; eauto using p24, e128. apply mul_flo; auto using p24, e128. now rewrite E4.
Qed.
Print Assumptions ieee_single.

(** integers *)
Theorem ieee_integers (bld : build) (z : Z) :
  let N := numI bld in
  (Rabs (IZR z) <= 2 ^ 1023 -> double_value (o_ofZ (@n_dbl N) z) (rnd64 (IZR z))) /\
  (Rabs (IZR z) <= 2 ^ 127 -> single_value (o_ofZ (@n_sgl N) z) (rnd32 (IZR z))).
Proof.
  intros N. split; intros H.
  - apply double_fl. apply (fl_ofZ 53 1024 p53 e1024); [lia|]. change (1024 - 1)%Z with (Z.of_nat 1023). now rewrite bpow_2.
  - apply single_fl. apply (fl_ofZ 24 128 p24 e128); [lia|]. change (128 - 1)%Z with (Z.of_nat 127). now rewrite bpow_2.
Qed.
Print Assumptions ieee_integers.

(** 1.5 and the largest double *)
Example ieee_double_ex :
  let x := S754_finite false 6755399441055744 (-52) in
  let big := S754_finite false 9007199254740991 971 in
  double_value x (3 / 2) /\ double_value big (9007199254740991 * 2 ^ 971) /\
  o_add (@n_dbl (numI (Build true (b_pick left_to_right)))) big big = S754_infinity false /\
  o_sub (@n_dbl (numI (Build true (b_pick left_to_right)))) (S754_infinity false) (S754_infinity false) = S754_nan /\
  o_mul (@n_dbl (numI (Build true (b_pick left_to_right)))) x x = S754_finite false 5066549580791808 (-51).
Proof.
  repeat split.
  - cbn [SF2R cond_Zopp]. unfold F2R. cbn. lra.
  - cbn [SF2R cond_Zopp]. unfold F2R. cbn [Fnum Fexp]. now rewrite <- bpow_2.
Qed.

(** a float *)
Example ieee_single_ex : single_value (S754_finite false 6755399441055744 (-52)) (3 / 2).
Proof.
  apply single_fl. destruct ieee_double_ex as ((F & V & E) & _). repeat split; auto.
  - replace (3 / 2) with (F2R (Float radix2 3 (-1))) by (unfold F2R; cbn; lra).
    apply generic_format_FLT. exists (Float radix2 3 (-1)); cbn; auto; lia.
  - rewrite Rabs_pos_eq by lra. apply Rlt_le_trans with (bpow radix2 1); [cbn; lra|]. apply bpow_le. lia.
Qed.
