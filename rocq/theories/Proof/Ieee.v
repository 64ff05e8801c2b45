(** The IEEE instance [numI] computes the operations of [numF] as long as nothing overflows. *)
From Coq Require Import ZArith Reals Bool Lia Lra SpecFloat.
From Flocq Require Import Core BinarySingleNaN Operations.
From Verif Require Import Base.Num.
Local Open Scope R_scope.

Notation fmt p e := (generic_format radix2 (FLT_exp (3 - e - p) p)).
Notation rndf p e := (round radix2 (FLT_exp (3 - e - p) p) ZnearestE).

(** [x] is a finite binary64 datum of value [r], which is a number of the format with precision [p]
    and maximal exponent [e] *)
Definition fl (p e : Z) (x : spec_float) (r : R) : Prop :=
  is_finite_SF x = true /\ valid_binary 53 1024 x = true /\ SF2R radix2 x = r /\
  fmt p e r /\ Rabs r < bpow radix2 e.
Notation fl64 := (fl 53 1024).
Notation fl32 := (fl 24 128).

Section Format.
Context (p e : Z) (Hp : Prec_gt_0 p) (He : Prec_lt_emax p e).

Lemma ne_equiv s m l : round_nearest_even m l = choice_mode mode_NE s m l.
Proof.
  case l; [reflexivity|intro c]. case c; [|reflexivity..].
  now simpl; unfold Round.cond_incr; case Z.even.
Qed.

Lemma aux_equiv sx mx ex lx :
  SpecFloat.binary_round_aux p e sx mx ex lx = binary_round_aux p e mode_NE sx mx ex lx.
Proof.
  unfold SpecFloat.binary_round_aux, binary_round_aux.
  set (mrse' := shr_fexp _ _ _). case mrse'; intros mrs' e'; simpl. now rewrite (ne_equiv sx).
Qed.

Lemma round_equiv s m ex : SpecFloat.binary_round p e s m ex = binary_round p e mode_NE s m ex.
Proof.
  unfold SpecFloat.binary_round, binary_round, shl_align_fexp.
  set (mez := shl_align _ _ _); case mez as [mz ez]. apply aux_equiv.
Qed.

Lemma normalize_equiv m ex sz :
  SpecFloat.binary_normalize p e m ex sz = B2SF (binary_normalize p e Hp He mode_NE m ex sz).
Proof.
  case m as [|q|q]; [reflexivity| |]; simpl; rewrite B2SF_SF2B; apply round_equiv.
Qed.

Lemma add_equiv (x y : binary_float p e) :
  SFadd p e (B2SF x) (B2SF y) = B2SF (Bplus (prec_gt_0_ := Hp) (prec_lt_emax_ := He) mode_NE x y).
Proof.
  case x as [sx|sx| |sx mx ex Bx]; case y as [sy|sy| |sy my ey By];
    [now (trivial || simpl; case Bool.eqb)..|]. apply normalize_equiv.
Qed.

Lemma sub_equiv (x y : binary_float p e) :
  SFsub p e (B2SF x) (B2SF y) = B2SF (Bminus (prec_gt_0_ := Hp) (prec_lt_emax_ := He) mode_NE x y).
Proof.
  case x as [sx|sx| |sx mx ex Bx]; case y as [sy|sy| |sy my ey By];
    [now (trivial || simpl; case Bool.eqb)..|].
  simpl. unfold Zminus. rewrite <- cond_Zopp_negb. apply normalize_equiv.
Qed.

Lemma mul_equiv (x y : binary_float p e) :
  SFmul p e (B2SF x) (B2SF y) = B2SF (Bmult (prec_gt_0_ := Hp) (prec_lt_emax_ := He) mode_NE x y).
Proof.
  case x as [sx|sx| |sx mx ex Bx]; case y as [sy|sy| |sy my ey By]; [now trivial..|].
  simpl. rewrite B2SF_SF2B. apply aux_equiv.
Qed.

Lemma div_equiv (x y : binary_float p e) :
  SFdiv p e (B2SF x) (B2SF y) = B2SF (Bdiv (prec_gt_0_ := Hp) (prec_lt_emax_ := He) mode_NE x y).
Proof.
  case x as [sx|sx| |sx mx ex Bx]; case y as [sy|sy| |sy my ey By];
    [now (trivial || simpl; case Bool.eqb)..|].
  simpl. rewrite B2SF_SF2B. set (melz := SFdiv_core_binary _ _ _ _ _ _).
  case melz as [[mz ez] lz]. apply aux_equiv.
Qed.

Lemma sqrt_equiv (x : binary_float p e) :
  SFsqrt p e (B2SF x) = B2SF (Bsqrt (prec_gt_0_ := Hp) (prec_lt_emax_ := He) mode_NE x).
Proof.
  case x as [sx|sx| |sx mx ex Bx]; [now (trivial || case sx)..|].
  case sx; [reflexivity|]. simpl. rewrite B2SF_SF2B.
  set (melz := SFsqrt_core_binary _ _ _ _). case melz as [[mz ez] lz]. apply aux_equiv.
Qed.

(** a finite float of the format *)
Definition flo (x : spec_float) (r : R) : Prop :=
  is_finite_SF x = true /\ valid_binary p e x = true /\ SF2R radix2 x = r.

Lemma flo_B x r : flo x r ->
  exists b : binary_float p e, x = B2SF b /\ is_finite b = true /\ B2R b = r.
Proof.
  intros (F & V & E). exists (SF2B x V). rewrite B2SF_SF2B, is_finite_SF2B, B2R_SF2B. auto.
Qed.

Lemma B_flo (b : binary_float p e) : is_finite b = true -> flo (B2SF b) (B2R b).
Proof.
  intros F. split; [now rewrite is_finite_SF_B2SF|]. split; [apply valid_binary_B2SF|apply SF2R_B2SF].
Qed.

Lemma flo_fmt x r : flo x r -> fmt p e r /\ Rabs r < bpow radix2 e.
Proof.
  intros H. destruct (flo_B x r H) as (b & _ & _ & <-). split.
  - apply generic_format_B2R.
  - now apply abs_B2R_lt_emax.
Qed.

Lemma normalize_flo m ex sz : Rabs (rndf p e (F2R (Float radix2 m ex))) < bpow radix2 e ->
  flo (SpecFloat.binary_normalize p e m ex sz) (rndf p e (F2R (Float radix2 m ex))).
Proof.
  intros H. pose proof (binary_normalize_correct p e Hp He mode_NE m ex sz) as C. cbv zeta in C.
  rewrite Rlt_bool_true in C by exact H. destruct C as (C1 & C2 & _).
  rewrite normalize_equiv. change (rndf p e) with (round radix2 (SpecFloat.fexp p e) (round_mode mode_NE)).
  rewrite <- C1. now apply B_flo.
Qed.

Lemma round_flo x : is_finite_SF x = true -> Rabs (rndf p e (SF2R radix2 x)) < bpow radix2 e ->
  flo (sf_round p e x) (rndf p e (SF2R radix2 x)).
Proof.
  destruct x as [s|s| |s m ex]; intros F H; try discriminate.
  - cbn [SF2R]. rewrite round_0; [|apply valid_rnd_N]. repeat split.
  - cbn [sf_round SF2R] in *. now apply normalize_flo.
Qed.

Lemma add_flo x y a b : flo x a -> flo y b -> Rabs (rndf p e (a + b)) < bpow radix2 e ->
  flo (SFadd p e x y) (rndf p e (a + b)).
Proof.
  intros Hx Hy H. destruct (flo_B x a Hx) as (u & -> & Fu & <-). destruct (flo_B y b Hy) as (v & -> & Fv & <-).
  pose proof (Bplus_correct p e Hp He mode_NE u v Fu Fv) as C. rewrite Rlt_bool_true in C by exact H.
  destruct C as (C1 & C2 & _). rewrite add_equiv.
  change (rndf p e) with (round radix2 (SpecFloat.fexp p e) (round_mode mode_NE)). rewrite <- C1. now apply B_flo.
Qed.

Lemma sub_flo x y a b : flo x a -> flo y b -> Rabs (rndf p e (a - b)) < bpow radix2 e ->
  flo (SFsub p e x y) (rndf p e (a - b)).
Proof.
  intros Hx Hy H. destruct (flo_B x a Hx) as (u & -> & Fu & <-). destruct (flo_B y b Hy) as (v & -> & Fv & <-).
  pose proof (Bminus_correct p e Hp He mode_NE u v Fu Fv) as C. rewrite Rlt_bool_true in C by exact H.
  destruct C as (C1 & C2 & _). rewrite sub_equiv.
  change (rndf p e) with (round radix2 (SpecFloat.fexp p e) (round_mode mode_NE)). rewrite <- C1. now apply B_flo.
Qed.

Lemma mul_flo x y a b : flo x a -> flo y b -> Rabs (rndf p e (a * b)) < bpow radix2 e ->
  flo (SFmul p e x y) (rndf p e (a * b)).
Proof.
  intros Hx Hy H. destruct (flo_B x a Hx) as (u & -> & Fu & <-). destruct (flo_B y b Hy) as (v & -> & Fv & <-).
  pose proof (Bmult_correct p e Hp He mode_NE u v) as C. rewrite Rlt_bool_true in C by exact H.
  destruct C as (C1 & C2 & _). rewrite Fu, Fv in C2. rewrite mul_equiv.
  change (rndf p e) with (round radix2 (SpecFloat.fexp p e) (round_mode mode_NE)). rewrite <- C1. now apply B_flo.
Qed.

Lemma div_flo x y a b : flo x a -> flo y b -> b <> 0 -> Rabs (rndf p e (a / b)) < bpow radix2 e ->
  flo (SFdiv p e x y) (rndf p e (a / b)).
Proof.
  intros Hx Hy Hb H. destruct (flo_B x a Hx) as (u & -> & Fu & <-). destruct (flo_B y b Hy) as (v & -> & Fv & <-).
  pose proof (Bdiv_correct p e Hp He mode_NE u v Hb) as C. rewrite Rlt_bool_true in C by exact H.
  destruct C as (C1 & C2 & _). rewrite Fu in C2. rewrite div_equiv.
  change (rndf p e) with (round radix2 (SpecFloat.fexp p e) (round_mode mode_NE)). rewrite <- C1. now apply B_flo.
Qed.

Lemma sqrt_flo x a : flo x a -> 0 <= a -> flo (SFsqrt p e x) (rndf p e (R_sqrt.sqrt a)).
Proof.
  intros Hx Ha. destruct (flo_B x a Hx) as (u & -> & Fu & <-).
  pose proof (Bsqrt_correct p e Hp He mode_NE u) as (C1 & C2 & _). rewrite sqrt_equiv.
  change (rndf p e) with (round radix2 (SpecFloat.fexp p e) (round_mode mode_NE)). rewrite <- C1.
  apply B_flo. rewrite C2. destruct u as [s|s| |s m ex B]; try reflexivity; try discriminate.
  destruct s; [|reflexivity]. exfalso. cbn [B2R cond_Zopp] in Ha.
  apply (Rlt_irrefl 0). eapply Rle_lt_trans; [exact Ha|]. now apply F2R_lt_0.
Qed.

Lemma fma_flo x y z a b c : flo x a -> flo y b -> flo z c ->
  Rabs (rndf p e (a * b + c)) < bpow radix2 e ->
  flo (sf_fma p e x y z) (rndf p e (a * b + c)).
Proof.
  intros Hx Hy Hz H.
  assert (FZ : forall s, flo (S754_zero s) 0) by (intros; repeat split).
  assert (R0 : rndf p e 0 = 0) by (apply round_0; apply valid_rnd_N).
  destruct (flo_fmt z c Hz) as [Gc Bc].
  assert (Zero : a * b = 0 -> flo (SFmul p e x y) 0 -> flo (SFadd p e (SFmul p e x y) z) (rndf p e (a * b + c))).
  { intros E M. rewrite E. apply add_flo; auto. now rewrite <- E. }
  destruct Hx as (Fx & Vx & Ex). destruct Hy as (Fy & Vy & Ey). destruct Hz as (Fz & Vz & Ez).
  destruct x as [sx|sx| |sx mx ex]; try discriminate.
  { assert (Ea : a = 0) by (now rewrite <- Ex). unfold sf_fma. apply Zero; [rewrite Ea; ring|].
    destruct y; try discriminate; apply FZ. }
  destruct y as [sy|sy| |sy my ey]; try discriminate.
  { assert (Eb : b = 0) by (now rewrite <- Ey). unfold sf_fma. apply Zero; [rewrite Eb; ring|]. apply FZ. }
  destruct z as [sz|sz| |sz mz ez]; try discriminate.
  - assert (Ec : c = 0) by (now rewrite <- Ez). unfold sf_fma. rewrite Ec, Rplus_0_r in *.
    assert (M : flo (SFmul p e (S754_finite sx mx ex) (S754_finite sy my ey)) (rndf p e (a * b)))
      by (apply mul_flo; auto; now repeat split).
    assert (E : rndf p e (rndf p e (a * b) + 0) = rndf p e (a * b)).
    { rewrite Rplus_0_r. apply round_generic; [apply valid_rnd_N|].
      apply generic_format_round; [now apply FLT_exp_valid|apply valid_rnd_N]. }
    rewrite <- E. apply add_flo; auto. now rewrite E.
  - unfold sf_fma. cbn [SF2R] in *.
    set (er := Z.min (ex + ey) ez). set (m := (_ + _)%Z).
    assert (E : F2R (Float radix2 m er) = a * b + c).
    { rewrite <- Ex, <- Ey, <- Ez. rewrite <- F2R_mult, <- F2R_plus. unfold m, Fplus, Fmult, Falign.
      cbn [Fnum Fexp].
      destruct (Zle_bool (ex + ey) ez) eqn:L.
      - apply Zle_bool_imp_le in L. assert (Er : er = (ex + ey)%Z) by (unfold er; lia). rewrite Er, Z.sub_diag.
        change (2 ^ 0)%Z with 1%Z. now rewrite Z.mul_1_r.
      - apply Z.leb_gt in L. assert (Er : er = ez) by (unfold er; lia). rewrite Er, Z.sub_diag.
        change (2 ^ 0)%Z with 1%Z. now rewrite Z.mul_1_r. }
    rewrite <- E in *. now apply normalize_flo.
Qed.
End Format.

(** ** the two formats *)
Lemma p53 : Prec_gt_0 53. Proof. reflexivity. Qed.
Lemma e1024 : Prec_lt_emax 53 1024. Proof. reflexivity. Qed.
Lemma p24 : Prec_gt_0 24. Proof. reflexivity. Qed.
Lemma e128 : Prec_lt_emax 24 128. Proof. reflexivity. Qed.

Section Ops.
Context (p e : Z) (Hp : Prec_gt_0 p) (He : Prec_lt_emax p e).
Context (Hinc : (p <= 53 /\ e <= 1024 /\ -1074 <= 3 - e - p)%Z).

Lemma fmt_wide r : fmt p e r -> fmt 53 1024 r.
Proof.
  apply generic_inclusion_mag. intros _. unfold FLT_exp. lia.
Qed.

Lemma rndf_small r : Rabs r <= bpow radix2 (e - 1) -> Rabs (rndf p e r) < bpow radix2 e.
Proof.
  intros H. apply Rle_lt_trans with (bpow radix2 (e - 1)); [|apply bpow_lt; lia].
  apply abs_round_le_generic; [now apply FLT_exp_valid|apply valid_rnd_N| |exact H].
  apply generic_format_bpow. unfold FLT_exp. unfold Prec_gt_0, Prec_lt_emax in *. lia.
Qed.

Lemma rndf_fmt r : fmt p e r -> rndf p e r = r.
Proof. intros H. apply round_generic; [apply valid_rnd_N|exact H]. Qed.

Lemma fl_dn x r : fl p e x r -> flo p e (sf_round p e x) r.
Proof.
  intros (F & V & E & G & B). rewrite <- (rndf_fmt r G). rewrite <- E. apply round_flo; auto.
  rewrite E, rndf_fmt; auto.
Qed.

Lemma fl_up z r : flo p e z r -> fl p e (sf_round 53 1024 z) r.
Proof.
  intros H. destruct (flo_fmt p e z r H) as [G B]. destruct H as (F & V & E).
  pose proof (fmt_wide r G) as G'.
  assert (E' : rndf 53 1024 r = r) by (apply round_generic; [apply valid_rnd_N|exact G']).
  assert (B' : Rabs r < bpow radix2 1024).
  { eapply Rlt_le_trans; [exact B|]. apply bpow_le. lia. }
  destruct (round_flo 53 1024 p53 e1024 z F) as (F1 & V1 & E1); [now rewrite E, E'|].
  rewrite E, E' in E1. now repeat split.
Qed.

Context (bld : build).

Lemma fl_ofZ z : Rabs (IZR z) <= bpow radix2 (e - 1) -> fl p e (o_ofZ (opsI p e bld) z) (rndf p e (IZR z)).
Proof.
  intros H. apply fl_up. unfold sf_ofZ.
  assert (E : F2R (Float radix2 z 0) = IZR z) by (unfold F2R; cbn; ring).
  rewrite <- E in *. apply normalize_flo; auto. now apply rndf_small.
Qed.

Lemma fl_add x y a b : fl p e x a -> fl p e y b -> Rabs (a + b) <= bpow radix2 (e - 1) ->
  fl p e (o_add (opsI p e bld) x y) (rndf p e (a + b)).
Proof. intros. apply fl_up. apply add_flo; auto using fl_dn, rndf_small. Qed.

Lemma fl_sub x y a b : fl p e x a -> fl p e y b -> Rabs (a - b) <= bpow radix2 (e - 1) ->
  fl p e (o_sub (opsI p e bld) x y) (rndf p e (a - b)).
Proof. intros. apply fl_up. apply sub_flo; auto using fl_dn, rndf_small. Qed.

Lemma fl_mul x y a b : fl p e x a -> fl p e y b -> Rabs (a * b) <= bpow radix2 (e - 1) ->
  fl p e (o_mul (opsI p e bld) x y) (rndf p e (a * b)).
Proof. intros. apply fl_up. apply mul_flo; auto using fl_dn, rndf_small. Qed.

Lemma fl_div x y a b : fl p e x a -> fl p e y b -> b <> 0 -> Rabs (a / b) <= bpow radix2 (e - 1) ->
  fl p e (o_div (opsI p e bld) x y) (rndf p e (a / b)).
Proof. intros. apply fl_up. apply div_flo; auto using fl_dn, rndf_small. Qed.

Lemma fl_sqrt x a : fl p e x a -> 0 <= a ->
  fl p e (o_sqrt (opsI p e bld) x) (rndf p e (R_sqrt.sqrt a)).
Proof. intros. apply fl_up. apply sqrt_flo; auto using fl_dn. Qed.

Lemma fl_mad x y z a b c : fl p e x a -> fl p e y b -> fl p e z c ->
  Rabs (a * b) <= bpow radix2 (e - 1) ->
  Rabs (if b_fma bld then a * b + c else rndf p e (a * b) + c) <= bpow radix2 (e - 1) ->
  fl p e (o_mad (opsI p e bld) x y z)
    (if b_fma bld then rndf p e (a * b + c) else rndf p e (rndf p e (a * b) + c)).
Proof.
  intros Hx Hy Hz H1 H2. apply fl_up. destruct (b_fma bld).
  - apply fma_flo; auto using fl_dn, rndf_small.
  - apply add_flo; auto using fl_dn, rndf_small. apply mul_flo; auto using fl_dn, rndf_small.
Qed.
End Ops.

Lemma fl_wide p e x r : (p <= 53 /\ e <= 1024 /\ -1074 <= 3 - e - p)%Z -> fl p e x r -> fl64 x r.
Proof.
  intros Hi (F & V & E & G & B). repeat split; auto.
  - now apply fmt_wide with (p := p) (e := e).
  - eapply Rlt_le_trans; [exact B|]. apply bpow_le. lia.
Qed.

Lemma fl32_64 x r : fl32 x r -> fl64 x r.
Proof. apply fl_wide. lia. Qed.

Lemma fl_narrow bld x r : fl64 x r -> Rabs r <= bpow radix2 127 -> fl32 (@n_narrow (numI bld) x) (rnd32 r).
Proof.
  intros (F & V & E & G & B) H. cbn [numI n_narrow]. apply fl_up; [lia|].
  rewrite <- E in *. apply round_flo; auto using p24, e128. apply (rndf_small 24 128); auto using p24, e128.
Qed.

(** ** comparisons and conversions to integers *)
Lemma fl_compare x y a b : fl64 x a -> fl64 y b -> SFcompare x y = Some (Rcompare a b).
Proof.
  intros (F & V & E & _) (F' & V' & E' & _).
  pose proof (Bcompare_correct 53 1024 (SF2B x V) (SF2B y V')) as C.
  rewrite !is_finite_SF2B, !B2R_SF2B in C. rewrite E, E' in C. rewrite <- (C F F').
  unfold Bcompare. now rewrite !B2SF_SF2B.
Qed.

Lemma fl_ltb x y a b : fl64 x a -> fl64 y b -> SFltb x y = Rlt_bool a b.
Proof. intros H H'. unfold SFltb, Rlt_bool. rewrite (fl_compare x y a b H H'). now destruct Rcompare. Qed.

Lemma fl_leb x y a b : fl64 x a -> fl64 y b -> SFleb x y = Rle_bool a b.
Proof. intros H H'. unfold SFleb, Rle_bool. rewrite (fl_compare x y a b H H'). now destruct Rcompare. Qed.

Lemma fl_eqb x y a b : fl64 x a -> fl64 y b -> SFeqb x y = Req_bool a b.
Proof. intros H H'. unfold SFeqb, Req_bool. rewrite (fl_compare x y a b H H'). now destruct Rcompare. Qed.

Lemma SF2R_floor x : is_finite_SF x = true -> sf_floor x = Zfloor (SF2R radix2 x).
Proof.
  destruct x as [s|s| |s m ex]; try discriminate; intros _; cbn [sf_floor SF2R].
  - symmetry. apply (Zfloor_IZR 0).
  - set (v := cond_Zopp s (Zpos m)).
    unfold F2R. cbn [Fnum Fexp]. destruct (0 <=? ex)%Z eqn:L.
    + apply Z.leb_le in L. rewrite <- IZR_Zpower by auto. rewrite <- mult_IZR, Zfloor_IZR. reflexivity.
    + apply Z.leb_gt in L. rewrite <- (Z.opp_involutive ex) at 2. rewrite bpow_opp, <- IZR_Zpower by lia.
      rewrite <- Zfloor_div; [reflexivity|]. apply Z.pow_nonzero; cbn; lia.
Qed.

Lemma fl_floor x r : fl64 x r -> sf_floor x = Zfloor r.
Proof. intros (F & _ & <- & _). now apply SF2R_floor. Qed.

Lemma SF2R_opp x : SF2R radix2 (SFopp x) = - SF2R radix2 x.
Proof.
  destruct x as [s|s| |s m ex]; cbn [SFopp SF2R]; try ring. rewrite cond_Zopp_negb, F2R_Zopp. reflexivity.
Qed.

Lemma fl_ceil x r : fl64 x r -> sf_ceil x = Zceil r.
Proof.
  intros (F & _ & <- & _). unfold sf_ceil, Zceil. rewrite SF2R_floor.
  - now rewrite SF2R_opp.
  - now destruct x.
Qed.

Lemma fl_trunc x r : fl64 x r -> sf_trunc x = Ztrunc r.
Proof.
  intros H. destruct x as [s|s| |[] m ex]; try (now destruct H).
  - destruct H as (_ & _ & <- & _). cbn. symmetry. apply (Ztrunc_IZR 0).
  - unfold sf_trunc. rewrite (fl_ceil _ _ H). destruct H as (_ & _ & <- & _). rewrite Ztrunc_ceil; auto.
    cbn [SF2R]. apply F2R_le_0. cbn. lia.
  - unfold sf_trunc. rewrite (fl_floor _ _ H). destruct H as (_ & _ & <- & _). rewrite Ztrunc_floor; auto.
    cbn [SF2R]. apply F2R_ge_0. cbn. lia.
Qed.

(** ** construction *)
Lemma fl_val x r : fl64 x r -> SF2R radix2 x = r. Proof. now intros (_ & _ & E & _). Qed.
Lemma fl_fin p e x r : fl p e x r -> is_finite_SF x = true. Proof. now intros (F & _). Qed.

(** ** operations with bounds *)
Definition fb (p e k : Z) (x : spec_float) (r : R) : Prop := fl p e x r /\ Rabs r <= bpow radix2 k.
Notation fb64 := (fb 53 1024).
Notation fb32 := (fb 24 128).

Section Bounds.
Context (p e : Z) (Hp : Prec_gt_0 p) (He : Prec_lt_emax p e).
Context (Hinc : (p <= 53 /\ e <= 1024 /\ -1074 <= 3 - e - p)%Z).
Context (bld : build).

Lemma rndf_bpow k r : (3 - e - p <= k)%Z -> Rabs r <= bpow radix2 k -> Rabs (rndf p e r) <= bpow radix2 k.
Proof.
  intros Hk H. apply abs_round_le_generic; [now apply FLT_exp_valid|apply valid_rnd_N| |exact H].
  apply generic_format_bpow. unfold FLT_exp. unfold Prec_gt_0 in Hp. lia.
Qed.

Lemma rndf_mult m k r : (3 - e - p <= k)%Z -> (0 <= m <= 2 ^ p)%Z ->
  Rabs r <= IZR m * bpow radix2 k -> Rabs (rndf p e r) <= IZR m * bpow radix2 k.
Proof.
  intros Hk Hm H. destruct (Z.eq_dec m (2 ^ p)) as [->|Hne].
  - assert (E : IZR (2 ^ p) * bpow radix2 k = bpow radix2 (p + k)).
    { rewrite bpow_plus. f_equal. apply (IZR_Zpower radix2). unfold Prec_gt_0 in Hp. lia. }
    rewrite E in *. apply rndf_bpow; auto. unfold Prec_gt_0 in Hp. lia.
  - apply abs_round_le_generic; [now apply FLT_exp_valid|apply valid_rnd_N| |exact H].
    change (IZR m * bpow radix2 k) with (F2R (Float radix2 m k)).
    apply generic_format_FLT. exists (Float radix2 m k); cbn; auto. rewrite Z.abs_eq; lia.
Qed.

Lemma bpow_small k : (k <= e - 1)%Z -> forall r, Rabs r <= bpow radix2 k -> Rabs r <= bpow radix2 (e - 1).
Proof. intros Hk r H. eapply Rle_trans; [exact H|]. now apply bpow_le. Qed.

Lemma fb_weaken j k x r : (j <= k)%Z -> fb p e j x r -> fb p e k x r.
Proof. intros H [F B]. split; auto. eapply Rle_trans; [exact B|]. now apply bpow_le. Qed.

Lemma fb_ofZ k z : (0 <= k <= e - 1)%Z -> (Z.abs z <= 2 ^ k)%Z ->
  fb p e k (o_ofZ (opsI p e bld) z) (rndf p e (IZR z)).
Proof.
  intros Hk Hz.
  assert (B : Rabs (IZR z) <= bpow radix2 k).
  { rewrite <- abs_IZR, <- (IZR_Zpower radix2) by lia. now apply IZR_le. }
  split; [apply fl_ofZ; auto; now apply (bpow_small k)|]. apply rndf_bpow; auto.
  unfold Prec_gt_0, Prec_lt_emax in *. lia.
Qed.

Lemma sum_bpow j a b : Rabs a <= bpow radix2 j -> Rabs b <= bpow radix2 j -> Rabs (a + b) <= bpow radix2 (j + 1).
Proof.
  intros A B. eapply Rle_trans; [apply Rabs_triang|]. rewrite bpow_plus. change (bpow radix2 1) with 2. lra.
Qed.

Lemma fb_add j x y a b : (3 - e - p <= j <= e - 2)%Z -> fb p e j x a -> fb p e j y b ->
  fb p e (j + 1) (o_add (opsI p e bld) x y) (rndf p e (a + b)).
Proof.
  intros Hj [Fx Bx] [Fy By]. pose proof (sum_bpow j a b Bx By) as B.
  split; [apply fl_add; auto; apply (bpow_small (j + 1)); auto; lia|]. apply rndf_bpow; auto. lia.
Qed.

Lemma fb_sub j x y a b : (3 - e - p <= j <= e - 2)%Z -> fb p e j x a -> fb p e j y b ->
  fb p e (j + 1) (o_sub (opsI p e bld) x y) (rndf p e (a - b)).
Proof.
  intros Hj [Fx Bx] [Fy By]. pose proof (sum_bpow j a (- b) Bx ltac:(now rewrite Rabs_Ropp)) as B.
  split; [apply fl_sub; auto; apply (bpow_small (j + 1)); auto; lia|]. apply rndf_bpow; auto. lia.
Qed.

Lemma prod_bpow j k a b : Rabs a <= bpow radix2 j -> Rabs b <= bpow radix2 k -> Rabs (a * b) <= bpow radix2 (j + k).
Proof. intros A B. rewrite Rabs_mult, bpow_plus. apply Rmult_le_compat; auto; apply Rabs_pos. Qed.

Lemma fb_mul j k x y a b : (3 - e - p <= j + k <= e - 1)%Z -> fb p e j x a -> fb p e k y b ->
  fb p e (j + k) (o_mul (opsI p e bld) x y) (rndf p e (a * b)).
Proof.
  intros Hj [Fx Bx] [Fy By]. pose proof (prod_bpow j k a b Bx By) as B.
  split; [apply fl_mul; auto; apply (bpow_small (j + k)); auto; lia|]. apply rndf_bpow; auto. lia.
Qed.

Lemma quot_bpow j k a b : Rabs a <= bpow radix2 j -> bpow radix2 k <= Rabs b ->
  b <> 0 /\ Rabs (a / b) <= bpow radix2 (j - k).
Proof.
  intros A B. pose proof (bpow_gt_0 radix2 k) as K.
  assert (b <> 0) by (intros ->; rewrite Rabs_R0 in B; lra). split; auto.
  unfold Rdiv. rewrite Rabs_mult, Rabs_Rinv by auto. unfold Zminus. rewrite bpow_plus, bpow_opp.
  apply Rmult_le_compat; auto using Rabs_pos. left. apply Rinv_0_lt_compat. now apply Rabs_pos_lt.
  now apply Rinv_le_contravar.
Qed.

Lemma fb_div j k x y a b : (3 - e - p <= j - k <= e - 1)%Z -> fb p e j x a -> fl p e y b ->
  bpow radix2 k <= Rabs b ->
  fb p e (j - k) (o_div (opsI p e bld) x y) (rndf p e (a / b)).
Proof.
  intros Hj [Fx Bx] Fy By. destruct (quot_bpow j k a b Bx By) as [Hb B].
  split; [apply fl_div; auto; apply (bpow_small (j - k)); auto; lia|]. apply rndf_bpow; auto. lia.
Qed.

Lemma fb_mad i j k x y z a b c : (3 - e - p <= k <= e - 2)%Z -> (i + j <= k)%Z ->
  fb p e i x a -> fb p e j y b -> fb p e k z c ->
  fb p e (k + 1) (o_mad (opsI p e bld) x y z)
    (if b_fma bld then rndf p e (a * b + c) else rndf p e (rndf p e (a * b) + c)).
Proof.
  intros Hk Hij [Fx Bx] [Fy By] [Fz Bz]. pose proof (prod_bpow i j a b Bx By) as B.
  assert (B' : Rabs (a * b) <= bpow radix2 k) by (eapply Rle_trans; [exact B|now apply bpow_le]).
  pose proof (sum_bpow k _ _ B' Bz) as S1.
  assert (B2 : Rabs (rndf p e (a * b)) <= bpow radix2 k) by (apply rndf_bpow; auto; lia).
  pose proof (sum_bpow k _ _ B2 Bz) as S2.
  split.
  - apply fl_mad; auto; [apply (bpow_small k); auto; lia|].
    destruct (b_fma bld); apply (bpow_small (k + 1)); auto; lia.
  - destruct (b_fma bld); apply rndf_bpow; auto; lia.
Qed.
End Bounds.
