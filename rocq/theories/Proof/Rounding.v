(** Bounds on rounding errors. *)
From Coq Require Import List Arith ZArith Bool Lia Reals Lra Psatz.
From Flocq Require Import Core Plus_error Relative.
From Verif Require Import Base.Result Base.Buf Base.Num Model.Kernels Model.Snr
  Spec.Sums Proof.Index Proof.Ffa Proof.Kernels Proof.Downsample Proof.Snr.
Import ListNotations.
Local Open Scope R_scope.

(** half of the smallest positive binary32 number *)
Definition eta32 : R := bpow radix2 (-150).

Lemma eta32_pos : 0 < eta32.
Proof. apply bpow_gt_0. Qed.

Lemma rnd32_err x : Rabs (rnd32 x - x) <= u32 * Rabs x + eta32.
Proof.
  destruct (error_N_FLT radix2 (-149) 24 eq_refl (fun z => negb (Z.even z)) x)
    as (eps & eta & He & Ht & _ & E).
  change (round radix2 fexp32 (Znearest (fun z => negb (Z.even z))) x) with (rnd32 x) in E.
  rewrite E. replace (x * (1 + eps) + eta - x) with (eps * x + eta) by ring.
  eapply Rle_trans; [apply Rabs_triang|]. apply Rplus_le_compat.
  - rewrite Rabs_mult. apply Rmult_le_compat_r; [apply Rabs_pos|].
    eapply Rle_trans; [exact He|]. unfold u32. cbn. lra.
  - eapply Rle_trans; [exact Ht|]. unfold eta32.
    replace (bpow radix2 (-150)) with (/ 2 * bpow radix2 (-149)); [lra|].
    change (/ 2) with (bpow radix2 (-1)). rewrite <- bpow_plus. reflexivity.
Qed.

Lemma rnd64_plus_error a b : F64 a -> F64 b ->
  F64 (rnd64 (a + b)) /\ (Rabs (rnd64 (a + b) - (a + b)) <= u64 * Rabs (a + b))%R.
Proof.
  intros Fa Fb. split. { apply generic_format_round; typeclasses eauto. }
  destruct (FLT_plus_error_N_ex radix2 (-1074) 53 (fun z => negb (Z.even z)) a b Fa Fb)
    as (eps & He & E).
  change (round radix2 fexp64 (Znearest (fun z => negb (Z.even z))) (a + b))
    with (rnd64 (a + b)) in E.
  rewrite E.
  replace ((a + b) * (1 + eps) - (a + b))%R with (eps * (a + b))%R by ring.
  rewrite Rabs_mult. apply Rmult_le_compat_r; [apply Rabs_pos|].
  eapply Rle_trans; [exact He|].
  unfold u_ro, u64. cbn. lra.
Qed.

(** multiples of the smallest binary32 number *)
Notation grid := (generic_format radix2 (FIX_exp (-149))).

Lemma grid_spec x : grid x <-> exists m, x = IZR m * bpow radix2 (-149).
Proof.
  split.
  - intros G. exists (Ztrunc (scaled_mantissa radix2 (FIX_exp (-149)) x)). exact G.
  - intros (m & ->). apply generic_format_FIX. exists (Float radix2 m (-149)); reflexivity.
Qed.

Lemma grid_F32 x : F32 x -> grid x.
Proof. apply generic_format_FIX_FLT. Qed.

Lemma grid_plus x y : grid x -> grid y -> grid (x + y).
Proof.
  rewrite !grid_spec. intros (m & ->) (n & ->). exists (m + n)%Z. rewrite plus_IZR. ring.
Qed.

Lemma grid_rnd64 x : grid x -> grid (rnd64 x).
Proof. apply generic_round_generic; typeclasses eauto. Qed.

(** no underflow on the grid *)
Lemma rnd32_grid x : grid x -> Rabs (rnd32 x - x) <= u32 * Rabs x.
Proof.
  intros G. destruct (Rle_lt_dec (Rabs x) (bpow radix2 (-149 + 24))) as [L|L].
  - rewrite rnd32_id by (apply generic_format_FLT_FIX; auto; typeclasses eauto).
    rewrite Rminus_diag_eq, Rabs_R0 by auto. apply Rmult_le_pos; [unfold u32; lra|apply Rabs_pos].
  - pose proof (relative_error_N_FLT radix2 (-149) 24 eq_refl (fun z => negb (Z.even z)) x) as H.
    change (round radix2 fexp32 (Znearest _) x) with (rnd32 x) in H.
    eapply Rle_trans; [apply H|].
    + apply Rlt_le. eapply Rle_lt_trans; [|exact L]. apply bpow_le. lia.
    + right. f_equal. unfold u32. cbn. lra.
Qed.

Lemma F32_F64 x : F32 x -> F64 x.
Proof. apply generic_inclusion_mag. intros _. unfold FLT_exp. lia. Qed.

Lemma F32_rnd x : F32 (rnd32 x).
Proof. apply generic_format_round; typeclasses eauto. Qed.

Lemma pow_bound u n : 0 <= u -> 2 * INR n * u <= 1 -> (1 + u) ^ n <= 1 + 2 * INR n * u.
Proof.
  intros Hu. induction n as [|n IH]; [cbn; lra|]. rewrite S_INR. intros H. pose proof (pos_INR n).
  assert (2 * INR n * u <= 1) by nra. specialize (IH H1). cbn [pow].
  apply Rle_trans with ((1 + u) * (1 + 2 * INR n * u)); [apply Rmult_le_compat_l; lra|]. nra.
Qed.

(** [a] approximates [x], of size at most [M], up to [c] units in the last place and [e] *)
Definition app (c M e a x : R) : Prop := Rabs x <= M /\ Rabs (a - x) <= c * u32 * M + e.

Lemma app_size c M e a x : app c M e a x -> Rabs a <= (1 + c * u32) * M + e.
Proof.
  intros [Hx Ha]. replace a with ((a - x) + x) by ring.
  eapply Rle_trans; [apply Rabs_triang|]. lra.
Qed.

Lemma app_M c M e a x : app c M e a x -> 0 <= M.
Proof. intros [H _]. pose proof (Rabs_pos x). lra. Qed.

Lemma app_weaken c d M e f a x : c <= d -> e <= f -> app c M e a x -> app d M f a x.
Proof.
  intros H1 H2 HA. pose proof (app_M _ _ _ _ _ HA). destruct HA as [A B]. split; auto.
  eapply Rle_trans; [exact B|]. apply Rplus_le_compat; auto. apply Rmult_le_compat_r; auto.
  apply Rmult_le_compat_r; auto. unfold u32; lra.
Qed.

Lemma app_scale c M M' e a x : 0 <= c -> M <= M' -> app c M e a x -> app c M' e a x.
Proof.
  intros Hc H1 [A B]. split; [lra|]. eapply Rle_trans; [exact B|]. apply Rplus_le_compat_r.
  apply Rmult_le_compat_l; auto. apply Rmult_le_pos; auto. unfold u32; lra.
Qed.

Lemma app_exact M x : Rabs x <= M -> app 0 M 0 x x.
Proof. intros H. split; auto. rewrite Rminus_diag_eq, Rabs_R0 by auto. lra. Qed.

Lemma app_add c M e a x d L f b y : app c M e a x -> app d L f b y ->
  app (Rmax c d) (M + L) (e + f) (a + b) (x + y).
Proof.
  intros HA HB. pose proof (app_M _ _ _ _ _ HA). pose proof (app_M _ _ _ _ _ HB).
  destruct HA as [A1 A2], HB as [B1 B2]. split.
  - eapply Rle_trans; [apply Rabs_triang|]. lra.
  - replace (a + b - (x + y)) with ((a - x) + (b - y)) by ring.
    eapply Rle_trans; [apply Rabs_triang|].
    assert (U : 0 <= u32) by (unfold u32; lra).
    assert (c * u32 * M <= Rmax c d * u32 * M).
    { repeat apply Rmult_le_compat_r; auto. apply Rmax_l. }
    assert (d * u32 * L <= Rmax c d * u32 * L).
    { repeat apply Rmult_le_compat_r; auto. apply Rmax_r. }
    lra.
Qed.

Lemma app_opp c M e a x : app c M e a x -> app c M e (- a) (- x).
Proof.
  intros [A B]. split; [now rewrite Rabs_Ropp|]. replace (- a - - x) with (- (a - x)) by ring.
  now rewrite Rabs_Ropp.
Qed.

Lemma app_mul c M a x d L b y : 0 <= c <= 1000 -> 0 <= d <= 1000 ->
  app c M 0 a x -> app d L 0 b y -> app (c + d + / 10) (M * L) 0 (a * b) (x * y).
Proof.
  intros Hc Hd HA HB. pose proof (app_M _ _ _ _ _ HA). pose proof (app_M _ _ _ _ _ HB).
  destruct HA as [A1 A2], HB as [B1 B2]. rewrite Rplus_0_r in A2, B2. split.
  - rewrite Rabs_mult. apply Rmult_le_compat; auto; apply Rabs_pos.
  - replace (a * b - x * y) with ((a - x) * (b - y) + ((a - x) * y + x * (b - y))) by ring.
    eapply Rle_trans; [apply Rabs_triang|].
    eapply Rle_trans; [apply Rplus_le_compat_l, Rabs_triang|]. rewrite !Rabs_mult.
    assert (T1 : Rabs (a - x) * Rabs (b - y) <= (c * u32 * M) * (d * u32 * L))
      by (apply Rmult_le_compat; auto; apply Rabs_pos).
    assert (T2 : Rabs (a - x) * Rabs y <= (c * u32 * M) * L)
      by (apply Rmult_le_compat; auto; apply Rabs_pos).
    assert (T3 : Rabs x * Rabs (b - y) <= M * (d * u32 * L))
      by (apply Rmult_le_compat; auto; apply Rabs_pos).
    assert (T4 : (c * u32 * M) * (d * u32 * L) <= / 10 * u32 * (M * L)).
    { replace ((c * u32 * M) * (d * u32 * L)) with ((c * d * u32) * u32 * (M * L)) by ring.
      apply Rmult_le_compat_r; [now apply Rmult_le_pos|].
      apply Rmult_le_compat_r; [unfold u32; lra|].
      assert (c * d <= 1000 * 1000) by (apply Rmult_le_compat; lra). unfold u32. lra. }
    rewrite Rplus_0_r.
    replace ((c + d + / 10) * u32 * (M * L)) with
      (/ 10 * u32 * (M * L) + ((c * u32 * M) * L + M * (d * u32 * L))) by ring.
    lra.
Qed.

Lemma app_rnd c M e a x : 0 <= c <= 1000 -> 0 <= e -> app c M e a x ->
  app (c + 1 + / 10) M (2 * e + eta32) (rnd32 a) x.
Proof.
  intros Hc He HA. pose proof (app_M _ _ _ _ _ HA) as HM. pose proof (app_size _ _ _ _ _ HA) as S.
  destruct HA as [A1 A2]. split; auto.
  replace (rnd32 a - x) with ((rnd32 a - a) + (a - x)) by ring.
  eapply Rle_trans; [apply Rabs_triang|]. pose proof (rnd32_err a) as E.
  assert (T : u32 * Rabs a <= u32 * ((1 + c * u32) * M + e)) by (apply Rmult_le_compat_l; auto; unfold u32; lra).
  assert (T2 : u32 * ((1 + c * u32) * M) <= (1 + / 10) * u32 * M).
  { replace (u32 * ((1 + c * u32) * M)) with ((1 + c * u32) * (u32 * M)) by ring.
    rewrite (Rmult_assoc _ u32 M). apply Rmult_le_compat_r; [apply Rmult_le_pos; auto; unfold u32; lra|].
    unfold u32. lra. }
  assert (T3 : u32 * e <= e) by (unfold u32; lra). lra.
Qed.

(** when the rounded value does not underflow *)
Lemma app_rnd_grid c M a x : 0 <= c <= 1000 -> grid a -> app c M 0 a x ->
  app (c + 1 + / 10) M 0 (rnd32 a) x.
Proof.
  intros Hc G HA. pose proof (app_M _ _ _ _ _ HA) as HM. pose proof (app_size _ _ _ _ _ HA) as S.
  destruct HA as [A1 A2]. split; auto.
  replace (rnd32 a - x) with ((rnd32 a - a) + (a - x)) by ring.
  eapply Rle_trans; [apply Rabs_triang|]. pose proof (rnd32_grid a G) as E.
  assert (T : u32 * Rabs a <= u32 * ((1 + c * u32) * M + 0)) by (apply Rmult_le_compat_l; auto; unfold u32; lra).
  assert (T2 : u32 * ((1 + c * u32) * M) <= (1 + / 10) * u32 * M).
  { replace (u32 * ((1 + c * u32) * M)) with ((1 + c * u32) * (u32 * M)) by ring.
    rewrite (Rmult_assoc _ u32 M). apply Rmult_le_compat_r; [apply Rmult_le_pos; auto; unfold u32; lra|].
    unfold u32. lra. }
  lra.
Qed.

Lemma rnd32_normal a : bpow radix2 (-126) <= Rabs a -> Rabs (rnd32 a - a) <= u32 * Rabs a.
Proof.
  intros H. pose proof (relative_error_N_FLT radix2 (-149) 24 eq_refl (fun z => negb (Z.even z)) a H) as E.
  change (round radix2 fexp32 (Znearest _) a) with (rnd32 a) in E.
  eapply Rle_trans; [exact E|]. right. f_equal. unfold u32. cbn. lra.
Qed.

Lemma app_rnd_normal c a x : 0 <= c <= 1000 -> 0 < x -> bpow radix2 (-120) <= x -> app c x 0 a x ->
  app (c + 1 + / 10) x 0 (rnd32 a) x.
Proof.
  intros Hc Hx Hb HA. pose proof (app_size _ _ _ _ _ HA) as S.
  destruct HA as [A1 A2]. split; auto. rewrite Rplus_0_r in *.
  replace (rnd32 a - x) with ((rnd32 a - a) + (a - x)) by ring.
  assert (Ha : bpow radix2 (-126) <= Rabs a).
  { apply Rabs_le_inv in A2. apply Rle_trans with a; [|apply Rle_abs].
    assert (c * u32 * x <= / 2 * x) by (apply Rmult_le_compat_r; [lra|]; unfold u32; lra).
    apply Rle_trans with (/ 2 * bpow radix2 (-120)); [|lra].
    change (/ 2) with (bpow radix2 (-1)). rewrite <- bpow_plus. apply bpow_le. lia. }
  eapply Rle_trans; [apply Rabs_triang|]. pose proof (rnd32_normal a Ha) as E.
  assert (T : u32 * Rabs a <= u32 * ((1 + c * u32) * x)) by (apply Rmult_le_compat_l; auto; unfold u32; lra).
  assert (T2 : u32 * ((1 + c * u32) * x) <= (1 + / 10) * u32 * x).
  { replace (u32 * ((1 + c * u32) * x)) with ((1 + c * u32) * (u32 * x)) by ring.
    rewrite (Rmult_assoc _ u32 x). apply Rmult_le_compat_r; [apply Rmult_le_pos; unfold u32; lra|].
    unfold u32. lra. }
  lra.
Qed.

Lemma app_pos c a x : 0 <= c <= 1000 -> 0 < x -> app c x 0 a x -> / 2 * x <= a.
Proof.
  intros Hc Hx [_ A2]. rewrite Rplus_0_r in A2. apply Rabs_le_inv in A2.
  assert (c * u32 * x <= / 2 * x) by (apply Rmult_le_compat_r; [lra|]; unfold u32; lra). lra.
Qed.

Lemma app_inv c a x : 0 <= c <= 100 -> 0 < x -> app c x 0 a x -> app (c + / 10) (/ x) 0 (/ a) (/ x).
Proof.
  intros Hc Hx HA. pose proof (app_pos c a x ltac:(lra) Hx HA) as Ha. destruct HA as [_ A2].
  rewrite Rplus_0_r in A2.
  assert (Hi : 0 < / x) by now apply Rinv_0_lt_compat.
  split; [rewrite Rabs_pos_eq; lra|]. rewrite Rplus_0_r.
  replace (/ a - / x) with ((x - a) * (/ a * / x)) by (field; lra).
  rewrite Rabs_mult, (Rabs_pos_eq (/ a * / x)).
  2:{ apply Rmult_le_pos; apply Rlt_le; auto. apply Rinv_0_lt_compat. lra. }
  rewrite Rabs_minus_sym.
  apply Rle_trans with (c * u32 * x * (/ a * / x)).
  - apply Rmult_le_compat_r; auto. apply Rmult_le_pos; apply Rlt_le; auto. apply Rinv_0_lt_compat. lra.
  - replace (c * u32 * x * (/ a * / x)) with (c * u32 * (x / a) * / x) by (field; lra).
    apply Rmult_le_compat_r; [lra|].
    assert (Q : x / a <= 1 + 2 * c * u32).
    { apply Rmult_le_reg_r with a; [lra|]. unfold Rdiv. rewrite Rmult_assoc, Rinv_l, Rmult_1_r by lra.
      apply Rabs_le_inv in A2.
      assert (E1 : (1 - c * u32) * x <= a) by lra.
      apply Rle_trans with ((1 + 2 * c * u32) * ((1 - c * u32) * x)).
      - replace ((1 + 2 * c * u32) * ((1 - c * u32) * x)) with ((1 + c * u32 * (1 - 2 * c * u32)) * x) by ring.
        assert (0 <= c * u32 * (1 - 2 * c * u32)); [apply Rmult_le_pos; unfold u32; nra|nra].
      - apply Rmult_le_compat_l; auto. unfold u32. lra. }
    apply Rle_trans with (c * u32 * (1 + 2 * c * u32)).
    + apply Rmult_le_compat_l; auto. unfold u32. lra.
    + replace (c * u32 * (1 + 2 * c * u32)) with ((c + 2 * (c * c) * u32) * u32) by ring.
      apply Rmult_le_compat_r; [unfold u32; lra|]. assert (c * c <= 100 * 100) by (apply Rmult_le_compat; lra).
      unfold u32. lra.
Qed.

Lemma app_sqrt c a x : 0 <= c <= 1000 -> 0 < x -> app c x 0 a x ->
  app c (R_sqrt.sqrt x) 0 (R_sqrt.sqrt a) (R_sqrt.sqrt x).
Proof.
  intros Hc Hx HA. pose proof (app_pos c a x Hc Hx HA) as Ha. destruct HA as [_ A2]. rewrite Rplus_0_r in A2.
  assert (Sx : 0 < R_sqrt.sqrt x) by now apply sqrt_lt_R0.
  assert (Sa : 0 < R_sqrt.sqrt a) by (apply sqrt_lt_R0; lra).
  split; [rewrite Rabs_pos_eq; lra|]. rewrite Rplus_0_r.
  apply Rmult_le_reg_r with (R_sqrt.sqrt a + R_sqrt.sqrt x); [lra|].
  rewrite <- (Rabs_pos_eq (R_sqrt.sqrt a + R_sqrt.sqrt x)) at 1 by lra. rewrite <- Rabs_mult.
  replace ((R_sqrt.sqrt a - R_sqrt.sqrt x) * (R_sqrt.sqrt a + R_sqrt.sqrt x)) with (a - x).
  2:{ rewrite <- (sqrt_sqrt a) at 1 by lra. rewrite <- (sqrt_sqrt x) at 1 by lra. ring. }
  eapply Rle_trans; [exact A2|].
  replace (c * u32 * R_sqrt.sqrt x * (R_sqrt.sqrt a + R_sqrt.sqrt x)) with
    (c * u32 * (R_sqrt.sqrt x * R_sqrt.sqrt x) + c * u32 * (R_sqrt.sqrt x * R_sqrt.sqrt a)) by ring.
  rewrite sqrt_sqrt by lra.
  assert (0 <= c * u32 * (R_sqrt.sqrt x * R_sqrt.sqrt a)); [|lra].
  apply Rmult_le_pos; [apply Rmult_le_pos; unfold u32; lra|apply Rmult_le_pos; lra].
Qed.
