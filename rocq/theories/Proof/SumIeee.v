(** Sums in IEEE arithmetic, in any order. *)
From Coq Require Import List Arith ZArith Bool Lia Reals Lra SpecFloat.
From Flocq Require Import Core.
From Verif Require Import Base.Num Proof.Ieee Proof.KernelsIeee Proof.Index Proof.Rounding Proof.SumOrder.
Import ListNotations.
Local Open Scope R_scope.

Lemma ones {A B} (P : A -> B -> Prop) l l' : Forall2 P l l' -> exists L : list (A * B * nat),
  map (fun p => fst (fst p)) L = l /\ map (fun p => snd (fst p)) L = l' /\ tcount L = length L /\ length L = length l /\
  Forall (fun p => snd p = 1%nat /\ P (fst (fst p)) (snd (fst p))) L.
Proof.
  induction 1 as [|x y l l' H _ (L & E1 & E2 & E3 & E4 & E5)]; [now exists []|].
  exists ((x, y, 1%nat) :: L). cbn. rewrite E1, E2, E4. unfold tcount in E3. rewrite E3. repeat split; auto.
Qed.

Section Sim.
Context (bld : build).
Notation NI := (numI bld).
Notation NF := (numF bld).
Notation z0 := (S754_zero false).

Lemma pow_u32 d : (Z.of_nat d <= 33554432)%Z -> 1 <= (1 + u32) ^ d <= 16.
Proof.
  intros Hd. split; [apply pow_R1_Rle; unfold u32; lra|].
  assert (E : (1 + u32) ^ d <= exp (INR d * u32)).
  { clear. induction d as [|d IH]; [cbn [pow INR]; rewrite Rmult_0_l, exp_0; lra|].
    rewrite S_INR, Rmult_plus_distr_r, Rmult_1_l, exp_plus. cbn [pow]. rewrite Rmult_comm.
    apply Rmult_le_compat; auto; [apply pow_le; unfold u32; lra|unfold u32; lra|].
    apply Rlt_le, exp_ineq1. unfold u32; lra. }
  assert (D : INR d * u32 <= 2).
  { apply Rle_trans with (33554432 * u32); [|unfold u32; lra]. apply Rmult_le_compat_r; [unfold u32; lra|].
    rewrite INR_IZR_INZ. apply (IZR_le _ 33554432). lia. }
  assert (exp (INR d * u32) <= exp 2).
  { destruct (Rle_lt_or_eq_dec _ _ D) as [L| ->]; [apply Rlt_le, exp_increasing, L|lra]. }
  assert (exp 2 <= 9).
  { replace 2 with (1 + 1) by lra. rewrite exp_plus. pose proof exp_le_3. pose proof (exp_pos 1). nra. }
  lra.
Qed.

Lemma fl0 p e : Prec_gt_0 p -> fl p e (S754_zero false) 0.
Proof.
  intros Hp. repeat split; auto; [apply generic_format_0|]. rewrite Rabs_R0. apply bpow_gt_0.
Qed.

(** terms of at most 2^j *)
Definition term_I (j : Z) (t : term spec_float) (t' : term R) : Prop :=
  match t, t' with
  | Val x, Val a => fb32 j x a
  | Prod w x, Prod v a => exists i k, (i + k <= j)%Z /\ fb32 i w v /\ fb32 k x a
  | _, _ => False
  end.

(** a partial sum of [m] terms after [d] additions *)
Definition part_I (j : Z) (d : nat) (p : term spec_float * term R * nat) : Prop :=
  let '(t, t', m) := p in
  (1 <= m)%nat /\
  match t, t' with
  | Val x, Val a => fl32 x a /\ Rabs a <= (1 + u32) ^ d * INR m * bpow radix2 j
  | _, _ => m = 1%nat /\ term_I j t t'
  end.

Lemma rnd32_grow B z : bpow radix2 (-100) <= B -> Rabs z <= B -> Rabs (rnd32 z) <= (1 + u32) * B.
Proof.
  intros HB Hz.
  assert (Rabs (rnd32 z) <= rnd32 B).
  { apply Rabs_le_inv in Hz. assert (V : Valid_exp (FLT_exp (-149) 24)) by (apply FLT_exp_valid; reflexivity).
    apply Rabs_le. split; [|apply round_le; [exact V|apply valid_rnd_N|lra]].
    unfold rnd32. rewrite <- round_NE_opp. apply round_le; [exact V|apply valid_rnd_N|lra]. }
  assert (rnd32 B <= (1 + u32) * B); [|lra].
  assert (0 < B) by (pose proof (bpow_gt_0 radix2 (-100)); lra).
  assert (E : Rabs (rnd32 B - B) <= u32 * Rabs B).
  { apply rnd32_normal. rewrite Rabs_pos_eq by lra. eapply Rle_trans; [apply bpow_le|exact HB]; lia. }
  rewrite (Rabs_pos_eq B) in E by lra. apply Rabs_le_inv in E. lra.
Qed.

Lemma part_val j d t t' m : (-100 <= j <= 90)%Z -> part_I j d (t, t', m) ->
  fl32 (term_val (o_mul (@n_sgl NI)) t) (term_val (o_mul (@n_sgl NF)) t') /\
  Rabs (term_val (o_mul (@n_sgl NF)) t') <= (1 + u32) ^ d * INR m * bpow radix2 j.
Proof.
  intros Hj [Hm H]. destruct t as [x|w x], t' as [a|v a]; cbn [term_val]; try (now destruct H).
  destruct H as [-> (i & k & Hik & Hw & Hx)].
  assert (Hp : Rabs (v * a) <= bpow radix2 j).
  { destruct Hw as [_ Hw], Hx as [_ Hx]. rewrite Rabs_mult. apply Rle_trans with (bpow radix2 i * bpow radix2 k).
    - apply Rmult_le_compat; auto; apply Rabs_pos.
    - rewrite <- bpow_plus. now apply bpow_le. }
  split.
  - apply (fl_mul 24 128 p24 e128 inc32); [apply Hw|apply Hx|]. eapply Rle_trans; [exact Hp|]. apply bpow_le. lia.
  - cbn [INR]. rewrite Rmult_1_r. apply Rle_trans with (1 * bpow radix2 j).
    + rewrite Rmult_1_l. apply (rndf_bpow 24 128 p24); auto. lia.
    + apply Rmult_le_compat_r; [apply bpow_ge_0|]. apply pow_R1_Rle. unfold u32. lra.
Qed.

Lemma part_mono j d p : part_I j d p -> part_I j (S d) p.
Proof.
  destruct p as [[t t'] m]. intros [Hm H]. split; auto. destruct t, t'; auto. destruct H as [F B]. split; auto.
  eapply Rle_trans; [exact B|]. apply Rmult_le_compat_r; [apply bpow_ge_0|]. apply Rmult_le_compat_r; [apply pos_INR|].
  cbn [pow]. rewrite <- (Rmult_1_l ((1 + u32) ^ d)) at 1. apply Rmult_le_compat_r; [apply pow_le|]; unfold u32; lra.
Qed.

Lemma part_add j d (fuse : bool) t1 t1' m1 t2 t2' m2 : (-100 <= j <= 90)%Z -> (Z.of_nat (S d) <= 33554432)%Z ->
  (Z.of_nat (m1 + m2) <= 33554432)%Z -> part_I j d (t1, t1', m1) -> part_I j d (t2, t2', m2) ->
  part_I j (S d)
    (Val (add_terms (o_add (@n_sgl NI)) (o_mul (@n_sgl NI)) (fun a b c => sf_round 53 1024 (sf_fma 24 128 (sf_round 24 128 a) (sf_round 24 128 b) (sf_round 24 128 c))) fuse t1 t2),
     Val (add_terms (o_add (@n_sgl NF)) (o_mul (@n_sgl NF)) (fun a b c => rnd32 (a * b + c)) fuse t1' t2'), (m1 + m2)%nat).
Proof.
  intros Hj Hd Hm P1 P2. destruct (part_val _ _ _ _ _ Hj P1) as [F1 B1]. destruct (part_val _ _ _ _ _ Hj P2) as [F2 B2].
  assert (M1 : (1 <= m1)%nat) by apply P1. split; [lia|].
  set (Q := (1 + u32) ^ d * INR (m1 + m2) * bpow radix2 j).
  assert (EQ : Q = (1 + u32) ^ d * INR m1 * bpow radix2 j + (1 + u32) ^ d * INR m2 * bpow radix2 j)
    by (unfold Q; rewrite plus_INR; ring).
  destruct (pow_u32 d ltac:(lia)) as [D1 D2].
  assert (NM : 1 <= INR (m1 + m2) <= 33554432).
  { split; [apply (le_INR 1); lia|]. rewrite INR_IZR_INZ. apply (IZR_le _ 33554432). lia. }
  assert (Q1 : bpow radix2 (-100) <= Q).
  { apply Rle_trans with (1 * 1 * bpow radix2 j); [rewrite !Rmult_1_l; apply bpow_le; lia|].
    apply Rmult_le_compat_r; [apply bpow_ge_0|]. apply Rmult_le_compat; lra. }
  assert (Q2 : Q <= bpow radix2 127).
  { apply Rle_trans with (16 * 33554432 * bpow radix2 90).
    - apply Rmult_le_compat; [apply Rmult_le_pos; lra|apply bpow_ge_0|apply Rmult_le_compat; lra|apply bpow_le; lia].
    - replace (16 * 33554432) with (bpow radix2 29) by (cbn; lra). rewrite <- bpow_plus. apply bpow_le. lia. }
  assert (G : forall z, Rabs z <= Q -> Rabs (rnd32 z) <= (1 + u32) ^ S d * INR (m1 + m2) * bpow radix2 j).
  { intros z Hz. pose proof (rnd32_grow Q z Q1 Hz) as H. unfold Q in H. cbn [pow]. rewrite !Rmult_assoc in *. exact H. }
  assert (PL : forall a b, Rabs a <= (1 + u32) ^ d * INR m1 * bpow radix2 j -> Rabs b <= (1 + u32) ^ d * INR m2 * bpow radix2 j -> Rabs (a + b) <= Q).
  { intros a b Ha Hb. rewrite EQ. eapply Rle_trans; [apply Rabs_triang|]. lra. }
  assert (SM : forall z, Rabs z <= Q -> Rabs z <= bpow radix2 (128 - 1)) by (intros; change (128 - 1)%Z with 127%Z; lra).
  destruct t2 as [y|w x], t2' as [b|v a]; cbn [add_terms]; try (now destruct P2 as (_ & _ & [])).
  - cbn [term_val] in F2, B2. specialize (PL _ _ B1 B2). split.
    + apply (fl_add 24 128 p24 e128 inc32); auto.
    + now apply G.
  - destruct fuse.
    + destruct P2 as (_ & -> & i & k & Hik & Hw & Hx).
      assert (Hp : Rabs (v * a) <= (1 + u32) ^ d * INR 1 * bpow radix2 j).
      { destruct Hw as [_ Hw], Hx as [_ Hx]. rewrite Rabs_mult. apply Rle_trans with (bpow radix2 i * bpow radix2 k).
        - apply Rmult_le_compat; auto; apply Rabs_pos.
        - rewrite <- bpow_plus. cbn [INR]. rewrite Rmult_1_r. apply Rle_trans with (1 * bpow radix2 j).
          + rewrite Rmult_1_l. now apply bpow_le.
          + apply Rmult_le_compat_r; [apply bpow_ge_0|lra]. }
      specialize (PL _ _ B1 Hp). rewrite Rplus_comm in PL. split.
      * apply (fl_up 24 128 inc32). apply (fma_flo 24 128 p24 e128); [apply (fl_dn 24 128 p24 e128), Hw|apply (fl_dn 24 128 p24 e128), Hx|now apply (fl_dn 24 128 p24 e128)|].
        apply (rndf_small 24 128 p24 e128); auto.
      * now apply G.
    + cbn [term_val] in F2, B2. specialize (PL _ _ B1 B2). split.
      * apply (fl_add 24 128 p24 e128 inc32); auto.
      * now apply G.
Qed.

Lemma s_sum j k l l' : (-100 <= j <= 90)%Z -> Forall2 (term_I j) l l' -> (Z.of_nat (length l) <= 33554432)%Z ->
  fb32 (j + 29) (o_sum (@n_sgl NI) k l) (o_sum (@n_sgl NF) k l').
Proof.
  intros Hj HF Hn. destruct l as [|t l].
  { inversion HF; subst. cbn [numI numF n_sgl opsI opsF o_sum sum_in_order].
    assert (E : rnd32 0 = 0) by (apply round_0; apply valid_rnd_N). rewrite E.
    split; [|rewrite Rabs_R0; apply bpow_ge_0]. apply fl0; reflexivity. }
  destruct (ones _ (t :: l) l' HF) as (L & E1 & E2 & E3 & E4 & HK).
  destruct (sum_pair z0 (rnd32 0) (o_add (@n_sgl NI)) (o_mul (@n_sgl NI))
     (fun a b c => sf_round 53 1024 (sf_fma 24 128 (sf_round 24 128 a) (sf_round 24 128 b) (sf_round 24 128 c)))
     (o_add (@n_sgl NF)) (o_mul (@n_sgl NF)) (fun a b c => rnd32 (a * b + c)) (part_I j) (length L) (length L) (b_fma bld))
    with (bld := bld) (k := k) (L := L) as (p & Kp & Cp & S1 & S2); auto.
  - intros d p _. apply part_mono.
  - intros d fuse [[t1 t1'] m1] [[t2 t2'] m2] _ H1 H2. cbn [fst snd] in *. apply part_add; auto; lia.
  - intros E. now rewrite E in E4.
  - lia.
  - lia.
  - eapply Forall_impl; [|exact HK]. clear. intros [[x y] m] [E H]. cbn [fst snd] in E, H. subst m.
    unfold part_I. split; auto. destruct x as [x|w x], y as [y|v y]; auto. destruct H as [F B]. split; auto.
    cbn [pow INR]. now rewrite !Rmult_1_l.
  - rewrite E1 in S1. rewrite E2 in S2. destruct p as [[u u'] m]. cbn [fst snd] in *.
    destruct (part_val _ _ _ _ _ Hj Kp) as [F B].
    match type of S1 with ?a = _ => change (o_sum (@n_sgl NI) k (t :: l)) with a end.
    match type of S2 with ?a = _ => change (o_sum (@n_sgl NF) k l') with a end. rewrite S1, S2. split; auto.
    eapply Rle_trans; [exact B|]. rewrite Z.add_comm, bpow_plus. apply Rmult_le_compat_r; [apply bpow_ge_0|].
    replace (bpow radix2 29) with (16 * 33554432) by (cbn; lra).
    destruct (pow_u32 (length L - 1) ltac:(lia)) as [D1 D2]. apply Rmult_le_compat; auto; [lra|apply pos_INR|].
    rewrite INR_IZR_INZ. apply (IZR_le _ 33554432). lia.
Qed.

(** double precision *)
Lemma d_sum j k l l' : (-1074 <= j <= 900)%Z -> (Z.of_nat (length l') <= 2 ^ 53)%Z -> Forall2 (fb64 j) l l' ->
  fm 53 1024 j (length l') (o_sum (@n_dbl NI) k (map Val l)) (o_sum (@n_dbl NF) k (map Val l')).
Proof.
  intros Hj Hn HF. assert (EL : length l = length l') by (clear -HF; induction HF; cbn; auto).
  destruct l as [|t l].
  { inversion HF; subst. cbn [map numI numF n_dbl opsI opsF o_sum sum_in_order length].
    assert (E : rnd64 0 = 0) by (apply round_0; apply valid_rnd_N). rewrite E.
    split; [|cbn; rewrite Rabs_R0; lra]. apply fl0; reflexivity. }
  assert (HT : Forall2 (fun t t' => exists x a, t = Val x /\ t' = Val a /\ fb64 j x a) (map Val (t :: l)) (map Val l')).
  { clear -HF. induction HF; cbn [map]; constructor; eauto. }
  destruct (ones _ _ _ HT) as (L & E1 & E2 & E3 & E4 & HK). rewrite map_length in E4.
  destruct (sum_pair z0 (rnd64 0) (o_add (@n_dbl NI)) (o_mul (@n_dbl NI))
     (fun a b c => sf_round 53 1024 (sf_fma 53 1024 (sf_round 53 1024 a) (sf_round 53 1024 b) (sf_round 53 1024 c)))
     (o_add (@n_dbl NF)) (o_mul (@n_dbl NF)) (fun a b c => rnd64 (a * b + c))
     (fun _ p => exists x a, fst p = (Val x, Val a) /\ fm 53 1024 j (snd p) x a) (length L) (length L) (b_fma bld))
    with (bld := bld) (k := k) (L := L) as (p & (x & a & Ep & Kp) & Cp & S1 & S2); auto.
  - intros _ fuse [tt m1] [tt' m2] _ _ H2 (x & a & Ex & Kx) (y & b & Ey & Ky). cbn [fst snd] in *. subst tt tt'. cbn [fst snd add_terms term_val].
    exists (o_add (@n_dbl NI) x y), (o_add (@n_dbl NF) a b). split; auto. apply d_addm; auto; lia.
  - intros E. now rewrite E in E4.
  - lia.
  - lia.
  - eapply Forall_impl; [|exact HK]. intros [[x y] m] [E (v & a & E5 & E6 & H)]. cbn [fst snd] in *. subst m x y.
    exists v, a. split; auto. now apply fb_fm.
  - rewrite E1 in S1. rewrite E2 in S2. rewrite Ep in S1, S2. cbn [fst snd term_val] in S1, S2.
    match type of S1 with ?a = _ => change (o_sum (@n_dbl NI) k (map Val (t :: l))) with a end.
    match type of S2 with ?a = _ => change (o_sum (@n_dbl NF) k (map Val l')) with a end. rewrite S1, S2. rewrite <- EL, <- E4, <- E3, <- Cp. exact Kp.
Qed.
End Sim.
