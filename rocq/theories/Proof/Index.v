(** Row index arithmetic of [merge], in exact and in binary32 arithmetic. *)
From Coq Require Import List Arith ZArith Bool Lia Reals Lra Psatz.
From Flocq Require Import Core Relative Plus_error.
From Verif Require Import Base.Result Base.Buf Base.Num Model.Transforms Spec.FfaSpec
  Proof.Transforms.
Local Open Scope R_scope.

Lemma to_nat_trunc_lt x (n : nat) : 0 <= x -> x < INR n -> (Z.to_nat (Ztrunc x) < n)%nat.
Proof.
  intros H0 Hx. rewrite Ztrunc_floor by auto.
  assert (Zfloor x < Z.of_nat n)%Z.
  { apply lt_IZR. rewrite <- INR_IZR_INZ. eapply Rle_lt_trans; [apply Zfloor_lb|auto]. }
  assert (0 <= Zfloor x)%Z by (apply Zfloor_lub; auto). lia.
Qed.

Lemma to_nat_trunc_ge x (n : nat) : INR n <= x -> (n <= Z.to_nat (Ztrunc x))%nat.
Proof.
  intros Hx. assert (0 <= x) by (pose proof (pos_INR n); lra). rewrite Ztrunc_floor by auto.
  assert (Z.of_nat n <= Zfloor x)%Z.
  { apply Zfloor_lub. now rewrite <- INR_IZR_INZ. } lia.
Qed.

Definition kappa (part m : nat) : R := (INR part - 1) / (INR m - 1).

(** exact arithmetic *)
Lemma merge_index_R part m s :
  merge_index numR part m s = Z.to_nat (Ztrunc (kappa part m * INR s + / 2)).
Proof.
  unfold merge_index, merge_k, half, kappa. rsimp.
  rewrite <- !INR_IZR_INZ. do 3 f_equal. lra.
Qed.

Lemma kappa_bounds part m : (1 <= part < m)%nat -> 0 <= kappa part m <= 1.
Proof.
  intros H. unfold kappa.
  assert (1 <= INR part) by (apply (le_INR 1); lia).
  assert (INR part + 1 <= INR m) by (rewrite <- S_INR; apply le_INR; lia).
  split.
  - apply Rmult_le_pos; [lra|]. left; apply Rinv_0_lt_compat; lra.
  - apply Rmult_le_reg_r with (INR m - 1); [lra|]. field_simplify; lra.
Qed.

Lemma index_R_close part m s : (1 <= part < m)%nat ->
  let i := INR (merge_index numR part m s) in
  i - / 2 <= kappa part m * INR s < i + / 2.
Proof.
  intros H i. unfold i. rewrite merge_index_R.
  pose proof (kappa_bounds part m H) as Hk.
  assert (0 <= kappa part m * INR s) by (apply Rmult_le_pos; [lra|apply pos_INR]).
  rewrite Ztrunc_floor by lra.
  assert (0 <= Zfloor (kappa part m * INR s + / 2))%Z by (apply Zfloor_lub; lra).
  rewrite INR_IZR_INZ, Z2Nat.id by auto.
  pose proof (Zfloor_lb (kappa part m * INR s + / 2)).
  pose proof (Zfloor_ub (kappa part m * INR s + / 2)). lra.
Qed.

Lemma good_index_exact m : (3 <= m)%nat -> good_index (merge_index numR) m.
Proof.
  intros Hm s Hs.
  pose proof (half_facts m ltac:(lia)) as Hh.
  set (mh := (m / 2)%nat) in *. set (mt := (m - mh)%nat) in *.
  pose proof (index_R_close mh m s ltac:(lia)) as Ch.
  pose proof (index_R_close mt m s ltac:(lia)) as Ct. cbv zeta in *.
  set (h := merge_index numR mh m s) in *. set (t := merge_index numR mt m s) in *.
  assert (Em : INR m = INR mh + INR mt) by (unfold mt; rewrite minus_INR by lia; lra).
  assert (Hs' : INR s <= INR m - 1).
  { replace (INR m - 1) with (INR (m - 1)) by (rewrite minus_INR by lia; cbn; lra).
    apply le_INR; lia. }
  assert (H1 : 1 <= INR mh) by (apply (le_INR 1); lia).
  assert (H2 : 1 <= INR mt) by (apply (le_INR 1); lia).
  pose proof (pos_INR s) as Hs0.
  assert (Kh : kappa mh m * (INR m - 1) = INR mh - 1) by (unfold kappa; field; lra).
  assert (Kt : kappa mt m * (INR m - 1) = INR mt - 1) by (unfold kappa; field; lra).
  pose proof (kappa_bounds mh m ltac:(lia)). pose proof (kappa_bounds mt m ltac:(lia)).
  assert (Uh : kappa mh m * INR s <= INR mh - 1) by (rewrite <- Kh; apply Rmult_le_compat_l; lra).
  assert (Ut : kappa mt m * INR s <= INR mt - 1) by (rewrite <- Kt; apply Rmult_le_compat_l; lra).
  assert (Ks : (kappa mh m + kappa mt m) * INR s = INR s - INR s / (INR m - 1)).
  { replace (kappa mh m + kappa mt m) with (1 - / (INR m - 1)); [field; lra|].
    unfold kappa. rewrite Em. field; lra. }
  assert (Q : 0 <= INR s / (INR m - 1) <= 1).
  { split. { apply Rmult_le_pos; auto. left; apply Rinv_0_lt_compat; lra. }
    apply Rmult_le_reg_r with (INR m - 1); [lra|]. field_simplify; lra. }
  assert (S1 : (h + t <= s)%nat).
  { destruct (Nat.eq_dec s 0) as [E|E].
    - rewrite E in *. cbn [INR] in *. rewrite !Rmult_0_r in *.
      assert (h < 1)%nat by (apply INR_lt; cbn; lra).
      assert (t < 1)%nat by (apply INR_lt; cbn; lra). lia.
    - assert (0 < INR s / (INR m - 1)).
      { apply Rmult_lt_0_compat; [apply lt_0_INR; lia|apply Rinv_0_lt_compat; lra]. }
      apply Nat.lt_succ_r. apply INR_lt. rewrite S_INR, plus_INR. lra. }
  repeat split; auto.
  - apply INR_lt. lra.
  - apply INR_lt. lra.
  - apply Nat.lt_succ_r. apply INR_lt. rewrite S_INR, !plus_INR. cbn [INR]. lra.
Qed.

(** binary32 *)
Notation fexp32 := (FLT_exp (-149) 24).
Notation F32 := (generic_format radix2 fexp32).

#[export] Instance prec24 : Prec_gt_0 24 := eq_refl.

Lemma rnd32_le x y : x <= y -> rnd32 x <= rnd32 y.
Proof. apply round_le; typeclasses eauto. Qed.

Lemma rnd32_id x : F32 x -> rnd32 x = x.
Proof. apply round_generic; typeclasses eauto. Qed.

Lemma F32_half z : (Z.abs z <= 2 ^ 24)%Z -> F32 (IZR z * / 2).
Proof.
  intros Hz.
  assert (Hb : F32 (F2R (Float radix2 z (-1)))).
  { destruct (Z.eq_dec (Z.abs z) (2 ^ 24)) as [E|E].
    - assert (Hp : F32 (bpow radix2 23)) by (apply generic_format_bpow; cbn; lia).
      destruct (Z.abs_eq_or_opp z) as [E'|E'].
      + replace (F2R (Float radix2 z (-1))) with (bpow radix2 23); auto.
        replace z with (2 ^ 24)%Z by lia. unfold F2R; cbn. lra.
      + replace (F2R (Float radix2 z (-1))) with (- bpow radix2 23);
          [now apply generic_format_opp|].
        replace z with (- 2 ^ 24)%Z by lia. unfold F2R; cbn. lra.
    - apply generic_format_FLT. exists (Float radix2 z (-1)); cbn; auto; lia. }
  replace (IZR z * / 2) with (F2R (Float radix2 z (-1))); auto.
Qed.

Lemma F32_int z : (Z.abs z <= 2 ^ 23)%Z -> F32 (IZR z).
Proof.
  intros H. replace (IZR z) with (IZR (2 * z) * / 2) by (rewrite mult_IZR; lra).
  apply F32_half. lia.
Qed.

Definition u32 : R := / 16777216.

Lemma rnd32_rel x : 0 <= x -> x = 0 \/ / 16777216 <= x ->
  x * (1 - u32) <= rnd32 x <= x * (1 + u32).
Proof.
  intros H0 [->|Hx].
  - rewrite rnd32_id by apply generic_format_0. lra.
  - pose proof (relative_error_N_FLT radix2 (-149) 24 eq_refl (fun z => negb (Z.even z)) x) as H.
    rewrite (Rabs_pos_eq x) in H by auto.
    assert (Hb : bpow radix2 (-149 + 24 - 1) <= x).
    { eapply Rle_trans; [|exact Hx]. apply Rle_trans with (bpow radix2 (-24)).
      - apply bpow_le; lia.
      - cbn; lra. }
    specialize (H Hb). change (round radix2 fexp32 (Znearest _) x) with (rnd32 x) in H.
    apply Rabs_le_inv in H.
    replace (/ 2 * bpow radix2 (- (24) + 1) * x) with (u32 * x) in H by (cbn; unfold u32; lra).
    lra.
Qed.

Lemma pred32 u : 0 < u -> F32 u -> pred radix2 fexp32 u <= u - u * u32.
Proof.
  intros Hu Fu. rewrite pred_eq_pos by lra. unfold pred_pos.
  destruct (Req_bool_spec u (bpow radix2 (mag radix2 u - 1))) as [E|E].
  - assert (bpow radix2 (mag radix2 u - 1) * u32 <=
            bpow radix2 (fexp32 (mag radix2 u - 1))).
    { replace u32 with (bpow radix2 (-24)) by (cbn; unfold u32; lra).
      rewrite <- bpow_plus. apply bpow_le. unfold FLT_exp. lia. }
    rewrite <- E in H at 1. lra.
  - pose proof (ulp_FLT_gt radix2 (-149) 24 u) as H.
    rewrite Rabs_pos_eq in H by lra.
    replace (bpow radix2 (- (24))) with u32 in H by (cbn; unfold u32; lra).
    change (FLT_exp (-149) 24) with fexp32 in H. lra.
Qed.

Lemma rnd32_ge_close u x : 0 < u -> F32 u -> u - u * u32 / 2 < x -> u <= rnd32 x.
Proof.
  intros Hu Fu Hx. apply round_N_ge_midp; auto; [typeclasses eauto|].
  pose proof (pred32 u Hu Fu). lra.
Qed.

Section Float.
Context (bld : build).

Definition fk (part m : nat) : R := rnd32 (kappa part m).

(** the float value that is truncated *)
Definition fv (part m s : nat) : R :=
  if b_fma bld then rnd32 (fk part m * INR s + / 2)
  else rnd32 (rnd32 (fk part m * INR s) + / 2).

Lemma merge_index_F part m s :
  (1 <= part)%nat -> (part < m)%nat -> (s < m)%nat -> (Z.of_nat m <= 4194304)%Z ->
  merge_index (numF bld) part m s = Z.to_nat (Ztrunc (fv part m s)).
Proof.
  intros H1 H2 H3 H4. unfold merge_index, merge_k, half.
  cbn [n_T n_sgl n_trunc numF opsF o_ofZ o_div o_sub o_mad].
  assert (Hi : forall k, (Z.of_nat k <= 4194304)%Z -> F32 (IZR (Z.of_nat k))) by (intros; apply F32_int; lia).
  rewrite (rnd32_id (IZR (Z.of_nat part))), (rnd32_id (IZR (Z.of_nat m))),
    (rnd32_id (IZR (Z.of_nat s))) by (apply Hi; lia).
  rewrite (rnd32_id (IZR 1)), (rnd32_id (IZR 2)) by (apply F32_int; lia).
  replace (rnd32 (1 / 2)) with (/ 2).
  2:{ symmetry. replace (1 / 2) with (IZR 1 * / 2) by lra. rewrite rnd32_id; [lra|].
      apply F32_half; lia. }
  rewrite (rnd32_id (IZR (Z.of_nat part) - 1)), (rnd32_id (IZR (Z.of_nat m) - 1))
    by (rewrite <- minus_IZR; apply F32_int; lia).
  rewrite <- !INR_IZR_INZ. unfold fv, fk, kappa. destruct (b_fma bld); reflexivity.
Qed.

Context (m : nat) (Hm3 : (3 <= m)%nat) (Hm : (Z.of_nat m <= 4194304)%Z).

Lemma m_bounds : 3 <= INR m <= 4194304.
Proof.
  split.
  - rewrite INR_IZR_INZ. apply (IZR_le 3). lia.
  - rewrite INR_IZR_INZ. now apply IZR_le.
Qed.

Lemma kappa_small part : (1 <= part < m)%nat -> kappa part m = 0 \/ / 4194304 <= kappa part m.
Proof.
  intros H. pose proof m_bounds. unfold kappa.
  destruct (Nat.eq_dec part 1) as [->|]. { left. cbn [INR]. lra. }
  right. assert (2 <= INR part) by (apply (le_INR 2); lia).
  apply Rle_trans with (/ (INR m - 1)).
  - apply Rinv_le; lra.
  - apply Rmult_le_reg_r with (INR m - 1); [lra|]. field_simplify; lra.
Qed.

Lemma fv_bounds part s : (1 <= part < m)%nat -> (s < m)%nat ->
  let x := kappa part m * INR s in
  (x * (1 - u32) * (1 - u32) + / 2) * (1 - u32) <= fv part m s /\
  fv part m s <= (x * (1 + u32) * (1 + u32) + / 2) * (1 + u32).
Proof.
  intros Hp Hs x.
  pose proof (kappa_bounds part m Hp) as Hk. pose proof (kappa_small part Hp) as Hk'.
  assert (Hu : 0 < u32 < 1) by (unfold u32; lra).
  pose proof (pos_INR s) as Hs0.
  destruct (rnd32_rel (kappa part m)) as [K1 K2]; [lra|unfold u32 in *; lra|].
  fold (fk part m) in K1, K2.
  assert (Hx0 : 0 <= x) by (apply Rmult_le_pos; lra).
  assert (K0 : 0 <= fk part m).
  { eapply Rle_trans; [|exact K1]. apply Rmult_le_pos; lra. }
  assert (P1 : x * (1 - u32) <= fk part m * INR s).
  { unfold x. replace (kappa part m * INR s * (1 - u32)) with (kappa part m * (1 - u32) * INR s)
      by ring. apply Rmult_le_compat_r; lra. }
  assert (P2 : fk part m * INR s <= x * (1 + u32)).
  { unfold x. replace (kappa part m * INR s * (1 + u32)) with (kappa part m * (1 + u32) * INR s)
      by ring. apply Rmult_le_compat_r; lra. }
  set (y := fk part m * INR s) in *.
  assert (Hy0 : 0 <= y) by (apply Rmult_le_pos; lra).
  assert (X1 : x * (1 - u32) * (1 - u32) <= x * (1 - u32)).
  { rewrite <- (Rmult_1_r (x * (1 - u32))) at 2. apply Rmult_le_compat_l; [|lra].
    apply Rmult_le_pos; lra. }
  assert (X2 : x * (1 + u32) <= x * (1 + u32) * (1 + u32)).
  { rewrite <- (Rmult_1_r (x * (1 + u32))) at 1. apply Rmult_le_compat_l; [|lra].
    apply Rmult_le_pos; lra. }
  assert (Hfin : forall z, x * (1 - u32) * (1 - u32) <= z <= x * (1 + u32) * (1 + u32) -> 0 <= z ->
    (x * (1 - u32) * (1 - u32) + / 2) * (1 - u32) <= rnd32 (z + / 2) <=
    (x * (1 + u32) * (1 + u32) + / 2) * (1 + u32)).
  { intros z Hz Hz0. destruct (rnd32_rel (z + / 2)) as [V1 V2]; [lra|lra|]. split.
    - eapply Rle_trans; [|exact V1]. apply Rmult_le_compat_r; lra.
    - eapply Rle_trans; [exact V2|]. apply Rmult_le_compat_r; lra. }
  unfold fv. fold y. destruct (b_fma bld).
  - apply Hfin; lra.
  - assert (Hy' : y = 0 \/ / 16777216 <= y).
    { destruct (Req_dec y 0) as [|Hne]; auto. right.
      destruct Hk' as [E|Hk'].
      { exfalso; apply Hne. unfold y, fk. rewrite E. rewrite rnd32_id by apply generic_format_0.
        lra. }
      destruct (Nat.eq_dec s 0) as [E|E].
      { exfalso; apply Hne. unfold y. rewrite E. cbn. lra. }
      assert (1 <= INR s) by (apply (le_INR 1); lia).
      assert (/ 4194304 * (1 - u32) <= fk part m).
      { eapply Rle_trans; [|exact K1]. apply Rmult_le_compat_r; lra. }
      unfold y. apply Rle_trans with (fk part m * 1).
      - unfold u32 in *. lra.
      - apply Rmult_le_compat_l; lra. }
    destruct (rnd32_rel y Hy0 Hy') as [V1 V2]. apply Hfin.
    + split.
      * eapply Rle_trans; [|exact V1]. apply Rmult_le_compat_r; lra.
      * eapply Rle_trans; [exact V2|]. apply Rmult_le_compat_r; lra.
    + eapply Rle_trans; [|exact V1]. apply Rmult_le_pos; lra.
Qed.

(** coarse consequences: an error below 1/2 *)
Lemma fv_coarse part s : (1 <= part < m)%nat -> kappa part m <= / 2 -> (s < m)%nat ->
  kappa part m * INR s + / 16 <= fv part m s <= kappa part m * INR s + 15 / 16.
Proof.
  intros Hp Hk Hs. destruct (fv_bounds part s Hp Hs) as [B1 B2]. cbv zeta in *.
  pose proof (kappa_bounds part m Hp) as Hk2. pose proof m_bounds as Hmb.
  assert (Hs' : INR s <= 4194304).
  { apply Rle_trans with (INR m); [apply le_INR; lia|lra]. }
  pose proof (pos_INR s) as Hs0.
  assert (Hx : 0 <= kappa part m * INR s <= 2097152).
  { split; [apply Rmult_le_pos; lra|]. replace 2097152 with (/ 2 * 4194304) by lra.
    apply Rmult_le_compat; lra. }
  set (x := kappa part m * INR s) in *. unfold u32 in *. clearbody x; split; lra.
Qed.

(** half-way case that needs the rounding to nearest: s = 2k, k exactly reached *)
Lemma fv_tight part s k : (1 <= part < m)%nat -> kappa part m < / 2 -> s = (2 * k)%nat ->
  (1 <= k)%nat -> (s < m)%nat ->
  INR k - / 2 + / 16777216 <= kappa part m * INR s ->
  INR k <= fv part m s.
Proof.
  intros Hp Hk -> Hk1 Hs Hx.
  pose proof (kappa_bounds part m Hp) as Hk2. pose proof m_bounds as Hmb.
  assert (Herr : Rabs (rnd32 (kappa part m) - kappa part m) <= / 67108864).
  { eapply Rle_trans; [apply error_le_half_ulp; typeclasses eauto|].
    destruct (Req_dec (kappa part m) 0) as [E|E].
    - rewrite E. rewrite ulp_FLT_small; [|typeclasses eauto|].
      + assert (bpow radix2 (-149) <= bpow radix2 (-25)) by (apply bpow_le; lia).
        cbn in *. lra.
      + rewrite Rabs_R0. apply bpow_gt_0.
    - rewrite ulp_neq_0 by auto.
      assert (bpow radix2 (cexp radix2 fexp32 (kappa part m)) <= bpow radix2 (-25)).
      { apply bpow_le. unfold cexp, FLT_exp.
        assert (mag radix2 (kappa part m) <= -1)%Z.
        { apply mag_le_bpow; auto. rewrite Rabs_pos_eq by lra. cbn; lra. }
        lia. }
      cbn [bpow] in H. cbn in H. lra. }
  apply Rabs_le_inv in Herr. fold (fk part m) in Herr.
  assert (HK : INR (2 * k) = 2 * INR k) by (rewrite mult_INR; cbn; lra).
  assert (1 <= INR k) by (apply (le_INR 1); lia).
  assert (HKm : INR (2 * k) <= 4194304).
  { apply Rle_trans with (INR m); [apply le_INR; lia|lra]. }
  assert (Hy : INR k - / 2 + / 16777216 - INR k * / 33554432 <= fk part m * INR (2 * k)).
  { assert (kappa part m * INR (2 * k) - / 67108864 * INR (2 * k) <= fk part m * INR (2 * k)).
    { rewrite <- Rmult_minus_distr_r. apply Rmult_le_compat_r; lra. } lra. }
  assert (Hki : (Z.of_nat k <= 2097152)%Z) by lia.
  assert (FK : F32 (INR k)) by (rewrite INR_IZR_INZ; apply F32_int; lia).
  assert (FK2 : F32 (INR k - / 2)).
  { replace (INR k - / 2) with (IZR (2 * Z.of_nat k - 1) * / 2).
    - apply F32_half. lia.
    - rewrite minus_IZR, mult_IZR, <- INR_IZR_INZ. lra. }
  unfold fv. destruct (b_fma bld).
  - apply rnd32_ge_close; auto; [lra|]. unfold u32. lra.
  - rewrite <- (rnd32_id (INR k)) by auto. apply rnd32_le.
    assert (INR k - / 2 <= rnd32 (fk part m * INR (2 * k))); [|lra].
    apply rnd32_ge_close; auto; [lra|]. unfold u32. lra.
Qed.

(** upper half-way case: s = 2k+1, never reaches k+1 *)
Lemma fv_upper part s k : (1 <= part < m)%nat -> s = (2 * k + 1)%nat -> (s < m)%nat ->
  kappa part m * INR s <= INR s / 2 - INR s / (2 * (INR m - 1)) ->
  fv part m s < INR k + 1.
Proof.
  intros Hp E Hs Hx. destruct (fv_bounds part s Hp Hs) as [_ B2]. cbv zeta in *.
  pose proof m_bounds as Hmb. pose proof (kappa_bounds part m Hp) as Hk2.
  assert (Hs1 : INR s = 2 * INR k + 1) by (rewrite E, plus_INR, mult_INR; cbn; lra).
  pose proof (pos_INR k) as Hk0.
  assert (Hq : INR s * / 8388608 <= INR s / (2 * (INR m - 1))).
  { apply Rmult_le_compat_l; [lra|]. apply Rinv_le; lra. }
  assert (Hx0 : 0 <= kappa part m * INR s) by (apply Rmult_le_pos; lra).
  set (x := kappa part m * INR s) in *. unfold u32 in *. lra.
Qed.

Lemma good_index_float : good_index (merge_index (numF bld)) m.
Proof.
  intros s Hs.
  pose proof (half_facts m ltac:(lia)) as Hh.
  pose proof (Nat.div_mod m 2 ltac:(lia)) as Hdm.
  pose proof (Nat.mod_upper_bound m 2 ltac:(lia)) as Hmod.
  pose proof m_bounds as Hmb.
  set (mh := (m / 2)%nat) in *. set (mt := (m - mh)%nat) in *.
  rewrite !merge_index_F by lia.
  assert (Em : INR m = INR mh + INR mt) by (unfold mt; rewrite minus_INR by lia; lra).
  assert (H1 : 1 <= INR mh) by (apply (le_INR 1); lia).
  assert (H2 : INR mh <= INR mt) by (apply le_INR; lia).
  assert (H3 : INR mt <= INR mh + 1) by (rewrite <- S_INR; apply le_INR; lia).
  assert (Hs' : INR s <= INR m - 1).
  { replace (INR m - 1) with (INR (m - 1)) by (rewrite minus_INR by lia; cbn; lra).
    apply le_INR; lia. }
  pose proof (pos_INR s) as Hs0.
  pose proof (kappa_bounds mh m ltac:(lia)) as Kh0. pose proof (kappa_bounds mt m ltac:(lia)) as Kt0.
  assert (Kh : kappa mh m * (INR m - 1) = INR mh - 1) by (unfold kappa; field; lra).
  assert (Kt : kappa mt m * (INR m - 1) = INR mt - 1) by (unfold kappa; field; lra).
  assert (Kh2 : kappa mh m < / 2).
  { apply Rmult_lt_reg_r with (INR m - 1); [lra|]. rewrite Kh. lra. }
  assert (Kt2 : kappa mt m <= / 2).
  { apply Rmult_le_reg_r with (INR m - 1); [lra|]. rewrite Kt. lra. }
  pose proof (fv_coarse mh s ltac:(lia) ltac:(lra) Hs) as Ch.
  pose proof (fv_coarse mt s ltac:(lia) ltac:(lra) Hs) as Ct.
  assert (Uh : kappa mh m * INR s <= INR mh - 1) by (rewrite <- Kh; apply Rmult_le_compat_l; lra).
  assert (Ut : kappa mt m * INR s <= INR mt - 1) by (rewrite <- Kt; apply Rmult_le_compat_l; lra).
  assert (Xh0 : 0 <= kappa mh m * INR s) by (apply Rmult_le_pos; lra).
  assert (Xt0 : 0 <= kappa mt m * INR s) by (apply Rmult_le_pos; lra).
  set (h := Z.to_nat (Ztrunc (fv mh m s))). set (t := Z.to_nat (Ztrunc (fv mt m s))).
  assert (Bh : (h < mh)%nat) by (apply to_nat_trunc_lt; lra).
  assert (Bt : (t < mt)%nat) by (apply to_nat_trunc_lt; lra).
  split; [auto|]. split; [auto|].
  (* parity of s *)
  pose proof (Nat.div_mod s 2 ltac:(lia)) as Hds.
  pose proof (Nat.mod_upper_bound s 2 ltac:(lia)) as Hms.
  set (k := (s / 2)%nat) in *.
  set (q := INR s / (INR m - 1)).
  assert (Q : 0 <= q <= 1).
  { unfold q. split. { apply Rmult_le_pos; auto. left; apply Rinv_0_lt_compat; lra. }
    apply Rmult_le_reg_r with (INR m - 1); [lra|]. field_simplify; lra. }
  destruct (Nat.eq_dec (m mod 2) 0) as [Ev|Od].
  - (* m even : mh = mt *)
    assert (E : mt = mh) by lia.
    assert (Ht : t = h) by (unfold t, h; rewrite E; auto).
    assert (Hkap : kappa mh m * INR s = INR s / 2 - q / 2).
    { unfold kappa, q. rewrite <- E in *. replace (INR mt) with (INR m / 2) by lra. field. lra. }
    destruct (Nat.eq_dec (s mod 2) 0) as [Es|Os].
    + assert (Es' : s = (2 * k)%nat) by lia.
      assert (Is : INR s = 2 * INR k) by (rewrite Es', mult_INR; cbn; lra).
      assert (Lo : (k <= h)%nat).
      { destruct (Nat.eq_dec k 0) as [->|Hk]; [lia|].
        apply to_nat_trunc_ge. apply (fv_tight mh s k); auto; try lia.
        rewrite Hkap.
        assert (Hsm : INR s <= INR m - 2).
        { replace (INR m - 2) with (INR (m - 2)) by (rewrite minus_INR by lia; cbn; lra).
          apply le_INR; lia. }
        assert (q <= 1 - / 4194304).
        { apply Rle_trans with (1 - / (INR m - 1)).
          - unfold q. apply Rmult_le_reg_r with (INR m - 1); [lra|]. field_simplify; lra.
          - assert (/ 4194304 <= / (INR m - 1)) by (apply Rinv_le; lra). lra. }
        lra. }
      assert (Up : (h < k + 1)%nat).
      { apply to_nat_trunc_lt; [lra|]. rewrite plus_INR. cbn [INR]. lra. }
      lia.
    + assert (Os' : s = (2 * k + 1)%nat) by lia.
      assert (Is : INR s = 2 * INR k + 1) by (rewrite Os', plus_INR, mult_INR; cbn; lra).
      assert (Lo : (k <= h)%nat). { apply to_nat_trunc_ge. lra. }
      assert (Up : (h < k + 1)%nat).
      { apply to_nat_trunc_lt; [lra|]. rewrite plus_INR. cbn [INR].
        apply (fv_upper mh s k); auto; try lia. rewrite Hkap. unfold q. right. field. lra. }
      lia.
  - (* m odd : mt = mh + 1, kappa mt = 1/2 *)
    assert (E : mt = (mh + 1)%nat) by lia.
    assert (Emt : INR mt = INR mh + 1) by (rewrite E, plus_INR; cbn; lra).
    assert (Kth : kappa mt m = / 2).
    { unfold kappa. rewrite Em, Emt. field. lra. }
    assert (Hkap : kappa mh m * INR s = INR s / 2 - q).
    { unfold kappa, q. replace (INR mh) with ((INR m - 1) / 2) by lra. field. lra. }
    assert (Hhx : 0 <= q) by lra.
    destruct (Nat.eq_dec (s mod 2) 0) as [Es|Os].
    + assert (Es' : s = (2 * k)%nat) by lia.
      assert (Is : INR s = 2 * INR k) by (rewrite Es', mult_INR; cbn; lra).
      assert (T1 : (k <= t)%nat) by (apply to_nat_trunc_ge; rewrite Kth in *; lra).
      assert (T2 : (t < k + 1)%nat).
      { apply to_nat_trunc_lt; rewrite ?plus_INR, ?Kth in *; cbn [INR]; lra. }
      assert (Hu : (h < k + 1)%nat).
      { apply to_nat_trunc_lt; [lra|]. rewrite plus_INR; cbn [INR]. lra. }
      assert (Hl : (k <= h + 1)%nat).
      { destruct (Nat.eq_dec k 0) as [->|]; [lia|].
        assert (k - 1 <= h)%nat; [|lia]. apply to_nat_trunc_ge.
        rewrite minus_INR by lia. cbn [INR]. lra. }
      lia.
    + assert (Os' : s = (2 * k + 1)%nat) by lia.
      assert (Is : INR s = 2 * INR k + 1) by (rewrite Os', plus_INR, mult_INR; cbn; lra).
      (* tail index is computed exactly *)
      assert (Fk' : fk mt m = / 2).
      { unfold fk. rewrite Kth. replace (/ 2) with (IZR 1 * / 2) by lra.
        apply rnd32_id, F32_half. lia. }
      assert (Ft : fv mt m s = INR k + 1).
      { unfold fv. rewrite Fk'.
        assert (FA : F32 (/ 2 * INR s)).
        { rewrite INR_IZR_INZ, Rmult_comm. apply F32_half. lia. }
        assert (FB : F32 (INR k + 1)).
        { rewrite <- S_INR, INR_IZR_INZ. apply F32_int. lia. }
        replace (/ 2 * INR s + / 2) with (INR k + 1) by lra.
        rewrite (rnd32_id (/ 2 * INR s)) by auto.
        replace (/ 2 * INR s + / 2) with (INR k + 1) by lra.
        rewrite (rnd32_id _ FB). now destruct (b_fma bld). }
      assert (T1 : (k + 1 <= t)%nat).
      { apply to_nat_trunc_ge. rewrite Ft, plus_INR. cbn; lra. }
      assert (T2 : (t < k + 2)%nat).
      { apply to_nat_trunc_lt; rewrite Ft; [pose proof (pos_INR k); lra|].
        rewrite plus_INR. cbn; lra. }
      assert (Hu : (h < k + 1)%nat).
      { apply to_nat_trunc_lt; [lra|]. rewrite plus_INR. cbn [INR].
        apply (fv_upper mh s k); auto; try lia. rewrite Hkap. unfold q.
        assert (0 <= INR s / (2 * (INR m - 1))).
        { apply Rmult_le_pos; auto. left. apply Rinv_0_lt_compat. lra. }
        replace (INR s / (INR m - 1)) with (2 * (INR s / (2 * (INR m - 1)))) by (field; lra).
        lra. }
      assert (Hl : (k <= h + 1)%nat).
      { destruct (Nat.eq_dec k 0) as [->|]; [lia|].
        assert (k - 1 <= h)%nat; [|lia]. apply to_nat_trunc_ge.
        rewrite minus_INR by lia. cbn [INR]. lra. }
      lia.
Qed.
End Float.
