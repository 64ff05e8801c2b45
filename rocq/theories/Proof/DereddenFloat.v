(** deredden() with every operation rounded. *)
From Coq Require Import List Arith ZArith Bool Lia Reals Lra.
From Flocq Require Import Core.
From Verif Require Import Base.Result Base.Buf Base.Num Model.RunMed Model.FastRmed Model.TimeSeries
  Proof.Downsample Proof.Index Proof.Rounding Proof.DownsampleFloat.
Import ListNotations.
Local Open Scope R_scope.

(** ** round() *)
Lemma frac_exact x : F64 x -> 0 <= x <= bpow radix2 52 -> F64 (x - IZR (Zfloor x)).
Proof.
  intros HF HX. destruct (Rlt_le_dec x 1) as [H1|H1].
  { rewrite (Zfloor_imp 0) by (split; cbn; lra). now rewrite Rminus_0_r. }
  set (c := cexp radix2 fexp64 x). set (z := Ztrunc (scaled_mantissa radix2 fexp64 x)).
  assert (E : x = IZR z * bpow radix2 c) by exact HF.
  assert (C0 : (c <= 0)%Z).
  { unfold c, cexp, FLT_exp. assert (mag radix2 x <= 53)%Z; [|lia]. apply mag_le_bpow; [lra|]. rewrite Rabs_pos_eq by lra.
    apply Rle_lt_trans with (1 := proj2 HX). apply bpow_lt. lia. }
  assert (C1 : (-1074 <= c)%Z) by (unfold c, cexp, FLT_exp; lia).
  assert (Z1 : (Z.abs z < 2 ^ 53)%Z).
  { apply lt_IZR. rewrite abs_IZR. apply Rmult_lt_reg_r with (bpow radix2 c); [apply bpow_gt_0|].
    rewrite <- (Rabs_pos_eq (bpow radix2 c)) at 1 by apply bpow_ge_0. rewrite <- Rabs_mult, <- E.
    change (2 ^ 53)%Z with (Zpower radix2 53). rewrite IZR_Zpower, <- bpow_plus by lia.
    unfold c, cexp, FLT_exp. destruct (mag radix2 x) as [e He]. cbn [mag_val]. specialize (He ltac:(lra)).
    eapply Rlt_le_trans; [apply He|]. apply bpow_le. lia. }
  set (k := Zfloor x). set (q := (z - k * 2 ^ (- c))%Z).
  assert (EQ : x - IZR k = IZR q * bpow radix2 c).
  { unfold q. rewrite minus_IZR, mult_IZR. change (2 ^ (- c))%Z with (Zpower radix2 (- c)). rewrite IZR_Zpower by lia.
    rewrite Rmult_minus_distr_r, <- E, Rmult_assoc, <- bpow_plus. replace (- c + c)%Z with 0%Z by lia. cbn [bpow]. lra. }
  pose proof (Zfloor_lb x) as LB. fold k in LB.
  assert (K0 : (0 <= k)%Z) by (apply Zfloor_lub; lra).
  assert (Q0 : (0 <= q)%Z).
  { apply le_IZR. apply Rmult_le_reg_r with (bpow radix2 c); [apply bpow_gt_0|]. rewrite <- EQ. lra. }
  assert (Q1 : (q <= z)%Z) by (unfold q; assert (0 <= 2 ^ (- c))%Z by (apply Z.pow_nonneg; lia); nia).
  rewrite EQ. apply generic_format_FLT. exists (Float radix2 q c); cbn; auto. change (Z.pow_pos 2 53) with (2 ^ 53)%Z. lia.
Qed.

Section Float.
Context (bld : build).
Notation NF := (numF bld).

Lemma litF z : (Z.abs z <= 2 ^ 52)%Z -> o_ofZ (@n_dbl NF) z = IZR z.
Proof. intros Hz. cbn [numF opsF n_dbl o_ofZ]. apply rnd64_id, F64_int. lia. Qed.

Lemma halfF : o_div (@n_dbl NF) (o_ofZ (@n_dbl NF) 1) (o_ofZ (@n_dbl NF) 2) = / 2.
Proof.
  rewrite !litF by lia. cbn [numF opsF n_dbl o_div]. replace (1 / 2) with (IZR 1 * / 2) by lra.
  rewrite rnd64_id; [lra|]. apply F64_half. lia.
Qed.

Lemma py_round_F x : F64 x -> 0 <= x <= bpow radix2 51 -> py_round NF x = ZnearestE x.
Proof.
  intros HF HX. unfold py_round. rewrite halfF.
  assert (K : (0 <= Zfloor x <= 2 ^ 51)%Z).
  { split; [apply Zfloor_lub; lra|]. apply le_IZR. change (2 ^ 51)%Z with (Zpower radix2 51). rewrite IZR_Zpower by lia.
    pose proof (Zfloor_lb x). lra. }
  change (@n_floor NF x) with (Zfloor x). rewrite litF by lia. cbn [numF opsF n_dbl o_sub n_ltb].
  rewrite rnd64_id by (apply frac_exact; auto; split; [lra|]; apply Rle_trans with (1 := proj2 HX); apply bpow_le; lia).
  unfold Znearest. pose proof (Zfloor_lb x) as LB.
  destruct (Rcompare_spec (x - IZR (Zfloor x)) (/ 2)) as [L|L|L].
  - now rewrite Rlt_bool_true.
  - rewrite !Rlt_bool_false by lra. rewrite Zceil_floor_neq by lra. now destruct (Z.even _).
  - rewrite Rlt_bool_false, Rlt_bool_true by lra. rewrite Zceil_floor_neq by lra. reflexivity.
Qed.

(** ** the scrunching factor *)
Lemma div_floor w m : (0 < m)%Z -> (m <= w <= 2 ^ 52)%Z -> Zfloor (rnd64 (IZR w / IZR m)) = (w / m)%Z.
Proof.
  intros Hm Hw. assert (M0 : 0 < IZR m) by now apply (IZR_lt 0).
  assert (Q : (1 <= w / m <= 2 ^ 52)%Z).
  { split; [apply Z.div_le_lower_bound; lia|]. apply Z.le_trans with w; [|lia]. apply Z.div_le_upper_bound; nia. }
  pose proof (Z.div_mod w m ltac:(lia)) as D. pose proof (Z.mod_pos_bound w m Hm) as B.
  assert (ER : IZR w / IZR m = IZR (w / m) + IZR (w mod m) / IZR m).
  { rewrite D at 1. rewrite plus_IZR, mult_IZR. field. lra. }
  assert (R0 : 0 <= IZR (w mod m) / IZR m).
  { apply Rmult_le_pos; [apply (IZR_le 0); lia|left; now apply Rinv_0_lt_compat]. }
  assert (R1 : IZR (w mod m) / IZR m <= 1 - / IZR m).
  { replace (1 - / IZR m) with (IZR (m - 1) / IZR m) by (rewrite minus_IZR; field; lra).
    apply Rmult_le_compat_r; [left; now apply Rinv_0_lt_compat|]. apply IZR_le. lia. }
  assert (W1 : 1 <= IZR w / IZR m) by (rewrite ER; assert (1 <= IZR (w / m)) by (apply (IZR_le 1); lia); lra).
  apply Zfloor_imp. split.
  - rewrite <- (rnd64_id (IZR (w / m))) by (apply F64_int; lia). apply rnd64_le. lra.
  - apply Rle_lt_trans with (1 := rnd64_rel_up _ W1). rewrite plus_IZR.
    assert (IZR w / IZR m * u64 < / IZR m); [|lra].
    unfold Rdiv. rewrite Rmult_assoc, (Rmult_comm (/ IZR m)), <- Rmult_assoc.
    rewrite <- (Rmult_1_l (/ IZR m)) at 2. apply Rmult_lt_compat_r; [now apply Rinv_0_lt_compat|].
    apply Rle_lt_trans with (IZR (2 ^ 52) * u64); [|unfold u64; cbn; lra].
    apply Rmult_le_compat_r; [unfold u64; lra|]. apply IZR_le. lia.
Qed.

Lemma scrunch_factor_F w m : (0 < m <= 2 ^ 52)%Z -> (Z.abs w <= 2 ^ 52)%Z ->
  scrunch_factor NF w m = if (w <? 2 * m)%Z then 1%Z else (w / m)%Z.
Proof.
  intros Hm Hw. unfold scrunch_factor. rewrite !litF by lia. cbn [numF opsF n_dbl o_div n_ltb n_trunc].
  assert (M0 : 0 < IZR m) by now apply (IZR_lt 0).
  assert (LE : (w <= m)%Z -> rnd64 (IZR w / IZR m) <= 1).
  { intros H. rewrite <- (rnd64_id 1) by (apply (F64_int 1); lia). apply rnd64_le.
    apply Rmult_le_reg_r with (IZR m); auto. replace (IZR w / IZR m * IZR m) with (IZR w) by (field; lra).
    rewrite Rmult_1_l. now apply IZR_le. }
  destruct (Rlt_bool_spec 1 (rnd64 (IZR w / IZR m))) as [H|H].
  - assert (m < w)%Z by (apply Z.nle_gt; intros L; specialize (LE L); lra).
    rewrite Ztrunc_floor by lra. rewrite div_floor by lia. destruct (Z.ltb_spec w (2 * m)); auto.
    symmetry. apply Z.div_unique with (w - m)%Z; lia.
  - destruct (Z.ltb_spec w (2 * m)) as [L|L]; auto. exfalso.
    assert (2 <= w / m)%Z by (apply Z.div_le_lower_bound; lia).
    pose proof (div_floor w m ltac:(lia) ltac:(lia)) as E.
    assert (Zfloor (rnd64 (IZR w / IZR m)) <= 1)%Z; [|lia]. apply le_IZR. eapply Rle_trans; [apply Zfloor_lb|exact H].
Qed.
End Float.
