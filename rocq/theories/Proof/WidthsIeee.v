(** The trial widths in floating point. *)
From Coq Require Import List Arith ZArith Bool Lia Reals Lra SpecFloat.
From Flocq Require Import Core Relative.
From Verif Require Import Base.Result Base.Num Model.Libffa Proof.Ieee Proof.KernelsIeee Proof.Downsample
  Proof.Index Proof.Rounding Proof.DownsampleFloat.
Import ListNotations.
Local Open Scope R_scope.

Section Widths.
Context (bld : build).
Notation NI := (numI bld).
Notation NF := (numF bld).

Lemma lit_I z : (Z.abs z <= 2 ^ 52)%Z -> fb64 53 (o_ofZ (@n_dbl NI) z) (o_ofZ (@n_dbl NF) z) /\ o_ofZ (@n_dbl NF) z = IZR z.
Proof.
  intros Hz. split; [apply d_ofZ; lia|]. cbn [numF opsF n_dbl o_ofZ]. apply rnd64_id. apply F64_int. lia.
Qed.

Lemma next_width_I sI s w : fb64 900 sI s -> (0 <= w < 2 ^ 52)%Z ->
  next_width NI sI w = next_width NF s w /\ (w < next_width NF s w)%Z.
Proof.
  intros Hs Hw. unfold next_width.
  destruct (lit_I w ltac:(lia)) as [L0 E0]. destruct (lit_I (w + 1) ltac:(lia)) as [L1 E1].
  pose proof (d_mul bld 900 53 _ _ _ _ ltac:(lia) Hs L0) as M.
  assert (EB : @n_ltb NI (o_ofZ (@n_dbl NI) (w + 1)) (o_mul (@n_dbl NI) sI (o_ofZ (@n_dbl NI) w))
    = @n_ltb NF (o_ofZ (@n_dbl NF) (w + 1)) (o_mul (@n_dbl NF) s (o_ofZ (@n_dbl NF) w))).
  { apply fl_ltb; [apply L1|apply M]. }
  rewrite EB. change (@n_ltb NF) with Rlt_bool. rewrite E1.
  set (y := o_mul (@n_dbl NF) s _) in *. destruct (Rlt_bool_spec (IZR (w + 1)) y) as [H|H]; [|split; lia].
  split; [apply fl_trunc; apply M|].
  change (@n_trunc NF) with Ztrunc. rewrite Ztrunc_floor by (apply Rle_trans with (IZR (w + 1)); [apply (IZR_le 0); lia|lra]).
  assert (w + 1 <= Zfloor y)%Z by (apply Zfloor_lub; lra). lia.
Qed.

Lemma width_limit_I b dI d : fb64 900 dI d -> (0 <= b <= 2 ^ 52)%Z ->
  width_limit NI b dI = width_limit NF b d /\ (1 <= width_limit NF b d)%Z.
Proof.
  intros Hd Hb. unfold width_limit.
  destruct (lit_I b ltac:(lia)) as [L0 E0]. destruct (lit_I 1 ltac:(lia)) as [L1 E1].
  pose proof (d_mul bld 900 53 _ _ _ _ ltac:(lia) Hd L0) as M.
  assert (EB : @n_ltb NI (o_ofZ (@n_dbl NI) 1) (o_mul (@n_dbl NI) dI (o_ofZ (@n_dbl NI) b))
    = @n_ltb NF (o_ofZ (@n_dbl NF) 1) (o_mul (@n_dbl NF) d (o_ofZ (@n_dbl NF) b))).
  { apply fl_ltb; [apply L1|apply M]. }
  rewrite EB. change (@n_ltb NF) with Rlt_bool. rewrite E1.
  set (y := o_mul (@n_dbl NF) d _) in *. destruct (Rlt_bool_spec 1 y) as [H|H]; [|split; lia].
  split; [apply fl_trunc; apply M|].
  change (@n_trunc NF) with Ztrunc. rewrite Ztrunc_floor by lra. apply Zfloor_lub. lra.
Qed.

(** the limit is below the number of bins when the maximum duty cycle is below 1 *)
Lemma width_limit_lt b d : F64 d -> d < 1 -> (2 <= b <= 2 ^ 52)%Z -> (width_limit NF b d < b)%Z.
Proof.
  intros Fd Hd Hb. unfold width_limit.
  destruct (lit_I b ltac:(lia)) as [_ E0]. destruct (lit_I 1 ltac:(lia)) as [_ E1]. rewrite E0, E1.
  change (@n_ltb NF) with Rlt_bool. cbn [numF opsF n_dbl o_mul n_trunc].
  set (y := rnd64 (d * IZR b)). destruct (Rlt_bool_spec 1 y) as [H|H]; [|lia].
  rewrite Ztrunc_floor by lra. apply lt_IZR. apply Rle_lt_trans with (1 := Zfloor_lb y).
  assert (B2 : 2 <= IZR b) by (apply (IZR_le 2); lia).
  set (u := bpow radix2 (-53)).
  assert (Hu : 0 < u < / 1000) by (unfold u; cbn; lra).
  assert (D1 : d <= 1 - u).
  { assert (E : pred radix2 (FLT_exp (-1074) 53) 1 = 1 - u).
    { change 1 with (bpow radix2 0). rewrite pred_bpow. unfold u. reflexivity. }
    rewrite <- E. apply pred_ge_gt; auto; try typeclasses eauto. apply (F64_int 1). lia. }
  destruct (relative_error_N_FLT'_ex radix2 (-1074) 53 ltac:(lia) (fun x => negb (Z.even x)) (d * IZR b))
    as (eps & eta & He & Heta & Hz & EQ).
  change (round radix2 (FLT_exp (-1074) 53) (Znearest (fun x => negb (Z.even x))) (d * IZR b)) with y in EQ.
  assert (U : u_ro radix2 53 = u) by (unfold u_ro, u; cbn; lra). rewrite U in He.
  assert (Ht : Rabs eta <= bpow radix2 (-200)).
  { eapply Rle_trans; [exact Heta|]. apply Rle_trans with (1 * bpow radix2 (-1074)).
    - apply Rmult_le_compat_r; [apply bpow_ge_0|lra].
    - rewrite Rmult_1_l. apply bpow_le. lia. }
  assert (T2 : bpow radix2 (-200) < u) by (apply bpow_lt; lia).
  assert (DB : d * IZR b <= (1 - u) * IZR b) by (apply Rmult_le_compat_r; lra).
  rewrite EQ. apply Rmult_integral in Hz. destruct Hz as [->| ->].
  - apply Rabs_le_inv in Ht. nra.
  - rewrite Rplus_0_r. apply Rabs_le_inv in He.
    assert (Q : u / (1 + u) <= u - u * u + u * u * u).
    { apply Rmult_le_reg_r with (1 + u); [lra|]. unfold Rdiv. rewrite Rmult_assoc, Rinv_l by lra. nra. }
    assert (0 < d * IZR b).
    { destruct (Rlt_le_dec 0 (d * IZR b)); auto. exfalso.
      assert (y <= 0). { unfold y. rewrite <- (rnd64_id 0) by apply generic_format_0. apply rnd64_le. lra. }
      lra. }
    apply Rle_lt_trans with ((1 - u) * IZR b * (1 + (u - u * u + u * u * u))).
    + apply Rmult_le_compat; try lra. nra.
    + assert ((1 - u) * (1 + (u - u * u + u * u * u)) < 1) by nra. nra.
Qed.

Lemma width_loop_I sI s wm : fb64 900 sI s -> (wm < 2 ^ 52)%Z -> forall fuel w, (1 <= w)%Z ->
  (wm - w < Z.of_nat fuel)%Z ->
  exists ws, width_loop NI (S fuel) sI wm w = Ok ws /\ width_loop NF (S fuel) s wm w = Ok ws /\
    (forall v, In v ws -> (w <= v <= wm)%Z) /\ ((w <= wm)%Z -> ws <> []).
Proof.
  intros Hs Hm. induction fuel as [|fuel IH]; intros w Hw Hf.
  - exists []. cbn. destruct (Z.leb_spec w wm); [lia|]. split; auto. split; auto. split; [intros ? []|lia].
  - remember (S fuel) as fu. cbn [width_loop]. destruct (Z.leb_spec w wm) as [H|H].
    + destruct (next_width_I sI s w Hs ltac:(lia)) as [E G]. rewrite E. subst fu.
      destruct (IH (next_width NF s w) ltac:(lia) ltac:(lia)) as (ws & E1 & E2 & V & _).
      rewrite E1, E2. exists (w :: ws). cbn [bind]. split; auto. split; auto. split; [|congruence].
      intros v [->|Hv]; [lia|]. specialize (V v Hv). lia.
    + exists []. split; auto. split; auto. split; [intros ? []|lia].
Qed.

Lemma widths_I b dI d sI s : fb64 900 dI d -> fb64 900 sI s -> d < 1 -> (2 <= b <= 4194304)%Z ->
  exists ws, generate_width_trials NI b dI sI = Ok ws /\ generate_width_trials NF b d s = Ok ws /\
    ws <> [] /\ forall w, In w ws -> (1 <= w < b)%Z.
Proof.
  intros Hd Hs H1 Hb. unfold generate_width_trials.
  destruct (width_limit_I b dI d Hd ltac:(lia)) as [E G]. rewrite E.
  pose proof (width_limit_lt b d ltac:(apply Hd) H1 ltac:(lia)) as LT.
  destruct (width_loop_I sI s (width_limit NF b d) Hs ltac:(lia) (Z.to_nat (width_limit NF b d)) 1 ltac:(lia) ltac:(lia))
    as (ws & E1 & E2 & V & NE).
  exists ws. split; auto. split; auto. split; [apply NE; lia|]. intros w Hw. specialize (V w Hw). lia.
Qed.
End Widths.
