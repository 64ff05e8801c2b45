(** normalise() in floating point. *)
From Coq Require Import List Arith ZArith Bool Lia Reals Lra SpecFloat Permutation.
From Flocq Require Import Core.
From Verif Require Import Base.Result Base.Num Model.TimeSeries Proof.Ieee Proof.KernelsIeee Proof.SumOrder Proof.SumIeee Proof.Downsample
  Proof.Index Proof.Rounding Props.PeriodogramFloat Props.PeriodogramIeee.
Import ListNotations.
Local Open Scope R_scope.

Section Norm.
Context (bld : build).
Notation NI := (numI bld).
Notation NF := (numF bld).

Lemma nsum_I i k (l : list spec_float) (l' : list R) : (-1074 <= k <= 900)%Z ->
  (Z.of_nat (length l') <= 2 ^ 53)%Z -> Forall2 (fb64 k) l l' ->
  fm 53 1024 k (length l') (nsum NI i l) (nsum NF i l').
Proof. apply d_sum. Qed.

(** the sum of non-negative numbers is at least each of them *)
Lemma nsum_ge i (l : list R) : (forall v, In v l -> 0 <= v /\ F64 v) ->
  0 <= nsum NF i l /\ F64 (nsum NF i l) /\ forall v, In v l -> v <= nsum NF i l.
Proof.
  intros H. destruct l as [|a l].
  { change (nsum NF i []) with (rnd64 0). rewrite rnd64_id by apply generic_format_0.
    split; [lra|]. split; [apply generic_format_0|]. intros v []. }
  revert H. unfold nsum.
  apply (sum_vals_ind (rnd64 0) (fun a b => rnd64 (a + b)) (fun a b => rnd64 (a * b)) (fun a b c => rnd64 (a * b + c)) bld
    (fun l s => (forall v, In v l -> 0 <= v /\ F64 v) -> 0 <= s /\ F64 s /\ forall v, In v l -> v <= s)); [| |discriminate].
  - intros v H. destruct (H v ltac:(now left)). split; auto. split; auto. intros w [<-|[]]. lra.
  - clear. intros l v w r s HP IH H.
    destruct (H v) as [Hv Fv]; [rewrite HP; now left|]. destruct (H w) as [Hw Fw]; [rewrite HP; right; now left|].
    assert (A1 : v <= rnd64 (v + w)) by (rewrite <- (rnd64_id v Fv) at 1; apply rnd64_le; lra).
    assert (A2 : w <= rnd64 (v + w)) by (rewrite <- (rnd64_id w Fw) at 1; apply rnd64_le; lra).
    destruct IH as (I1 & I2 & I3).
    + intros z [<-|Hz]; [split; [lra|apply generic_format_round; typeclasses eauto]|]. apply H. rewrite HP. right. now right.
    + split; auto. split; auto. specialize (I3 (rnd64 (v + w)) (or_introl eq_refl)) as I4.
      intros z Hz. rewrite HP in Hz. destruct Hz as [<-|[<-|Hz]]; [lra|lra|]. apply I3. now right.
Qed.

Lemma len_I (n : nat) : (Z.of_nat n <= 33554432)%Z ->
  fb64 25 (o_ofZ (@n_dbl NI) (Z.of_nat n)) (o_ofZ (@n_dbl NF) (Z.of_nat n)) /\
  o_ofZ (@n_dbl NF) (Z.of_nat n) = INR n.
Proof.
  intros Hn. split; [apply d_ofZ; lia|]. cbn [numF opsF n_dbl o_ofZ]. rewrite <- INR_IZR_INZ.
  apply rnd64_id. rewrite INR_IZR_INZ. apply F64_int. lia.
Qed.

Lemma mean_I i k (l : list spec_float) (l' : list R) : (-1000 <= k <= 900)%Z ->
  (1 <= length l')%nat -> (Z.of_nat (length l') <= 33554432)%Z -> Forall2 (fb64 k) l l' ->
  fb64 (k + 25) (nmean NI i l) (nmean NF i l').
Proof.
  intros Hk H1 HL HF. unfold nmean. change (n_T NI) with spec_float. rewrite (proj1 (nth_Forall2 _ _ _ (S754_zero false) 0 HF)).
  change (n_T NF) with R in *. destruct (len_I (length l') HL) as [LI LE].
  replace (k + 25)%Z with (k + 25 - 0)%Z by lia. apply d_div; [lia| |apply LI|].
  - apply fm_fb with (m := length l'); [lia|lia|]. apply nsum_I; auto; lia.
  - assert (K : bpow radix2 0 <= Rabs (o_ofZ (@n_dbl NF) (Z.of_nat (length l')))); [|exact K].
    rewrite LE. change (bpow radix2 0) with 1. rewrite Rabs_pos_eq by apply pos_INR. apply (le_INR 1). lia.
Qed.

Section Data.
Context (x : list spec_float) (y : list R) (Hn : (1 <= length y)%nat) (HL : (Z.of_nat (length y) <= 33554432)%Z)
  (HF : Forall2 fl32 x y).
Notation n := (length y).
Notation mF := (mean NF y).
Definition devF (v : R) : R := rnd64 (v - mean NF y).
Definition devI (v : spec_float) : spec_float := o_sub (@n_dbl NI) v (mean NI x).

Lemma data_I : Forall2 (fb64 128) x y.
Proof.
  eapply Forall2_mono; [|exact HF]. intros a b H. split; [now apply fl32_64|]. left. apply H.
Qed.

Lemma meanI : fb64 153 (mean NI x) mF.
Proof. apply (mean_I 0 128); auto; [lia|apply data_I]. Qed.

Lemma dev_I a b : fl32 a b -> fb64 154 (devI a) (devF b).
Proof.
  intros H. apply (d_sub bld 153); [lia| |apply meanI]. apply fb_weaken with (j := 128%Z); [lia|].
  split; [now apply fl32_64|]. left. apply H.
Qed.

Lemma squares_I : Forall2 (fb64 308) (map (fun v => o_mul (@n_dbl NI) (devI v) (devI v)) x)
  (map (fun v => rnd64 (devF v * devF v)) y).
Proof.
  assert (H : forall a b, fl32 a b -> fb64 308 (o_mul (@n_dbl NI) (devI a) (devI a)) (rnd64 (devF b * devF b))).
  { intros a b Hab. apply (d_mul bld 154 154); [lia| |]; now apply dev_I. }
  assert (G : forall l l', Forall2 fl32 l l' -> Forall2 (fb64 308) (map (fun v => o_mul (@n_dbl NI) (devI v) (devI v)) l)
    (map (fun v => rnd64 (devF v * devF v)) l')) by (induction 1; cbn [map]; auto).
  now apply G.
Qed.

Lemma varI : fb64 333 (var NI x) (var NF y) /\ var NF y = nmean NF 1 (map (fun v => rnd64 (devF v * devF v)) y).
Proof.
  split; [|reflexivity]. unfold var. apply (mean_I 1 308); [lia|now rewrite map_length|now rewrite map_length|].
  exact squares_I.
Qed.

Lemma devF_F v : F64 (devF v). Proof. apply generic_format_round; typeclasses eauto. Qed.

Lemma F64_bpow k : (-1074 <= k)%Z -> F64 (bpow radix2 k).
Proof. intros. apply generic_format_bpow. unfold FLT_exp. lia. Qed.

(** a deviation of at least [2^k] makes a standard deviation of at least [2^(k - 13)] *)
Lemma sd_ge v k : In v y -> (-500 <= k <= 500)%Z -> bpow radix2 k <= Rabs (devF v) ->
  bpow radix2 (k - 13) <= rnd64 (sqrt (var NF y)).
Proof.
  intros Hv Hk Hd.
  assert (Q : bpow radix2 (k + k) <= rnd64 (devF v * devF v)).
  { rewrite <- (rnd64_id (bpow radix2 (k + k))) by (apply F64_bpow; lia). apply rnd64_le. rewrite bpow_plus.
    rewrite <- (Rabs_pos_eq (devF v * devF v)) by apply Rle_0_sqr. rewrite Rabs_mult.
    pose proof (bpow_gt_0 radix2 k). apply Rmult_le_compat; lra. }
  destruct (nsum_ge 1 (map (fun v => rnd64 (devF v * devF v)) y)) as (S0 & SF & SG).
  { intros q Hq. apply in_map_iff in Hq as (u & <- & _). split; [apply rnd_pos, Rle_0_sqr|].
    apply generic_format_round; typeclasses eauto. }
  specialize (SG (rnd64 (devF v * devF v)) ltac:(apply (in_map (fun v => rnd64 (devF v * devF v))); auto)).
  destruct (len_I n HL) as [_ LE].
  assert (V : bpow radix2 (k + k - 25) <= var NF y).
  { rewrite (proj2 varI). unfold nmean. rewrite map_length. change (n_T NF) with R in *.
    cbn [numF opsF n_dbl o_div o_ofZ]. cbn [numF opsF n_dbl o_ofZ] in LE. rewrite LE.
    rewrite <- (rnd64_id (bpow radix2 (k + k - 25))) by (apply F64_bpow; lia). apply rnd64_le.
    assert (N1 : 1 <= INR n) by (apply (le_INR 1); lia).
    assert (N2 : INR n <= bpow radix2 25) by (rewrite INR_IZR_INZ; apply (IZR_le _ 33554432); lia).
    unfold Z.sub. rewrite (bpow_plus radix2 (k + k)). apply Rmult_le_compat; try apply bpow_ge_0; [lra|].
    rewrite bpow_opp. apply Rinv_le_contravar; lra. }
  rewrite <- (rnd64_id (bpow radix2 (k - 13))) by (apply F64_bpow; lia). apply rnd64_le.
  apply Rsqr_incr_0_var; [|apply sqrt_pos]. rewrite Rsqr_sqrt.
  - unfold Rsqr. rewrite <- bpow_plus. eapply Rle_trans; [|exact V]. apply bpow_le. lia.
  - eapply Rle_trans; [apply bpow_ge_0|exact V].
Qed.

Lemma F32_grid v : F32 v -> exists z, v = IZR z * bpow radix2 (-149).
Proof.
  intros F. rewrite F. exists (Ztrunc (scaled_mantissa radix2 fexp32 v) * 2 ^ (cexp radix2 fexp32 v - (-149)))%Z.
  assert (-149 <= cexp radix2 fexp32 v)%Z by (unfold cexp, FLT_exp; lia).
  rewrite mult_IZR, (IZR_Zpower radix2) by lia. rewrite Rmult_assoc, <- bpow_plus.
  unfold F2R. cbn [Fnum Fexp]. f_equal. f_equal. lia.
Qed.

(** two different samples *)
Lemma dev_some u v : In u y -> In v y -> u <> v ->
  exists w, In w y /\ bpow radix2 (-150) <= Rabs (devF w).
Proof.
  intros Hu Hv Hne.
  assert (FY : forall w, In w y -> F32 w).
  { intros w Hw. destruct (In_nth y w 0 Hw) as (i & Hi & <-).
    destruct (nth_Forall2 _ _ _ (S754_zero false) 0 HF) as [_ G]. apply (G i Hi). }
  destruct (F32_grid u (FY u Hu)) as (a & Ea). destruct (F32_grid v (FY v Hv)) as (b & Eb).
  assert (D : bpow radix2 (-149) <= Rabs (u - v)).
  { rewrite Ea, Eb. replace (IZR a * bpow radix2 (-149) - IZR b * bpow radix2 (-149)) with (IZR (a - b) * bpow radix2 (-149))
      by (rewrite minus_IZR; ring).
    rewrite Rabs_mult, (Rabs_pos_eq (bpow radix2 (-149))) by apply bpow_ge_0. rewrite <- abs_IZR.
    rewrite <- (Rmult_1_l (bpow radix2 (-149))) at 1. apply Rmult_le_compat_r; [apply bpow_ge_0|].
    apply (IZR_le 1). assert (a <> b) by (intros ->; congruence). lia. }
  assert (E : bpow radix2 (-149) = bpow radix2 (-150) + bpow radix2 (-150)).
  { replace (-149)%Z with (1 + -150)%Z by lia. rewrite bpow_plus. change (bpow radix2 1) with 2. ring. }
  assert (K : forall w, bpow radix2 (-150) <= Rabs (w - mF) -> bpow radix2 (-150) <= Rabs (devF w)).
  { intros w Hw. unfold devF. apply abs_round_ge_generic; auto; try typeclasses eauto. apply F64_bpow. lia. }
  destruct (Rle_lt_dec (bpow radix2 (-150)) (Rabs (u - mF))) as [H|H]; [eauto|].
  exists v. split; auto. apply K.
  replace (u - v) with ((u - mF) - (v - mF)) in D by ring.
  pose proof (Rabs_triang (u - mF) (- (v - mF))) as T. rewrite Rabs_Ropp in T. unfold Rminus at 1 in D. lra.
Qed.

Lemma norm_cell u v a b : In u y -> In v y -> u <> v -> fl32 a b -> In b y ->
  fb32 14 (@n_narrow NI (o_div (@n_dbl NI) (devI a) (o_sqrt (@n_dbl NI) (var NI x))))
    (@n_narrow NF (o_div (@n_dbl NF) (devF b) (o_sqrt (@n_dbl NF) (var NF y)))).
Proof.
  intros Hu Hv Hne Hab Hb.
  destruct (dev_some u v Hu Hv Hne) as (w & Hw & Dw).
  pose proof (sd_ge w (-150) Hw ltac:(lia) Dw) as SD.
  destruct varI as [VI _]. pose proof (dev_I a b Hab) as DI.
  assert (V0 : 0 <= var NF y).
  { rewrite (proj2 varI). unfold nmean. cbn [numF opsF n_dbl o_div o_ofZ]. apply rnd_pos.
    apply Rmult_le_pos.
    - refine (proj1 (nsum_ge 1 (map (fun v => rnd64 (devF v * devF v)) y) _)). intros q Hq. apply in_map_iff in Hq as (z & <- & _).
      split; [apply rnd_pos, Rle_0_sqr|]. apply generic_format_round; typeclasses eauto.
    - rewrite map_length. destruct (len_I n HL) as [_ LE]. cbn [numF opsF n_dbl o_ofZ] in LE.
      change (n_T NF) with R in *. rewrite LE. left. apply Rinv_0_lt_compat. apply (lt_INR 0). lia. }
  assert (SI : fl64 (o_sqrt (@n_dbl NI) (var NI x)) (o_sqrt (@n_dbl NF) (var NF y))).
  { apply (fl_sqrt 53 1024 p53 e1024 inc64); auto. apply VI. }
  cbn [numF opsF n_dbl o_sqrt] in SI |- *.
  set (s := rnd64 (sqrt (var NF y))) in *.
  assert (Sp : 0 < s) by (eapply Rlt_le_trans; [|exact SD]; apply bpow_gt_0).
  assert (R1 : Rabs (devF b / s) <= bpow radix2 14).
  { unfold Rdiv. rewrite Rabs_mult, (Rabs_pos_eq (/ s)) by (left; now apply Rinv_0_lt_compat).
    apply Rmult_le_reg_r with s; auto. rewrite Rmult_assoc, Rinv_l, Rmult_1_r by lra.
    destruct (Rlt_le_dec (Rabs (devF b)) (bpow radix2 (-149))) as [H|H].
    - left. eapply Rlt_le_trans; [exact H|]. eapply Rle_trans; [|apply Rmult_le_compat_l; [apply bpow_ge_0|exact SD]].
      rewrite <- bpow_plus. apply bpow_le. lia.
    - assert (D0 : devF b <> 0).
      { intros E. rewrite E, Rabs_R0 in H. pose proof (bpow_gt_0 radix2 (-149)). lra. }
      destruct (mag radix2 (devF b)) as [k Hk]. specialize (Hk D0). cbn in Hk.
      assert (-149 < k)%Z by (apply (lt_bpow radix2); lra).
      assert (k - 1 < 155)%Z.
      { apply (lt_bpow radix2). destruct DI as [_ DB]. apply Rle_lt_trans with (Rabs (devF b)); [apply Hk|].
        apply Rle_lt_trans with (1 := DB). apply bpow_lt. lia. }
      pose proof (sd_ge b (k - 1) Hb ltac:(lia) (proj1 Hk)) as SK. fold s in SK.
      left. eapply Rlt_le_trans; [apply Hk|]. eapply Rle_trans; [|apply Rmult_le_compat_l; [apply bpow_ge_0|exact SK]].
      rewrite <- bpow_plus. apply bpow_le. lia. }
  apply d_narrow; [lia|]. split.
  - apply (fl_div 53 1024 p53 e1024 inc64); auto; [apply DI|lra|]. eapply Rle_trans; [exact R1|]. apply bpow_le. lia.
  - apply (rndf_bpow 53 1024 p53); auto. lia.
Qed.

Lemma normalised_I u v : In u y -> In v y -> u <> v -> Forall2 (fb32 14) (normalised NI x) (normalised NF y).
Proof.
  intros Hu Hv Hne. unfold normalised, normalised64. rewrite !map_map.
  assert (G : forall l l', Forall2 fl32 l l' -> (forall b, In b l' -> In b y) ->
    Forall2 (fb32 14) (map (fun v => @n_narrow NI (o_div (@n_dbl NI) (o_sub (@n_dbl NI) v (mean NI x)) (o_sqrt (@n_dbl NI) (var NI x)))) l)
      (map (fun v => @n_narrow NF (o_div (@n_dbl NF) (o_sub (@n_dbl NF) v (mean NF y)) (o_sqrt (@n_dbl NF) (var NF y)))) l')).
  { induction 1 as [|a b l l' H HF' IH]; intros Hin; cbn [map]; constructor.
    - apply (norm_cell u v); auto. apply Hin. now left.
    - apply IH. intros. apply Hin. now right. }
  apply G; auto.
Qed.
End Data.

(** ** constant data *)
Lemma const_F64 (c : R) k : F32 c -> (Z.of_nat k <= 33554432)%Z -> F64 (INR k * c).
Proof.
  intros Fc Hk. apply FLT_format_generic in Fc; [|reflexivity]. destruct Fc as [[z ex] E H1 H2]. cbn [Fnum Fexp] in *.
  rewrite E. apply generic_format_FLT. exists (Float radix2 (Z.of_nat k * z) ex); cbn [Fnum Fexp].
  - unfold F2R. cbn [Fnum Fexp]. rewrite mult_IZR, INR_IZR_INZ. ring.
  - rewrite Z.abs_mul, (Z.abs_eq (Z.of_nat k)) by lia. change (2 ^ 24)%Z with 16777216%Z in H1.
    change (radix2 ^ 53)%Z with 9007199254740992%Z.
    change (radix2 ^ 24)%Z with 16777216%Z in H1. nia.
  - lia.
Qed.

Lemma const_sum i (c : R) m : F32 c -> (Z.of_nat m <= 33554432)%Z -> nsum NF i (repeat c m) = INR m * c.
Proof.
  intros Fc Hm. destruct m as [|m].
  { change (rnd64 0 = INR 0 * c). cbn [INR]. rewrite Rmult_0_l. apply rnd64_id, generic_format_0. }
  unfold nsum.
  assert (G : forall k l, l <> [] -> forall js, l = map (fun j => INR j * c) js -> (Z.of_nat (list_sum js) <= 33554432)%Z ->
    sum_in_order (rnd64 0) (fun a b => rnd64 (a + b)) (fun a b => rnd64 (a * b)) (fun a b c => rnd64 (a * b + c)) bld k (map Val l)
    = INR (list_sum js) * c).
  { apply (sum_vals_ind (rnd64 0) (fun a b => rnd64 (a + b)) (fun a b => rnd64 (a * b)) (fun a b c => rnd64 (a * b + c)) bld
      (fun l s => forall js, l = map (fun j => INR j * c) js -> (Z.of_nat (list_sum js) <= 33554432)%Z -> s = INR (list_sum js) * c)).
    - intros v [|j [|]] E _; try discriminate. injection E as ->. cbn. now rewrite Nat.add_0_r.
    - intros l v w r s HP IH js -> HS. symmetry in HP. apply Permutation_map_inv in HP.
      destruct HP as ([|a [|b q]] & E & HP); try discriminate. injection E as -> -> ->.
      assert (ES : list_sum js = list_sum (a + b :: q)%nat).
      { assert (PS : forall l m, Permutation l m -> list_sum l = list_sum m) by (clear; unfold list_sum; induction 1; cbn [fold_right]; lia).
        rewrite (PS _ _ HP). unfold list_sum. cbn [fold_right]. lia. }
      rewrite ES in *. apply IH; auto. cbn [map]. f_equal. rewrite plus_INR, Rmult_plus_distr_r. apply rnd64_id.
      rewrite <- Rmult_plus_distr_r, <- plus_INR. apply const_F64; auto. cbn in HS. lia. }
  change (o_sum (@n_dbl NF) i (map Val (repeat c (S m)))) with
    (sum_in_order (rnd64 0) (fun a b => rnd64 (a + b)) (fun a b => rnd64 (a * b)) (fun a b c => rnd64 (a * b + c)) bld i (map Val (repeat c (S m)))).
  assert (EL : list_sum (repeat 1%nat (S m)) = S m) by (clear; generalize (S m); unfold list_sum; intros k; induction k; cbn [repeat fold_right]; lia).
  rewrite <- EL at 2. apply G; [discriminate| |now rewrite EL].
  clear. generalize (S m). intros k. induction k as [|k IH]; cbn [repeat map]; auto. cbn [INR]. rewrite Rmult_1_l. now f_equal.
Qed.

Lemma const_mean i (c : R) m : F32 c -> (1 <= m)%nat -> (Z.of_nat m <= 33554432)%Z -> nmean NF i (repeat c m) = c.
Proof.
  intros Fc H1 Hm. unfold nmean. rewrite const_sum by auto.
  change (o_div (@n_dbl NF) (INR m * c) (o_ofZ (@n_dbl NF) (Z.of_nat (length (repeat c m)))) = c).
  rewrite repeat_length. rewrite (proj2 (len_I m Hm)). cbn [numF opsF n_dbl o_div].
  assert (1 <= INR m) by (apply (le_INR 1); lia).
  replace (INR m * c / INR m) with c by (field; lra). apply rnd64_id.
  pose proof (const_F64 c 1 Fc ltac:(lia)) as H'. cbn [INR] in H'. now rewrite Rmult_1_l in H'.
Qed.

Lemma fl_zero z : fl64 z 0 -> exists s, z = S754_zero s.
Proof.
  intros (F & _ & E & _). destruct z as [s|s| |s m ex]; try discriminate; [eauto|].
  exfalso. cbn [BinarySingleNaN.SF2R] in E. apply eq_0_F2R in E. destruct s; discriminate.
Qed.

Lemma const_nan (x : list spec_float) (c : R) : (1 <= length x)%nat -> (Z.of_nat (length x) <= 33554432)%Z ->
  Forall (fun v => fl32 v c) x -> normalised NI x = repeat S754_nan (length x).
Proof.
  intros H1 HL HC. set (m := length x) in *.
  assert (Fc : F32 c).
  { destruct x as [|v x']; [cbn in m; lia|]. inversion HC as [|? ? Hv]; subst. apply Hv. }
  assert (HF : Forall2 fl32 x (repeat c m)).
  { unfold m. clear m H1 HL. induction HC; cbn; auto. }
  assert (Hy1 : (1 <= length (repeat c m))%nat) by now rewrite repeat_length.
  assert (Hy2 : (Z.of_nat (length (repeat c m)) <= 33554432)%Z) by now rewrite repeat_length.
  assert (E0 : rnd64 (c - c) = 0) by (rewrite Rminus_diag_eq by auto; apply rnd64_id, generic_format_0).
  assert (D0 : forall v, fl32 v c -> fl64 (devI x v) 0).
  { intros v Hv. pose proof (proj1 (dev_I x (repeat c m) Hy1 Hy2 HF v c Hv)) as D. unfold devF in D.
    unfold mean in D. rewrite (const_mean 0 c m), E0 in D by auto. exact D. }
  assert (V0 : fl64 (var NI x) 0).
  { destruct (varI x (repeat c m) Hy1 Hy2 HF) as [V E]. destruct V as [V _]. rewrite E in V.
    unfold devF, mean in V. rewrite (const_mean 0 c m) in V by auto.
    rewrite (map_ext_in _ (fun _ => 0)) in V.
    2:{ intros a Ha. apply repeat_spec in Ha. subst a. rewrite E0, Rmult_0_l. apply rnd64_id, generic_format_0. }
    assert (EM : map (fun _ : R => 0) (repeat c m) = repeat 0 m).
    { clear. induction m; cbn; congruence. }
    rewrite EM, const_mean in V; auto. apply generic_format_0. }
  destruct (fl_zero _ V0) as (s & EV).
  unfold normalised, normalised64. rewrite map_map, EV.
  assert (G : forall l, Forall (fun v => fl32 v c) l ->
    map (fun v => @n_narrow NI (o_div (@n_dbl NI) (devI x v) (o_sqrt (@n_dbl NI) (S754_zero s)))) l = repeat S754_nan (length l)).
  { induction 1 as [|v l Hv HF' IH]; cbn [map repeat length]; auto. f_equal; [|exact IH].
    destruct (fl_zero _ (D0 v Hv)) as (s' & ->). reflexivity. }
  apply (G x HC).
Qed.
End Norm.
