(** The plan of the periodogram in exact arithmetic. *)
From Coq Require Import List Arith ZArith Bool Lia Reals Lra Psatz.
From Flocq Require Import Core.
From Verif Require Import Base.Result Base.Buf Base.Num Model.Kernels Model.Transforms
  Model.Downsample Model.Snr Model.Periodogram Spec.Sums Spec.FfaSpec Spec.Overlap Spec.Boxcar Proof.Transforms Proof.Index Proof.Ffa
  Proof.Downsample Proof.Kernels Proof.Snr
  Proof.Periodogram.
Import ListNotations.
Local Open Scope R_scope.

Lemma Ztrunc_nonneg x : 0 <= x -> Ztrunc x = Zfloor x.
Proof. intros. now apply Ztrunc_floor. Qed.

Lemma to_nat_ceil_lt x s : INR s < x <-> (s < Z.to_nat (Zceil x))%nat.
Proof.
  split; intros H.
  - assert (Z.of_nat s < Zceil x)%Z; [|lia].
    apply lt_IZR. rewrite <- INR_IZR_INZ. apply Rlt_le_trans with x; auto. apply Zceil_ub.
  - rewrite INR_IZR_INZ.
    destruct (Rlt_le_dec (IZR (Z.of_nat s)) x) as [|Hle]; auto.
    apply Zceil_glb in Hle. lia.
Qed.

Lemma to_nat_floor_ge x b : 0 <= x -> (b <= Z.to_nat (Zfloor x))%nat <-> INR b <= x.
Proof.
  intros Hx. split; intros H.
  - destruct (to_nat_floor_bounds x Hx) as [A _]. apply le_INR in H. lra.
  - rewrite INR_IZR_INZ in H. apply Zfloor_lub in H. lia.
Qed.

Lemma inv_le_cancel x y : 0 < x -> 0 < y -> / y <= / x -> x <= y.
Proof.
  intros Hx Hy H. rewrite <- (Rinv_inv x), <- (Rinv_inv y).
  apply Rinv_le_contravar; auto. now apply Rinv_0_lt_compat.
Qed.

Lemma inv_lt_cancel x y : 0 < x -> 0 < y -> / y < / x -> x < y.
Proof.
  intros Hx Hy H. rewrite <- (Rinv_inv x), <- (Rinv_inv y).
  apply Rinv_lt_contravar; auto. apply Rmult_lt_0_compat; now apply Rinv_0_lt_compat.
Qed.

Lemma is_resp_slice (blk : list R) o b w v : (0 < w < b)%nat -> (o + b <= length blk)%nat ->
  is_resp blk o b w v -> best_response (firstn b (skipn o blk)) w v.
Proof.
  intros Hw Hl V.
  assert (Lp : length (firstn b (skipn o blk)) = b) by (rewrite firstn_length, skipn_length; lia).
  apply is_resp_best; rewrite Lp; auto.
  assert (Eg : forall j, (j < b)%nat -> nth (0 + j) (firstn b (skipn o blk)) 0 = nth (o + j) blk 0).
  { intros j Hj. cbn [Nat.add]. now rewrite nth_firstn_skipn. }
  unfold is_resp in *. cbv zeta in *.
  assert (W1 : forall phi, (phi < b)%nat ->
     window_sum b phi w (fun j => nth (0 + j) (firstn b (skipn o blk)) 0)
     = window_sum b phi w (fun j => nth (o + j) blk 0)).
  { intros phi Hp. apply rsum_ext. intros j Hj. apply Eg. apply Nat.mod_upper_bound. lia. }
  assert (W2 : rsum b (fun j => nth (0 + j) (firstn b (skipn o blk)) 0)
    = rsum b (fun j => nth (o + j) blk 0)) by (apply rsum_ext; auto).
  destruct V as [(phi & Hp & Ev) M]. split.
  - exists phi. split; auto. rewrite W1, W2 by auto. exact Ev.
  - intros phi' Hp'. rewrite W1, W2 by auto. now apply M.
Qed.

Section PlanR.
Context (size : nat) (tsamp pmin pmax : R) (bmin bmax : nat).
Context (Hts : 0 < tsamp) (Hp0 : 0 < pmin) (Hp : pmin < pmax)
        (Hb1 : (2 <= bmin)%nat) (Hb : (bmin <= bmax)%nat) (Hmin : tsamp * INR bmin <= pmin).

Notation ini := (pl_ini numR tsamp pmin bmin).
Notation geo := (pl_geo numR bmin bmax).
Notation cyc := (pl_cyc numR ln pmin pmax bmin bmax).
Notation f_ := (pl_f numR pow tsamp pmin bmin bmax).
Notation tau := (pl_tau numR pow tsamp pmin bmin bmax).
Notation pms := (pl_pms numR pow tsamp pmin pmax bmin bmax).
Notation n_ := (pl_n numR pow size tsamp pmin bmin bmax).
Notation bstop := (pl_bstop numR pow size tsamp pmin pmax bmin bmax).
Notation nb := (pl_nb numR pow size tsamp pmin pmax bmin bmax).
Notation rows := (pl_rows numR pow size tsamp pmin bmin bmax).
Notation pceil := (pl_ceil numR pow tsamp pmin pmax bmin bmax).
Notation shift := (pl_shift numR pow size tsamp pmin pmax bmin bmax).
Notation eval := (pl_eval numR pow size tsamp pmin pmax bmin bmax).
Notation period := (pl_period numR pow size tsamp pmin bmin bmax).
Notation cycles := (pl_cycles numR ln pmin pmax bmin bmax).
Notation conv := (pl_conv numR ln pow size tsamp pmin pmax bmin bmax).
Notation total := (pl_total numR ln pow size tsamp pmin pmax bmin bmax).
Notation off := (pl_off numR pow size tsamp pmin pmax bmin bmax).
Notation off2 := (pl_off2 numR pow size tsamp pmin pmax bmin bmax).
Notation valid := (pl_valid numR pow size tsamp pmin bmin bmax).

Lemma check_R : check_arguments numR tsamp pmin pmax bmin bmax = Ok tt.
Proof.
  unfold check_arguments. rsimp. rewrite <- INR_IZR_INZ.
  rewrite !Rlt_bool_true, Rle_bool_true by lra.
  replace (1 <? bmin)%nat with true by (symmetry; apply Nat.ltb_lt; lia).
  replace (bmin <=? bmax)%nat with true by (symmetry; apply Nat.leb_le; lia).
  reflexivity.
Qed.

Lemma bminR : 2 <= INR bmin.
Proof. apply (le_INR 2). lia. Qed.

Lemma ini_eq : ini = pmin / (tsamp * INR bmin).
Proof. unfold pl_ini. rsimp. now rewrite <- INR_IZR_INZ. Qed.

Lemma ini_ge : 1 <= ini.
Proof.
  rewrite ini_eq. pose proof bminR.
  apply Rmult_le_reg_r with (tsamp * INR bmin); [nra|].
  unfold Rdiv. rewrite Rmult_assoc, Rinv_l by nra. lra.
Qed.

Lemma geo_eq : geo = (INR bmax + 1) / INR bmin.
Proof. unfold pl_geo. rsimp. now rewrite <- !INR_IZR_INZ. Qed.

Lemma geo_gt : 1 < geo.
Proof.
  rewrite geo_eq. pose proof bminR. apply le_INR in Hb.
  apply Rmult_lt_reg_r with (INR bmin); [lra|].
  unfold Rdiv. rewrite Rmult_assoc, Rinv_l by lra. lra.
Qed.

Lemma pow_ge ids : 1 <= geo ^ ids.
Proof. apply pow_R1_Rle. pose proof geo_gt. lra. Qed.

Lemma f_eq ids : f_ ids = ini * geo ^ ids.
Proof. reflexivity. Qed.

Lemma f_ge ids : ini <= f_ ids.
Proof.
  rewrite f_eq. pose proof ini_ge. pose proof (pow_ge ids).
  rewrite <- (Rmult_1_r ini) at 1. apply Rmult_le_compat_l; lra.
Qed.

Lemma f_ge1 ids : 1 <= f_ ids.
Proof. pose proof ini_ge. pose proof (f_ge ids). lra. Qed.

Lemma tau_eq ids : tau ids = f_ ids * tsamp.
Proof. reflexivity. Qed.

Lemma tau_pos ids : 0 < tau ids.
Proof. rewrite tau_eq. pose proof (f_ge1 ids). nra. Qed.

Lemma tau_ge ids : tsamp <= tau ids.
Proof. rewrite tau_eq. pose proof (f_ge1 ids). nra. Qed.

(** sampling time of the first cycle, and from one to the next *)
Lemma tau_0 : tau 0 * INR bmin = pmin.
Proof. rewrite tau_eq, f_eq, ini_eq. cbn [pow]. pose proof bminR. field. lra. Qed.

Lemma tau_S ids : tau (S ids) * INR bmin = tau ids * (INR bmax + 1).
Proof.
  rewrite !tau_eq, !f_eq. cbn [pow]. rewrite geo_eq at 1. pose proof bminR. field. lra.
Qed.

Lemma tau_pow ids : tau ids * INR bmin = pmin * geo ^ ids.
Proof.
  rewrite tau_eq, f_eq, ini_eq. pose proof bminR. field. lra.
Qed.

Lemma tau_mono ids ids' : (ids <= ids')%nat -> tau ids <= tau ids'.
Proof.
  intros H. pose proof bminR.
  apply Rmult_le_reg_r with (INR bmin); [lra|]. rewrite !tau_pow.
  apply Rmult_le_compat_l; [lra|]. apply Rle_pow; auto. pose proof geo_gt. lra.
Qed.

Lemma ln_geo : 0 < ln geo.
Proof. rewrite <- ln_1. apply ln_increasing; [lra|apply geo_gt]. Qed.

(** a cycle is run exactly when its first trial period is below [pmax] *)
Lemma cycles_iff ids : (ids < cycles)%nat <-> tau ids * INR bmin < pmax.
Proof.
  unfold pl_cycles, pl_cyc. rsimp. rewrite <- to_nat_ceil_lt.
  pose proof ln_geo as HL. pose proof geo_gt as HG.
  rewrite tau_pow. rewrite (Rmult_comm pmin).
  assert (E : geo ^ ids * pmin < pmax <-> geo ^ ids < pmax / pmin).
  { split; intros H.
    - apply Rmult_lt_reg_r with pmin; auto. unfold Rdiv. rewrite Rmult_assoc, Rinv_l by lra. lra.
    - apply Rmult_lt_reg_r with (/ pmin); [now apply Rinv_0_lt_compat|].
      rewrite Rmult_assoc, Rinv_r by lra. unfold Rdiv in H. lra. }
  rewrite E. clear E.
  assert (Hq : 0 < pmax / pmin).
  { apply Rdiv_lt_0_compat; lra. }
  assert (Hg : 0 < geo ^ ids) by (apply pow_lt; lra).
  assert (El : ln (geo ^ ids) = INR ids * ln geo) by (rewrite ln_pow; [lra|lra]).
  split; intros H.
  - apply ln_lt_inv; auto. rewrite El.
    apply Rmult_lt_reg_r with (/ ln geo); [now apply Rinv_0_lt_compat|].
    rewrite Rmult_assoc, Rinv_r by lra. unfold Rdiv in H. lra.
  - apply ln_increasing in H; auto. rewrite El in H.
    apply Rmult_lt_reg_r with (ln geo); auto. unfold Rdiv. rewrite Rmult_assoc, Rinv_l by lra. lra.
Qed.

Lemma pms_eq ids : pms ids * tau ids = pmax.
Proof. unfold pl_pms. rsimp. pose proof (tau_pos ids). field. lra. Qed.

Lemma pms_pos ids : 0 < pms ids.
Proof.
  pose proof (pms_eq ids). pose proof (tau_pos ids).
  apply Rmult_lt_reg_r with (tau ids); auto. rewrite Rmult_0_l. lra.
Qed.

Lemma n_iff ids k : (k <= n_ ids)%nat <-> INR k * f_ ids <= INR size.
Proof.
  unfold pl_n, downsampled_size. rsimp. rewrite <- INR_IZR_INZ.
  pose proof (f_ge1 ids) as Hf. pose proof (pos_INR size).
  assert (0 <= INR size / f_ ids) by (apply Rmult_le_pos; [auto|left; apply Rinv_0_lt_compat; lra]).
  rewrite to_nat_floor_ge by auto.
  split; intros H'.
  - apply Rmult_le_compat_r with (r := f_ ids) in H'; [|lra].
    unfold Rdiv in H'. rewrite Rmult_assoc, Rinv_l in H' by lra. lra.
  - apply Rmult_le_reg_r with (f_ ids); [lra|].
    unfold Rdiv. rewrite Rmult_assoc, Rinv_l by lra. lra.
Qed.

Lemma n_le ids : (n_ ids <= size)%nat.
Proof.
  assert (H : INR (n_ ids) * f_ ids <= INR size) by (apply n_iff; lia).
  pose proof (f_ge1 ids). pose proof (pos_INR (n_ ids)). apply INR_le. nra.
Qed.

Lemma n_buf ids : (n_ ids <= pl_buf numR size tsamp pmin bmin)%nat.
Proof.
  unfold pl_buf. replace ini with (f_ 0) by (rewrite f_eq; cbn; lra).
  change (n_ ids <= n_ 0)%nat. apply n_iff.
  assert (H : INR (n_ ids) * f_ ids <= INR size) by (apply n_iff; lia).
  pose proof (f_ge ids). pose proof (pos_INR (n_ ids)).
  rewrite f_eq. cbn [pow]. nra.
Qed.

Lemma bstop_iff ids b :
  (b <= bstop ids)%nat <-> (b <= bmax)%nat /\ (b <= n_ ids)%nat /\ INR b * tau ids <= pmax.
Proof.
  unfold pl_bstop. rsimp. pose proof (pms_pos ids) as HP. rewrite Ztrunc_nonneg by lra.
  rewrite !Nat.min_glb_iff, to_nat_floor_ge by lra.
  pose proof (pms_eq ids) as HE. pose proof (tau_pos ids).
  assert (INR b <= pms ids <-> INR b * tau ids <= pmax); [|tauto].
  revert HE. generalize (pms ids). intros q <-. split; intros H'.
  - apply Rmult_le_compat_r; lra.
  - apply Rmult_le_reg_r with (tau ids); lra.
Qed.

(** end of the period range covered by one transform *)
Lemma pceil_spec ids b : tau ids * pceil ids b = Rmin pmax (tau ids * (INR b + 1)).
Proof.
  unfold pl_ceil, min_dbl. rsimp. rewrite <- !INR_IZR_INZ.
  pose proof (tau_pos ids). pose proof (pms_eq ids) as HE. revert HE. generalize (pms ids).
  intros q <-. destruct (Rlt_bool_spec (INR b + 1) q) as [H'|H'].
  - rewrite Rmin_right; [reflexivity|].
    apply Rlt_le. rewrite Rmult_comm. apply Rmult_lt_compat_r; auto.
  - rewrite Rmin_left; [lra|]. rewrite Rmult_comm. apply Rmult_le_compat_l; lra.
Qed.

Lemma pceil_bounds ids b : (b <= bstop ids)%nat -> (1 <= b)%nat -> INR b <= pceil ids b <= INR b + 1.
Proof.
  intros Hbs Hb0. apply bstop_iff in Hbs as (_ & _ & H). pose proof (tau_pos ids) as HT.
  pose proof (pceil_spec ids b) as E. unfold Rmin in E.
  split; apply Rmult_le_reg_l with (tau ids); auto; rewrite E;
    destruct (Rle_dec pmax (tau ids * (INR b + 1))); nra.
Qed.

Lemma rows_ge ids b : (bmin <= b <= bstop ids)%nat -> (1 <= rows ids b)%nat.
Proof.
  intros [H1 H2]. apply bstop_iff in H2 as (_ & H & _). unfold pl_rows.
  apply Nat.div_le_lower_bound; lia.
Qed.

Lemma rows_le ids b : (rows ids b <= size)%nat.
Proof.
  unfold pl_rows. pose proof (n_le ids). destruct b as [|b]; [cbn; lia|].
  pose proof (Nat.div_le_mono (n_ ids) size (S b) ltac:(lia) H).
  pose proof (Nat.div_le_upper_bound size (S b) size ltac:(lia) ltac:(nia)). lia.
Qed.

Definition xshift (ids b : nat) : R :=
  INR b * (INR (rows ids b) - 1) * (1 - INR b / pceil ids b).

Lemma shift_eq ids b : shift ids b = Zceil (xshift ids b).
Proof. unfold pl_shift, xshift. rsimp. now rewrite <- !INR_IZR_INZ. Qed.

Lemma xshift_bounds ids b : (bmin <= b <= bstop ids)%nat ->
  0 <= xshift ids b <= INR (rows ids b) - 1.
Proof.
  intros Hbb. pose proof (rows_ge ids b Hbb) as HR. apply (le_INR 1) in HR. cbn [INR] in HR.
  destruct (pceil_bounds ids b) as [A B]; [lia|lia|].
  assert (Hb2 : 1 <= INR b) by (apply (le_INR 1); lia).
  unfold xshift.
  assert (0 <= 1 - INR b / pceil ids b).
  { assert (INR b / pceil ids b <= 1); [|lra].
    apply Rmult_le_reg_r with (pceil ids b); [lra|].
    unfold Rdiv. rewrite Rmult_assoc, Rinv_l by lra. lra. }
  assert (INR b * (1 - INR b / pceil ids b) <= 1).
  { apply Rmult_le_reg_r with (pceil ids b); [lra|].
    replace (INR b * (1 - INR b / pceil ids b) * pceil ids b)
      with (INR b * (pceil ids b - INR b)) by (field; lra). nra. }
  split.
  - apply Rmult_le_pos; [|auto]. apply Rmult_le_pos; lra.
  - replace (INR b * (INR (rows ids b) - 1) * (1 - INR b / pceil ids b))
      with ((INR (rows ids b) - 1) * (INR b * (1 - INR b / pceil ids b))) by ring.
    nra.
Qed.

Lemma shift_bounds ids b : (bmin <= b <= bstop ids)%nat ->
  (0 <= shift ids b <= Z.of_nat (rows ids b) - 1)%Z.
Proof.
  intros Hbb. destruct (xshift_bounds ids b Hbb) as [A B]. rewrite shift_eq. split.
  - apply le_IZR. apply Rle_trans with (xshift ids b); auto. apply Zceil_ub.
  - apply Zceil_glb. rewrite minus_IZR, <- INR_IZR_INZ. lra.
Qed.

(** the row limit never bites *)
Lemma eval_iff ids b s : (bmin <= b <= bstop ids)%nat -> (s < eval ids b)%nat <-> INR s < xshift ids b.
Proof.
  intros Hbb. unfold pl_eval. rewrite shift_eq, (to_nat_ceil_lt _ s), Nat.min_glb_lt_iff.
  pose proof (shift_bounds ids b Hbb) as H. rewrite shift_eq in H. lia.
Qed.

Lemma eval_rows ids b : (bmin <= b <= bstop ids)%nat -> (eval ids b <= rows ids b - 1)%nat.
Proof.
  intros Hbb. pose proof (shift_bounds ids b Hbb). pose proof (rows_ge ids b Hbb).
  unfold pl_eval. lia.
Qed.

Lemma conv_R : (cyc < 2 ^ 64)%Z -> pmax / tsamp < 2 ^ 64 -> (Z.of_nat size < 2 ^ 64)%Z -> conv.
Proof.
  intros H1 H2 H3. split.
  - split; auto. unfold pl_cyc. rsimp.
    assert (0 < ln (pmax / pmin)).
    { rewrite <- ln_1. apply ln_increasing; [lra|].
      apply Rmult_lt_reg_r with pmin; auto. unfold Rdiv. rewrite Rmult_assoc, Rinv_l by lra. lra. }
    pose proof ln_geo.
    apply le_IZR. apply Rle_trans with (ln (pmax / pmin) / ln geo); [|apply Zceil_ub].
    left. now apply Rdiv_lt_0_compat.
  - intros ids _. split.
    + rsimp. pose proof (pms_pos ids). rewrite Ztrunc_nonneg by lra. split.
      * apply Zfloor_lub. cbv beta. now apply Rlt_le.
      * apply lt_IZR. apply Rle_lt_trans with (pms ids); [apply Zfloor_lb|].
        apply Rle_lt_trans with (pmax / tsamp).
        -- pose proof (pms_eq ids) as E. pose proof (tau_ge ids).
           apply Rmult_le_reg_r with tsamp; auto. unfold Rdiv. rewrite Rmult_assoc, Rinv_l by lra.
           nra.
        -- change (2 ^ 64)%Z with 18446744073709551616%Z. lra.
    + intros b Hbb. pose proof (shift_bounds ids b Hbb). pose proof (rows_le ids b). lia.
Qed.

(** ** values *)
Lemma period_eq ids b s : (2 <= rows ids b)%nat ->
  period ids b s = tau ids * INR b ^ 2 / (INR b - INR s / (INR (rows ids b) - 1)).
Proof. intros _. unfold pl_period. rsimp. rewrite <- !INR_IZR_INZ. f_equal. ring. Qed.

(** frequency of a trial *)
Lemma period_freq ids b s : (bmin <= b <= bstop ids)%nat -> (s < eval ids b)%nat ->
  0 < period ids b s /\
  / period ids b s = (INR b - INR s / (INR (rows ids b) - 1)) / (tau ids * INR b ^ 2) /\
  / (tau ids * pceil ids b) < / period ids b s.
Proof.
  intros Hbb Hs. pose proof (eval_rows ids b Hbb) as He.
  assert (HR : (2 <= rows ids b)%nat) by lia.
  rewrite period_eq by auto. apply (eval_iff ids b s Hbb) in Hs.
  destruct (pceil_bounds ids b) as [A B]; [lia|lia|].
  assert (Hb2 : 1 <= INR b) by (apply (le_INR 1); lia).
  apply (le_INR 2) in HR. cbn in HR. pose proof (tau_pos ids) as HT.
  assert (Hx : INR s / (INR (rows ids b) - 1) < INR b - INR b ^ 2 / pceil ids b).
  { apply Rmult_lt_reg_r with (INR (rows ids b) - 1); [lra|].
    unfold Rdiv at 1. rewrite Rmult_assoc, Rinv_l by lra.
    unfold xshift in Hs.
    replace ((INR b - INR b ^ 2 / pceil ids b) * (INR (rows ids b) - 1))
      with (INR b * (INR (rows ids b) - 1) * (1 - INR b / pceil ids b)) by (field; lra). lra. }
  assert (Hq : 0 < INR b ^ 2 / pceil ids b) by (apply Rdiv_lt_0_compat; [nra|lra]).
  set (D := INR b - INR s / (INR (rows ids b) - 1)) in *.
  assert (HD : 0 < D) by (unfold D; lra).
  assert (HTb : 0 < tau ids * INR b ^ 2) by (apply Rmult_lt_0_compat; nra).
  split; [now apply Rdiv_lt_0_compat|]. split; [field; lra|].
  replace (/ (tau ids * INR b ^ 2 / D)) with (D / (tau ids * INR b ^ 2)) by (field; lra).
  apply Rmult_lt_reg_r with (tau ids * INR b ^ 2); auto.
  replace (D / (tau ids * INR b ^ 2) * (tau ids * INR b ^ 2)) with D by (field; lra).
  replace (/ (tau ids * pceil ids b) * (tau ids * INR b ^ 2)) with (INR b ^ 2 / pceil ids b)
    by (field; lra).
  unfold D. lra.
Qed.

Lemma period_bounds ids b s : (bmin <= b <= bstop ids)%nat -> (s < eval ids b)%nat ->
  tau ids * INR b <= period ids b s < Rmin pmax (tau ids * (INR b + 1)).
Proof.
  intros Hbb Hs. destruct (period_freq ids b s Hbb Hs) as (P & E & L).
  pose proof (tau_pos ids) as HT.
  assert (Hb2 : 1 <= INR b) by (apply (le_INR 1); lia).
  destruct (pceil_bounds ids b) as [A B]; [lia|lia|].
  rewrite <- pceil_spec. split.
  - apply inv_le_cancel; [nra|auto|].
    rewrite E.
      replace (/ (tau ids * INR b)) with (INR b / (tau ids * INR b ^ 2)) by (field; lra).
      apply Rmult_le_compat_r; [left; apply Rinv_0_lt_compat; apply Rmult_lt_0_compat; nra|].
      pose proof (eval_rows ids b Hbb) as He.
      assert (HR : (2 <= rows ids b)%nat) by lia. apply (le_INR 2) in HR. cbn in HR.
      assert (0 <= INR s / (INR (rows ids b) - 1)).
      { apply Rmult_le_pos; [apply pos_INR|left; apply Rinv_0_lt_compat; lra]. }
      lra.
  - apply inv_lt_cancel; auto. apply Rmult_lt_0_compat; lra.
Qed.

Lemma period_step ids b s s' : (bmin <= b <= bstop ids)%nat -> (s < s')%nat ->
  (s' < eval ids b)%nat -> period ids b s < period ids b s'.
Proof.
  intros Hbb H1 H2.
  destruct (period_freq ids b s Hbb ltac:(lia)) as (P & E & _).
  destruct (period_freq ids b s' Hbb ltac:(lia)) as (P' & E' & _).
  apply inv_lt_cancel; auto. rewrite E, E'.
  assert (Hb2 : 1 <= INR b) by (apply (le_INR 1); lia).
  pose proof (tau_pos ids).
  apply Rmult_lt_compat_r; [apply Rinv_0_lt_compat; apply Rmult_lt_0_compat; nra|].
  pose proof (eval_rows ids b Hbb) as He.
  assert (HR : (2 <= rows ids b)%nat) by lia. apply (le_INR 2) in HR. cbn in HR.
  assert (INR s / (INR (rows ids b) - 1) < INR s' / (INR (rows ids b) - 1)); [|lra].
  apply Rmult_lt_compat_r; [apply Rinv_0_lt_compat; lra|]. now apply lt_INR.
Qed.

(** ranges of different transforms do not overlap *)
Lemma block_order i b i' b' : (bmin <= b <= bstop i)%nat -> (bmin <= b' <= bstop i')%nat ->
  (i < i' \/ i = i' /\ b < b')%nat -> tau i * (INR b + 1) <= tau i' * INR b'.
Proof.
  intros H1 H2 [H|[-> H]].
  - apply Rle_trans with (tau i * (INR bmax + 1)).
    + apply Rmult_le_compat_l; [left; apply tau_pos|].
      destruct H1 as [_ H1]. apply bstop_iff in H1 as (H1 & _). apply le_INR in H1. lra.
    + rewrite <- tau_S. apply Rle_trans with (tau i' * INR bmin).
      * apply Rmult_le_compat_r; [apply pos_INR|]. now apply tau_mono.
      * apply Rmult_le_compat_l; [left; apply tau_pos|]. apply le_INR. lia.
  - apply Rmult_le_compat_l; [left; apply tau_pos|]. rewrite <- S_INR. apply le_INR. lia.
Qed.

Lemma valid_iff ids : valid ids = true <-> f_ ids = 1 \/ f_ ids <= INR size.
Proof.
  unfold pl_valid. rewrite orb_true_iff. rsimp. pose proof (f_ge1 ids) as Hf.
  assert (E1 : Req_bool (f_ ids) 1 = true <-> f_ ids = 1).
  { destruct (Req_bool_spec (f_ ids) 1); split; intros; auto; discriminate. }
  rewrite E1, valid_factor_R. split.
  - intros [?|?]; [now left|right; lra].
  - intros [?|?]; [now left|]. destruct (Req_dec (f_ ids) 1); [now left|right; lra].
Qed.

Lemma variance_pos f : 1 <= f -> 0 < downsampled_variance numR size f.
Proof.
  intros Hf. unfold downsampled_variance. rsimp.
  set (x := IZR (Z.of_nat (downsampled_size numR size f)) * (f - IZR (Zfloor f))).
  set (k := IZR (Zfloor f) - 1). destruct (Rlt_bool 1 x); [lra|]. nra.
Qed.

Lemma sd_pos ids b : (bmin <= b <= bstop ids)%nat ->
  0 < pl_sd numR pow size tsamp pmin bmin bmax ids b.
Proof.
  intros Hbb. unfold pl_sd. rsimp. apply sqrt_lt_R0. apply Rmult_lt_0_compat.
  - rewrite <- INR_IZR_INZ. apply (lt_INR 0). pose proof (rows_ge ids b Hbb). lia.
  - apply variance_pos. apply f_ge1.
Qed.

(** ** order, range and coverage of the trials *)
Lemma order_R i j s i' j' s' :
  (j < nb i)%nat -> (s < eval i (bmin + j))%nat ->
  (j' < nb i')%nat -> (s' < eval i' (bmin + j'))%nat ->
  (off i + off2 i j + s < off i' + off2 i' j' + s')%nat ->
  period i (bmin + j) s < period i' (bmin + j') s'.
Proof.
  intros Hj Hs Hj' Hs' Ht.
  assert (Hbb : (bmin <= bmin + j <= bstop i)%nat) by (unfold pl_nb in Hj; lia).
  assert (Hbb' : (bmin <= bmin + j' <= bstop i')%nat) by (unfold pl_nb in Hj'; lia).
  destruct (period_bounds i (bmin + j) s Hbb Hs) as [_ A2].
  destruct (period_bounds i' (bmin + j') s' Hbb' Hs') as [A1' _].
  assert (G : tau i * (INR (bmin + j) + 1) <= tau i' * INR (bmin + j') ->
    period i (bmin + j) s < period i' (bmin + j') s').
  { intros HO. apply Rlt_le_trans with (1 := A2). apply Rle_trans with (2 := A1').
    apply Rle_trans with (2 := HO). apply Rmin_r. }
  destruct (lt_eq_lt_dec i i') as [[Hl| ->]|Hl].
  - apply G, block_order; auto.
  - destruct (lt_eq_lt_dec j j') as [[Hl| ->]|Hl].
    + apply G, block_order; auto. right. split; [auto|lia].
    + apply period_step; auto. lia.
    + exfalso. pose proof (off_before numR pow size tsamp pmin pmax bmin bmax i' j i' j' s'
          (or_intror (conj eq_refl Hl)) Hs'). lia.
  - exfalso. pose proof (off_before numR pow size tsamp pmin pmax bmin bmax i j i' j' s'
        (or_introl (conj Hl Hj')) Hs'). lia.
Qed.

Lemma range_R i j s : (j < nb i)%nat -> (s < eval i (bmin + j))%nat ->
  pmin <= period i (bmin + j) s < pmax /\ (bmin + j <= bmax)%nat.
Proof.
  intros Hj Hs.
  assert (Hbb : (bmin <= bmin + j <= bstop i)%nat) by (unfold pl_nb in Hj; lia).
  destruct (period_bounds i (bmin + j) s Hbb Hs) as [A1 A2]. split; [split|].
  - apply Rle_trans with (2 := A1). rewrite <- tau_0 at 1.
    apply Rmult_le_compat; [left; apply tau_pos|apply pos_INR|apply tau_mono; lia|apply le_INR; lia].
  - apply Rlt_le_trans with (1 := A2). apply Rmin_l.
  - destruct Hbb as [_ Hbb]. now apply bstop_iff in Hbb.
Qed.

(** a transform whose first period is below [pmax] and occurs at least twice in the data *)
Lemma first_trial i b : (bmin <= b <= bmax)%nat -> tau i * INR b < pmax ->
  2 * (tau i * INR b) <= tsamp * INR size ->
  exists j, b = (bmin + j)%nat /\ (i < cycles)%nat /\ (j < nb i)%nat /\ (0 < eval i b)%nat /\
    period i b 0 = tau i * INR b.
Proof.
  intros Hbb Hlt H2. exists (b - bmin)%nat.
  assert (Hb2 : 2 <= INR b) by (apply (le_INR 2); lia).
  pose proof (tau_pos i) as HT.
  assert (Hn : (2 * b <= n_ i)%nat).
  { apply n_iff. rewrite mult_INR. cbn [INR]. rewrite tau_eq in H2.
    apply Rmult_le_reg_l with tsamp; auto. lra. }
  assert (Hbs : (b <= bstop i)%nat).
  { apply bstop_iff. repeat split; [lia|lia|lra]. }
  assert (HR : (2 <= rows i b)%nat) by (unfold pl_rows; apply Nat.div_le_lower_bound; lia).
  assert (Hev : (0 < eval i b)%nat).
  { apply eval_iff; [lia|]. cbn [INR]. unfold xshift.
    apply (le_INR 2) in HR. cbn [INR] in HR.
    assert (INR b < pceil i b).
    { apply Rmult_lt_reg_l with (1 := HT). rewrite pceil_spec.
      unfold Rmin. destruct (Rle_dec _ _); auto. lra. }
    apply Rmult_lt_0_compat; [nra|].
    assert (INR b / pceil i b < 1); [|lra].
    apply Rmult_lt_reg_r with (pceil i b); [lra|].
    unfold Rdiv. rewrite Rmult_assoc, Rinv_l by lra. lra. }
  split; [lia|]. split.
  { apply cycles_iff. apply Rle_lt_trans with (2 := Hlt). apply Rmult_le_compat_l; [lra|].
    apply le_INR. lia. }
  split; [unfold pl_nb; lia|]. split; [auto|].
  rewrite period_eq by auto. apply (le_INR 2) in HR. cbn [INR] in *. numR_ty. field. lra.
Qed.

(** the next trial, or the end of the search, is at most one bin of drift away *)
Lemma coverage_R i j s : (j < nb i)%nat -> (s < eval i (bmin + j))%nat ->
  2 * pmax <= tsamp * INR size ->
  let b := (bmin + j)%nat in
  let step := / (tau i * INR b ^ 2 * (INR (rows i b) - 1)) in
  (S s < eval i b)%nat /\ / period i b s - / period i b (S s) = step \/
  / period i b s - / pmax <= step \/
  exists i' j', (i' < cycles)%nat /\ (j' < nb i')%nat /\ (0 < eval i' (bmin + j'))%nat /\
    period i b s < period i' (bmin + j') 0 /\
    / period i b s - / period i' (bmin + j') 0 <= step.
Proof.
  intros Hj Hs H2. cbv zeta. set (b := (bmin + j)%nat) in *.
  assert (Hbb : (bmin <= b <= bstop i)%nat) by (unfold pl_nb in Hj; unfold b; lia).
  pose proof (eval_rows i b Hbb) as He.
  assert (HR : (2 <= rows i b)%nat) by lia. apply (le_INR 2) in HR. cbn [INR] in HR.
  assert (Hb2 : 2 <= INR b) by (apply (le_INR 2); lia).
  pose proof (tau_pos i) as HT.
  destruct (period_freq i b s Hbb Hs) as (P & E & L).
  destruct (lt_dec (S s) (eval i b)) as [Hlt|Hge].
  - left. split; auto.
    destruct (period_freq i b (S s) Hbb Hlt) as (P' & E' & _).
    rewrite E, E', S_INR. field. repeat split; lra.
  - right.
    destruct (pceil_bounds i b) as [A B]; [lia|lia|].
    assert (Hx : xshift i b <= INR s + 1).
    { rewrite <- S_INR. destruct (Rle_lt_dec (xshift i b) (INR (S s))) as [|Hc]; auto.
      exfalso. apply Hge. apply eval_iff; auto. }
    (* the next row would lie beyond the end of this transform's range *)
    assert (Hnext : / period i b s - / (tau i * pceil i b) <= / (tau i * INR b ^ 2 * (INR (rows i b) - 1))).
    { rewrite E.
      apply Rmult_le_reg_r with (tau i * INR b ^ 2 * (INR (rows i b) - 1)).
      { apply Rmult_lt_0_compat; [apply Rmult_lt_0_compat|]; nra. }
      rewrite Rinv_l by (apply Rgt_not_eq; apply Rmult_lt_0_compat; [apply Rmult_lt_0_compat|]; nra).
      unfold xshift in Hx.
      replace (((INR b - INR s / (INR (rows i b) - 1)) / (tau i * INR b ^ 2) - / (tau i * pceil i b)) *
               (tau i * INR b ^ 2 * (INR (rows i b) - 1)))
        with (INR b * (INR (rows i b) - 1) * (1 - INR b / pceil i b) - INR s)
        by (field; repeat split; lra).
      lra. }
    pose proof (pceil_spec i b) as EP. unfold Rmin in EP.
    destruct (Rle_dec pmax (tau i * (INR b + 1))) as [Hpm|Hpm].
    + left. rewrite EP in Hnext. exact Hnext.
    + right. apply Rnot_le_lt in Hpm.
      assert (Hbm : (b <= bmax)%nat) by (destruct Hbb as [_ Hbb]; now apply bstop_iff in Hbb).
      destruct (period_bounds i b s Hbb Hs) as [_ PB].
      assert (PB' : period i b s < tau i * (INR b + 1)).
      { apply Rlt_le_trans with (1 := PB). apply Rmin_r. }
      assert (G : forall i' b', (bmin <= b' <= bmax)%nat -> tau i' * INR b' = tau i * (INR b + 1) ->
        exists i' j', (i' < cycles)%nat /\ (j' < nb i')%nat /\ (0 < eval i' (bmin + j'))%nat /\
          period i b s < period i' (bmin + j') 0 /\
          / period i b s - / period i' (bmin + j') 0 <= / (tau i * INR b ^ 2 * (INR (rows i b) - 1))).
      { intros i' b' Hb' Et.
        destruct (first_trial i' b') as (j' & Ej & Hi' & Hj' & He' & Ep'); [auto|lra|lra|].
        exists i', j'. rewrite <- Ej. do 3 (split; [assumption|]).
        rewrite Ep', Et. split; [exact PB'|]. rewrite <- EP. exact Hnext. }
      destruct (Nat.eq_dec b bmax) as [Ebm|Hne].
      * apply (G (S i) bmin); [lia|]. rewrite tau_S, Ebm. reflexivity.
      * apply (G i (S b)); [lia|]. rewrite S_INR. reflexivity.
Qed.
(** ** one run *)
Context (alloc : nat -> list R) (allocz : nat -> list Z) (data : list R) (ws : list nat).
Context (Halloc : forall n, length (alloc n) = n) (Hallocz : forall n, length (allocz n) = n).
Context (Hdata : length data = size).
Context (Hws : ws <> []) (Hw : forall w, In w ws -> (0 < w < bmin)%nat).
Context (Hcyc : (cyc < 2 ^ 64)%Z) (Hpt : pmax / tsamp < 2 ^ 64) (Hsz : (Z.of_nat size < 2 ^ 64)%Z).

Definition ds_R (ids : nat) (x : list R) : Prop :=
  forall k, (k < n_ ids)%nat ->
    nth k x 0 = rsum size (fun i => nth i data 0 * weight i (INR k * f_ ids) ((INR k + 1) * f_ ids)).

Definition sn_R (p : list R) (k : nat) (sd v : R) : Prop :=
  exists r, best_response p (nth k ws 0%nat) r /\ v = r / sd.

Lemma weight_unit (x : list R) k : (k < length x)%nat ->
  rsum (length x) (fun i => nth i x 0 * weight i (INR k * 1) ((INR k + 1) * 1)) = nth k x 0.
Proof.
  intros Hk. rewrite !Rmult_1_r.
  rewrite (rsum_ext (length x) _ (fun i => if Nat.eqb i k then nth k x 0 else 0)).
  - clear - Hk. revert Hk. generalize (length x). induction n as [|n IH]; [lia|]. intros Hk.
    cbn [rsum]. destruct (Nat.eqb_spec n k) as [->|Hne].
    + rewrite (rsum_ext k _ (fun _ => 0)).
      * rewrite rsum_0. lra.
      * intros i Hi. destruct (Nat.eqb_spec i k); [lia|auto].
    + rewrite IH by lia. lra.
  - intros i Hi. destruct (Nat.eqb_spec i k) as [->|Hne].
    + assert (weight k (INR k) (INR k + 1) = 1) as ->; [minmax|lra].
    + assert (weight i (INR k) (INR k + 1) = 0) as ->; [|lra].
      assert (INR i + 1 <= INR k \/ INR k + 1 <= INR i) as [A|A].
      { rewrite <- !S_INR. destruct (lt_dec i k); [left|right]; apply le_INR; lia. }
      * minmax.
      * minmax.
Qed.

Notation sd := (pl_sd numR pow size tsamp pmin bmin bmax).
Notation profile := (pl_profile numR pow size tsamp pmin bmin bmax 0).

Lemma run_R :
  let run := py_periodogram numR ln pow alloc allocz data tsamp ws pmin pmax bmin bmax in
  if forallb valid (seq 0 cycles) then
    exists (P : list R) B S, run = Ok (P, B, S) /\
      length P = total /\ length B = total /\ a_rows S = total /\ a_cols S = length ws /\
      length (a_data S) = (total * length ws)%nat /\
      forall i j s, (i < cycles)%nat -> (j < nb i)%nat -> (s < eval i (bmin + j))%nat ->
        let t := (off i + off2 i j + s)%nat in
        nth t P 0 = period i (bmin + j) s /\
        nth t B 0%Z = (Z.of_nat (bmin + j) mod 2 ^ 32)%Z /\
        exists x, ds_R i x /\
          forall k, (k < length ws)%nat ->
            sn_R (profile i (bmin + j) s x) k (sd i (bmin + j)) (nth (t * length ws + k) (a_data S) 0)
  else run = Err ValueError.
Proof.
  cbv zeta. unfold py_periodogram. numR_ty. rewrite Hdata.
  rewrite length_spec by (auto using check_R, conv_R). cbn [bind].
  pose proof (periodogram_spec numR ln pow size tsamp pmin pmax bmin bmax alloc data ws 0
    (alloc total) (allocz total) (alloc (total * length ws)%nat) ds_R sn_R Halloc Hdata check_R
    (conv_R Hcyc Hpt Hsz) ltac:(lia) (Halloc _) (Hallocz _) (Halloc _)) as HS.
  match type of HS with ?A -> ?B -> ?C -> ?D -> ?E -> ?F -> ?G =>
    assert (HR : G) end.
  { apply HS.
    - intros ids _. apply n_buf.
    - intros ids _ E1. assert (Ef : f_ ids = 1).
      { rsimp_all. destruct (Req_bool_spec (f_ ids) 1); auto. discriminate. }
      split; [apply n_le|].
      intros k Hk. rewrite Ef. rewrite <- Hdata. rewrite weight_unit; auto.
      pose proof (n_le ids). rewrite Hdata. lia.
    - intros ids out _ _ HV Ho. rewrite <- Hdata in HV |- *.
      destruct (downsample_spec data (f_ ids) out HV) as (out' & E & L & W & _).
      { rewrite Hdata, Ho. apply n_buf. }
      exists out'. split; [exact E|]. split; [exact L|]. intros k Hk.
      rewrite Hdata in W. specialize (W k Hk). cbn [Nat.add] in W.
      exact (nth_error_nth _ _ 0 W).
    - intros ids b m _ _ [Hm _]. now apply good_index_exact.
    - intros ids b _ Hbb. pose proof (rows_le ids b). lia.
    - intros ids b blk out oo _ Hbb Hl Ho.
      destruct (snr2_spec alloc blk 0 (eval ids b) b ws (sd ids b) out oo) as (out' & E & L & F & V);
        auto.
      + intros w Hin. pose proof (Hw w Hin). lia.
      + assert (b <= n_ ids)%nat by (apply bstop_iff; lia). pose proof (n_le ids). lia.
      + now apply sd_pos.
      + exists out'. split; [exact E|]. split; [split; auto|].
        intros i k Hi Hk. exists (nth (oo + i * length ws + k) out' 0). split.
        * apply nth_error_nth'. numR_ty. rewrite L. nia.
        * exists (nth (oo + i * length ws + k) out' 0 * sd ids b).
          assert (Lp : length (firstn b (skipn (i * b) blk)) = b).
          { rewrite firstn_length, skipn_length. nia. }
          split.
          -- apply is_resp_slice with (b := b); auto; [|numR_ty; nia|].
             ++ assert (In (nth k ws 0%nat) ws) as Hin by now apply nth_In.
                pose proof (Hw _ Hin). lia.
             ++ exact (V i k Hi Hk).
          -- field. apply Rgt_not_eq. apply sd_pos. exact Hbb. }
  destruct (forallb valid (seq 0 cycles)); [|now rewrite HR].
  destruct HR as (st & E & (I1 & I2 & I3 & I4 & I5 & I6 & I7 & I8 & I9) & HC).
  rewrite E. cbn [bind]. exists (p_periods st), (p_bins st), (Arr2 total (length ws) (p_snr st)).
  split; [reflexivity|]. do 5 (split; [auto|]).
  intros i j s Hi Hj Hs. destruct (HC i j s Hi Hj Hs) as (A & B & x & Hx & V). cbv zeta in *.
  split; [now apply nth_error_nth|]. split; [now apply nth_error_nth|].
  exists x. split; auto. intros k Hk. destruct (V k Hk) as (v & Ev & Hv).
  cbn [a_data]. rewrite (nth_error_nth _ _ 0 Ev). exact Hv.
Qed.

End PlanR.
