(** C18: the variance the search assumes for downsampled noise. *)
From Coq Require Import List Arith ZArith Bool Lia Reals Lra Psatz.
From Flocq Require Import Core.
From Verif Require Import Base.Result Base.Buf Base.Num Model.Downsample Spec.Sums Spec.Overlap Spec.Noise
  Proof.Downsample Props.Downsample.
Local Open Scope R_scope.

Lemma downsampled_variance_R size f : 0 < f -> downsampled_variance numR size f = assumed_variance size f.
Proof.
  intros Hf. unfold downsampled_variance, assumed_variance, downsampled_size. rsimp. rewrite <- !INR_IZR_INZ.
  assert (0 <= Zfloor (INR size / f))%Z.
  { apply Zfloor_lub. cbn. apply Rmult_le_pos; [apply pos_INR|]. left; now apply Rinv_0_lt_compat. }
  rewrite (INR_IZR_INZ (Z.to_nat _)), Z2Nat.id by auto.
  set (x := IZR (Zfloor (INR size / f)) * (f - IZR (Zfloor f))).
  destruct (Rlt_dec 1 x) as [L|L]; [rewrite Rlt_bool_true by auto|rewrite Rlt_bool_false by lra]; ring.
Qed.

(** ** the average of the variance of a bin over its phase *)
Lemma continuity_pt_ext u v a : (forall b, u b = v b) -> continuity_pt u a -> continuity_pt v a.
Proof.
  intros E C eps He. destruct (C eps He) as (al & Ha & H). exists al. split; auto. intros b Hb.
  rewrite <- !E. now apply H.
Qed.
Lemma continuity_Rmax u v : continuity u -> continuity v -> continuity (fun a => Rmax (u a) (v a)).
Proof.
  intros Hu Hv. assert (C : continuity (fun a => (u a + v a + Rabs (u a - v a)) * / 2)).
  { apply continuity_mult; [|apply continuity_const; intros ? ?; reflexivity].
    apply continuity_plus; [now apply continuity_plus|].
    apply (continuity_comp (fun a => u a - v a) Rabs); [now apply continuity_minus|apply Rcontinuity_abs]. }
  intros a. specialize (C a). eapply continuity_pt_ext; [|exact C].
  intros b. cbn. unfold Rmax, Rabs. destruct (Rle_dec _ _), (Rcase_abs _); lra.
Qed.
Lemma continuity_Rmin u v : continuity u -> continuity v -> continuity (fun a => Rmin (u a) (v a)).
Proof.
  intros Hu Hv. pose proof (continuity_opp _ (continuity_Rmax _ _ (continuity_opp _ Hu) (continuity_opp _ Hv))) as C.
  intros a. specialize (C a). eapply continuity_pt_ext; [|exact C].
  intros b. unfold opp_fct, Rmax, Rmin. destruct (Rle_dec _ _), (Rle_dec _ _); lra.
Qed.
Lemma continuity_bin_variance f : continuity (bin_variance f).
Proof.
  unfold bin_variance. generalize (Z.to_nat (Zfloor f) + 2)%nat as n.
  assert (W : forall i, continuity (fun a => weight i a (a + f) ^ 2)).
  { intros i. assert (C : continuity (fun a => weight i a (a + f))).
    { unfold weight, overlap. apply continuity_Rmax; [apply continuity_const; intros ? ?; reflexivity|].
      apply (continuity_minus (fun a => Rmin (INR i + 1) (a + f)) (fun a => Rmax (INR i) a)).
      - apply continuity_Rmin; [apply continuity_const; intros ? ?; reflexivity|].
        apply (continuity_plus (fun a => a) (fun _ => f)); [apply derivable_continuous, derivable_id|apply continuity_const; intros ? ?; reflexivity].
      - apply continuity_Rmax; [apply continuity_const; intros ? ?; reflexivity|apply derivable_continuous, derivable_id]. }
    intros a. eapply continuity_pt_ext; [|exact (continuity_mult _ _ C C a)]. intros b. unfold mult_fct. ring. }
  induction n as [|n IH]; cbn [rsum]; [apply continuity_const; intros ? ?; reflexivity|].
  apply (continuity_plus (fun a => rsum n (fun i => weight i a (a + f) ^ 2)) _ IH (W n)).
Qed.

Lemma int_quadratic (h : R -> R) (a b p q r : R) (pr : Riemann_integrable h a b) :
  a <= b -> (forall x, a < x < b -> h x = p + q * x + r * x ^ 2) ->
  RiemannInt pr = p * (b - a) + q / 2 * (b ^ 2 - a ^ 2) + r / 3 * (b ^ 3 - a ^ 3).
Proof.
  intros Hab H. set (G := fun x => p * x + q / 2 * x ^ 2 + r / 3 * x ^ 3).
  assert (D : forall x, derivable_pt_lim G x (p + q * x + r * x ^ 2)).
  { intros x. unfold G.
    replace (p + q * x + r * x ^ 2) with (p * 1 + q / 2 * (INR 2 * x ^ Nat.pred 2) + r / 3 * (INR 3 * x ^ Nat.pred 3)) by (cbn; field).
    repeat apply derivable_pt_lim_plus; apply derivable_pt_lim_scal; try apply derivable_pt_lim_pow. apply derivable_pt_lim_id. }
  pose (d0 := (fun x => exist _ _ (D x)) : derivable G).
  assert (E : forall x, derive G d0 x = p + q * x + r * x ^ 2) by reflexivity.
  assert (C : continuity (derive G d0)).
  { intros x. eapply continuity_pt_ext; [intros y; symmetry; apply E|].
    apply derivable_continuous_pt. exists (0 + q * 1 + r * (INR 2 * x ^ Nat.pred 2)).
    apply (derivable_pt_lim_plus (fun x => p + q * x) (fun x => r * x ^ 2)).
    - apply (derivable_pt_lim_plus (fun x => p) (fun x => q * x)); [apply derivable_pt_lim_const|].
      apply derivable_pt_lim_scal, derivable_pt_lim_id.
    - apply derivable_pt_lim_scal, derivable_pt_lim_pow. }
  pose (F := @mkC1 G d0 C).
  assert (pr' : Riemann_integrable (derive F (diff0 F)) a b).
  { apply continuity_implies_RiemannInt; auto. }
  rewrite (RiemannInt_P18 pr pr' Hab).
  - rewrite (FTC_Riemann F). cbn. unfold G. field.
  - intros x Hx. rewrite H by auto. reflexivity.
Qed.

(** the variance of a bin in terms of its phase *)
Lemma bin_variance_phase (f a : R) : 1 <= f -> 0 <= a < 1 ->
  let k := IZR (Zfloor f) in let r := f - k in
  bin_variance f a = if Rlt_dec (a + r) 1 then (1 - a) ^ 2 + (k - 1) + (a + r) ^ 2
                     else (1 - a) ^ 2 + k + (a + r - 1) ^ 2.
Proof.
  intros Hf Ha k r. pose proof (Zfloor_lb f) as F1. pose proof (Zfloor_ub f) as F2. fold k in F1, F2.
  assert (K : exists m, Zfloor f = Z.of_nat (S m)).
  { exists (Z.to_nat (Zfloor f) - 1)%nat. assert (1 <= Zfloor f)%Z by (apply Zfloor_lub; exact Hf). lia. }
  destruct K as [m Em]. assert (Ek : k = INR m + 1) by (unfold k; rewrite Em, <- INR_IZR_INZ, S_INR; reflexivity).
  unfold bin_variance. rewrite Em, Nat2Z.id. replace (S m + 2)%nat with (S (S (S m))) by lia.
  rewrite rsum_first. cbn [rsum].
  rewrite (rsum_ext m _ (fun _ => 1)).
  2:{ intros i Hi. assert (INR i + 1 <= INR m) by (rewrite <- S_INR; apply le_INR; lia). unfold weight. rewrite S_INR.
      unfold overlap. rewrite Rmin_left by (unfold r in *; lra). rewrite (Rmax_left (INR i + 1) a) by (pose proof (pos_INR i); lra).
      rewrite Rmax_right by lra. ring. }
  rewrite rsum_const. unfold weight, overlap. rewrite !S_INR. cbn [INR]. unfold r in *.
  pose proof (pos_INR m).
  rewrite (Rmax_right 0 a) by lra. rewrite (Rmin_left (0 + 1)) by lra. rewrite (Rmax_right 0 (0 + 1 - a)) by lra.
  rewrite (Rmax_left (INR m + 1) a) by lra. rewrite (Rmax_left (INR m + 1 + 1) a) by lra.
  destruct (Rlt_dec (a + (f - k)) 1).
  - rewrite (Rmin_right (INR m + 1 + 1)) by lra. rewrite (Rmin_right (INR m + 1 + 1 + 1)) by lra.
    rewrite (Rmax_right 0 (a + f - (INR m + 1))) by lra. rewrite (Rmax_left 0 _) by lra. rewrite Ek. ring.
  - rewrite (Rmin_left (INR m + 1 + 1)) by lra. rewrite (Rmin_right (INR m + 1 + 1 + 1)) by lra.
    rewrite (Rmax_right 0 _) by lra. rewrite (Rmax_right 0 (a + f - _)) by lra. rewrite Ek. ring.
Qed.

Lemma bin_variance_integrable f a b : a <= b -> Riemann_integrable (bin_variance f) a b.
Proof. intros H. apply continuity_implies_RiemannInt; auto. intros x _. apply continuity_bin_variance. Qed.

(** C18.  Bin [k] of the downsampled data has the variance [bin_variance] gives for its phase. *)
Lemma rsum_tail_0 n m g : (n <= m)%nat -> (forall i, (n <= i < m)%nat -> g i = 0) -> rsum m g = rsum n g.
Proof.
  intros L H. replace m with (n + (m - n))%nat by lia. rewrite rsum_split.
  rewrite (rsum_ext (m - n) _ (fun _ => 0)) by (intros i Hi; apply H; lia). rewrite rsum_0. lra.
Qed.
Theorem downsampled_noise :
  forall (size : nat) (f : R) (k : nat), 1 <= f -> (INR k + 1) * f <= INR size ->
  let a := INR k * f - IZR (Zfloor (INR k * f)) in
  white_noise_variance size f k = bin_variance f a.
Proof.
  intros size f k Hf Hk a. pose proof (Zfloor_lb (INR k * f)) as F1. pose proof (Zfloor_ub (INR k * f)) as F2.
  pose proof (pos_INR k) as Pk.
  assert (P : 0 <= INR k * f) by nra.
  assert (S0 : (0 <= Zfloor (INR k * f))%Z) by (apply Zfloor_lub; exact P).
  set (s := Z.to_nat (Zfloor (INR k * f))).
  assert (Es : IZR (Zfloor (INR k * f)) = INR s) by (unfold s; rewrite (INR_IZR_INZ (Z.to_nat _)), Z2Nat.id; auto).
  unfold a in *. rewrite Es in *. clear a.
  pose proof (Zfloor_ub f) as G2. assert (G0 : (0 <= Zfloor f)%Z) by (apply Zfloor_lub; cbn; lra).
  unfold white_noise_variance, bin_variance. set (q := Z.to_nat (Zfloor f)).
  assert (Eq : IZR (Zfloor f) = INR q) by (unfold q; rewrite INR_IZR_INZ, Z2Nat.id; auto). rewrite Eq in G2.
  set (g := fun i => weight i (INR k * f) ((INR k + 1) * f) ^ 2).
  set (m := Nat.max size (s + (q + 2))).
  rewrite <- (rsum_tail_0 size m g).
  2:{ unfold m; lia. }
  2:{ intros i Hi. unfold g. assert (INR size <= INR i) by (apply le_INR; lia).
      replace (weight i _ _) with 0; [ring|]. unfold weight, overlap. rewrite (Rmax_left 0); [reflexivity|].
      rewrite Rmin_right by lra. rewrite Rmax_left by nra. lra. }
  rewrite (rsum_tail_0 (s + (q + 2)) m g).
  2:{ unfold m; lia. }
  2:{ intros i Hi. unfold g. assert (INR (s + (q + 2)) <= INR i) as L by (apply le_INR; lia).
      rewrite !plus_INR in L. cbn [INR] in L. replace (weight i _ _) with 0; [ring|]. unfold weight, overlap. rewrite (Rmax_left 0); [reflexivity|].
      rewrite Rmin_right by nra. rewrite Rmax_left by nra. nra. }
  rewrite rsum_split. rewrite (rsum_ext s _ (fun _ => 0)).
  2:{ intros i Hi. unfold g. assert (INR i + 1 <= INR s) by (rewrite <- S_INR; apply le_INR; lia).
      replace (weight i _ _) with 0; [ring|]. unfold weight, overlap. rewrite (Rmax_left 0); [reflexivity|].
      rewrite Rmin_left by nra. rewrite Rmax_right by nra. lra. }
  rewrite rsum_0, Rplus_0_l. apply rsum_ext. intros i _. unfold g. f_equal. unfold weight, overlap. rewrite plus_INR.
  unfold Rmax, Rmin. repeat destruct (Rle_dec _ _); nra.
Qed.
Print Assumptions downsampled_noise.

(** Once the phases of the bins have drifted through a whole sample the code assumes the mean of
    the variances over all phases. *)
Theorem downsampled_variance_drift :
  forall (size : nat) (f : R), 1 <= f ->
  1 < IZR (Zfloor (INR size / f)) * (f - IZR (Zfloor f)) ->
  exists pr : Riemann_integrable (bin_variance f) 0 1,
    downsampled_variance numR size f = RiemannInt pr.
Proof.
  intros size f Hf Hx. exists (bin_variance_integrable f 0 1 ltac:(lra)).
  rewrite downsampled_variance_R by lra. unfold assumed_variance. destruct (Rlt_dec 1 _) as [_|]; [|contradiction].
  pose proof (Zfloor_lb f) as F1. pose proof (Zfloor_ub f) as F2. set (k := IZR (Zfloor f)) in *.
  assert (H0 : 0 <= 1 - (f - k)) by lra. assert (H1 : 1 - (f - k) <= 1) by lra.
  rewrite <- (RiemannInt_P26 (bin_variance_integrable f 0 _ H0) (bin_variance_integrable f _ 1 H1)).
  set (r := f - k) in *.
  rewrite (int_quadratic _ _ _ (k + r ^ 2) (2 * r - 2) 2); [|lra|].
  2:{ intros a Ha. rewrite bin_variance_phase by lra. fold k r. destruct (Rlt_dec (a + r) 1); [|lra]. ring. }
  rewrite (int_quadratic _ _ _ (1 + k + (r - 1) ^ 2) (2 * r - 4) 2); [|lra|].
  2:{ intros a Ha. rewrite bin_variance_phase by lra. fold k r. destruct (Rlt_dec (a + r) 1); [lra|]. ring. }
  numR_ty. transitivity (k + r - 1 / 3); [unfold r; ring|field].
Qed.
Print Assumptions downsampled_variance_drift.

(** When they drift by less, [x] samples in all, the mean over these phases of the variance for
    the whole number [k] of samples below [f] is exceeded by (k - 1) (k - 2): nothing for f < 3. *)
Theorem downsampled_variance_small_drift :
  forall (size : nat) (f : R), 1 <= f ->
  let k := IZR (Zfloor f) in
  let x := IZR (Zfloor (INR size / f)) * (f - k) in
  x <= 1 ->
  exists pr : Riemann_integrable (bin_variance k) 0 x,
    x * downsampled_variance numR size f = RiemannInt pr + x * ((k - 1) * (k - 2)).
Proof.
  intros size f Hf k x Hx. pose proof (Zfloor_lb f) as F1. pose proof (Zfloor_ub f) as F2. fold k in F1, F2.
  assert (0 <= Zfloor (INR size / f))%Z as S0.
  { apply Zfloor_lub. cbn. apply Rmult_le_pos; [apply pos_INR|]. left; apply Rinv_0_lt_compat; lra. }
  apply IZR_le in S0. assert (X0 : 0 <= x) by (apply Rmult_le_pos; lra).
  assert (K1 : 1 <= k) by (apply (IZR_le 1), Zfloor_lub; exact Hf).
  exists (bin_variance_integrable k 0 x X0).
  rewrite downsampled_variance_R by lra. unfold assumed_variance. fold k x. destruct (Rlt_dec 1 x) as [|_]; [lra|].
  rewrite (int_quadratic _ _ _ k (-2) 2); [numR_ty; field|lra|].
  intros a Ha. rewrite bin_variance_phase by lra. unfold k. rewrite Zfloor_IZR. fold k.
  destruct (Rlt_dec _ 1); [|lra]. ring.
Qed.
Print Assumptions downsampled_variance_small_drift.
Example downsampled_variance_drift_ex :
  1 < IZR (Zfloor (INR 10 / (5 / 2))) * (5 / 2 - IZR (Zfloor (5 / 2))) /\
  IZR (Zfloor (INR 6 / (17 / 4))) * (17 / 4 - IZR (Zfloor (17 / 4))) <= 1.
Proof.
  replace (INR 10 / (5 / 2)) with (IZR 4) by (cbn; lra). rewrite Zfloor_IZR.
  rewrite (Zfloor_imp 2 (5 / 2)) by (cbn; lra). rewrite (Zfloor_imp 1 (INR 6 / _)) by (cbn; lra).
  rewrite (Zfloor_imp 4 (17 / 4)) by (cbn; lra). lra.
Qed.
