(** C05 - C12: the FFA transform. *)
From Coq Require Import List Arith ZArith Lia Reals Lra.
From Flocq Require Import Core.
From Verif Require Import Base.Result Base.Buf Base.Num Model.Kernels Model.Transforms
  Spec.Sums Spec.FfaSpec Proof.Kernels Proof.Transforms Proof.Index Proof.Ffa.
Import ListNotations.
Local Open Scope R_scope.

(** C05, C06, C10.  Float index arithmetic (binary32, fused or not), any element type,
    any addition (also rounded), any row count up to 2^22.  One family of shifts [sh]
    and one summation order [t], chosen before the number of columns and the data,
    describe every transform; the result [Y] is the same for all initial contents of
    the scratch and output allocations. *)
Theorem ffa2_float_fold :
  forall (bld : build) (m : nat), (1 <= m)%nat -> (Z.of_nat m <= 4194304)%Z ->
  exists (sh : nat -> nat -> nat) (t : tree),
    (forall s, (s < m)%nat -> folding_path m s (sh s)) /\
    leaves t = seq 0 m /\ (depth t <= Nat.log2_up m)%nat /\
    forall (A : Type) (plus : A -> A -> A) (d : A) (X : arr2 A),
      arr2_wf X -> a_rows X = m -> (1 <= a_cols X)%nat ->
      exists Y, arr2_wf Y /\ a_rows Y = m /\ a_cols Y = a_cols X /\
        (forall s c, (s < m)%nat -> (c < a_cols X)%nat ->
           at2 d Y s c
           = teval plus (fun i => at2 d X i ((c + sh s i) mod a_cols X)) t) /\
        forall junk_t junk_o,
          length junk_t = (m * a_cols X)%nat -> length junk_o = (m * a_cols X)%nat ->
          ffa2 plus (merge_index (numF bld)) junk_t junk_o X = Ok Y.
Proof.
  intros bld m Hm Hm'.
  assert (G : forall m', (3 <= m' <= m)%nat -> good_index (merge_index (numF bld)) m').
  { intros m' H. apply good_index_float; lia. }
  exists (path (merge_index (numF bld)) (S m) m), (mtree (S m) 0 m).
  split. { intros s Hs. apply path_folding; auto; lia. }
  split. { apply leaves_mtree; lia. }
  split. { apply depth_mtree; lia. }
  intros A plus d X Hwf HX Hp. apply ffa2_fold; auto. lia.
Qed.
Print Assumptions ffa2_float_fold.

Example ffa2_float_fold_ex : (1 <= 1000)%nat /\ (Z.of_nat 1000 <= 4194304)%Z.
Proof. lia. Qed.

(** C05, C06, C07.  Exact index arithmetic, any row count a [size_t] can hold: moreover the
    path never deviates from the straight line by more than (ceil(log2 m) - 1)/2 bins. *)
Theorem ffa2_exact_fold :
  forall m : nat, (1 <= m)%nat -> (Z.of_nat m <= 2 ^ 64)%Z ->
  exists sh : nat -> nat -> nat,
    (forall s, (s < m)%nat -> folding_path m s (sh s)) /\
    (forall s i, (s < m)%nat -> (i < m)%nat -> (2 <= m)%nat ->
       Rabs (INR (sh s i) - INR i * INR s / (INR m - 1))
       <= / 2 * (INR (Nat.log2_up m) - 1)) /\
    forall X : arr2 R, arr2_wf X -> a_rows X = m -> (1 <= a_cols X)%nat ->
      exists Y, arr2_wf Y /\ a_rows Y = m /\ a_cols Y = a_cols X /\
        (forall s c, (s < m)%nat -> (c < a_cols X)%nat ->
           at2 0 Y s c = rsum m (fun i => at2 0 X i ((c + sh s i) mod a_cols X))) /\
        forall junk_t junk_o,
          length junk_t = (m * a_cols X)%nat -> length junk_o = (m * a_cols X)%nat ->
          ffa2 Rplus (merge_index numR) junk_t junk_o X = Ok Y.
Proof.
  intros m Hm Hm'.
  assert (G : forall m', (3 <= m' <= m)%nat -> good_index (merge_index numR) m').
  { intros m' H. apply good_index_exact; lia. }
  exists (path (merge_index numR) (S m) m).
  split. { intros s Hs. apply path_folding; auto; lia. }
  split. { intros s i Hs Hi H2. apply path_deviation; auto; try lia; [lra|].
    intros m' H'. split; auto. apply near_index_exact. lia. }
  intros X Hwf HX Hp.
  destruct (ffa2_fold Rplus 0 (merge_index numR) m Hm Hm' G X Hwf HX Hp)
    as (Y & W & R & C & V & E).
  exists Y. repeat split; auto. intros s c Hs Hc. rewrite V by auto.
  apply teval_rsum. lia.
Qed.
Print Assumptions ffa2_exact_fold.

Example ffa2_exact_fold_ex :
  let X := Arr2 3 2 [1; 2; 3; 4; 5; 6] in
  arr2_wf X /\ a_rows X = 3%nat /\ (1 <= a_cols X)%nat.
Proof. cbn. repeat split; lia. Qed.

(** C07 for the float index arithmetic: at most one bin per level. *)
Theorem ffa2_float_deviation :
  forall (bld : build) (m : nat), (2 <= m)%nat -> (Z.of_nat m <= 4194304)%Z ->
  exists sh : nat -> nat -> nat,
    (forall s, (s < m)%nat -> folding_path m s (sh s)) /\
    (forall s i, (s < m)%nat -> (i < m)%nat ->
       Rabs (INR (sh s i) - INR i * INR s / (INR m - 1)) <= INR (Nat.log2_up m) - 1) /\
    forall X : arr2 R, arr2_wf X -> a_rows X = m -> (1 <= a_cols X)%nat ->
      exists Y, (forall s c, (s < m)%nat -> (c < a_cols X)%nat ->
           at2 0 Y s c = rsum m (fun i => at2 0 X i ((c + sh s i) mod a_cols X))) /\
        forall junk_t junk_o,
          length junk_t = (m * a_cols X)%nat -> length junk_o = (m * a_cols X)%nat ->
          ffa2 Rplus (merge_index (numF bld)) junk_t junk_o X = Ok Y.
Proof.
  intros bld m Hm Hm'.
  assert (G : forall m', (3 <= m' <= m)%nat -> good_index (merge_index (numF bld)) m').
  { intros m' H. apply good_index_float; lia. }
  exists (path (merge_index (numF bld)) (S m) m).
  split. { intros s Hs. apply path_folding; auto; lia. }
  split. { intros s i Hs Hi. rewrite <- (Rmult_1_l (INR (Nat.log2_up m) - 1)).
    apply path_deviation; auto; try lia; [lra|].
    intros m' H'. split; auto. apply near_index_float; lia. }
  intros X Hwf HX Hp.
  destruct (ffa2_fold Rplus 0 (merge_index (numF bld)) m ltac:(lia) ltac:(lia) G X Hwf HX Hp)
    as (Y & W & R & C & V & E).
  exists Y. split; auto. intros s c Hs Hc. rewrite V by auto.
  apply teval_rsum. lia.
Qed.
Print Assumptions ffa2_float_deviation.

(** a folding path is determined at its two extreme shifts *)
Lemma folding_path_0 m sh : folding_path m 0 sh -> forall i, (i < m)%nat -> sh i = 0%nat.
Proof.
  intros (H0 & H1 & H2).
  assert (Mono : forall j i, (i + j < m)%nat -> (sh i <= sh (i + j))%nat).
  { induction j; intros i Hi. - rewrite Nat.add_0_r; lia.
    - specialize (IHj i ltac:(lia)). replace (i + S j)%nat with (i + j + 1)%nat by lia.
      destruct (H2 (i + j)%nat ltac:(lia)); lia. }
  intros i Hi. specialize (Mono (m - 1 - i)%nat i ltac:(lia)).
  replace (i + (m - 1 - i))%nat with (m - 1)%nat in Mono by lia. lia.
Qed.

Lemma folding_path_last m sh : folding_path m (m - 1) sh -> forall i, (i < m)%nat -> sh i = i.
Proof.
  intros (H0 & H1 & H2).
  assert (Up : forall j i, (i + j < m)%nat -> (sh (i + j) <= sh i + j)%nat).
  { induction j; intros i Hi. - rewrite Nat.add_0_r; lia.
    - specialize (IHj i ltac:(lia)). replace (i + S j)%nat with (i + j + 1)%nat by lia.
      destruct (H2 (i + j)%nat ltac:(lia)); lia. }
  intros i Hi.
  pose proof (Up i 0%nat ltac:(lia)) as U1. rewrite Nat.add_0_l in U1.
  pose proof (Up (m - 1 - i)%nat i ltac:(lia)) as U2.
  replace (i + (m - 1 - i))%nat with (m - 1)%nat in U2 by lia. lia.
Qed.

(** C08.  Row 0 is the plain column sum; the last row drifts by one bin per row. *)
Theorem ffa2_extreme_rows :
  forall (bld : build) (X : arr2 R) (junk_t junk_o : list R),
  arr2_wf X -> (1 <= a_rows X)%nat -> (1 <= a_cols X)%nat -> (Z.of_nat (a_rows X) <= 4194304)%Z ->
  length junk_t = (a_rows X * a_cols X)%nat -> length junk_o = (a_rows X * a_cols X)%nat ->
  exists Y, ffa2 Rplus (merge_index (numF bld)) junk_t junk_o X = Ok Y /\
    forall c, (c < a_cols X)%nat ->
      at2 0 Y 0 c = rsum (a_rows X) (fun i => at2 0 X i c) /\
      at2 0 Y (a_rows X - 1) c
      = rsum (a_rows X) (fun i => at2 0 X i ((c + i) mod a_cols X)).
Proof.
  intros bld X jt jo Hwf Hm Hp Hm' Hjt Hjo.
  assert (G : forall m', (3 <= m' <= a_rows X)%nat -> good_index (merge_index (numF bld)) m').
  { intros m' H. apply good_index_float; lia. }
  destruct (ffa2_fold Rplus 0 (merge_index (numF bld)) (a_rows X) Hm ltac:(lia) G X Hwf eq_refl Hp)
    as (Y & W & R & C & V & E).
  exists Y. split; auto. intros c Hc. rewrite !V by lia. rewrite !teval_rsum by lia.
  split; apply rsum_ext; intros i Hi; rewrite Nat.add_0_l.
  - rewrite (folding_path_0 (a_rows X) (path (merge_index (numF bld)) (S (a_rows X)) (a_rows X) 0)); auto.
    + rewrite Nat.add_0_r, Nat.mod_small; auto.
    + apply path_folding; auto; lia.
  - rewrite (folding_path_last (a_rows X)
      (path (merge_index (numF bld)) (S (a_rows X)) (a_rows X) (a_rows X - 1))); auto.
    apply path_folding; auto; lia.
Qed.
Print Assumptions ffa2_extreme_rows.

(** C09.  The algebra of the transform, exact sums; float index arithmetic. *)
Definition ffa2_exact (bld : build) (X Y : arr2 R) : Prop :=
  forall junk_t junk_o,
    length junk_t = (a_rows X * a_cols X)%nat -> length junk_o = (a_rows X * a_cols X)%nat ->
    ffa2 Rplus (merge_index (numF bld)) junk_t junk_o X = Ok Y.

Definition shape_ok (X : arr2 R) : Prop :=
  arr2_wf X /\ (1 <= a_rows X)%nat /\ (1 <= a_cols X)%nat /\ (Z.of_nat (a_rows X) <= 4194304)%Z.

Definition map2 (f : R -> R -> R) (X Y : arr2 R) : arr2 R :=
  Arr2 (a_rows X) (a_cols X) (map (fun p => f (fst p) (snd p)) (combine (a_data X) (a_data Y))).

Definition rotate_rows (k : nat) (X : arr2 R) : arr2 R :=
  Arr2 (a_rows X) (a_cols X)
    (map (fun q => at2 0 X (q / a_cols X) ((q mod a_cols X + k) mod a_cols X))
         (seq 0 (a_rows X * a_cols X))).

Lemma at2_map2 f X Y i j : arr2_wf X -> arr2_wf Y ->
  a_rows X = a_rows Y -> a_cols X = a_cols Y -> (i < a_rows X)%nat -> (j < a_cols X)%nat ->
  at2 0 (map2 f X Y) i j = f (at2 0 X i j) (at2 0 Y i j).
Proof.
  unfold arr2_wf, at2, map2. cbn. intros HX HY HR HC Hi Hj.
  assert (i * a_cols X + j < a_rows X * a_cols X)%nat by nia.
  rewrite (nth_indep _ 0 (f 0 0)).
  2:{ rewrite map_length, combine_length, HX, HY, <- HR, <- HC. lia. }
  change (f 0 0) with ((fun p => f (fst p) (snd p)) (0, 0)).
  rewrite map_nth, combine_nth by congruence. cbn. now rewrite HC.
Qed.

Lemma at2_rotate k X i j : (i < a_rows X)%nat -> (j < a_cols X)%nat ->
  at2 0 (rotate_rows k X) i j = at2 0 X i ((j + k) mod a_cols X).
Proof.
  intros Hi Hj. unfold at2 at 1, rotate_rows. cbn.
  assert (i * a_cols X + j < a_rows X * a_cols X)%nat by nia.
  set (g := fun q => at2 0 X (q / a_cols X) ((q mod a_cols X + k) mod a_cols X)).
  rewrite (nth_indep _ 0 (g 0%nat)) by (rewrite map_length, seq_length; lia).
  rewrite map_nth, seq_nth by lia. unfold g. cbn [Nat.add].
  rewrite Nat.add_comm, Nat.div_add by lia. rewrite Nat.mod_add by lia.
  rewrite (Nat.div_small j), (Nat.mod_small j) by lia. reflexivity.
Qed.

Lemma ffa2_det X Y Y' bld : ffa2_exact bld X Y -> ffa2_exact bld X Y' -> Y = Y'.
Proof.
  intros H H'. set (j := repeat 0 (a_rows X * a_cols X)).
  assert (L : length j = (a_rows X * a_cols X)%nat) by apply repeat_length.
  pose proof (H j j L L) as E. rewrite (H' j j L L) in E. now injection E.
Qed.

Lemma ffa2_sums bld m : (1 <= m)%nat -> (Z.of_nat m <= 4194304)%Z ->
  exists sh : nat -> nat -> nat, forall X, shape_ok X -> a_rows X = m ->
    exists Y, ffa2_exact bld X Y /\ arr2_wf Y /\ a_rows Y = m /\ a_cols Y = a_cols X /\
      forall s c, (s < m)%nat -> (c < a_cols X)%nat ->
        at2 0 Y s c = rsum m (fun i => at2 0 X i ((c + sh s i) mod a_cols X)).
Proof.
  intros Hm Hm'. exists (path (merge_index (numF bld)) (S m) m). intros X (W & R1 & C1 & B) HX.
  assert (G : forall m', (3 <= m' <= m)%nat -> good_index (merge_index (numF bld)) m').
  { intros m' H. apply good_index_float; lia. }
  destruct (ffa2_fold Rplus 0 (merge_index (numF bld)) m Hm ltac:(lia) G X W HX C1)
    as (Y & W' & R & C & V & E).
  exists Y. split. { red. rewrite HX. exact E. } repeat split; auto.
  intros s c Hs Hc. rewrite V by auto. apply teval_rsum. lia.
Qed.

Theorem ffa2_conserves :
  forall (bld : build) (X : arr2 R), shape_ok X ->
  exists Y, ffa2_exact bld X Y /\ a_rows Y = a_rows X /\ a_cols Y = a_cols X /\
    forall s, (s < a_rows X)%nat ->
      rsum (a_cols X) (fun c => at2 0 Y s c)
      = rsum (a_rows X) (fun i => rsum (a_cols X) (fun c => at2 0 X i c)).
Proof.
  intros bld X HX. pose proof HX as (W & R1 & C1 & B).
  destruct (ffa2_sums bld (a_rows X) R1 B) as (sh & H).
  destruct (H X HX eq_refl) as (Y & E & WY & RY & CY & V).
  exists Y. repeat split; auto. intros s Hs.
  rewrite (rsum_ext _ _ (fun c => rsum (a_rows X) (fun i => at2 0 X i ((c + sh s i) mod a_cols X))))
    by (intros; apply V; auto).
  rewrite rsum_swap. apply rsum_ext. intros i Hi.
  apply (rsum_rot (a_cols X) (sh s i) (fun c => at2 0 X i c)). lia.
Qed.
Print Assumptions ffa2_conserves.

Theorem ffa2_linear :
  forall (bld : build) (a b : R) (X1 X2 Y1 Y2 : arr2 R),
  shape_ok X1 -> shape_ok X2 -> a_rows X1 = a_rows X2 -> a_cols X1 = a_cols X2 ->
  ffa2_exact bld X1 Y1 -> ffa2_exact bld X2 Y2 ->
  ffa2_exact bld (map2 (fun x y => a * x + b * y) X1 X2) (map2 (fun x y => a * x + b * y) Y1 Y2).
Proof.
  intros bld a b X1 X2 Y1 Y2 H1 H2 HR HC E1 E2.
  pose proof H1 as (W1 & R1 & C1 & B1). pose proof H2 as (W2 & R2 & C2 & B2).
  destruct (ffa2_sums bld (a_rows X1) R1 B1) as (sh & H).
  destruct (H X1 H1 eq_refl) as (Y1' & E1' & WY1 & RY1 & CY1 & V1).
  destruct (H X2 H2 (eq_sym HR)) as (Y2' & E2' & WY2 & RY2 & CY2 & V2).
  rewrite (ffa2_det _ _ _ _ E1 E1'). rewrite (ffa2_det _ _ _ _ E2 E2').
  set (X := map2 (fun x y => a * x + b * y) X1 X2).
  assert (WX : arr2_wf X).
  { unfold arr2_wf, X, map2; cbn. rewrite map_length, combine_length.
    unfold arr2_wf in *. rewrite W1, W2, <- HR, <- HC. lia. }
  assert (HX : shape_ok X) by (split; [exact WX|]; cbn; auto).
  destruct (H X HX eq_refl) as (Y & E & WY & RY & CY & V).
  replace (map2 (fun x y => a * x + b * y) Y1' Y2') with Y; auto.
  cbn [X map2 a_cols a_rows] in CY, V.
  assert (WM : arr2_wf (map2 (fun x y => a * x + b * y) Y1' Y2')).
  { unfold arr2_wf, map2; cbn. rewrite map_length, combine_length.
    unfold arr2_wf in *. rewrite WY1, WY2, RY1, RY2, CY1, CY2, <- HC. lia. }
  apply (arr2_ext 0); auto; try (cbn; congruence).
  intros i j Hi Hj. rewrite at2_map2 by (auto; congruence).
  rewrite CY in Hj. rewrite RY in Hi.
  rewrite V, V1, V2 by (auto; congruence).
  rewrite <- !rsum_scal, <- rsum_plus. apply rsum_ext. intros k Hk.
  rewrite <- HC. apply (at2_map2 (fun x y => a * x + b * y)); auto.
  apply Nat.mod_upper_bound. lia.
Qed.
Print Assumptions ffa2_linear.

Theorem ffa2_rotation :
  forall (bld : build) (k : nat) (X Y : arr2 R), shape_ok X ->
  ffa2_exact bld X Y -> ffa2_exact bld (rotate_rows k X) (rotate_rows k Y).
Proof.
  intros bld k X Y HX E. pose proof HX as (W & R1 & C1 & B).
  destruct (ffa2_sums bld (a_rows X) R1 B) as (sh & H).
  destruct (H X HX eq_refl) as (Y' & E' & WY & RY & CY & V).
  rewrite (ffa2_det _ _ _ _ E E').
  assert (WR : forall Z, arr2_wf (rotate_rows k Z)).
  { intros Z. unfold arr2_wf, rotate_rows; cbn. now rewrite map_length, seq_length. }
  assert (HX' : shape_ok (rotate_rows k X)) by (split; [apply WR|]; cbn; auto).
  destruct (H _ HX' eq_refl) as (Z & EZ & WZ & RZ & CZ & VZ).
  cbn [rotate_rows a_rows a_cols] in RZ, CZ, VZ.
  replace (rotate_rows k Y') with Z; auto.
  apply (arr2_ext 0); auto; try (cbn; congruence).
  intros i j Hi Hj. rewrite RZ in Hi. rewrite CZ in Hj.
  rewrite VZ, at2_rotate by congruence. rewrite CY.
  rewrite V by (try apply Nat.mod_upper_bound; lia).
  apply rsum_ext. intros q Hq. rewrite at2_rotate by (try apply Nat.mod_upper_bound; lia).
  rewrite !Nat.add_mod_idemp_l by lia. do 2 f_equal. lia.
Qed.
Print Assumptions ffa2_rotation.

Example ffa2_algebra_ex : shape_ok (Arr2 3 2 [1; 2; 3; 4; 5; 6]).
Proof. unfold shape_ok; cbn. repeat split; lia. Qed.

(** C12.  Rounding of the sums.  Inputs are binary32 values, [rnd32] rounds every
    addition to nearest even; [u32 = 2^-24]. *)
Theorem ffa2_rounding_error :
  forall (bld : build) (m : nat), (1 <= m)%nat -> (Z.of_nat m <= 4194304)%Z ->
  exists sh : nat -> nat -> nat,
    (forall s, (s < m)%nat -> folding_path m s (sh s)) /\
    forall X : arr2 R, arr2_wf X -> a_rows X = m -> (1 <= a_cols X)%nat ->
      (forall i j, (i < m)%nat -> (j < a_cols X)%nat ->
         generic_format radix2 (FLT_exp (-149) 24) (at2 0 X i j)) ->
      exists Y,
        (forall junk_t junk_o,
          length junk_t = (m * a_cols X)%nat -> length junk_o = (m * a_cols X)%nat ->
          ffa2 (fun a b => rnd32 (a + b)) (merge_index (numF bld)) junk_t junk_o X = Ok Y) /\
        forall s c, (s < m)%nat -> (c < a_cols X)%nat ->
          Rabs (at2 0 Y s c - rsum m (fun i => at2 0 X i ((c + sh s i) mod a_cols X)))
          <= ((1 + / 16777216) ^ (Nat.log2_up m) - 1)
             * rsum m (fun i => Rabs (at2 0 X i ((c + sh s i) mod a_cols X))).
Proof.
  intros bld m Hm Hm'.
  assert (G : forall m', (3 <= m' <= m)%nat -> good_index (merge_index (numF bld)) m').
  { intros m' H. apply good_index_float; lia. }
  exists (path (merge_index (numF bld)) (S m) m).
  split. { intros s Hs. apply path_folding; auto; lia. }
  intros X Hwf HX Hp HF.
  destruct (ffa2_fold (fun a b => rnd32 (a + b)) 0 (merge_index (numF bld)) m Hm ltac:(lia) G X Hwf HX Hp)
    as (Y & W & R & C & V & E).
  exists Y. split; auto. intros s c Hs Hc. rewrite V by auto.
  destruct (tree_error (generic_format radix2 (FLT_exp (-149) 24)) (fun a b => rnd32 (a + b)) u32
    ltac:(unfold u32; lra) rnd32_plus_error
    (fun i => at2 0 X i ((c + path (merge_index (numF bld)) (S m) m s i) mod a_cols X))
    (mtree (S m) 0 m) (Nat.log2_up m)) as (_ & B & _).
  { apply depth_mtree. lia. }
  { intros i Hi. rewrite leaves_mtree in Hi by lia. apply in_seq in Hi.
    apply HF; [lia|]. apply Nat.mod_upper_bound. lia. }
  rewrite !teval_rsum in B by lia. exact B.
Qed.
Print Assumptions ffa2_rounding_error.

Example ffa2_rounding_error_ex :
  generic_format radix2 (FLT_exp (-149) 24) (IZR 12345).
Proof. apply F32_int. lia. Qed.

(** C11.  With 2^24 + 1 rows the binary32 row index leaves the scratch buffer: no
    input of that shape, whatever its contents and width, is transformed. *)
Theorem ffa2_huge_refuted :
  forall (A : Type) (plus : A -> A -> A) (X Y : arr2 A) junk_t junk_o,
  Z.of_nat (a_rows X) = 16777217%Z ->
  length junk_t = (a_rows X * a_cols X)%nat ->
  ffa2 plus (merge_index numSF) junk_t junk_o X <> Ok Y.
Proof.
  intros A plus X Y jt jo HX Hj. apply (ffa2_bad_index plus _ jt jo X Y (a_rows X - 1)); try lia.
  now apply merge_index_huge.
Qed.
Print Assumptions ffa2_huge_refuted.

(** C05 at the degenerate shapes: no rows recurses for ever, however deep the stack;
    several rows without columns take a modulo by zero. *)
Theorem ffa2_no_rows_refuted :
  forall (A : Type) (plus : A -> A -> A) idx (inp tmp out : list A) (cols fuel : nat),
  transform plus idx fuel inp (Block 0 0 cols) tmp (Block 0 0 cols) out (Block 0 0 cols) = Loop.
Proof. intros. apply transform_no_rows. Qed.
Print Assumptions ffa2_no_rows_refuted.

Theorem ffa2_no_columns_refuted :
  ffa2 Nat.add (fun _ _ _ => 0%nat) [] [] (Arr2 2 0 []) = UB.
Proof. reflexivity. Qed.
Print Assumptions ffa2_no_columns_refuted.
