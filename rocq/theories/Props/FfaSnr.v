(** C102: what the transform does to the S/N of the rows. *)
From Coq Require Import List Arith ZArith Lia Reals Lra.
From Flocq Require Import Core.
From Verif Require Import Base.Result Base.Buf Base.Num Model.Kernels Model.Transforms
  Spec.Sums Spec.FfaSpec Spec.Boxcar Proof.Kernels Proof.Transforms Proof.Index Proof.Ffa Proof.Snr Props.Ffa Props.Snr.
Import ListNotations.
Local Open Scope R_scope.

Definition row (X : arr2 R) (i : nat) : list R := map (fun c => at2 0 X i c) (seq 0 (a_cols X)).

Lemma row_length X i : length (row X i) = a_cols X.
Proof. unfold row. now rewrite map_length, seq_length. Qed.

Lemma row_nth X i c : (c < a_cols X)%nat -> nth c (row X i) 0 = at2 0 X i c.
Proof.
  intros H. unfold row. rewrite (nth_indep _ 0 (at2 0 X i 0)) by (now rewrite map_length, seq_length).
  rewrite (map_nth (fun c => at2 0 X i c)). now rewrite seq_nth.
Qed.

(** the response of a template is at most the best one, wherever the profile is rotated to *)
Lemma rotated_response (x : list R) (k w phi : nat) (t : nat -> R) (v : R) :
  (0 < w < length x)%nat -> (phi < length x)%nat -> boxcar_template (length x) w phi t -> best_response x w v ->
  rsum (length x) (fun c => nth ((c + k) mod length x) x 0 * t c) <= v.
Proof.
  intros Hw Hp Ht HB. apply is_resp_best in HB; auto. apply (is_resp_rot x k) in HB; auto.
  pose proof (rotated_length x k) as L. rewrite <- L in HB at 1. apply is_resp_best in HB; [|now rewrite L].
  destruct HB as [_ M]. rewrite L in M. specialize (M phi t Hp Ht). apply Rle_trans with (2 := M). right.
  apply rsum_ext. intros c Hc. now rewrite rotated_nth.
Qed.

(** No row of the transform responds to a boxcar more than all the input rows together. *)
Theorem ffa2_response_bound :
  forall (bld : build) (X : arr2 R), shape_ok X ->
  exists Y, ffa2_exact bld X Y /\ a_cols Y = a_cols X /\
    forall (w s : nat) (v : R) (g : nat -> R), (0 < w < a_cols X)%nat -> (s < a_rows X)%nat ->
      best_response (row Y s) w v ->
      (forall i, (i < a_rows X)%nat -> best_response (row X i) w (g i)) -> v <= rsum (a_rows X) g.
Proof.
  intros bld X HX. pose proof HX as (W & R1 & C1 & B).
  destruct (ffa2_sums bld (a_rows X) R1 B) as (sh & H).
  destruct (H X HX eq_refl) as (Y & E & WY & RY & CY & V).
  exists Y. split; [exact E|]. split; [exact CY|]. intros w s v g Hw Hs [(phi & t & Hp & Ht & Ev) _] G.
  rewrite row_length, CY in Hp, Ht, Ev. rewrite <- Ev. unfold inner.
  rewrite (rsum_ext _ _ (fun c => rsum (a_rows X) (fun i => at2 0 X i ((c + sh s i) mod a_cols X) * t c))).
  - rewrite rsum_swap. apply rsum_le. intros i Hi.
    apply Rle_trans with (2 := rotated_response (row X i) (sh s i) w phi t (g i)
      ltac:(now rewrite row_length) ltac:(now rewrite row_length) ltac:(now rewrite row_length) (G i Hi)).
    rewrite row_length. right. apply rsum_ext. intros c Hc. rewrite row_nth; auto. apply Nat.mod_upper_bound. lia.
  - intros c Hc. rewrite row_nth by (now rewrite CY). rewrite V by auto.
    rewrite Rmult_comm, <- rsum_scal. apply rsum_ext. intros i Hi. ring.
Qed.
Print Assumptions ffa2_response_bound.

Example ffa2_response_bound_ex : shape_ok (Arr2 3 4 [0; 1; 5; 2; 0; 1; 5; 2; 1; 5; 2; 0]) /\ (0 < 2 < 4)%nat.
Proof. unfold shape_ok, arr2_wf. cbn. repeat split; lia. Qed.

(** If the input rows are copies of a profile [q] that drift along the path of row [s], that row
    holds [m] times the profile, its response is [m] times that of one copy, and no row of the
    transform does better.  There is such a path to every row, the one to row 0 staying at 0. *)
Theorem ffa2_aligned :
  forall (bld : build) (m : nat), (1 <= m)%nat -> (Z.of_nat m <= 4194304)%Z ->
  exists sh : nat -> nat -> nat,
    (forall s, (s < m)%nat -> folding_path m s (sh s)) /\
    forall (X : arr2 R) (q : list R) (s : nat), shape_ok X -> a_rows X = m -> length q = a_cols X -> (s < m)%nat ->
      (forall i c, (i < m)%nat -> (c < a_cols X)%nat -> at2 0 X i ((c + sh s i) mod a_cols X) = nth c q 0) ->
      exists Y, ffa2_exact bld X Y /\ a_cols Y = a_cols X /\
        (forall c, (c < a_cols X)%nat -> at2 0 Y s c = INR m * nth c q 0) /\
        forall (w : nat) (v : R), (0 < w < a_cols X)%nat -> best_response q w v ->
          best_response (row Y s) w (INR m * v) /\
          forall s' v', (s' < m)%nat -> best_response (row Y s') w v' -> v' <= INR m * v.
Proof.
  intros bld m Hm Hm'.
  assert (G : forall m', (3 <= m' <= m)%nat -> good_index (merge_index (numF bld)) m').
  { intros m' H. apply good_index_float; lia. }
  exists (path (merge_index (numF bld)) (S m) m).
  split. { intros s Hs. apply path_folding; auto; lia. }
  intros X q s HX RX Lq Hs A. pose proof HX as (W & R1 & C1 & B).
  destruct (ffa2_fold Rplus 0 (merge_index (numF bld)) m Hm ltac:(lia) G X W RX C1)
    as (Y & W' & R & C & V & E).
  set (sh := path (merge_index (numF bld)) (S m) m) in *.
  assert (VS : forall s' c, (s' < m)%nat -> (c < a_cols X)%nat ->
    at2 0 Y s' c = rsum m (fun i => at2 0 X i ((c + sh s' i) mod a_cols X))).
  { intros s' c Hs' Hc. rewrite V by auto. apply teval_rsum. lia. }
  exists Y. split. { red. rewrite RX. exact E. } split; [exact C|].
  assert (Ys : forall c, (c < a_cols X)%nat -> at2 0 Y s c = INR m * nth c q 0).
  { intros c Hc. rewrite VS by auto. rewrite (rsum_ext m _ (fun _ => nth c q 0)) by (intros; apply A; auto).
    apply rsum_const. }
  split; [exact Ys|]. intros w v Hw Hv.
  assert (Pm : 0 < INR m) by (apply (lt_INR 0); lia).
  assert (ER : row Y s = map (fun y => INR m * y + 0) q).
  { apply (nth_ext _ _ 0 0); [now rewrite row_length, map_length, C|]. intros c Hc. rewrite row_length, C in Hc.
    rewrite row_nth by (now rewrite C). rewrite Ys by auto.
    rewrite (nth_indep (map _ q) 0 (INR m * 0 + 0)) by (rewrite map_length; lia).
    rewrite (map_nth (fun y => INR m * y + 0)). ring. }
  split.
  - rewrite ER. apply is_resp_best; [rewrite map_length; lia|]. rewrite map_length.
    apply is_resp_affine; auto; [lia|]. apply is_resp_best; auto. lia.
  - intros s' v' Hs' HB.
    destruct (ffa2_response_bound bld X HX) as (Y' & E' & _ & RB).
    assert (Y' = Y) as -> by (apply (ffa2_det X Y' Y bld); auto; red; rewrite RX; exact E).
    rewrite RX in RB. specialize (RB w s' v' (fun _ => v) Hw Hs' HB). rewrite rsum_const in RB. apply RB.
    (* each input row is a rotated copy of [q] *)
    intros i Hi. set (n := a_cols X) in *.
    assert (EQ : row X i = rotated q (n - sh s i mod n)).
    { apply (nth_ext _ _ 0 0); [rewrite row_length, rotated_length; fold n; lia|].
      intros c Hc. rewrite row_length in Hc. fold n in Hc. rewrite row_nth by auto.
      rewrite rotated_nth by lia. rewrite Lq.
      pose proof (Nat.mod_upper_bound (sh s i) n ltac:(lia)) as U.
      specialize (A i ((c + (n - sh s i mod n)) mod n)%nat Hi ltac:(apply Nat.mod_upper_bound; lia)).
      rewrite <- A. f_equal. rewrite Nat.add_mod_idemp_l by lia.
      rewrite <- (Nat.add_mod_idemp_r _ (sh s i)) by lia.
      replace (c + (n - sh s i mod n) + sh s i mod n)%nat with (c + 1 * n)%nat by lia.
      rewrite Nat.mod_add by lia. symmetry. now apply Nat.mod_small. }
    rewrite EQ. apply is_resp_best; [rewrite rotated_length; lia|]. rewrite rotated_length.
    apply is_resp_rot; [lia|]. apply is_resp_best; auto. lia.
Qed.
Print Assumptions ffa2_aligned.

(** three equal rows, which stay aligned along the path to row 0 *)
Example ffa2_aligned_ex : let X := Arr2 3 4 [0; 1; 5; 2; 0; 1; 5; 2; 0; 1; 5; 2] in
  shape_ok X /\ forall sh, folding_path 3 0 sh ->
    forall i c, (i < 3)%nat -> (c < 4)%nat -> at2 0 X i ((c + sh i) mod 4) = nth c [0; 1; 5; 2] 0.
Proof.
  cbv zeta. split; [unfold shape_ok, arr2_wf; cbn; repeat split; lia|].
  intros sh H i c Hi Hc. rewrite (folding_path_0 3 sh H i Hi), Nat.add_0_r, Nat.mod_small by auto.
  destruct i as [|[|[|i]]]; try lia; destruct c as [|[|[|[|c]]]]; try lia; reflexivity.
Qed.
