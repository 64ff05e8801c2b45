(** C01 - C04: rotation and prefix-sum kernels. *)
From Coq Require Import List Arith ZArith Lia Reals Lra.
From Verif Require Import Base.Result Base.Buf Base.Num Model.Kernels Spec.Sums Proof.Kernels.
Import ListNotations.

(** C01.  For any element type; [junk] is the uninitialised output array. *)
Theorem rollback_rotates :
  forall (A : Type) (d : A) (junk x : list A) (shift : nat),
  x <> [] -> length junk = length x ->
  exists out, py_rollback junk x shift = Ok out /\ length out = length x /\
    forall i, i < length x -> nth i out d = nth ((i + shift) mod length x) x d.
Proof.
  intros A d junk x shift Hx Hj. unfold py_rollback.
  assert (0 < length x) by (destruct x; cbn; [congruence|lia]).
  destruct (rollback_spec d x (length x) shift junk) as (out & E & L & W & _); try lia.
  exists out. split; auto. split; [congruence|]. intros i Hi.
  now apply nth_error_nth, W.
Qed.
Print Assumptions rollback_rotates.

Example rollback_rotates_ex :
  py_rollback [0; 0; 0; 0] [1; 2; 3; 4] 6 = Ok [3; 4; 1; 2].
Proof. reflexivity. Qed.

(** rolling an empty array takes the shift modulo zero *)
Theorem rollback_empty_refuted :
  exists (junk x : list nat) shift, length junk = length x /\ py_rollback junk x shift = UB.
Proof. now exists [], [], 0. Qed.
Print Assumptions rollback_empty_refuted.

(** C02.  For any element type and any addition, also rounded float addition. *)
Theorem fused_rollback_add_rotates :
  forall (A : Type) (plus : A -> A -> A) (d : A) (junk x y : list A) (shift : nat),
  x <> [] -> length junk = length x ->
  (length x <> length y -> py_fused_rollback_add plus junk x y shift = Err ValueError) /\
  (length x = length y ->
   exists z, py_fused_rollback_add plus junk x y shift = Ok z /\ length z = length x /\
    forall i, i < length x ->
      nth i z d = plus (nth i x d) (nth ((i + shift) mod length x) y d)).
Proof.
  intros A plus d junk x y shift Hx Hj. unfold py_fused_rollback_add.
  assert (0 < length x) by (destruct x; cbn; [congruence|lia]).
  split; intros HL.
  - apply Nat.eqb_neq in HL. now rewrite HL.
  - rewrite HL, Nat.eqb_refl, <- HL. cbn [negb].
    destruct (fused_rollback_add_spec plus d x 0 y 0 (length x) shift junk 0)
      as (z & E & L & W & _); try lia.
    exists z. split; auto. split; [congruence|]. intros i Hi.
    now apply nth_error_nth, W.
Qed.
Print Assumptions fused_rollback_add_rotates.

Example fused_rollback_add_ex :
  py_fused_rollback_add Nat.add [0; 0; 0] [1; 2; 3] [10; 20; 30] 1 = Ok [21; 32; 13] /\
  py_fused_rollback_add Nat.add [0; 0; 0] [1; 2; 3] [10; 20] 1 = Err ValueError.
Proof. split; reflexivity. Qed.

(** C03.  Any number of wraps; cells [nsum ..] of the output buffer keep their
    content.  The overlap checks of the model make [Ok] say that no illegal overlap
    and no out-of-bounds access occurred. *)
Theorem circular_prefix_sum_correct :
  forall (x : list R) (nsum : nat) (out : list R),
  x <> [] -> nsum <= length out ->
  exists out', circular_prefix_sum numR x 0 (length x) nsum out = Ok out' /\
    length out' = length out /\
    (forall j, j < nsum ->
       nth j out' 0%R = rsum (S j) (fun k => nth (k mod length x) x 0%R)) /\
    (forall j, nsum <= j -> nth j out' 0%R = nth j out 0%R).
Proof.
  intros x nsum out Hx Ho.
  assert (0 < length x) by (destruct x; cbn; [congruence|lia]).
  destruct (circular_prefix_sum_spec x 0 (length x) nsum out) as (out' & E & L & W & F); try lia.
  exists out'. split; auto. split; auto. split.
  - intros j Hj. now apply nth_error_nth, W.
  - intros j Hj. specialize (F j ltac:(lia)).
    now apply nth_error_eq_nth.
Qed.
Print Assumptions circular_prefix_sum_correct.

(** a case with three wraps meets the hypotheses *)
Example circular_prefix_sum_ex :
  let x := [1; 2]%R in let out := [0; 0; 0; 0; 0; 0; 0]%R in
  x <> [] /\ 7 <= length out.
Proof. cbn. split; [discriminate|lia]. Qed.

(** C04.  Within the returned array when [nsum <= len(x)] ... *)
Theorem py_circular_prefix_sum_partial :
  forall (junk x : list R) (nsum : nat),
  x <> [] -> length junk = length x -> nsum <= length x ->
  exists out, py_circular_prefix_sum numR junk x nsum = Ok out /\ length out = length x /\
    forall j, j < nsum -> nth j out 0%R = rsum (S j) (fun k => nth k x 0%R).
Proof.
  intros junk x nsum Hx Hj Hn.
  destruct (circular_prefix_sum_correct x nsum junk) as (out & E & L & W & _); auto; [lia|].
  exists out. split; auto. split; [congruence|]. intros j Hjn. rewrite W by auto.
  apply rsum_ext. intros i Hi. rewrite Nat.mod_small; auto. lia.
Qed.
Print Assumptions py_circular_prefix_sum_partial.

(** ... and outside of it for every larger [nsum], whatever the arithmetic. *)
Theorem py_circular_prefix_sum_refuted :
  forall (N : num) (junk x : list N) (nsum : nat),
  length junk = length x -> 0 < length x < nsum ->
  py_circular_prefix_sum N junk x nsum = UB.
Proof. exact py_circular_prefix_sum_overflow. Qed.
Print Assumptions py_circular_prefix_sum_refuted.

Example py_circular_prefix_sum_refuted_ex :
  length [0; 0]%R = length [1; 2]%R /\ 0 < length [1; 2]%R < 3.
Proof. cbn. lia. Qed.
