(** Circular boxcar templates and inner products. *)
From Coq Require Import List Arith Bool Lia Reals Lra.
From Verif Require Import Spec.Sums.
Import ListNotations.
Local Open Scope R_scope.

(** bin [i] lies in the circular window of [w] bins that starts at bin [phi] *)
Definition in_window (n phi w i : nat) : bool := ((i + (n - phi)) mod n <? w)%nat.

Definition inner (n : nat) (f g : nat -> R) : R := rsum n (fun i => f i * g i).

(** [t] is a boxcar of width [w] at phase [phi] with zero mean and unit square sum *)
Definition boxcar_template (n w phi : nat) (t : nat -> R) : Prop :=
  exists hi lo, 0 < hi /\
    (forall i, (i < n)%nat -> t i = if in_window n phi w i then hi else lo) /\
    rsum n t = 0 /\ rsum n (fun i => t i ^ 2) = 1.

(** [v] is the best response of profile [x] to a width [w] boxcar, over all phases *)
Definition best_response (x : list R) (w : nat) (v : R) : Prop :=
  let n := length x in
  (exists phi t, (phi < n)%nat /\ boxcar_template n w phi t /\
     inner n (fun i => nth i x 0) t = v) /\
  (forall phi t, (phi < n)%nat -> boxcar_template n w phi t ->
     inner n (fun i => nth i x 0) t <= v).
