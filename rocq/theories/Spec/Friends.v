(** Friends of friends. *)
From Coq Require Import List Reals Relations.
Local Open Scope R_scope.

(** two of the items satisfying [P] whose values are at most [r] apart *)
Definition near {A} (P : A -> Prop) (val : A -> R) (r : R) (a b : A) : Prop :=
  P a /\ P b /\ Rabs (val a - val b) <= r.

(** linked by a chain of such items *)
Definition friends {A} (P : A -> Prop) (val : A -> R) (r : R) : A -> A -> Prop :=
  clos_refl_trans A (near P val r).

(** the groups are a partition of [n] numbered items *)
Definition together (groups : list (list nat)) (i j : nat) : Prop :=
  exists g, In g groups /\ In i g /\ In j g.
