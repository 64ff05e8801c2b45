(** Vocabulary for the statements about the FFA. *)
From Coq Require Import List Arith.
Import ListNotations.

(** Binary summation trees over row numbers. *)
Inductive tree : Set := Leaf (i : nat) | Node (l r : tree).

Fixpoint leaves (t : tree) : list nat :=
  match t with Leaf i => [i] | Node l r => leaves l ++ leaves r end.

Fixpoint depth (t : tree) : nat :=
  match t with Leaf _ => 0 | Node l r => S (Nat.max (depth l) (depth r)) end.

(** value of the tree when row [i] contributes [g i] *)
Fixpoint teval {A} (plus : A -> A -> A) (g : nat -> A) (t : tree) : A :=
  match t with Leaf i => g i | Node l r => plus (teval plus g l) (teval plus g r) end.

(** A folding path for [m] rows ending at shift [s]: it starts at 0, ends at [s] and
    advances by at most one bin from one row to the next. *)
Definition folding_path (m s : nat) (sh : nat -> nat) : Prop :=
  sh 0 = 0 /\ sh (m - 1) = s /\
  forall i, i + 1 < m -> sh (i + 1) = sh i \/ sh (i + 1) = sh i + 1.

(** The head and tail row numbers chosen for output row [s] of a merge of [m] rows
    are legal: inside their halves, and leaving a step of 0 or 1 bin in between. *)
Definition good_index (idx : nat -> nat -> nat -> nat) (m : nat) : Prop :=
  forall s, s < m ->
    idx (m / 2) m s < m / 2 /\
    idx (m - m / 2) m s < m - m / 2 /\
    idx (m / 2) m s + idx (m - m / 2) m s <= s /\
    s <= idx (m / 2) m s + idx (m - m / 2) m s + 1.
