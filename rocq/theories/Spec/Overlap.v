(** Length of the intersection of two real intervals. *)
From Coq Require Import Reals Lra.
Local Open Scope R_scope.

(** length of [a, b] intersected with [c, d] *)
Definition overlap (a b c d : R) : R := Rmax 0 (Rmin b d - Rmax a c).

(** the part of sample [i] (which covers [i, i+1]) that lies in [c, d] *)
Definition weight (i : nat) (c d : R) : R := overlap (INR i) (INR i + 1) c d.

Ltac minmax := unfold weight, overlap, Rmax, Rmin in *;
  repeat match goal with
  | |- context [Rle_dec ?a ?b] => destruct (Rle_dec a b)
  | H : context [Rle_dec ?a ?b] |- _ => destruct (Rle_dec a b)
  end; try lra.

Lemma weight_split i a b c : a <= b -> b <= c -> weight i a b + weight i b c = weight i a c.
Proof. intros. minmax. Qed.

Lemma weight_nonneg i c d : 0 <= weight i c d.
Proof. minmax. Qed.
