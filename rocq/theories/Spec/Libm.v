(** Accuracy of the mathematical library. *)
From Coq Require Import Reals.
Local Open Scope R_scope.

(** The values of log() and pow() have a relative error of at most 2^-50, a few units in the
    last place of a double.  glibc documents less than one. *)
Definition accurate_log (flog : R -> R) : Prop :=
  forall x, 1 <= x <= 2 ^ 1000 -> Rabs (flog x - ln x) <= / 2 ^ 50 * ln x.
Definition accurate_pow (fpow : R -> nat -> R) : Prop :=
  forall x n, 1 <= x -> x ^ n <= 2 ^ 1000 -> Rabs (fpow x n - x ^ n) <= / 2 ^ 50 * x ^ n.
