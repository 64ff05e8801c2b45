(** Best rational approximation. *)
From Coq Require Import ZArith Reals.
Local Open Scope R_scope.

(** [a / b] in lowest terms is as close to [x] as any fraction of denominator at most [dmax] *)
Definition best_approx (x : R) (dmax a b : Z) : Prop :=
  (0 < b <= dmax)%Z /\ Z.gcd a b = 1%Z /\
  forall p q : Z, (0 < q <= dmax)%Z -> Rabs (IZR a / IZR b - x) <= Rabs (IZR p / IZR q - x).
