(** Floating point data and the numbers they stand for. *)
From Coq Require Import ZArith Reals SpecFloat.
From Flocq Require Import Core BinarySingleNaN.
From Verif Require Import Base.Num.
Local Open Scope R_scope.

(** [x] is a finite [double] (not an infinity, not a NaN) of value [r] *)
Definition double_value (x : spec_float) (r : R) : Prop :=
  is_finite_SF x = true /\ valid_binary 53 1024 x = true /\ SF2R radix2 x = r.

(** [x] is a finite [float] of value [r]; a [float] is held as the [double] of the same value *)
Definition single_value (x : spec_float) (r : R) : Prop :=
  double_value x r /\ rnd32 r = r /\ Rabs r < 2 ^ 128.

(** [x] is an infinity or a NaN *)
Definition not_finite (x : spec_float) : Prop := is_finite_SF x = false.

(** log and pow of the library on [double]s: on finite arguments of at least 1 they return the doubles
    [flog r] and [fpow r k] *)
Definition ieee_log (flogI : spec_float -> spec_float) (flog : R -> R) : Prop :=
  forall x r, double_value x r -> 1 <= r -> double_value (flogI x) (flog r).
Definition ieee_pow (fpowI : spec_float -> nat -> spec_float) (fpow : R -> nat -> R) : Prop :=
  forall x r k, double_value x r -> 1 <= r -> fpow r k <= 2 ^ 1000 -> double_value (fpowI x k) (fpow r k).
