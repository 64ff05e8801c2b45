(** The variance the search assumes for the samples of downsampled white noise of unit variance,
    and the true one. *)
From Coq Require Import ZArith Reals Lra.
From Flocq Require Import Core.
From Verif Require Import Spec.Sums Spec.Overlap.
Local Open Scope R_scope.

(** [size] samples are downsampled by the factor [f]; [x] is the number of samples by which the
    phase of the bins drifts from the first to the last *)
Definition assumed_variance (size : nat) (f : R) : R :=
  let k := IZR (Zfloor f) in
  let x := IZR (Zfloor (INR size / f)) * (f - k) in
  if Rlt_dec 1 x then f - 1 / 3 else (k - 1) ^ 2 + 2 / 3 * x ^ 2 - x + 1.

(** the variance of a bin that covers [a, a + f], for 0 <= a < 1: every sample contributes the
    square of its weight *)
Definition bin_variance (f a : R) : R :=
  rsum (Z.to_nat (Zfloor f) + 2) (fun i => weight i a (a + f) ^ 2).

(** The same for [n] output samples, when the code compares a rounded [x] with 1, hence the
    overlap of the two cases. *)
Definition noise_variance (n : nat) (f V : R) : Prop :=
  let k := IZR (Zfloor f) in let x := INR n * (f - k) in
  (1 < x /\ V = f - 1 / 3) \/ (x <= 1 + / 2 ^ 52 /\ V = (k - 1) ^ 2 + 2 / 3 * x ^ 2 - x + 1).
