(** Pulse shapes and random variables. *)
From Coq Require Import List ZArith Reals.
From Verif Require Import Spec.Sums.
Local Open Scope R_scope.

(** [v u] is the intensity at phase [u] (in turns) of a von Mises pulse centred on phase 0 with
    unit height, which has lost half its height at half the duty cycle *)
Definition von_mises (ducy : R) (v : R -> R) : Prop :=
  exists kappa, 0 < kappa /\ (forall u, v u = exp (kappa * (cos (2 * PI * u) - 1))) /\ v (ducy / 2) = / 2.

(** distance in phase from [u] to the nearest pulse is at most [h] *)
Definition within_phase (u h : R) : Prop := exists k : Z, Rabs (u - IZR k) <= h.

(** an expectation: linear, and exact on constants *)
Definition expectation {W : Type} (E : (W -> R) -> R) : Prop :=
  (forall X Y, (forall o, X o = Y o) -> E X = E Y) /\
  (forall a b X Y, E (fun o => a * X o + b * Y o) = a * E X + b * E Y) /\
  (forall c, E (fun _ => c) = c).

(** [z] is white noise of standard deviation [sd], over [n] samples *)
Definition white_noise {W : Type} (E : (W -> R) -> R) (n : nat) (sd : R) (z : W -> nat -> R) : Prop :=
  (forall i, (i < n)%nat -> E (fun o => z o i) = 0) /\
  (forall i j, (i < n)%nat -> (j < n)%nat ->
     E (fun o => z o i * z o j) = if Nat.eqb i j then sd ^ 2 else 0).

(** a signal of frequency [nu] is on for a fraction [w] of each rotation, from phase [phi]; sample
    [i], which lasts from [i * tsamp] to [(i + 1) * tsamp], lies in the on-pulse part of a rotation *)
Definition on_pulse (nu phi w tsamp : R) (i : nat) : Prop :=
  exists rotation : Z, phi + IZR rotation <= nu * (INR i * tsamp) /\
    nu * ((INR i + 1) * tsamp) <= phi + w + IZR rotation.
