(** Model of riptide/pipeline/harmonic_testing.py, and of the operations of Python's
    fractions.Fraction it uses. *)
From Coq Require Import List Arith ZArith Bool.
From Verif Require Import Base.Result Base.Num Model.Cluster Model.Peaks.
Import ListNotations.
Local Open Scope Z_scope.

(** fractions.Fraction: numerator and positive denominator, in lowest terms *)
Definition fraction := (Z * Z)%type.

(** Fraction(n, d) with d <> 0 *)
Definition frac (n d : Z) : fraction :=
  let g := Z.gcd n d in
  if d <? 0 then (- (n / g), - (d / g)) else (n / g, d / g).

(** [1 / f] *)
Definition frac_inv (f : fraction) : res fraction :=
  if fst f =? 0 then Err ZeroDivisionError else Ok (frac (snd f) (fst f)).

(** [abs(a - b) <= abs(c - b)] on fractions (positive denominators) *)
Definition closer (a b c : fraction) : bool :=
  let diff (x y : fraction) := Z.abs (fst x * snd y - fst y * snd x) in
  diff a b * (snd c * snd b) <=? diff c b * (snd a * snd b).

(** the loop of Fraction.limit_denominator in the standard library of CPython (fractions.py);
    the fuel is the number of iterations allowed *)
Fixpoint limit_loop (fuel : nat) (dmax p0 q0 p1 q1 n d : Z) : res (Z * Z * Z * Z) :=
  match fuel with
  | O => Loop
  | S fuel' =>
    if d =? 0 then Err ZeroDivisionError else
    let a := n / d in
    let q2 := q0 + a * q1 in
    if dmax <? q2 then Ok (p0, q0, p1, q1)
    else limit_loop fuel' dmax p1 q1 (p0 + a * p1) q2 d (n - a * d)
  end.

(** Fraction.limit_denominator; a positive denominator [d] needs less than [d + 1] iterations *)
Definition limit_denominator (f : fraction) (dmax : Z) : res fraction :=
  if dmax <? 1 then Err ValueError else
  if snd f <=? dmax then Ok f else
  '(p0, q0, p1, q1) <- limit_loop (S (Z.to_nat (snd f))) dmax 0 1 1 0 (fst f) (snd f) ;;
  if q1 =? 0 then Err ZeroDivisionError else
  let k := (dmax - q0) / q1 in
  let bound1 := frac (p0 + k * p1) (q0 + k * q1) in
  let bound2 := frac p1 q1 in
  Ok (if closer bound2 f bound1 then bound2 else bound1).

Section Harmonic.
Context (N : num).
Notation lit z := (o_ofZ (@n_dbl N) z).
(** Fraction(x) of a float: its exact value, or an error for infinities and NaN *)
Context (as_fraction : N -> res fraction).

(** equality of Peak tuples *)
Definition peak_eqb (a b : peak N) : bool :=
  n_eqb (p_period a) (p_period b) && n_eqb (p_freq a) (p_freq b) && (p_width a =? p_width b) &&
  n_eqb (p_ducy a) (p_ducy b) && (p_iw a =? p_iw b)%nat && (p_ip a =? p_ip b)%nat &&
  n_eqb (p_snr a) (p_snr b) &&
  match p_dm a, p_dm b with
  | Some x, Some y => n_eqb x y
  | None, None => true
  | _, _ => false
  end.

(** min(a, b) *)
Definition nmin2 (a b : N) : N := if n_ltb b a then b else a.

(** [x ** -2] of a Python float *)
Definition pow_m2 (x : N) : res N :=
  if n_eqb x (lit 0) then Err ZeroDivisionError else Ok (o_div n_dbl (lit 1) (o_mul n_dbl x x)).

(** float(f); numerator and denominator are rounded before the division *)
Definition to_float (f : fraction) : N := o_div n_dbl (lit (fst f)) (lit (snd f)).

(** harmonic_testing.py:9-87  hdiag: the fraction and the phase, DM and S/N distances.  [kdm] is
    4.15e3. *)
Definition hdiag (F H : peak N) (tobs fmin fmax : N) (denom_max : Z) : res (fraction * N * N * N) :=
  _ <- guard (n_ltb fmin fmax) ValueError ;;
  _ <- guard (n_ltb (lit 0) tobs) ValueError ;;
  let width (X : peak N) := o_div n_dbl (p_ducy X) (p_freq X) in
  let '(slow, fast) := if n_ltb (p_freq H) (p_freq F) then (H, F) else (F, H) in
  ratio <- as_fraction (o_div n_dbl (p_freq fast) (p_freq slow)) ;;
  fr <- limit_denominator ratio denom_max ;;
  let turns := o_mul n_dbl (nabs N (o_sub n_dbl (o_mul n_dbl (to_float fr) (p_freq slow)) (p_freq fast))) tobs in
  let phase_distance := o_div n_dbl turns (p_ducy fast) in
  fr <- (if peak_eqb H slow then frac_inv fr else Ok fr) ;;
  match p_dm F, p_dm H with
  | Some dF, Some dH =>
    lo <- pow_m2 fmin ;; hi <- pow_m2 fmax ;;
    let delay := o_mul n_dbl (o_mul n_dbl (nabs N (o_sub n_dbl dF dH)) (lit 4150))
                   (nabs N (o_sub n_dbl lo hi)) in
    let dm_distance := o_div n_dbl delay (nmin2 (width F) (width H)) in
    let expected := o_div n_dbl (p_snr F) (o_sqrt n_dbl (lit (fst fr * snd fr))) in
    Ok (fr, phase_distance, dm_distance, nabs N (o_sub n_dbl (p_snr H) expected))
  | _, _ => Err TypeError
  end.

(** harmonic_testing.py:90-155  htest *)
Definition htest (F H : peak N) (tobs fmin fmax : N) (denom_max : Z) (phase_max dm_max snr_max : N)
  : res (bool * fraction) :=
  '(fr, phase, dm, snr) <- hdiag F H tobs fmin fmax denom_max ;;
  Ok (n_leb phase phase_max && n_leb dm dm_max && n_leb snr snr_max, fr).
End Harmonic.
