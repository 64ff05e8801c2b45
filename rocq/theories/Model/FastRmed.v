(** Model of riptide/running_medians.py. *)
From Coq Require Import List Arith ZArith Bool.
From Verif Require Import Base.Result Base.Buf Base.Num Model.RunMed.
Import ListNotations.

Section Fast.
Context (N : num).
Notation lit z := (o_ofZ (@n_dbl N) z).

(** running_medians.py:5-37  running_median: numpy converts the data to float32 and pybind11
    rejects a negative width (TypeError) *)
Definition running_median_py (alloc : nat -> list N) (x : list N) (width : Z) : res (list N) :=
  if (width <? 0)%Z then Err TypeError else
  py_running_median n_ltb (lit 0) alloc (map n_narrow x) (Z.to_nat width).

(** running_medians.py:40-46  scrunch.  The data are a float32 array (TimeSeries.data): numpy's
    mean adds them in single precision, in any order, divides in double and stores a float32 *)
Definition scrunch (data : list N) (factor : nat) : list N :=
  map (fun i =>
    let terms := map (fun j => Val (nth (i * factor + j) data (lit 0))) (seq 0 factor) in
    n_narrow (o_div n_dbl (o_sum n_sgl i terms) (lit (Z.of_nat factor)))) (seq 0 (length data / factor)).

(** numpy.interp: linear interpolation, constant outside the range of [xp] *)
Fixpoint interp_in (xp fp : list N) (x : N) : N :=
  match xp, fp with
  | x0 :: ((x1 :: _) as xp'), f0 :: ((f1 :: _) as fp') =>
    if n_ltb x x1 then
      o_add n_dbl f0 (o_mul n_dbl (o_div n_dbl (o_sub n_dbl f1 f0) (o_sub n_dbl x1 x0)) (o_sub n_dbl x x0))
    else interp_in xp' fp' x
  | _, f0 :: _ => f0
  | _, [] => lit 0
  end.

Definition interp (xp fp : list N) (x : N) : N :=
  match xp, fp with
  | x0 :: _, f0 :: _ => if n_ltb x x0 then f0 else interp_in xp fp x
  | _, _ => lit 0
  end.

(** running_medians.py:74  [int(max(1, width_samples / float(min_points)))] *)
Definition scrunch_factor (width min_points : Z) : Z :=
  let y := o_div n_dbl (lit width) (lit min_points) in
  if n_ltb (lit 1) y then n_trunc y else 1%Z.

(** running_medians.py:49-83  fast_running_median *)
Definition fast_running_median (alloc : nat -> list N) (data : list N) (width min_points : Z)
  : res (list N) :=
  if (min_points mod 2 =? 0)%Z then Err ValueError else
  let sf := scrunch_factor width min_points in
  if (sf =? 1)%Z then running_median_py alloc data width else
  let f := Z.to_nat sf in
  let scrunched := scrunch data f in
  rmed <- running_median_py alloc scrunched min_points ;;
  let x_lores := map (fun i => o_add n_dbl (lit (Z.of_nat (i * f)))
        (o_mul n_dbl (o_div n_dbl (lit 1) (lit 2)) (lit (sf - 1))))
      (seq 0 (length scrunched)) in
  Ok (map (fun i => interp x_lores rmed (lit (Z.of_nat i))) (seq 0 (length data))).
End Fast.
