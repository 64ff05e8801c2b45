(** Model of riptide/cpp/downsample.hpp and its binding. *)
From Coq Require Import List Arith ZArith Bool.
From Verif Require Import Base.Result Base.Buf Base.Num.
Import ListNotations.

Section Downsample.
Context (N : num).

Notation ofnat k := (o_ofZ (@n_dbl N) (Z.of_nat k)).
Notation lit z := (o_ofZ (@n_dbl N) z).

(** downsample.hpp:11-16  check_downsampling_factor *)
Definition valid_factor (size : nat) (f : N) : bool :=
  n_ltb (lit 1) f && n_leb f (ofnat size).

(** downsample.hpp:21-24  downsampled_size *)
Definition downsampled_size (num_samples : nat) (f : N) : nat :=
  Z.to_nat (n_floor (o_div n_dbl (ofnat num_samples) f)).

(** downsample.hpp:29-38  downsampled_variance; [pow(y, 2)] is y * y; the compiler may contract
    the first sum of the last expression *)
Definition downsampled_variance (num_samples : nat) (f : N) : N :=
  let k := lit (n_floor f) in
  let r := o_sub n_dbl f k in
  let x := o_mul n_dbl (ofnat (downsampled_size num_samples f)) r in
  let third := o_div n_dbl (lit 1) (lit 3) in
  let two_thirds := o_div n_dbl (lit 2) (lit 3) in
  if n_ltb (lit 1) x then o_sub n_dbl f third
  else
    let km1 := o_sub n_dbl k (lit 1) in
    o_add n_dbl
      (o_sub n_dbl (o_mad n_dbl two_thirds (o_mul n_dbl x x) (o_mul n_dbl km1 km1)) x)
      (lit 1).

(** downsample.hpp:44-82  downsample.  [end = start + f] is written [o_mad k f f] since the
    compiler may contract it with [start = k * f].  [std::min(floor(end), N - 1.0)] compares
    two integer-valued doubles; it is taken on the integers.  The terms added to [acc] are read in
    order and added in any order ([o_sum]). *)
Definition downsample (inp : list N) (size : nat) (f : N) (out : list N) : res (list N) :=
  _ <- guard (valid_factor size f) ValueError ;;
  let n := downsampled_size size f in
  for_ n 0 (fun k out =>
    let start := o_mul n_dbl (ofnat k) f in
    let end_ := o_mad n_dbl (ofnat k) f f in
    let imin := Z.to_nat (n_floor start) in
    let imax := Z.to_nat (Z.min (n_floor end_) (n_floor (o_sub n_dbl (ofnat size) (lit 1)))) in
    let wmin := n_narrow (o_sub n_dbl (ofnat (imin + 1)) start) in
    let wmax := n_narrow (o_sub n_dbl end_ (ofnat imax)) in
    xmin <- rd inp imin ;;
    xs <- mapM (rd inp) (seq (imin + 1) (imax - (imin + 1))) ;;
    xmax <- rd inp imax ;;
    wr out k (o_sum n_sgl k (Prod wmin xmin :: map Val xs ++ [Prod wmax xmax]))) out.

(** python_bindings.cpp:163-177  libcpp.downsample (libffa.py:228-243).  [alloc] gives the
    uninitialised content of a new array. *)
Definition py_downsample (alloc : nat -> list N) (x : list N) (f : N) : res (list N) :=
  let size := length x in
  _ <- guard (valid_factor size f) ValueError ;;
  downsample x size f (alloc (downsampled_size size f)).
End Downsample.
