(** Model of riptide/folding.py. *)
From Coq Require Import List Arith ZArith Bool.
From Verif Require Import Base.Result Base.Buf Base.Num Model.Transforms Model.Downsample.
Import ListNotations.

(** the value returned by fold(): one- or two-dimensional *)
Inductive folded (A : Type) := Prof (p : list A) | Subs (s : arr2 A).
Arguments Prof {A}. Arguments Subs {A}.

Section Folding.
Context (N : num).
Notation lit z := (o_ofZ (@n_dbl N) z).
Notation ofnat k := (o_ofZ (@n_dbl N) (Z.of_nat k)).

(** column [c] of a row-major array *)
Definition column (X : arr2 N) (c : nat) : list N :=
  map (fun r => nth (r * a_cols X + c) (a_data X) (lit 0)) (seq 0 (a_rows X)).

(** [numpy.asarray(cols).T]: the rows made of the equally long [cols] *)
Definition from_columns (n : nat) (cols : list (list N)) : arr2 N :=
  Arr2 n (length cols) (flat_map (fun r => map (fun c => nth r c (lit 0)) cols) (seq 0 n)).

(** folding.py:6-16  downsample_vertical *)
Definition downsample_vertical (alloc : nat -> list N) (X : arr2 N) (factor : N) : res (arr2 N) :=
  let m := a_rows X in
  _ <- guard (n_ltb (lit 1) factor) ValueError ;;
  _ <- guard (n_ltb factor (ofnat m)) ValueError ;;
  out <- mapM (fun c => py_downsample N alloc (column X c) factor) (seq 0 (a_cols X)) ;;
  Ok (from_columns (downsampled_size N m factor) out).

(** [X.sum(axis=0)], each column in any order *)
Definition column_sums (X : arr2 N) : list N :=
  map (fun c => o_sum n_sgl c (map Val (column X c))) (seq 0 (a_cols X)).

(** folding.py:19-81  fold, for a time series with samples [data] and sampling time [tsamp].
    [bins] is a non-negative int and [subints] an int or None. *)
Definition fold (alloc : nat -> list N) (data : list N) (tsamp period : N) (bins : nat)
    (subints : option Z) : res (folded N) :=
  let len := o_mul n_dbl (ofnat (length data)) tsamp in
  if n_ltb len period then Err ValueError else
  if bins =? 0 then Err ZeroDivisionError else
  let tbin := o_div n_dbl period (ofnat bins) in
  _ <- guard (n_ltb tsamp tbin) ValueError ;;
  _ <- match subints with
       | None => Ok tt
       | Some s =>
         _ <- guard (1 <=? s)%Z ValueError ;;
         guard (negb (n_ltb (o_div n_dbl len period) (lit s))) ValueError
       end ;;
  let factor := o_div n_dbl tbin tsamp in
  down <- py_downsample N alloc data factor ;;
  let m := length down / bins in
  let mf := o_mul n_dbl (ofnat m) factor in
  (* a float zero raised to a negative power *)
  if n_eqb mf (lit 0) then Err ZeroDivisionError else
  (* [mf ** -0.5] is written 1 / sqrt(mf) *)
  let scale := n_narrow (o_div n_dbl (lit 1) (o_sqrt n_dbl mf)) in
  let X := Arr2 m bins (map (fun v => o_mul n_sgl v scale) (firstn (m * bins) down)) in
  match subints with
  | None => if m =? 1 then Ok (Prof (column_sums X)) else Ok (Subs X)
  | Some s =>
    if (s =? 1)%Z || (m =? 1) then Ok (Prof (column_sums X))
    else if (s =? Z.of_nat m)%Z then Ok (Subs X)
    else Y <- downsample_vertical alloc X (o_div n_dbl (ofnat m) (lit s)) ;; Ok (Subs Y)
  end.
End Folding.
