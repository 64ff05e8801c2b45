(** Model of riptide/cpp/periodogram.hpp and its binding.

    [flog] and [fpow] stand for the library functions log() and pow() (the second argument
    of pow() is always a non-negative integer here). *)
From Coq Require Import List Arith ZArith Bool.
From Verif Require Import Base.Result Base.Buf Base.Num Model.Kernels Model.Transforms
  Model.Downsample Model.Snr.
Import ListNotations.

(** Conversion of a (rounded) double to size_t: undefined behaviour when the integer does
    not fit. *)
Definition to_size (z : Z) : res nat :=
  if ((z <? 0) || (2 ^ 64 <=? z))%Z then UB else Ok (Z.to_nat z).

(** pointers and buffers of the search: [p_in], [p_buf], [p_out] are the three work buffers,
    [p_periods], [p_bins], [p_snr] the output arrays and [p_po], [p_fo], [p_so] the number of
    elements by which the three output pointers have advanced *)
Record pstate (A : Type) := PS {
  p_in : list A; p_buf : list A; p_out : list A;
  p_periods : list A; p_bins : list Z; p_snr : list A;
  p_po : nat; p_fo : nat; p_so : nat }.
Arguments PS {A}. Arguments p_in {A}. Arguments p_buf {A}. Arguments p_out {A}.
Arguments p_periods {A}. Arguments p_bins {A}. Arguments p_snr {A}.
Arguments p_po {A}. Arguments p_fo {A}. Arguments p_so {A}.

Section Periodogram.
Context (N : num) (flog : N -> N) (fpow : N -> nat -> N).

Notation ofnat k := (o_ofZ (@n_dbl N) (Z.of_nat k)).
Notation lit z := (o_ofZ (@n_dbl N) z).
Notation add_ := (o_add (@n_dbl N)).
Notation sub_ := (o_sub (@n_dbl N)).
Notation mul_ := (o_mul (@n_dbl N)).
Notation div_ := (o_div (@n_dbl N)).

(** std::min on doubles *)
Definition min_dbl (a b : N) : N := if n_ltb b a then b else a.

(** periodogram.hpp:18-40  periodogram_check_arg, periodogram_check_arguments *)
Definition check_arguments (tsamp period_min period_max : N) (bins_min bins_max : nat) : res unit :=
  _ <- guard (n_ltb (lit 0) tsamp) ValueError ;;
  _ <- guard (n_ltb (lit 0) period_min) ValueError ;;
  _ <- guard (n_ltb period_min period_max) ValueError ;;
  _ <- guard (1 <? bins_min) ValueError ;;
  _ <- guard (bins_min <=? bins_max) ValueError ;;
  guard (n_leb (mul_ tsamp (ofnat bins_min)) period_min) ValueError.

(** periodogram.hpp:54-57  ceilshift *)
Definition ceilshift (rows cols : nat) (pmax : N) : res nat :=
  to_size (n_ceil (mul_ (mul_ (ofnat cols) (sub_ (ofnat rows) (lit 1)))
                        (sub_ (lit 1) (div_ (ofnat cols) pmax)))).

(** periodogram.hpp:63-109  periodogram_length *)
Definition periodogram_length (size : nat) (tsamp period_min period_max : N)
    (bins_min bins_max : nat) : res nat :=
  _ <- check_arguments tsamp period_min period_max bins_min bins_max ;;
  let ds_ini := div_ period_min (mul_ tsamp (ofnat bins_min)) in
  let ds_geo := div_ (add_ (ofnat bins_max) (lit 1)) (ofnat bins_min) in
  num_downsamplings <-
    to_size (n_ceil (div_ (flog (div_ period_max period_min)) (flog ds_geo))) ;;
  for_ num_downsamplings 0 (fun ids len =>
    let f := mul_ ds_ini (fpow ds_geo ids) in
    let tau := mul_ f tsamp in
    let period_max_samples := div_ period_max tau in
    let n := downsampled_size N size f in
    let bstart := bins_min in
    pms <- to_size (n_trunc period_max_samples) ;;
    let bstop := Nat.min bins_max (Nat.min n pms) in
    for_ (bstop + 1 - bstart) bstart (fun bins len =>
      let rows := n / bins in
      let period_ceil := min_dbl period_max_samples (add_ (ofnat bins) (lit 1)) in
      cs <- ceilshift rows bins period_ceil ;;
      let rows_eval := Nat.min rows cs in
      Ok (len + rows_eval)) len) 0.

(** periodogram.hpp:117-201  periodogram.  [alloc n] is the initial content of a new array.
    [data] holds [size] samples.  The three work buffers are separate allocations. *)
Definition periodogram (alloc : nat -> list N) (data : list N) (size : nat) (tsamp : N)
    (widths : list nat) (period_min period_max : N) (bins_min bins_max : nat)
    (periods : list N) (foldbins : list Z) (snr : list N) : res (pstate N) :=
  _ <- check_arguments tsamp period_min period_max bins_min bins_max ;;
  let ds_ini := div_ period_min (mul_ tsamp (ofnat bins_min)) in
  let ds_geo := div_ (add_ (ofnat bins_max) (lit 1)) (ofnat bins_min) in
  num_downsamplings <-
    to_size (n_ceil (div_ (flog (div_ period_max period_min)) (flog ds_geo))) ;;
  let bufsize := downsampled_size N size ds_ini in
  for_ num_downsamplings 0 (fun ids st =>
    let f := mul_ ds_ini (fpow ds_geo ids) in
    let tau := mul_ f tsamp in
    let period_max_samples := div_ period_max tau in
    let n := downsampled_size N size f in
    '(input, input_mem) <-
      (if n_eqb f (lit 1) then Ok (data, p_in st)
       else im <- downsample N data size f (p_in st) ;; Ok (im, im)) ;;
    let bstart := bins_min in
    pms <- to_size (n_trunc period_max_samples) ;;
    let bstop := Nat.min bins_max (Nat.min n pms) in
    for_ (bstop + 1 - bstart) bstart (fun bins st =>
      let rows := n / bins in
      let stdnoise := n_narrow (o_sqrt n_dbl (mul_ (ofnat rows) (downsampled_variance N size f))) in
      let period_ceil := min_dbl period_max_samples (add_ (ofnat bins) (lit 1)) in
      cs <- ceilshift rows bins period_ceil ;;
      let rows_eval := Nat.min rows cs in
      '(ffabuf, ffaout) <-
        transform_ptr (o_add n_sgl) (merge_index N) input 0 rows bins (p_buf st) (p_out st) ;;
      snr' <- snr2 N alloc ffaout 0 rows_eval bins widths stdnoise (p_snr st) (p_so st) ;;
      '(periods', foldbins') <-
        for_ rows_eval 0 (fun s pf =>
          let '(per, fb) := pf in
          per' <- wr per (p_po st + s)
            (div_ (mul_ (mul_ tau (ofnat bins)) (ofnat bins))
                  (sub_ (ofnat bins) (div_ (ofnat s) (sub_ (ofnat rows) (lit 1))))) ;;
          fb' <- wr fb (p_fo st + s) (Z.of_nat bins mod 2 ^ 32)%Z ;;
          Ok (per', fb')) (p_periods st, p_bins st) ;;
      Ok (PS (p_in st) ffabuf ffaout periods' foldbins' snr'
             (p_po st + rows_eval) (p_fo st + rows_eval) (p_so st + rows_eval * length widths)))
      (PS input_mem (p_buf st) (p_out st) (p_periods st) (p_bins st) (p_snr st)
          (p_po st) (p_fo st) (p_so st)))
    (PS (alloc bufsize) (alloc bufsize) (alloc bufsize) periods foldbins snr 0 0 0).

(** python_bindings.cpp:180-209  libcpp.periodogram on contiguous one-dimensional arrays *)
Definition py_periodogram (alloc : nat -> list N) (allocz : nat -> list Z) (data : list N)
    (tsamp : N) (widths : list nat) (period_min period_max : N) (bins_min bins_max : nat)
  : res (list N * list Z * arr2 N) :=
  let size := length data in
  len <- periodogram_length size tsamp period_min period_max bins_min bins_max ;;
  st <- periodogram alloc data size tsamp widths period_min period_max bins_min bins_max
          (alloc len) (allocz len) (alloc (len * length widths)) ;;
  Ok (p_periods st, p_bins st, Arr2 len (length widths) (p_snr st)).
End Periodogram.
