(** Model of the functions that make time series without a telescope: libffa.generate_signal and
    the constructors of TimeSeries for synthetic data, arrays, raw binary and .npy files. *)
From Coq Require Import String List Arith ZArith Bool Ascii.
From Verif Require Import Base.Result Base.Num Model.Metadata Model.TimeSeries Model.Sigproc Model.Worker.
Import ListNotations.
Local Open Scope string_scope.

Section Signal.
Context (N : num).
(** numpy's log, sin, cos, exp, ** and pi *)
Context (flog fsin fcos fexp : N -> N) (fpow : N -> N -> N) (pi : N).
(** numpy.random.normal: [size] values for the given scale *)
Context (normal : nat -> N -> list N).
Notation lit z := (o_ofZ (@n_dbl N) z).
Notation ofnat n := (lit (Z.of_nat n)).

(** libffa.py:51 *)
Definition vm_kappa (ducy : N) : N :=
  let s := fsin (o_div n_dbl (o_mul n_dbl pi ducy) (lit 2)) in
  o_div n_dbl (flog (lit 2)) (o_mul n_dbl (lit 2) (o_mul n_dbl s s)).

(** libffa.py:54  the phase of sample [i] in radians; a period of 0 is not modelled (numpy goes
    on with infinities) *)
Definition vm_phase (period phi0 : N) (i : nat) : N :=
  o_mul n_dbl (o_sub n_dbl (o_div n_dbl (ofnat i) period) phi0) (o_mul n_dbl (lit 2) pi).

(** libffa.py:55 *)
Definition vm_pulse (kappa phase : N) : N :=
  fexp (o_mul n_dbl kappa (o_sub n_dbl (fcos phase) (lit 1))).

(** [(signal ** 2).sum()], in any order *)
Definition sum_squares (x : list N) : N := o_sum n_dbl 0 (map (fun v => Val (o_mul n_dbl v v)) x).

(** libffa.py:15-68  generate_signal.  numpy.arange of a negative number is empty;
    numpy.random.normal refuses a negative size. *)
Definition generate_signal (nsamp : Z) (period phi0 ducy amplitude stdnoise : N) : res (list N) :=
  let n := Z.to_nat nsamp in
  let kappa := vm_kappa ducy in
  let signal := map (fun i => vm_pulse kappa (vm_phase period phi0 i)) (seq 0 n) in
  let scale := o_mul n_dbl amplitude (fpow (sum_squares signal) (o_div n_dbl (lit (-1)) (lit 2))) in
  let signal := map (fun v => o_mul n_dbl v scale) signal in
  if n_ltb (lit 0) stdnoise then
    _ <- guard (0 <=? nsamp)%Z ValueError ;;
    Ok (map (fun p => o_add n_dbl (fst p) (snd p)) (combine signal (normal n stdnoise)))
  else Ok (map (fun v => o_add n_dbl v (lit 0)) signal).

(** time_series.py:170-218  TimeSeries.generate.  Dividing Python floats by zero raises.  The
    arguments are floats. *)
Definition ts_generate (length tsamp period phi0 ducy amplitude stdnoise : N) : res (series N) :=
  _ <- guard (negb (n_eqb tsamp (lit 0))) ZeroDivisionError ;;
  let nsamp := py_round N (o_div n_dbl length tsamp) in
  data <- generate_signal nsamp (o_div n_dbl period tsamp) phi0 ducy amplitude stdnoise ;;
  md <- metadata_new [("source_name", MStr "fake"); ("signal_shape", MStr "Von Mises");
          ("signal_period", MFloat period); ("signal_initial_phase", MFloat phi0);
          ("signal_duty_cycle", MFloat ducy)] ;;
  new_series (map n_narrow data) tsamp md.

(** time_series.py:220-239  TimeSeries.from_numpy_array, the values (whether the array is shared
    is the subject of Model.TimeSeries) *)
Definition from_numpy_array (array : list N) (tsamp : N) : res (series N) :=
  new_series (map n_narrow array) tsamp [].

(** time_series.py:241-262  TimeSeries.from_binary with the default dtype; [read] gives the bytes
    of a file or raises *)
Definition from_binary (of_bits32 : Z -> N) (read : string -> res file) (fname : string) (tsamp : N)
  : res (series N) :=
  f <- read fname ;; new_series (float32s N of_bits32 f) tsamp [].

(** time_series.py:264-281  TimeSeries.from_npy_file; [load] is numpy.load *)
Definition from_npy_file (load : string -> res (list N)) (fname : string) (tsamp : N) : res (series N) :=
  x <- load fname ;; new_series (map n_narrow x) tsamp [].
End Signal.
