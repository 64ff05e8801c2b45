(** Model of riptide/time_series.py: TimeSeries objects, the sample buffers they refer to and
    the methods that create or change them. *)
From Coq Require Import String List Arith ZArith Bool.
From Verif Require Import Base.Result Base.Buf Base.Num Model.Kernels Model.Downsample
  Model.RunMed Model.FastRmed Model.Folding Model.Metadata.
Import ListNotations.

Section TimeSeries.
Context (N : num) (alloc : nat -> list N).
Notation lit z := (o_ofZ (@n_dbl N) z).
Notation ofnat k := (o_ofZ (@n_dbl N) (Z.of_nat k)).

(** [t_buf] is the address of the numpy array, which several objects may share *)
Record tseries := TS { t_buf : nat; t_tsamp : N; t_md : metadata N }.

(** The arrays (address = position) and the TimeSeries objects (idem).  Nothing is ever
    removed. *)
Record heap := Heap { h_bufs : list (list N); h_ts : list tseries }.

Definition buf (h : heap) (b : nat) : list N := nth b (h_bufs h) [].

(** [mean] and [var] in float64; the samples are added in any order, [k] tells the sums apart *)
Definition nsum (k : nat) (x : list N) : N := o_sum n_dbl k (map Val x).
Definition nmean (k : nat) (x : list N) : N := o_div n_dbl (nsum k x) (ofnat (length x)).
Definition mean (x : list N) : N := nmean 0 x.
Definition var (x : list N) : N :=
  let m := mean x in
  nmean 1 (map (fun v => o_mul n_dbl (o_sub n_dbl v m) (o_sub n_dbl v m)) x).

(** time_series.py:82-90  [(self.data - m) / norm].  [m] and [norm] are np.float64 scalars, so that
    the result is a float64 array under the promotion rules of numpy 2 (before, it was computed in
    float32, which is not modelled). *)
Definition normalised64 (x : list N) : list N :=
  let m := mean x in
  let norm := o_sqrt n_dbl (var x) in
  map (fun v => o_div n_dbl (o_sub n_dbl v m) norm) x.

(** time_series.py:90  the data of the object returned by normalise(): TimeSeries() rounds them to
    float32 (time_series.py:40-43) *)
Definition normalised (x : list N) : list N := map n_narrow (normalised64 x).

(** Python's round(): to the nearest integer, ties to even *)
Definition py_round (x : N) : Z :=
  let k := n_floor x in
  let d := o_sub n_dbl x (lit k) in
  let half := o_div n_dbl (lit 1) (lit 2) in
  if n_ltb d half then k else if n_ltb half d then (k + 1)%Z
  else if Z.even k then k else (k + 1)%Z.

(** time_series.py:117-118  the running median computed by deredden() *)
Definition rmed (x : list N) (tsamp width : N) (minpts : Z) : res (list N) :=
  fast_running_median N alloc x (py_round (o_div n_dbl width tsamp)) minpts.

(** time_series.py:119-122  [data - rmed] (the lengths agree) *)
Definition minus (x y : list N) : list N :=
  map (fun p => n_narrow (o_sub n_dbl (fst p) (snd p))) (combine x y).

(** time_series.py:40-50  __init__ on the float32 array at [b].  [copy] makes a new array;
    otherwise numpy.asarray returns the same one. *)
Definition ts_new (h : heap) (b : nat) (tsamp : N) (md : option (metadata N)) (copy : bool)
  : res heap :=
  let bufs := if copy then (h_bufs h ++ [buf h b])%list else h_bufs h in
  let b' := if copy then length (h_bufs h) else b in
  m <- metadata_new (match md with Some m => m | None => [] end) ;;
  let len := o_mul n_dbl (ofnat (length (buf h b))) tsamp in
  Ok (Heap bufs (h_ts h ++ [TS b' tsamp (md_set "tobs"%string (MFloat len) m)])).

(** [TimeSeries(x, tsamp, metadata=md)] on a freshly computed array *)
Definition ts_fresh (h : heap) (x : list N) (tsamp : N) (md : metadata N) : res heap :=
  ts_new (Heap (h_bufs h ++ [x]) (h_ts h)) (length (h_bufs h)) tsamp (Some md) false.

Definition set_ts (h : heap) (i : nat) (t : tseries) : heap := Heap (h_bufs h) (upd (h_ts h) i t).

(** The calls a program can make.  [CArray] is a user-created float32 array, [CWrite] an
    assignment to an element of an array through any reference to it. *)
Inductive call :=
| CArray (x : list N)
| CWrite (b k : nat) (v : N)
| CNew (b : nat) (tsamp : N) (md : option (metadata N)) (copy : bool)
| CCopy (i : nat)
| CNormalise (i : nat) (inplace : bool)
| CDeredden (i : nat) (width : N) (minpts : Z) (inplace : bool)
| CDownsample (i : nat) (factor : N) (inplace : bool)
| CFold (i : nat) (period : N) (bins : nat) (subints : option Z).

(** One call.  A call that raises leaves everything as it was. *)
Definition step (c : call) (h : heap) : res heap :=
  match c with
  | CArray x => Ok (Heap (h_bufs h ++ [x]) (h_ts h))
  | CWrite b k v =>
    x <- rd (h_bufs h) b ;; x' <- wr x k v ;; Ok (Heap (upd (h_bufs h) b x') (h_ts h))
  | CNew b tsamp md copy =>
    _ <- rd (h_bufs h) b ;; ts_new h b tsamp md copy
  | CCopy i =>  (* time_series.py:62-64: copy.deepcopy *)
    t <- rd (h_ts h) i ;;
    Ok (Heap (h_bufs h ++ [buf h (t_buf t)])
             (h_ts h ++ [TS (length (h_bufs h)) (t_tsamp t) (t_md t)]))
  | CNormalise i inplace =>  (* time_series.py:66-90 *)
    t <- rd (h_ts h) i ;;
    if inplace then  (* line 88: the array is not rounded to float32 *)
      Ok (set_ts (Heap (h_bufs h ++ [normalised64 (buf h (t_buf t))]) (h_ts h)) i
                 (TS (length (h_bufs h)) (t_tsamp t) (t_md t)))
    else ts_fresh h (normalised (buf h (t_buf t))) (t_tsamp t) (t_md t)
  | CDeredden i width minpts inplace =>  (* time_series.py:92-122 *)
    t <- rd (h_ts h) i ;;
    let x := buf h (t_buf t) in
    r <- rmed x (t_tsamp t) width minpts ;;
    _ <- guard (length r =? length x) ValueError ;;
    if inplace then  (* [self._data -= rmed] changes the array itself *)
      Ok (Heap (upd (h_bufs h) (t_buf t) (minus x r)) (h_ts h))
    else ts_fresh h (minus x r) (t_tsamp t) (t_md t)
  | CDownsample i factor inplace =>  (* time_series.py:124-145 *)
    t <- rd (h_ts h) i ;;
    x <- py_downsample N alloc (buf h (t_buf t)) factor ;;
    if inplace then
      Ok (set_ts (Heap (h_bufs h ++ [x]) (h_ts h)) i
                 (TS (length (h_bufs h)) (o_mul n_dbl (t_tsamp t) factor) (t_md t)))
    else ts_fresh h x (o_mul n_dbl factor (t_tsamp t)) (t_md t)
  | CFold i period bins subints =>  (* time_series.py:147-168, folding.py:66-69 *)
    t <- rd (h_ts h) i ;;
    _ <- metadata_new (t_md t) ;;
    _ <- fold N alloc (buf h (t_buf t)) (t_tsamp t) period bins subints ;;
    Ok h
  end.

(** A history of calls; the caller goes on after an exception. *)
Fixpoint run (cs : list call) (h : heap) : heap :=
  match cs with
  | [] => h
  | c :: cs' => run cs' (match step c h with Ok h' => h' | _ => h end)
  end.

Definition empty : heap := Heap [] [].
End TimeSeries.
Arguments TS {N}. Arguments t_buf {N}. Arguments t_tsamp {N}. Arguments t_md {N}.
Arguments Heap {N}. Arguments h_bufs {N}. Arguments h_ts {N}. Arguments buf {N}.
Arguments CArray {N}. Arguments CWrite {N}. Arguments CNew {N}. Arguments CCopy {N}.
Arguments CNormalise {N}. Arguments CDeredden {N}. Arguments CDownsample {N}. Arguments CFold {N}.
