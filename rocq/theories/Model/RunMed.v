(** Model of riptide/cpp/running_median.hpp and libcpp.running_median, over any element
    type with a comparison [ltb] (the C++ operator [<]). *)
From Coq Require Import List Arith Bool.
From Verif Require Import Base.Result Base.Buf.
Import ListNotations.

Section RunMed.
Context {A : Type} (ltb : A -> A -> bool).

(** std::swap(data[i], data[j]) *)
Definition swap (data : list A) (i j : nat) : res (list A) :=
  a <- rd data i ;;
  b <- rd data j ;;
  data1 <- wr data i b ;;
  wr data1 j a.

(** running_median.hpp:14-35  partition; [end] is inclusive *)
Definition partition (data : list A) (start end_ ipiv : nat) : res (nat * list A) :=
  pivot <- rd data ipiv ;;
  data0 <- swap data ipiv end_ ;;
  '(j, data1) <- for_ (end_ - start) start (fun i '(j, data) =>
     x <- rd data i ;;
     if ltb x pivot then
       data' <- swap data i j ;; Ok (S j, data')
     else Ok (j, data)) (start, data0) ;;
  data2 <- swap data1 j end_ ;;
  Ok (j, data2).

(** running_median.hpp:40-56  nth_element (quickselect); returns the element and the
    permuted buffer.  The recursion is not bounded by the source, hence the fuel; [j - 1]
    with [j = 0] would wrap around, an access far out of bounds. *)
Fixpoint nth_element (fuel : nat) (data : list A) (start end_ n : nat) : res (A * list A) :=
  match fuel with
  | O => Loop
  | S fuel' =>
    if start =? end_ then v <- rd data start ;; Ok (v, data) else
    '(j, data1) <- partition data start end_ end_ ;;
    if j =? n then v <- rd data1 j ;; Ok (v, data1)
    else if j <? n then nth_element fuel' data1 (j + 1) end_ n
    else if j =? 0 then UB
    else nth_element fuel' data1 start (j - 1) n
  end.

(** running_median.hpp:60-71  members of RunningMedian *)
Record rmed := RMed { r_width : nat; r_ring : list A; r_pos : nat; r_buffer : list A }.

(** running_median.hpp:82-84  constructor; vectors are value-initialised *)
Definition rmed_new (zero : A) (width : nat) : rmed :=
  RMed width (repeat zero width) 0 (repeat zero width).

(** running_median.hpp:73-79  ringbuf_push *)
Definition ringbuf_push (r : rmed) (val : A) : res rmed :=
  ring' <- wr (r_ring r) (r_pos r) val ;;
  let p := S (r_pos r) in
  Ok (RMed (r_width r) ring' (if r_width r <=? p then 0 else p) (r_buffer r)).

(** running_median.hpp:86-96  push *)
Definition rmed_push (r : rmed) (val : A) : res (A * rmed) :=
  r1 <- ringbuf_push r val ;;
  (* std::copy(ring.begin(), ring.end(), buffer.begin()) *)
  buf <- for_ (length (r_ring r1)) 0 (fun i b => v <- rd (r_ring r1) i ;; wr b i v) (r_buffer r1) ;;
  '(med, buf') <- nth_element (S (r_width r1)) buf 0 (r_width r1 - 1) (r_width r1 / 2) ;;
  Ok (med, RMed (r_width r1) (r_ring r1) (r_pos r1) buf').

(** running_median.hpp:101-132  running_median *)
Definition running_median (zero : A) (data : list A) (size width : nat) (out : list A)
  : res (list A) :=
  if width mod 2 =? 0 then Err ValueError else
  if negb (width <? size) then Err ValueError else
  let half := width / 2 in
  let r := rmed_new zero width in
  r <- for_ (half + 1) 0 (fun _ r =>
         v <- rd data 0 ;; '(_, r') <- rmed_push r v ;; Ok r') r ;;
  r <- for_ (half - 1) 1 (fun i r =>
         v <- rd data i ;; '(_, r') <- rmed_push r v ;; Ok r') r ;;
  '(r, out) <- for_ (size - half) half (fun i '(r, out) =>
         v <- rd data i ;; '(m, r') <- rmed_push r v ;;
         out' <- wr out (i - half) m ;; Ok (r', out')) (r, out) ;;
  '(r, out) <- for_ half 0 (fun i '(r, out) =>
         v <- rd data (size - 1) ;; '(m, r') <- rmed_push r v ;;
         out' <- wr out (size - half + i) m ;; Ok (r', out')) (r, out) ;;
  Ok out.

(** python_bindings.cpp:212-223  libcpp.running_median; running_medians.py:5-37 passes a
    contiguous copy of [x] *)
Definition py_running_median (zero : A) (alloc : nat -> list A) (x : list A) (width : nat)
  : res (list A) :=
  running_median zero x (length x) width (alloc (length x)).
End RunMed.
