(** Model of riptide/cpp/kernels.hpp, and of its Python bindings.

    A pointer argument is a buffer (list) plus an offset.  Buffers qualified
    [__restrict__] are distinct lists; where the code passes two ranges of one
    array the ranges are checked to be disjoint ([UB] otherwise). *)

From Coq Require Import List Arith ZArith Bool.
From Verif Require Import Base.Result Base.Buf Base.Num.
Import ListNotations.

Section Elementwise.
Context {A : Type} (plus : A -> A -> A).

(** kernels.hpp:9-13  [add] *)
Definition add (x : list A) (xo : nat) (y : list A) (yo : nat) (size : nat)
    (z : list A) (zo : nat) : res (list A) :=
  for_ size 0 (fun i z =>
    a <- rd x (xo + i) ;;
    b <- rd y (yo + i) ;;
    wr z (zo + i) (plus a b)) z.

(** kernels.hpp:19-25  [fused_rollback_add]; [shift % size] with [size = 0] is UB *)
Definition fused_rollback_add (x : list A) (xo : nat) (y : list A) (yo : nat)
    (size shift : nat) (z : list A) (zo : nat) : res (list A) :=
  if size =? 0 then UB else
  let p := shift mod size in
  let q := size - p in
  z1 <- add x xo y (yo + p) q z zo ;;
  add x (xo + q) y yo p z1 (zo + q).

(** memcpy of [n] elements between distinct arrays (kernels.hpp:36-37,
    transforms.hpp:43) *)
Definition memcpy (out : list A) (oo : nat) (x : list A) (xo n : nat) : res (list A) :=
  for_ n 0 (fun i out => a <- rd x (xo + i) ;; wr out (oo + i) a) out.

(** kernels.hpp:32-38  [rollback] *)
Definition rollback (x : list A) (size shift : nat) (out : list A) : res (list A) :=
  if size =? 0 then UB else
  let p := shift mod size in
  let q := size - p in
  out1 <- memcpy out 0 x p q ;;
  memcpy out1 q x 0 p.

(** python_bindings.cpp:44-52  libcpp.rollback; [junk] is the uninitialised content
    of the freshly allocated output (its length is the allocation size) *)
Definition py_rollback (junk : list A) (x : list A) (shift : nat) : res (list A) :=
  rollback x (length x) shift junk.

(** python_bindings.cpp:55-70  libcpp.fused_rollback_add *)
Definition py_fused_rollback_add (junk : list A) (x y : list A) (shift : nat) : res (list A) :=
  if negb (length x =? length y) then Err ValueError else
  fused_rollback_add x 0 y 0 (length x) shift junk 0.
End Elementwise.

Section Numeric.
Context (N : num).

(** kernels.hpp:42-46  [add_scalar] on two ranges of one array ([x = out + xo],
    destination [out + oo]).  The pointers are [__restrict__], so overlapping
    ranges are UB. *)
Definition add_scalar (out : list N) (xo size : nat) (a : N) (oo : nat) : res (list N) :=
  if (xo + size <=? oo) || (oo + size <=? xo) || (size =? 0) then
    for_ size 0 (fun i out =>
      v <- rd out (xo + i) ;; wr out (oo + i) (o_add n_sgl v a)) out
  else UB.

(** kernels.hpp:50-60  [diff_max] on [x = b + xo], [y = b + yo] *)
Definition diff_max (b : list N) (xo yo size : nat) : res N :=
  x0 <- rd b xo ;;
  y0 <- rd b yo ;;
  for_ (size - 1) 1 (fun i dmax =>
    x <- rd b (xo + i) ;;
    y <- rd b (yo + i) ;;
    let d := o_sub n_sgl x y in
    Ok (if n_ltb dmax d then d else dmax)) (o_sub n_sgl x0 y0).

(** kernels.hpp:73-101  [circular_prefix_sum].  The accumulator is a double; each
    stored value and [sumx] are narrowed to float; [i * sumx] is a float product. *)
Definition circular_prefix_sum (x : list N) (xo size nsum : nat) (out : list N)
  : res (list N) :=
  let jmax := Nat.min size nsum in
  '(acc, out1) <- for_ jmax 0 (fun j '(acc, out) =>
      v <- rd x (xo + j) ;;
      let acc' := o_add n_dbl acc v in
      out' <- wr out j (n_narrow acc') ;;
      Ok (acc', out')) (o_ofZ n_dbl 0, out) ;;
  if nsum <=? size then Ok out1 else
  if size =? 0 then UB else
  let sumx := n_narrow acc in
  let q := nsum / size in
  let r := nsum mod size in
  out2 <- for_ (q - 1) 1 (fun i out =>
      add_scalar out 0 size (o_mul n_sgl (o_ofZ n_sgl (Z.of_nat i)) sumx) (i * size)) out1 ;;
  add_scalar out2 0 r (o_mul n_sgl (o_ofZ n_sgl (Z.of_nat q)) sumx) (q * size).

(** python_bindings.cpp:73-81  libcpp.circular_prefix_sum: the output has [len(x)]
    elements whatever [nsum] is. *)
Definition py_circular_prefix_sum (junk : list N) (x : list N) (nsum : nat) : res (list N) :=
  circular_prefix_sum x 0 (length x) nsum junk.
End Numeric.
