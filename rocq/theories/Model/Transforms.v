(** Model of riptide/cpp/block.hpp, riptide/cpp/transforms.hpp and the ffa2 binding. *)

From Coq Require Import List Arith ZArith Bool.
From Verif Require Import Base.Result Base.Buf Base.Num Model.Kernels.
Import ListNotations.

(** block.hpp:17-50  A two-dimensional view of a buffer: offset of [data] in the
    underlying allocation, rows, cols.  (The allocation itself is passed separately.) *)
Record block := Block { b_off : nat; b_rows : nat; b_cols : nat }.

(** block.hpp:30-31 *)
Definition head_size (b : block) : nat := b_rows b / 2.

(** block.hpp:33-34 *)
Definition rowptr (b : block) (irow : nat) : nat := b_off b + irow * b_cols b.

(** block.hpp:36-37 *)
Definition head (b : block) : block := Block (b_off b) (head_size b) (b_cols b).

(** block.hpp:39-43 *)
Definition tail (b : block) : block :=
  let h := head_size b in Block (rowptr b h) (b_rows b - h) (b_cols b).

(** [size_t] subtraction and addition, modulo 2^64 (transforms.hpp:24-25) *)
Definition u64 (z : Z) : Z := (z mod 2 ^ 64)%Z.

Section Transform.
Context {A : Type} (plus : A -> A -> A).

(** Row index arithmetic of [merge]; [idx part m s] is the value of
    [size_t(((part - 1.0f) / (m - 1.0f)) * s + 0.5f)], see [merge_index] below. *)
Context (idx : nat -> nat -> nat -> nat).

(** transforms.hpp:24-25  the shift [h + b], [b = s - (h + t)] in [size_t] *)
Definition merge_shift (s h t : nat) : Z :=
  let b := u64 (Z.of_nat s - u64 (Z.of_nat h + Z.of_nat t)) in
  u64 (Z.of_nat h + b).

(** transforms.hpp:13-27  [merge].  Both input blocks live in buffer [src].
    [p = 0] makes [shift % p] UB in fused_rollback_add. The shift is reduced modulo
    the row length here because [fused_rollback_add] does it first thing
    (kernels.hpp:21); this keeps the 64-bit value in [Z]. *)
Definition merge (src : list A) (thead ttail : block) (out : list A) (bo : block)
  : res (list A) :=
  let m := b_rows bo in
  let p := b_cols bo in
  for_ m 0 (fun s out =>
    let h := idx (b_rows thead) m s in
    let t := idx (b_rows ttail) m s in
    if p =? 0 then UB else
    let shift := Z.to_nat (merge_shift s h t mod Z.of_nat p) in
    fused_rollback_add plus src (rowptr thead h) src (rowptr ttail t) p shift
      out (rowptr bo s)) out.

(** transforms.hpp:30-50  [transform(input, temp, out)].  Returns the new contents
    of the temp and out buffers.  The recursion is not bounded when [rows = 0]
    (head and tail of an empty block are empty again), hence the fuel. *)
Fixpoint transform (fuel : nat) (inp : list A) (bi : block) (tmp : list A) (bt : block)
    (out : list A) (bo : block) : res (list A * list A) :=
  match fuel with
  | O => Loop
  | S fuel' =>
    let m := b_rows bi in
    let p := b_cols bi in
    if m =? 2 then
      out1 <- add plus inp (rowptr bi 0) inp (rowptr bi 1) p out (rowptr bo 0) ;;
      out2 <- fused_rollback_add plus inp (rowptr bi 0) inp (rowptr bi 1) p 1 out1 (rowptr bo 1) ;;
      Ok (tmp, out2)
    else if m =? 1 then
      out1 <- memcpy out (b_off bo) inp (b_off bi) p ;;
      Ok (tmp, out1)
    else
      '(out1, tmp1) <- transform fuel' inp (head bi) out (head bo) tmp (head bt) ;;
      '(out2, tmp2) <- transform fuel' inp (tail bi) out1 (tail bo) tmp1 (tail bt) ;;
      out3 <- merge tmp2 (head bt) (tail bt) out2 bo ;;
      Ok (tmp2, out3)
  end.

(** transforms.hpp:53-61  entry point on raw pointers; fuel [rows] bounds the
    recursion depth whenever it ends (depth is at most ceil(log2 rows) + 1). *)
Definition transform_ptr (inp : list A) (io rows cols : nat) (tmp out : list A)
  : res (list A * list A) :=
  transform (S rows) inp (Block io rows cols) tmp (Block 0 rows cols) out (Block 0 rows cols).
End Transform.

(** transforms.hpp:17-23  float index arithmetic *)
Definition merge_k (N : num) (part m : nat) : N :=
  o_div n_sgl
    (o_sub n_sgl (o_ofZ n_sgl (Z.of_nat part)) (o_ofZ n_sgl 1))
    (o_sub n_sgl (o_ofZ n_sgl (Z.of_nat m)) (o_ofZ n_sgl 1)).

Definition half (N : num) : N := o_div n_sgl (o_ofZ n_sgl 1) (o_ofZ n_sgl 2).

Definition merge_index (N : num) (part m s : nat) : nat :=
  Z.to_nat (n_trunc (o_mad n_sgl (merge_k N part m) (o_ofZ n_sgl (Z.of_nat s)) (half N))).

(** A C-contiguous two-dimensional numpy array. *)
Record arr2 (A : Type) := Arr2 { a_rows : nat; a_cols : nat; a_data : list A }.
Arguments Arr2 {A}. Arguments a_rows {A}. Arguments a_cols {A}. Arguments a_data {A}.

Definition arr2_wf {A} (X : arr2 A) : Prop := length (a_data X) = a_rows X * a_cols X.

(** [X[i][j]] ([d] is never used for indices in range) *)
Definition at2 {A} (d : A) (X : arr2 A) (i j : nat) : A := nth (i * a_cols X + j) (a_data X) d.

(** python_bindings.cpp:84-96  libcpp.ffa2 (libffa.py:71-91 ffa2).  [junk_t] and
    [junk_o] are the uninitialised contents of the two allocations of
    [rows * cols] elements. *)
Definition ffa2 {A} (plus : A -> A -> A) (idx : nat -> nat -> nat -> nat)
    (junk_t junk_o : list A) (X : arr2 A) : res (arr2 A) :=
  '(_, out) <- transform_ptr plus idx (a_data X) 0 (a_rows X) (a_cols X) junk_t junk_o ;;
  Ok (Arr2 (a_rows X) (a_cols X) out).
