(** Model of the binding benchmark_ffa2 (python_bindings.cpp:99-118). *)
From Coq Require Import List Arith ZArith Bool.
From Verif Require Import Base.Result Base.Buf Base.Num Model.Transforms.
Import ListNotations.

Section Benchmark.
Context (N : num).
(** the contents of newly allocated memory *)
Context (junk : nat -> list N).

(** python_bindings.cpp:99-118.  [elapsed] is the time read from the clock.  The input, the temporary
    buffer and the output are consecutive parts of one buffer of [3 * size] elements; they are three
    arrays here, so that an access outside its own part is UB.  [rows * cols] is computed modulo 2^64,
    and the parts have that many elements; when the triple of this exceeds 2^64 what is allocated is not
    modelled, UB.  The division by the number of loops is a division of doubles. *)
Definition benchmark_ffa2 (elapsed : N) (rows cols loops : nat) : res N :=
  let size := u64 (Z.of_nat rows * Z.of_nat cols) in
  if (2 ^ 64 <=? 3 * size)%Z then UB else
  let size := Z.to_nat size in
  let input := repeat (o_ofZ n_sgl 0) size in
  _ <- for_ loops 0 (fun _ st =>
         let '(temp, out) := st in
         transform_ptr (o_add n_sgl) (merge_index N) input 0 rows cols temp out)
       (junk size, junk size) ;;
  Ok (o_div n_dbl elapsed (o_ofZ n_dbl (Z.of_nat loops))).
End Benchmark.
