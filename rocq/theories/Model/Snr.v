(** Model of riptide/cpp/snr.hpp, its bindings and libffa.boxcar_snr. *)
From Coq Require Import List Arith ZArith Bool.
From Verif Require Import Base.Result Base.Buf Base.Num Model.Kernels Model.Transforms Model.Libffa.
Import ListNotations.

(** subtraction of two size_t values *)
Definition size_sub (a b : nat) : Z := ((Z.of_nat a - Z.of_nat b) mod 2 ^ 64)%Z.

Section Snr.
Context (N : num).
Notation f32 z := (o_ofZ (@n_sgl N) z).

(** snr.hpp:14-18  check_stdnoise *)
Definition check_stdnoise (stdnoise : N) : res unit :=
  guard (n_ltb (o_ofZ n_sgl 0) stdnoise) ValueError.

(** snr.hpp:21-31  check_trial_widths *)
Definition check_trial_widths (widths : list nat) (bins : nat) : res unit :=
  guard (forallb (fun w => (0 <? w) && (w <? bins)) widths) ValueError.

(** snr.hpp:39  [*std::max_element(widths, widths + num_widths)]: with no widths this
    dereferences the end pointer *)
Definition max_width (widths : list nat) : res nat :=
  match widths with
  | [] => UB
  | w :: ws => Ok (fold_left Nat.max ws w)
  end.

(** snr.hpp:49  boxcar height *)
Definition boxcar_height (size w : nat) : N :=
  o_sqrt n_sgl (o_div n_sgl (f32 (size_sub size w)) (f32 (Z.of_nat (size * w)))).

(** snr.hpp:50  boxcar baseline (sign reversed) *)
Definition boxcar_base (size w : nat) (h : N) : N :=
  o_mul n_sgl (o_div n_sgl (f32 (Z.of_nat w)) (f32 (size_sub size w))) h.

(** snr.hpp:37-55  snr1 on [arr + ao], writing at [out + oo]; [alloc n] is the initial
    content of the stack array.  The difference of products [(h + b) * dmax - b * sum] may be
    contracted; it is written [(h + b) * dmax + (0 - b * sum)], which differs only by the sign of
    a zero. *)
Definition snr1 (alloc : nat -> list N) (arr : list N) (ao size : nat) (widths : list nat)
    (stdnoise : N) (out : list N) (oo : nat) : res (list N) :=
  wmax <- max_width widths ;;
  cpfsum <- circular_prefix_sum N arr ao size (size + wmax) (alloc (size + wmax)) ;;
  if size =? 0 then UB else
  sum <- rd cpfsum (size - 1) ;;
  for_ (length widths) 0 (fun iw out =>
    w <- rd widths iw ;;
    let h := boxcar_height size w in
    let b := boxcar_base size w h in
    dmax <- diff_max N cpfsum w 0 size ;;
    let snr := o_div n_sgl
      (o_mad n_sgl (o_add n_sgl h b) dmax (o_sub n_sgl (f32 0) (o_mul n_sgl b sum))) stdnoise in
    wr out (oo + iw) snr) out.

(** snr.hpp:58-65  snr2: one row after the other *)
Definition snr2 (alloc : nat -> list N) (block : list N) (bo rows cols : nat)
    (widths : list nat) (stdnoise : N) (out : list N) (oo : nat) : res (list N) :=
  for_ rows 0 (fun i out =>
    snr1 alloc block (bo + i * cols) cols widths stdnoise out (oo + i * length widths)) out.

(** python_bindings.cpp:121-138  libcpp.snr1 *)
Definition py_snr1 (alloc : nat -> list N) (x : list N) (widths : list nat) (stdnoise : N)
  : res (list N) :=
  _ <- check_stdnoise stdnoise ;;
  _ <- check_trial_widths widths (length x) ;;
  snr1 alloc x 0 (length x) widths stdnoise (alloc (length widths)) 0.

(** python_bindings.cpp:141-160  libcpp.snr2 *)
Definition py_snr2 (alloc : nat -> list N) (x : arr2 N) (widths : list nat) (stdnoise : N)
  : res (arr2 N) :=
  _ <- check_stdnoise stdnoise ;;
  _ <- check_trial_widths widths (a_cols x) ;;
  out <- snr2 alloc (a_data x) 0 (a_rows x) (a_cols x) widths stdnoise
           (alloc (a_rows x * length widths)) 0 ;;
  Ok (Arr2 (a_rows x) (length widths) out).

(** libffa.py:194-225  boxcar_snr.  [data.shape[-1]] of a 0-dimensional array raises
    IndexError; [reshape(-1, 0)] raises ValueError.  The conversions of [data] to float32
    and of [widths] to uint64 are taken to be exact (non-negative integer widths). *)
Definition boxcar_snr (alloc : nat -> list N) (data : ndarray N) (widths : list nat)
    (stdnoise : N) : res (ndarray N) :=
  match rev (nd_shape data) with
  | [] => Err IndexError
  | b :: lead =>
    if b =? 0 then Err ValueError else
    let m := nd_size data / b in
    snr <- py_snr2 alloc (Arr2 m b (nd_data data)) widths stdnoise ;;
    Ok (Nd (rev lead ++ [length widths]) (a_data snr))
  end.
End Snr.
