(** Numbers as used by the code.

    The C++ and Python sources mix IEEE binary64 ([double], Python floats) and
    binary32 ([float], numpy.float32) arithmetic.  A model that uses numbers is
    written once against the record [num]; the theorems choose an instance:

    - [numR]  : exact real arithmetic,
    - [numF]  : reals with every operation rounded to nearest-even in binary64 /
                binary32 (Flocq [round], gradual underflow, no overflow),
    - [numI]  : IEEE arithmetic proper (Coq's executable [SpecFloat]); [numSF] is its
                unfused version, used for witnesses. *)

From Coq Require Import ZArith Reals Bool List SpecFloat.
From Flocq Require Import Core.
Import ListNotations.
Local Open Scope Z_scope.

(** A term of a sum: a value or a product. *)
Inductive term (T : Type) := Val (x : T) | Prod (w x : T).
Arguments Val {T}. Arguments Prod {T}.

(** Arithmetic of one format.  [o_mad a b c] is the value of the source expression
    [a * b + c]: compilers may contract it to one fused operation.  [o_sum k l] is the value of
    a loop that adds the terms [l]: the compiler (-fassociative-math) and numpy may add them in
    any order; [k] distinguishes the loops, whose orders may differ. *)
Record ops (T : Type) := Ops {
  o_ofZ : Z -> T;
  o_add : T -> T -> T;
  o_sub : T -> T -> T;
  o_mul : T -> T -> T;
  o_div : T -> T -> T;
  o_sqrt : T -> T;
  o_mad : T -> T -> T -> T;
  o_sum : nat -> list (term T) -> T
}.
Arguments o_ofZ {T}. Arguments o_add {T}. Arguments o_sub {T}. Arguments o_mul {T}.
Arguments o_div {T}. Arguments o_sqrt {T}. Arguments o_mad {T}. Arguments o_sum {T}.

(** Single and double precision values share one carrier, so widening a [float] to
    [double] is the identity; [n_narrow] rounds a [double] to [float]. *)
Record num := Num {
  n_T :> Type;
  n_dbl : ops n_T;
  n_sgl : ops n_T;
  n_narrow : n_T -> n_T;
  n_ltb : n_T -> n_T -> bool;
  n_leb : n_T -> n_T -> bool;
  n_eqb : n_T -> n_T -> bool;
  n_floor : n_T -> Z;   (** floor() then conversion to an integer *)
  n_ceil : n_T -> Z;    (** ceil() then conversion to an integer *)
  n_trunc : n_T -> Z    (** conversion to an integer: toward zero *)
}.
Arguments n_dbl {_}. Arguments n_sgl {_}. Arguments n_narrow {_}. Arguments n_ltb {_}.
Arguments n_leb {_}. Arguments n_eqb {_}. Arguments n_floor {_}. Arguments n_ceil {_}.
Arguments n_trunc {_}.

(** The value of a sum computed in some order: as long as there are two terms, two of them are
    replaced by their sum.  [pick k n] says which two out of [n + 1], by position, and whether the
    second one, if it is a product, is added in one fused operation. *)
Record build := Build {
  b_fma : bool;                                       (** are fused operations used *)
  b_pick : nat -> nat -> nat -> nat * nat * bool      (** loop, number of terms, terms left *)
}.

(** remove the term at position [i], or the last one *)
Fixpoint take {A} (i : nat) (a : A) (l : list A) : A * list A :=
  match i, l with
  | S i, b :: l => let '(c, r) := take i b l in (c, a :: r)
  | _, _ => (a, l)
  end.

Section Sum.
Context {T : Type} (zero : T) (add mul : T -> T -> T) (fma : T -> T -> T -> T).

Definition term_val (t : term T) : T := match t with Val x => x | Prod w x => mul w x end.

Definition add_terms (fuse : bool) (a b : term T) : T :=
  match b with
  | Prod w x => if fuse then fma w x (term_val a) else add (term_val a) (mul w x)
  | Val y => add (term_val a) y
  end.

Fixpoint sum_terms (pick : nat -> nat * nat * bool) (n : nat) (a : term T) (l : list (term T)) : T :=
  match n with
  | O => term_val a
  | S n' =>
    let '(i, j, fuse) := pick n' in
    let '(x, r) := take i a l in
    match r with
    | [] => term_val x
    | b :: r => let '(y, r) := take j b r in sum_terms pick n' (Val (add_terms fuse x y)) r
    end
  end.

Definition sum_in_order (b : build) (k : nat) (l : list (term T)) : T :=
  match l with
  | [] => zero
  | a :: r =>
    sum_terms (fun n => let '(i, j, fuse) := b_pick b k (length l) n in (i, j, fuse && b_fma b)) (length r) a r
  end.
End Sum.

(** from left to right, not fused *)
Definition left_to_right : build := Build false (fun _ _ _ => (0, 0, false)%nat).

(** Exact reals. *)
Definition opsR : ops R :=
  Ops R IZR Rplus Rminus Rmult Rdiv R_sqrt.sqrt (fun a b c => (a * b + c)%R)
    (fun _ l => fold_right (fun t s => (term_val Rmult t + s)%R) 0%R l).

Definition numR : num :=
  Num R opsR opsR (fun x => x) Rlt_bool Rle_bool Req_bool Zfloor Zceil Ztrunc.

(** Rounded reals.  The build selects the contraction of [a * b + c] and the order of sums. *)
Definition rnd64 : R -> R := round radix2 (FLT_exp (-1074) 53) ZnearestE.
Definition rnd32 : R -> R := round radix2 (FLT_exp (-149) 24) ZnearestE.

Definition opsF (rnd : R -> R) (bld : build) : ops R :=
  Ops R (fun z => rnd (IZR z)) (fun a b => rnd (a + b)%R) (fun a b => rnd (a - b)%R)
      (fun a b => rnd (a * b)%R) (fun a b => rnd (a / b)%R) (fun a => rnd (R_sqrt.sqrt a))
      (fun a b c => if b_fma bld then rnd (a * b + c)%R else rnd (rnd (a * b) + c)%R)
      (sum_in_order (rnd 0%R) (fun a b => rnd (a + b)%R) (fun a b => rnd (a * b)%R) (fun a b c => rnd (a * b + c)%R) bld).

Definition numF (bld : build) : num :=
  Num R (opsF rnd64 bld) (opsF rnd32 bld) rnd32 Rlt_bool Rle_bool Req_bool
      Zfloor Zceil Ztrunc.

(** Executable IEEE arithmetic, with overflow, infinities and NaN: the operations are those of
    Coq's [SpecFloat].  The carrier holds binary64 data; a [float] is held as the [double] of the
    same value, so the operands of a single precision operation are converted down and its result
    up ([sf_round]; exact for [float] values). *)
Definition sf_ofZ (prec emax : Z) (z : Z) : spec_float := binary_normalize prec emax z 0 false.

(** conversion to the format *)
Definition sf_round (prec emax : Z) (x : spec_float) : spec_float :=
  match x with
  | S754_finite s m e => binary_normalize prec emax (cond_Zopp s (Zpos m)) e s
  | _ => x
  end.

(** fused [a * b + c]: one rounding of the exact value *)
Definition sf_fma (prec emax : Z) (a b c : spec_float) : spec_float :=
  match a, b, c with
  | S754_finite sa ma ea, S754_finite sb mb eb, S754_finite sc mc ec =>
      let e := Z.min (ea + eb) ec in
      binary_normalize prec emax
        (cond_Zopp sa (Zpos ma) * cond_Zopp sb (Zpos mb) * 2 ^ (ea + eb - e)
         + cond_Zopp sc (Zpos mc) * 2 ^ (ec - e)) e false
  | S754_finite _ _ _, S754_finite _ _ _, S754_infinity _ => c
  | _, _, _ => SFadd prec emax (SFmul prec emax a b) c
  end.

Definition opsI (prec emax : Z) (bld : build) : ops spec_float :=
  let dn := sf_round prec emax in
  let up := sf_round 53 1024 in
  Ops spec_float (fun z => up (sf_ofZ prec emax z))
      (fun a b => up (SFadd prec emax (dn a) (dn b)))
      (fun a b => up (SFsub prec emax (dn a) (dn b)))
      (fun a b => up (SFmul prec emax (dn a) (dn b)))
      (fun a b => up (SFdiv prec emax (dn a) (dn b)))
      (fun a => up (SFsqrt prec emax (dn a)))
      (fun a b c => up (if b_fma bld then sf_fma prec emax (dn a) (dn b) (dn c)
                        else SFadd prec emax (SFmul prec emax (dn a) (dn b)) (dn c)))
      (sum_in_order (S754_zero false) (fun a b => up (SFadd prec emax (dn a) (dn b)))
        (fun a b => up (SFmul prec emax (dn a) (dn b))) (fun a b c => up (sf_fma prec emax (dn a) (dn b) (dn c))) bld).

(** value of a finite float as an integer, rounded down; 0 for non-finite values *)
Definition sf_floor (x : spec_float) : Z :=
  match x with
  | S754_finite s m e =>
      let v := cond_Zopp s (Zpos m) in
      if 0 <=? e then v * 2 ^ e else v / 2 ^ (- e)
  | _ => 0
  end.

Definition sf_ceil (x : spec_float) : Z := - sf_floor (SFopp x).
Definition sf_trunc (x : spec_float) : Z :=
  match x with
  | S754_finite true _ _ => sf_ceil x
  | _ => sf_floor x
  end.

Definition numI (bld : build) : num :=
  Num spec_float (opsI 53 1024 bld) (opsI 24 128 bld)
      (fun x => sf_round 53 1024 (sf_round 24 128 x)) SFltb SFleb SFeqb
      sf_floor sf_ceil sf_trunc.

(** multiply-add not fused, sums from left to right *)
Definition numSF : num := numI left_to_right.

(** unfold the exact-real instance *)
Ltac rsimp := cbn [n_T n_dbl n_sgl n_narrow n_ltb n_leb n_eqb n_floor n_ceil n_trunc
  numR opsR o_ofZ o_add o_sub o_mul o_div o_sqrt o_mad o_sum].
Ltac rsimp_all := cbn [n_T n_dbl n_sgl n_narrow n_ltb n_leb n_eqb n_floor n_ceil n_trunc
  numR opsR o_ofZ o_add o_sub o_mul o_div o_sqrt o_mad o_sum] in *.

(** identify the carrier of [numR] with [R] *)
Ltac numR_ty := change (n_T numR) with R in *.
