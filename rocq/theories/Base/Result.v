(** Outcomes of running code.

    [Ok]   : normal return
    [Err]  : a C++/Python exception was raised
    [UB]   : C++ undefined behaviour was reached (out-of-bounds access,
             modulo by zero, overlapping [__restrict__] ranges, ...)
    [Loop] : the recursion did not end within the fuel given; used only for
             recursions the code itself does not bound. *)

From Coq Require Import List.
Import ListNotations.

Inductive exn : Set :=
| ValueError | TypeError | KeyError | IndexError | ZeroDivisionError
| AssertionError | RuntimeError | StructError | UnicodeError | AttributeError
| SchemaError | InvalidSearchRange | InvalidPipelineConfig | OSError.

Inductive res (A : Type) : Type :=
| Ok (a : A)
| Err (e : exn)
| UB
| Loop.
Arguments Ok {A} a.
Arguments Err {A} e.
Arguments UB {A}.
Arguments Loop {A}.

Definition bind {A B} (m : res A) (k : A -> res B) : res B :=
  match m with
  | Ok a => k a
  | Err e => Err e
  | UB => UB
  | Loop => Loop
  end.

Declare Scope res_scope.
Delimit Scope res_scope with res.
Notation "x <- m ;; k" := (bind m (fun x => k))
  (at level 61, m at next level, right associativity) : res_scope.
Notation "' p <- m ;; k" := (bind m (fun p => k))
  (at level 61, p pattern, m at next level, right associativity) : res_scope.
Open Scope res_scope.

Definition guard (b : bool) (e : exn) : res unit := if b then Ok tt else Err e.

Definition is_ok {A} (m : res A) : Prop := exists a, m = Ok a.

(** C-style counted loop: [for (i = lo; i < lo + n; ++i) s = body i s]. *)
Fixpoint for_ {S} (n lo : nat) (body : nat -> S -> res S) (s : S) : res S :=
  match n with
  | O => Ok s
  | Datatypes.S n' => s' <- body lo s ;; for_ n' (Datatypes.S lo) body s'
  end.

(** [for x in l] with mutable state. *)
Fixpoint foreach {X S} (l : list X) (body : X -> S -> res S) (s : S) : res S :=
  match l with
  | [] => Ok s
  | x :: l' => s' <- body x s ;; foreach l' body s'
  end.

(** List comprehension whose element expression may raise. *)
Fixpoint mapM {A B} (f : A -> res B) (l : list A) : res (list B) :=
  match l with
  | [] => Ok []
  | x :: l' => y <- f x ;; ys <- mapM f l' ;; Ok (y :: ys)
  end.
