(** Model of riptide/clustering.py, and of the sorting functions of Python and numpy. *)
From Coq Require Import List Arith ZArith Bool.
From Verif Require Import Base.Result Base.Num.
Import ListNotations.

(** sorted(l, key, reverse=True): a stable sort, larger elements first; [lt a b] compares the
    keys of [a] and [b].  (Insertion sort: any stable sort gives this list.) *)
Section Sorting.
Context {A : Type} (lt : A -> A -> bool).
Fixpoint insert_desc (a : A) (l : list A) : list A :=
  match l with
  | [] => [a]
  | b :: l' => if lt a b then b :: insert_desc a l' else a :: l
  end.
Definition sorted_desc (l : list A) : list A := fold_right insert_desc [] l.

(** sorted(l, key) and numpy.sort: smaller elements first *)
Fixpoint insert_asc (a : A) (l : list A) : list A :=
  match l with
  | [] => [a]
  | b :: l' => if lt b a then b :: insert_asc a l' else a :: l
  end.
Definition sorted_asc (l : list A) : list A := fold_right insert_asc [] l.

(** max(l, key) and numpy.argmax: the first of the largest elements *)
Definition first_max (a : A) (l : list A) : A :=
  fold_left (fun best b => if lt best b then b else best) l a.
End Sorting.

Section Cluster.
Context (N : num).
Notation lit z := (o_ofZ (@n_dbl N) z).

Definition nabs (x : N) : N := if n_ltb x (lit 0) then o_sub n_dbl (lit 0) x else x.

(** the slices [l\[s:e\]] between consecutive bounds *)
Fixpoint slices {A} (l : list A) (bounds : list nat) : list (list A) :=
  match bounds with
  | s :: ((e :: _) as rest) => firstn (e - s) (skipn s l) :: slices l rest
  | _ => []
  end.

(** clustering.py:4-51  cluster1d.  [argsort] is numpy's unstable argsort. *)
Definition cluster1d (argsort : list N -> list nat) (x : list N) (r : N) (already_sorted : bool)
  : list (list nat) :=
  let n := length x in
  if n =? 0 then [] else
  let indices := if already_sorted then seq 0 n else argsort x in
  let xs := map (fun i => nth i x (lit 0)) indices in
  let diff := map (fun k => o_sub n_dbl (nth (S k) xs (lit 0)) (nth k xs (lit 0))) (seq 0 (n - 1)) in
  let ibreaks := filter (fun k => n_ltb r (nabs (nth k diff (lit 0)))) (seq 0 (n - 1)) in
  if length ibreaks =? 0 then [indices] else
  slices indices (0 :: map S ibreaks ++ [n]).
End Cluster.
