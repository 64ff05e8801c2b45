(** Model of riptide/libffa.py (ffa1, ffafreq, ffaprd) and riptide/ffautils.py. *)
From Coq Require Import List Arith ZArith Bool.
From Verif Require Import Base.Result Base.Buf Base.Num Model.Kernels Model.Transforms.
Import ListNotations.

(** A Python argument where the code asks [isinstance(v, int)]. *)
Inductive pyarg := PyInt (z : Z) | PyNotInt.

(** A C-contiguous numpy array of any rank. *)
Record ndarray (A : Type) := Nd { nd_shape : list nat; nd_data : list A }.
Arguments Nd {A}. Arguments nd_shape {A}. Arguments nd_data {A}.

Definition nd_size {A} (a : ndarray A) : nat := fold_right Nat.mul 1 (nd_shape a).
Definition nd_wf {A} (a : ndarray A) : Prop := length (nd_data a) = nd_size a.

(** libffa.py:94-126  ffa1.  The uninitialised allocations of the C++ side are given
    by [alloc]. *)
Definition ffa1 {A} (plus : A -> A -> A) (idx : nat -> nat -> nat -> nat)
    (alloc : nat -> list A) (data : ndarray A) (p : pyarg) : res (arr2 A) :=
  if negb (length (nd_shape data) =? 1) then Err ValueError else
  match p with
  | PyNotInt => Err ValueError
  | PyInt p =>
    if negb (0 <? p)%Z then Err ValueError else
    if (Z.of_nat (nd_size data) <? p)%Z then Err ValueError else
    let p := Z.to_nat p in
    let m := nd_size data / p in
    ffa2 plus idx (alloc (m * p)) (alloc (m * p)) (Arr2 m p (firstn (m * p) (nd_data data)))
  end.

Section Freq.
Context (N : num).
Notation lit z := (o_ofZ (@n_dbl N) z).

(** libffa.py:129-169  ffafreq *)
Definition ffafreq (nsamp p : pyarg) (dt : N) : res (list N) :=
  match nsamp with
  | PyNotInt => Err ValueError
  | PyInt n =>
    if negb (0 <? n)%Z then Err ValueError else
    match p with
    | PyNotInt => Err ValueError
    | PyInt p =>
      if negb (1 <? p)%Z then Err ValueError else
      if negb (p <=? n)%Z then Err ValueError else
      if negb (n_ltb (lit 0) dt) then Err ValueError else
      let f0 := o_div n_dbl (lit 1) (lit p) in
      let m := Z.to_nat (n / p) in
      let f :=
        if m =? 1 then [f0]
        else map (fun s =>
               o_sub n_dbl f0
                 (o_mul n_dbl
                    (o_div n_dbl (lit (Z.of_nat s)) (o_sub n_dbl (lit (Z.of_nat m)) (lit 1)))
                    (o_mul n_dbl f0 f0))) (seq 0 m) in
      Ok (map (fun x => o_div n_dbl x dt) f)
    end
  end.

(** libffa.py:172-191  ffaprd *)
Definition ffaprd (nsamp p : pyarg) (dt : N) : res (list N) :=
  f <- ffafreq nsamp p dt ;; Ok (map (fun x => o_div n_dbl (lit 1) x) f).

(** ffautils.py:9  the next trial width, [int(max(w + 1, wtsp * w))] *)
Definition next_width (wtsp : N) (w : Z) : Z :=
  let y := o_mul n_dbl wtsp (lit w) in
  if n_ltb (lit (w + 1)) y then n_trunc y else (w + 1)%Z.

(** ffautils.py:7-9  the while loop; the source has no bound, hence the fuel *)
Fixpoint width_loop (fuel : nat) (wtsp : N) (wmax w : Z) : res (list Z) :=
  match fuel with
  | O => Loop
  | S fuel' =>
    if (w <=? wmax)%Z then
      ws <- width_loop fuel' wtsp wmax (next_width wtsp w) ;; Ok (w :: ws)
    else Ok []
  end.

(** ffautils.py:6  [int(max(1, ducy_max * nbins))] *)
Definition width_limit (nbins : Z) (ducy_max : N) : Z :=
  let y := o_mul n_dbl ducy_max (lit nbins) in
  if n_ltb (lit 1) y then n_trunc y else 1%Z.

(** ffautils.py:3-10  generate_width_trials *)
Definition generate_width_trials (nbins : Z) (ducy_max wtsp : N) : res (list Z) :=
  let wmax := width_limit nbins ducy_max in
  width_loop (S (Z.to_nat wmax)) wtsp wmax 1%Z.
End Freq.
