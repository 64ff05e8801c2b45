(** The layout of a PRESTO .inf file (ASCII). *)
From Coq Require Import String Ascii List Arith ZArith Bool.
From Verif Require Import Base.Result Base.Num Model.Presto.
Import ListNotations.
Local Open Scope Z_scope.

Definition LF : ascii := "010"%char.
(** white space; characters that end a line *)
Definition space (a : ascii) : Prop := In (nat_of_ascii a) [9; 10; 11; 12; 13; 28; 29; 30; 31; 32]%nat.
Definition line_end (a : ascii) : Prop := In (nat_of_ascii a) [10; 11; 12; 13; 28; 29; 30]%nat.

(** One line: a label of 40 characters, an equal sign, and a value with spaces around it. *)
Record item := Item { i_label : text; i_left : text; i_val : text; i_right : text }.
Definition line (i : item) : text := (i_label i ++ ["="%char] ++ i_left i ++ i_val i ++ i_right i)%list.
Definition trimmed (l : text) : Prop :=
  forall a r, (l = a :: r -> ~ space a) /\ (l = r ++ [a] -> ~ space a)%list.
Definition item_ok (i : item) : Prop :=
  List.length (i_label i) = 40%nat /\ Forall (fun a => ~ line_end a) (line i) /\
  Forall space (i_left i) /\ Forall space (i_right i) /\ trimmed (i_val i).

(** decimal integers, without or with spaces around *)
Definition digit_char (d : Z) (a : ascii) : Prop := 0 <= d <= 9 /\ Z.of_nat (nat_of_ascii a) = 48 + d.
Definition decimal (ds : list Z) : Z := fold_left (fun acc d => 10 * acc + d) ds 0.
Definition int_text (z : Z) (l : text) : Prop :=
  exists ds cs, ds <> [] /\ Forall2 digit_char ds cs /\
    (l = cs /\ z = decimal ds \/ l = "+"%char :: cs /\ z = decimal ds \/ l = "-"%char :: cs /\ z = - decimal ds).
Definition padded_int (z : Z) (l : text) : Prop :=
  exists a v b, l = (a ++ v ++ b)%list /\ Forall space a /\ Forall space b /\ int_text z v.

Section Values.
Context (N : num) (py_float : text -> res N).
Definition denotes (v : ival N) (i : item) : Prop :=
  item_ok i /\
  match v with
  | IStr s => i_val i = chars s
  | IInt z => int_text z (i_val i)
  | IFloat x => py_float (i_val i) = Ok x
  | IBool b => exists z, int_text z (i_val i) /\ (b = true <-> z <> 0)
  | IPairs _ => False
  end.
End Values.
Definition denotes_pair (xy : Z * Z) (i : item) : Prop :=
  item_ok i /\ exists a b, i_val i = (a ++ [","%char] ++ b)%list /\ padded_int (fst xy) a /\ padded_int (snd xy) b.

(** the items, one per line, each line ended by LF or CR LF, then anything (the notes) *)
Definition laid_out (items : list item) (t : text) : Prop :=
  exists crs notes, List.length crs = List.length items /\
    t = (flat_map (fun ci => line (snd ci) ++ (if fst ci : bool then ["013"%char; LF] else [LF])) (combine crs items) ++ notes)%list.
