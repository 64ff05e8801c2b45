(** Model of riptide/metadata.py (the Metadata class). *)
From Coq Require Import String List Arith ZArith Bool.
From Verif Require Import Base.Result Base.Num.
Import ListNotations.
Local Open Scope string_scope.

Section Metadata.
Context (N : num).

(** Values of a metadata dictionary.  [MOther j] is any other value; [j] tells whether
    json.dumps() accepts it. *)
Inductive mval :=
| MNone
| MFloat (x : N)
| MInt (z : Z)
| MStr (s : string)
| MCoord (id : nat)       (** an astropy SkyCoord *)
| MOther (json : bool) (id : nat).

(** a dict with str keys, as an association list without duplicate keys *)
Definition metadata := list (string * mval).

Fixpoint md_get (k : string) (m : metadata) : option mval :=
  match m with
  | [] => None
  | (k', v) :: m' => if String.eqb k k' then Some v else md_get k m'
  end.

(** [m[k] = v] *)
Fixpoint md_set (k : string) (v : mval) (m : metadata) : metadata :=
  match m with
  | [] => [(k, v)]
  | (k', v') :: m' => if String.eqb k k' then (k', v) :: m' else (k', v') :: md_set k v m'
  end.

(** [m.setdefault(k, v)] *)
Definition md_default (k : string) (v : mval) (m : metadata) : metadata :=
  match md_get k m with Some _ => m | None => (m ++ [(k, v)])%list end.

(** metadata.py:11-21  SCHEMA_ITEMS.  The literal keys take precedence over [Optional(str)].
    json.dumps() fails on a SkyCoord. *)
Definition item_valid (kv : string * mval) : bool :=
  let '(k, v) := kv in
  if (k =? "source_name") || (k =? "fname") then
    match v with MStr _ | MNone => true | _ => false end
  else if k =? "skycoord" then
    match v with MCoord _ | MNone => true | _ => false end
  else if (k =? "dm") || (k =? "mjd") then
    match v with MFloat x => n_leb (o_ofZ n_dbl 0) x | MNone => true | _ => false end
  else if k =? "tobs" then
    match v with MFloat x => n_ltb (o_ofZ n_dbl 0) x | MNone => true | _ => false end
  else
    match v with MCoord _ => false | MOther j _ => j | _ => true end.

(** the reserved keys, in the order of SCHEMA_ITEMS *)
Definition reserved : list string := ["source_name"; "skycoord"; "dm"; "mjd"; "tobs"; "fname"].

(** metadata.py:45-51  Metadata.__init__.  The items are copied one level deep; values are
    immutable here. *)
Definition metadata_new (items : metadata) : res metadata :=
  _ <- guard (forallb item_valid items) SchemaError ;;
  Ok (fold_left (fun m k => md_default k MNone m) reserved items).
End Metadata.
Arguments MNone {N}. Arguments MFloat {N}. Arguments MInt {N}. Arguments MStr {N}.
Arguments MCoord {N}. Arguments MOther {N}. Arguments md_get {N}. Arguments md_set {N}.
Arguments md_default {N}. Arguments metadata_new {N}.
