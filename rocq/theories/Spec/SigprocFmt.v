(** The layout of a SIGPROC header, written as an encoder, and UTF-8. *)
From Coq Require Import String Ascii List Arith ZArith Bool.
From Verif Require Import Model.Sigproc.
Import ListNotations.
Local Open Scope Z_scope.

Definition byte_of (z : Z) : ascii := ascii_of_N (Z.to_N z).

(** the [n] low bytes of [z], least significant first (two's complement if negative) *)
Fixpoint le_bytes (n : nat) (z : Z) : list ascii :=
  match n with O => [] | S k => byte_of (z mod 256) :: le_bytes k (z / 256) end.

(** UTF-8 form of a code point *)
Definition scalar (c : Z) : Prop := 0 <= c < 55296 \/ 57344 <= c < 1114112.
Definition utf8 (c : Z) : list ascii :=
  map byte_of
    (if c <? 128 then [c]
     else if c <? 2048 then [192 + c / 64; 128 + c mod 64]
     else if c <? 65536 then [224 + c / 4096; 128 + c / 64 mod 64; 128 + c mod 64]
     else [240 + c / 262144; 128 + c / 4096 mod 64; 128 + c / 64 mod 64; 128 + c mod 64]).
Definition is_text (l : list ascii) : Prop := exists cs, Forall scalar cs /\ l = flat_map utf8 cs.

Definition enc_str (s : string) : list ascii :=
  (le_bytes 4 (Z.of_nat (String.length s)) ++ list_ascii_of_string s)%list.
Definition enc_val (v : aval) : list ascii :=
  match v with
  | AStr s => enc_str s
  | AInt z => le_bytes 4 z
  | AFloat b => le_bytes 8 b
  | ABool b => [byte_of (if b then 1 else 0)]
  end.
Definition enc_item (kv : string * aval) : list ascii := (enc_str (fst kv) ++ enc_val (snd kv))%list.
Definition enc_header (items : list (string * aval)) : list ascii :=
  (enc_str "HEADER_START" ++ flat_map enc_item items ++ enc_str "HEADER_END")%list.

(** strings and values that can be written *)
Definition text (s : string) : Prop :=
  is_text (list_ascii_of_string s) /\ Z.of_nat (String.length s) < 2 ^ 31.
Definition has_type (t : atype) (v : aval) : Prop :=
  match t, v with
  | TStr, AStr s => text s
  | TInt, AInt z => - 2 ^ 31 <= z < 2 ^ 31
  | TFloat, AFloat b => 0 <= b < 2 ^ 64
  | TBool, ABool _ => True
  | _, _ => False
  end.
Definition item_ok (keydb : string -> option atype) (kv : string * aval) : Prop :=
  text (fst kv) /\ fst kv <> "HEADER_END"%string /\
  exists t, keydb (fst kv) = Some t /\ has_type t (snd kv).

(** [attrs] holds the last value written for each key, keys in the order they first appear *)
Definition last_value (k : string) (items : list (string * aval)) : option aval :=
  lookup k (rev items).
Definition first_keys (l : list string) : list string :=
  fold_left (fun acc k => if in_dec string_dec k acc then acc else acc ++ [k])%list l [].
Definition summarises (items attrs : list (string * aval)) : Prop :=
  (forall k, lookup k attrs = last_value k items) /\ map fst attrs = first_keys (map fst items).

(** Every file the reader accepts: like [enc_header], but a true boolean may be any non-zero byte,
    and a header that ends exactly at the end of the file may give HEADER_END a negative or
    excessive size. *)
Definition val_bytes (v : aval) (l : list ascii) : Prop :=
  match v with
  | ABool b => exists a, l = [a] /\ (b = true <-> byte a <> 0)
  | _ => l = enc_val v
  end.
Definition item_bytes (kv : string * aval) (l : list ascii) : Prop :=
  exists vb, val_bytes (snd kv) vb /\ l = (enc_str (fst kv) ++ vb)%list.
Definition end_bytes (l rest : list ascii) : Prop :=
  l = enc_str "HEADER_END" \/
  rest = [] /\ exists size, (- 2 ^ 31 <= size < 0 \/ 10 < size < 2 ^ 31) /\
    l = (le_bytes 4 size ++ list_ascii_of_string "HEADER_END")%list.
Definition is_header (keydb : string -> option atype) (items : list (string * aval)) (h rest : list ascii) : Prop :=
  Forall (item_ok keydb) items /\
  exists bodies last, Forall2 item_bytes items bodies /\ end_bytes last rest /\
    h = (enc_str "HEADER_START" ++ concat bodies ++ last)%list.
