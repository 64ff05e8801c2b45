(** What a value becomes when it is saved to JSON and loaded again. *)
From Coq Require Import String Ascii List Arith ZArith Bool.
From Verif Require Import Base.Result Base.Num Model.Sigproc Model.Json.
Import ListNotations.
Local Open Scope Z_scope.

(** The base64 code of RFC 4648: the value of each character, by its range. *)
Definition code (a : ascii) : option Z :=
  let n := Z.of_N (N_of_ascii a) in
  if (65 <=? n) && (n <=? 90) then Some (n - 65)           (* A..Z *)
  else if (97 <=? n) && (n <=? 122) then Some (n - 71)     (* a..z *)
  else if (48 <=? n) && (n <=? 57) then Some (n + 4)       (* 0..9 *)
  else if n =? 43 then Some 62                             (* + *)
  else if n =? 47 then Some 63                             (* / *)
  else None.
Definition octet (a : ascii) : Z := Z.of_N (N_of_ascii a).
(** text [t] encodes bytes [l]: groups of three bytes become four characters carrying the same 24
    bits; one or two bytes left over are padded with zero bits and '=' *)
Inductive encodes : list ascii -> list ascii -> Prop :=
| Enc0 : encodes [] []
| Enc1 a c1 c2 v1 v2 : code c1 = Some v1 -> code c2 = Some v2 ->
  v1 * 64 + v2 = octet a * 16 -> encodes [a] [c1; c2; "="; "="]%char
| Enc2 a b c1 c2 c3 v1 v2 v3 : code c1 = Some v1 -> code c2 = Some v2 -> code c3 = Some v3 ->
  v1 * 4096 + v2 * 64 + v3 = (octet a * 256 + octet b) * 4 -> encodes [a; b] [c1; c2; c3; "="]%char
| Enc3 a b c l c1 c2 c3 c4 v1 v2 v3 v4 t :
  code c1 = Some v1 -> code c2 = Some v2 -> code c3 = Some v3 -> code c4 = Some v4 ->
  v1 * 262144 + v2 * 4096 + v3 * 64 + v4 = octet a * 65536 + octet b * 256 + octet c ->
  encodes l t -> encodes (a :: b :: c :: l) (c1 :: c2 :: c3 :: c4 :: t).

Section Loaded.
Context (N : num) (itemsize : string -> option nat) (version : string).
Notation pv := (pv N).

(** an array is the same but cannot be written to *)
Definition read_only (a : nd) : nd := Nd (nd_dtype a) (nd_shape a) (nd_data a) false.
(** the version of an object, or that of riptide if it has none *)
Definition stamped (v : option string) : option string :=
  match v with Some s => if String.eqb s "" then Some version else Some s | None => Some version end.

(** the metadata of a TimeSeries: missing reserved keys are added, and tobs is computed *)
Definition completed (tobs : N) (m : list (string * pv)) : list (string * pv) :=
  dset "tobs" (PFloat N tobs)
    (m ++ map (fun k => (k, PNone N))
       (filter (fun k => negb (existsb (String.eqb k) (map fst m)))
          ["source_name"; "skycoord"; "dm"; "mjd"; "tobs"; "fname"]))%list%string.

Fixpoint loaded (v : pv) : pv :=
  let items := map (fun kv : string * pv => (fst kv, loaded (snd kv))) in
  match v with
  | PNpInt _ z => PInt _ z
  | PNpFloat _ x => PFloat _ x
  | PList _ l | PTuple _ l => PList _ (map loaded l)
  | PDict _ l | PMeta _ l _ => PDict _ (items l)
  | PArr _ a => PArr _ (read_only a)
  | PFrame _ a columns _ => PFrame _ (read_only a) columns (map (fun _ => nd_dtype a) columns)
  | PSeries _ a t m v => PSeries _ (read_only a) t (completed (o_mul n_dbl (o_ofZ n_dbl (size (nd_shape a))) t) (items m)) (stamped v)
  | PPgram _ w p f s m v => PPgram _ (loaded w) (loaded p) (loaded f) (loaded s) (loaded m) (stamped v)
  | PCand _ p t k s v => PCand _ (loaded p) (loaded t) (loaded k) (loaded s) (stamped v)
  | _ => v
  end.

(** the values that can be saved and loaded *)
Definition nd_ok (a : nd) : Prop :=
  exists k, itemsize (nd_dtype a) = Some k /\ (0 < k)%nat /\
    Z.of_nat (List.length (nd_data a)) = Z.of_nat k * size (nd_shape a).
Definition keys_ok (l : list (string * pv)) : Prop := NoDup (map fst l) /\ ~ In "__type__"%string (map fst l).
Fixpoint savable (v : pv) : Prop :=
  let all := fix go (l : list pv) : Prop := match l with [] => True | x :: l' => savable x /\ go l' end in
  let items := fix go (l : list (string * pv)) : Prop := match l with [] => True | (_, x) :: l' => savable x /\ go l' end in
  match v with
  | PList _ l | PTuple _ l => all l
  | PDict _ l | PMeta _ l _ => keys_ok l /\ items l
  | PArr _ a => nd_ok a
  | PFrame _ a columns _ => nd_ok a /\ exists n, nd_shape a = [n; Z.of_nat (List.length columns)]
  | PSeries _ a _ m _ =>
    nd_ok a /\ nd_dtype a = "float32"%string /\ keys_ok m /\ items m /\ forallb (meta_item_valid N) m = true
  | PPgram _ w p f s m _ => savable w /\ savable p /\ savable f /\ savable s /\ savable m /\ m <> PNone N
  | PCand _ p t k s _ => savable p /\ savable t /\ savable k /\ savable s
  | POther _ _ => False
  | _ => True
  end.

(** the values that loading gives back exactly *)
Fixpoint plain (v : pv) : Prop :=
  let all := fix go (l : list pv) : Prop := match l with [] => True | x :: l' => plain x /\ go l' end in
  let items := fix go (l : list (string * pv)) : Prop := match l with [] => True | (_, x) :: l' => plain x /\ go l' end in
  let versioned := fun v : option string => exists s, v = Some s /\ s <> ""%string in
  match v with
  | PNpInt _ _ | PNpFloat _ _ | PTuple _ _ | PMeta _ _ _ => False
  | PList _ l => all l
  | PDict _ l => items l
  | PArr _ a => nd_write a = false
  | PFrame _ a columns dtypes => nd_write a = false /\ dtypes = map (fun _ => nd_dtype a) columns
  | PSeries _ a t m v =>
    nd_write a = false /\ items m /\ versioned v /\
    (forall k, In k ["source_name"; "skycoord"; "dm"; "mjd"; "tobs"; "fname"]%string -> In k (map fst m)) /\
    NoDup (map fst m) /\ In ("tobs"%string, PFloat N (o_mul n_dbl (o_ofZ n_dbl (size (nd_shape a))) t)) m
  | PPgram _ w p f s m v => plain w /\ plain p /\ plain f /\ plain s /\ plain m /\ versioned v
  | PCand _ p t k s v => plain p /\ plain t /\ plain k /\ plain s /\ versioned v
  | _ => True
  end.

(** every TimeSeries inside lasts a positive time *)
Fixpoint timed (v : pv) : Prop :=
  let all := fix go (l : list pv) : Prop := match l with [] => True | x :: l' => timed x /\ go l' end in
  let items := fix go (l : list (string * pv)) : Prop := match l with [] => True | (_, x) :: l' => timed x /\ go l' end in
  match v with
  | PList _ l | PTuple _ l => all l
  | PDict _ l | PMeta _ l _ => items l
  | PSeries _ a t m _ => n_ltb (o_ofZ n_dbl 0) (o_mul (@n_dbl N) (o_ofZ n_dbl (size (nd_shape a))) t) = true /\ items m
  | PPgram _ w p f s m _ => timed w /\ timed p /\ timed f /\ timed s /\ timed m
  | PCand _ p t k s _ => timed p /\ timed t /\ timed k /\ timed s
  | _ => True
  end.
End Loaded.
