(** Model of riptide/serialization.py, with the to_dict()/from_dict() methods of the classes it
    saves.

    Values, the JSON tree they are turned into and back.  The text between json.dumps() and
    json.loads() is not modelled: the json module is taken to give back the same tree (floats are
    written with enough digits). *)
From Coq Require Import String Ascii List Arith ZArith Bool.
From Verif Require Import Base.Result Base.Num Model.Sigproc.
Import ListNotations.
Local Open Scope Z_scope.

(** ** base64.b64encode, base64.b64decode *)
Definition b64_alphabet : list ascii :=
  list_ascii_of_string "ABCDEFGHIJKLMNOPQRSTUVWXYZabcdefghijklmnopqrstuvwxyz0123456789+/".
Definition b64_char (z : Z) : ascii := nth (Z.to_nat z) b64_alphabet "="%char.
Fixpoint b64encode (l : list ascii) : list ascii :=
  match l with
  | [] => []
  | [a] => [b64_char (byte a / 4); b64_char (byte a mod 4 * 16); "="; "="]%char
  | [a; b] => [b64_char (byte a / 4); b64_char (byte a mod 4 * 16 + byte b / 16); b64_char (byte b mod 16 * 4); "="]%char
  | a :: b :: c :: l' =>
    b64_char (byte a / 4) :: b64_char (byte a mod 4 * 16 + byte b / 16) ::
    b64_char (byte b mod 16 * 4 + byte c / 64) :: b64_char (byte c mod 64) :: b64encode l'
  end.

Fixpoint index_of (a : ascii) (l : list ascii) : option Z :=
  match l with
  | [] => None
  | b :: l' => if Ascii.eqb a b then Some 0 else match index_of a l' with Some z => Some (z + 1) | None => None end
  end.
Definition mk_byte (z : Z) : ascii := ascii_of_N (Z.to_N (z mod 256)).
(** binascii.a2b_base64: characters outside the alphabet are skipped; [quad] is the number of
    characters read in the current group, [pads] the padding seen, [left] the bits not yet used *)
Fixpoint a2b (quad pads left : Z) (l : list ascii) : res (list ascii) :=
  match l with
  | [] => if quad =? 0 then Ok [] else Err ValueError
  | a :: l' =>
    if Ascii.eqb a "=" then
      if 2 <=? quad then
        if 4 <=? quad + (pads + 1) then Ok [] else a2b quad (pads + 1) left l'
      else a2b quad pads left l'
    else
      match index_of a b64_alphabet with
      | None => a2b quad pads left l'
      | Some v =>
        if quad =? 0 then a2b 1 0 v l'
        else if quad =? 1 then r <- a2b 2 0 (v mod 16) l' ;; Ok (mk_byte (left * 4 + v / 16) :: r)
        else if quad =? 2 then r <- a2b 3 0 (v mod 4) l' ;; Ok (mk_byte (left * 16 + v / 4) :: r)
        else r <- a2b 0 0 0 l' ;; Ok (mk_byte (left * 64 + v) :: r)
      end
  end.
Definition b64decode : list ascii -> res (list ascii) := a2b 0 0 0.

Section Json.
Context (N : num).
Notation lit z := (o_ofZ (@n_dbl N) z).

(** size in bytes of the items of a dtype known by its name; None for the others (objects,
    records) *)
Context (itemsize : string -> option nat) (riptide_version : string).

(** A numpy array: name of its dtype, shape, its bytes in C order, and whether it can be written
    to. *)
Record nd := Nd { nd_dtype : string; nd_shape : list Z; nd_data : list ascii; nd_write : bool }.
Definition size (shape : list Z) : Z := fold_left Z.mul shape 1.

(** Python values.  [PNpInt], [PNpFloat]: numpy scalars that are not Python ints or floats.
    [PFrame]: a DataFrame, by its [.values] array, column names and column dtypes.  [PCoord]: a
    SkyCoord, by its ICRS coordinates in degrees.  [version] is the attribute [obj.version]. *)
Inductive pv :=
| PNone
| PBool (b : bool)
| PInt (z : Z)
| PFloat (x : N)
| PStr (s : string)
| PNpInt (z : Z)
| PNpFloat (x : N)
| PList (l : list pv)
| PTuple (l : list pv)
| PDict (l : list (string * pv))
| PMeta (l : list (string * pv)) (version : option string)
| PArr (a : nd)
| PFrame (values : nd) (columns dtypes : list string)
| PCoord (ra dec : N)
| PSeries (data : nd) (tsamp : N) (metadata : list (string * pv)) (version : option string)
| PPgram (widths periods foldbins snrs metadata : pv) (version : option string)
| PCand (params tsmeta peaks subints : pv) (version : option string)
| POther (id : nat).   (** an object without to_dict() *)

(** JSON trees *)
Inductive jv :=
| JNull | JBool (b : bool) | JInt (z : Z) | JNum (x : N) | JStr (s : string)
| JArr (l : list jv) | JObj (l : list (string * jv)).

(** serialization.py:34-42  an ndarray *)
Definition enc_nd (a : nd) : jv :=
  JObj [("__type__", JStr "numpy.ndarray"); ("data", JStr (string_of_list_ascii (b64encode (nd_data a))));
        ("dtype", JStr (nd_dtype a)); ("shape", JArr (map JInt (nd_shape a)))]%string.

(** serialization.py:66-76  the keys added to to_dict() *)
Definition version_of (v : option string) : string :=
  match v with Some s => if String.eqb s "" then riptide_version else s | None => riptide_version end.
Definition tagged (cls : string) (v : option string) (l : list (string * jv)) : jv :=
  JObj (l ++ [("__type__", JStr cls); ("__version__", JStr (version_of v))])%list%string.

(** json.dumps(obj, cls=JSONEncoder), serialization.py:24-79, 125-135 *)
Fixpoint encode (v : pv) : res jv :=
  let enc_all := fix go (l : list pv) : res (list jv) :=
    match l with [] => Ok [] | x :: l' => y <- encode x ;; r <- go l' ;; Ok (y :: r) end in
  let enc_items := fix go (l : list (string * pv)) : res (list (string * jv)) :=
    match l with [] => Ok [] | (k, x) :: l' => y <- encode x ;; r <- go l' ;; Ok ((k, y) :: r) end in
  match v with
  | PNone => Ok JNull
  | PBool b => Ok (JBool b)
  | PInt z | PNpInt z => Ok (JInt z)
  | PFloat x | PNpFloat x => Ok (JNum x)
  | PStr s => Ok (JStr s)
  | PList l | PTuple l => r <- enc_all l ;; Ok (JArr r)
  | PDict l | PMeta l _ => r <- enc_items l ;; Ok (JObj r)
  | PArr a => Ok (enc_nd a)
  | PFrame a columns _ =>
    Ok (JObj [("__type__", JStr "pandas.DataFrame"); ("values", enc_nd a); ("columns", JArr (map JStr columns))]%string)
  | PCoord ra dec =>
    Ok (JObj [("__type__", JStr "astropy.SkyCoord"); ("rajd", JNum ra); ("decjd", JNum dec); ("frame", JStr "icrs")]%string)
  | PSeries data tsamp md ver =>
    m <- enc_items md ;;
    Ok (tagged "TimeSeries" ver [("data", enc_nd data); ("tsamp", JNum tsamp); ("metadata", JObj m)]%string)
  | PPgram widths periods foldbins snrs md ver =>
    w <- encode widths ;; p <- encode periods ;; f <- encode foldbins ;; s <- encode snrs ;; m <- encode md ;;
    Ok (tagged "Periodogram" ver [("widths", w); ("periods", p); ("foldbins", f); ("snrs", s); ("metadata", m)]%string)
  | PCand params tsmeta peaks subints ver =>
    p <- encode params ;; t <- encode tsmeta ;; k <- encode peaks ;; s <- encode subints ;;
    Ok (tagged "Candidate" ver [("params", p); ("tsmeta", t); ("peaks", k); ("subints", s)]%string)
  | POther _ => Err TypeError
  end.

(** ** Metadata on these values *)
(** json.dumps(value) succeeds, without the special encoder *)
Fixpoint jsonable (v : pv) : bool :=
  match v with
  | PNone | PBool _ | PInt _ | PFloat _ | PStr _ => true
  | PList l | PTuple l => forallb jsonable l
  | PDict l | PMeta l _ => forallb (fun kv => jsonable (snd kv)) l
  | _ => false
  end.
(** metadata.py:11-21 *)
Definition meta_item_valid (kv : string * pv) : bool :=
  let '(k, v) := kv in
  if String.eqb k "source_name" || String.eqb k "fname" then
    match v with PStr _ | PNone => true | _ => false end
  else if String.eqb k "skycoord" then match v with PCoord _ _ | PNone => true | _ => false end
  else if String.eqb k "dm" || String.eqb k "mjd" then
    match v with PFloat x => n_leb (lit 0) x | PNone => true | _ => false end
  else if String.eqb k "tobs" then match v with PFloat x => n_ltb (lit 0) x | PNone => true | _ => false end
  else jsonable v.
(** metadata.py:45-51 *)
Definition set_default (k : string) (m : list (string * pv)) : list (string * pv) :=
  match lookup k m with Some _ => m | None => (m ++ [(k, PNone)])%list end.
Definition reserved_keys : list string := ["source_name"; "skycoord"; "dm"; "mjd"; "tobs"; "fname"]%string.
Definition meta_new (m : list (string * pv)) : res (list (string * pv)) :=
  _ <- guard (forallb meta_item_valid m) SchemaError ;;
  Ok (fold_left (fun m k => set_default k m) reserved_keys m).

(** ** decoding *)
Definition get (k : string) (l : list (string * pv)) : res pv :=
  match lookup k l with Some v => Ok v | None => Err KeyError end.
Definition as_ints (v : pv) : res (list Z) :=
  match v with
  | PList l => mapM (fun x => match x with PInt z => Ok z | _ => Err TypeError end) l
  | _ => Err TypeError
  end.
Definition as_strs (v : pv) : res (list string) :=
  match v with
  | PList l => mapM (fun x => match x with PStr s => Ok s | _ => Err TypeError end) l
  | _ => Err TypeError
  end.
(** serialization.py:88-91.  numpy.frombuffer on a bytes object gives a read-only array.  (A
    shape with -1 is not covered.) *)
Definition dec_nd (items : list (string * pv)) : res nd :=
  d <- get "data" items ;;
  s <- match d with PStr s => Ok s | _ => Err AttributeError end ;;
  data <- b64decode (list_ascii_of_string s) ;;
  t <- get "dtype" items ;;
  dtype <- match t with PStr s => Ok s | _ => Err TypeError end ;;
  k <- match itemsize dtype with Some k => Ok (Z.of_nat k) | None => Err TypeError end ;;
  _ <- guard ((0 <? k) && (Z.of_nat (List.length data) mod k =? 0)) ValueError ;;
  sh <- get "shape" items ;;
  shape <- as_ints sh ;;
  _ <- guard (size shape =? Z.of_nat (List.length data) / k) ValueError ;;
  Ok (Nd dtype shape data false).

(** time_series.py:39-50, 387-389 with float32 data: TimeSeries.from_dict *)
Definition series_from_dict (items : list (string * pv)) : res (nd * N * list (string * pv)) :=
  d <- get "data" items ;;
  a <- match d with PArr a => Ok a | _ => Err TypeError end ;;
  _ <- guard (String.eqb (nd_dtype a) "float32") TypeError ;;
  t <- get "tsamp" items ;;
  tsamp <- match t with PFloat x => Ok x | PInt z => Ok (lit z) | _ => Err TypeError end ;;
  md <- get "metadata" items ;;
  m <- match md with PDict m | PMeta m _ => meta_new m | PNone => meta_new [] | _ => Err SchemaError end ;;
  Ok (a, tsamp, dset "tobs" (PFloat (o_mul n_dbl (lit (size (nd_shape a))) tsamp)) m).

(** serialization.py:82-116  object_hook, given the decoded items *)
Definition object_hook (items : list (string * pv)) : res pv :=
  match lookup "__type__" items with
  | None => Ok (PDict items)
  | Some (PStr t) =>
    if String.eqb t "numpy.ndarray" then a <- dec_nd items ;; Ok (PArr a)
    else if String.eqb t "pandas.DataFrame" then
      v <- get "values" items ;;
      c <- get "columns" items ;;
      columns <- as_strs c ;;
      match v with
      | PArr a => _ <- guard (match nd_shape a with [_; n] => n =? Z.of_nat (List.length columns) | _ => false end) ValueError ;;
                  Ok (PFrame a columns (map (fun _ => nd_dtype a) columns))
      | _ => Err ValueError
      end
    else if String.eqb t "astropy.SkyCoord" then
      ra <- get "rajd" items ;; dec <- get "decjd" items ;; frame <- get "frame" items ;;
      match ra, dec, frame with
      | PFloat x, PFloat y, PStr f => if String.eqb f "icrs" then Ok (PCoord x y) else Err ValueError
      | _, _, _ => Err TypeError
      end
    else
      let version := match lookup "__version__" items with
                     | Some (PStr s) => Some s | Some _ => None | None => Some riptide_version end in
      if String.eqb t "TimeSeries" then
        '(a, tsamp, m) <- series_from_dict items ;; Ok (PSeries a tsamp m version)
      else if String.eqb t "Periodogram" then
        w <- get "widths" items ;; p <- get "periods" items ;; f <- get "foldbins" items ;; s <- get "snrs" items ;;
        m <- get "metadata" items ;;
        m <- match m with PNone => r <- meta_new [] ;; Ok (PMeta r None) | _ => Ok m end ;;
        Ok (PPgram w p f s m version)
      else if String.eqb t "Candidate" then
        p <- get "params" items ;; m <- get "tsmeta" items ;; k <- get "peaks" items ;; s <- get "subints" items ;;
        Ok (PCand p m k s version)
      else if String.eqb t "Metadata" then m <- meta_new items ;; Ok (PMeta m version)
      else Err AttributeError
  | Some _ => Err TypeError
  end.

(** json.loads(s, object_hook=object_hook): the innermost objects first; the last of equal keys
    wins *)
Fixpoint decode (j : jv) : res pv :=
  let dec_all := fix go (l : list jv) : res (list pv) :=
    match l with [] => Ok [] | x :: l' => y <- decode x ;; r <- go l' ;; Ok (y :: r) end in
  let dec_items := fix go (acc : list (string * pv)) (l : list (string * jv)) : res (list (string * pv)) :=
    match l with [] => Ok acc | (k, x) :: l' => y <- decode x ;; go (dset k y acc) l' end in
  match j with
  | JNull => Ok PNone
  | JBool b => Ok (PBool b)
  | JInt z => Ok (PInt z)
  | JNum x => Ok (PFloat x)
  | JStr s => Ok (PStr s)
  | JArr l => r <- dec_all l ;; Ok (PList r)
  | JObj l => r <- dec_items [] l ;; object_hook r
  end.

(** save_json then load_json *)
Definition reload (v : pv) : res pv := j <- encode v ;; decode j.
End Json.
