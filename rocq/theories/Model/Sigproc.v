(** Model of riptide/reading/sigproc.py, and of Metadata.from_sigproc (riptide/metadata.py) and
    TimeSeries.from_sigproc (riptide/time_series.py).

    A file is its list of bytes; it does not change while it is read.  A Python str is
    represented by its UTF-8 bytes.  Integers and doubles are stored little-endian (struct's
    native order on the machines at hand). *)
From Coq Require Import String Ascii List Arith ZArith Bool.
From Verif Require Import Base.Result Base.Num Model.Metadata.
Import ListNotations.
Local Open Scope Z_scope.

Definition file := list ascii.
Definition byte (a : ascii) : Z := Z.of_N (N_of_ascii a).

(** the unsigned value of bytes, least significant first; the signed value of [bits] bits *)
Fixpoint le_uint (l : list ascii) : Z :=
  match l with [] => 0 | a :: l' => byte a + 256 * le_uint l' end.
Definition to_signed (bits z : Z) : Z := if z <? 2 ^ (bits - 1) then z else z - 2 ^ bits.

(** bytes.decode(): whether bytes are the UTF-8 form of some text (Unicode table 3-7) *)
Definition rng (lo hi x : Z) : bool := (lo <=? x) && (x <=? hi).
Fixpoint utf8_ok (l : list ascii) : bool :=
  match l with
  | [] => true
  | a :: l1 =>
    if byte a <? 128 then utf8_ok l1 else
    match l1 with
    | [] => false
    | b :: l2 =>
      if rng 194 223 (byte a) then rng 128 191 (byte b) && utf8_ok l2 else
      match l2 with
      | [] => false
      | c :: l3 =>
        if rng 224 239 (byte a) then
          rng (if byte a =? 224 then 160 else 128) (if byte a =? 237 then 159 else 191) (byte b)
          && rng 128 191 (byte c) && utf8_ok l3
        else
        match l3 with
        | [] => false
        | d :: l4 =>
          rng 240 244 (byte a)
          && rng (if byte a =? 240 then 144 else 128) (if byte a =? 244 then 143 else 191) (byte b)
          && rng 128 191 (byte c) && rng 128 191 (byte d) && utf8_ok l4
        end
      end
    end
  end.

(** the types a key can have; [TOther] is any other object *)
Inductive atype := TStr | TInt | TFloat | TBool | TOther.
(** values; a float is given by the 64 bits of its representation *)
Inductive aval := AStr (s : string) | AInt (z : Z) | AFloat (bits : Z) | ABool (b : bool).

(** sigproc.py:18-60 *)
Definition sigproc_keydb : list (string * atype) := [
  ("filename", TStr); ("telescope_id", TInt); ("telescope", TStr); ("machine_id", TInt);
  ("data_type", TInt); ("rawdatafile", TStr); ("source_name", TStr); ("barycentric", TInt);
  ("pulsarcentric", TInt); ("az_start", TFloat); ("za_start", TFloat); ("src_raj", TFloat);
  ("src_dej", TFloat); ("tstart", TFloat); ("tsamp", TFloat); ("nbits", TInt);
  ("nsamples", TInt); ("fch1", TFloat); ("foff", TFloat); ("fchannel", TFloat);
  ("nchans", TInt); ("nifs", TInt); ("refdm", TFloat); ("flux", TFloat); ("period", TFloat);
  ("nbeams", TInt); ("ibeam", TInt); ("hdrlen", TInt); ("pb", TFloat); ("ecc", TFloat);
  ("asini", TFloat); ("orig_hdrlen", TInt); ("new_hdrlen", TInt); ("sampsize", TInt);
  ("bandwidth", TFloat); ("fbottom", TFloat); ("ftop", TFloat); ("obs_date", TStr);
  ("obs_time", TStr); ("accel", TFloat); ("signed", TBool)]%string.

Fixpoint lookup {A} (k : string) (l : list (string * A)) : option A :=
  match l with
  | [] => None
  | (k', v) :: l' => if String.eqb k k' then Some v else lookup k l'
  end.
(** [d[k] = v] *)
Fixpoint dset {A} (k : string) (v : A) (l : list (string * A)) : list (string * A) :=
  match l with
  | [] => [(k, v)]
  | (k', v') :: l' => if String.eqb k k' then (k', v) :: l' else (k', v') :: dset k v l'
  end.

(** fobj.read(n) at position [pos]; a negative n reads to the end *)
Definition read (f : file) (pos : nat) (n : Z) : list ascii :=
  if n <? 0 then skipn pos f else firstn (Z.to_nat n) (skipn pos f).

(** struct.unpack of [n] bytes; also gives the position after them *)
Definition unpack (f : file) (pos n : nat) : res (list ascii * nat) :=
  let b := read f pos (Z.of_nat n) in
  _ <- guard (List.length b =? n)%nat StructError ;; Ok (b, (pos + n)%nat).

(** sigproc.py:69-77  read_str *)
Definition read_str (f : file) (pos : nat) : res (string * nat) :=
  '(b, pos) <- unpack f pos 4 ;;
  let s := read f pos (to_signed 32 (le_uint b)) in
  _ <- guard (utf8_ok s) UnicodeError ;;
  Ok (string_of_list_ascii s, (pos + List.length s)%nat).

(** sigproc.py:80-103  read_attribute.  An unsupported type object cannot be formatted with
    '{:s}', hence TypeError. *)
Definition read_attribute (keydb : string -> option atype) (f : file) (pos : nat)
  : res (string * option aval * nat) :=
  '(key, pos) <- read_str f pos ;;
  if String.eqb key "HEADER_END" then Ok (key, None, pos) else
  match keydb key with
  | None => Err KeyError
  | Some TStr => '(s, pos) <- read_str f pos ;; Ok (key, Some (AStr s), pos)
  | Some TInt => '(b, pos) <- unpack f pos 4 ;; Ok (key, Some (AInt (to_signed 32 (le_uint b))), pos)
  | Some TFloat => '(b, pos) <- unpack f pos 8 ;; Ok (key, Some (AFloat (le_uint b)), pos)
  | Some TBool => '(b, pos) <- unpack f pos 1 ;; Ok (key, Some (ABool (negb (le_uint b =? 0))), pos)
  | Some TOther => Err TypeError
  end.

(** sigproc.py:135-141  the loop; [fuel] bounds its turns in the model only *)
Fixpoint read_attributes (fuel : nat) (keydb : string -> option atype) (f : file) (pos : nat)
    (attrs : list (string * aval)) : res (list (string * aval) * nat) :=
  match fuel with
  | O => Loop
  | S k =>
    '(key, val, pos) <- read_attribute keydb f pos ;;
    match val with
    | None => Ok (attrs, pos)
    | Some v => read_attributes k keydb f pos (dset key v attrs)
    end
  end.

(** sigproc.py:122-127  keydb; a type of None in extra_keys hides the key *)
Definition keydb_of (extra_keys : list (string * option atype)) (k : string) : option atype :=
  match lookup k extra_keys with Some t => t | None => lookup k sigproc_keydb end.

(** sigproc.py:106-145  read_sigproc_header *)
Definition read_sigproc_header (f : file) (extra_keys : list (string * option atype))
  : res (list (string * aval) * nat) :=
  '(flag, pos) <- read_str f 0 ;;
  _ <- guard (String.eqb flag "HEADER_START") AssertionError ;;
  read_attributes (S (List.length f)) (keydb_of extra_keys) f pos [].

Section Header.
Context (N : num).
Notation lit z := (o_ofZ (@n_dbl N) z).

(** sigproc.py:148-156  parse_float_coord.  Python's divmod on floats: the remainder fmod() is
    exact; here the quotient is the floor of the division. *)
Definition divmod (x y : N) : N * N :=
  let q := lit (n_floor (o_div n_dbl x y)) in (q, o_sub n_dbl x (o_mul n_dbl q y)).
Definition parse_float_coord (f : N) : N :=
  let sign := if n_ltb (lit 0) f then lit 1 else if n_ltb f (lit 0) then lit (-1) else lit 0 in
  let x := if n_ltb f (lit 0) then o_sub n_dbl (lit 0) f else f in
  let '(hh, x) := divmod x (lit 10000) in
  let '(mm, ss) := divmod x (lit 100) in
  o_mul n_dbl sign (o_add n_dbl (o_add n_dbl hh (o_div n_dbl mm (lit 60))) (o_div n_dbl ss (lit 3600))).

(** the number of the bits of a double and of a float32 *)
Context (of_bits of_bits32 : Z -> N).

(** header['key'] of the standard type; another type (which takes extra_keys) is not followed
    further *)
Definition get_int (a : list (string * aval)) (k : string) : res Z :=
  match lookup k a with Some (AInt z) => Ok z | Some _ => Err TypeError | None => Err KeyError end.
Definition get_float (a : list (string * aval)) (k : string) : res N :=
  match lookup k a with Some (AFloat b) => Ok (of_bits b) | Some _ => Err TypeError | None => Err KeyError end.

(** Python's // on ints *)
Definition floordiv (a b : Z) : res Z := if b =? 0 then Err ZeroDivisionError else Ok (a / b).

(** sigproc.py:180-192  bytes_per_sample, nsamp, tobs; [size] is the size of the file *)
Definition bytes_per_sample (a : list (string * aval)) : res Z :=
  c <- get_int a "nchans" ;; b <- get_int a "nbits" ;; floordiv (c * b) 8.
Definition nsamp (a : list (string * aval)) (bytesize : nat) (size : nat) : res Z :=
  b <- bytes_per_sample a ;; floordiv (Z.of_nat size - Z.of_nat bytesize) b.
Definition tobs (a : list (string * aval)) (bytesize size : nat) : res N :=
  n <- nsamp a bytesize size ;; t <- get_float a "tsamp" ;; Ok (o_mul n_dbl (lit n) t).

(** an attribute as a metadata value *)
Definition md_of (v : aval) : mval N :=
  match v with
  | AStr s => MStr s
  | AInt z => MInt z
  | AFloat b => MFloat (of_bits b)
  | ABool b => MOther true (if b then 1 else 0)%nat
  end.

(** astropy's SkyCoord of an hour and a degree angle, os.path.realpath *)
Context (skycoord : N -> N -> res nat) (realpath : string -> string).

(** [attrs[k] = attrs.get(k', None)] *)
Definition md_or_none (k : string) (m : metadata N) : mval N :=
  match md_get k m with Some v => v | None => MNone end.

(** metadata.py:74-106  Metadata.from_sigproc on a SigprocHeader of the file [fname] *)
Definition metadata_from_sigproc (fname : string) (a : list (string * aval)) (bytesize size : nat)
  : res (metadata N) :=
  nchans <- get_int a "nchans" ;;
  _ <- guard (negb (1 <? nchans)) ValueError ;;
  nbits <- get_int a "nbits" ;;
  _ <- guard ((nbits =? 8) || (nbits =? 32)) ValueError ;;
  _ <- guard (negb ((nbits =? 8) && match lookup "signed" a with None => true | _ => false end)) ValueError ;;
  let m := map (fun kv => (fst kv, md_of (snd kv))) a in
  let m := md_set "dm" (md_or_none "refdm" m) m in
  ra <- get_float a "src_raj" ;;
  dec <- get_float a "src_dej" ;;
  c <- skycoord (parse_float_coord ra) (parse_float_coord dec) ;;
  let m := md_set "skycoord" (MCoord c) m in
  let m := md_set "source_name" (md_or_none "source_name" m) m in
  let m := md_set "mjd" (md_or_none "tstart" m) m in
  let m := md_set "fname" (MStr (realpath fname)) m in
  t <- tobs a bytesize size ;;
  metadata_new (md_set "tobs" (MFloat t) m).

(** numpy.fromfile: as many items as there are complete ones *)
Fixpoint float32s (l : list ascii) : list N :=
  match l with
  | a :: b :: c :: d :: l' => of_bits32 (le_uint [a; b; c; d]) :: float32s l'
  | _ => []
  end.
Definition int8s (signed : bool) (l : list ascii) : list N :=
  map (fun a => lit (if signed then to_signed 8 (byte a) else byte a)) l.

(** time_series.py:320-361  TimeSeries.from_sigproc, up to the call of the constructor: samples,
    sampling time, metadata.  8-bit integers are exact in float32. *)
Definition from_sigproc (fname : string) (f : file) (extra_keys : list (string * option atype))
  : res (list N * N * metadata N) :=
  '(a, bytesize) <- read_sigproc_header f extra_keys ;;
  m <- metadata_from_sigproc fname a bytesize (List.length f) ;;
  nbits <- get_int a "nbits" ;;
  let payload := skipn bytesize f in
  let data := if nbits =? 8
              then int8s (match lookup "signed" a with
                          | Some (ABool b) => b
                          | Some (AInt z) => negb (z =? 0)
                          | Some (AStr s) => negb (String.eqb s "")
                          | Some (AFloat b) => negb (n_eqb (of_bits b) (lit 0))
                          | None => false
                          end) payload
              else float32s payload in
  tsamp <- get_float a "tsamp" ;;
  Ok (data, tsamp, m).
End Header.
