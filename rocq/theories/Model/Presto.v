(** Model of riptide/reading/presto.py, of Metadata.from_presto_inf (riptide/metadata.py) and of
    TimeSeries.from_presto_inf (riptide/time_series.py).

    Text is ASCII: a list of characters (files with other characters are not covered). *)
From Coq Require Import String Ascii List Arith ZArith Bool.
From Verif Require Import Base.Result Base.Num Model.Metadata Model.Sigproc.
Import ListNotations.
Local Open Scope Z_scope.

Notation text := (list ascii).
Definition chars (s : string) : text := list_ascii_of_string s.
Definition str (l : text) : string := string_of_list_ascii l.

(** str.isspace() of an ASCII character; the ASCII characters at which str.splitlines() splits *)
Definition isspace (a : ascii) : bool := rng 9 13 (byte a) || rng 28 32 (byte a).
Definition isbreak (a : ascii) : bool := rng 10 13 (byte a) || rng 28 30 (byte a).
Definition is_char (c a : ascii) : bool := Ascii.eqb c a.

Fixpoint drop_while (p : ascii -> bool) (l : text) : text :=
  match l with [] => [] | a :: l' => if p a then drop_while p l' else l end.
(** s.strip(), s.strip(c) *)
Definition strip_by (p : ascii -> bool) (l : text) : text := rev (drop_while p (rev (drop_while p l))).
Definition strip : text -> text := strip_by isspace.

(** s.splitlines(): CR LF counts as one break; text after the last break is a line if not empty.
    [cur] holds the current line, reversed. *)
Fixpoint splitlines_from (cur : text) (l : text) : list text :=
  match l with
  | [] => match cur with [] => [] | _ => [rev cur] end
  | a :: l' =>
    if isbreak a then
      rev cur :: match l' with
                 | b :: l'' => if (byte a =? 13) && (byte b =? 10) then splitlines_from [] l'' else splitlines_from [] l'
                 | [] => []
                 end
    else splitlines_from (a :: cur) l'
  end.
Definition splitlines : text -> list text := splitlines_from [].

(** s.split(c) *)
Fixpoint split_from (c : ascii) (cur : text) (l : text) : list text :=
  match l with
  | [] => [rev cur]
  | a :: l' => if is_char c a then rev cur :: split_from c [] l' else split_from c (a :: cur) l'
  end.
Definition split (c : ascii) : text -> list text := split_from c [].

(** int(s): digits, single underscores between digits, a sign, space around.  (Very recent
    versions of Python refuse more than 4300 digits; that is not modelled.) *)
Definition digit (a : ascii) : option Z := if rng 48 57 (byte a) then Some (byte a - 48) else None.
Fixpoint digits (after_digit : bool) (acc : Z) (l : text) : option Z :=
  match l with
  | [] => if after_digit then Some acc else None
  | a :: l' =>
    match digit a with
    | Some d => digits true (10 * acc + d) l'
    | None => if is_char "_" a && after_digit then
                match l' with
                | [] => None
                | _ => digits false acc l'
                end
              else None
    end
  end.
Definition py_int (s : text) : res Z :=
  let '(neg, l) := match strip s with
                   | a :: l => if is_char "-" a then (true, l) else if is_char "+" a then (false, l) else (false, a :: l)
                   | [] => (false, [])
                   end in
  match digits false 0 l with
  | Some z => Ok (if neg : bool then - z else z)
  | None => Err ValueError
  end.

Section Inf.
Context (N : num) (py_float : text -> res N).   (** float(s); raises ValueError *)

Inductive ival :=
| IStr (s : string) | IFloat (x : N) | IInt (z : Z) | IBool (b : bool) | IPairs (l : list (Z * Z)).

(** presto.py:39-44  parse_inf_value up to the conversion *)
Definition raw_inf_value (line : text) : res text :=
  match nth_error line 40 with
  | Some a => if is_char "=" a then Ok (strip (skipn 41 line)) else Err ValueError
  | None => Err ValueError
  end.

(** presto.py:47-54, and the conversions str, int, float *)
Definition to_str (l : text) : res ival := Ok (IStr (str l)).
Definition to_int (l : text) : res ival := z <- py_int l ;; Ok (IInt z).
Definition to_float (l : text) : res ival := x <- py_float l ;; Ok (IFloat x).
Definition to_bool (l : text) : res ival := z <- py_int l ;; Ok (IBool (negb (z =? 0))).
Definition parse_int_pair (l : text) : res (Z * Z) :=
  match split "," l with
  | [a; b] => x <- py_int a ;; y <- py_int b ;; Ok (x, y)
  | _ => Err ValueError
  end.

(** presto.py:60-61  p(n, vtype) *)
Definition p (lines : list text) (n : nat) (vtype : text -> res ival) : res ival :=
  match nth_error lines n with
  | Some line => v <- raw_inf_value line ;; vtype v
  | None => Err IndexError
  end.

(** reads consecutive items into the dict *)
Fixpoint p_all (lines : list text) (n : nat) (l : list (string * (text -> res ival)))
  : res (list (string * ival)) :=
  match l with
  | [] => Ok []
  | (k, vtype) :: l' => v <- p lines n vtype ;; r <- p_all lines (S n) l' ;; Ok ((k, v) :: r)
  end.

(** presto.py:91-96  the on/off pairs: lines are read until one is not a pair *)
Fixpoint onoff (lines : list text) : list (Z * Z) :=
  match lines with
  | [] => []
  | line :: lines' =>
    match (v <- raw_inf_value line ;; parse_int_pair v) with
    | Ok xy => xy :: onoff lines'
    | _ => []
    end
  end.

Definition fake_telescope : string := "None (Artificial Data Set)".

(** presto.py:57-121  inf2dict *)
Definition inf2dict (t : text) : res (list (string * ival)) :=
  let lines := splitlines (strip_by (is_char "010") t) in
  basename <- p lines 0 to_str ;;
  telescope <- p lines 1 to_str ;;
  _ <- guard (negb (match telescope with IStr s => String.eqb s fake_telescope | _ => false end)) ValueError ;;
  items <- p_all lines 2
    [("instrument", to_str); ("source_name", to_str); ("raj", to_str); ("decj", to_str);
     ("observer", to_str); ("mjd", to_float); ("barycentered", to_bool); ("nsamp", to_int);
     ("tsamp", to_float); ("breaks", to_bool)]%string ;;
  let lines := skipn 12 lines in
  let pairs := match lookup "breaks" items with Some (IBool true) => onoff lines | _ => [] end in
  let lines := skipn (List.length pairs) lines in
  let items := ([("basename", basename); ("telescope", telescope)] ++ items ++ [("onoff_pairs", IPairs pairs)])%list%string in
  em_band <- p lines 0 to_str ;;
  let items := (items ++ [("em_band", em_band)])%list%string in
  let band := match em_band with IStr s => s | _ => ""%string end in
  if String.eqb band "Radio" then
    r <- p_all lines 1
      [("fov_arcsec", to_float); ("dm", to_float); ("fbot", to_float); ("bandwidth", to_float);
       ("nchan", to_int); ("cbw", to_float); ("analyst", to_str)]%string ;;
    Ok (items ++ r)%list
  else if String.eqb band "X-ray" || String.eqb band "Gamma" then
    r <- p_all lines 1
      [("fov_arcsec", to_float); ("central_energy_kev", to_float);
       ("energy_bandpass_kev", to_float); ("analyst", to_str)]%string ;;
    Ok (items ++ r)%list
  else Err ValueError.

(** presto.py:137-140  data_fname: everything before the last dot, then ".dat" *)
Fixpoint upto_last_dot (l : text) : option text :=
  match l with
  | [] => None
  | a :: l' => match upto_last_dot l' with
               | Some r => Some (a :: r)
               | None => if is_char "." a then Some [] else None
               end
  end.
Definition data_fname (fname : string) : string :=
  str (match upto_last_dot (chars fname) with Some r => r | None => chars fname end ++ chars ".dat").

(** metadata.py:54-71  Metadata.from_presto_inf.  [fname] is PrestoInf.fname, the real path of
    the .inf file; [other] names the values which are neither numbers nor strings. *)
Context (skycoord : string -> string -> res nat) (realpath : string -> string) (other : ival -> nat).
Definition md_of_inf (v : ival) : mval N :=
  match v with
  | IStr s => MStr s
  | IFloat x => MFloat x
  | IInt z => MInt z
  | _ => MOther true (other v)
  end.
Definition istr (k : string) (items : list (string * ival)) : res string :=
  match lookup k items with Some (IStr s) => Ok s | Some _ => Err TypeError | None => Err KeyError end.
Definition metadata_from_presto (fname : string) (items : list (string * ival)) : res (metadata N) :=
  raj <- istr "raj" items ;;
  decj <- istr "decj" items ;;
  c <- skycoord raj decj ;;
  tsamp <- match lookup "tsamp" items with Some (IFloat x) => Ok x | Some _ => Err TypeError | None => Err KeyError end ;;
  nsamp <- match lookup "nsamp" items with Some (IInt z) => Ok z | Some _ => Err TypeError | None => Err KeyError end ;;
  let m := map (fun kv => (fst kv, md_of_inf (snd kv))) items in
  metadata_new (md_set "tobs" (MFloat (o_mul n_dbl tsamp (o_ofZ n_dbl nsamp)))
               (md_set "fname" (MStr (realpath fname))
               (md_set "skycoord" (MCoord c) m))).

(** time_series.py:283-317  TimeSeries.from_presto_inf up to the constructor: samples, sampling
    time, metadata, and whether the warning about high-energy data is given.  [dat] is the
    content of a file by its name. *)
Context (of_bits32 : Z -> N).
Definition from_presto_inf (dat : string -> res file) (fname : string) (t : text)
  : res (list N * N * metadata N * bool) :=
  items <- inf2dict t ;;
  m <- metadata_from_presto (realpath fname) items ;;
  d <- dat (data_fname (realpath fname)) ;;
  tsamp <- match lookup "tsamp" items with Some (IFloat x) => Ok x | Some _ => Err TypeError | None => Err KeyError end ;;
  band <- istr "em_band" items ;;
  Ok (float32s N of_bits32 d, tsamp, m, String.eqb band "X-ray" || String.eqb band "Gamma").
End Inf.
Arguments IStr {N}. Arguments IFloat {N}. Arguments IInt {N}. Arguments IBool {N}. Arguments IPairs {N}.
