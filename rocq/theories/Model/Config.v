(** Model of the schemas of riptide/pipeline/config_validation.py and of the part of the schema
    library they use. *)
From Coq Require Import String List ZArith Bool.
From Verif Require Import Base.Result Base.Num Model.Cluster Model.Peaks Model.Pipeline.
Import ListNotations.
Local Open Scope string_scope.

Section Config.
Context (N : num).
Notation lit z := (o_ofZ (@n_dbl N) z).
(** Python's float() on a string *)
Context (pyfloat : string -> option N).

(** What yaml.safe_load() returns.  Dictionaries have distinct str keys (a key of another type
    matches no key of the schemas).  Ints are taken to fit in a float. *)
Inductive yval :=
| YNone | YBool (b : bool) | YInt (z : Z) | YFloat (x : N) | YStr (s : string)
| YList (l : list yval) | YDict (l : list (string * yval)).

(** Schemas.  [SPos]: strictly_positive; [SGt1], [SOpen01], [SFormat]: the lambdas of lines 31,
    33 and 61; [SUse]: Use(float).  The keys of a dictionary are marked as required or not. *)
Inductive schema :=
| SInt | SFloat | SStr | SBool | SNone
| SPos | SGt1 | SOpen01 | SFormat | SUse
| SAnd (l : list schema) | SOr (l : list schema)
| SDict (l : list (string * (bool * schema)))
| SList (s : schema).

(** [x > z]; None where Python raises TypeError *)
Definition above (z : Z) (v : yval) : option bool :=
  match v with
  | YBool b => Some (z <? (if b then 1 else 0))%Z
  | YInt i => Some (z <? i)%Z
  | YFloat x => Some (n_ltb (lit z) x)
  | _ => None
  end.
(** [x < 1] *)
Definition below1 (v : yval) : option bool :=
  match v with
  | YBool b => Some (negb b)
  | YInt i => Some (i <? 1)%Z
  | YFloat x => Some (n_ltb x (lit 1))
  | _ => None
  end.
Definition is_true (o : option bool) : bool := match o with Some b => b | None => false end.
Definition is_int (v : yval) : bool := match v with YInt _ | YBool _ => true | _ => false end.
Definition is_float (v : yval) : bool := match v with YFloat _ => true | _ => false end.
Definition is_str (v : yval) : bool := match v with YStr _ => true | _ => false end.
Definition is_bool (v : yval) : bool := match v with YBool _ => true | _ => false end.
Definition is_none (v : yval) : bool := match v with YNone => true | _ => false end.
Definition is_format (v : yval) : bool :=
  match v with YStr s => (s =? "presto") || (s =? "sigproc") | _ => false end.
Definition to_float (v : yval) : option yval :=
  match v with
  | YBool b => Some (YFloat (lit (if b then 1 else 0)))
  | YInt z => Some (YFloat (lit z))
  | YFloat x => Some (YFloat x)
  | YStr s => option_map YFloat (pyfloat s)
  | _ => None
  end.

Fixpoint yfind {A} (k : string) (l : list (string * A)) : option A :=
  match l with
  | [] => None
  | (k', v) :: l' => if k =? k' then Some v else yfind k l'
  end.

(** [Schema(s).validate(v)] of the schema library.  In a dictionary each item is validated with
    the entry for its key; then all required keys must have been seen, and no other.  In a list
    each item is validated.  The order of the items is kept (the library puts dictionaries
    last). *)
Fixpoint validate (s : schema) (v : yval) : res yval :=
  let test (b : bool) := if b then Ok v else Err SchemaError in
  match s with
  | SInt => test (is_int v)        (* isinstance(True, int) *)
  | SFloat => test (is_float v)
  | SStr => test (is_str v)
  | SBool => test (is_bool v)
  | SNone => test (is_none v)
  | SPos => test (is_true (above 0 v))
  | SGt1 => test (is_true (above 1 v))
  | SOpen01 => test (is_true (above 0 v) && is_true (below1 v))
  | SFormat => test (is_format v)
  | SUse => match to_float v with Some w => Ok w | None => Err SchemaError end
  | SAnd l =>
    (fix go (l : list schema) (v : yval) : res yval :=
       match l with [] => Ok v | s' :: l' => w <- validate s' v ;; go l' w end) l v
  | SOr l =>
    (fix go (l : list schema) : res yval :=
       match l with
       | [] => Err SchemaError
       | s' :: l' => match validate s' v with Ok w => Ok w | _ => go l' end
       end) l
  | SDict fields =>
    match v with
    | YDict items =>
      r <- (fix go (items : list (string * yval)) : res (list (string * yval)) :=
              match items with
              | [] => Ok []
              | (k, x) :: items' =>
                w <- (fix find (fs : list (string * (bool * schema))) : res yval :=
                        match fs with
                        | [] => Err SchemaError
                        | (k', (_, s')) :: fs' => if k =? k' then validate s' x else find fs'
                        end) fields ;;
                r <- go items' ;; Ok ((k, w) :: r)
              end) items ;;
      _ <- guard (forallb (fun f => match yfind (fst f) items with Some _ => true | None => negb (fst (snd f)) end) fields)
             SchemaError ;;
      Ok (YDict r)
    | _ => Err SchemaError
    end
  | SList s' =>
    match v with
    | YList l =>
      r <- (fix go (l : list yval) : res (list yval) :=
              match l with [] => Ok [] | x :: l' => w <- validate s' x ;; r <- go l' ;; Ok (w :: r) end) l ;;
      Ok (YList r)
    | _ => Err SchemaError
    end
  end.

Definition req (k : string) (s : schema) : string * (bool * schema) := (k, (true, s)).
Definition opt (k : string) (s : schema) : string * (bool * schema) := (k, (false, s)).
Definition pos_int : schema := SAnd [SInt; SPos].
Definition pos_num : schema := SAnd [SUse; SPos].
Definition or_none (s : schema) : schema := SOr [s; SNone].

(** config_validation.py:19-53  SEARCH_RANGE_SCHEMA *)
Definition search_range_schema : schema :=
  SDict [
    req "name" SStr;
    req "ffa_search" (SDict [
      req "period_min" pos_num; req "period_max" pos_num;
      req "bins_min" pos_int; req "bins_max" pos_int;
      opt "fpmin" pos_int; opt "wtsp" (SAnd [SUse; SGt1]); opt "ducy_max" (SAnd [SFloat; SOpen01])]);
    req "find_peaks" (SDict [
      opt "smin" pos_num; opt "segwidth" pos_num; opt "nstd" pos_num; opt "minseg" pos_int;
      opt "polydeg" pos_num; opt "clrad" (or_none pos_num)]);
    req "candidates" (SDict [req "bins" pos_int; req "subints" pos_int])].

(** config_validation.py:56-114  PIPELINE_CONFIG_SCHEMA *)
Definition pipeline_config_schema : schema :=
  SDict [
    req "processes" pos_int;
    req "data" (SDict [
      req "format" SFormat; req "fmin" (or_none pos_num); req "fmax" (or_none pos_num);
      req "nchans" (or_none pos_int)]);
    req "dmselect" (SDict [
      req "min" (or_none SUse); req "max" (or_none SUse); req "dmsinb_max" (or_none SPos)]);
    req "dereddening" (SDict [req "rmed_width" SPos; req "rmed_minpts" SPos]);
    req "ranges" (SList search_range_schema);
    req "clustering" (SDict [req "radius" SPos]);
    req "harmonic_flagging" (SDict [
      req "denom_max" pos_int; req "phase_distance_max" pos_num; req "dm_distance_max" pos_num;
      req "snr_distance_max" pos_num]);
    req "candidate_filters" (SDict [
      req "dm_min" (or_none SUse); req "snr_min" (or_none SUse); req "remove_harmonics" (or_none SBool);
      req "max_number" (or_none pos_int)]);
    req "plot_candidates" SBool].

(** config_validation.py:171-198  validate_pipeline_config *)
Definition validate_pipeline_config (conf : yval) : res yval :=
  match validate pipeline_config_schema conf with
  | Ok c => Ok c
  | Err _ => Err InvalidPipelineConfig
  | UB => UB
  | Loop => Loop
  end.

(** the values that pipeline.py and config_validation.py:117-148 read from a search range, as used
    by Model.Pipeline and Model.Ranges; a bool counts as an int *)
Definition entry (k : string) (v : yval) : res yval :=
  match v with
  | YDict l => match yfind k l with Some x => Ok x | None => Err KeyError end
  | _ => Err TypeError
  end.
Definition as_float (v : yval) : res N := match v with YFloat x => Ok x | _ => Err TypeError end.
Definition as_int (v : yval) : res Z :=
  match v with YInt z => Ok z | YBool b => Ok (if b then 1 else 0)%Z | _ => Err TypeError end.
Definition read_range (rg : yval) : res (range_conf N) :=
  f <- entry "ffa_search" rg ;;
  c <- entry "candidates" rg ;;
  pmin <- entry "period_min" f ;; pmin <- as_float pmin ;;
  pmax <- entry "period_max" f ;; pmax <- as_float pmax ;;
  bmin <- entry "bins_min" f ;; bmin <- as_int bmin ;;
  bins <- entry "bins" c ;; bins <- as_int bins ;;
  subints <- entry "subints" c ;; subints <- as_int subints ;;
  Ok (Range pmin pmax bmin bins subints).
Definition read_ranges (conf : yval) : res (list (range_conf N)) :=
  r <- entry "ranges" conf ;;
  match r with YList l => mapM read_range l | _ => Err TypeError end.
End Config.
Arguments YNone {N}. Arguments YBool {N}. Arguments YInt {N}. Arguments YFloat {N}. Arguments YStr {N}.
Arguments YList {N}. Arguments YDict {N}.
