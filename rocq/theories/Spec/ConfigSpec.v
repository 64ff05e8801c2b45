(** The accepted configurations and what each value is turned into, stated item by item. *)
From Coq Require Import String List ZArith Bool.
From Verif Require Import Base.Result Base.Num Model.Config.
Import ListNotations.
Local Open Scope string_scope.

Section Accepted.
Context (N : num) (pyfloat : string -> option N).
Notation yval := (yval N).
Notation lit z := (o_ofZ (@n_dbl N) z).

(** [v] can be read as the number [x] *)
Inductive number : yval -> N -> Prop :=
| num_float x : number (YFloat x) x
| num_int z : number (YInt z) (lit z)
| num_true : number (YBool true) (lit 1)
| num_false : number (YBool false) (lit 0)
| num_text s x : pyfloat s = Some x -> number (YStr s) x.

(** relations between a value and the validated value *)
Definition positive_int (v w : yval) : Prop :=
  w = v /\ ((exists z, v = YInt z /\ (0 < z)%Z) \/ v = YBool true).
Definition number_above (z : Z) (v w : yval) : Prop :=
  exists x, number v x /\ n_ltb (lit z) x = true /\ w = YFloat x.
Definition any_number (v w : yval) : Prop := exists x, number v x /\ w = YFloat x.
(** compared with 0 as it is *)
Definition positive (v w : yval) : Prop :=
  w = v /\ ((exists z, v = YInt z /\ (0 < z)%Z) \/ (exists x, v = YFloat x /\ n_ltb (lit 0) x = true) \/ v = YBool true).
Definition fraction (v w : yval) : Prop :=
  w = v /\ exists x, v = YFloat x /\ n_ltb (lit 0) x = true /\ n_ltb x (lit 1) = true.
Definition text (v w : yval) : Prop := w = v /\ exists s, v = YStr s.
Definition boolean (v w : yval) : Prop := w = v /\ exists b, v = YBool b.
Definition format (v w : yval) : Prop := w = v /\ (v = YStr "presto" \/ v = YStr "sigproc").
Definition or_null (R : yval -> yval -> Prop) (v w : yval) : Prop := R v w \/ (v = YNone /\ w = YNone).

(** [v] is a dictionary with all the required keys and no other than those of [fields]; the keys of
    [w] are the same *)
Definition dictionary (fields : list (string * (bool * (yval -> yval -> Prop)))) (v w : yval) : Prop :=
  exists d d', v = YDict d /\ w = YDict d' /\
    Forall2 (fun a b : string * yval => fst a = fst b /\ exists q R, In (fst a, (q, R)) fields /\ R (snd a) (snd b)) d d' /\
    forall k R, In (k, (true, R)) fields -> In k (map fst d).
Definition listing (R : yval -> yval -> Prop) (v w : yval) : Prop :=
  exists l l', v = YList l /\ w = YList l' /\ Forall2 R l l'.

Definition range_ok : yval -> yval -> Prop :=
  dictionary [
    ("name", (true, text));
    ("ffa_search", (true, dictionary [
      ("period_min", (true, number_above 0)); ("period_max", (true, number_above 0));
      ("bins_min", (true, positive_int)); ("bins_max", (true, positive_int));
      ("fpmin", (false, positive_int)); ("wtsp", (false, number_above 1)); ("ducy_max", (false, fraction))]));
    ("find_peaks", (true, dictionary [
      ("smin", (false, number_above 0)); ("segwidth", (false, number_above 0)); ("nstd", (false, number_above 0));
      ("minseg", (false, positive_int)); ("polydeg", (false, number_above 0)); ("clrad", (false, or_null (number_above 0)))]));
    ("candidates", (true, dictionary [("bins", (true, positive_int)); ("subints", (true, positive_int))]))].

Definition config_ok : yval -> yval -> Prop :=
  dictionary [
    ("processes", (true, positive_int));
    ("data", (true, dictionary [
      ("format", (true, format)); ("fmin", (true, or_null (number_above 0))); ("fmax", (true, or_null (number_above 0)));
      ("nchans", (true, or_null positive_int))]));
    ("dmselect", (true, dictionary [
      ("min", (true, or_null any_number)); ("max", (true, or_null any_number)); ("dmsinb_max", (true, or_null positive))]));
    ("dereddening", (true, dictionary [("rmed_width", (true, positive)); ("rmed_minpts", (true, positive))]));
    ("ranges", (true, listing range_ok));
    ("clustering", (true, dictionary [("radius", (true, positive))]));
    ("harmonic_flagging", (true, dictionary [
      ("denom_max", (true, positive_int)); ("phase_distance_max", (true, number_above 0));
      ("dm_distance_max", (true, number_above 0)); ("snr_distance_max", (true, number_above 0))]));
    ("candidate_filters", (true, dictionary [
      ("dm_min", (true, or_null any_number)); ("snr_min", (true, or_null any_number));
      ("remove_harmonics", (true, or_null boolean)); ("max_number", (true, or_null positive_int))]));
    ("plot_candidates", (true, boolean))].
End Accepted.
