(** What the items of a configuration file stand for. *)
From Coq Require Import String List ZArith Bool.
From Verif Require Import Base.Result Base.Num Model.Pipeline Model.Worker Model.Process Model.Rseek Model.Config Spec.ConfigSpec.
Import ListNotations.
Local Open Scope string_scope.

Section Meaning.
Context (N : num) (pyfloat : string -> option N).
Notation yval := (yval N).
Notation lit z := (o_ofZ (@n_dbl N) z).
Notation number := (number N pyfloat).

(** the item at the end of a path of keys *)
Fixpoint item (path : list string) (v : yval) : option yval :=
  match path with
  | [] => Some v
  | k :: path' =>
    match v with
    | YDict l => match find (fun kv => fst kv =? k) l with Some kv => item path' (snd kv) | None => None end
    | _ => None
    end
  end.

(** the item is there and stands for [a] *)
Definition given {A} (v : yval) (path : list string) (P : yval -> A -> Prop) (a : A) : Prop :=
  exists x, item path v = Some x /\ P x a.
(** it may be left out *)
Definition given_or {A} (v : yval) (path : list string) (P : yval -> A -> Prop) (default a : A) : Prop :=
  given v path P a \/ item path v = None /\ a = default.

Definition positive_integer (v : yval) (z : Z) : Prop := (0 < z)%Z /\ (v = YInt z \/ v = YBool true /\ z = 1%Z).
Definition positive_count (v : yval) (n : nat) : Prop := positive_integer v (Z.of_nat n).
Definition greater (z : Z) (v : yval) (x : N) : Prop := number v x /\ n_ltb (lit z) x = true.
(** not written as a string *)
Definition plain_positive (v : yval) (x : N) : Prop :=
  (v = YFloat x /\ n_ltb (lit 0) x = true) \/ exists z, positive_integer v z /\ x = lit z.
Definition null_or {A} (P : yval -> A -> Prop) (v : yval) (o : option A) : Prop :=
  (v = YNone /\ o = None) \/ exists a, P v a /\ o = Some a.
Definition between_0_and_1 (v : yval) (x : N) : Prop :=
  v = YFloat x /\ n_ltb (lit 0) x = true /\ n_ltb x (lit 1) = true.
Definition degree (v : yval) (z : Z) : Prop := exists x, greater 0 v x /\ z = n_trunc x.
Definition points (v : yval) (m : pynum N) : Prop :=
  (exists z, positive_integer v z /\ m = PInt z) \/
  exists x, v = YFloat x /\ n_ltb (lit 0) x = true /\ m = PFloat x.
Definition truth (v : yval) (b : bool) : Prop := v = YBool b.

Definition range_means (v : yval) (r : range N) : Prop :=
  let k := r_search r in let q := r_peaks r in
  given v ["ffa_search"; "period_min"] (greater 0) (sk_pmin k) /\
  given v ["ffa_search"; "period_max"] (greater 0) (sk_pmax k) /\
  given v ["ffa_search"; "bins_min"] positive_count (sk_bmin k) /\
  given v ["ffa_search"; "bins_max"] positive_count (sk_bmax k) /\
  given_or v ["ffa_search"; "fpmin"] positive_integer 8%Z (sk_fpmin k) /\
  given_or v ["ffa_search"; "wtsp"] (greater 1) (o_div n_dbl (lit 3) (lit 2)) (sk_wtsp k) /\
  given_or v ["ffa_search"; "ducy_max"] between_0_and_1 (o_div n_dbl (lit 1) (lit 5)) (sk_ducy k) /\
  given_or v ["find_peaks"; "smin"] (greater 0) (lit 6) (pk_smin q) /\
  given_or v ["find_peaks"; "segwidth"] (greater 0) (lit 5) (pk_segwidth q) /\
  given_or v ["find_peaks"; "nstd"] (greater 0) (lit 6) (pk_nstd q) /\
  given_or v ["find_peaks"; "minseg"] positive_integer 10%Z (pk_minseg q) /\
  given_or v ["find_peaks"; "polydeg"] degree 2%Z (pk_polydeg q) /\
  given_or v ["find_peaks"; "clrad"] (null_or (greater 0)) (Some (o_div n_dbl (lit 1) (lit 10))) (pk_clrad q) /\
  given v ["candidates"; "bins"] positive_integer (r_cbins r) /\
  given v ["candidates"; "subints"] positive_integer (r_csubints r).

Definition format_means (v : yval) (f : Rseek.format) : Prop :=
  (v = YStr "presto" /\ f = Presto) \/ (v = YStr "sigproc" /\ f = Sigproc).
Definition ranges_mean (v : yval) (l : list (range N)) : Prop :=
  exists items, v = YList items /\ Forall2 range_means items l.

Definition config_means (v : yval) (f : Rseek.format) (cf : config N) : Prop :=
  given v ["processes"] positive_count (cf_processes cf) /\
  given v ["data"; "format"] format_means f /\
  given v ["data"; "fmin"] (null_or (greater 0)) (cf_fmin cf) /\
  given v ["data"; "fmax"] (null_or (greater 0)) (cf_fmax cf) /\
  given v ["data"; "nchans"] (null_or positive_integer) (cf_nchans cf) /\
  given v ["dmselect"; "min"] (null_or number) (cf_dm_min cf) /\
  given v ["dmselect"; "max"] (null_or number) (cf_dm_max cf) /\
  given v ["dmselect"; "dmsinb_max"] (null_or plain_positive) (cf_dmsinb_max cf) /\
  given v ["dereddening"; "rmed_width"] plain_positive (cf_rmed_width cf) /\
  given v ["dereddening"; "rmed_minpts"] points (cf_rmed_minpts cf) /\
  given v ["ranges"] ranges_mean (cf_ranges cf) /\
  given v ["clustering"; "radius"] plain_positive (cf_radius cf) /\
  given v ["harmonic_flagging"; "denom_max"] positive_integer (hf_denom_max (cf_harmonics cf)) /\
  given v ["harmonic_flagging"; "phase_distance_max"] (greater 0) (hf_phase_max (cf_harmonics cf)) /\
  given v ["harmonic_flagging"; "dm_distance_max"] (greater 0) (hf_dm_max (cf_harmonics cf)) /\
  given v ["harmonic_flagging"; "snr_distance_max"] (greater 0) (hf_snr_max (cf_harmonics cf)) /\
  given v ["candidate_filters"; "dm_min"] (null_or number) (fl_dm_min (cf_filters cf)) /\
  given v ["candidate_filters"; "snr_min"] (null_or number) (fl_snr_min (cf_filters cf)) /\
  given v ["candidate_filters"; "remove_harmonics"] (null_or truth) (fl_remove_harmonics (cf_filters cf)) /\
  given v ["candidate_filters"; "max_number"] (null_or positive_integer) (fl_max_number (cf_filters cf)) /\
  given v ["plot_candidates"] truth (cf_plot cf).
End Meaning.
