(** Model of the pipeline program (riptide/pipeline/pipeline.py): from the configuration file and
    the names of the input files to the files written. *)
From Coq Require Import String List Arith ZArith Bool.
From Verif Require Import Base.Result Base.Num Model.Metadata Model.TimeSeries Model.Cluster Model.Peaks Model.Harmonic
  Model.Folding Model.DmIter Model.Pipeline Model.Ranges Model.Pool Model.Writer Model.Sigproc Model.Presto
  Model.FastRmed Model.Worker Model.Process Model.Config Model.Rseek Model.Plot.
Import ListNotations.
Local Open Scope string_scope.

(** ** The values that are read from a validated configuration *)
Section ReadConfig.
Context (N : num).
Notation yval := (yval N).
Notation lit z := (o_ofZ (@n_dbl N) z).
Notation frac a b := (o_div (@n_dbl N) (lit a) (lit b)).

(** a value used as a float in arithmetic *)
Definition as_number (v : yval) : res N :=
  match v with
  | YFloat x => Ok x
  | YInt z => Ok (lit z)
  | YBool b => Ok (lit (if b then 1 else 0))
  | _ => Err TypeError
  end.
(** rmed_minpts, which is used in integer operations as it is *)
Definition as_pynum (v : yval) : res (pynum N) :=
  match v with
  | YFloat x => Ok (PFloat x)
  | YInt z => Ok (PInt z)
  | YBool b => Ok (PInt (if b then 1 else 0))
  | _ => Err TypeError
  end.
(** numpy.polyfit takes int(deg), for a finite float *)
Definition as_degree (v : yval) : res Z := x <- as_number v ;; Ok (n_trunc x).
Definition as_bool (v : yval) : res bool := match v with YBool b => Ok b | _ => Err TypeError end.
Definition nullable {A} (f : yval -> res A) (v : yval) : res (option A) :=
  match v with YNone => Ok None | _ => x <- f v ;; Ok (Some x) end.

(** [conf[k]] *)
Definition field {A} (k : string) (f : yval -> res A) (v : yval) : res A := x <- entry N k v ;; f x.
(** the argument [k] of a function called with [**v], whose default is [d] *)
Definition kwarg {A} (k : string) (f : yval -> res A) (d : A) (v : yval) : res A :=
  match v with
  | YDict l => match yfind k l with Some x => f x | None => Ok d end
  | _ => Err TypeError
  end.

(** the arguments of ffa_search: worker_pool.py:61-66 with the defaults of search.py:11-12 *)
Definition read_search (v : yval) : res (search_kw N) :=
  pmin <- field "period_min" as_number v ;;
  pmax <- field "period_max" as_number v ;;
  fpmin <- kwarg "fpmin" (as_int N) 8%Z v ;;
  bmin <- field "bins_min" (as_int N) v ;;
  bmax <- field "bins_max" (as_int N) v ;;
  ducy <- kwarg "ducy_max" as_number (frac 1 5) v ;;
  wtsp <- kwarg "wtsp" as_number (frac 3 2) v ;;
  Ok (Search_kw pmin pmax fpmin (Z.to_nat bmin) (Z.to_nat bmax) ducy wtsp).
(** the arguments of find_peaks: worker_pool.py:67 with the defaults of peak_detection.py:146 *)
Definition read_peaks (v : yval) : res (peaks_kw N) :=
  smin <- kwarg "smin" as_number (lit 6) v ;;
  segwidth <- kwarg "segwidth" as_number (lit 5) v ;;
  nstd <- kwarg "nstd" as_number (lit 6) v ;;
  minseg <- kwarg "minseg" (as_int N) 10%Z v ;;
  polydeg <- kwarg "polydeg" as_degree 2%Z v ;;
  clrad <- kwarg "clrad" (nullable as_number) (Some (frac 1 10)) v ;;
  Ok (Peaks_kw smin segwidth nstd minseg polydeg clrad).
Definition read_full_range (v : yval) : res (range N) :=
  k <- field "ffa_search" read_search v ;;
  q <- field "find_peaks" read_peaks v ;;
  c <- entry N "candidates" v ;;
  bins <- field "bins" (as_int N) c ;;
  subints <- field "subints" (as_int N) c ;;
  Ok (Rg k q bins subints).

Definition read_format (v : yval) : res Rseek.format :=
  match v with
  | YStr s => if s =? "presto" then Ok Presto else if s =? "sigproc" then Ok Sigproc else Err KeyError
  | _ => Err KeyError
  end.

(** The entries of the configuration used by Pipeline (pipeline.py:65-394).  They are read when
    they are needed; a missing one would be a KeyError. *)
Definition read_config (v : yval) : res (Rseek.format * config N) :=
  processes <- field "processes" (as_int N) v ;;
  d <- entry N "data" v ;;
  fmt <- field "format" read_format d ;;
  fmin <- field "fmin" (nullable as_number) d ;;
  fmax <- field "fmax" (nullable as_number) d ;;
  nchans <- field "nchans" (nullable (as_int N)) d ;;
  s <- entry N "dmselect" v ;;
  dm_min <- field "min" (nullable as_number) s ;;
  dm_max <- field "max" (nullable as_number) s ;;
  dmsinb_max <- field "dmsinb_max" (nullable as_number) s ;;
  m <- entry N "dereddening" v ;;
  rmed_width <- field "rmed_width" as_number m ;;
  rmed_minpts <- field "rmed_minpts" as_pynum m ;;
  ranges <- field "ranges" (fun r => match r with YList l => mapM read_full_range l | _ => Err TypeError end) v ;;
  c <- entry N "clustering" v ;;
  radius <- field "radius" as_number c ;;
  h <- entry N "harmonic_flagging" v ;;
  denom_max <- field "denom_max" (as_int N) h ;;
  phase_max <- field "phase_distance_max" as_number h ;;
  dmdist_max <- field "dm_distance_max" as_number h ;;
  snrdist_max <- field "snr_distance_max" as_number h ;;
  f <- entry N "candidate_filters" v ;;
  f_dm <- field "dm_min" (nullable as_number) f ;;
  f_snr <- field "snr_min" (nullable as_number) f ;;
  f_harm <- field "remove_harmonics" (nullable as_bool) f ;;
  f_max <- field "max_number" (nullable (as_int N)) f ;;
  plot <- field "plot_candidates" as_bool v ;;
  Ok (fmt, Config (Z.to_nat processes) dm_min dm_max dmsinb_max fmin fmax nchans rmed_width rmed_minpts ranges radius
             (Hflags denom_max phase_max dmdist_max snrdist_max) (Filters f_dm f_snr f_harm f_max) plot).
End ReadConfig.

(** ** The program *)
Section Program.
Context (N : num) (flog : N -> N) (fpow : N -> nat -> N) (alloc : nat -> list N) (allocz : nat -> list Z).
Context (fit_threshold : list N -> list N -> Z -> res (N -> N)) (argsort : list N -> list nat).
Context (as_fraction : N -> res fraction) (abs_sin : N -> N).
(** float() of a str; yaml.safe_load() *)
Context (pyfloat : string -> option N) (safe_load : file -> res (yval N)).
Context (of_bits of_bits32 : Z -> N) (realpath : string -> string) (galactic : nat -> N * N).
Context (contents : string -> res file) (skycoord : N -> N -> res nat) (py_float : text -> res N).
Context (skycoord_str : string -> string -> res nat) (other : ival N -> nat).
Context (peaks_csv : list (peak N) -> string) (clusters_csv : list (row N) -> string)
        (candidates_csv : list (peak N) -> string).
Context (to_json : candidate N (series N) -> res string) (render : figure N -> res string) (pieces : string -> list string).

(** dmiter.py:168-171, 176  METADATA_LOADERS *)
Definition readers (f : Rseek.format) : string -> res (meta N) :=
  match f with
  | Sigproc => read_meta_sigproc N of_bits realpath galactic contents skycoord
  | Presto => read_meta_presto N realpath galactic contents py_float skycoord_str other
  end.

(** pipeline.py:382-394 with the loaders for a format (worker_pool.py:24-32, pipeline.py:155, 172) *)
Definition process_with (f : Rseek.format) :=
  process N flog fpow alloc allocz fit_threshold argsort as_fraction abs_sin (readers f)
    (loaders N of_bits of_bits32 realpath contents skycoord py_float skycoord_str other f)
    peaks_csv clusters_csv candidates_csv to_json (savefig N render) pieces.

(** pipeline.py:395-401, 65-71  Pipeline.from_yaml_config: the validated configuration.  The
    configuration can be written as JSON for the log (no dates in it). *)
Definition from_yaml_config (fname : string) : res (yval N) :=
  text <- contents fname ;;
  conf <- safe_load text ;;
  validate_pipeline_config N pyfloat conf.

(** pipeline.py:463-501  run_program, without the log.  The argument parser (Model/Cli.v) has checked that the
    output directory exists and that there is at least one file. *)
Inductive main (faults : Prop) (config_file : string) (files : list string) (outdir : string) (s : fs)
  : res (products N) -> fs -> Prop :=
| Main_config e : from_yaml_config config_file = Err e -> main faults config_file files outdir s (Err e) s
| Main_entry c e : from_yaml_config config_file = Ok c -> read_config N c = Err e ->
    main faults config_file files outdir s (Err e) s
| Main_process c f cf r s' : from_yaml_config config_file = Ok c -> read_config N c = Ok (f, cf) ->
    process_with f faults cf files outdir s r s' ->
    main faults config_file files outdir s r s'.
End Program.
