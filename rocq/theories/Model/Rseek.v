(** Model of riptide/apps/rseek.py. *)
From Coq Require Import String List Arith ZArith Bool.
From Verif Require Import Base.Result Base.Buf Base.Num Model.FastRmed Model.Transforms Model.Libffa Model.Periodogram
  Model.Metadata Model.TimeSeries Model.Cluster Model.Peaks Model.Sigproc Model.Presto Model.Ranges
  Model.Worker Model.Process.
Import ListNotations.

Section Rseek.
Context (N : num) (flog : N -> N) (fpow : N -> nat -> N).
Context (alloc : nat -> list N) (allocz : nat -> list Z).
Context (fit_threshold : list N -> list N -> Z -> res (N -> N)) (argsort : list N -> list nat).
Notation lit z := (o_ofZ (@n_dbl N) z).

(** the values of type size_t *)
Definition size_t (z : Z) : bool := ((0 <=? z) && (z <? 2 ^ 64))%Z.

(** search.py:10-82  ffa_search, dereddening and normalising; pybind11 refuses ints which are not
    a size_t *)
Definition ffa_search_py (ts : series N) (period_min period_max : N) (bins_min bins_max : Z)
    (ducy_max wtsp rmed_width : N) (rmed_minpts : pynum N) : res (series N * pgram N) :=
  ts <- se_deredden N alloc ts rmed_width rmed_minpts ;;
  ts <- se_normalise N ts ;;
  widths <- generate_width_trials N bins_min ducy_max wtsp ;;
  _ <- guard (size_t bins_min && size_t bins_max) TypeError ;;
  '(periods, foldbins, snrs) <-
     py_periodogram N flog fpow alloc allocz (se_data ts) (se_tsamp ts) (map Z.to_nat widths)
       period_min period_max (Z.to_nat bins_min) (Z.to_nat bins_max) ;;
  Ok (ts, Pgram widths periods foldbins snrs (se_md ts)).

(** rseek.py:24-27  the values of --format *)
Inductive format := Presto | Sigproc.

(** the parsed arguments *)
Record args := Args {
  ra_format : format; ra_pmin : N; ra_pmax : N; ra_bmin : Z; ra_bmax : Z; ra_smin : N; ra_wtsp : N;
  ra_rmed_width : N; ra_rmed_minpts : pynum N; ra_clrad : N; ra_fname : string
}.
(** the options given on the command line *)
Record options := Options {
  op_pmin : option N; op_pmax : option N; op_bmin : option Z; op_bmax : option Z; op_smin : option N;
  op_wtsp : option N; op_rmed_width : option N; op_rmed_minpts : option N; op_clrad : option N
}.
Definition or {A} (d : A) (o : option A) : A := match o with Some x => x | None => d end.

(** rseek.py:15-81  get_parser().parse_args(): argparse does not convert a default which is not
    a str, so that rmed_minpts is an int unless it is given *)
Definition parse_args (f : format) (fname : string) (o : options) : args :=
  Args f (or (lit 1) (op_pmin o)) (or (lit 10) (op_pmax o)) (or 240%Z (op_bmin o)) (or 260%Z (op_bmax o))
    (or (lit 7) (op_smin o)) (or (o_div n_dbl (lit 3) (lit 2)) (op_wtsp o)) (or (lit 4) (op_rmed_width o))
    (match op_rmed_minpts o with Some x => PFloat x | None => PInt 101 end)
    (or (o_div n_dbl (lit 2) (lit 10)) (op_clrad o)) fname.

(** rseek.py:115-127  the peaks found in the time series; fpmin has no effect (see
    Model.Search) *)
Definition rseek_search (a : args) (ts : series N) : res (list (peak N)) :=
  '(_, pg) <- ffa_search_py ts (ra_pmin a) (ra_pmax a) (ra_bmin a) (ra_bmax a) (o_div n_dbl (lit 3) (lit 10))
    (ra_wtsp a) (ra_rmed_width a) (ra_rmed_minpts a) ;;
  find_peaks_pg N fit_threshold argsort pg
    (Peaks_kw (ra_smin a) (lit 5) (lit 6) 10 2 (Some (ra_clrad a))).

(** rseek.py:84-163  run_program: the peaks in the order of the rows of the DataFrame, without
    its layout.  [load] is the dictionary of loaders. *)
Definition run_program (load : format -> string -> res (series N)) (a : args) : res (option (list (peak N))) :=
  ts <- load (ra_format a) (ra_fname a) ;;
  peaks <- rseek_search a ts ;;
  rseek_report N argsort (ra_clrad a) (se_length ts) peaks.
End Rseek.
Arguments Args {N}. Arguments ra_format {N}. Arguments ra_pmin {N}. Arguments ra_pmax {N}. Arguments ra_bmin {N}.
Arguments ra_bmax {N}. Arguments ra_smin {N}. Arguments ra_wtsp {N}. Arguments ra_rmed_width {N}.
Arguments ra_rmed_minpts {N}. Arguments ra_clrad {N}. Arguments ra_fname {N}.
Arguments Options {N}. Arguments op_pmin {N}. Arguments op_pmax {N}. Arguments op_bmin {N}. Arguments op_bmax {N}.
Arguments op_smin {N}. Arguments op_wtsp {N}. Arguments op_rmed_width {N}. Arguments op_rmed_minpts {N}.
Arguments op_clrad {N}.

(** rseek.py:105-109  LOADERS *)
Definition loaders (N : num) of_bits of_bits32 realpath contents skycoord py_float skycoord_str other
    (f : format) (fname : string) : res (series N) :=
  match f with
  | Sigproc => load_sigproc N of_bits of_bits32 realpath contents skycoord fname
  | Presto => load_presto N of_bits32 realpath contents py_float skycoord_str other fname
  end.
