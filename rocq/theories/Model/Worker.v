(** Model of riptide/pipeline/worker_pool.py: what one worker does with one file.  Time series
    are values here: nothing in this code changes one in place (see Model.TimeSeries for the
    objects).  Logging is not modelled, except that formatting a DM of None raises. *)
From Coq Require Import String List Arith ZArith Bool.
From Verif Require Import Base.Result Base.Buf Base.Num Model.Transforms Model.FastRmed Model.Libffa Model.Periodogram
  Model.Metadata Model.TimeSeries Model.Cluster Model.Peaks Model.Sigproc Model.Presto.
Import ListNotations.
Local Open Scope string_scope.

Section Worker.
Context (N : num) (flog : N -> N) (fpow : N -> nat -> N).
Context (alloc : nat -> list N) (allocz : nat -> list Z).
Notation lit z := (o_ofZ (@n_dbl N) z).
Notation ofnat k := (o_ofZ (@n_dbl N) (Z.of_nat k)).

(** a TimeSeries: samples, sampling time, metadata *)
Record series := Series { se_data : list N; se_tsamp : N; se_md : metadata N }.

(** time_series.py:57-60  length *)
Definition se_length (ts : series) : N := o_mul n_dbl (ofnat (List.length (se_data ts))) (se_tsamp ts).

(** time_series.py:40-50  __init__ *)
Definition new_series (data : list N) (tsamp : N) (md : metadata N) : res series :=
  m <- metadata_new md ;;
  Ok (Series data tsamp (md_set "tobs" (MFloat (se_length (Series data tsamp m))) m)).

(** a Python int or float *)
Inductive pynum := PInt (z : Z) | PFloat (x : N).

(** [not (x % 2)] for a float *)
Definition even_float (x : N) : bool :=
  n_eqb x (o_mul n_dbl (lit 2) (lit (n_floor (o_div n_dbl x (lit 2))))).

(** running_medians.py:49-83  fast_running_median, for both types of [min_points].  With a
    float and a scrunch factor above 1, pybind11 refuses to convert [min_points] to the size_t
    of libcpp.running_median.  A quotient too large for a float is not modelled. *)
Definition fast_running_median_py (data : list N) (width : Z) (min_points : pynum) : res (list N) :=
  match min_points with
  | PInt z => fast_running_median N alloc data width z
  | PFloat x =>
    if even_float x then Err ValueError else
    let y := o_div n_dbl (lit width) x in
    let sf := if n_ltb (lit 1) y then n_trunc y else 1%Z in
    if (sf =? 1)%Z then running_median_py N alloc data width else Err TypeError
  end.

(** time_series.py:92-122  deredden, not in place *)
Definition se_deredden (ts : series) (width : N) (minpts : pynum) : res series :=
  r <- fast_running_median_py (se_data ts) (py_round N (o_div n_dbl width (se_tsamp ts))) minpts ;;
  _ <- guard (List.length r =? List.length (se_data ts))%nat ValueError ;;
  new_series (minus N (se_data ts) r) (se_tsamp ts) (se_md ts).

(** time_series.py:66-90  normalise, not in place *)
Definition se_normalise (ts : series) : res series :=
  new_series (normalised N (se_data ts)) (se_tsamp ts) (se_md ts).

(** periodogram.py:9-34  Periodogram *)
Record pgram := Pgram {
  pg_widths : list Z; pg_periods : list N; pg_foldbins : list Z; pg_snrs : arr2 N; pg_md : metadata N
}.

(** the sections ffa_search and find_peaks of a search range, with the defaults filled in *)
Record search_kw := Search_kw {
  sk_pmin : N; sk_pmax : N; sk_fpmin : Z; sk_bmin : nat; sk_bmax : nat; sk_ducy : N; sk_wtsp : N
}.
Record peaks_kw := Peaks_kw {
  pk_smin : N; pk_segwidth : N; pk_nstd : N; pk_minseg : Z; pk_polydeg : Z; pk_clrad : option N
}.

(** search.py:10-82  ffa_search on a TimeSeries *)
Definition ffa_search_ts (ts : series) (k : search_kw) (deredden : bool) (rmed_width : N)
    (rmed_minpts : pynum) (already_normalised : bool) : res (series * pgram) :=
  ts <- (if deredden then se_deredden ts rmed_width rmed_minpts else Ok ts) ;;
  ts <- (if already_normalised then Ok ts else se_normalise ts) ;;
  widths <- generate_width_trials N (Z.of_nat (sk_bmin k)) (sk_ducy k) (sk_wtsp k) ;;
  '(periods, foldbins, snrs) <-
     py_periodogram N flog fpow alloc allocz (se_data ts) (se_tsamp ts) (map Z.to_nat widths)
       (sk_pmin k) (sk_pmax k) (sk_bmin k) (sk_bmax k) ;;
  Ok (ts, Pgram widths periods foldbins snrs (se_md ts)).

(** [md['dm']] of valid metadata: a float or None *)
Definition md_dm (md : metadata N) : res (option N) :=
  match md_get "dm" md with
  | Some (MFloat x) => Ok (Some x)
  | Some MNone => Ok None
  | Some _ => Err TypeError
  | None => Err KeyError
  end.
(** [md['tobs']]; None cannot be divided by *)
Definition md_tobs (md : metadata N) : res N :=
  match md_get "tobs" md with
  | Some (MFloat x) => Ok x
  | Some _ => Err TypeError
  | None => Err KeyError
  end.

Context (fit_threshold : list N -> list N -> Z -> res (N -> N)) (argsort : list N -> list nat).

(** peak_detection.py:190-222  find_peaks on a Periodogram, whose freqs and tobs are those of
    periodogram.py:36-44.  If clrad is None, [clrad / T] raises TypeError for the first width. *)
Definition find_peaks_pg (pg : pgram) (k : peaks_kw) : res (list (peak N)) :=
  let f := map (fun p => o_div n_dbl (lit 1) p) (pg_periods pg) in
  T <- md_tobs (pg_md pg) ;;
  dm <- md_dm (pg_md pg) ;;
  match pk_clrad k, pg_widths pg with
  | Some clrad, _ =>
    find_peaks N fit_threshold argsort f (pg_foldbins pg) (pg_widths pg) (pg_snrs pg) T dm
      (pk_smin k) (pk_segwidth k) (pk_nstd k) (pk_minseg k) (pk_polydeg k) clrad
  | None, [] => Ok []
  | None, _ =>
    let s := map (fun i => at2 (lit 0) (pg_snrs pg) i 0) (seq 0 (a_rows (pg_snrs pg))) in
    _ <- find_peaks_single N fit_threshold argsort f s T (pk_smin k) (pk_segwidth k) (pk_nstd k) (pk_minseg k)
           (pk_polydeg k) (lit 0) ;;
    Err TypeError
  end.

(** worker_pool.py:53-57, pipeline.py:311-315  the pre-processing *)
Definition prepare_ts (rmed_width : N) (rmed_minpts : pynum) (ts : series) : res series :=
  ts <- se_deredden ts rmed_width rmed_minpts ;; se_normalise ts.

(** worker_pool.py:46-71  process_fname *)
Definition process_fname (load : string -> res series) (rmed_width : N) (rmed_minpts : pynum)
    (confs : list (search_kw * peaks_kw)) (fname : string) : res (list (peak N)) :=
  ts <- load fname ;;
  dm <- md_dm (se_md ts) ;;
  _ <- guard (match dm with Some _ => true | None => false end) TypeError ;;  (* "{:.3f}".format(dm) *)
  ts <- prepare_ts rmed_width rmed_minpts ts ;;
  foreach confs (fun conf allpeaks =>
    '(_, pg) <- ffa_search_ts ts (fst conf) false rmed_width rmed_minpts true ;;
    peaks <- find_peaks_pg pg (snd conf) ;;
    Ok (allpeaks ++ peaks)%list) [].
End Worker.
Arguments PInt {N}. Arguments PFloat {N}.
Arguments Series {N}. Arguments se_data {N}. Arguments se_tsamp {N}. Arguments se_md {N}. Arguments se_length {N}.
Arguments Pgram {N}. Arguments pg_widths {N}. Arguments pg_periods {N}. Arguments pg_foldbins {N}.
Arguments pg_snrs {N}. Arguments pg_md {N}.
Arguments Search_kw {N}. Arguments sk_pmin {N}. Arguments sk_pmax {N}. Arguments sk_fpmin {N}.
Arguments sk_bmin {N}. Arguments sk_bmax {N}. Arguments sk_ducy {N}. Arguments sk_wtsp {N}.
Arguments Peaks_kw {N}. Arguments pk_smin {N}. Arguments pk_segwidth {N}. Arguments pk_nstd {N}.
Arguments pk_minseg {N}. Arguments pk_polydeg {N}. Arguments pk_clrad {N}.
Arguments new_series {N}. Arguments md_dm {N}. Arguments md_tobs {N}.
