(** Model of Pipeline.process (riptide/pipeline/pipeline.py) from the input files to the files
    written, of the tables it saves (riptide/pipeline/peak_cluster.py), and of the loaders of the
    two file formats.  A new Pipeline object is used for one call of process(). *)
From Coq Require Import String List Arith ZArith Bool.
From Verif Require Import Base.Result Base.Buf Base.Num Model.Metadata Model.TimeSeries Model.Cluster Model.Peaks
  Model.Harmonic Model.Folding Model.DmIter Model.Pipeline Model.Ranges Model.Pool Model.Writer Model.Sigproc
  Model.Presto Model.Worker.
Import ListNotations.

Section Process.
Context (N : num) (flog : N -> N) (fpow : N -> nat -> N) (alloc : nat -> list N) (allocz : nat -> list Z).
Context (fit_threshold : list N -> list N -> Z -> res (N -> N)) (argsort : list N -> list nat).
Context (as_fraction : N -> res fraction) (abs_sin : N -> N).

(** ** Configuration: the values validate_pipeline_config leaves (Model.Config) *)
(** one entry of 'ranges' *)
Record range := Rg { r_search : search_kw N; r_peaks : peaks_kw N; r_cbins : Z; r_csubints : Z }.
(** 'harmonic_flagging' *)
Record hflags := Hflags { hf_denom_max : Z; hf_phase_max : N; hf_dm_max : N; hf_snr_max : N }.
Record config := Config {
  cf_processes : nat;
  cf_dm_min : option N; cf_dm_max : option N; cf_dmsinb_max : option N;       (* dmselect *)
  cf_fmin : option N; cf_fmax : option N; cf_nchans : option Z;               (* data *)
  cf_rmed_width : N; cf_rmed_minpts : pynum N;                                  (* dereddening *)
  cf_ranges : list range;
  cf_radius : N;                                                              (* clustering *)
  cf_harmonics : hflags; cf_filters : filters N; cf_plot : bool
}.

Definition range_conf_of (r : range) : range_conf N :=
  Range (sk_pmin (r_search r)) (sk_pmax (r_search r)) (Z.of_nat (sk_bmin (r_search r))) (r_cbins r) (r_csubints r).
Definition ranges_of (cf : config) : list (range_conf N) := map range_conf_of (cf_ranges cf).
Definition search_confs (cf : config) : list (search_kw N * peaks_kw N) :=
  map (fun r => (r_search r, r_peaks r)) (cf_ranges cf).

(** ** Input files, by name *)
Context (read_meta : string -> res (meta N)) (load : string -> res (series N)).

(** pipeline.py:135-175  prepare *)
Definition prepare (cf : config) (files : list string) : res (dmiter N) :=
  w <- wmin N (ranges_of cf) ;;
  l <- mapM read_meta files ;;
  d <- dm_iterator N abs_sin l (cf_dm_min cf) (cf_dm_max cf) (cf_dmsinb_max cf) w (cf_fmin cf) (cf_fmax cf)
         (cf_nchans cf) ;;
  _ <- validate_ranges N (ranges_of cf) (tsamp_max N d) ;;
  Ok d.

(** worker_pool.py:46-71 with the parameters of the configuration *)
Definition worker (cf : config) (fname : string) : res (list (peak N)) :=
  process_fname N flog fpow alloc allocz fit_threshold argsort load (cf_rmed_width cf) (cf_rmed_minpts cf)
    (search_confs cf) fname.

(** pipeline.py:177-189  search, with any schedule of the workers.  The chunks are generated one
    after the other in Python, which makes no difference as long as that does not raise. *)
Definition search_files (faults : Prop) (cf : config) (d : dmiter N) (r : res (list (peak N))) : Prop :=
  match iterate_filenames N d (cf_processes cf) with
  | Ok chunks => Pool.search N string (worker cf) faults (cf_processes cf) chunks r
  | Err e => r = Err e
  | _ => False
  end.

(** pipeline.py:236 *)
Definition harmonic_test (cf : config) (d : dmiter N) (F H : peak N) : res (bool * fraction) :=
  let h := cf_harmonics cf in
  htest N as_fraction F H (tobs_median N d) (di_fmin d) (di_fmax d) (hf_denom_max h) (hf_phase_max h)
    (hf_dm_max h) (hf_snr_max h).

(** time_series.py:142-169  TimeSeries.fold *)
Definition series_fold (ts : series N) (period : N) (bins : Z) (subints : option Z) : res (folded N) :=
  fold N alloc (se_data ts) (se_tsamp ts) period (Z.to_nat bins) subints.

(** pipeline.py:191-333  cluster_peaks, flag_harmonics, apply_candidate_filters and
    build_candidates: the clusters and the candidates for the peaks found *)
Definition analyse (cf : config) (d : dmiter N) (peaks : list (peak N))
  : res (list (cluster N) * list (candidate N (series N))) :=
  cs <- (if length peaks =? 0 then Ok [] else cluster_peaks N argsort (cf_radius cf) (tobs_median N d) peaks) ;;
  cs <- (if length cs =? 0 then Ok cs else flag_harmonics N (harmonic_test cf d) cs) ;;
  kept <- apply_candidate_filters N (cf_filters cf) cs ;;
  filtered <- mapM (rd cs) kept ;;
  cands <- build_candidates N (series N) se_length series_fold (get_filename N d) load
             (prepare_ts N alloc (cf_rmed_width cf) (cf_rmed_minpts cf)) (ranges_of cf) filtered [] ;;
  Ok (cs, cands).

(** peak_cluster.py:50-66  summary_dict: the centre, npeaks, rank, the harmonic fraction and the
    rank of the fundamental.  The cluster's rank has been assigned by then. *)
Record row := Row {
  row_centre : peak N; row_npeaks : nat; row_rank : option nat;
  row_hfrac_num : Z; row_hfrac_denom : Z; row_fundamental_rank : option nat
}.
Definition cluster_row (cs : list (cluster N)) (c : cluster N) : res row :=
  p <- centre c ;;
  match c_parent c with
  | None => Ok (Row p (length (c_peaks c)) (c_rank c) 0 0 (c_rank c))
  | Some i =>
    F <- rd cs i ;;
    match c_hfrac c with
    | Some (n, d) => Ok (Row p (length (c_peaks c)) (c_rank c) n d (c_rank F))
    | None => Err AttributeError
    end
  end.
(** peak_cluster.py:75-87  clusters_to_dataframe *)
Definition cluster_table (cs : list (cluster N)) : res (list row) :=
  s <- by_snr N (fun c => c) cs ;; mapM (fun x => cluster_row cs (fst x)) s.

(** the text of the three tables, of the JSON form and of the plot of a candidate *)
Context (peaks_csv : list (peak N) -> string) (clusters_csv : list row -> string)
        (candidates_csv : list (peak N) -> string).
Context (to_json png : candidate N (series N) -> res string) (pieces : string -> list string).

(** what the attributes peaks, clusters and candidates are at the end *)
Record products := Products {
  pr_peaks : list (peak N); pr_clusters : list (cluster N); pr_candidates : list (candidate N (series N))
}.

(** pipeline.py:336-380  save_products *)
Definition text_of {A} (f : list A -> string) (l : list A) : option string :=
  match l with [] => None | _ => Some (f l) end.
Inductive save (faults : Prop) (cf : config) (outdir : string) (p : products) (s : fs) : res unit -> fs -> Prop :=
| Save_table_raises e : pr_peaks p <> [] -> cluster_table (pr_clusters p) = Err e ->
    save faults cf outdir p s (Err e)
      (fold_left (fun s o => run_fop o s)
         (write_file pieces (path_join outdir "peaks.csv") (peaks_csv (pr_peaks p))) s)
| Save_files rows r s' :
    (pr_peaks p <> [] -> cluster_table (pr_clusters p) = Ok rows) ->
    save_products (candidate N (series N)) to_json png pieces faults (cf_processes cf) (cf_plot cf) outdir
      (text_of peaks_csv (pr_peaks p)) (text_of clusters_csv rows)
      (text_of candidates_csv (map cd_params (pr_candidates p))) (pr_candidates p) s r s' ->
    save faults cf outdir p s r s'.

(** pipeline.py:382-394  process: the attributes at the end, and the files *)
Inductive process (faults : Prop) (cf : config) (files : list string) (outdir : string) (s : fs)
  : res products -> fs -> Prop :=
| Process_prepare e : prepare cf files = Err e -> process faults cf files outdir s (Err e) s
| Process_search d e : prepare cf files = Ok d -> search_files faults cf d (Err e) ->
    process faults cf files outdir s (Err e) s
| Process_analyse d peaks e : prepare cf files = Ok d -> search_files faults cf d (Ok peaks) ->
    analyse cf d peaks = Err e -> process faults cf files outdir s (Err e) s
| Process_save d peaks cs cands r s' :
    prepare cf files = Ok d -> search_files faults cf d (Ok peaks) -> analyse cf d peaks = Ok (cs, cands) ->
    save faults cf outdir (Products peaks cs cands) s r s' ->
    process faults cf files outdir s (_ <- r ;; Ok (Products peaks cs cands)) s'.
End Process.
Arguments Rg {N}. Arguments r_search {N}. Arguments r_peaks {N}. Arguments r_cbins {N}. Arguments r_csubints {N}.
Arguments Hflags {N}. Arguments hf_denom_max {N}. Arguments hf_phase_max {N}. Arguments hf_dm_max {N}. Arguments hf_snr_max {N}.
Arguments Config {N}. Arguments cf_processes {N}. Arguments cf_dm_min {N}. Arguments cf_dm_max {N}.
Arguments cf_dmsinb_max {N}. Arguments cf_fmin {N}. Arguments cf_fmax {N}. Arguments cf_nchans {N}.
Arguments cf_rmed_width {N}. Arguments cf_rmed_minpts {N}. Arguments cf_ranges {N}. Arguments cf_radius {N}.
Arguments cf_harmonics {N}. Arguments cf_filters {N}. Arguments cf_plot {N}.
Arguments range_conf_of {N}. Arguments ranges_of {N}. Arguments search_confs {N}.
Arguments Row {N}. Arguments row_centre {N}. Arguments row_npeaks {N}. Arguments row_rank {N}.
Arguments row_hfrac_num {N}. Arguments row_hfrac_denom {N}. Arguments row_fundamental_rank {N}.
Arguments Products {N}. Arguments pr_peaks {N}. Arguments pr_clusters {N}. Arguments pr_candidates {N}.

(** ** The loaders *)
Section Loaders.
Context (N : num) (of_bits of_bits32 : Z -> N) (realpath : string -> string).
(** galactic longitude and latitude, in degrees, of a coordinate; the contents of a file *)
Context (galactic : nat -> N * N) (contents : string -> res file).

Definition md_float (k : string) (md : metadata N) : res N :=
  match md_get k md with Some (MFloat x) => Ok x | Some _ => Err TypeError | None => Err KeyError end.

(** The entries of the metadata that DMIterator uses (dmiter.py:84-99, 120-133, 181-229,
    245-252).  Metadata without DM or coordinates make it raise somewhere else. *)
Definition meta_of (presto : bool) (md : metadata N) : res (meta N) :=
  fname <- match md_get "fname" md with Some (MStr s) => Ok s | _ => Err TypeError end ;;
  dm <- md_float "dm" md ;;
  t <- md_float "tobs" md ;;
  tsamp <- md_float "tsamp" md ;;
  c <- match md_get "skycoord" md with Some (MCoord c) => Ok c | _ => Err AttributeError end ;;
  band <- (if presto then
             fbot <- md_float "fbot" md ;;
             cbw <- md_float "cbw" md ;;
             nchan <- match md_get "nchan" md with Some (MInt z) => Ok z | _ => Err KeyError end ;;
             Ok (Some (fbot, cbw, nchan))
           else Ok None) ;;
  Ok (Meta fname dm t tsamp (fst (galactic c)) (snd (galactic c)) band).

(** Metadata.from_sigproc(fname), TimeSeries.from_sigproc(fname) *)
Context (skycoord : N -> N -> res nat).
Definition read_meta_sigproc (fname : string) : res (meta N) :=
  f <- contents fname ;;
  '(a, bytesize) <- read_sigproc_header f [] ;;
  md <- metadata_from_sigproc N of_bits skycoord realpath fname a bytesize (length f) ;;
  meta_of false md.
Definition load_sigproc (fname : string) : res (series N) :=
  f <- contents fname ;;
  '(data, tsamp, md) <- from_sigproc N of_bits of_bits32 skycoord realpath fname f [] ;;
  new_series data tsamp md.

(** Metadata.from_presto_inf(fname), TimeSeries.from_presto_inf(fname) *)
Context (py_float : text -> res N) (skycoord_str : string -> string -> res nat) (other : ival N -> nat).
Definition read_meta_presto (fname : string) : res (meta N) :=
  t <- contents fname ;;
  items <- inf2dict N py_float t ;;
  md <- metadata_from_presto N skycoord_str realpath other (realpath fname) items ;;
  meta_of true md.
Definition load_presto (fname : string) : res (series N) :=
  t <- contents fname ;;
  '(data, tsamp, md, _) <- from_presto_inf N py_float skycoord_str realpath other of_bits32 contents fname t ;;
  new_series data tsamp md.
End Loaders.
