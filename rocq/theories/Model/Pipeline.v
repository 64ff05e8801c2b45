(** Model of riptide/pipeline/pipeline.py, peak_cluster.py and of the constructor of Candidate
    used by the pipeline.  Logging is not modelled. *)
From Coq Require Import String List Arith ZArith Bool.
From Verif Require Import Base.Result Base.Buf Base.Num Model.Cluster Model.Peaks Model.Harmonic
  Model.Folding Model.DmIter.
Import ListNotations.

Section Pipeline.
Context (N : num).
Notation lit z := (o_ofZ (@n_dbl N) z).

(** peak_cluster.py:4-31  PeakCluster.  Clusters are mutable objects; the pipeline keeps them in
    one list and an object is named by its position there, so [c_parent] is such a position. *)
Record cluster := Cl {
  c_peaks : list (peak N); c_rank : option nat; c_parent : option nat; c_hfrac : option fraction
}.

(** peak_cluster.py:33-35  is_harmonic *)
Definition is_harmonic (c : cluster) : bool :=
  match c_parent c with Some _ => true | None => false end.

Definition snr_lt (a b : peak N) : bool := n_ltb (p_snr a) (p_snr b).

(** peak_cluster.py:37-39  centre; max() of an empty list raises *)
Definition centre (c : cluster) : res (peak N) :=
  match c_peaks c with
  | [] => Err ValueError
  | p :: ps => Ok (first_max snr_lt p ps)
  end.

(** sorted(clusters, key=lambda c: c.centre.snr, reverse=True), with the centres computed *)
Definition by_snr {A} (get : A -> cluster) (l : list A) : res (list (A * peak N)) :=
  ks <- mapM (fun a => p <- centre (get a) ;; Ok (a, p)) l ;;
  Ok (sorted_desc (fun x y => snr_lt (snd x) (snd y)) ks).

(** pipeline.py:192-215  cluster_peaks, for peaks sorted by period; without peaks the attribute
    [clusters], initially empty, is left alone *)
Definition cluster_peaks (argsort : list N -> list nat) (radius tmed : N) (peaks : list (peak N))
  : res (list cluster) :=
  let clrad := o_div n_dbl radius tmed in
  let ids := cluster1d N argsort (map p_freq peaks) clrad true in
  mapM (fun g => ps <- mapM (rd peaks) g ;; Ok (Cl ps None None None)) ids.

(** itertools.combinations(l, 2) *)
Fixpoint combinations2 {A} (l : list A) : list (A * A) :=
  match l with
  | [] => []
  | a :: l' => map (pair a) l' ++ combinations2 l'
  end.

Section Flag.
(** htest(F, H, tobs, fmin, fmax, **kwargs) *)
Context (test : peak N -> peak N -> res (bool * fraction)).

(** pipeline.py:231-233  ranks *)
Definition assign_ranks (order : list nat) (cs : list cluster) : res (list cluster) :=
  foreach (combine (seq 0 (length order)) order)
    (fun '(rank, i) cs => c <- rd cs i ;; wr cs i (Cl (c_peaks c) (Some rank) (c_parent c) (c_hfrac c))) cs.

(** pipeline.py:235-244  one pair of clusters *)
Definition flag_pair (FH : (nat * peak N) * (nat * peak N)) (cs : list cluster) : res (list cluster) :=
  let '((f, pf), (h, ph)) := FH in
  F <- rd cs f ;; H <- rd cs h ;;
  if is_harmonic F || is_harmonic H then Ok cs else
  '(related, fr) <- test pf ph ;;
  if related : bool then wr cs h (Cl (c_peaks H) (c_rank H) (Some f) (Some fr)) else Ok cs.

(** pipeline.py:218-249  flag_harmonics *)
Definition flag_harmonics (cs : list cluster) : res (list cluster) :=
  order <- by_snr snd (combine (seq 0 (length cs)) cs) ;;
  let order := map (fun x => (fst (fst x), snd x)) order in
  cs <- assign_ranks (map fst order) cs ;;
  foreach (combinations2 order) flag_pair cs.
End Flag.

(** the section candidate_filters of the configuration *)
Record filters := Filters {
  fl_dm_min : option N; fl_snr_min : option N; fl_remove_harmonics : option bool; fl_max_number : option Z
}.

(** a list comprehension's filter whose predicate may raise *)
Fixpoint filterM {A} (f : A -> res bool) (l : list A) : res (list A) :=
  match l with
  | [] => Ok []
  | a :: l' => b <- f a ;; r <- filterM f l' ;; Ok (if b : bool then a :: r else r)
  end.

(** pipeline.py:252-289  apply_candidate_filters; the clusters kept are given by position.
    Comparing None with a number is a TypeError. *)
Definition apply_candidate_filters (fl : filters) (cs : list cluster) : res (list nat) :=
  let ids := combine (seq 0 (length cs)) cs in
  ids <- match fl_dm_min fl with
         | None => Ok ids
         | Some d => filterM (fun x => p <- centre (snd x) ;;
                       match p_dm p with Some v => Ok (n_leb d v) | None => Err TypeError end) ids
         end ;;
  ids <- match fl_snr_min fl with
         | None => Ok ids
         | Some s => filterM (fun x => p <- centre (snd x) ;; Ok (n_leb s (p_snr p))) ids
         end ;;
  let ids := match fl_remove_harmonics fl with
             | Some true => filter (fun x => negb (is_harmonic (snd x))) ids
             | _ => ids
             end in
  ids <- match fl_max_number fl with
         | None => Ok ids
         | Some n =>
           if (n =? 0)%Z then Ok ids else
           s <- by_snr snd ids ;;
           (* l[:n], also for negative n *)
           let k := if (n <? 0)%Z then length s - Z.to_nat (- n) else Z.to_nat n in
           Ok (firstn k (map fst s))
         end ;;
  Ok (map fst ids).

(** the parameters of one search range used outside the search itself *)
Record range_conf := Range {
  rg_pmin : N; rg_pmax : N; rg_bmin : Z; rg_cbins : Z; rg_csubints : Z
}.

Definition fold1 (f : N -> N -> N) (l : list N) : res N :=
  match l with [] => Err ValueError | x :: l' => Ok (fold_left f l' x) end.
Definition min_of (l : list N) : res N := fold1 (fun a b => if n_ltb b a then b else a) l.
Definition max_of (l : list N) : res N := fold1 (fun a b => if n_ltb a b then b else a) l.

(** pipeline.py:77-84  wmin *)
Definition wmin (ranges : list range_conf) : res N :=
  l <- mapM (fun r => if (rg_bmin r =? 0)%Z then Err ZeroDivisionError
                      else Ok (o_div n_dbl (rg_pmin r) (lit (rg_bmin r)))) ranges ;;
  min_of l.

(** pipeline.py:86-133  get_search_range; falling off the end returns None *)
Definition get_search_range (ranges : list range_conf) (period : N) : res (option range_conf) :=
  let rs := sorted_asc (fun a b => n_ltb (rg_pmax a) (rg_pmax b)) ranges in
  pmin <- min_of (map rg_pmin rs) ;;
  pmax <- max_of (map rg_pmax rs) ;;
  if n_ltb period pmin then Ok (hd_error rs)
  else if negb (n_ltb period pmax) then Ok (hd_error (rev rs))
  else Ok (find (fun r => n_leb (rg_pmin r) period && n_ltb period (rg_pmax r)) rs).

Section Build.
(** a loaded time series, its metadata and length, and its fold() method *)
Context (T : Type) (ts_length : T -> N) (ts_fold : T -> N -> Z -> option Z -> res (folded N)).

(** candidate.py:45-49  Candidate: parameters (those of the centre), the time series whose
    metadata are kept, the member peaks and the sub-integrations *)
Record candidate := Cand {
  cd_params : peak N; cd_ts : T; cd_peaks : list (peak N); cd_subints : folded N
}.

(** candidate.py:74-98  from_pipeline_output *)
Definition from_pipeline_output (ts : T) (c : cluster) (bins : Z) (subints : option Z) : res candidate :=
  p <- centre c ;;
  let subints := match subints with
                 | Some s => if negb (n_ltb (o_mul n_dbl (lit s) (p_period p)) (ts_length ts)) then None else Some s
                 | None => None
                 end in
  X <- ts_fold ts (p_period p) bins subints ;;
  Ok (Cand p ts (c_peaks c) X).

(** the loader of the worker pool followed by deredden() and normalise(); and
    dmiter.get_filename *)
Context (get_filename : N -> res string) (load : string -> res T) (prepare : T -> res T).

Definition dm_eqb (a b : option N) : bool :=
  match a, b with
  | Some x, Some y => n_eqb x y
  | None, None => true
  | _, _ => false
  end.

(** grouped_clusters[dm].append(c) on a defaultdict(list) *)
Fixpoint group_add {A} (dm : option N) (a : A) (g : list (option N * list A)) : list (option N * list A) :=
  match g with
  | [] => [(dm, [a])]
  | (d, l) :: g' => if dm_eqb dm d then (d, l ++ [a]) :: g' else (d, l) :: group_add dm a g'
  end.

(** pipeline.py:316-330  the body of the inner loop.  [except Exception] catches what Python
    raises. *)
Definition try_candidate (ranges : list range_conf) (ts : T) (c : cluster) (cands : list candidate)
  : res (list candidate) :=
  match (p <- centre c ;;
         rng <- get_search_range ranges (p_period p) ;;
         match rng with
         | None => Err TypeError
         | Some r => from_pipeline_output ts c (rg_cbins r) (Some (rg_csubints r))
         end) with
  | Ok cand => Ok (cands ++ [cand])
  | Err _ => Ok cands
  | UB => UB
  | Loop => Loop
  end.

(** pipeline.py:292-333  build_candidates; [cands] are the candidates there already *)
Definition build_candidates (ranges : list range_conf) (filtered : list cluster)
    (cands : list candidate) : res (list candidate) :=
  s <- by_snr (fun c => c) filtered ;;
  if length s =? 0 then Ok cands else
  let groups := fold_left (fun g x => group_add (p_dm (snd x)) (fst x) g) s [] in
  cands <- foreach groups (fun '(dm, cls) cands =>
    fname <- match dm with Some d => get_filename d | None => Err KeyError end ;;
    ts <- load fname ;;
    ts <- prepare ts ;;
    foreach cls (try_candidate ranges ts) cands) cands ;;
  Ok (sorted_desc (fun a b => snr_lt (cd_params a) (cd_params b)) cands).
End Build.
End Pipeline.
Arguments Cl {N}. Arguments c_peaks {N}. Arguments c_rank {N}. Arguments c_parent {N}. Arguments c_hfrac {N}.
Arguments is_harmonic {N}. Arguments centre {N}. Arguments snr_lt {N}.
Arguments Filters {N}. Arguments fl_dm_min {N}. Arguments fl_snr_min {N}.
Arguments fl_remove_harmonics {N}. Arguments fl_max_number {N}.
Arguments Range {N}. Arguments rg_pmin {N}. Arguments rg_pmax {N}. Arguments rg_bmin {N}.
Arguments rg_cbins {N}. Arguments rg_csubints {N}.
Arguments Cand {N T}. Arguments cd_params {N T}. Arguments cd_ts {N T}. Arguments cd_peaks {N T}. Arguments cd_subints {N T}.
