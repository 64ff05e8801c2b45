(** Model of the properties and plots of riptide/candidate.py: what is drawn, not how. *)
From Coq Require Import String List Arith ZArith Bool.
From Verif Require Import Base.Result Base.Num Model.Transforms Model.Cluster Model.Metadata Model.Peaks Model.Folding
  Model.Pipeline Model.Worker.
Import ListNotations.

Section Plot.
Context (N : num).
Notation lit z := (o_ofZ (@n_dbl N) z).

(** candidate.py:60-64  profile *)
Definition profile (X : folded N) : list N :=
  match X with Prof p => p | Subs s => column_sums N s end.

(** one row of the table added to the groups: the largest S/N of each DM, DMs increasing *)
Fixpoint curve_add (d s : N) (l : list (N * N)) : list (N * N) :=
  match l with
  | [] => [(d, s)]
  | (d', s') :: l' =>
    if n_ltb d d' then (d, s) :: l
    else if n_eqb d d' then (d', if n_ltb s' s then s else s') :: l'
    else (d', s') :: curve_add d s l'
  end.
(** candidate.py:66-72  dm_curve: groupby('dm').max(), which leaves out the rows whose DM is None *)
Definition dm_curve (peaks : list (peak N)) : list N * list N :=
  let l := fold_left (fun l p => match p_dm p with Some d => curve_add d (p_snr p) l | None => l end) peaks [] in
  (map fst l, map snd l).

(** an array of one and a half periods *)
Definition extended {A} (l : list A) : list A := l ++ firstn (List.length l / 2) l.

(** candidate.py:219-239  plot_subints: the rows of the image.  Unpacking the shape of a
    one-dimensional array into two names raises. *)
Definition plot_subints (X : folded N) : res (list (list N)) :=
  match X with
  | Prof _ => Err ValueError
  | Subs s => Ok (map (fun r => extended (firstn (a_cols s) (skipn (r * a_cols s) (a_data s)))) (seq 0 (a_rows s)))
  end.

(** candidate.py:242-258  plot_profile: the heights of the bars.  The median is that of the extended
    profile (in single precision for numpy). *)
Definition plot_profile (p : list N) : list N :=
  let e := extended p in map (fun v => o_sub n_sgl v (nmedian N e)) e.

(** candidate.py:167-201  plot_table: the values printed.  None has neither coordinates nor a
    Modified Julian Date, and the formats 's' and '.2f' refuse it. *)
Record table := Table {
  tb_period_ms : N; tb_dm : N; tb_width : Z; tb_ducy_percent : N; tb_snr : N;
  tb_source : string; tb_coord : nat; tb_mjd : N
}.
Definition plot_table (p : peak N) (md : metadata N) : res table :=
  c <- match md_get "skycoord" md with
       | Some (MCoord c) => Ok c | Some _ => Err AttributeError | None => Err KeyError end ;;
  mjd <- match md_get "mjd" md with
         | Some (MFloat x) => Ok x | Some _ => Err ValueError | None => Err KeyError end ;;
  src <- match md_get "source_name" md with Some v => Ok v | None => Err KeyError end ;;
  dm <- match p_dm p with Some d => Ok d | None => Err TypeError end ;;
  s <- match src with MStr s => Ok s | _ => Err TypeError end ;;
  Ok (Table (o_mul n_dbl (p_period p) (lit 1000)) dm (p_width p) (o_mul n_dbl (p_ducy p) (lit 100)) (p_snr p)
        s c mjd).

(** candidate.py:204-216  plot_dm_curve: the limits of the axis.  The minimum of an empty array
    raises. *)
Definition plot_dm_curve (curve : list N * list N) : res (N * N) :=
  lo <- min_of N (fst curve) ;;
  hi <- max_of N (fst curve) ;;
  let half := o_div n_dbl (lit 1) (lit 2) in
  Ok (if n_eqb lo hi then (o_sub n_dbl lo half, o_add n_dbl lo half) else (lo, hi)).

(** candidate.py:261-282  plot_candidate *)
Record figure := Figure {
  fg_image : list (list N); fg_tobs : N; fg_bars : list N; fg_table : table;
  fg_curve : list N * list N; fg_limits : N * N
}.
Definition plot_candidate (c : candidate N (series N)) : res figure :=
  let md := se_md (cd_ts c) in
  t <- match md_get "tobs" md with
       | Some (MFloat t) => Ok t | Some _ => Err TypeError | None => Err KeyError end ;;
  img <- plot_subints (cd_subints c) ;;
  let bars := plot_profile (profile (cd_subints c)) in
  tab <- plot_table (cd_params c) md ;;
  lim <- plot_dm_curve (dm_curve (cd_peaks c)) ;;
  Ok (Figure img t bars tab (dm_curve (cd_peaks c)) lim).

(** candidate.py:132-139  savefig; [render] is what the backend makes of the figure *)
Definition savefig (render : figure -> res string) (c : candidate N (series N)) : res string :=
  fig <- plot_candidate c ;; render fig.
End Plot.
Arguments Figure {N}. Arguments fg_image {N}. Arguments fg_tobs {N}. Arguments fg_bars {N}. Arguments fg_table {N}.
Arguments fg_curve {N}. Arguments fg_limits {N}.
Arguments Table {N}. Arguments tb_period_ms {N}. Arguments tb_dm {N}. Arguments tb_width {N}. Arguments tb_ducy_percent {N}.
Arguments tb_snr {N}. Arguments tb_source {N}. Arguments tb_coord {N}. Arguments tb_mjd {N}.
