(** Model of riptide/pipeline/dmiter.py. *)
From Coq Require Import String List Arith ZArith Bool.
From Verif Require Import Base.Result Base.Num Model.Cluster Model.Peaks.
Import ListNotations.

Section DmIter.
Context (N : num).
Notation lit z := (o_ofZ (@n_dbl N) z).
Notation "a +! b" := (o_add n_dbl a b) (at level 50, left associativity).
Notation "a -! b" := (o_sub n_dbl a b) (at level 50, left associativity).
Notation "a *! b" := (o_mul n_dbl a b) (at level 40, left associativity).
Notation "a /! b" := (o_div n_dbl a b) (at level 40, left associativity).

(** dmiter.py:12  KDM = 1.0 / 2.41e-4 *)
Definition KDM : N := lit 1 /! (lit 241 /! lit 1000000).

(** [x ** -2] *)
Definition inv2 (x : N) : N := lit 1 /! (x *! x).

(** numpy.maximum *)
Definition nmax2 (a b : N) : N := if n_ltb a b then b else a.

(** dmiter.py:45-55  the coverage radius of a trial DM *)
Definition dm_radius (fmin fmax : N) (nchans : Z) (wmin dm : N) : N :=
  let kdisp := KDM *! (inv2 fmin -! inv2 fmax) in
  let cw := (fmax -! fmin) /! lit nchans in
  let fmid := (fmax +! fmin) /! lit 2 in
  let ksmear := KDM *! (inv2 (fmid -! cw /! lit 2) -! inv2 (fmid +! cw /! lit 2)) in
  nmax2 wmin (ksmear *! dm) /! kdisp.

Section Select.
(** the sorted trial DMs and their radii *)
Context (dms radii : list N).
Notation dm i := (nth i dms (lit 0)).
Notation radius i := (nth i radii (lit 0)).

(** dmiter.py:57-58  dm_gap *)
Definition dm_gap (i j : nat) : N := (dm j -! radius j) -! (dm i +! radius i).

(** dmiter.py:60-64  largest_in_range; [n] values of [j] are left, starting with [j] *)
Fixpoint largest_from (i n j : nat) : nat :=
  match n with
  | O => Nat.max (j - 1) (i + 1)
  | S n' => if n_ltb (lit 0) (dm_gap i j) then Nat.max (j - 1) (i + 1) else largest_from i n' (S j)
  end.
Definition largest_in_range (i : nat) : nat := largest_from i (length dms - i) i.

(** dmiter.py:69-81  the selection loop from [icur] on, after [icur] was selected *)
Fixpoint select_loop (fuel icur : nat) : res (list N) :=
  match fuel with
  | O => Loop
  | S fuel' =>
    let inext := largest_in_range icur in
    if length dms <=? inext then Ok []
    else l <- select_loop fuel' inext ;; Ok (dm inext :: l)
  end.
End Select.

(** dmiter.py:15-80  select_dms (the warning about large steps is not modelled) *)
Definition select_dms (trial_dms : list N) (dm_start dm_end fmin fmax : N) (nchans : Z) (wmin : N)
  : res (list N) :=
  let dms := filter (fun d => n_leb dm_start d && n_leb d dm_end) trial_dms in
  let dms := sorted_asc n_ltb dms in
  match dms with
  | [] => Err ValueError
  | d0 :: _ =>
    let radii := map (dm_radius fmin fmax nchans wmin) dms in
    l <- select_loop dms radii (S (length dms)) 0 ;; Ok (d0 :: l)
  end.

(** The metadata used by the pipeline: file name, DM, integration and sampling times, galactic
    coordinates in degrees, and the band parameters of PRESTO .inf files (bottom frequency,
    channel width, number of channels), absent for SIGPROC files.  DM, times and coordinates
    are assumed to be present. *)
Record meta := Meta {
  m_fname : string; m_dm : N; m_tobs : N; m_tsamp : N; m_gl : N; m_gb : N;
  m_band : option (N * N * Z)
}.

Definition nmin2 (a b : N) : N := if n_ltb b a then b else a.

(** dmiter.py:84-99  get_band_params *)
Definition get_band_params (m : meta) : res (N * N * Z) :=
  match m_band m with
  | Some (fbot, cbw, nchans) =>
    let ftop := fbot +! lit nchans *! cbw in
    Ok (nmin2 fbot ftop, (if n_ltb fbot ftop then ftop else fbot), nchans)
  | None => Err ValueError
  end.

Definition band_eqb (a b : N * N * Z) : bool :=
  let '(a1, a2, a3) := a in let '(b1, b2, b3) := b in
  n_eqb a1 b1 && n_eqb a2 b2 && (a3 =? b3)%Z.

(** dmiter.py:102-117  infer_band_params *)
Definition infer_band_params (l : list meta) : res (N * N * Z) :=
  params <- mapM get_band_params l ;;
  match params with
  | [] => Err ValueError
  | p0 :: _ => _ <- guard (forallb (band_eqb p0) params) RuntimeError ;; Ok p0
  end.

(** dmiter.py:120-133  get_galactic_coordnates *)
Definition get_galactic (l : list meta) : res (N * N) :=
  match l with
  | [] => Err IndexError
  | m0 :: _ =>
    _ <- guard (forallb (fun m => n_eqb (m_gl m) (m_gl m0) && n_eqb (m_gb m) (m_gb m0)) l) RuntimeError ;;
    Ok (m_gl m0, m_gb m0)
  end.

(** a Python dict from DM to metadata, in insertion order; assigning to a key already present
    replaces its value and keeps its place *)
Fixpoint dict_set (k : N) (v : meta) (d : list (N * meta)) : list (N * meta) :=
  match d with
  | [] => [(k, v)]
  | (k', v') :: d' => if n_eqb k k' then (k', v) :: d' else (k', v') :: dict_set k v d'
  end.
Fixpoint dict_get (k : N) (d : list (N * meta)) : res meta :=
  match d with
  | [] => Err KeyError
  | (k', v) :: d' => if n_eqb k k' then Ok v else dict_get k d'
  end.
Definition dict_of (l : list meta) : list (N * meta) :=
  fold_left (fun d m => dict_set (m_dm m) m d) l [].

Record dmiter := DMI {
  di_list : list meta; di_dict : list (N * meta); di_selected : list N;
  di_fmin : N; di_fmax : N; di_nchans : Z
}.

(** [abs(sin(radians(b)))] *)
Context (abs_sin : N -> N).

(** dmiter.py:177-229  DMIterator.__init__ on the metadata loaded from the files.  A cap divided
    by [sin b = 0] is infinite. *)
Definition dm_iterator (l : list meta) (dm_start dm_end dmsinb_max : option N) (wmin : N)
    (fmin fmax : option N) (nchans : option Z) : res dmiter :=
  match l with
  | [] => Err (match dm_start, dm_end with Some _, Some _ => IndexError | _, _ => ValueError end)
  | m0 :: ms =>
    let start := match dm_start with Some d => d | None => fold_left (fun a m => nmin2 a (m_dm m)) ms (m_dm m0) end in
    let stop := match dm_end with
                | Some d => d
                | None => fold_left (fun a m => if n_ltb a (m_dm m) then m_dm m else a) ms (m_dm m0) end in
    '(gl, gb) <- get_galactic l ;;
    let stop := match dmsinb_max with
                | None => stop
                | Some c => if n_eqb (abs_sin gb) (lit 0) then stop else nmin2 stop (c /! abs_sin gb)
                end in
    '(f0, f1, nc) <- match infer_band_params l with
                     | Err ValueError | Err RuntimeError =>
                       match fmin, fmax, nchans with
                       | Some a, Some b, Some c => Ok (a, b, c)
                       | _, _, _ => Err ValueError
                       end
                     | r => r
                     end ;;
    let dict := dict_of l in
    sel <- select_dms (map fst dict) start stop f0 f1 nc wmin ;;
    Ok (DMI l dict sel f0 f1 nc)
  end.

(** dmiter.py:231-243  iterate_filenames, as the list of chunks it yields; [chunk] is the one
    being filled *)
Fixpoint chunks_from (d : dmiter) (chunksize : nat) (dms : list N) (chunk : list string)
  : res (list (list string)) :=
  match dms with
  | [] => Ok (if (length chunk =? 0)%nat then [] else [chunk])
  | x :: dms' =>
    m <- dict_get x (di_dict d) ;;
    let chunk := (chunk ++ [m_fname m])%list in
    if (length chunk =? chunksize)%nat
    then l <- chunks_from d chunksize dms' [] ;; Ok (chunk :: l)
    else chunks_from d chunksize dms' chunk
  end.
Definition iterate_filenames (d : dmiter) (chunksize : nat) : res (list (list string)) :=
  chunks_from d chunksize (di_selected d) [].

(** dmiter.py:245-246  get_filename *)
Definition get_filename (d : dmiter) (dm : N) : res string :=
  m <- dict_get dm (di_dict d) ;; Ok (m_fname m).

(** dmiter.py:248-249  tobs_median *)
Definition tobs_median (d : dmiter) : N := nmedian N (map m_tobs (di_list d)).

(** dmiter.py:251-252  tsamp_max (the list is not empty) *)
Definition tsamp_max (d : dmiter) : N :=
  match map m_tsamp (di_list d) with
  | [] => lit 0
  | x :: l => fold_left (fun a b => if n_ltb a b then b else a) l x
  end.
End DmIter.
Arguments Meta {N}. Arguments m_fname {N}. Arguments m_dm {N}. Arguments m_tobs {N}.
Arguments m_tsamp {N}. Arguments m_gl {N}. Arguments m_gb {N}. Arguments m_band {N}.
Arguments DMI {N}. Arguments di_list {N}. Arguments di_dict {N}. Arguments di_selected {N}.
Arguments di_fmin {N}. Arguments di_fmax {N}. Arguments di_nchans {N}.
