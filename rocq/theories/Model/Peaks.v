(** Model of riptide/peak_detection.py. *)
From Coq Require Import List Arith ZArith Bool.
From Verif Require Import Base.Result Base.Buf Base.Num Model.Transforms Model.Cluster.
Import ListNotations.

Section Peaks.
Context (N : num).
Notation lit z := (o_ofZ (@n_dbl N) z).
Notation ofnat k := (o_ofZ (@n_dbl N) (Z.of_nat k)).

(** peak_detection.py:14-34  Peak *)
Record peak := Peak {
  p_period : N; p_freq : N; p_width : Z; p_ducy : N; p_iw : nat; p_ip : nat; p_snr : N;
  p_dm : option N
}.

(** numpy.sort *)
Definition nsort (l : list N) : list N := sorted_asc n_ltb l.

(** numpy.median of a non-empty list: the mean of the one or two middle values *)
Definition nmedian (l : list N) : N :=
  let s := nsort l in
  let n := length l in
  if Nat.odd n then nth (n / 2) s (lit 0)
  else o_div n_dbl (o_add n_dbl (nth (n / 2 - 1) s (lit 0)) (nth (n / 2) s (lit 0))) (lit 2).

(** numpy.percentile (method "linear") of a non-empty list.  numpy interpolates from the nearer end *)
Definition percentile (q : Z) (l : list N) : N :=
  let s := nsort l in
  let v := o_mul n_dbl (o_div n_dbl (lit q) (lit 100)) (ofnat (length l - 1)) in
  let k := Z.to_nat (n_floor v) in
  let a := nth k s (lit 0) in
  let b := nth (Nat.min (S k) (length l - 1)) s (lit 0) in
  let t := o_sub n_dbl v (ofnat k) in
  if n_ltb t (o_div n_dbl (lit 1) (lit 2)) then o_add n_dbl a (o_mul n_dbl (o_sub n_dbl b a) t)
  else o_sub n_dbl b (o_mul n_dbl (o_sub n_dbl b a) (o_sub n_dbl (lit 1) t)).

(** peak_detection.py:37-84  segment_stats.  Taking percentiles of empty segments is an
    IndexError. *)
Definition segment_stats (f s : list N) (T segwidth : N) : res (list N * list N * list N) :=
  let w := o_div n_dbl segwidth T in
  if length f =? 0 then Err IndexError else
  let m := n_ceil (o_div n_dbl (nabs N (o_sub n_dbl (last f (lit 0)) (nth 0 f (lit 0)))) w) in
  if (m =? 0)%Z then Err ZeroDivisionError else
  if (m <? 0)%Z then Err ValueError else
  let m := Z.to_nat m in
  let p := length f / m in
  if p =? 0 then Err IndexError else
  let seg (x : list N) i := firstn p (skipn (i * p) x) in
  let stat (st : list N -> N) x := map (fun i => st (seg x i)) (seq 0 m) in
  Ok (stat nmedian f, stat (percentile 50) s,
      stat (fun c => o_div n_dbl (o_sub n_dbl (percentile 75 c) (percentile 25 c))
                                 (o_div n_dbl (lit 1349) (lit 1000))) s).

(** numpy.polyfit on the logarithm of the frequencies (peak_detection.py:87-108 fit_threshold)
    and numpy.poly1d: any function of the control points and degree, giving the threshold as a
    function of frequency. *)
Context (fit_threshold : list N -> list N -> Z -> res (N -> N)).
Context (argsort : list N -> list nat).

(** peak_detection.py:111-142  find_peaks_single; the coefficients of the fit are not returned *)
Definition find_peaks_single (f s : list N) (T smin segwidth nstd : N) (minseg polydeg : Z) (clrad : N)
  : res (list nat) :=
  '(fc, smed, sstd) <- segment_stats f s T segwidth ;;
  let sc := map (fun p => o_add n_dbl (fst p) (o_mul n_dbl nstd (snd p))) (combine smed sstd) in
  thr <- (if (minseg <=? Z.of_nat (length fc))%Z then fit_threshold fc sc polydeg
          else Ok (fun _ => smin)) ;;
  let mask := fun i => n_ltb (thr (nth i f (lit 0))) (nth i s (lit 0)) && n_ltb smin (nth i s (lit 0)) in
  let indices := filter mask (seq 0 (length f)) in
  let fsel := map (fun i => nth i f (lit 0)) indices in
  let clusters := cluster1d N argsort fsel (o_div n_dbl clrad T) false in
  Ok (map (fun cl =>
        match map (fun k => nth k indices 0) cl with
        | [] => 0
        | i :: ix => first_max (fun a b => n_ltb (nth a s (lit 0)) (nth b s (lit 0))) i ix
        end) clusters).

(** peak_detection.py:145-222  find_peaks of a periodogram with trial frequencies [f], folding
    bins [foldbins], widths and one S/N per trial and width *)
Definition find_peaks (f : list N) (foldbins widths : list Z) (snrs : arr2 N) (T : N) (dm : option N)
    (smin segwidth nstd : N) (minseg polydeg : Z) (clrad : N) : res (list peak) :=
  per_width <- mapM (fun iw =>
    let width := nth iw widths 0%Z in
    let s := map (fun i => at2 (lit 0) snrs i iw) (seq 0 (a_rows snrs)) in
    cur <- find_peaks_single f s T smin segwidth nstd minseg polydeg clrad ;;
    Ok (map (fun ip =>
      let fr := nth ip f (lit 0) in
      Peak (o_div n_dbl (lit 1) fr) fr width
           (o_div n_dbl (lit width) (lit (nth ip foldbins 0%Z))) iw ip (nth ip s (lit 0)) dm) cur))
    (seq 0 (length widths)) ;;
  Ok (sorted_desc (fun a b => n_ltb (p_snr a) (p_snr b)) (concat per_width)).
End Peaks.
Arguments Peak {N}. Arguments p_period {N}. Arguments p_freq {N}. Arguments p_width {N}.
Arguments p_ducy {N}. Arguments p_iw {N}. Arguments p_ip {N}. Arguments p_snr {N}. Arguments p_dm {N}.
