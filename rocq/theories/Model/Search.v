(** Model of riptide/search.py. *)
From Coq Require Import List Arith ZArith Bool.
From Verif Require Import Base.Result Base.Buf Base.Num Model.Transforms Model.Downsample
  Model.FastRmed Model.Libffa Model.Periodogram Model.TimeSeries.
Import ListNotations.

Section Search.
Context (N : num) (flog : N -> N) (fpow : N -> nat -> N).
Context (alloc : nat -> list N) (allocz : nat -> list Z).

(** search.py:10-82  ffa_search on samples [data] with sampling time [tsamp].  Returns the
    samples actually searched and the widths, periods, bins and S/N of the periodogram; the
    metadata are passed through.  [bins_min] and [bins_max] are non-negative ints. *)
Definition ffa_search (data : list N) (tsamp period_min period_max : N) (fpmin : Z)
    (bins_min bins_max : nat) (ducy_max wtsp : N) (deredden : bool) (rmed_width : N)
    (rmed_minpts : Z) (already_normalised : bool)
  : res (list N * (list Z * list N * list Z * arr2 N)) :=
  x <- (if deredden then
          r <- rmed N alloc data tsamp rmed_width rmed_minpts ;;
          _ <- guard (length r =? length data) ValueError ;;
          Ok (minus N data r)
        else Ok data) ;;
  let x := if already_normalised then x else normalised N x in
  widths <- generate_width_trials N (Z.of_nat bins_min) ducy_max wtsp ;;
  '(periods, foldbins, snrs) <-
     py_periodogram N flog fpow alloc allocz x tsamp (map Z.to_nat widths)
       period_min period_max bins_min bins_max ;;
  Ok (x, (widths, periods, foldbins, snrs)).
End Search.
