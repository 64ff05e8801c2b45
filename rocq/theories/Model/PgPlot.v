(** Model of periodogram.py: the derived attributes of a Periodogram and what its plot shows. *)
From Coq Require Import List Arith ZArith Bool.
From Verif Require Import Base.Result Base.Buf Base.Num Model.Transforms Model.Worker.
Import ListNotations.

Section PgPlot.
Context (N : num).
Notation lit z := (o_ofZ (@n_dbl N) z).

(** periodogram.py:36-39  freqs *)
Definition pg_freqs (pg : pgram N) : list N := map (fun p => o_div n_dbl (lit 1) p) (pg_periods pg).

(** numpy's max and min of a 1D array *)
Fixpoint np_max (x : list N) : res N :=
  match x with
  | [] => Err ValueError
  | [a] => Ok a
  | a :: x' => m <- np_max x' ;; Ok (if n_ltb a m then m else a)
  end.
Fixpoint np_min (x : list N) : res N :=
  match x with
  | [] => Err ValueError
  | [a] => Ok a
  | a :: x' => m <- np_min x' ;; Ok (if n_ltb m a then m else a)
  end.

(** position of index [k] in an axis of [n] elements *)
Definition np_index (n : nat) (k : Z) : res nat :=
  if (0 <=? k)%Z && (k <? Z.of_nat n)%Z then Ok (Z.to_nat k)
  else if (- Z.of_nat n <=? k)%Z && (k <? 0)%Z then Ok (Z.to_nat (k + Z.of_nat n))
  else Err IndexError.

(** row [i] of the S/N array *)
Definition pg_row (pg : pgram N) (i : nat) : list N :=
  map (fun j => at2 (lit 0) (pg_snrs pg) i j) (seq 0 (a_cols (pg_snrs pg))).

(** periodogram.py:59-91  plot: the points of the curve, the limits of the x axis and the width in
    the title.  [pyplot.plot] raises ValueError if the lengths differ.  Fonts, markers, grid and
    layout are not modelled. *)
Definition pg_plot (pg : pgram N) (iwidth : option Z) : res (list (N * N) * (N * N) * option Z) :=
  let rows := seq 0 (a_rows (pg_snrs pg)) in
  snr <- match iwidth with
         | None => _ <- guard (0 <? a_cols (pg_snrs pg)) ValueError ;; mapM (fun i => np_max (pg_row pg i)) rows
         | Some k => j <- np_index (a_cols (pg_snrs pg)) k ;; Ok (map (fun i => at2 (lit 0) (pg_snrs pg) i j) rows)
         end ;;
  _ <- guard (length (pg_periods pg) =? length snr) ValueError ;;
  lo <- np_min (pg_periods pg) ;;
  hi <- np_max (pg_periods pg) ;;
  title <- match iwidth with
           | None => Ok None
           | Some k => j <- np_index (length (pg_widths pg)) k ;; Ok (Some (nth j (pg_widths pg) 0%Z))
           end ;;
  Ok (combine (pg_periods pg) snr, (lo, hi), title).
End PgPlot.
