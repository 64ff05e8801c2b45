(** Model of the range checks of riptide/pipeline/config_validation.py (the configuration being
    of the right format, see Model.Config) and of the grouping in riptide/apps/rseek.py. *)
From Coq Require Import List Arith ZArith Bool.
From Verif Require Import Base.Result Base.Buf Base.Num Model.Cluster Model.Peaks Model.Pipeline.
Import ListNotations.

Section Ranges.
Context (N : num).
Notation lit z := (o_ofZ (@n_dbl N) z).

(** config_validation.py:117-137  validate_range *)
Definition validate_range (tsamp_max : N) (rg : range_conf N) : res unit :=
  _ <- guard (negb (n_ltb (rg_pmin rg) (o_mul n_dbl (lit (rg_bmin rg)) tsamp_max))) InvalidSearchRange ;;
  guard (negb (n_ltb (rg_pmin rg) (o_mul n_dbl (lit (rg_cbins rg)) tsamp_max))) InvalidSearchRange.

(** config_validation.py:140-148  validate_ranges_contiguity *)
Fixpoint validate_ranges_contiguity (ranges : list (range_conf N)) : res unit :=
  match ranges with
  | a :: ((b :: _) as rest) =>
    _ <- guard (n_eqb (rg_pmax a) (rg_pmin b)) InvalidSearchRange ;; validate_ranges_contiguity rest
  | _ => Ok tt
  end.

(** config_validation.py:151-168  validate_ranges *)
Definition validate_ranges (ranges : list (range_conf N)) (tsamp_max : N) : res unit :=
  _ <- foreach ranges (fun r _ => validate_range tsamp_max r) tt ;;
  validate_ranges_contiguity ranges.

(** rseek.py:128-144  what run_program reports for the peaks found in a time series of length
    [len]; None if there are none *)
Definition rseek_report (argsort : list N -> list nat) (clrad len : N) (peaks : list (peak N))
  : res (option (list (peak N))) :=
  if length peaks =? 0 then Ok None else
  let groups := cluster1d N argsort (map p_freq peaks) (o_div n_dbl clrad len) false in
  best <- mapM (fun g =>
    ps <- mapM (rd peaks) g ;;
    match ps with [] => Err ValueError | p :: ps => Ok (first_max snr_lt p ps) end) groups ;;
  Ok (Some (sorted_desc snr_lt best)).
End Ranges.
