(** Model of the files written by riptide/pipeline/pipeline.py: CandidateWriter and
    save_products.  A file system maps paths to contents.  Opening a file for writing empties it
    at once; its contents then arrive in pieces. *)
From Coq Require Import String Ascii List Arith ZArith Bool DecimalString.
From Verif Require Import Base.Result Model.Pool.
Import ListNotations.
Local Open Scope string_scope.

Definition fs := string -> option string.
Inductive fop := Create (f : string) | Write (f s : string).
Definition fop_file (o : fop) : string := match o with Create f => f | Write f _ => f end.
Definition run_fop (o : fop) (s : fs) : fs :=
  match o with
  | Create f => fun k => if k =? f then Some "" else s k
  | Write f t => fun k => if k =? f then option_map (fun old => old ++ t) (s k) else s k
  end.

(** Python's posixpath.join of two parts *)
Definition path_join (a b : string) : string :=
  match b with
  | String "/"%char _ => b
  | _ => if (a =? "") || (substring (String.length a - 1) 1 a =? "/") then a ++ b else a ++ "/" ++ b
  end.

(** f'{n:04d}' for n >= 0 *)
Definition decimal (n : nat) : string := NilEmpty.string_of_uint (Nat.to_uint n).
Fixpoint zeros (n : nat) : string := match n with O => "" | S k => String "0" (zeros k) end.
Definition pad4 (n : nat) : string := zeros (4 - String.length (decimal n)) ++ decimal n.

(** pipeline.py:45,49 *)
Definition candidate_fname (outdir : string) (rank : nat) (ext : string) : string :=
  path_join outdir ("candidate_" ++ pad4 rank ++ ext).

Section Writer.
(** the candidates, their JSON text and their plot; how a text is split into writes *)
Context (C : Type) (to_json : C -> res string) (png : C -> res string).
Context (pieces : string -> list string).

Definition write_file (f s : string) : list fop := Create f :: map (Write f) (pieces s).

(** pipeline.py:32-53  CandidateWriter.__call__.  save_json (serialization.py:146-152) opens the
    file before encoding the object. *)
Definition writer_ops (outdir : string) (plot : bool) (x : nat * C) : list fop :=
  let '(rank, cand) := x in
  match to_json cand with
  | Ok s =>
    write_file (candidate_fname outdir rank ".json") s ++
    if plot then match png cand with
                 | Ok s => write_file (candidate_fname outdir rank ".png") s
                 | _ => []
                 end
    else []
  | _ => [Create (candidate_fname outdir rank ".json")]
  end.
Definition writer_result (plot : bool) (x : nat * C) : res unit :=
  _ <- to_json (snd x) ;;
  if plot then _ <- png (snd x) ;; Ok tt else Ok tt.

(** pipeline.py:336-380  save_products.  The CSV texts are [None] for an empty list; [peaks] says
    there are peaks at all. *)
Inductive save_products (faults : Prop) (procs : nat) (plot : bool) (outdir : string)
    (peaks clusters candidates : option string) (cands : list C) (s : fs) : res unit -> fs -> Prop :=
| Save_none : peaks = None -> save_products faults procs plot outdir peaks clusters candidates cands s (Ok tt) s
| Save_some r s' :
    peaks <> None ->
    let csv name o := match o with
                      | Some t => write_file (path_join outdir name) t
                      | None => []
                      end in
    pool_map run_fop (writer_ops outdir plot) (writer_result plot) faults procs
      (combine (seq 0 (List.length cands)) cands)
      (fold_left (fun s o => run_fop o s)
         (csv "peaks.csv" peaks ++ csv "clusters.csv" clusters ++ csv "candidates.csv" candidates) s) r s' ->
    save_products faults procs plot outdir peaks clusters candidates cands s (_ <- r ;; Ok tt) s'.
End Writer.
