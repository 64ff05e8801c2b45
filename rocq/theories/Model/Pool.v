(** Model of multiprocessing.Pool.map (CPython 3 standard library, Lib/multiprocessing/pool.py)
    as used by riptide/pipeline/worker_pool.py and riptide/pipeline/pipeline.py, as a transition
    system whose executions are all the schedules the operating system may choose, and of
    WorkerPool.process_fname_list and Pipeline.search on top of it.

    A task runs as a sequence of actions, each atomic; those of tasks running at the same time
    interleave.  [S] is the state the processes share (the file system). *)
From Coq Require Import List Arith ZArith Bool.
From Verif Require Import Base.Result Base.Buf Base.Num Model.Cluster Model.Peaks.
Import ListNotations.

Section Pool.
Context {S O A B : Type}.
(** the effect of one action on the shared state *)
Context (effect : O -> S -> S).
(** what the mapped function does on an element: actions, then the result *)
Context (ops : A -> list O) (f : A -> res B).
(** whether actions may fail and processes may be killed *)
Context (faults : Prop).

(** pool.py Pool._map_async: the chunk size for [n] elements *)
Definition chunksize (procs n : nat) : nat :=
  if n =? 0 then 0 else n / (procs * 4) + (if n mod (procs * 4) =? 0 then 0 else 1).

(** pool.py Pool._get_tasks: consecutive batches of [c] elements *)
Fixpoint get_tasks (fuel c : nat) (l : list A) : list (list A) :=
  match fuel, l with
  | Datatypes.S k, _ :: _ => firstn c l :: get_tasks k c (skipn c l)
  | _, _ => []
  end.
Definition batches (procs : nat) (l : list A) : list (list A) :=
  get_tasks (length l) (chunksize procs (length l)) l.

(** pool.py MapResult; the value is a list with a slot per element or, after a failure, the
    first exception *)
Record map_result := MR { mr_left : nat; mr_value : list (option B) + exn }.

Definition new_result (procs n : nat) : map_result :=
  let c := chunksize procs n in
  MR (if c =? 0 then 0 else n / c + (if n mod c =? 0 then 0 else 1)) (inl (repeat None n)).

(** pool.py MapResult._set *)
Definition set_result (c : nat) (r : map_result) (i : nat) (out : list B + exn) : map_result :=
  MR (mr_left r - 1)
     match out, mr_value r with
     | inl bs, inl v => inl (firstn (i * c) v ++ map Some bs ++ skipn ((i + 1) * c) v)
     | inr e, inl _ => inr e
     | _, inr e => inr e
     end.

Inductive act := Act (o : O) | Ret (r : res B).
(** pool.py mapstar: list(map(func, batch)) *)
Definition code (batch : list A) : list act :=
  flat_map (fun x => map Act (ops x) ++ [Ret (f x)]) batch.

(** a busy worker: its batch, what it has left to do, the results so far *)
Record worker := W { w_batch : nat; w_code : list act; w_done : list B }.

(** the task queue, the busy workers, the queue of outcomes, the result object, shared state *)
Record pool := Pl {
  pl_tasks : list (nat * list A); pl_busy : list worker; pl_out : list (nat * (list B + exn));
  pl_result : map_result; pl_state : S
}.

(** pool.py Pool.map: the tasks are put in the queue in order *)
Definition start (procs : nat) (l : list A) (s : S) : pool :=
  let bs := batches procs l in
  Pl (combine (seq 0 (length bs)) bs) [] [] (new_result procs (length l)) s.

(** pool.py worker (one of [procs]) and Pool._handle_results; [c] is the chunk size *)
Inductive step (procs c : nat) : pool -> pool -> Prop :=
| Take i b q ws out r s : length ws < procs ->
    step procs c (Pl ((i, b) :: q) ws out r s) (Pl q (ws ++ [W i (code b) []]) out r s)
| Do_act q ws ws' i o k d out r s :
    step procs c (Pl q (ws ++ W i (Act o :: k) d :: ws') out r s)
                 (Pl q (ws ++ W i k d :: ws') out r (effect o s))
| Fail_act q ws ws' i o k d out r s : faults ->   (* the action raises instead *)
    step procs c (Pl q (ws ++ W i (Act o :: k) d :: ws') out r s)
                 (Pl q (ws ++ ws') (out ++ [(i, inr OSError)]) r s)
| Ret_ok q ws ws' i b k d out r s :
    step procs c (Pl q (ws ++ W i (Ret (Ok b) :: k) d :: ws') out r s)
                 (Pl q (ws ++ W i k (d ++ [b]) :: ws') out r s)
| Ret_err q ws ws' i e k d out r s :
    step procs c (Pl q (ws ++ W i (Ret (Err e) :: k) d :: ws') out r s)
                 (Pl q (ws ++ ws') (out ++ [(i, inr e)]) r s)
| Finish q ws ws' i d out r s :
    step procs c (Pl q (ws ++ W i [] d :: ws') out r s)
                 (Pl q (ws ++ ws') (out ++ [(i, inl d)]) r s)
| Collect q ws i o out r s :
    step procs c (Pl q ws ((i, o) :: out) r s) (Pl q ws out (set_result c r i o) s)
| Killed q ws ws' w out r s : faults ->   (* the process dies; its batch is lost *)
    step procs c (Pl q (ws ++ w :: ws') out r s) (Pl q (ws ++ ws') out r s).

Inductive steps (procs c : nat) : pool -> pool -> Prop :=
| Stop p : steps procs c p p
| Step p q r : step procs c p q -> steps procs c q r -> steps procs c p r.

(** a state some execution of pool.map(f, l) goes through, from shared state [s0] *)
Definition reaches (procs : nat) (l : list A) (s0 : S) (p : pool) : Prop :=
  steps procs (chunksize procs (length l)) (start procs l s0) p.

(** pool.py MapResult.get, once the event is set (map() blocks until then): no outcome is left
    to wait for.  A slot without value is None. *)
Definition ready (p : pool) : Prop := mr_left (pl_result p) = 0.

(** pool.map(f, l) returns or raises [r] in the shared state [s'].  multiprocessing.Pool refuses
    fewer than one process. *)
Inductive pool_map (procs : nat) (l : list A) (s : S) : res (list (option B)) -> S -> Prop :=
| Map_refused : procs = 0 -> pool_map procs l s (Err ValueError) s
| Map_returns p v : procs <> 0 -> reaches procs l s p -> ready p -> mr_value (pl_result p) = inl v ->
    pool_map procs l s (Ok v) (pl_state p)
| Map_raises p e : procs <> 0 -> reaches procs l s p -> ready p -> mr_value (pl_result p) = inr e ->
    pool_map procs l s (Err e) (pl_state p).
End Pool.

Section Search.
Context (N : num) (F : Type).
(** worker_pool.py:46-71  process_fname; it has no effect outside its process *)
Context (process_fname : F -> res (list (peak N))) (faults : Prop).

(** worker_pool.py:35-44  process_fname_list.  A None among the results cannot be iterated. *)
Inductive process_fname_list (procs : nat) (fnames : list F) : res (list (peak N)) -> Prop :=
| Process_list r :
    pool_map (O := Empty_set) (fun _ (s : unit) => s) (fun _ => []) process_fname faults procs fnames tt r tt ->
    process_fname_list procs fnames
      (v <- r ;;
       l <- mapM (fun o : option (list (peak N)) => match o with Some x => Ok x | None => Err TypeError end) v ;;
       Ok (concat l)).

(** pipeline.py:183-187  the loop of search, [peaks] being those found so far *)
Inductive search_loop (procs : nat) : list (list F) -> list (peak N) -> res (list (peak N)) -> Prop :=
| Loop_done peaks : search_loop procs [] peaks (Ok peaks)
| Loop_next c cs peaks found r : process_fname_list procs c (Ok found) ->
    search_loop procs cs (peaks ++ found) r -> search_loop procs (c :: cs) peaks r
| Loop_raises c cs peaks e : process_fname_list procs c (Err e) ->
    search_loop procs (c :: cs) peaks (Err e).

(** pipeline.py:177-189  search over the chunks of file names *)
Inductive search (procs : nat) (chunks : list (list F)) : res (list (peak N)) -> Prop :=
| Search r : search_loop procs chunks [] r ->
    search procs chunks (peaks <- r ;; Ok (sorted_asc (fun p q => n_ltb (p_period p) (p_period q)) peaks)).
End Search.
