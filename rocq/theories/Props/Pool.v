(** C51: the parallel search. *)
From Coq Require Import String List Arith ZArith Bool Lia Reals Lra Permutation Sorted.
From Verif Require Import Base.Result Base.Buf Base.Num Model.Cluster Model.Peaks Model.DmIter Model.Pool
  Proof.Cluster Proof.Pool Props.Pipeline.
Import ListNotations.

(** Whatever the schedule, if map() returns it returns the results of the elements in their order;
    if it raises, it raises what one of them raised or (if faults happen) a failure of an action.
    An element that never returns keeps map() from returning. *)
Theorem pool_map_sound :
  forall {S O A B} (effect : O -> S -> S) (ops : A -> list O) (f : A -> res B) (faults : Prop)
    procs (l : list A) s r s',
  procs <> 0 -> pool_map effect ops f faults procs l s r s' ->
  match r with
  | Ok v => exists bs, Forall2 (fun x b => f x = Ok b) l bs /\ v = map Some bs
  | Err e => (exists x, In x l /\ f x = Err e) \/ (faults /\ e = OSError /\ exists x, In x l /\ ops x <> [])
  | _ => False
  end.
Proof.
  intros S O A B effect ops f faults procs l s r s' HP H.
  assert (RV := ready_value effect ops f faults (fun (_ : S) (_ : unit) => tt) (fun _ : O => tt)
    (fun _ _ _ _ => eq_refl) (fun _ _ _ _ _ => eq_refl) procs l s HP).
  destruct H as [H|p v _ R Y E|p e _ R Y E]; [contradiction| |]; specialize (RV p R Y); rewrite E in RV.
  - destruct RV as [(bs & F & ->) _]. exists bs. auto.
  - exact RV.
Qed.
Print Assumptions pool_map_sound.

Theorem pool_map_correct :
  forall {S O A B} (effect : O -> S -> S) (ops : A -> list O) (f : A -> res B) (faults : Prop)
    procs (l : list A) s r s',
  procs <> 0 -> (forall x, In x l -> f x <> UB /\ f x <> Loop) ->
  pool_map effect ops f faults procs l s r s' ->
  match r with
  | Ok v => exists bs, Forall2 (fun x b => f x = Ok b) l bs /\ v = map Some bs
  | Err e => (exists x, In x l /\ f x = Err e) \/ (faults /\ e = OSError /\ exists x, In x l /\ ops x <> [])
  | _ => False
  end.
Proof. intros. eapply pool_map_sound; eauto. Qed.
Print Assumptions pool_map_correct.

(** No execution of map() goes on for ever, and without faults none stops before the result is
    there. *)
Theorem pool_map_terminates :
  forall {S O A B} (effect : O -> S -> S) (ops : A -> list O) (f : A -> res B) (faults : Prop)
    procs (l : list A) s,
  procs <> 0 -> (forall x, In x l -> f x <> UB /\ f x <> Loop) ->
  well_founded (fun q p => step effect ops f faults procs (chunksize procs (length l)) p q) /\
  (~ faults -> forall p, reaches effect ops f faults procs l s p ->
     (forall q, ~ step effect ops f faults procs (chunksize procs (length l)) p q) -> ready p).
Proof.
  intros S O A B effect ops f faults procs l s HP NU. split.
  - apply well_founded_lt_compat with (f := work ops f). intros q p H. eapply step_work; eauto.
  - intros NF p R Q.
    destruct (progress effect ops f faults (fun (_ : S) (_ : unit) => tt) (fun _ : O => tt)
      (fun _ _ _ _ => eq_refl) (fun _ _ _ _ _ => eq_refl) procs l s HP NU p R) as [H|[[q H]|H]]; auto.
    + now apply Q in H.
    + contradiction.
Qed.
Print Assumptions pool_map_terminates.

(** so a result always exists *)
Theorem pool_map_returns :
  forall {S O A B} (effect : O -> S -> S) (ops : A -> list O) (f : A -> res B) procs (l : list A) s,
  procs <> 0 -> (forall x, In x l -> f x <> UB /\ f x <> Loop) ->
  exists r s', pool_map effect ops f False procs l s r s'.
Proof.
  intros S O A B effect ops f procs l s HP NU.
  destruct (pool_map_terminates effect ops f False procs l s HP NU) as [WF PR].
  assert (G : exists p, reaches effect ops f False procs l s p /\ ready p).
  { assert (H0 : reaches effect ops f False procs l s (start procs l s)) by apply Stop.
    revert H0. generalize (start (O := O) (B := B) procs l s). intros p. induction (WF p) as [p _ IH]. intros R.
    destruct (Nat.eq_dec (mr_left (pl_result p)) 0) as [E|E]; [exists p; auto|].
    destruct (progress effect ops f False (fun (_ : S) (_ : unit) => tt) (fun _ : O => tt)
      (fun _ _ _ _ => eq_refl) (fun _ _ _ _ _ => eq_refl) procs l s HP NU p R) as [H|[[q H]|[]]]; [contradiction|].
    apply (IH q H). clear - R H. unfold reaches in *. induction R as [p|p q' r H' _ IH]; [econstructor; [exact H|constructor]|].
    econstructor; [exact H'|]. now apply IH. }
  destruct G as (p & R & Y). destruct (mr_value (pl_result p)) as [v|e] eqn:E.
  - exists (Ok v), (pl_state p). now apply Map_returns.
  - exists (Err e), (pl_state p). now apply Map_raises.
Qed.
Print Assumptions pool_map_returns.

(** five elements on two workers; one fails *)
Example pool_map_correct_used :
  let f := fun x => if x =? 7 then Err ValueError else Ok (x * x) in
  (forall x, In x [1; 2; 3; 4; 5] -> f x <> UB /\ f x <> Loop) /\
  exists r s', pool_map (O := Empty_set) (fun _ (s : unit) => s) (fun _ => []) f False 2 [1; 2; 3; 4; 5] tt r s' /\
    r = Ok (map Some [1; 4; 9; 16; 25]).
Proof.
  intros f. assert (NU : forall x, f x <> UB /\ f x <> Loop) by (intros x; unfold f; destruct (x =? 7); split; discriminate).
  split; [intros x _; apply NU|].
  destruct (pool_map_returns (O := Empty_set) (fun _ (s : unit) => s) (fun _ => []) f 2 [1; 2; 3; 4; 5] tt) as (r & s' & H); [lia|intros x _; apply NU|].
  exists r, s'. split; [exact H|]. apply pool_map_correct in H; [|lia|intros x _; apply NU].
  destruct r as [v|e| |]; try contradiction.
  - destruct H as (bs & F & ->). do 2 f_equal. unfold f in F.
    repeat match goal with H : Forall2 _ (_ :: _) _ |- _ => inversion H; clear H; subst | H : Forall2 _ [] _ |- _ => inversion H; clear H; subst end.
    cbn in *. congruence.
  - exfalso. destruct H as [(x & Hx & E)|([] & _)]. cbn in Hx. unfold f in E.
    destruct Hx as [<-|[<-|[<-|[<-|[<-|[]]]]]]; discriminate.
Qed.

(** ** search *)
Section Search.
Context (N : num) (F : Type) (process_fname : F -> res (list (peak N))).

Lemma process_list_spec faults procs c r : procs <> 0 ->
  process_fname_list N F process_fname faults procs c r ->
  match r with
  | Ok found => exists ls, Forall2 (fun x l => process_fname x = Ok l) c ls /\ found = concat ls
  | Err e => exists x, In x c /\ process_fname x = Err e
  | _ => False
  end.
Proof.
  intros HP [r0 H]. apply pool_map_sound in H; auto. destruct r0 as [v|e| |]; try contradiction; cbn [bind].
  - destruct H as (ls & G & ->). 
    replace (mapM _ (map Some ls)) with (Ok ls); [cbn; eauto|].
    clear. induction ls as [|a ls IH]; [reflexivity|]. cbn. now rewrite <- IH.
  - destruct H as [H|(_ & _ & x & _ & H)]; [exact H|contradiction].
Qed.

Lemma search_loop_spec faults procs cs peaks r : procs <> 0 ->
  search_loop N F process_fname faults procs cs peaks r ->
  match r with
  | Ok out => exists ls, Forall2 (fun x l => process_fname x = Ok l) (concat cs) ls /\ out = (peaks ++ concat ls)%list
  | Err e => exists x, In x (concat cs) /\ process_fname x = Err e
  | _ => False
  end.
Proof.
  intros HP H. induction H as [peaks|c cs peaks found r H H' IH|c cs peaks e H].
  - exists []. split; [constructor|cbn; now rewrite app_nil_r].
  - cbn [concat] in *. apply process_list_spec in H; auto. destruct H as (ls & G & ->).
    destruct r as [out|e| |]; try contradiction.
    + destruct IH as (ls' & G' & ->). exists (ls ++ ls')%list. split; [now apply Forall2_app|].
      now rewrite concat_app, app_assoc.
    + destruct IH as (x & Hx & E). exists x. split; [apply in_app_iff; auto|exact E].
  - cbn [concat] in *. apply process_list_spec in H; auto.
    destruct H as (x & Hx & E). exists x. split; [apply in_app_iff; auto|exact E].
Qed.
End Search.

(** C51: the peaks of all files in the order of the files, sorted by period without changing the
    order of equal periods; nothing in there depends on the number of processes, the chunks or
    the schedule.  If a file cannot be processed the search raises what one of them raises. *)
Theorem search_correct :
  forall F (process_fname : F -> res (list (peak numR))) faults procs chunks r,
  procs <> 0 -> (forall x, In x (concat chunks) -> process_fname x <> UB /\ process_fname x <> Loop) ->
  search numR F process_fname faults procs chunks r ->
  match r with
  | Ok out => exists ls, Forall2 (fun x l => process_fname x = Ok l) (concat chunks) ls /\
      Permutation out (concat ls) /\
      StronglySorted (fun p q : peak numR => p_period p <= p_period q)%R out /\
      out = sorted_asc (fun p q : peak numR => n_ltb (p_period p) (p_period q)) (concat ls)
  | Err e => exists x, In x (concat chunks) /\ process_fname x = Err e
  | _ => False
  end.
Proof.
  intros F pf faults procs chunks r HP NU [r0 H]. apply search_loop_spec in H; auto.
  destruct r0 as [peaks|e| |]; try contradiction; cbn [bind]; [|exact H].
  destruct H as (ls & G & ->). exists ls. split; [exact G|]. cbn [app]. split; [|split; [|reflexivity]].
  - symmetry. exact (sorted_asc_perm (fun p : peak numR => (p_period p : R)) (concat ls)).
  - exact (sorted_asc_sorted (fun p : peak numR => (p_period p : R)) (concat ls)).
Qed.
Print Assumptions search_correct.

(** Two searches of the same files with whatever numbers of processes, chunks and schedules that
    both succeed give the same list; and if one succeeds the other does. *)
Theorem search_independent :
  forall F (process_fname : F -> res (list (peak numR))) faults faults' procs procs' chunks chunks' r r',
  procs <> 0 -> procs' <> 0 -> concat chunks = concat chunks' ->
  (forall x, In x (concat chunks) -> process_fname x <> UB /\ process_fname x <> Loop) ->
  search numR F process_fname faults procs chunks r ->
  search numR F process_fname faults' procs' chunks' r' ->
  (exists out, r = Ok out /\ r' = Ok out) \/ (exists e e', r = Err e /\ r' = Err e').
Proof.
  intros F pf faults faults' procs procs' chunks chunks' r r' HP HP' EC NU H H'.
  apply search_correct in H; auto. rewrite EC in NU. apply search_correct in H'; auto.
  destruct r as [out|e| |], r' as [out'|e'| |]; try contradiction.
  - left. destruct H as (ls & G & _ & _ & ->). destruct H' as (ls' & G' & _ & _ & ->). rewrite EC in G.
    assert (ls = ls') as ->; [|eauto]. clear - G G'. revert ls' G'. induction G as [|x l xs ls E G IH]; intros ls' G'; inversion G'; subst; auto.
    f_equal; [congruence|auto].
  - exfalso. destruct H as (ls & G & _). destruct H' as (x & Hx & E). rewrite EC in G. clear - G Hx E.
    induction G as [|y l xs ls E' G IH]; [destruct Hx|]. destruct Hx as [->|Hx]; [congruence|auto].
  - exfalso. destruct H' as (ls & G & _). destruct H as (x & Hx & E). rewrite <- EC in G. clear - G Hx E.
    induction G as [|y l xs ls E' G IH]; [destruct Hx|]. destruct Hx as [->|Hx]; [congruence|auto].
  - right. eauto.
Qed.
Print Assumptions search_independent.

(** the chunks of the DM iterator hold the same file names in the same order for every size *)
Theorem iterate_filenames_chunks :
  forall (d : dmiter numR) size size' chunks,
  1 <= size -> 1 <= size' -> iterate_filenames numR d size = Ok chunks ->
  exists chunks', iterate_filenames numR d size' = Ok chunks' /\ concat chunks' = concat chunks.
Proof.
  intros d size size' chunks H1 H2. unfold iterate_filenames.
  assert (G : forall dms a b chunks, length a < size -> length b < size' -> chunks_from numR d size dms a = Ok chunks ->
    exists chunks' rest, chunks_from numR d size' dms b = Ok chunks' /\ concat chunks = (a ++ rest)%list /\ concat chunks' = (b ++ rest)%list).
  { clear chunks. induction dms as [|x dms IH]; intros a b chunks La Lb E; cbn [chunks_from] in E |- *.
    - injection E as <-. eexists _, []. split; [reflexivity|]. rewrite !app_nil_r. split.
      + destruct a; cbn; rewrite ?app_nil_r; auto.
      + destruct b; cbn; rewrite ?app_nil_r; auto.
    - destruct (dict_get numR x (di_dict d)) as [m| | |]; try discriminate. cbn [bind] in E |- *.
      destruct (Nat.eqb_spec (length (a ++ [m_fname m])%list) size) as [Ea|Ea];
      destruct (Nat.eqb_spec (length (b ++ [m_fname m])%list) size') as [Eb|Eb]; rewrite ?app_length in *; cbn [length] in *.
      + destruct (chunks_from numR d size dms []) as [l| | |] eqn:El; try discriminate. cbn [bind] in E. injection E as <-.
        destruct (IH [] [] l ltac:(cbn; lia) ltac:(cbn; lia) El) as (l' & rest & -> & C1 & C2). cbn [bind].
        eexists _, (m_fname m :: rest). split; [reflexivity|]. cbn [concat]. rewrite C1, C2. cbn [app]. now rewrite <- !app_assoc.
      + destruct (chunks_from numR d size dms []) as [l| | |] eqn:El; try discriminate. cbn [bind] in E. injection E as <-.
        destruct (IH [] (b ++ [m_fname m])%list l ltac:(cbn; lia) ltac:(rewrite app_length; cbn; lia) El) as (l' & rest & -> & C1 & C2).
        eexists _, (m_fname m :: rest). split; [reflexivity|]. cbn [concat]. rewrite C1, C2. cbn [app]. now rewrite <- !app_assoc.
      + destruct (IH (a ++ [m_fname m])%list [] chunks ltac:(rewrite app_length; cbn; lia) ltac:(cbn; lia) E) as (l' & rest & -> & C1 & C2).
        cbn [bind]. eexists _, (m_fname m :: rest). split; [reflexivity|]. cbn [concat]. rewrite C1, C2. cbn [app]. now rewrite <- !app_assoc.
      + destruct (IH (a ++ [m_fname m])%list (b ++ [m_fname m])%list chunks ltac:(rewrite app_length; cbn; lia) ltac:(rewrite app_length; cbn; lia) E) as (l' & rest & -> & C1 & C2).
        eexists _, (m_fname m :: rest). split; [reflexivity|]. rewrite C1, C2. now rewrite <- !app_assoc. }
  intros E. destruct (G (di_selected d) [] [] chunks ltac:(cbn; lia) ltac:(cbn; lia) E) as (chunks' & rest & E' & C1 & C2).
  exists chunks'. split; [exact E'|]. cbn [app] in *. congruence.
Qed.
Print Assumptions iterate_filenames_chunks.

Example search_independent_used :
  let pf := fun x : nat => if x =? 0 then Err ValueError else Ok [pk (INR x) 1 0] in
  concat [[1; 2]; [3]] = concat [[1]; [2]; [3]] /\ (forall x, pf x <> UB /\ pf x <> Loop).
Proof. intros pf. split; [reflexivity|]. intros x. unfold pf. destruct (x =? 0); split; discriminate. Qed.
