(** Invariant of the executions of Pool.map. *)
From Coq Require Import List Arith ZArith Bool Lia Permutation.
From Verif Require Import Base.Result Base.Buf Model.Pool.
Import ListNotations.

(** ** batches *)
Section Batches.
Context {A : Type}.

Lemma chunksize_pos procs n : procs <> 0 -> n <> 0 -> chunksize procs n <> 0.
Proof.
  intros Hp Hn. unfold chunksize. destruct (Nat.eqb_spec n 0); [contradiction|].
  destruct (Nat.eqb_spec (n mod (procs * 4)) 0) as [E|E]; [|lia].
  pose proof (Nat.div_mod n (procs * 4) ltac:(lia)). intros H0. nia.
Qed.

Lemma get_tasks_concat c fuel (l : list A) : c <> 0 -> length l <= fuel -> concat (get_tasks fuel c l) = l.
Proof.
  intros Hc. revert l. induction fuel as [|k IH]; intros l H; destruct l as [|a l]; try reflexivity; [cbn in H; lia|].
  cbn [get_tasks concat]. rewrite IH; [apply firstn_skipn|]. rewrite skipn_length. cbn [length] in H |- *; lia.
Qed.

Lemma get_tasks_nth c fuel (l : list A) i : c <> 0 -> length l <= fuel -> i < length (get_tasks fuel c l) ->
  nth_error (get_tasks fuel c l) i = Some (firstn c (skipn (i * c) l)) /\ i * c < length l.
Proof.
  intros Hc. revert l i. induction fuel as [|k IH]; intros l i H Hi; destruct l as [|a l]; cbn [get_tasks length] in Hi; try lia.
  cbn [get_tasks]. destruct i as [|i]; [split; [reflexivity|cbn; lia]|]. cbn [nth_error].
  destruct (IH (skipn c (a :: l)) i) as [E L].
  - rewrite skipn_length. cbn [length] in H |- *; lia.
  - lia.
  - rewrite E. split; [|rewrite skipn_length in L; cbn [length] in L |- *; lia].
    f_equal. f_equal. clear. generalize (a :: l). intros m. cbn [Nat.mul].
    revert m. generalize (i * c). intros d. induction c as [|c IH]; intros m; [reflexivity|].
    destruct m as [|b m]; [now rewrite !skipn_nil|]. cbn [skipn Nat.add]. apply IH.
Qed.

Lemma get_tasks_length c fuel (l : list A) : c <> 0 -> length l <= fuel ->
  length (get_tasks fuel c l) = length l / c + (if length l mod c =? 0 then 0 else 1).
Proof.
  intros Hc. revert l. induction fuel as [|k IH]; intros l H; destruct l as [|a l]; try (cbn in H; lia);
    try (cbn [get_tasks length]; rewrite Nat.div_0_l, Nat.mod_0_l by lia; reflexivity).
  cbn [get_tasks]. change (length (firstn c (a :: l) :: get_tasks k c (skipn c (a :: l))))
    with (S (length (get_tasks k c (skipn c (a :: l))))).
  rewrite IH by (rewrite skipn_length; cbn [length] in H |- *; lia). rewrite skipn_length.
  set (n := length (a :: l)). assert (n <> 0) by (subst n; cbn; lia). clearbody n. clear - Hc H0.
  destruct (le_lt_dec c n) as [L|L].
  - replace n with ((n - c) + 1 * c) at 3 4 by lia. rewrite Nat.div_add, Nat.mod_add by lia. lia.
  - replace (n - c) with 0 by lia. rewrite Nat.div_0_l, Nat.mod_0_l by lia. rewrite Nat.div_small, Nat.mod_small by lia.
    destruct (Nat.eqb_spec n 0); [lia|reflexivity].
Qed.
End Batches.

Lemma firstn_nth_error {A} (l : list A) n i : i < n -> nth_error (firstn n l) i = nth_error l i.
Proof. revert l i. induction n as [|n IH]; intros [|a l] [|i] H; cbn; try lia; auto. apply IH; lia. Qed.
Lemma skipn_nth_error {A} (l : list A) n i : nth_error (skipn n l) i = nth_error l (n + i).
Proof. revert l. induction n as [|n IH]; intros [|a l]; cbn; auto. now destruct i. Qed.

Lemma Forall2_len {A B} (R : A -> B -> Prop) l m : Forall2 R l m -> length l = length m.
Proof. induction 1; cbn; auto. Qed.

(** lists of blocks, all of length [c] but the last *)
Lemma blocks_firstn {A} c (L : list (list A)) i :
  (forall j b, nth_error L j = Some b -> S j < length L -> length b = c) -> i < length L ->
  firstn (i * c) (concat L) = concat (firstn i L).
Proof.
  revert i. induction L as [|b L IH]; intros i H Hi; cbn [length] in Hi; [lia|].
  destruct i as [|i]; [reflexivity|]. cbn [concat firstn Nat.mul].
  assert (Lb : length b = c) by (apply (H 0); [reflexivity|cbn; lia]).
  rewrite firstn_app, Lb. replace (c + i * c - c) with (i * c) by lia.
  rewrite firstn_all2 by lia. f_equal. apply IH; [|lia]. intros j b' E Hj. apply (H (S j)); [exact E|cbn; lia].
Qed.
Lemma blocks_skipn {A} c (L : list (list A)) i :
  (forall j b, nth_error L j = Some b -> S j < length L -> length b = c) ->
  (forall j b, nth_error L j = Some b -> length b <= c) -> i < length L ->
  skipn ((i + 1) * c) (concat L) = concat (skipn (i + 1) L).
Proof.
  revert i. induction L as [|b L IH]; intros i H H' Hi; cbn [length] in Hi; [lia|].
  destruct i as [|i].
  - cbn [concat skipn Nat.add Nat.mul]. rewrite Nat.add_0_r. destruct L as [|b' L].
    + cbn [concat]. rewrite app_nil_r. apply skipn_all2. exact (H' 0 b eq_refl).
    + assert (Lb : length b = c) by (apply (H 0); [reflexivity|cbn; lia]).
      rewrite skipn_app, Lb, Nat.sub_diag, skipn_all2 by lia. reflexivity.
  - assert (Lb : length b = c) by (apply (H 0); [reflexivity|cbn; lia]).
    replace (S i + 1) with (S (i + 1)) by lia. cbn [concat skipn Nat.mul].
    rewrite skipn_app, Lb. replace (c + (i + 1) * c - c) with ((i + 1) * c) by lia.
    rewrite skipn_all2 by lia. cbn [app]. apply IH; [| |lia].
    + intros j b' E Hj. apply (H (S j)); [exact E|cbn; lia].
    + intros j b' E. apply (H' (S j) b' E).
Qed.

Section Inv.
Context {S O A B K V : Type} (effect : O -> S -> S) (ops : A -> list O) (f : A -> res B) (faults : Prop).
Context (look : S -> K -> V) (key : O -> K).
Hypothesis eff_other : forall o s k, k <> key o -> look (effect o s) k = look s k.
Hypothesis eff_local : forall o s s' k, look s k = look s' k -> look (effect o s) k = look (effect o s') k.
Context (procs : nat) (l : list A) (s0 : S).
Hypothesis procs_pos : procs <> 0.
(** the actions of different elements concern different parts of the state *)
Definition disjoint : Prop := forall i j x y o o', i <> j -> nth_error l i = Some x -> nth_error l j = Some y ->
  In o (ops x) -> In o' (ops y) -> key o <> key o'.

Local Notation c := (chunksize procs (length l)).
Local Notation bs := (batches procs l).
Local Notation reaches := (reaches effect ops f faults procs l s0).
Local Notation step := (step effect ops f faults procs c).
Local Notation pool := (@pool S O A B).
Local Notation worker := (@worker O B).

Definition good (x : A) (b : B) : Prop := f x = Ok b.
Definition bad (e : exn) : Prop :=
  (exists x, In x l /\ f x = Err e) \/ (faults /\ e = OSError /\ exists x, In x l /\ ops x <> []).

Definition all_done (n : nat -> nat) (i : nat) (xs : list A) : Prop :=
  forall j x, nth_error xs j = Some x -> n (i * c + j) = length (ops x).

Definition w_ok (n : nat -> nat) (w : worker) : Prop :=
  exists xs1 xs2, nth_error bs (w_batch w) = Some (xs1 ++ xs2) /\ Forall2 good xs1 (w_done w) /\
    all_done n (w_batch w) xs1 /\
    ((xs2 = [] /\ w_code w = []) \/
     exists x xs os os', xs2 = x :: xs /\ ops x = os ++ os' /\
       w_code w = map Act os' ++ Ret (f x) :: code ops f xs /\
       n (w_batch w * c + length xs1) = length os /\
       forall j, length xs1 < j < length (xs1 ++ xs2) -> n (w_batch w * c + j) = 0).

Definition out_ok (n : nat -> nat) (x : nat * (list B + exn)) : Prop :=
  match snd x with
  | inl r => exists b, nth_error bs (fst x) = Some b /\ Forall2 good b r /\ all_done n (fst x) b
  | inr e => bad e
  end.

Definition val_ok (n : nat -> nat) (coll : list nat) (v : list (option B) + exn) : Prop :=
  match v with
  | inr e => bad e
  | inl v => exists blocks, v = concat blocks /\ length blocks = length bs /\
      forall i blk b, nth_error blocks i = Some blk -> nth_error bs i = Some b ->
        (In i coll -> exists r, blk = map Some r /\ Forall2 good b r /\ all_done n i b) /\
        (~ In i coll -> blk = repeat None (length b))
  end.

Definition state_ok (n : nat -> nat) (s : S) : Prop :=
  (disjoint -> forall j x o, nth_error l j = Some x -> In o (ops x) ->
     look s (key o) = look (fold_left (fun s o => effect o s) (firstn (n j) (ops x)) s0) (key o)) /\
  (forall k, (forall x o, In x l -> In o (ops x) -> key o <> k) -> look s k = look s0 k) /\
  (forall j x, nth_error l j = Some x -> n j <= length (ops x)).

Definition inv (p : pool) : Prop := exists (coll lost : list nat) (n : nat -> nat),
  Permutation (map fst (pl_tasks p) ++ map w_batch (pl_busy p) ++ map fst (pl_out p) ++ coll ++ lost)
    (seq 0 (length bs)) /\
  (forall i b, In (i, b) (pl_tasks p) -> nth_error bs i = Some b /\ forall j, j < length b -> n (i * c + j) = 0) /\
  Forall (w_ok n) (pl_busy p) /\ Forall (out_ok n) (pl_out p) /\
  mr_left (pl_result p) = length bs - length coll /\ val_ok n coll (mr_value (pl_result p)) /\
  state_ok n (pl_state p) /\ (lost <> [] -> faults).

(** *** facts on batches *)
Lemma c_pos : l <> [] -> c <> 0.
Proof. intros H. apply chunksize_pos; auto. now destruct l. Qed.
Lemma bs_nil : l = [] -> bs = [].
Proof. now intros ->. Qed.
Lemma bs_concat : concat bs = l.
Proof.
  destruct l as [|a m] eqn:E; [reflexivity|]. rewrite <- E. apply get_tasks_concat; auto.
  apply chunksize_pos; auto. rewrite E. discriminate.
Qed.
Lemma bs_nth i b : nth_error bs i = Some b -> b = firstn c (skipn (i * c) l) /\ i * c < length l /\ c <> 0.
Proof.
  intros H. assert (Hl : l <> []). { intros E. rewrite bs_nil in H by auto. now destruct i. }
  pose proof (c_pos Hl) as Hc. destruct (get_tasks_nth c (length l) l i Hc (le_n _)) as [E L].
  - change (get_tasks (length l) c l) with bs. apply nth_error_Some. congruence.
  - change (get_tasks (length l) c l) with bs in E. split; [congruence|auto].
Qed.
Lemma bs_elem i b j x : nth_error bs i = Some b -> nth_error b j = Some x -> nth_error l (i * c + j) = Some x /\ j < c.
Proof.
  intros H E. destruct (bs_nth i b H) as (-> & L & Hc).
  assert (Hj : j < c). { assert (j < length (firstn c (skipn (i * c) l))) by (apply nth_error_Some; congruence). rewrite firstn_length in *. lia. }
  split; auto. now rewrite firstn_nth_error, skipn_nth_error in E by auto.
Qed.
Lemma bs_in i b x : nth_error bs i = Some b -> In x b -> In x l.
Proof.
  intros H Hx. apply In_nth_error in Hx as [j E]. destruct (bs_elem i b j x H E) as [G _]. eapply nth_error_In, G.
Qed.
Lemma bs_block_len i b : nth_error bs i = Some b -> length b <= c.
Proof. intros H. destruct (bs_nth i b H) as (-> & _). rewrite firstn_length. lia. Qed.
Lemma bs_block_full i b : nth_error bs i = Some b -> Datatypes.S i < length bs -> length b = c.
Proof.
  intros H Hi. destruct (nth_error bs (Datatypes.S i)) as [b'|] eqn:E; [|apply nth_error_None in E; lia].
  destruct (bs_nth _ _ E) as (_ & L & _). destruct (bs_nth i b H) as (-> & _). rewrite firstn_length, skipn_length.
  cbn [Nat.mul] in L. lia.
Qed.
Lemma bs_left : mr_left (new_result (B := B) procs (length l)) = length bs.
Proof.
  unfold new_result. cbn [mr_left]. destruct (Nat.eqb_spec c 0) as [E|E].
  - destruct l as [|a m] eqn:El; [reflexivity|]. exfalso. revert E. rewrite <- El. apply chunksize_pos; auto. rewrite El. discriminate.
  - symmetry. now apply get_tasks_length.
Qed.

(** *** [n] only matters on the elements of a batch *)
Lemma all_done_ext n n' i xs b : nth_error bs i = Some b -> (exists ys, b = xs ++ ys) ->
  (forall j, j < length b -> n (i * c + j) = n' (i * c + j)) -> all_done n i xs -> all_done n' i xs.
Proof.
  intros H [ys ->] E D j x Hx. rewrite <- E; [now apply D|]. rewrite app_length.
  assert (j < length xs) by (apply nth_error_Some; congruence). lia.
Qed.
Lemma w_ok_ext n n' w b : nth_error bs (w_batch w) = Some b ->
  (forall j, j < length b -> n (w_batch w * c + j) = n' (w_batch w * c + j)) -> w_ok n w -> w_ok n' w.
Proof.
  intros H E (xs1 & xs2 & Hb & F & D & C). rewrite H in Hb. injection Hb as ->.
  exists xs1, xs2. split; [exact H|]. split; [exact F|]. split; [eapply all_done_ext; eauto|].
  destruct C as [C|(x & xs & os & os' & -> & Eo & Ec & En & Ez)]; [now left|].
  right. exists x, xs, os, os'. split; [reflexivity|]. split; [exact Eo|]. split; [exact Ec|]. split.
  - rewrite <- E; [exact En|]. rewrite app_length. cbn. lia.
  - intros j Hj. rewrite <- E; [now apply Ez|lia].
Qed.

(** indices of different batches differ *)
Lemma index_inj i j i' j' : j < c -> j' < c -> i * c + j = i' * c + j' -> i = i' /\ j = j'.
Proof. intros. assert (i = i') by nia. subst. split; auto. lia. Qed.

Definition bump (n : nat -> nat) (k v : nat) : nat -> nat := fun m => if m =? k then v else n m.

Lemma NoDup_mid {X} (a : X) l1 l2 : NoDup (l1 ++ a :: l2) -> ~ In a (l1 ++ l2).
Proof. apply NoDup_remove_2. Qed.

Lemma inv_start : inv (start procs l s0).
Proof.
  exists [], [], (fun _ => 0). cbn [start pl_tasks pl_busy pl_out pl_result pl_state map app].
  split.
  { rewrite app_nil_r. replace (map fst (combine (seq 0 (length bs)) bs)) with (seq 0 (length bs)); [reflexivity|].
    generalize 0. induction bs as [|b m IH]; intros s; [reflexivity|]. cbn. f_equal. apply IH. }
  split.
  { intros i b H. split; [|reflexivity].
    assert (G : forall m s, In (i, b) (combine (seq s (length m)) m) -> s <= i /\ nth_error m (i - s) = Some b).
    { induction m as [|a m IH]; intros s [].
      - injection H0 as -> ->. split; [lia|]. now rewrite Nat.sub_diag.
      - destruct (IH _ H0) as [L E]. split; [lia|]. replace (i - s) with (Datatypes.S (i - Datatypes.S s)) by lia. exact E. }
    destruct (G bs 0 H) as [_ E]. now rewrite Nat.sub_0_r in E. }
  split; [constructor|]. split; [constructor|]. split; [rewrite bs_left; cbn; lia|]. split.
  { cbn [new_result mr_value val_ok]. exists (map (fun b => repeat None (length b)) bs). split.
    - rewrite <- bs_concat at 1. clear. induction bs as [|b m IH]; [reflexivity|]. cbn. rewrite app_length, repeat_app. now rewrite IH.
    - split; [apply map_length|]. intros i blk b E1 E2. split; [intros []|]. intros _.
      rewrite nth_error_map, E2 in E1. now injection E1 as <-. }
  split; [|now intros []].
  split; [reflexivity|]. split; [reflexivity|]. intros. lia.
Qed.

Lemma bump_other n i j v i' b' j' : nth_error bs i' = Some b' -> j' < length b' -> j < c -> i <> i' ->
  n (i' * c + j') = bump n (i * c + j) v (i' * c + j').
Proof.
  intros H Hj Hc Hi. unfold bump. destruct (Nat.eqb_spec (i' * c + j') (i * c + j)) as [E|]; auto.
  exfalso. apply Hi. apply index_inj in E; [easy| |auto]. pose proof (bs_block_len _ _ H). lia.
Qed.

Lemma perm_nodup (a : list nat) n : Permutation a (seq 0 n) -> NoDup a.
Proof. intros H. eapply Permutation_NoDup; [symmetry; exact H|apply seq_NoDup]. Qed.

Lemma w_code_act n i o k d : w_ok n (W i (Act o :: k) d) ->
  exists xs1 x xs os os', nth_error bs i = Some (xs1 ++ x :: xs) /\ Forall2 good xs1 d /\ all_done n i xs1 /\
    ops x = os ++ o :: os' /\ k = map Act os' ++ Ret (f x) :: code ops f xs /\
    n (i * c + length xs1) = length os /\ forall j, length xs1 < j < length (xs1 ++ x :: xs) -> n (i * c + j) = 0.
Proof.
  intros (xs1 & xs2 & Hb & F & D & C). cbn [w_batch w_code w_done] in *.
  destruct C as [[_ C]|(x & xs & os & os' & -> & Eo & Ec & En & Ez)]; [discriminate|].
  destruct os' as [|o' os']; [discriminate|]. cbn [map app] in Ec. injection Ec as -> ->.
  exists xs1, x, xs, os, os'. auto 10.
Qed.

Lemma w_code_ret n i r k d : w_ok n (W i (Ret r :: k) d) ->
  exists xs1 x xs, nth_error bs i = Some (xs1 ++ x :: xs) /\ Forall2 good xs1 d /\ all_done n i xs1 /\
    r = f x /\ k = code ops f xs /\
    n (i * c + length xs1) = length (ops x) /\ forall j, length xs1 < j < length (xs1 ++ x :: xs) -> n (i * c + j) = 0.
Proof.
  intros (xs1 & xs2 & Hb & F & D & C). cbn [w_batch w_code w_done] in *.
  destruct C as [[_ C]|(x & xs & os & os' & -> & Eo & Ec & En & Ez)]; [discriminate|].
  destruct os' as [|o' os']; [|discriminate]. cbn [map app] in Ec. injection Ec as -> ->.
  rewrite app_nil_r in Eo. subst os. exists xs1, x, xs. auto 10.
Qed.

(** a worker at the start of the rest of its batch *)
Lemma w_ok_next n i xs1 xs2 d : nth_error bs i = Some (xs1 ++ xs2) -> Forall2 good xs1 d -> all_done n i xs1 ->
  (forall j, length xs1 <= j < length (xs1 ++ xs2) -> n (i * c + j) = 0) ->
  w_ok n (W i (code ops f xs2) d).
Proof.
  intros Hb F D Z. exists xs1, xs2. cbn [w_batch w_code w_done]. split; [exact Hb|]. split; [exact F|]. split; [exact D|].
  destruct xs2 as [|x xs]; [left; auto|]. right. exists x, xs, [], (ops x). split; [reflexivity|]. split; [reflexivity|].
  split; [cbn [code flat_map]; rewrite <- app_assoc; reflexivity|]. split.
  - apply Z. rewrite app_length. cbn. lia.
  - intros j Hj. apply Z. lia.
Qed.

Lemma fold_left_snoc s os o : fold_left (fun s o => effect o s) (os ++ [o]) s = effect o (fold_left (fun s o => effect o s) os s).
Proof. now rewrite fold_left_app. Qed.

Lemma inv_step p q : inv p -> step p q -> inv q.
Proof.
  intros (coll & lost & n & PM & T & W & Ou & Lf & Va & St & Lo) H.
  destruct H; cbn [pl_tasks pl_busy pl_out pl_result pl_state] in *.
  - (* Take *)
    exists coll, lost, n. cbn [pl_tasks pl_busy pl_out pl_result pl_state].
    split. { rewrite map_app. cbn [map fst w_batch] in *. rewrite <- PM. rewrite <- !app_assoc. cbn [app].
      apply Permutation_sym. rewrite !app_assoc. rewrite <- !app_assoc. rewrite app_comm_cons.
      change ((i :: map fst q) ++ map w_batch ws ++ map fst out ++ coll ++ lost) with
        (i :: (map fst q ++ map w_batch ws ++ map fst out ++ coll ++ lost)).
      rewrite !app_assoc. rewrite <- (app_assoc (map fst q ++ map w_batch ws)). rewrite <- (app_assoc (map fst q ++ map w_batch ws)).
      rewrite <- !app_assoc. rewrite !app_assoc. rewrite <- !app_assoc.
      etransitivity; [|apply Permutation_app_head, Permutation_app_head; reflexivity].
      rewrite app_assoc. rewrite (app_assoc _ _ (i :: _)). apply Permutation_middle. }
    split; [intros j b' Hj; apply T; now right|]. split; [|auto].
    apply Forall_app. split; [exact W|]. constructor; [|constructor].
    destruct (T i b (or_introl eq_refl)) as [Hb Z]. apply w_ok_next with (xs1 := []); auto.
    + intros j x Hx. now destruct j.
    + intros j Hj. apply Z. cbn in Hj. lia.
  - (* Do_act *)
    pose proof (perm_nodup _ _ PM) as ND.
    apply Forall_app in W as [W1 W2]. inversion W2 as [|? ? W0 W2']; subst. clear W2.
    destruct (w_code_act _ _ _ _ _ W0) as (xs1 & x & xs & os & os' & Hb & F & D & Eo & -> & En & Ez).
    assert (Hx : nth_error (xs1 ++ x :: xs) (length xs1) = Some x) by (rewrite nth_error_app2, Nat.sub_diag by lia; reflexivity).
    destruct (bs_elem _ _ _ _ Hb Hx) as [Hl Hc].
    set (n' := bump n (i * c + length xs1) (Datatypes.S (length os))).
    assert (NI : forall m, In m (map fst q ++ (map w_batch ws ++ map w_batch ws') ++ map fst out ++ coll ++ lost) -> i <> m).
    { intros m Hm ->. rewrite map_app in ND. cbn [map w_batch] in ND. rewrite <- !app_assoc in ND. cbn [app] in ND.
      rewrite app_assoc in ND. apply NoDup_mid in ND. apply ND. rewrite <- !app_assoc in *. exact Hm. }
    assert (KN : forall i' b' j', nth_error bs i' = Some b' -> i <> i' -> j' < length b' -> n (i' * c + j') = n' (i' * c + j')).
    { intros. eapply bump_other; eauto. }
    exists coll, lost, n'. cbn [pl_tasks pl_busy pl_out pl_result pl_state].
    split; [rewrite !map_app in *; cbn [map w_batch] in *; exact PM|].
    split.
    { intros i' b' Hi. destruct (T i' b' Hi) as [Hb' Z]. split; [exact Hb'|]. intros j Hj. rewrite <- (KN i' b'); auto.
      apply NI. apply in_app_iff. left. change i' with (fst (i', b')). now apply in_map. }
    assert (WE : forall w, In w (ws ++ ws') -> w_ok n w -> w_ok n' w).
    { intros w Hw Ok. pose proof Ok as (ys1 & ys2 & Hbw & _). eapply w_ok_ext; [exact Hbw| |exact Ok].
      intros j Hj. apply (KN _ _ _ Hbw); auto. apply NI. apply in_app_iff. right. apply in_app_iff. left.
      rewrite <- map_app. now apply in_map. }
    split.
    { apply Forall_app. split; [|constructor].
      - rewrite Forall_forall in *. intros w Hw. apply WE; [apply in_app_iff; auto|auto].
      - exists xs1, (x :: xs). cbn [w_batch w_code w_done]. split; [exact Hb|]. split; [exact F|]. split.
        + intros j y Hy. unfold n', bump. assert (j < length xs1) by (apply nth_error_Some; congruence).
          destruct (Nat.eqb_spec (i * c + j) (i * c + length xs1)); [lia|]. now apply D.
        + right. exists x, xs, (os ++ [o]), os'. split; [reflexivity|]. split; [now rewrite <- app_assoc|].
          split; [reflexivity|]. split.
          * unfold n', bump. rewrite Nat.eqb_refl, app_length. cbn. lia.
          * intros j Hj. unfold n', bump. destruct (Nat.eqb_spec (i * c + j) (i * c + length xs1)); [lia|]. now apply Ez.
      - rewrite Forall_forall in *. intros w Hw. apply WE; [apply in_app_iff; auto|auto]. }
    split.
    { rewrite Forall_forall in *. intros y Hy. specialize (Ou y Hy). unfold out_ok in *. destruct (snd y) as [r'|e]; [|exact Ou].
      destruct Ou as (b' & Hb' & F' & D'). exists b'. split; [exact Hb'|]. split; [exact F'|].
      eapply all_done_ext; [exact Hb'|exists []; now rewrite app_nil_r| |exact D']. intros j Hj. apply (KN _ _ _ Hb'); auto.
      apply NI. apply in_app_iff. right. apply in_app_iff. right. apply in_app_iff. left. now apply in_map. }
    split; [exact Lf|]. split.
    { unfold val_ok in *. destruct (mr_value r) as [v|e]; [|exact Va].
      destruct Va as (blocks & Ev & Lb & Bl). exists blocks. split; [exact Ev|]. split; [exact Lb|].
      intros i' blk b' E1 E2. destruct (Bl i' blk b' E1 E2) as [G1 G2]. split; [|exact G2]. intros Hi.
      destruct (G1 Hi) as (rr & Eb & Fr & Dr). exists rr. split; [exact Eb|]. split; [exact Fr|].
      eapply all_done_ext; [exact E2|exists []; now rewrite app_nil_r| |exact Dr]. intros j Hj. apply (KN _ _ _ E2); auto.
      apply NI. rewrite !in_app_iff. auto. }
    split; [|exact Lo].
    destruct St as (S1 & S2 & S3). split; [|split].
    + intros DJ j y o' Hj Ho. unfold n', bump. destruct (Nat.eqb_spec j (i * c + length xs1)) as [->|NE].
      * rewrite Hl in Hj. injection Hj as <-. rewrite Eo.
        assert (EF : firstn (Datatypes.S (length os)) (os ++ o :: os') = os ++ [o]).
        { rewrite firstn_app, firstn_all2 by lia. replace (Datatypes.S (length os) - length os) with 1 by lia. reflexivity. }
        rewrite EF, fold_left_snoc. apply eff_local. rewrite (S1 DJ _ _ _ Hl Ho), En, Eo.
        rewrite firstn_app, firstn_all, Nat.sub_diag. cbn [firstn]. now rewrite app_nil_r.
      * rewrite eff_other; [now apply S1|]. intros E. refine (DJ _ _ _ _ _ _ NE Hj Hl Ho _ E).
        rewrite Eo. apply in_app_iff. right. now left.
    + intros k' Hk. rewrite eff_other; [now apply S2|]. intros ->. apply (Hk x o); auto; [eapply nth_error_In; eauto|].
      rewrite Eo. apply in_app_iff. right. now left.
    + intros j y Hj. unfold n', bump. destruct (Nat.eqb_spec j (i * c + length xs1)) as [->|NE]; [|now apply S3].
      rewrite Hl in Hj. injection Hj as <-. rewrite Eo, app_length. cbn. lia.
  - (* Fail_act *)
    apply Forall_app in W as [W1 W2]. inversion W2 as [|? ? W0 W2']; subst. clear W2.
    destruct (w_code_act _ _ _ _ _ W0) as (xs1 & x & xs & os & os' & Hb & F & D & Eo & -> & En & Ez).
    exists coll, lost, n. cbn [pl_tasks pl_busy pl_out pl_result pl_state].
    split. { rewrite <- PM, !map_app. cbn [map w_batch fst]. rewrite <- !app_assoc. apply Permutation_app_head, Permutation_app_head.
      cbn [app]. rewrite (app_assoc (map w_batch ws')). rewrite (app_assoc (map w_batch ws') (map fst out) (coll ++ lost)).
      symmetry. apply Permutation_middle. }
    split; [exact T|]. split; [apply Forall_app; auto|]. split; [|auto].
    apply Forall_app. split; [exact Ou|]. constructor; [|constructor]. cbn [out_ok snd]. right. split; [auto|]. split; [reflexivity|].
    exists x. split; [eapply bs_in; [exact Hb|apply in_app_iff; right; now left]|]. rewrite Eo. now destruct os.
  - (* Ret_ok *)
    apply Forall_app in W as [W1 W2]. inversion W2 as [|? ? W0 W2']; subst. clear W2.
    destruct (w_code_ret _ _ _ _ _ W0) as (xs1 & x & xs & Hb & F & D & Er & -> & En & Ez).
    exists coll, lost, n. cbn [pl_tasks pl_busy pl_out pl_result pl_state].
    split; [rewrite !map_app in *; cbn [map w_batch] in *; exact PM|]. split; [exact T|]. split; [|auto].
    apply Forall_app. split; [exact W1|]. constructor; [|exact W2'].
    apply w_ok_next with (xs1 := xs1 ++ [x]).
    + rewrite <- app_assoc. exact Hb.
    + apply Forall2_app; [exact F|]. constructor; [now symmetry|constructor].
    + intros j y Hy. destruct (lt_dec j (length xs1)) as [L|L].
      * rewrite nth_error_app1 in Hy by auto. now apply D.
      * rewrite nth_error_app2 in Hy by lia. assert (j = length xs1) as ->.
        { destruct (j - length xs1) as [|[|m]] eqn:Ej; [lia|discriminate|discriminate]. }
        rewrite Nat.sub_diag in Hy. injection Hy as <-. exact En.
    + intros j Hj. apply Ez. rewrite !app_length in *. cbn in *. lia.
  - (* Ret_err *)
    apply Forall_app in W as [W1 W2]. inversion W2 as [|? ? W0 W2']; subst. clear W2.
    destruct (w_code_ret _ _ _ _ _ W0) as (xs1 & x & xs & Hb & F & D & Er & -> & En & Ez).
    exists coll, lost, n. cbn [pl_tasks pl_busy pl_out pl_result pl_state].
    split. { rewrite <- PM, !map_app. cbn [map w_batch fst]. rewrite <- !app_assoc. apply Permutation_app_head, Permutation_app_head.
      cbn [app]. rewrite (app_assoc (map w_batch ws')). rewrite (app_assoc (map w_batch ws') (map fst out) (coll ++ lost)).
      symmetry. apply Permutation_middle. }
    split; [exact T|]. split; [apply Forall_app; auto|]. split; [|auto].
    apply Forall_app. split; [exact Ou|]. constructor; [|constructor]. cbn [out_ok snd]. left. exists x.
    split; [eapply bs_in; [exact Hb|apply in_app_iff; right; now left]|]. now symmetry.
  - (* Finish *)
    apply Forall_app in W as [W1 W2]. inversion W2 as [|? ? W0 W2']; subst. clear W2.
    destruct W0 as (xs1 & xs2 & Hb & F & D & C). cbn [w_batch w_code w_done] in *.
    destruct C as [[-> _]|(x & xs & os & os' & _ & _ & Ec & _)]; [|now destruct os'].
    exists coll, lost, n. cbn [pl_tasks pl_busy pl_out pl_result pl_state].
    split. { rewrite <- PM, !map_app. cbn [map w_batch fst]. rewrite <- !app_assoc. apply Permutation_app_head, Permutation_app_head.
      cbn [app]. rewrite (app_assoc (map w_batch ws')). rewrite (app_assoc (map w_batch ws') (map fst out) (coll ++ lost)).
      symmetry. apply Permutation_middle. }
    split; [exact T|]. split; [apply Forall_app; auto|]. split; [|auto].
    apply Forall_app. split; [exact Ou|]. constructor; [|constructor]. cbn [out_ok snd fst]. rewrite app_nil_r in Hb. eauto.
  - (* Collect *)
    pose proof (perm_nodup _ _ PM) as ND. inversion Ou as [|? ? O1 O2]; subst.
    exists (i :: coll), lost, n. cbn [pl_tasks pl_busy pl_out pl_result pl_state map fst] in *.
    assert (LB : i < length bs).
    { assert (In i (seq 0 (length bs))) as Hi by (rewrite <- PM; rewrite !in_app_iff; cbn; auto). apply in_seq in Hi. lia. }
    assert (NC : ~ In i coll).
    { rewrite app_assoc in ND. apply NoDup_mid in ND. intros Hi. apply ND. rewrite !in_app_iff. auto. }
    split. { rewrite <- PM. apply Permutation_app_head, Permutation_app_head. cbn [app]. symmetry. apply Permutation_middle. }
    split; [exact T|]. split; [exact W|]. split; [exact O2|]. split.
    { cbn [set_result mr_left length]. rewrite Lf. lia. }
    split; [|auto].
    unfold set_result. cbn [mr_value]. unfold out_ok in O1. cbn [fst snd] in O1.
    destruct o as [rr|e]; [|destruct (mr_value r) as [v|e']; [exact O1|exact Va]].
    destruct (mr_value r) as [v|e']; [|exact Va].
    destruct O1 as (b & Hb & F & D). destruct Va as (blocks & -> & Lb & Bl).
    assert (BL : forall j blk b, nth_error blocks j = Some blk -> nth_error bs j = Some b -> length blk = length b).
    { intros j blk b' E1 E2. destruct (Bl j blk b' E1 E2) as [G1 G2]. destruct (in_dec Nat.eq_dec j coll) as [Hj|Hj].
      - destruct (G1 Hj) as (r' & -> & F' & _). rewrite map_length. symmetry. eapply Forall2_len; eauto.
      - rewrite (G2 Hj). apply repeat_length. }
    assert (Ex : forall j blk, nth_error blocks j = Some blk -> exists b, nth_error bs j = Some b).
    { intros j blk E. destruct (nth_error bs j) as [b'|] eqn:E'; [eauto|]. apply nth_error_None in E'.
      assert (j < length blocks) by (apply nth_error_Some; congruence). lia. }
    exists (firstn i blocks ++ [map Some rr] ++ skipn (i + 1) blocks). split.
    { rewrite (blocks_firstn c), (blocks_skipn c).
      - rewrite !concat_app. cbn [concat]. now rewrite app_nil_r.
      - intros j blk E Hj. destruct (Ex _ _ E) as [b' E']. rewrite (BL _ _ _ E E'). rewrite Lb in Hj. eapply bs_block_full; eauto.
      - intros j blk E. destruct (Ex _ _ E) as [b' E']. rewrite (BL _ _ _ E E'). eapply bs_block_len; eauto.
      - lia.
      - intros j blk E Hj. destruct (Ex _ _ E) as [b' E']. rewrite (BL _ _ _ E E'). rewrite Lb in Hj. eapply bs_block_full; eauto.
      - lia. }
    split; [rewrite !app_length, firstn_length, skipn_length; cbn; lia|].
    assert (LF : length (firstn i blocks) = i) by (rewrite firstn_length; lia).
    intros j blk b' E1 E2. destruct (lt_eq_lt_dec j i) as [[L|L]|L].
    + rewrite nth_error_app1 in E1 by lia. rewrite firstn_nth_error in E1 by auto. destruct (Bl j blk b' E1 E2) as [G1 G2].
      split; [intros [->|Hj]; [lia|auto]|]. intros Hj. apply G2. intros H. apply Hj. now right.
    + subst j. rewrite nth_error_app2, LF, Nat.sub_diag in E1 by lia. cbn in E1. injection E1 as <-.
      split; [|intros Hj; exfalso; apply Hj; now left]. intros _. exists rr. rewrite Hb in E2. injection E2 as <-. auto.
    + rewrite nth_error_app2, LF in E1 by lia. destruct (j - i) as [|m] eqn:Ej; [lia|]. cbn [app nth_error] in E1.
      rewrite skipn_nth_error in E1. replace (i + 1 + m) with j in E1 by lia. destruct (Bl j blk b' E1 E2) as [G1 G2].
      split; [intros [->|Hj]; [lia|auto]|]. intros Hj. apply G2. intros H. apply Hj. now right.
  - (* Killed *)
    apply Forall_app in W as [W1 W2]. inversion W2 as [|? ? W0 W2']; subst. clear W2.
    exists coll, (w_batch w :: lost), n. cbn [pl_tasks pl_busy pl_out pl_result pl_state].
    split. { rewrite <- PM, !map_app. cbn [map]. rewrite <- !app_assoc. apply Permutation_app_head, Permutation_app_head.
      cbn [app]. rewrite !app_assoc. symmetry. apply Permutation_middle. }
    split; [exact T|]. split; [apply Forall_app; auto|]. auto 10.
Qed.

Lemma inv_reach p : reaches p -> inv p.
Proof.
  unfold Pool.reaches. generalize inv_start. generalize (start (O := O) (B := B) procs l s0). intros p0 I0 H.
  induction H as [p|p q r H H' IH]; auto. apply IH. eapply inv_step; eauto.
Qed.

Lemma ready_all (p : pool) coll lost :
  Permutation (map fst (pl_tasks p) ++ map w_batch (pl_busy p) ++ map fst (pl_out p) ++ coll ++ lost) (seq 0 (length bs)) ->
  mr_left (pl_result p) = length bs - length coll -> ready p ->
  forall i, i < length bs -> In i coll.
Proof.
  intros PM L R i Hi. unfold ready in R. rewrite R in L.
  pose proof (Permutation_length PM) as PL. rewrite !app_length, seq_length in PL.
  assert (Permutation coll (seq 0 (length bs))) as PC.
  { rewrite <- PM. destruct (pl_tasks p), (pl_busy p), (pl_out p), lost; cbn in PL |- *; try lia. now rewrite app_nil_r. }
  rewrite PC. apply in_seq. lia.
Qed.

Lemma map_concat_some (rs : list (list B)) : concat (map (map Some) rs) = map Some (concat rs).
Proof. induction rs as [|r rs IH]; cbn; auto. now rewrite IH, map_app. Qed.

Lemma ready_value p : reaches p -> ready p ->
  match mr_value (pl_result p) with
  | inr e => bad e
  | inl v => (exists r, Forall2 good l r /\ v = map Some r) /\
      (disjoint -> forall x o, In x l -> In o (ops x) ->
        look (pl_state p) (key o) = look (fold_left (fun s o => effect o s) (ops x) s0) (key o))
  end.
Proof.
  intros H R. destruct (inv_reach p H) as (coll & lost & n & PM & T & W & Ou & Lf & Va & St & Lo).
  pose proof (fun i => ready_all p coll lost PM Lf R i) as AC.
  destruct (mr_value (pl_result p)) as [v|e]; [|exact Va].
  destruct Va as (blocks & -> & Lb & Bl).
  assert (AD : forall j x, nth_error l j = Some x -> n j = length (ops x)).
  { intros j x Hj. assert (Hl : l <> []) by (intros E; rewrite E in Hj; now destruct j). pose proof (c_pos Hl) as Hc.
    assert (Jl : j < length l) by (apply nth_error_Some; congruence).
    assert (Hi : j / c < length bs).
    { unfold batches. rewrite (get_tasks_length c) by auto. pose proof (Nat.div_mod j c Hc). pose proof (Nat.div_mod (length l) c Hc).
      pose proof (Nat.mod_upper_bound j c Hc). pose proof (Nat.mod_upper_bound (length l) c Hc).
      destruct (Nat.eqb_spec (length l mod c) 0); nia. }
    destruct (nth_error bs (j / c)) as [b|] eqn:Eb; [|apply nth_error_None in Eb; lia].
    destruct (nth_error blocks (j / c)) as [blk|] eqn:Ek; [|apply nth_error_None in Ek; lia].
    destruct (Bl _ _ _ Ek Eb) as [G _]. destruct (G (AC _ Hi)) as (r & _ & _ & D).
    pose proof (Nat.div_mod j c Hc) as DM. rewrite DM at 1. rewrite (Nat.mul_comm c). apply D.
    destruct (bs_nth _ _ Eb) as (-> & _ & _). rewrite firstn_nth_error by now apply Nat.mod_upper_bound.
    rewrite skipn_nth_error, <- (Nat.mul_comm c), <- DM. exact Hj. }
  split.
  - assert (G : exists rs, blocks = map (map Some) rs /\ Forall2 (Forall2 good) bs rs).
    { assert (GI : forall i blk b, nth_error blocks i = Some blk -> nth_error bs i = Some b ->
        exists r, blk = map Some r /\ Forall2 good b r).
      { intros i blk b E1 E2. destruct (Bl i blk b E1 E2) as [G _]. destruct (G (AC i ltac:(apply nth_error_Some; congruence))) as (r & E & F & _). eauto. }
      clear - GI Lb. revert GI Lb. generalize bs. clear. revert blocks. intros bk m. revert bk.
      induction m as [|b m IH]; intros [|blk bk] GI Lb; try discriminate.
      - exists []. split; [reflexivity|constructor].
      - destruct (GI 0 blk b eq_refl eq_refl) as (r & -> & F). destruct (IH bk) as (rs & -> & Fs).
        + intros i blk' b' E1 E2. apply (GI (Datatypes.S i)); auto.
        + now injection Lb.
        + exists (r :: rs). split; [reflexivity|]. now constructor. }
    destruct G as (rs & -> & F). exists (concat rs). split; [|apply map_concat_some].
    rewrite <- bs_concat at 1. clear - F. induction F; cbn; [constructor|]. now apply Forall2_app.
  - intros DJ x o Hx Ho. apply In_nth_error in Hx as [j Hj]. destruct St as (S1 & _ & _).
    rewrite (S1 DJ j x o Hj Ho), (AD j x Hj), firstn_all. reflexivity.
Qed.

Hypothesis no_ub : forall x, In x l -> f x <> UB /\ f x <> Loop.
Lemma progress p : reaches p -> ready p \/ (exists q, step p q) \/ faults.
Proof.
  intros H. destruct (inv_reach p H) as (coll & lost & n & PM & T & W & Ou & Lf & Va & St & Lo).
  destruct p as [q ws out r s]. cbn [pl_tasks pl_busy pl_out pl_result pl_state] in *.
  destruct out as [|[i o] out]; [|right; left; eexists; apply Collect].
  destruct ws as [|w ws].
  - destruct q as [|[i b] q].
    + destruct lost as [|i lost]; [|right; right; apply Lo; discriminate].
      left. unfold ready. cbn. rewrite Lf. pose proof (Permutation_length PM) as PL. cbn in PL.
      rewrite app_nil_r, seq_length in PL. lia.
    + right. left. eexists. apply Take. cbn. lia.
  - right. left. inversion W as [|? ? W0 _]; subst. destruct w as [i k d].
    pose proof W0 as (xs1 & xs2 & Hb & F & D & C). cbn [w_batch w_code w_done] in *.
    destruct C as [[_ ->]|(x & xs & os & os' & -> & Eo & -> & _ & _)].
    + eexists. apply (Finish effect ops f faults procs c q []).
    + destruct os' as [|o os']; cbn [map app].
      * assert (Hx : In x l) by (eapply bs_in; [exact Hb|apply in_app_iff; right; now left]).
        destruct (no_ub x Hx) as [N1 N2]. destruct (f x) as [b|e| |]; try contradiction.
        -- eexists. apply (Ret_ok effect ops f faults procs c q []).
        -- eexists. apply (Ret_err effect ops f faults procs c q []).
      * eexists. apply (Do_act effect ops f faults procs c q []).
Qed.

(** what is left to do *)
Definition work (p : pool) : nat :=
  list_sum (map (fun t => length (code ops f (snd t)) + 3) (pl_tasks p)) +
  list_sum (map (fun w => length (w_code w) + 2) (pl_busy p)) + length (pl_out p).

Lemma list_sum_cons a m : list_sum (a :: m) = a + list_sum m.
Proof. reflexivity. Qed.
Lemma step_work p q : step p q -> work q < work p.
Proof.
  intros H. destruct H; unfold work; cbn [pl_tasks pl_busy pl_out pl_result pl_state];
    rewrite ?map_app, ?app_length, ?list_sum_app; cbn [map snd w_code length];
    rewrite ?list_sum_cons; cbn [length]; try lia.
  - change (list_sum []) with 0. lia.
Qed.

(** an element whose result has been produced: its batch is out or collected, or the worker is
    past it *)
Definition produced (p : pool) (j : nat) : Prop :=
  (exists w, In w (pl_busy p) /\ w_batch w * c <= j < w_batch w * c + length (w_done w)) \/
  (exists i r, In (i, inl r) (pl_out p) /\ i * c <= j < i * c + length r) \/
  (exists v b, mr_value (pl_result p) = inl v /\ nth_error v j = Some (Some b)).

Lemma state_reach p : reaches p -> exists n : nat -> nat,
  (disjoint -> forall j x o, nth_error l j = Some x -> In o (ops x) ->
     look (pl_state p) (key o) = look (fold_left (fun s o => effect o s) (firstn (n j) (ops x)) s0) (key o)) /\
  (forall k, (forall x o, In x l -> In o (ops x) -> key o <> k) -> look (pl_state p) k = look s0 k) /\
  (forall j x, nth_error l j = Some x -> produced p j -> n j = length (ops x)).
Proof.
  intros H. destruct (inv_reach p H) as (coll & lost & n & PM & T & W & Ou & Lf & Va & (S1 & S2 & S3) & Lo).
  exists n. split; [exact S1|]. split; [exact S2|]. intros j x Hj [(w & Hw & L)|[(i & r & Hr & L)|(v & b & Ev & Hv)]].
  - rewrite Forall_forall in W. destruct (W w Hw) as (xs1 & xs2 & Hb & F & D & _).
    rewrite <- (Forall2_len _ _ _ F) in L. replace j with (w_batch w * c + (j - w_batch w * c)) by lia. apply D.
    destruct (nth_error xs1 (j - w_batch w * c)) as [y|] eqn:Ey; [|apply nth_error_None in Ey; lia].
    assert (Ey' : nth_error (xs1 ++ xs2) (j - w_batch w * c) = Some y).
    { rewrite nth_error_app1; auto. apply nth_error_Some. congruence. }
    destruct (bs_elem _ _ _ _ Hb Ey') as [G _]. replace (w_batch w * c + (j - w_batch w * c)) with j in G by lia. congruence.
  - rewrite Forall_forall in Ou. specialize (Ou _ Hr). cbn [out_ok snd fst] in Ou. destruct Ou as (b & Hb & F & D).
    rewrite <- (Forall2_len _ _ _ F) in L. replace j with (i * c + (j - i * c)) by lia. apply D.
    destruct (nth_error b (j - i * c)) as [y|] eqn:Ey; [|apply nth_error_None in Ey; lia].
    destruct (bs_elem _ _ _ _ Hb Ey) as [G _]. replace (i * c + (j - i * c)) with j in G by lia. congruence.
  - rewrite Ev in Va. destruct Va as (blocks & -> & Lb & Bl).
    assert (Hl : l <> []) by (intros E; rewrite E in Hj; now destruct j). pose proof (c_pos Hl) as Hc.
    assert (Jl : j < length l) by (apply nth_error_Some; congruence).
    assert (Hi : j / c < length bs).
    { unfold batches. rewrite (get_tasks_length c) by auto. pose proof (Nat.div_mod j c Hc). pose proof (Nat.div_mod (length l) c Hc).
      pose proof (Nat.mod_upper_bound j c Hc). pose proof (Nat.mod_upper_bound (length l) c Hc).
      destruct (Nat.eqb_spec (length l mod c) 0); nia. }
    destruct (nth_error bs (j / c)) as [bb|] eqn:Eb; [|apply nth_error_None in Eb; lia].
    destruct (nth_error blocks (j / c)) as [blk|] eqn:Ek; [|apply nth_error_None in Ek; lia].
    pose proof (Nat.div_mod j c Hc) as DM. pose proof (Nat.mod_upper_bound j c Hc) as MB.
    assert (BL : forall j blk b, nth_error blocks j = Some blk -> nth_error bs j = Some b -> length blk = length b).
    { intros j' blk' b' E1 E2. destruct (Bl j' blk' b' E1 E2) as [G1 G2]. destruct (in_dec Nat.eq_dec j' coll) as [Hj'|Hj'].
      - destruct (G1 Hj') as (r' & -> & F' & _). rewrite map_length. symmetry. eapply Forall2_len; eauto.
      - rewrite (G2 Hj'). apply repeat_length. }
    assert (Ex : forall j blk, nth_error blocks j = Some blk -> exists b, nth_error bs j = Some b).
    { intros j' blk' E. destruct (nth_error bs j') as [b'|] eqn:E'; [eauto|]. apply nth_error_None in E'.
      assert (j' < length blocks) by (apply nth_error_Some; congruence). lia. }
    assert (HB : nth_error blk (j mod c) = Some (Some b)).
    { assert (E : skipn (j / c * c) (concat blocks) = blk ++ concat (skipn (Datatypes.S (j / c)) blocks)).
      { assert (Hbi : j / c < length blocks) by lia.
        pose proof (firstn_skipn (j / c * c) (concat blocks)) as E. rewrite (blocks_firstn c) in E; auto.
        2:{ intros j' blk' E' Hj'. destruct (Ex _ _ E') as [b' E2]. rewrite (BL _ _ _ E' E2). rewrite Lb in Hj'. eapply bs_block_full; eauto. }
        assert (E2 : concat blocks = concat (firstn (j / c) blocks) ++ blk ++ concat (skipn (Datatypes.S (j / c)) blocks)).
        { clear - Ek. revert Ek. generalize (j / c). intros m. revert blocks. induction m as [|m IH]; intros [|b0 bk] E; try discriminate.
          - injection E as ->. reflexivity.
          - cbn [nth_error] in E. cbn [concat firstn skipn]. rewrite <- app_assoc. f_equal. now apply IH. }
        rewrite E2 in E at 2. now apply app_inv_head in E. }
      rewrite DM, (Nat.mul_comm c) in Hv. rewrite <- skipn_nth_error, E in Hv.
      rewrite nth_error_app1 in Hv; auto. rewrite (BL _ _ _ Ek Eb). destruct (bs_nth _ _ Eb) as (-> & _ & _).
      rewrite firstn_length, skipn_length. lia. }
    destruct (Bl _ _ _ Ek Eb) as [G1 G2].
    destruct (in_dec Nat.eq_dec (j / c) coll) as [Hin|Hin].
    + destruct (G1 Hin) as (r & _ & _ & D). rewrite DM at 1. rewrite (Nat.mul_comm c). apply D.
      destruct (bs_nth _ _ Eb) as (-> & _ & _). rewrite firstn_nth_error by auto.
      rewrite skipn_nth_error, <- (Nat.mul_comm c), <- DM. exact Hj.
    + exfalso. rewrite (G2 Hin) in HB. apply nth_error_In, repeat_spec in HB. discriminate.
Qed.
End Inv.
