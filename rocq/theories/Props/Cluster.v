(** C39: friends-of-friends clustering. *)
From Coq Require Import List Arith ZArith Bool Lia Reals Lra Permutation Sorted Relations.
From Flocq Require Import Core.
From Verif Require Import Base.Result Base.Num Model.Cluster Spec.Friends Proof.Cluster.
Import ListNotations.
Local Open Scope R_scope.

Definition increasing (x : list R) : Prop := StronglySorted Rle x.
Definition decreasing (x : list R) : Prop := StronglySorted Rge x.

Lemma sorted_seq (Q : R -> R -> Prop) x : (forall a, Q a a) -> StronglySorted Q x ->
  StronglySorted (fun i j => Q (nth i x 0) (nth j x 0)) (seq 0 (length x)).
Proof.
  intros HQ HS.
  assert (G : forall m o, (o + m <= length x)%nat ->
    StronglySorted (fun i j => Q (nth i x 0) (nth j x 0)) (seq o m)).
  { induction m as [|m IH]; intros o Ho; cbn; constructor; [apply IH; lia|].
    apply Forall_forall. intros j Hj. apply in_seq in Hj.
    clear - HS Hj Ho HQ. revert o j Hj Ho. induction HS as [|a x S IH F]; intros o j Hj Ho; cbn in *; [lia|].
    destruct o as [|o], j as [|j]; try lia.
    - rewrite Forall_forall in F. apply F, nth_In. lia.
    - apply IH; lia. }
  now apply G.
Qed.

(** [cluster1d] gives the groups of friends of friends, for every result [argsort] may give.
    Every point is in exactly one group, groups are not empty; if the points have to be
    sorted, they are in increasing order through all the groups and neighbouring groups are more
    than [r] apart. *)
Theorem cluster1d_friends :
  forall (argsort : list R -> list nat) (x : list R) (r : R) (already_sorted : bool),
  sorts argsort -> (already_sorted = true -> increasing x \/ decreasing x) ->
  let groups := cluster1d numR argsort x r already_sorted in
  Permutation (concat groups) (seq 0 (length x)) /\
  (forall g, In g groups -> g <> []) /\
  (forall i j, (i < length x)%nat -> (j < length x)%nat ->
     (together groups i j <-> friends (fun k => (k < length x)%nat) (fun k => nth k x 0) r i j)) /\
  (already_sorted = true -> concat groups = seq 0 (length x)) /\
  (already_sorted = false ->
     StronglySorted (fun i j => nth i x 0 <= nth j x 0) (concat groups) /\
     StronglySorted (fun g h => forall i j, In i g -> In j h -> r < nth j x 0 - nth i x 0) groups).
Proof.
  intros argsort x r srt HA HS groups.
  set (idx := if srt then seq 0 (length x) else argsort x).
  destruct (HA x) as [HP HO].
  assert (PI : Permutation idx (seq 0 (length x))) by (unfold idx; destruct srt; auto).
  assert (EG : groups = cut (breaks x r) idx).
  { apply cluster1d_cut. fold idx. rewrite (Permutation_length PI). apply seq_length. }
  rewrite EG, cut_concat. split; auto. split.
  { intros g Hg. pose proof (cut_nonempty (breaks x r) idx) as F. rewrite Forall_forall in F. now apply F. }
  assert (MEM : forall k, In k idx <-> (k < length x)%nat).
  { intros k. split; intros H.
    - apply (Permutation_in _ PI), in_seq in H. lia.
    - apply (Permutation_in _ (Permutation_sym PI)), in_seq. lia. }
  assert (FR : forall (P Q : nat -> Prop) v v' i j, (forall k, P k <-> Q k) ->
      (forall a b, Rabs (v a - v b) = Rabs (v' a - v' b)) ->
      (friends P v r i j <-> friends Q v' r i j)).
  { clear. intros P Q v v' i j HPQ HV.
    split; intros F; induction F as [a b (H1 & H2 & H3)|a|a b c _ IH1 _ IH2];
      try apply rt_refl; try (eapply rt_trans; eauto; fail);
      apply rt_step; (split; [now apply HPQ|]; split; [now apply HPQ|]).
    - now rewrite <- HV.
    - now rewrite HV. }
  assert (KEY : (exists v : nat -> R, (forall a b, Rabs (v a - v b) = Rabs (nth a x 0 - nth b x 0)) /\
     StronglySorted (fun i j => v i <= v j) idx)).
  { unfold idx. destruct srt.
    - destruct (HS eq_refl) as [I|D].
      + exists (fun k => nth k x 0). split; auto. apply (sorted_seq Rle); auto. intros; lra.
      + exists (fun k => - nth k x 0). split.
        * intros a b. rewrite Rabs_minus_sym. f_equal. lra.
        * pose proof (sorted_seq Rge x ltac:(intros; lra) D) as S.
          clear - S. induction S as [|a l S IH F]; constructor; auto.
          eapply Forall_impl; [|exact F]. cbn. intros. lra.
    - exists (fun k => nth k x 0). split; auto. }
  destruct KEY as (v & Hv & Sv).
  split; [|split].
  - intros i j Hi Hj. unfold together.
    rewrite (cut_friends (breaks x r) v r idx); [|intros a b; unfold breaks; now rewrite Hv|auto|now apply MEM|now apply MEM].
    apply FR; auto.
  - intros ->. reflexivity.
  - intros ->. split; auto. apply cut_sep; auto.
    intros a b E L. unfold breaks in E.
    destruct (Rlt_bool_spec r (Rabs (nth b x 0 - nth a x 0))) as [H|]; [|discriminate].
    rewrite Rabs_pos_eq in H by lra. exact H.
Qed.
Print Assumptions cluster1d_friends.

(** a sorting function exists, and the theorem applies to 5, 1, 2, 9, 2 with radius 1 *)
Definition argsort_R (x : list R) : list nat :=
  sorted_asc (fun i j => Rlt_bool (nth i x 0) (nth j x 0)) (seq 0 (length x)).

Example argsort_R_sorts : sorts argsort_R.
Proof.
  intros x. split.
  - apply Permutation_sym, (sorted_asc_perm (fun i => nth i x 0)).
  - apply (sorted_asc_sorted (fun i => nth i x 0)).
Qed.

Example cluster1d_friends_ex : let groups := cluster1d numR argsort_R [5; 1; 2; 9; 2] 1 false in
  together groups 1 4 /\ ~ together groups 0 4.
Proof.
  destruct (cluster1d_friends argsort_R [5; 1; 2; 9; 2] 1 false argsort_R_sorts ltac:(discriminate))
    as (_ & _ & F & _). cbv zeta. split.
  - apply F; [cbn; lia|cbn; lia|]. apply rt_step. split; [cbn; lia|]. split; [cbn; lia|].
    cbn. apply Rabs_le. lra.
  - rewrite F by (cbn; lia). intros H.
    assert (G : forall a b, friends (fun k => (k < length [5%R; 1%R; 2%R; 9%R; 2%R])%nat)
        (fun k => nth k [5; 1; 2; 9; 2] 0) 1 a b -> a = 0%nat -> b = 0%nat).
    { intros a b K. induction K as [a b (_ & Hb & Hr)|a|a b c _ IH1 _ IH2]; auto.
      intros ->. destruct b as [|[|[|[|[|b]]]]]; auto; cbn in Hr; apply Rabs_le_inv in Hr;
        cbn in Hb; try lia; lra. }
    discriminate (G _ _ H eq_refl).
Qed.
