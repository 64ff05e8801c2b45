(** Order statistics for a strict weak order given as a boolean comparison. *)
From Coq Require Import List Arith Bool Lia Permutation.
Import ListNotations.

Section Order.
Context {A : Type} (ltb : A -> A -> bool).

(** The order C++ requires of [operator<].  Finite floats satisfy it (with -0 and +0
    equivalent); it is negatively transitive: [a <= b <= c -> a <= c]. *)
Definition strict_weak : Prop :=
  (forall a, ltb a a = false) /\
  (forall a b, ltb a b = true -> ltb b a = false) /\
  (forall a b c, ltb b a = false -> ltb c b = false -> ltb c a = false).

Definition count (p : A -> bool) (l : list A) : nat := length (filter p l).

(** [v] has rank [k] (from 0) in [l]: at most [k] elements are smaller, and more than [k]
    elements are not larger. *)
Definition order_stat (k : nat) (l : list A) (v : A) : Prop :=
  In v l /\ count (fun x => ltb x v) l <= k < count (fun x => negb (ltb v x)) l.

(** The median of an odd number of values. *)
Definition is_median (l : list A) (v : A) : Prop :=
  Nat.odd (length l) = true /\ order_stat (length l / 2) l v.

Lemma count_perm p l l' : Permutation l l' -> count p l = count p l'.
Proof.
  intros H. unfold count. induction H; cbn; auto.
  - destruct (p x); cbn; auto.
  - destruct (p x), (p y); cbn; auto.
  - congruence.
Qed.

Lemma order_stat_perm k l l' v : Permutation l l' -> order_stat k l v -> order_stat k l' v.
Proof.
  intros P [H1 H2]. split.
  - eapply Permutation_in; eauto.
  - rewrite <- !(count_perm _ _ _ P). exact H2.
Qed.

Lemma count_app p l l' : count p (l ++ l') = count p l + count p l'.
Proof. unfold count. now rewrite filter_app, app_length. Qed.

Lemma count_none p l : (forall x, In x l -> p x = false) -> count p l = 0.
Proof.
  unfold count. induction l as [|a l IH]; cbn; intros H; auto.
  rewrite H by auto. apply IH. auto.
Qed.

Lemma count_all p l : (forall x, In x l -> p x = true) -> count p l = length l.
Proof.
  unfold count. induction l as [|a l IH]; cbn; intros H; auto.
  rewrite H by auto. cbn. f_equal. apply IH. auto.
Qed.

Lemma count_le p l : count p l <= length l.
Proof. unfold count. induction l; cbn; auto. destruct (p a); cbn; lia. Qed.

Lemma count_mono p q l : (forall x, In x l -> p x = true -> q x = true) -> count p l <= count q l.
Proof.
  unfold count. induction l as [|a l IH]; cbn; intros H; auto.
  specialize (IH (fun x Hx => H x (or_intror Hx))).
  pose proof (H a (or_introl eq_refl)). destruct (p a), (q a); cbn; try lia.
Qed.

(** two values of the same rank are equivalent *)
Lemma order_stat_unique k l v v' : strict_weak -> order_stat k l v -> order_stat k l v' ->
  ltb v v' = false /\ ltb v' v = false.
Proof.
  intros (Irr & Asym & NT).
  assert (G : forall v v', order_stat k l v -> order_stat k l v' -> ltb v v' = false).
  { clear v v'. intros v v' [_ [_ H1]] [_ [H2 _]]. destruct (ltb v v') eqn:E; auto. exfalso.
    assert (count (fun x => negb (ltb v x)) l <= count (fun x => ltb x v') l); [|lia].
    apply count_mono. intros x _ Hx. apply negb_true_iff in Hx.
    destruct (ltb x v') eqn:Ex; auto. rewrite (NT v' x v) in E; auto. }
  auto.
Qed.
End Order.
