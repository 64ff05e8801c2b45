(** Finite sums of reals. *)
From Coq Require Import Reals Lra Lia List.
Import ListNotations.
Local Open Scope R_scope.

(** [rsum n f = f 0 + f 1 + ... + f (n-1)] *)
Fixpoint rsum (n : nat) (f : nat -> R) : R :=
  match n with
  | O => 0
  | S n' => rsum n' f + f n'
  end.

Lemma rsum_ext n f g : (forall i, (i < n)%nat -> f i = g i) -> rsum n f = rsum n g.
Proof. induction n; cbn; intros H; auto. rewrite IHn, H; auto. Qed.

Lemma rsum_plus n f g : rsum n (fun i => f i + g i) = rsum n f + rsum n g.
Proof. induction n; cbn; [lra|]. rewrite IHn; lra. Qed.

Lemma rsum_scal n c f : rsum n (fun i => c * f i) = c * rsum n f.
Proof. induction n; cbn; [lra|]. rewrite IHn; lra. Qed.

Lemma rsum_minus n f g : rsum n (fun i => f i - g i) = rsum n f - rsum n g.
Proof. induction n; cbn; [lra|]. rewrite IHn; lra. Qed.

Lemma rsum_const n c : rsum n (fun _ => c) = INR n * c.
Proof. induction n; cbn [rsum]; [cbn; lra|]. rewrite IHn, S_INR; lra. Qed.

Lemma rsum_0 n : rsum n (fun _ => 0) = 0.
Proof. rewrite rsum_const; lra. Qed.

Lemma rsum_split a b f : rsum (a + b) f = rsum a f + rsum b (fun i => f (a + i)%nat).
Proof.
  induction b; cbn.
  - rewrite Nat.add_0_r; lra.
  - rewrite Nat.add_succ_r; cbn. rewrite IHb; lra.
Qed.

Lemma rsum_le n f g : (forall i, (i < n)%nat -> f i <= g i) -> rsum n f <= rsum n g.
Proof. induction n; cbn; intros H; [lra|]. apply Rplus_le_compat; auto. Qed.

Lemma rsum_nonneg n f : (forall i, (i < n)%nat -> 0 <= f i) -> 0 <= rsum n f.
Proof. intros H. rewrite <- (rsum_0 n). now apply rsum_le. Qed.

Lemma rsum_first n f : rsum (S n) f = f O + rsum n (fun i => f (S i)).
Proof. change (S n) with (1 + n)%nat. rewrite rsum_split. cbn. lra. Qed.

Lemma rsum_swap n m f :
  rsum n (fun i => rsum m (fun j => f i j)) = rsum m (fun j => rsum n (fun i => f i j)).
Proof.
  induction n; cbn.
  - now rewrite rsum_0.
  - rewrite IHn, rsum_plus. reflexivity.
Qed.

Lemma rsum_abs n f : Rabs (rsum n f) <= rsum n (fun i => Rabs (f i)).
Proof.
  induction n; cbn. { rewrite Rabs_R0; lra. }
  eapply Rle_trans; [apply Rabs_triang|]. lra.
Qed.

(** a sum over one period of a circular index does not depend on the start *)
Lemma rsum_rot n k f : (0 < n)%nat ->
  rsum n (fun i => f ((i + k) mod n)%nat) = rsum n f.
Proof.
  intros Hn. revert k.
  assert (H1 : forall f, rsum n (fun i => f ((i + 1) mod n)%nat) = rsum n f).
  { intros g. destruct n as [|n]; [lia|].
    cbn [rsum]. replace ((n + 1) mod S n)%nat with O.
    2:{ replace (n + 1)%nat with (S n) by lia. now rewrite Nat.mod_same by lia. }
    change (rsum n g + g n) with (rsum (S n) g). rewrite rsum_first.
    rewrite (rsum_ext n _ (fun i => g (S i))); [lra|].
    intros i Hi. rewrite Nat.mod_small by lia. f_equal; lia. }
  induction k.
  - apply rsum_ext. intros i Hi. rewrite Nat.add_0_r, Nat.mod_small; auto.
  - rewrite <- IHk, <- (H1 (fun i => f ((i + k) mod n)%nat)).
    apply rsum_ext. intros i Hi. f_equal.
    rewrite Nat.add_mod_idemp_l by lia. f_equal. lia.
Qed.
