(** Facts about the heap of TimeSeries objects, for any arithmetic. *)
From Coq Require Import String List Arith ZArith Bool Lia.
From Verif Require Import Base.Result Base.Buf Base.Num Model.Downsample Model.FastRmed
  Model.Folding Model.Metadata Model.TimeSeries.
Import ListNotations.

Lemma bind_ok {A B} (m : res A) (k : A -> res B) b :
  bind m k = Ok b -> exists a, m = Ok a /\ k a = Ok b.
Proof. destruct m; cbn; intros H; try discriminate. eauto. Qed.

Lemma guard_ok b e u : guard b e = Ok u -> b = true.
Proof. destruct b; [auto|discriminate]. Qed.

Lemma rd_inv {A} (l : list A) i v : rd l i = Ok v -> nth_error l i = Some v.
Proof. unfold rd. destruct (nth_error l i); intros H; inversion H; auto. Qed.

Lemma wr_inv {A} (l l' : list A) i v : wr l i v = Ok l' -> i < length l /\ l' = upd l i v.
Proof.
  unfold wr. destruct (Nat.ltb_spec i (length l)); intros H'; inversion H'. auto.
Qed.

Lemma nth_nth_error {A} (l : list A) i d :
  nth i l d = match nth_error l i with Some v => v | None => d end.
Proof. revert i; induction l; intros [|i]; cbn; auto. Qed.

Section Heap.
Context (N : num) (alloc : nat -> list N).

Definition wf (h : heap N) : Prop :=
  forall j t, nth_error (h_ts h) j = Some t -> t_buf t < length (h_bufs h).

Lemma md_get_set k v (m : metadata N) : md_get k (md_set k v m) = Some v.
Proof.
  induction m as [|[k' v'] m IH]; cbn; [now rewrite String.eqb_refl|].
  destruct (String.eqb k k') eqn:E; cbn; rewrite E; auto.
Qed.

Lemma md_get_set_other k k' v (m : metadata N) : k <> k' -> md_get k' (md_set k v m) = md_get k' m.
Proof.
  intros Hn. induction m as [|[k0 v0] m IH]; cbn.
  - destruct (String.eqb_spec k' k); congruence.
  - destruct (String.eqb_spec k k0); cbn; destruct (String.eqb_spec k' k0); try congruence.
Qed.

Lemma nth_snoc {A} (l : list A) x j y :
  nth_error (l ++ [x]) j = Some y -> (j < length l /\ nth_error l j = Some y) \/ (j = length l /\ y = x).
Proof.
  intros H. destruct (lt_dec j (length l)).
  - left. rewrite nth_error_app1 in H by auto. auto.
  - rewrite nth_error_app2 in H by lia. right.
    destruct (j - length l) eqn:E; cbn in H; [inversion H; split; lia || auto|].
    now destruct n0.
Qed.

Lemma nth_snoc_new {A} (l : list A) x : nth_error (l ++ [x]) (length l) = Some x.
Proof. rewrite nth_error_app2 by lia. now rewrite Nat.sub_diag. Qed.

Lemma buf_snoc (h : heap N) x l b : b < length (h_bufs h) -> buf (Heap (h_bufs h ++ [x]) l) b = buf h b.
Proof. intros. unfold buf. cbn. now rewrite app_nth1. Qed.

Lemma buf_new (h : heap N) x l : buf (Heap (h_bufs h ++ [x]) l) (length (h_bufs h)) = x.
Proof. unfold buf. cbn. rewrite app_nth2 by lia. now rewrite Nat.sub_diag. Qed.

Lemma upd_nth_error {A} (l : list A) i v j t :
  nth_error (upd l i v) j = Some t -> (j <> i /\ nth_error l j = Some t) \/ (j = i /\ t = v).
Proof.
  intros H. destruct (Nat.eq_dec j i) as [->|Hne].
  - right. split; auto. destruct (lt_dec i (length l)) as [Hl|Hl].
    + rewrite upd_same in H by auto. congruence.
    + assert (nth_error (upd l i v) i = None) by (apply nth_error_None; rewrite upd_length; lia).
      congruence.
  - left. rewrite upd_other in H by auto. auto.
Qed.

(** one new object on the newest buffer *)
Definition adds (h h' : heap N) (x : list N) (ts : N) (md : metadata N) : Prop :=
  h_bufs h' = h_bufs h ++ [x] /\ h_ts h' = h_ts h ++ [TS (length (h_bufs h)) ts md].

Lemma ts_fresh_ok h x tsamp md h' :
  ts_fresh N h x tsamp md = Ok h' ->
  exists m, metadata_new md = Ok m /\
    adds h h' x tsamp (md_set "tobs" (MFloat (o_mul n_dbl (o_ofZ n_dbl (Z.of_nat (length x))) tsamp)) m).
Proof.
  unfold ts_fresh, ts_new. intros H. apply bind_ok in H as (m & Hm & H). exists m. split; auto.
  inversion H. unfold adds. cbn [h_bufs h_ts]. rewrite buf_new. auto.
Qed.

Lemma step_wf c h h' : wf h -> step N alloc c h = Ok h' -> wf h'.
Proof.
  intros W H.
  assert (Add : forall h' x ts md, adds h h' x ts md -> wf h').
  { intros h0 x ts md [E1 E2] j t Hj. rewrite E2 in Hj. rewrite E1, app_length. cbn.
    apply nth_snoc in Hj as [[Hl Hj]|[_ ->]]; cbn; [apply W in Hj; lia|lia]. }
  assert (Rebind : forall x i t, wf (set_ts N (Heap (h_bufs h ++ [x]) (h_ts h)) i
      (TS (length (h_bufs h)) (t_tsamp t) (t_md t)))) by
    (intros x i t j t' Hj; cbn in *; rewrite app_length; cbn;
     apply upd_nth_error in Hj as [[_ Hj]|[_ ->]]; cbn; [apply W in Hj; lia|lia]).
  destruct c as [x|b k v|b ts md cp|i|i ip|i w mp ip|i f ip|i p bi su]; cbn [step] in H.
  - inversion H. intros j t Hj. cbn in *. rewrite app_length. cbn. apply W in Hj. lia.
  - apply bind_ok in H as (x & Hx & H). apply bind_ok in H as (x' & Hx' & H). inversion H.
    intros j t Hj. cbn in *. rewrite upd_length. eauto.
  - apply bind_ok in H as (x & Hx & H). apply rd_inv in Hx.
    assert (b < length (h_bufs h)) by (apply nth_error_Some; congruence).
    unfold ts_new in H. apply bind_ok in H as (m & Hm & H). inversion H.
    intros j t Hj. cbn in *. apply nth_snoc in Hj as [[Hl Hj]|[_ ->]]; cbn.
    + apply W in Hj. destruct cp; [rewrite app_length; lia|lia].
    + destruct cp; [rewrite app_length; cbn; lia|lia].
  - apply bind_ok in H as (t & Ht & H). inversion H. eapply Add. split; reflexivity.
  - apply bind_ok in H as (t & Ht & H). destruct ip.
    + inversion H. apply Rebind.
    + apply ts_fresh_ok in H as (m & _ & H). eauto.
  - apply bind_ok in H as (t & Ht & H). apply bind_ok in H as (r & Hr & H).
    apply bind_ok in H as (u & Hu & H). destruct ip.
    + inversion H. intros j t' Hj. cbn in *. rewrite upd_length. eauto.
    + apply ts_fresh_ok in H as (m & _ & H). eauto.
  - apply bind_ok in H as (t & Ht & H). apply bind_ok in H as (x & Hx & H). destruct ip.
    + inversion H. intros j t' Hj; cbn in *; rewrite app_length; cbn.
      apply upd_nth_error in Hj as [[_ Hj]|[_ ->]]; cbn; [apply W in Hj; lia|lia].
    + apply ts_fresh_ok in H as (m & _ & H). eauto.
  - apply bind_ok in H as (t & Ht & H). apply bind_ok in H as (m & Hm & H).
    apply bind_ok in H as (y & Hy & H). inversion H. now subst.
Qed.

Lemma run_wf cs : forall h, wf h -> wf (run N alloc cs h).
Proof.
  induction cs as [|c cs IH]; intros h W; cbn; auto. apply IH.
  destruct (step N alloc c h) eqn:E; auto. eapply step_wf; eauto.
Qed.

Lemma empty_wf : wf (empty N).
Proof. intros j t H. now destruct j. Qed.
End Heap.
