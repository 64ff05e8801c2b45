From Coq Require Import List Arith Bool Lia Permutation.
From Verif Require Import Base.Result Base.Buf Model.RunMed Spec.Order.
Import ListNotations.

Section Select.
Context {A : Type} (ltb : A -> A -> bool) (d : A).

Notation "l @ i" := (nth i l d) (at level 9).

(** [l'] is [l] with the elements of the segment [s..e] permuted *)
Definition seg_perm (l l' : list A) (s e : nat) : Prop :=
  Permutation l l' /\
  (forall k, ~ (s <= k <= e) -> l'@k = l@k) /\
  (forall k, s <= k <= e -> exists k', s <= k' <= e /\ l'@k = l@k').

Lemma seg_perm_refl l s e : seg_perm l l s e.
Proof. repeat split; auto. intros k H. exists k. auto. Qed.

Lemma seg_perm_trans l1 l2 l3 s e : seg_perm l1 l2 s e -> seg_perm l2 l3 s e -> seg_perm l1 l3 s e.
Proof.
  intros (P & F & S) (P' & F' & S'). split; [eapply Permutation_trans; eauto|]. split.
  - intros k Hk. rewrite F', F; auto.
  - intros k Hk. destruct (S' k Hk) as (k1 & H1 & ->). auto.
Qed.

Lemma seg_perm_widen l l' s e s' e' : s' <= s -> e <= e' -> seg_perm l l' s e -> seg_perm l l' s' e'.
Proof.
  intros H1 H2 (P & F & S). split; auto. split.
  - intros k Hk. apply F. lia.
  - intros k Hk. destruct (le_dec s k), (le_dec k e).
    + destruct (S k) as (k' & ? & ?); [lia|]. exists k'. split; [lia|auto].
    + exists k. split; [lia|]. apply F. lia.
    + exists k. split; [lia|]. apply F. lia.
    + exists k. split; [lia|]. apply F. lia.
Qed.

Lemma nth_upd l i k v : i < length l -> (upd l i v)@k = if k =? i then v else l@k.
Proof.
  intros Hi. destruct (Nat.eqb_spec k i) as [->|Hne].
  - apply nth_error_nth. now apply upd_same.
  - apply nth_error_eq_nth. apply upd_other. auto.
Qed.

Lemma swap_spec l i j : i < length l -> j < length l ->
  exists l', swap l i j = Ok l' /\ length l' = length l /\ Permutation l l' /\
    forall k, l'@k = if k =? j then l@i else if k =? i then l@j else l@k.
Proof.
  intros Hi Hj. unfold swap. rewrite (rd_nth l i d), (rd_nth l j d) by auto. cbn [bind].
  rewrite wr_ok by auto. cbn [bind]. rewrite wr_ok by (rewrite upd_length; auto).
  eexists. split; [reflexivity|]. rewrite !upd_length. split; auto.
  assert (V : forall k, (upd (upd l i l@j) j l@i)@k
     = if k =? j then l@i else if k =? i then l@j else l@k).
  { intros k. rewrite nth_upd by (now rewrite upd_length). now rewrite nth_upd. }
  split; [|exact V].
  apply (Permutation_nth l _ d). split; [now rewrite !upd_length|].
  exists (fun k => if k =? j then i else if k =? i then j else k). split; [|split].
  - intros k Hk. destruct (k =? j); auto. destruct (k =? i); auto.
  - intros a b Ha Hb. 
    destruct (Nat.eqb_spec a j), (Nat.eqb_spec b j), (Nat.eqb_spec a i), (Nat.eqb_spec b i); lia.
  - intros k Hk. rewrite V. destruct (k =? j); auto. destruct (k =? i); auto.
Qed.

Lemma swap_seg l l' i j s e : s <= i <= e -> s <= j <= e ->
  Permutation l l' -> (forall k, l'@k = if k =? j then l@i else if k =? i then l@j else l@k) ->
  seg_perm l l' s e.
Proof.
  intros Hi Hj P V. split; auto. split.
  - intros k Hk. rewrite V. destruct (Nat.eqb_spec k j); [lia|]. destruct (Nat.eqb_spec k i); [lia|auto].
  - intros k Hk. rewrite V. destruct (Nat.eqb_spec k j); [eauto|]. destruct (Nat.eqb_spec k i); eauto.
Qed.

(** Holds for any comparison, also a partial one (NaN). *)
Lemma partition_spec l s e : s <= e < length l ->
  exists j l', partition ltb l s e e = Ok (j, l') /\ length l' = length l /\
    s <= j <= e /\ seg_perm l l' s e /\
    (forall k, s <= k < j -> ltb l'@k l'@j = true) /\
    (forall k, j < k <= e -> ltb l'@k l'@j = false).
Proof.
  intros He. unfold partition. rewrite (rd_nth l e d) by lia. cbn [bind].
  destruct (swap_spec l e e) as (l0 & E0 & L0 & P0 & V0); try lia. rewrite E0. cbn [bind].
  assert (Same : forall k, l0@k = l@k).
  { intros k. rewrite V0. destruct (Nat.eqb_spec k e); subst; auto. }
  set (pv := l@e) in *.
  match goal with |- context [for_ (e - s) s ?b ?st0] =>
    destruct (for_inv (fun i (st : nat * list A) =>
       let (j, l') := st in s <= j <= i /\ length l' = length l /\ seg_perm l l' s e /\
         l'@e = pv /\
         (forall k, s <= k < j -> ltb l'@k pv = true) /\
         (forall k, j <= k < i -> ltb l'@k pv = false)) b (e - s) s st0) as ([j l1] & E1 & H)
  end.
  - split; [lia|]. split; auto. split.
    { apply (swap_seg l l0 e e); auto; lia. }
    split; [now rewrite Same|]. split; intros; lia.
  - intros i [j l'] Hi (Hj & L & SP & Ep & Hlt & Hge).
    rewrite (rd_nth l' i d) by lia. cbn [bind].
    destruct (ltb l'@i pv) eqn:Ei.
    + destruct (swap_spec l' i j) as (l2 & E2 & L2 & P2 & V2); try lia. rewrite E2. cbn [bind].
      eexists. split; [reflexivity|]. split; [lia|]. split; [congruence|]. split.
      { eapply seg_perm_trans; [exact SP|]. apply (swap_seg l' l2 i j); auto; lia. }
      split. { rewrite V2. destruct (Nat.eqb_spec e j); [lia|]. destruct (Nat.eqb_spec e i); [lia|auto]. }
      split.
      * intros k Hk. rewrite V2. destruct (Nat.eqb_spec k j); auto.
        destruct (Nat.eqb_spec k i).
        { subst. apply Hlt. lia. }
        apply Hlt. lia.
      * intros k Hk. rewrite V2. destruct (Nat.eqb_spec k j); [lia|].
        destruct (Nat.eqb_spec k i); [apply Hge; lia|]. apply Hge; lia.
    + eexists. split; [reflexivity|]. split; [lia|]. split; auto. split; auto. split; auto. split; auto.
      intros k Hk. destruct (Nat.eq_dec k i) as [->|]; auto. apply Hge; lia.
  - replace (s + (e - s)) with e in H by lia.
    destruct H as (Hj & L & SP & Ep & Hlt & Hge).
    rewrite E1. cbn [bind].
    destruct (swap_spec l1 j e) as (l2 & E2 & L2 & P2 & V2); try lia. rewrite E2. cbn [bind].
    exists j, l2. split; auto. split; [congruence|]. split; [lia|]. split.
    { eapply seg_perm_trans; [exact SP|]. apply (swap_seg l1 l2 j e); auto; lia. }
    assert (Vj : l2@j = pv).
    { rewrite V2. destruct (Nat.eqb_spec j e); [subst; auto|]. rewrite Nat.eqb_refl. auto. }
    rewrite Vj. split.
    + intros k Hk. rewrite V2. destruct (Nat.eqb_spec k e); [lia|]. destruct (Nat.eqb_spec k j); [lia|].
      apply Hlt; lia.
    + intros k Hk. rewrite V2. destruct (Nat.eqb_spec k e).
      * apply Hge. lia.
      * destruct (Nat.eqb_spec k j); [lia|]. apply Hge; lia.
Qed.

(** the segment [s..e] is separated from what is before and after *)
Definition separated (l : list A) (s e : nat) : Prop :=
  (forall i k, i < s -> s <= k < length l -> ltb l@k l@i = false) /\
  (forall i k, e < i < length l -> k <= e -> ltb l@i l@k = false).

Lemma separated_perm l l' s e : length l' = length l -> s <= e < length l ->
  seg_perm l l' s e -> separated l s e -> separated l' s e.
Proof.
  intros L He (P & F & S) [H1 H2].
  assert (G : forall k, s <= k < length l -> exists k', s <= k' < length l /\ l'@k = l@k').
  { intros k Hk. destruct (le_dec k e).
    - destruct (S k) as (k' & ? & ?); [lia|]. exists k'. split; [lia|auto].
    - exists k. split; auto. apply F. lia. }
  assert (G' : forall k, k <= e -> exists k', k' <= e /\ l'@k = l@k').
  { intros k Hk. destruct (le_dec s k).
    - destruct (S k) as (k' & ? & ?); [lia|]. exists k'. split; [lia|auto].
    - exists k. split; auto. apply F. lia. }
  split.
  - intros i k Hi Hk. rewrite (F i) by lia. destruct (G k) as (k' & ? & ->); [lia|]. auto.
  - intros i k Hi Hk. rewrite (F i) by lia. destruct (G' k Hk) as (k' & ? & ->).
    apply H2; lia.
Qed.

Lemma nth_element_spec : forall fuel l s e n, s <= n <= e -> e < length l -> e - s < fuel ->
  exists v l', nth_element ltb fuel l s e n = Ok (v, l') /\ length l' = length l /\
    seg_perm l l' s e /\ v = l'@n /\
    (strict_weak ltb -> separated l s e ->
      (forall i, i < n -> ltb l'@n l'@i = false) /\
      (forall i, n < i < length l -> ltb l'@i l'@n = false)).
Proof.
  induction fuel as [|f IH]; intros l s e n Hn He Hf; [lia|]. cbn [nth_element].
  destruct (Nat.eqb_spec s e) as [<-|Hse].
  { replace n with s by lia. rewrite (rd_nth l s d) by lia. cbn [bind].
    eexists _, _. split; [reflexivity|]. split; auto. split; [apply seg_perm_refl|].
    split; auto. intros _ [H1 H2]. split; intros i Hi; auto. }
  destruct (partition_spec l s e) as (j & l1 & E1 & L1 & Hj & SP & Hlt & Hge); [lia|].
  rewrite E1. cbn [bind].
  (* separation of the two parts after the partition *)
  assert (SepL : strict_weak ltb -> separated l s e ->
     (forall i k, i < j -> j <= k < length l -> ltb l1@k l1@i = false) /\
     (forall i k, j < i < length l -> k <= j -> ltb l1@i l1@k = false)).
  { intros (Irr & Asym & NT) Sep.
    assert (Sep1 : separated l1 s e) by (apply (separated_perm l); auto; lia).
    destruct Sep1 as [H1 H2]. rewrite L1 in *. split.
    - intros i k Hi Hk. destruct (lt_dec i s); [apply H1; lia|].
      destruct (le_dec k e).
      2:{ apply H2; lia. }
      assert (I : ltb l1@j l1@i = false) by (apply Asym, Hlt; lia).
      destruct (Nat.eq_dec k j) as [->|]; auto.
      apply (NT l1@i l1@j l1@k); auto. apply Hge; lia.
    - intros i k Hi Hk. destruct (le_dec i e); [|apply H2; lia].
      assert (I : ltb l1@i l1@j = false) by (apply Hge; lia).
      destruct (Nat.eq_dec k j) as [->|]; auto.
      destruct (lt_dec k s); [apply H1; lia|].
      apply (NT l1@k l1@j l1@i); auto. apply Asym, Hlt; lia. }
  destruct (Nat.eqb_spec j n) as [->|Hjn].
  { rewrite (rd_nth l1 n d) by lia. cbn [bind]. eexists _, _. split; [reflexivity|].
    split; auto. split; auto. split; auto. intros SW Sep. destruct (SepL SW Sep) as [H1 H2].
    split; intros i Hi; [apply H1; lia|apply H2; lia]. }
  destruct (Nat.ltb_spec j n) as [Hl|Hl].
  - destruct (IH l1 (j + 1) e n) as (v & l2 & E2 & L2 & SP2 & Ev & Ord); try lia.
    rewrite E2. exists v, l2. split; auto. split; [congruence|]. split.
    { eapply seg_perm_trans; [exact SP|]. eapply seg_perm_widen; [| |exact SP2]; lia. }
    split; auto. intros SW Sep. rewrite L1 in Ord. apply Ord; auto.
    destruct (SepL SW Sep) as [H1 H2].
    assert (Sep1 : separated l1 s e) by (apply (separated_perm l); auto; lia).
    split.
    + intros i k Hi Hk. destruct (Nat.eq_dec i j) as [->|].
      * apply H2; lia.
      * apply H1; lia.
    + apply (proj2 Sep1).
  - destruct (Nat.eqb_spec j 0); [lia|].
    destruct (IH l1 s (j - 1) n) as (v & l2 & E2 & L2 & SP2 & Ev & Ord); try lia.
    rewrite E2. exists v, l2. split; auto. split; [congruence|]. split.
    { eapply seg_perm_trans; [exact SP|]. eapply seg_perm_widen; [| |exact SP2]; lia. }
    split; auto. intros SW Sep. rewrite L1 in Ord. apply Ord; auto.
    destruct (SepL SW Sep) as [H1 H2].
    assert (Sep1 : separated l1 s e) by (apply (separated_perm l); auto; lia).
    split.
    + apply (proj1 Sep1).
    + intros i k Hi Hk. rewrite L1 in Hi. apply H1; lia.
Qed.

Lemma order_stat_split l n : n < length l ->
  (forall i, i < n -> ltb l@n l@i = false) ->
  (forall i, n < i < length l -> ltb l@i l@n = false) ->
  ltb l@n l@n = false ->
  order_stat ltb n l l@n.
Proof.
  intros Hn Hlo Hhi Irr. split; [now apply nth_In|].
  assert (Lf : length (firstn n l) = n) by (rewrite firstn_length; lia).
  assert (NF : forall i, i < n -> (firstn n l)@i = l@i).
  { intros i Hi. rewrite <- (firstn_skipn n l) at 2. rewrite app_nth1; auto. lia. }
  assert (NS : forall i, (skipn n l)@i = l@(n + i)).
  { intros i. rewrite <- (firstn_skipn n l) at 2. rewrite app_nth2 by lia. f_equal. lia. }
  split.
  - set (v := l@n) in *.
    rewrite <- (firstn_skipn n l), count_app.
    rewrite (count_none _ (skipn n l)).
    + pose proof (count_le (fun x => ltb x v) (firstn n l)). lia.
    + intros x Hx. apply (In_nth _ _ d) in Hx. destruct Hx as (i & Hi & <-).
      rewrite skipn_length in Hi. rewrite NS. destruct i; [now rewrite Nat.add_0_r|].
      apply Hhi. lia.
  - set (v := l@n) in *.
    rewrite <- (firstn_skipn (S n) l), count_app, (count_all _ (firstn (S n) l)).
    + rewrite firstn_length. lia.
    + intros x Hx. apply (In_nth _ _ d) in Hx. destruct Hx as (i & Hi & <-).
      rewrite firstn_length in Hi. apply negb_true_iff.
      assert (E : (firstn (S n) l)@i = l@i).
      { rewrite <- (firstn_skipn (S n) l) at 2. rewrite app_nth1; auto. rewrite firstn_length. lia. }
      rewrite E. destruct (Nat.eq_dec i n) as [->|]; auto. apply Hlo. lia.
Qed.

Lemma nth_element_top l n : n < length l ->
  exists v l', nth_element ltb (S (length l)) l 0 (length l - 1) n = Ok (v, l') /\
    Permutation l l' /\ (strict_weak ltb -> order_stat ltb n l v).
Proof.
  intros Hn. destruct (nth_element_spec (S (length l)) l 0 (length l - 1) n)
    as (v & l' & E & L & (P & _) & Ev & Ord); try lia.
  exists v, l'. split; auto. split; auto. intros SW.
  apply order_stat_perm with l'; [now apply Permutation_sym|].
  destruct Ord as [H1 H2]; auto.
  { split; intros; lia. }
  subst v. apply order_stat_split; auto; try lia.
  - intros i Hi. apply H2. lia.
  - destruct SW as (Irr & _). apply Irr.
Qed.

(** ** the ring buffer as a queue *)
Definition queue (r : @rmed A) : list A := skipn (r_pos r) (r_ring r) ++ firstn (r_pos r) (r_ring r).

Definition rmed_ok (r : @rmed A) (w : nat) : Prop :=
  r_width r = w /\ length (r_ring r) = w /\ length (r_buffer r) = w /\ r_pos r < w.

Lemma upd_split (l : list A) i v : i < length l -> upd l i v = firstn i l ++ v :: skipn (S i) l.
Proof.
  revert i; induction l as [|a l IH]; intros [|i] H; cbn in *; try lia; auto.
  f_equal. apply IH. lia.
Qed.

Lemma skipn_cons_nth : forall (l : list A) i, i < length l -> skipn i l = l@i :: skipn (S i) l.
Proof.
  induction l as [|a l IH]; intros [|i] H; cbn in *; try lia; auto. apply IH. lia.
Qed.

Lemma app_cut (a b : list A) n : length a = n -> skipn n (a ++ b) = b /\ firstn n (a ++ b) = a.
Proof.
  intros <-. split.
  - now rewrite skipn_app, skipn_all, Nat.sub_diag.
  - rewrite firstn_app, firstn_all, Nat.sub_diag. apply app_nil_r.
Qed.

Lemma rmed_push_spec r w v : rmed_ok r w ->
  exists m r', rmed_push ltb r v = Ok (m, r') /\ rmed_ok r' w /\
    queue r' = tl (queue r) ++ [v] /\
    (strict_weak ltb -> order_stat ltb (w / 2) (queue r') m).
Proof.
  intros (Hw & Lr & Lb & Hp). unfold rmed_push, ringbuf_push.
  rewrite wr_ok by lia. cbn [bind]. cbn [r_ring r_width r_buffer r_pos]. rewrite Hw.
  set (ring' := upd (r_ring r) (r_pos r) v).
  assert (Lr' : length ring' = w) by (unfold ring'; now rewrite upd_length).
  set (p' := if w <=? S (r_pos r) then 0 else S (r_pos r)).
  destruct (for_written (fun i b => v0 <- rd ring' i ;; wr b i v0) (fun i => ring'@i)
     (length ring') 0 (r_buffer r) 0) as (buf & Eb & Lbuf & Wb & _); [lia| |].
  { intros i b' Hi _ _. rewrite (rd_nth ring' i d) by lia. cbn [bind]. now rewrite Nat.sub_0_r. }
  rewrite Eb. cbn [bind].
  assert (buf = ring').
  { apply nth_ext with d d; [lia|]. intros i Hi. apply nth_error_nth. apply (Wb i). lia. }
  subst buf.
  destruct (nth_element_top ring' (w / 2)) as (m & l' & E & P & Ord).
  { rewrite Lr'. apply Nat.div_lt; lia. }
  rewrite Lr' in E. rewrite E. cbn [bind].
  eexists _, _. split; [reflexivity|].
  assert (Lp' : p' < w). { unfold p'. destruct (Nat.leb_spec w (S (r_pos r))); lia. }
  split. { repeat split; cbn; auto. rewrite <- (Permutation_length P). auto. }
  assert (Q : queue (RMed (A := A) w ring' p' l') = tl (queue r) ++ [v]).
  { unfold queue. cbn [r_ring r_pos]. unfold p'.
    set (p := r_pos r) in *. set (g := r_ring r) in *.
    assert (Hs : skipn p g = nth p g d :: skipn (S p) g).
    { apply skipn_cons_nth. lia. }
    rewrite Hs. cbn [tl app].
    assert (Lf : length (firstn p g) = p) by (rewrite firstn_length; lia).
    assert (Er : ring' = firstn p g ++ v :: skipn (S p) g) by (apply upd_split; lia).
    destruct (Nat.leb_spec w (S p)).
    - assert (Z : skipn (S p) g = []) by (apply skipn_all2; lia).
      rewrite Er, Z. cbn [app]. change (skipn 0 (firstn p g ++ [v])) with (firstn p g ++ [v]).
      change (firstn 0 (firstn p g ++ [v])) with (@nil A). now rewrite app_nil_r.
    - rewrite Er.
      replace (firstn p g ++ v :: skipn (S p) g) with ((firstn p g ++ [v]) ++ skipn (S p) g)
        by (rewrite <- app_assoc; reflexivity).
      assert (L1 : length (firstn p g ++ [v]) = S p) by (rewrite app_length; cbn; lia).
      destruct (app_cut _ (skipn (S p) g) _ L1) as [C1 C2]. rewrite C1, C2.
      now rewrite app_assoc. }
  split; [exact Q|]. intros SW. apply order_stat_perm with ring'; auto.
  unfold queue. cbn [r_ring r_pos].
  rewrite <- (firstn_skipn p' ring') at 1. apply Permutation_app_comm.
Qed.

Lemma rmed_new_ok zero w : 0 < w -> rmed_ok (rmed_new zero w) w /\ length (queue (rmed_new (A := A) zero w)) = w.
Proof.
  intros Hw. unfold rmed_new, rmed_ok, queue. cbn. rewrite !repeat_length. split; auto.
  rewrite app_nil_r, repeat_length. auto.
Qed.

(** ** running_median *)
Section Run.
Context (x : list A) (half : nat) (zero : A).
Let n := length x.
Let w := 2 * half + 1.
Let off := Nat.max half 1.
Let q0 := queue (rmed_new zero w).

(** the [m]-th value pushed, over the whole run *)
Definition pushed (m : nat) : A := nth (Nat.min (m - off) (n - 1)) x d.

Definition state_after (r : @rmed A) (m : nat) : Prop :=
  rmed_ok r w /\ queue r = skipn m (q0 ++ map pushed (seq 0 m)).

Definition window_at (c : nat) : list A :=
  map (fun k => nth (Nat.min (c + k - half) (n - 1)) x d) (seq 0 w).

Lemma map_seq_S {B} (f : nat -> B) m : map f (seq 0 (S m)) = map f (seq 0 m) ++ [f m].
Proof. now rewrite seq_S, map_app. Qed.

Lemma skipn_map_seq {B} (f : nat -> B) a m : skipn a (map f (seq 0 (a + m))) = map (fun k => f (a + k)) (seq 0 m).
Proof.
  rewrite seq_app, map_app. replace a with (length (map f (seq 0 a))) at 1
    by (now rewrite map_length, seq_length).
  rewrite skipn_app, skipn_all, Nat.sub_diag. cbn [app skipn].
  change (0 + a) with a. revert a. induction m; intros a; cbn; auto.
  rewrite Nat.add_0_r. f_equal. rewrite IHm. rewrite <- seq_shift, map_map.
  apply map_ext. intros. f_equal. lia.
Qed.

Lemma push_step r m v : state_after r m -> v = pushed m ->
  exists med r', rmed_push ltb r v = Ok (med, r') /\ state_after r' (S m) /\
    (strict_weak ltb -> w <= S m ->
     order_stat ltb half (map (fun k => pushed (S m - w + k)) (seq 0 w)) med).
Proof.
  intros [Hok Hq] ->.
  destruct (rmed_push_spec r w (pushed m) Hok) as (med & r' & E & Hok' & Hq' & Ord).
  exists med, r'. split; auto.
  assert (Lq0 : length q0 = w). { apply rmed_new_ok. unfold w. lia. }
  assert (Q : queue r' = skipn (S m) (q0 ++ map pushed (seq 0 (S m)))).
  { rewrite Hq', Hq, map_seq_S, app_assoc.
    set (L := q0 ++ map pushed (seq 0 m)).
    assert (LL : length L = w + m) by (unfold L; rewrite app_length, map_length, seq_length; lia).
    rewrite skipn_app. replace (S m - length L) with 0 by (unfold w in *; lia).
    cbn [skipn]. f_equal. rewrite (skipn_cons_nth L m) by (unfold w in *; lia). reflexivity. }
  split; [split; auto|].
  intros SW Hm. specialize (Ord SW).
  replace (w / 2) with half in Ord.
  2:{ unfold w. apply Nat.div_unique with 1; lia. }
  rewrite Q in Ord. rewrite skipn_app, skipn_all2 in Ord by lia. cbn [app] in Ord. rewrite Lq0 in Ord.
  replace (S m) with (S m - w + w) in Ord at 2 by lia. rewrite skipn_map_seq in Ord. exact Ord.
Qed.

Lemma running_median_spec (out : list A) : w < n -> length out = n ->
  exists out', running_median ltb zero x n w out = Ok out' /\ length out' = n /\
    (strict_weak ltb -> forall c, c < n -> order_stat ltb half (window_at c) (nth c out' d)).
Proof.
  intros Hw Ho. unfold running_median.
  assert (H2 : w mod 2 = 1). { unfold w. rewrite Nat.mul_comm, Nat.add_comm, Nat.mod_add; auto. }
  rewrite H2. cbn [Nat.eqb].
  destruct (Nat.ltb_spec w n); [|lia]. cbn [negb].
  replace (w / 2) with half by (unfold w; apply Nat.div_unique with 1; lia).
  unfold n, w, off in *.
  (* first loop *)
  match goal with |- context [for_ (half + 1) 0 ?b ?s] =>
    destruct (for_inv (fun i r => state_after r i) b (half + 1) 0 s) as (r1 & E1 & S1) end.
  { split. { apply rmed_new_ok. lia. } cbn [seq map]. rewrite app_nil_r. reflexivity. }
  { intros i r Hi S. rewrite (rd_nth x 0 d) by lia. cbn [bind].
    destruct (push_step r i (nth 0 x d) S) as (med & r' & E & S' & _).
    { unfold pushed, off, n. f_equal. lia. }
    rewrite E. cbn [bind]. exists r'. split; auto. }
  rewrite E1. cbn [bind].
  (* second loop *)
  match goal with |- context [for_ (half - 1) 1 ?b ?s] =>
    destruct (for_inv (fun i r => state_after r (half + i)) b (half - 1) 1 s) as (r2 & E2 & S2) end.
  { exact S1. }
  { intros i r Hi S. rewrite (rd_nth x i d) by lia. cbn [bind].
    destruct (push_step r (half + i) (nth i x d) S) as (med & r' & E & S' & _).
    { unfold pushed, off, n. f_equal. lia. }
    rewrite E. cbn [bind]. exists r'. split; auto. rewrite Nat.add_succ_r. auto. }
  rewrite E2. cbn [bind].
  (* the window seen when pushing number off + i *)
  assert (WIN : forall i, half <= i -> w <= S (off + i) /\
    map (fun k => pushed (S (off + i) - w + k)) (seq 0 w) = window_at (i - half)).
  { intros i Hi. split; [unfold w, off; lia|].
    apply map_ext_in. intros k Hk. apply in_seq in Hk. unfold pushed, off, n, w. f_equal.
    unfold w in Hk. lia. }
  set (done := fun m (o : list A) => length o = n /\
    (strict_weak ltb -> forall c, c < m -> order_stat ltb half (window_at c) (nth c o d))).
  assert (STEP : forall r o i v, state_after r (off + i) -> half <= i -> i - half < n ->
     v = pushed (off + i) -> done (i - half) o ->
     exists med r', rmed_push ltb r v = Ok (med, r') /\ state_after r' (off + S i) /\
       exists o', wr o (i - half) med = Ok o' /\ done (S i - half) o').
  { intros r o i v S Hi Hn Hv [Lo Hd].
    destruct (push_step r (off + i) v S Hv) as (med & r' & E & S' & Ord).
    exists med, r'. split; auto. split; [now rewrite Nat.add_succ_r|].
    rewrite wr_ok by lia. eexists. split; [reflexivity|]. split; [now rewrite upd_length|].
    intros SW c Hc. rewrite nth_upd by lia. destruct (Nat.eqb_spec c (i - half)) as [->|].
    - destruct (WIN i Hi) as [W1 <-]. auto.
    - apply Hd; auto. lia. }
  match goal with |- context [for_ (length x - half) half ?b ?s] =>
    destruct (for_inv (fun i (st : @rmed A * list A) => state_after (fst st) (off + i) /\ done (i - half) (snd st))
      b (length x - half) half s) as ([r3 o3] & E3 & S3 & D3) end.
  { split. 
    - cbn [fst]. replace (off + half) with (half + (1 + (half - 1))); [exact S2|]. unfold off. lia.
    - cbn [snd]. rewrite Nat.sub_diag. split; auto. intros; lia. }
  { intros i [r o] Hi [S D]. cbn [fst snd] in S, D. rewrite (rd_nth x i d) by lia. cbn [bind].
    destruct (STEP r o i (nth i x d)) as (med & r' & E & S' & o' & Eo & Do); auto; try (unfold n; lia).
    { unfold pushed, n. f_equal. lia. }
    rewrite E. cbn [bind]. rewrite Eo. cbn [bind]. eexists. split; [reflexivity|]. auto. }
  rewrite E3. cbn [bind]. cbn [fst snd] in S3, D3.
  match goal with |- context [for_ half 0 ?b ?s] =>
    destruct (for_inv (fun i (st : @rmed A * list A) => state_after (fst st) (off + (length x + i)) /\
         done (length x + i - half) (snd st))
      b half 0 s) as ([r4 o4] & E4 & S4 & D4) end.
  { cbn [fst snd]. replace (half + (length x - half)) with (length x + 0) in * by lia. auto. }
  { intros i [r o] Hi [S D]. cbn [fst snd] in S, D. rewrite (rd_nth x (length x - 1) d) by lia. cbn [bind].
    destruct (STEP r o (length x + i) (nth (length x - 1) x d)) as (med & r' & E & S' & o' & Eo & Do);
      auto; try (unfold n; lia).
    { unfold pushed, n. f_equal. lia. }
    rewrite E. cbn [bind].
    replace (length x - half + i) with (length x + i - half) by lia. rewrite Eo. cbn [bind].
    eexists. split; [reflexivity|]. cbn [fst snd]. rewrite !Nat.add_succ_r in *.
    auto. }
  rewrite E4. cbn [bind]. exists o4. split; auto. destruct D4 as [L4 D4]. cbn [snd] in *.
  split; auto. intros SW c Hc. apply D4; auto. lia.
Qed.
End Run.
End Select.
