From Coq Require Import List Arith ZArith Bool Lia Reals Lra Permutation Sorted Relations.
From Flocq Require Import Core.
From Verif Require Import Base.Result Base.Num Model.Cluster Spec.Friends.
Import ListNotations.

(** ** stable sorts and first maxima *)
Section Sorts.
Context {A : Type} (key : A -> R).
Notation lt := (fun a b => Rlt_bool (key a) (key b)).
Notation geq := (fun a b => (key b <= key a)%R).
Notation leq := (fun a b => (key a <= key b)%R).

Lemma insert_desc_perm a l : Permutation (a :: l) (insert_desc lt a l).
Proof.
  induction l as [|b l IH]; cbn; auto. destruct (Rlt_bool (key a) (key b)); auto.
  rewrite perm_swap. now constructor.
Qed.

Lemma sorted_desc_perm l : Permutation l (sorted_desc lt l).
Proof.
  induction l as [|a l IH]; cbn; auto. rewrite <- insert_desc_perm. now constructor.
Qed.

Lemma insert_desc_sorted a l : StronglySorted geq l -> StronglySorted geq (insert_desc lt a l).
Proof.
  induction 1 as [|b l S IH F]; cbn; [repeat constructor|].
  destruct (Rlt_bool_spec (key a) (key b)) as [L|L].
  - constructor; auto. rewrite <- insert_desc_perm. constructor; [lra|auto].
  - constructor; [now constructor|]. constructor; [lra|].
    eapply Forall_impl; [|exact F]. cbn. intros c Hc. lra.
Qed.

Lemma sorted_desc_sorted l : StronglySorted geq (sorted_desc lt l).
Proof.
  induction l as [|a l IH]; cbn; [constructor|]. now apply insert_desc_sorted.
Qed.

Lemma insert_asc_perm a l : Permutation (a :: l) (insert_asc lt a l).
Proof.
  induction l as [|b l IH]; cbn; auto. destruct (Rlt_bool (key b) (key a)); auto.
  rewrite perm_swap. now constructor.
Qed.

Lemma sorted_asc_perm l : Permutation l (sorted_asc lt l).
Proof.
  induction l as [|a l IH]; cbn; auto. rewrite <- insert_asc_perm. now constructor.
Qed.

Lemma insert_asc_sorted a l : StronglySorted leq l -> StronglySorted leq (insert_asc lt a l).
Proof.
  induction 1 as [|b l S IH F]; cbn; [repeat constructor|].
  destruct (Rlt_bool_spec (key b) (key a)) as [L|L].
  - constructor; auto. rewrite <- insert_asc_perm. constructor; [lra|auto].
  - constructor; [now constructor|]. constructor; [lra|].
    eapply Forall_impl; [|exact F]. cbn. intros c Hc. lra.
Qed.

Lemma sorted_asc_sorted l : StronglySorted leq (sorted_asc lt l).
Proof.
  induction l as [|a l IH]; cbn; [constructor|]. now apply insert_asc_sorted.
Qed.

Lemma first_max_spec a l : In (first_max lt a l) (a :: l) /\
  forall b, In b (a :: l) -> (key b <= key (first_max lt a l))%R.
Proof.
  unfold first_max. revert a. induction l as [|b l IH]; intros a.
  - cbn. split; auto. intros b [<-|[]]. lra.
  - cbn [fold_left]. destruct (Rlt_bool_spec (key a) (key b)) as [L|L].
    + destruct (IH b) as [I M]. split; [right; exact I|].
      intros c [<-|Hc]; [|now apply M]. specialize (M b (or_introl eq_refl)). lra.
    + destruct (IH a) as [I M]. split.
      * destruct I as [I|I]; [now left|right; now right].
      * intros c [<-|[<-|Hc]]; [apply M; now left| |apply M; now right].
        specialize (M a (or_introl eq_refl)). lra.
Qed.
End Sorts.

(** ** cutting a list where a relation holds between neighbours *)
Section Cut.
Context {A : Type} (brk : A -> A -> bool).

Fixpoint cut (l : list A) : list (list A) :=
  match l with
  | [] => []
  | a :: l' =>
    match l' with
    | [] => [[a]]
    | b :: _ => if brk a b then [a] :: cut l' else
        match cut l' with s :: ss => (a :: s) :: ss | [] => [[a]] end
    end
  end.

Lemma cut_cons2 a b l : cut (a :: b :: l) =
  if brk a b then [a] :: cut (b :: l) else
  match cut (b :: l) with s :: ss => (a :: s) :: ss | [] => [[a]] end.
Proof. reflexivity. Qed.

Lemma cut_head a l : exists s ss, cut (a :: l) = (a :: s) :: ss.
Proof.
  revert a. induction l as [|b l IH]; intros a; [now exists [], []|].
  rewrite cut_cons2. destruct (IH b) as (s & ss & E). destruct (brk a b).
  - exists [], (cut (b :: l)). reflexivity.
  - rewrite E. now exists (b :: s), ss.
Qed.

Lemma cut_concat l : concat (cut l) = l.
Proof.
  induction l as [|a [|b l] IH]; auto. rewrite cut_cons2. destruct (brk a b).
  - cbn [concat app]. now rewrite IH.
  - destruct (cut_head b l) as (s & ss & E). rewrite E in *. cbn in *. now rewrite IH.
Qed.

Lemma cut_nonempty l : Forall (fun s => s <> []) (cut l).
Proof.
  induction l as [|a [|b l] IH]; [constructor|repeat constructor; discriminate|].
  rewrite cut_cons2. destruct (brk a b).
  - constructor; [discriminate|auto].
  - destruct (cut_head b l) as (s & ss & E). rewrite E in *. inversion IH; subst.
    constructor; [discriminate|auto].
Qed.

(** members of one piece are connected through neighbours that do not break *)
Lemma cut_linked (K : A -> A -> Prop) l :
  (forall a b, brk a b = false -> In a l -> In b l -> K a b) ->
  forall s, In s (cut l) -> forall a b, In a s -> In b s ->
  clos_refl_sym_trans A K a b.
Proof.
  induction l as [|x [|y l] IH]; intros HK s Hs a b Ha Hb; [destruct Hs| |].
  - cbn in Hs. destruct Hs as [<-|[]]. cbn in Ha, Hb.
    destruct Ha as [<-|[]], Hb as [<-|[]]. apply rst_refl.
  - rewrite cut_cons2 in Hs.
    assert (HK' : forall a b, brk a b = false -> In a (y :: l) -> In b (y :: l) -> K a b).
    { intros. apply HK; auto; now right. }
    destruct (brk x y) eqn:E.
    + destruct Hs as [<-|Hs].
      * cbn in Ha, Hb. destruct Ha as [<-|[]], Hb as [<-|[]]. apply rst_refl.
      * now apply (IH HK' s).
    + destruct (cut_head y l) as (s' & ss & E'). rewrite E' in *.
      destruct Hs as [<-|Hs].
      * assert (XY : clos_refl_sym_trans A K x y).
        { apply rst_step, HK; auto; [now left|right; now left]. }
        assert (G : forall c, In c (x :: y :: s') -> clos_refl_sym_trans A K y c).
        { intros c [<-|Hc]; [now apply rst_sym|].
          apply (IH HK' (y :: s')); auto; now left. }
        eapply rst_trans; [apply rst_sym|]; apply G; auto.
      * apply (IH HK' s); auto. now right.
Qed.

(** and for a sorted list, members of different pieces are separated by a break *)
Lemma cut_sep (val : A -> R) (r : R) l :
  (forall a b, brk a b = true -> (val a <= val b)%R -> (r < val b - val a)%R) ->
  StronglySorted (fun a b => (val a <= val b)%R) l ->
  StronglySorted (fun s t => forall a b, In a s -> In b t -> (r < val b - val a)%R) (cut l).
Proof.
  intros HB. induction l as [|x [|y l] IH]; intros HS; [constructor|repeat constructor|].
  inversion HS as [|? ? HS' F]; subst. specialize (IH HS').
  rewrite cut_cons2. destruct (brk x y) eqn:E.
  - constructor; auto. apply Forall_forall. intros t Ht a b [<-|[]] Hb.
    assert (In b (y :: l)).
    { rewrite <- (cut_concat (y :: l)). apply in_concat. eauto. }
    assert (val y <= val b)%R.
    { destruct H as [<-|H]; [lra|]. inversion HS' as [|? ? _ F']; subst.
      rewrite Forall_forall in F'. now apply F'. }
    specialize (HB x y E ltac:(inversion F; auto)). lra.
  - destruct (cut_head y l) as (s' & ss & E'). rewrite E' in *.
    inversion IH as [|? ? S1 F1]; subst. constructor; auto.
    eapply Forall_impl; [|exact F1]. intros t Ht a b Ha Hb. cbn in Ht.
    destruct Ha as [<-|Ha]; [|now apply Ht].
    inversion F as [|? ? F2 _]; subst. specialize (Ht y b (or_introl eq_refl) Hb). lra.
Qed.

(** the pieces are the slices between the break positions *)
Lemma skipn_cons {B} s k (a : B) l : (k < s)%nat -> skipn (s - k) (a :: l) = skipn (s - S k) l.
Proof. intros H. replace (s - k)%nat with (S (s - S k)) by lia. reflexivity. Qed.

Fixpoint slices_from {B} (k : nat) (l : list B) (bounds : list nat) : list (list B) :=
  match bounds with
  | s :: ((e :: _) as rest) => firstn (e - s) (skipn (s - k) l) :: slices_from k l rest
  | _ => []
  end.

Lemma slices_from_cons2 {B} k (l : list B) s e bs :
  slices_from k l (s :: e :: bs) = firstn (e - s) (skipn (s - k) l) :: slices_from k l (e :: bs).
Proof. reflexivity. Qed.

Lemma slices_from_0 {B} (l : list B) bs : slices l bs = slices_from 0 l bs.
Proof.
  induction bs as [|s [|e bs] IH]; auto. cbn [slices slices_from]. rewrite Nat.sub_0_r. f_equal. exact IH.
Qed.

Lemma slices_from_shift {B} k (a : B) l bs : Forall (fun s => (k < s)%nat) bs ->
  slices_from k (a :: l) bs = slices_from (S k) l bs.
Proof.
  induction bs as [|s [|e bs] IH]; intros F; auto.
  inversion F; subst. cbn [slices_from]. rewrite skipn_cons by auto. f_equal. now apply IH.
Qed.

Lemma slices_cut (p : nat -> bool) (d : A) l k :
  (forall i, (S i < length l)%nat -> p (k + i)%nat = brk (nth i l d) (nth (S i) l d)) -> l <> [] ->
  slices_from k l (k :: map S (filter p (seq k (length l - 1))) ++ [k + length l]) = cut l.
Proof.
  revert k. induction l as [|a [|b l] IH]; intros k Hp Hne; [easy| |].
  - cbn. replace (k + 1 - k)%nat with 1%nat by lia. rewrite Nat.sub_diag. reflexivity.
  - assert (Hp' : forall i, (S i < length (b :: l))%nat ->
        p (S k + i)%nat = brk (nth i (b :: l) d) (nth (S i) (b :: l) d)).
    { intros i Hi. specialize (Hp (S i) ltac:(cbn in *; lia)).
      replace (S k + i)%nat with (k + S i)%nat by lia. exact Hp. }
    specialize (IH (S k) Hp' ltac:(discriminate)).
    pose proof (Hp 0%nat ltac:(cbn; lia)) as H0. cbn [nth] in H0. rewrite Nat.add_0_r in H0.
    rewrite cut_cons2. replace (length (a :: b :: l) - 1)%nat with (S (length (b :: l) - 1)) by (cbn; lia).
    cbn [seq filter]. rewrite H0.
    replace (k + length (a :: b :: l))%nat with (S k + length (b :: l))%nat by (cbn; lia).
    set (rest := map S (filter p (seq (S k) (length (b :: l) - 1))) ++ [(S k + length (b :: l))%nat]) in *.
    assert (FR : Forall (fun s => (S k < s)%nat) rest).
    { unfold rest. apply Forall_app. split.
      - apply Forall_forall. intros s Hs. apply in_map_iff in Hs as (t & <- & Ht).
        apply filter_In in Ht as [Ht _]. apply in_seq in Ht. lia.
      - constructor; [cbn; lia|constructor]. }
    assert (NR : exists e rs, rest = e :: rs).
    { unfold rest. destruct (map S _); cbn; eauto. }
    destruct NR as (e & rs & ER).
    destruct (brk a b).
    + cbn [map app]. fold rest.
      rewrite slices_from_cons2.
      replace (S k - k)%nat with 1%nat by lia. rewrite Nat.sub_diag. cbn [skipn firstn]. f_equal.
      rewrite slices_from_shift; [exact IH|]. constructor; [lia|].
      eapply Forall_impl; [|exact FR]. cbn. intros. lia.
    + fold rest. rewrite ER in *. cbn [slices_from] in IH |- *.
      destruct (cut (b :: l)) as [|s ss] eqn:EC; [discriminate|].
      injection IH as I1 I2. f_equal.
      * rewrite Nat.sub_diag in I1 |- *. cbn [skipn] in I1 |- *.
        inversion FR; subst. replace (e - k)%nat with (S (e - S k)) by lia.
        cbn [firstn]. reflexivity.
      * rewrite <- I2. apply (slices_from_shift k a (b :: l) (e :: rs)).
        eapply Forall_impl; [|exact FR]. cbn. intros. lia.
Qed.
End Cut.

(** ** cluster1d *)
Definition sorts (argsort : list R -> list nat) : Prop :=
  forall x, Permutation (argsort x) (seq 0 (length x)) /\
    StronglySorted (fun i j => (nth i x 0 <= nth j x 0)%R) (argsort x).

Lemma nabs_R x : nabs numR x = Rabs x.
Proof.
  unfold nabs. rsimp. destruct (Rlt_bool_spec x 0).
  - rewrite Rabs_left by lra. lra.
  - rewrite Rabs_pos_eq by lra. reflexivity.
Qed.

Definition breaks (x : list R) (r : R) (i j : nat) : bool := Rlt_bool r (Rabs (nth j x 0 - nth i x 0)%R).

Lemma cluster1d_cut (argsort : list R -> list nat) (x : list R) (r : R) (srt : bool) :
  let idx := if srt then seq 0 (length x) else argsort x in
  length idx = length x ->
  cluster1d numR argsort x r srt = cut (breaks x r) idx.
Proof.
  intros idx HL. unfold cluster1d. rsimp. numR_ty.
  destruct (Nat.eqb_spec (length x) 0) as [E|E].
  { rewrite E in HL. destruct idx; [reflexivity|discriminate]. }
  fold idx.
  set (xs := map (fun i => nth i x 0%R) idx).
  set (p := fun k => Rlt_bool r (nabs numR (nth k (map (fun k => (nth (S k) xs 0 - nth k xs 0)%R) (seq 0 (length x - 1))) 0%R))).
  change (filter _ (seq 0 (length x - 1))) with (filter p (seq 0 (length x - 1))).
  assert (Hne : idx <> []) by (intros F; rewrite F in HL; cbn in HL; lia).
  assert (Hp : forall i, (S i < length idx)%nat -> p (0 + i)%nat = breaks x r (nth i idx 0%nat) (nth (S i) idx 0%nat)).
  { intros i Hi. unfold p, breaks. rewrite nabs_R. f_equal. f_equal. cbn [Nat.add].
    rewrite nth_indep with (d' := (fun k => (nth (S k) xs 0 - nth k xs 0)%R) 0%nat)
      by (rewrite map_length, seq_length; lia).
    rewrite (map_nth (fun k => (nth (S k) xs 0 - nth k xs 0)%R)).
    rewrite seq_nth by lia. cbn [Nat.add]. unfold xs.
    assert (Q : forall j, (j < length idx)%nat -> nth j (map (fun i => nth i x 0%R) idx) 0%R = nth (nth j idx 0%nat) x 0%R).
    { intros j Hj. rewrite nth_indep with (d' := (fun i => nth i x 0%R) 0%nat) by now rewrite map_length.
      now rewrite (map_nth (fun i => nth i x 0%R)). }
    now rewrite !Q by lia. }
  pose proof (slices_cut (breaks x r) p 0%nat idx 0 Hp Hne) as SC. rewrite HL in SC.
  rewrite <- slices_from_0 in SC. cbn [Nat.add] in SC.
  destruct (filter p (seq 0 (length x - 1))) eqn:EF; cbn [length Nat.eqb].
  - rewrite <- SC. cbn [map app slices]. rewrite Nat.sub_0_r. cbn [skipn].
    rewrite <- HL, firstn_all. reflexivity.
  - exact SC.
Qed.

(** in any list without duplicates sorted by [val], the pieces are the groups of friends *)
Lemma cut_friends {A} (brk : A -> A -> bool) (val : A -> R) (r : R) (l : list A) :
  (forall a b, brk a b = Rlt_bool r (Rabs (val b - val a))) ->
  StronglySorted (fun a b => (val a <= val b)%R) l ->
  forall a b, In a l -> In b l ->
  ((exists s, In s (cut brk l) /\ In a s /\ In b s) <-> friends (fun c => In c l) val r a b).
Proof.
  intros HB HS.
  assert (SEP : StronglySorted (fun s t => forall a b, In a s -> In b t -> (r < val b - val a)%R) (cut brk l)).
  { apply cut_sep; auto. intros a b E L. rewrite HB in E.
    destruct (Rlt_bool_spec r (Rabs (val b - val a))) as [H|]; [|discriminate].
    rewrite Rabs_pos_eq in H by lra. exact H. }
  assert (MEM : forall a, In a l -> exists s, In s (cut brk l) /\ In a s).
  { intros a Ha. rewrite <- (cut_concat brk l) in Ha. apply in_concat in Ha as (s & Hs & Ha). eauto. }
  assert (ONE : forall (ss : list (list A)),
    StronglySorted (fun s t => forall a b, In a s -> In b t -> (r < val b - val a)%R) ss ->
    forall s t a b, In s ss -> In t ss -> In a s -> In b t -> (Rabs (val a - val b) <= r)%R -> s = t).
  { induction 1 as [|u ss S IH F]; intros s t a b Hs Ht Ha Hb Hr; [easy|].
    rewrite Forall_forall in F.
    destruct Hs as [<-|Hs], Ht as [<-|Ht]; auto.
    - specialize (F t Ht a b Ha Hb). apply Rabs_le_inv in Hr. lra.
    - specialize (F s Hs b a Hb Ha). apply Rabs_le_inv in Hr. lra.
    - now apply (IH s t a b). }
  specialize (ONE _ SEP).
  intros a b Ha Hb. split.
  - intros (s & Hs & As & Bs).
    assert (L : clos_refl_sym_trans A (near (fun c => In c l) val r) a b).
    { apply (cut_linked brk (near (fun c => In c l) val r) l) with s; auto.
      intros c d E Hc Hd. split; auto. split; auto. rewrite HB in E.
      destruct (Rlt_bool_spec r (Rabs (val d - val c))); [discriminate|].
      now rewrite Rabs_minus_sym. }
    clear - L. induction L as [c d H|c|c d L IH|c d e L1 IH1 L2 IH2].
    + now apply rt_step.
    + apply rt_refl.
    + clear L. unfold friends in *. induction IH as [c d (H1 & H2 & H3)|c|c d e L1 IH1 L2 IH2].
      * apply rt_step. split; auto. split; auto. now rewrite Rabs_minus_sym.
      * apply rt_refl.
      * eapply rt_trans; eauto.
    + eapply rt_trans; eauto.
  - intros F. clear Hb.
    assert (G : In b l /\ exists s, In s (cut brk l) /\ In a s /\ In b s); [|tauto].
    apply clos_rt_rtn1 in F. induction F as [|c d (Pc & Pd & Hr) F IH].
    + split; auto. destruct (MEM a Ha) as (s & ? & ?). exists s. auto.
    + split; auto. destruct IH as (_ & s & Hs & As & Cs).
      destruct (MEM d Pd) as (t & Ht & Dt).
      assert (s = t) by now apply (ONE s t c d). subst t. exists s. auto.
Qed.
