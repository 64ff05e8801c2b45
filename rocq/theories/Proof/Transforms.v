From Coq Require Import List Arith ZArith Bool Lia Reals Lra.
From Verif Require Import Base.Result Base.Buf Base.Num Model.Kernels Model.Transforms
  Spec.Sums Spec.FfaSpec Proof.Kernels.
Import ListNotations.

Section Path.
Context (idx : nat -> nat -> nat -> nat).

(** shift applied to input row [i] in output row [s] *)
Fixpoint path (fuel m s i : nat) : nat :=
  match fuel with
  | O => 0
  | S f =>
    if m <=? 1 then 0 else
    if m =? 2 then (if i =? 0 then 0 else s) else
    let h := idx (m / 2) m s in
    let t := idx (m - m / 2) m s in
    if i <? m / 2 then path f (m / 2) h i
    else (s - t) + path f (m - m / 2) t (i - m / 2)
  end.

Fixpoint mtree (fuel o m : nat) : tree :=
  match fuel with
  | O => Leaf o
  | S f =>
    if m <=? 1 then Leaf o else
    Node (mtree f o (m / 2)) (mtree f (o + m / 2) (m - m / 2))
  end.

Lemma half_facts m : 2 <= m -> 1 <= m / 2 /\ m / 2 <= m - m / 2 /\ m - m / 2 < m /\ m / 2 < m.
Proof.
  intros H. pose proof (Nat.div_mod m 2 ltac:(lia)).
  pose proof (Nat.mod_upper_bound m 2 ltac:(lia)). lia.
Qed.

Lemma leaves_mtree : forall fuel o m, 1 <= m <= fuel -> leaves (mtree fuel o m) = seq o m.
Proof.
  induction fuel as [|f IH]; intros o m Hm; [lia|]. cbn [mtree].
  destruct (Nat.leb_spec m 1).
  - replace m with 1 by lia. reflexivity.
  - pose proof (half_facts m ltac:(lia)). cbn [leaves].
    rewrite !IH by lia. rewrite <- seq_app. f_equal. lia.
Qed.

Lemma depth_mtree : forall fuel o m, 1 <= m <= fuel -> depth (mtree fuel o m) <= Nat.log2_up m.
Proof.
  induction fuel as [|f IH]; intros o m Hm; [lia|]. cbn [mtree].
  destruct (Nat.leb_spec m 1); [cbn; lia|].
  pose proof (half_facts m ltac:(lia)) as Hh. cbn [depth].
  assert (Hl : Nat.log2_up m = S (Nat.log2_up (m - m / 2))).
  { pose proof (Nat.div_mod m 2 ltac:(lia)).
    pose proof (Nat.mod_upper_bound m 2 ltac:(lia)).
    destruct (Nat.eq_dec m 2) as [->|]; [reflexivity|].
    rewrite (Nat.log2_up_eqn m) by lia.
    rewrite (Nat.log2_up_eqn (m - m / 2)) by lia.
    destruct (Nat.eq_dec (m mod 2) 0) as [E|E].
    - replace m with (2 * (m / 2)) at 1 by lia.
      replace (Nat.pred (2 * (m / 2))) with (2 * (m / 2 - 1) + 1) by lia.
      rewrite Nat.log2_succ_double by lia. f_equal. f_equal. f_equal. lia.
    - replace (Nat.pred m) with (2 * (m / 2)) by lia.
      rewrite Nat.log2_double by lia. f_equal. f_equal. f_equal. lia. }
  rewrite Hl. apply le_n_S.
  pose proof (IH o (m / 2) ltac:(lia)).
  pose proof (IH (o + m / 2) (m - m / 2) ltac:(lia)).
  pose proof (Nat.log2_up_le_mono (m / 2) (m - m / 2) ltac:(lia)). lia.
Qed.

Lemma teval_mtree_ext {A} (plus : A -> A -> A) : forall fuel o o' m g g',
  1 <= m <= fuel -> (forall i, i < m -> g (o + i) = g' (o' + i)) ->
  teval plus g (mtree fuel o m) = teval plus g' (mtree fuel o' m).
Proof.
  induction fuel as [|f IH]; intros o o' m g g' Hm H; [lia|]. cbn [mtree].
  destruct (Nat.leb_spec m 1); cbn [teval].
  - specialize (H 0 ltac:(lia)). now rewrite !Nat.add_0_r in H.
  - pose proof (half_facts m ltac:(lia)). f_equal; apply IH; try lia.
    + intros i Hi; apply H; lia.
    + intros i Hi. rewrite <- !Nat.add_assoc. apply H; lia.
Qed.

Lemma path_folding : forall fuel m s,
  1 <= m <= fuel -> s < m ->
  (forall m', 3 <= m' <= m -> good_index idx m') ->
  folding_path m s (path fuel m s).
Proof.
  induction fuel as [|f IH]; intros m s Hm Hs Hg; [lia|]. unfold folding_path. cbn [path].
  destruct (Nat.leb_spec m 1). { repeat split; intros; lia. }
  destruct (Nat.eqb_spec m 2) as [->|Hm2].
  { cbn. split; auto. split; auto. intros i Hi. replace i with 0 by lia. cbn. lia. }
  pose proof (half_facts m ltac:(lia)) as Hh.
  destruct (Hg m ltac:(lia) s Hs) as (G1 & G2 & G3 & G4).
  set (h := idx (m / 2) m s) in *. set (t := idx (m - m / 2) m s) in *.
  destruct (IH (m / 2) h) as (A1 & A2 & A3); try lia.
  { intros; apply Hg; lia. }
  destruct (IH (m - m / 2) t) as (B1 & B2 & B3); try lia.
  { intros; apply Hg; lia. }
  repeat split.
  - destruct (Nat.ltb_spec 0 (m / 2)); [auto|lia].
  - destruct (Nat.ltb_spec (m - 1) (m / 2)); [lia|].
    replace (m - 1 - m / 2) with (m - m / 2 - 1) by lia. rewrite B2. lia.
  - intros i Hi. destruct (Nat.ltb_spec (i + 1) (m / 2)).
    + destruct (Nat.ltb_spec i (m / 2)); [|lia]. apply A3; lia.
    + destruct (Nat.ltb_spec i (m / 2)).
      * replace i with (m / 2 - 1) by lia. rewrite A2.
        replace (m / 2 - 1 + 1 - m / 2) with 0 by lia. rewrite B1. lia.
      * replace (i + 1 - m / 2) with (i - m / 2 + 1) by lia.
        destruct (B3 (i - m / 2) ltac:(lia)); lia.
Qed.

Lemma merge_shift_ok s h t :
  (Z.of_nat s < 2 ^ 64)%Z -> h + t <= s -> merge_shift s h t = Z.of_nat (s - t).
Proof.
  intros Hs Hle. unfold merge_shift, u64.
  rewrite (Z.mod_small (Z.of_nat h + Z.of_nat t)) by lia.
  rewrite (Z.mod_small (Z.of_nat s - _)) by lia.
  rewrite Z.mod_small by lia. lia.
Qed.

Section Buffers.
Context {A : Type} (plus : A -> A -> A) (d : A).

Lemma merge_spec src out to oo m p (GH GT : nat -> nat -> A) :
  3 <= m -> 0 < p -> (Z.of_nat m <= 2 ^ 64)%Z -> good_index idx m ->
  to + m * p <= length src -> oo + m * p <= length out ->
  (forall h c, h < m / 2 -> c < p -> nth_error src (to + h * p + c) = Some (GH h c)) ->
  (forall t c, t < m - m / 2 -> c < p ->
     nth_error src (to + m / 2 * p + t * p + c) = Some (GT t c)) ->
  exists out', merge plus idx src (Block to (m / 2) p) (Block (to + m / 2 * p) (m - m / 2) p)
                     out (Block oo m p) = Ok out' /\
    frame out out' oo (m * p) /\
    forall s c, s < m -> c < p ->
      nth_error out' (oo + s * p + c)
      = Some (plus (GH (idx (m / 2) m s) c)
                   (GT (idx (m - m / 2) m s) ((c + (s - idx (m - m / 2) m s)) mod p))).
Proof.
  intros Hm Hp H64 Hg Hs Ho HH HT. unfold merge. cbn [b_rows b_cols].
  pose proof (half_facts m ltac:(lia)) as Hh.
  match goal with |- context [for_ m 0 ?b ?s] =>
    destruct (for_inv (fun i o => frame out o oo (m * p) /\
      forall s c, s < i -> c < p ->
      nth_error o (oo + s * p + c)
      = Some (plus (GH (idx (m / 2) m s) c)
                   (GT (idx (m - m / 2) m s) ((c + (s - idx (m - m / 2) m s)) mod p)))) b m 0 s)
      as (out' & E & F & W)
  end.
  - split; [apply frame_refl|]. intros; lia.
  - intros s o Hi [F W].
    destruct (Hg s ltac:(lia)) as (G1 & G2 & G3 & G4).
    set (h := idx (m / 2) m s) in *. set (t := idx (m - m / 2) m s) in *.
    destruct (Nat.eqb_spec p 0); [lia|].
    rewrite merge_shift_ok by lia.
    rewrite <- Nat2Z.inj_mod, Nat2Z.id.
    unfold rowptr; cbn [b_off b_cols].
    destruct F as [FL FO].
    destruct (fused_rollback_add_spec plus d src (to + h * p) src (to + m / 2 * p + t * p) p
                ((s - t) mod p) o (oo + s * p)) as (o' & E & L' & W' & F'); try lia.
    { assert ((h + 1) * p <= m * p) by (apply Nat.mul_le_mono_r; lia). lia. }
    { assert ((m / 2 + t + 1) * p <= m * p) by (apply Nat.mul_le_mono_r; lia). lia. }
    { assert ((s + 1) * p <= m * p) by (apply Nat.mul_le_mono_r; lia). lia. }
    exists o'; split; auto.
    assert (Hrow : (s + 1) * p <= m * p) by (apply Nat.mul_le_mono_r; lia).
    split.
    + split; [congruence|]. intros j Hj. rewrite F' by lia. apply FO; lia.
    + intros s' c Hs' Hc. destruct (Nat.eq_dec s' s) as [->|Hne].
      * rewrite W' by lia. f_equal. fold h t. f_equal.
        -- rewrite (nth_error_nth src (to + h * p + c) d (HH h c ltac:(lia) Hc)). reflexivity.
        -- rewrite Nat.add_mod_idemp_r by lia.
           assert (Hc' : (c + (s - t)) mod p < p) by (apply Nat.mod_upper_bound; lia).
           rewrite (nth_error_nth src _ d (HT t ((c + (s - t)) mod p) ltac:(lia) Hc')).
           reflexivity.
      * assert ((s' + 1) * p <= s * p) by (apply Nat.mul_le_mono_r; lia).
        rewrite F' by lia. apply W; lia.
  - exists out'; auto.
Qed.

Lemma transform_spec : forall fuel m p io to oo inp tmp out,
  1 <= m <= fuel -> 0 < p -> (Z.of_nat m <= 2 ^ 64)%Z ->
  (forall m', 3 <= m' <= m -> good_index idx m') ->
  io + m * p <= length inp -> to + m * p <= length tmp -> oo + m * p <= length out ->
  exists tmp' out',
    transform plus idx fuel inp (Block io m p) tmp (Block to m p) out (Block oo m p)
      = Ok (tmp', out') /\
    frame tmp tmp' to (m * p) /\ frame out out' oo (m * p) /\
    forall s c, s < m -> c < p ->
      nth_error out' (oo + s * p + c)
      = Some (teval plus (fun i => nth (io + i * p + (c + path fuel m s i) mod p) inp d)
                (mtree fuel 0 m)).
Proof.
  induction fuel as [|f IH]; intros m p io to oo inp tmp out Hm Hp H64 Hg Hi Ht Ho; [lia|].
  cbn [transform path mtree b_rows b_cols].
  destruct (Nat.eqb_spec m 2) as [->|Hm2].
  { (* two rows *)
    unfold rowptr; cbn [b_off b_cols].
    destruct (add_spec plus d inp (io + 0 * p) inp (io + 1 * p) p out (oo + 0 * p))
      as (o1 & E1 & L1 & W1 & F1); try lia.
    rewrite E1; cbn [bind].
    destruct (fused_rollback_add_spec plus d inp (io + 0 * p) inp (io + 1 * p) p 1 o1 (oo + 1 * p))
      as (o2 & E2 & L2 & W2 & F2); try lia.
    rewrite E2; cbn [bind]. exists tmp, o2; split; auto. split; [apply frame_refl|]. split.
    { split; [congruence|]. intros j Hj. rewrite F2 by lia. apply F1; lia. }
    intros s c Hs Hc.
    assert (HT : forall g, teval plus g (Node (mtree f 0 (2 / 2)) (mtree f (0 + 2 / 2) (2 - 2 / 2)))
                  = plus (g 0) (g 1)).
    { intros g. change (2 / 2) with 1. change (2 - 1) with 1. destruct f; reflexivity. }
    replace (2 <=? 1) with false by reflexivity. rewrite HT. cbn [Nat.eqb].
    destruct s as [|[|s]]; [| |lia].
    - rewrite F2 by lia. rewrite W1 by lia. f_equal.
      rewrite !Nat.add_0_r, !(Nat.mod_small c p) by lia. reflexivity.
    - rewrite W2 by lia. f_equal. rewrite !Nat.add_0_r, !(Nat.mod_small c p) by lia.
      reflexivity. }
  destruct (Nat.eqb_spec m 1) as [->|Hm1].
  { destruct (memcpy_spec d out oo inp io p) as (o1 & E1 & L1 & W1 & F1); try lia.
    cbn [b_off]. rewrite E1; cbn [bind]. exists tmp, o1; split; auto.
    split; [apply frame_refl|]. split.
    { split; auto. intros j Hj. apply F1; lia. }
    intros s c Hs Hc. replace s with 0 by lia. cbn [Nat.leb teval].
    rewrite Nat.mul_0_l, !Nat.add_0_r, (Nat.mod_small c p) by lia. now apply W1. }
  (* three rows or more *)
  pose proof (half_facts m ltac:(lia)) as Hh.
  assert (Hmul : m / 2 * p + (m - m / 2) * p = m * p) by nia.
  unfold head, tail, head_size, rowptr. cbn [b_off b_rows b_cols].
  destruct (IH (m / 2) p io oo to inp out tmp) as (out1 & tmp1 & E1 & F1o & F1t & W1);
    try lia. { intros; apply Hg; lia. }
  rewrite E1; cbn [bind]. pose proof F1o as [L1o _]. pose proof F1t as [L1t _].
  destruct (IH (m - m / 2) p (io + m / 2 * p) (oo + m / 2 * p) (to + m / 2 * p) inp out1 tmp1)
    as (out2 & tmp2 & E2 & F2o & F2t & W2); try lia. { intros; apply Hg; lia. }
  rewrite E2; cbn [bind]. pose proof F2o as [L2o _]. pose proof F2t as [L2t F2t'].
  destruct (merge_spec tmp2 out2 to oo m p
      (fun h c => teval plus (fun i => nth (io + i * p + (c + path f (m / 2) h i) mod p) inp d)
                (mtree f 0 (m / 2)))
      (fun t c => teval plus (fun i => nth (io + m / 2 * p + i * p +
                   (c + path f (m - m / 2) t i) mod p) inp d) (mtree f 0 (m - m / 2))))
    as (out3 & E3 & F3 & W3); try lia.
  { apply Hg; lia. }
  { intros h c Hhh Hc. assert ((h + 1) * p <= m / 2 * p) by (apply Nat.mul_le_mono_r; lia).
    rewrite F2t' by lia. now apply W1. }
  { intros t c Htt Hc. now apply W2. }
  rewrite E3; cbn [bind]. exists tmp2, out3. split; auto. split.
  { eapply frame_trans; eapply frame_widen; eauto; lia. }
  split.
  { eapply frame_trans; [|exact F3]. eapply frame_trans; eapply frame_widen; eauto; lia. }
  intros s c Hs Hc. rewrite W3 by auto. f_equal.
  destruct (Nat.leb_spec m 1); [lia|]. cbn [teval]. f_equal.
  - apply teval_mtree_ext; [lia|]. intros i Hii. cbn [Nat.add].
    destruct (Nat.ltb_spec i (m / 2)); [reflexivity|lia].
  - apply teval_mtree_ext; [lia|]. intros i Hii. cbn [Nat.add].
    destruct (Nat.ltb_spec (m / 2 + i) (m / 2)); [lia|].
    replace (m / 2 + i - m / 2) with i by lia.
    rewrite Nat.add_mod_idemp_l by lia. f_equal. rewrite Nat.add_assoc. nia.
Qed.
End Buffers.
End Path.

Lemma ffa2_spec {A} (plus : A -> A -> A) (d : A) idx junk_t junk_o (X : arr2 A) :
  let m := a_rows X in let p := a_cols X in
  arr2_wf X -> 1 <= m -> 1 <= p -> (Z.of_nat m <= 2 ^ 64)%Z ->
  (forall m', 3 <= m' <= m -> good_index idx m') ->
  length junk_t = m * p -> length junk_o = m * p ->
  exists Y, ffa2 plus idx junk_t junk_o X = Ok Y /\ arr2_wf Y /\
    a_rows Y = m /\ a_cols Y = p /\
    forall s c, s < m -> c < p ->
      at2 d Y s c = teval plus (fun i => at2 d X i ((c + path idx (S m) m s i) mod p))
                          (mtree (S m) 0 m).
Proof.
  intros m p Hwf Hm Hp H64 Hg Ht Ho. unfold ffa2, transform_ptr.
  unfold arr2_wf in Hwf. fold m p in Hwf |- *.
  destruct (transform_spec idx plus d (S m) m p 0 0 0 (a_data X) junk_t junk_o)
    as (t' & o' & E & _ & [FL _] & W); try lia; auto.
  rewrite E; cbn [bind]. eexists; split; [reflexivity|].
  unfold arr2_wf; cbn. split; [congruence|]. split; auto. split; auto.
  intros s c Hs Hc. specialize (W s c Hs Hc). cbn in W. unfold at2 at 1; cbn.
  erewrite nth_error_nth by exact W.
  reflexivity.
Qed.
