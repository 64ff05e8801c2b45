From Coq Require Import List Arith ZArith Bool Lia Reals Lra Psatz.
From Flocq Require Import Core.
From Verif Require Import Base.Result Base.Buf Base.Num Model.RunMed Model.FastRmed Spec.Order Spec.Sums
  Proof.SumOrder Proof.RunMed Props.Downsample Props.RunMed.
Import ListNotations.
Local Open Scope R_scope.

(** ** interpolation *)
Definition increasing (l : list R) : Prop :=
  forall i j, (i < j < length l)%nat -> nth i l 0 < nth j l 0.

Lemma increasing_tl a l : increasing (a :: l) -> increasing l.
Proof. intros H i j Hij. apply (H (S i) (S j)). cbn. lia. Qed.

Lemma interp_in_range lo hi : forall (xp fp : list R) x, length xp = length fp -> fp <> [] ->
  increasing xp -> hd 0 xp <= x -> (forall f, In f fp -> lo <= f <= hi) ->
  lo <= interp_in numR xp fp x <= hi.
Proof.
  induction xp as [|x0 xp IH]; intros fp x HL Hne Hinc Hx Hf; destruct fp as [|f0 fp]; try discriminate;
    try congruence.
  cbn [interp_in]. destruct xp as [|x1 xp]; destruct fp as [|f1 fp]; try discriminate.
  { apply Hf. left; auto. }
  rsimp. destruct (Rlt_bool_spec x x1) as [H|H].
  - cbn in Hx. assert (x0 < x1) by (apply (Hinc 0%nat 1%nat); cbn; lia).
    assert (lo <= f0 <= hi) by (apply Hf; cbn; auto).
    assert (lo <= f1 <= hi) by (apply Hf; cbn; auto).
    set (t := (x - x0) / (x1 - x0)).
    assert (0 <= t <= 1).
    { unfold t. split.
      - apply Rmult_le_pos; [lra|]. left. apply Rinv_0_lt_compat. lra.
      - apply Rmult_le_reg_r with (x1 - x0); [lra|]. field_simplify; lra. }
    replace (f0 + (f1 - f0) / (x1 - x0) * (x - x0)) with (f0 * (1 - t) + f1 * t)
      by (unfold t; field; lra).
    split; nra.
  - apply IH; auto; try discriminate.
    + eapply increasing_tl; eauto.
    + intros f Hin. apply Hf. right. auto.
Qed.

Lemma interp_range lo hi (xp fp : list R) x : length xp = length fp -> fp <> [] ->
  increasing xp -> (forall f, In f fp -> lo <= f <= hi) -> lo <= interp numR xp fp x <= hi.
Proof.
  intros HL Hne Hinc Hf. unfold interp. destruct xp as [|x0 xp]; destruct fp as [|f0 fp]; try discriminate;
    try congruence. rsimp.
  destruct (Rlt_bool_spec x x0).
  - apply Hf. left; auto.
  - apply interp_in_range; auto.
Qed.

Lemma interp_in_affine a c : forall (xp fp : list R) x, length xp = length fp -> fp <> [] ->
  increasing xp ->
  interp_in numR xp (map (fun y => a * y + c) fp) x = a * interp_in numR xp fp x + c.
Proof.
  induction xp as [|x0 xp IH]; intros fp x HL Hne Hinc; destruct fp as [|f0 fp]; try discriminate;
    try congruence.
  destruct xp as [|x1 xp]; destruct fp as [|f1 fp]; try discriminate; [reflexivity|].
  cbn [map interp_in]. rsimp. destruct (Rlt_bool_spec x x1).
  - assert (x0 < x1) by (apply (Hinc 0%nat 1%nat); cbn; lia). field. lra.
  - apply (IH (f1 :: fp) x); auto; try discriminate. eapply increasing_tl; eauto.
Qed.

Lemma interp_affine a c (xp fp : list R) x : length xp = length fp -> fp <> [] -> increasing xp ->
  interp numR xp (map (fun y => a * y + c) fp) x = a * interp numR xp fp x + c.
Proof.
  intros HL Hne Hinc. destruct xp as [|x0 xp]; destruct fp as [|f0 fp]; try discriminate; try congruence.
  unfold interp. cbn [map]. rsimp. destruct (Rlt_bool_spec x x0); [reflexivity|].
  apply (interp_in_affine a c (x0 :: xp) (f0 :: fp)); auto.
Qed.

(** ** running median on the reals *)
Lemma order_stat_map (f : R -> R) k l v : (forall x y, Rlt_bool (f x) (f y) = Rlt_bool x y) ->
  order_stat Rlt_bool k l v -> order_stat Rlt_bool k (map f l) (f v).
Proof.
  intros Hf [H1 H2]. split; [now apply in_map|].
  assert (C : forall p, count p (map f l) = count (fun x => p (f x)) l).
  { intros p. unfold count. clear. induction l as [|a l IH]; cbn; auto. destruct (p (f a)); cbn; auto. }
  rewrite !C. unfold count in *.
  rewrite (filter_ext (fun x => Rlt_bool (f x) (f v)) (fun x => Rlt_bool x v)) by auto.
  rewrite (filter_ext (fun x => negb (Rlt_bool (f v) (f x))) (fun x => negb (Rlt_bool v x)))
    by (intros; now rewrite Hf). exact H2.
Qed.

Lemma affine_order a c : 0 < a -> forall x y, Rlt_bool (a * x + c) (a * y + c) = Rlt_bool x y.
Proof.
  intros Ha x y. destruct (Rlt_bool_spec x y).
  - apply Rlt_bool_true. nra.
  - apply Rlt_bool_false. nra.
Qed.

Lemma rmed_in alloc zero (x : list R) w out : allocates alloc ->
  py_running_median Rlt_bool zero alloc x w = Ok out ->
  length out = length x /\ (forall v, In v out -> In v x) /\ x <> [].
Proof.
  intros Ha E. destruct (running_median_correct R Rlt_bool zero 0 alloc x w Ha) as [H1 H2].
  destruct (Nat.odd w) eqn:O.
  2:{ rewrite H1 in E by (intros [? _]; discriminate). discriminate. }
  destruct (lt_dec w (length x)) as [Hw|Hw].
  2:{ rewrite H1 in E by (intros [_ ?]; contradiction). discriminate. }
  destruct H2 as (out' & E' & L & M); auto. rewrite E in E'. injection E' as <-.
  split; auto. split.
  - intros v Hv. apply (In_nth _ _ 0) in Hv. destruct Hv as (c & Hc & <-).
    rewrite L in Hc. destruct (M strict_weak_R c Hc) as [_ [Hin _]].
    unfold centred_window in Hin. apply in_map_iff in Hin. destruct Hin as (k & <- & _).
    apply nth_In. lia.
  - intros ->. cbn in Hw. lia.
Qed.

Lemma rmed_affine alloc zero (x : list R) w out a c : allocates alloc -> 0 < a ->
  py_running_median Rlt_bool zero alloc x w = Ok out ->
  py_running_median Rlt_bool zero alloc (map (fun y => a * y + c) x) w
  = Ok (map (fun y => a * y + c) out).
Proof.
  intros Ha Hpos E. destruct (rmed_in _ _ _ _ _ Ha E) as (L & _ & Hne).
  destruct (running_median_correct R Rlt_bool zero 0 alloc x w Ha) as [H1 H2].
  destruct (running_median_correct R Rlt_bool zero 0 alloc (map (fun y => a * y + c) x) w Ha) as [_ H2'].
  rewrite map_length in *.
  destruct (Nat.odd w) eqn:O.
  2:{ rewrite H1 in E by (intros [? _]; discriminate). discriminate. }
  destruct (lt_dec w (length x)) as [Hw|Hw].
  2:{ rewrite H1 in E by (intros [_ ?]; contradiction). discriminate. }
  destruct H2 as (out1 & E1 & L1 & M1); auto. rewrite E in E1. injection E1 as <-.
  destruct H2' as (out2 & E2 & L2 & M2); auto. rewrite E2. f_equal.
  apply nth_ext with 0 0; [rewrite map_length; congruence|].
  intros i Hi. rewrite L2 in Hi. rewrite (nth_map _ _ _ _ 0) by lia.
  apply median_unique_R with (centred_window 0 (map (fun y => a * y + c) x) (w / 2) i).
  - apply M2; auto. apply strict_weak_R.
  - destruct (M1 strict_weak_R i Hi) as [Od OS].
    assert (CW : centred_window 0 (map (fun y => a * y + c) x) (w / 2) i
       = map (fun y => a * y + c) (centred_window 0 x (w / 2) i)).
    { unfold centred_window. rewrite map_map, map_length. apply map_ext_in. intros k Hk.
      apply (nth_map (fun y => a * y + c)). lia. }
    rewrite CW. split; [now rewrite map_length|]. rewrite map_length.
    apply (order_stat_map (fun y => a * y + c)); auto. now apply affine_order.
Qed.

(** ** scrunch *)
Lemma scrunch_nth (x : list R) f i : (0 < f)%nat -> (i < length x / f)%nat ->
  nth i (scrunch numR x f) 0 = rsum f (fun k => nth (i * f + k) x 0) / INR f.
Proof.
  intros Hf Hi. unfold scrunch. numR_ty. rewrite nth_map_seq by auto.
  rewrite <- (map_map (fun j => nth (i * f + j) x 0) Val).
  change (@o_sum R opsR i) with exact_sum. rewrite exact_sum_range. rsimp.
  rewrite <- INR_IZR_INZ. reflexivity.
Qed.

Lemma scrunch_length (x : list R) f : length (scrunch numR x f) = (length x / f)%nat.
Proof. unfold scrunch. now rewrite map_length, seq_length. Qed.

Lemma scrunch_range (x : list R) f lo hi v : (0 < f)%nat -> (forall y, In y x -> lo <= y <= hi) ->
  In v (scrunch numR x f) -> lo <= v <= hi.
Proof.
  intros Hf Hx Hv. apply (In_nth _ _ 0) in Hv. destruct Hv as (i & Hi & <-).
  rewrite scrunch_length in Hi. rewrite scrunch_nth by auto.
  assert (Hfp : 0 < INR f) by (apply (lt_INR 0); auto).
  assert (Hmul : (length x / f * f <= length x)%nat) by (rewrite Nat.mul_comm; apply Nat.mul_div_le; lia).
  assert (B : forall k, (k < f)%nat -> lo <= nth (i * f + k) x 0 <= hi).
  { intros k Hk. apply Hx, nth_In. nia. }
  assert (INR f * lo <= rsum f (fun k => nth (i * f + k) x 0)).
  { rewrite <- rsum_const. apply rsum_le. intros. now apply B. }
  assert (rsum f (fun k => nth (i * f + k) x 0) <= INR f * hi).
  { rewrite <- rsum_const. apply rsum_le. intros. now apply B. }
  split; apply Rmult_le_reg_r with (INR f); auto; field_simplify; lra.
Qed.

Lemma scrunch_affine (x : list R) f a c : (0 < f)%nat ->
  scrunch numR (map (fun y => a * y + c) x) f = map (fun y => a * y + c) (scrunch numR x f).
Proof.
  intros Hf. apply nth_ext with 0 0.
  { rewrite map_length, !scrunch_length, map_length. reflexivity. }
  intros i Hi. rewrite scrunch_length in Hi. pose proof Hi as Hi'. rewrite map_length in Hi'.
  rewrite (nth_map _ _ _ _ 0) by (rewrite scrunch_length; auto).
  rewrite !scrunch_nth by auto.
  assert (Hfp : 0 < INR f) by (apply (lt_INR 0); auto).
  assert (Hmul : (length x / f * f <= length x)%nat) by (rewrite Nat.mul_comm; apply Nat.mul_div_le; lia).
  rewrite (rsum_ext f _ (fun k => a * nth (i * f + k) x 0 + c)).
  2:{ intros k Hk. rewrite (nth_map _ _ _ _ 0) by nia. reflexivity. }
  rewrite rsum_plus, rsum_scal, rsum_const. numR_ty. field. lra.
Qed.

Lemma scrunch_factor_R w m : (0 < m)%Z ->
  ((w < 2 * m)%Z -> scrunch_factor numR w m = 1%Z) /\
  ((2 * m <= w)%Z -> scrunch_factor numR w m = (w / m)%Z /\ (2 <= w / m)%Z).
Proof.
  intros Hm. unfold scrunch_factor. rsimp.
  assert (Hmp : 0 < IZR m) by now apply (IZR_lt 0).
  assert (FL : (m < w)%Z -> Ztrunc (IZR w / IZR m) = (w / m)%Z).
  { intros H. rewrite Ztrunc_floor. { now apply Zfloor_div; lia. }
    apply Rmult_le_pos; [|left; now apply Rinv_0_lt_compat]. apply (IZR_le 0). lia. }
  split; intros H.
  - destruct (Rlt_bool_spec 1 (IZR w / IZR m)) as [H1|H1]; auto.
    assert (m < w)%Z.
    { apply lt_IZR. apply Rmult_lt_compat_r with (r := IZR m) in H1; auto. field_simplify in H1; lra. }
    rewrite FL by auto. symmetry. apply Z.div_unique with (w - m)%Z; lia.
  - assert (2 <= w / m)%Z by (apply Z.div_le_lower_bound; lia).
    rewrite Rlt_bool_true.
    + rewrite FL by lia. auto.
    + apply Rmult_lt_reg_r with (IZR m); auto. replace (IZR w / IZR m * IZR m) with (IZR w) by (field; lra).
      rewrite Rmult_1_l. apply IZR_lt. lia.
Qed.

Lemma map_narrow_R (x : list R) : map (n_narrow (n := numR)) x = x.
Proof. apply map_id. Qed.

Lemma interp_in_at : forall (xp fp : list R) k x, length xp = length fp -> increasing xp ->
  (S k < length xp)%nat -> nth k xp 0 <= x < nth (S k) xp 0 ->
  interp_in numR xp fp x
  = nth k fp 0 + (nth (S k) fp 0 - nth k fp 0) / (nth (S k) xp 0 - nth k xp 0) * (x - nth k xp 0).
Proof.
  induction xp as [|x0 xp IH]; intros fp k x HL Hinc Hk Hx; [cbn in Hk; lia|].
  destruct fp as [|f0 fp]; [discriminate|].
  destruct xp as [|x1 xp]; [cbn in Hk; lia|]. destruct fp as [|f1 fp]; [discriminate|].
  cbn [interp_in]. rsimp. destruct k as [|k].
  - cbn in Hx. rewrite Rlt_bool_true by lra. reflexivity.
  - assert (x1 <= x).
    { apply Rle_trans with (nth (S k) (x0 :: x1 :: xp) 0); [|lra].
      destruct k; [cbn; lra|]. left. apply (Hinc 1%nat). cbn in *. lia. }
    rewrite Rlt_bool_false by auto. apply (IH (f1 :: fp) k); auto.
    + eapply increasing_tl; eauto.
    + cbn in *. lia.
Qed.

Lemma interp_in_last : forall (xp fp : list R) x, length xp = length fp -> increasing xp ->
  xp <> [] -> nth (length xp - 1) xp 0 <= x -> interp_in numR xp fp x = nth (length xp - 1) fp 0.
Proof.
  induction xp as [|x0 xp IH]; intros fp x HL Hinc Hne Hx; [congruence|].
  destruct fp as [|f0 fp]; [discriminate|].
  destruct xp as [|x1 xp]; [destruct fp; [reflexivity|discriminate]|].
  destruct fp as [|f1 fp]; [discriminate|]. cbn [interp_in]. rsimp.
  assert (x1 <= x).
  { apply Rle_trans with (2 := Hx). cbn [length]. destruct xp; [cbn; lra|]. left.
    apply (Hinc 1%nat). cbn. lia. }
  rewrite Rlt_bool_false by auto.
  replace (length (x0 :: x1 :: xp) - 1)%nat with (S (length (x1 :: xp) - 1)) in * by (cbn; lia).
  apply (IH (f1 :: fp)); auto; try discriminate. eapply increasing_tl; eauto.
Qed.
