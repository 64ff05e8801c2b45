(** Consequences of [ffa2_spec]: determinism, exact sums, deviation of the folding
    path from a straight line, rounding error, and the failures at degenerate or
    huge shapes. *)
From Coq Require Import List Arith ZArith Bool Lia Reals Lra.
From Flocq Require Import Core Relative Plus_error.
From Verif Require Import Base.Result Base.Buf Base.Num Model.Kernels Model.Transforms
  Spec.Sums Spec.FfaSpec Proof.Kernels Proof.Transforms Proof.Index.
Import ListNotations.

Lemma arr2_ext {A} (d : A) (X Y : arr2 A) :
  arr2_wf X -> arr2_wf Y -> a_rows X = a_rows Y -> a_cols X = a_cols Y ->
  (forall i j, i < a_rows X -> j < a_cols X -> at2 d X i j = at2 d Y i j) -> X = Y.
Proof.
  destruct X as [r c l], Y as [r' c' l']. unfold arr2_wf, at2. cbn.
  intros HX HY <- <- H. f_equal. apply list_eq_nth_error. intros k.
  destruct (lt_dec k (r * c)) as [Hk|Hk].
  2:{ rewrite !(proj2 (nth_error_None _ _)); auto; lia. }
  rewrite (nth_error_nth' l d), (nth_error_nth' l' d) by lia. f_equal.
  assert (c <> 0) by nia.
  pose proof (Nat.div_mod k c ltac:(auto)).
  pose proof (Nat.mod_upper_bound k c ltac:(auto)).
  assert (k / c < r) by (apply Nat.div_lt_upper_bound; lia).
  replace k with (k / c * c + k mod c) by lia. now apply H.
Qed.

(** the transform as one statement about an arbitrary element type and addition *)
Lemma ffa2_fold {A} (plus : A -> A -> A) (d : A) idx (m : nat) :
  1 <= m -> (Z.of_nat m <= 2 ^ 64)%Z ->
  (forall m', 3 <= m' <= m -> good_index idx m') ->
  forall X, arr2_wf X -> a_rows X = m -> 1 <= a_cols X ->
  exists Y, arr2_wf Y /\ a_rows Y = m /\ a_cols Y = a_cols X /\
    (forall s c, s < m -> c < a_cols X ->
      at2 d Y s c = teval plus (fun i => at2 d X i ((c + path idx (S m) m s i) mod a_cols X))
                          (mtree (S m) 0 m)) /\
    forall junk_t junk_o, length junk_t = m * a_cols X -> length junk_o = m * a_cols X ->
      ffa2 plus idx junk_t junk_o X = Ok Y.
Proof.
  intros Hm H64 Hg X Hwf HmX Hp. subst m.
  destruct (ffa2_spec plus d idx (repeat d (a_rows X * a_cols X)) (repeat d (a_rows X * a_cols X)) X)
    as (Y & E & W & R & C & V); auto; try apply repeat_length.
  exists Y. repeat split; auto.
  intros jt jo Hjt Hjo.
  destruct (ffa2_spec plus d idx jt jo X) as (Y' & E' & W' & R' & C' & V'); auto.
  rewrite E'. f_equal. apply (arr2_ext d); auto; try congruence.
  intros i j Hi Hj. rewrite V', V by congruence. reflexivity.
Qed.

(** ** Exact sums *)
Lemma teval_rsum (g : nat -> R) : forall fuel o m, 1 <= m <= fuel ->
  teval Rplus g (mtree fuel o m) = rsum m (fun i => g (o + i)).
Proof.
  induction fuel as [|f IH]; intros o m Hm; [lia|]. cbn [mtree].
  destruct (Nat.leb_spec m 1); cbn [teval].
  - replace m with 1 by lia. cbn. rewrite Nat.add_0_r. lra.
  - pose proof (half_facts m ltac:(lia)). rewrite !IH by lia.
    transitivity (rsum (m / 2 + (m - m / 2)) (fun i => g (o + i)));
      [|f_equal; lia]. rewrite rsum_split. f_equal.
    apply rsum_ext. intros i Hi. now rewrite Nat.add_assoc.
Qed.

(** ** Deviation from the straight line *)
Definition ideal (m s i : nat) : R := INR i * INR s / (INR m - 1).

Lemma log2_up_half m : 3 <= m -> Nat.log2_up m = S (Nat.log2_up (m - m / 2)).
Proof.
  intros Hm. pose proof (Nat.div_mod m 2 ltac:(lia)).
  pose proof (Nat.mod_upper_bound m 2 ltac:(lia)).
  rewrite (Nat.log2_up_eqn m) by lia.
  rewrite (Nat.log2_up_eqn (m - m / 2)) by lia.
  destruct (Nat.eq_dec (m mod 2) 0) as [E|E].
  - replace m with (2 * (m / 2)) at 1 by lia.
    replace (Nat.pred (2 * (m / 2))) with (2 * (m / 2 - 1) + 1) by lia.
    rewrite Nat.log2_succ_double by lia. f_equal. f_equal. f_equal. lia.
  - replace (Nat.pred m) with (2 * (m / 2)) by lia.
    rewrite Nat.log2_double by lia. f_equal. f_equal. f_equal. lia.
Qed.

Section Deviation.
Local Open Scope R_scope.
Context (idx : nat -> nat -> nat -> nat) (E : R) (HE : 0 <= E).

Definition near_index (m : nat) : Prop := forall s, (s < m)%nat ->
  Rabs (INR (idx (m / 2) m s) - kappa (m / 2) m * INR s) <= E /\
  Rabs (INR (idx (m - m / 2) m s) - kappa (m - m / 2) m * INR s) <= E.

Lemma path_deviation : forall fuel m s i,
  (2 <= m <= fuel)%nat -> (s < m)%nat -> (i < m)%nat ->
  (forall m', (3 <= m' <= m)%nat -> good_index idx m' /\ near_index m') ->
  Rabs (INR (path idx fuel m s i) - ideal m s i) <= E * (INR (Nat.log2_up m) - 1).
Proof.
  induction fuel as [|f IH]; intros m s i Hm Hs Hi Hg; [lia|]. cbn [path].
  destruct (Nat.leb_spec m 1); [lia|].
  destruct (Nat.eqb_spec m 2) as [->|Hm2].
  { unfold ideal. change (Nat.log2_up 2) with 1%nat. cbn [INR].
    destruct i as [|[|i]]; [| |lia]; cbn [Nat.eqb INR].
    - replace (0 - 0 * INR s / (1 + 1 - 1)) with 0 by (field; lra). rewrite Rabs_R0. lra.
    - replace (INR s - 1 * INR s / (1 + 1 - 1)) with 0 by (field; lra). rewrite Rabs_R0. lra. }
  pose proof (half_facts m ltac:(lia)) as Hh.
  destruct (Hg m ltac:(lia)) as [G N].
  destruct (G s Hs) as (G1 & G2 & G3 & G4). destruct (N s Hs) as [N1 N2].
  set (h := idx (m / 2)%nat m s) in *. set (t := idx (m - m / 2)%nat m s) in *.
  set (mh := (m / 2)%nat) in *. set (mt := (m - mh)%nat) in *.
  assert (HL : Nat.log2_up m = S (Nat.log2_up mt)) by (apply log2_up_half; lia).
  assert (Hmt2 : (2 <= mt)%nat) by lia.
  assert (HL1 : (1 <= Nat.log2_up mt)%nat).
  { change 1%nat with (Nat.log2_up 2). apply Nat.log2_up_le_mono. lia. }
  assert (HL1R : 1 <= INR (Nat.log2_up mt)) by (apply (le_INR 1); auto).
  rewrite HL, S_INR.
  assert (Em : INR m = INR mh + INR mt) by (unfold mt; rewrite minus_INR by lia; lra).
  assert (H1 : 1 <= INR mh) by (apply (le_INR 1); lia).
  assert (H2 : 2 <= INR mt) by (apply (le_INR 2); lia).
  destruct (Nat.ltb_spec i mh).
  - destruct (Nat.eq_dec mh 1) as [E1|E1].
    { assert (i = 0)%nat by lia. subst i. unfold ideal.
      assert (Hp : path idx f mh h 0 = 0%nat).
      { destruct (path_folding idx f mh h) as (P0 & _); auto; try lia; intros; apply Hg; lia.
        }
      rewrite Hp. cbn [INR].
      replace (0 - 0 * INR s / (INR m - 1)) with 0 by (field; lra). rewrite Rabs_R0.
      apply Rmult_le_pos; lra. }
    assert (Hmh2 : 2 <= INR mh) by (apply (le_INR 2); lia).
    assert (B : Rabs (INR (path idx f mh h i) - ideal mh h i) <= E * (INR (Nat.log2_up mh) - 1)).
    { apply IH; try lia. intros; apply Hg; lia. }
    assert (INR (Nat.log2_up mh) <= INR (Nat.log2_up mt)).
    { apply le_INR, Nat.log2_up_le_mono. lia. }
    assert (C : Rabs (ideal mh h i - ideal m s i) <= E).
    { replace (ideal mh h i - ideal m s i)
        with ((INR i / (INR mh - 1)) * (INR h - kappa mh m * INR s)).
      2:{ unfold ideal, kappa. field. lra. }
      rewrite Rabs_mult. rewrite <- (Rmult_1_l E). apply Rmult_le_compat; auto; try apply Rabs_pos.
      rewrite Rabs_pos_eq.
      - apply Rmult_le_reg_r with (INR mh - 1); [lra|]. field_simplify; [|lra].
        replace (INR mh - 1) with (INR (mh - 1)) by (rewrite minus_INR by lia; cbn; lra).
        apply le_INR; lia.
      - apply Rmult_le_pos; [apply pos_INR|]. left; apply Rinv_0_lt_compat; lra. }
    replace (INR (path idx f mh h i) - ideal m s i)
      with ((INR (path idx f mh h i) - ideal mh h i) + (ideal mh h i - ideal m s i)) by ring.
    eapply Rle_trans; [apply Rabs_triang|].
    assert (E * (INR (Nat.log2_up mh) - 1) <= E * (INR (Nat.log2_up mt) - 1))
      by (apply Rmult_le_compat_l; lra).
    lra.
  - set (i' := (i - mh)%nat) in *.
    assert (B : Rabs (INR (path idx f mt t i') - ideal mt t i') <= E * (INR (Nat.log2_up mt) - 1)).
    { apply IH; try lia. intros; apply Hg; lia. }
    assert (Ii : INR i = INR mh + INR i') by (unfold i'; rewrite minus_INR by lia; lra).
    assert (C : Rabs (INR (s - t) + ideal mt t i' - ideal m s i) <= E).
    { rewrite minus_INR by lia.
      replace (INR s - INR t + ideal mt t i' - ideal m s i)
        with (((INR mt - 1 - INR i') / (INR mt - 1)) * (- (INR t - kappa mt m * INR s))).
      2:{ unfold ideal, kappa. rewrite Ii, Em. field. lra. }
      assert (Hi' : INR i' <= INR mt - 1).
      { replace (INR mt - 1) with (INR (mt - 1)) by (rewrite minus_INR by lia; cbn; lra).
        apply le_INR. unfold i'. lia. }
      pose proof (pos_INR i').
      rewrite Rabs_mult, Rabs_Ropp. rewrite <- (Rmult_1_l E).
      apply Rmult_le_compat; auto; try apply Rabs_pos.
      rewrite Rabs_pos_eq.
      - apply Rmult_le_reg_r with (INR mt - 1); [lra|]. field_simplify; lra.
      - apply Rmult_le_pos; [lra|]. left; apply Rinv_0_lt_compat; lra. }
    rewrite plus_INR.
    replace (INR (s - t) + INR (path idx f mt t i') - ideal m s i)
      with ((INR (path idx f mt t i') - ideal mt t i') + (INR (s - t) + ideal mt t i' - ideal m s i))
      by ring.
    eapply Rle_trans; [apply Rabs_triang|]. lra.
Qed.
End Deviation.

Lemma near_index_exact m : 3 <= m -> near_index (merge_index numR) (/ 2)%R m.
Proof.
  intros Hm s Hs. pose proof (half_facts m ltac:(lia)).
  pose proof (index_R_close (m / 2) m s ltac:(lia)) as A.
  pose proof (index_R_close (m - m / 2) m s ltac:(lia)) as B. cbv zeta in *.
  split; apply Rabs_le; lra.
Qed.

Lemma near_index_float bld m : 3 <= m -> (Z.of_nat m <= 4194304)%Z ->
  near_index (merge_index (numF bld)) 1%R m.
Proof.
  intros Hm Hm' s Hs. pose proof (half_facts m ltac:(lia)) as Hh.
  assert (Em : (INR m = INR (m / 2) + INR (m - m / 2))%R) by (rewrite minus_INR by lia; lra).
  set (mh := m / 2) in *. set (mt := m - mh) in *.
  assert (H1 : (1 <= INR mh)%R) by (apply (le_INR 1); lia).
  assert (H2 : (INR mh <= INR mt)%R) by (apply le_INR; lia).
  assert (H3 : (INR mt <= INR mh + 1)%R).
  { rewrite <- S_INR. apply le_INR. unfold mt, mh.
    pose proof (Nat.div_mod m 2 ltac:(lia)).
    pose proof (Nat.mod_upper_bound m 2 ltac:(lia)). lia. }
  assert (Kh : (kappa mh m <= / 2)%R).
  { unfold kappa. apply Rmult_le_reg_r with (INR m - 1)%R; [lra|]. field_simplify; lra. }
  assert (Kt : (kappa mt m <= / 2)%R).
  { unfold kappa. apply Rmult_le_reg_r with (INR m - 1)%R; [lra|]. field_simplify; lra. }
  assert (Q : forall part, 1 <= part < m -> (kappa part m <= / 2)%R ->
    (Rabs (INR (merge_index (numF bld) part m s) - kappa part m * INR s) <= 1)%R).
  { intros part Hp Hk. rewrite merge_index_F by lia.
    pose proof (fv_coarse bld m Hm Hm' part s Hp Hk Hs) as C.
    pose proof (kappa_bounds part m Hp).
    assert (0 <= kappa part m * INR s)%R by (apply Rmult_le_pos; [lra|apply pos_INR]).
    rewrite Ztrunc_floor by lra.
    assert (0 <= Zfloor (fv bld part m s))%Z by (apply Zfloor_lub; lra).
    rewrite INR_IZR_INZ, Z2Nat.id by auto.
    pose proof (Zfloor_lb (fv bld part m s)). pose proof (Zfloor_ub (fv bld part m s)).
    apply Rabs_le. lra. }
  split; apply Q; auto; lia.
Qed.

(** ** Rounding error of a summation tree *)
Section Rounding.
Local Open Scope R_scope.
Context (F : R -> Prop) (pl : R -> R -> R) (u : R) (Hu : 0 <= u).
Context (Hpl : forall a b, F a -> F b -> F (pl a b) /\ Rabs (pl a b - (a + b)) <= u * Rabs (a + b)).

Lemma tree_error (g : nat -> R) : forall t n, (depth t <= n)%nat ->
  (forall i, In i (leaves t) -> F (g i)) ->
  F (teval pl g t) /\
  Rabs (teval pl g t - teval Rplus g t)
  <= ((1 + u) ^ n - 1) * teval Rplus (fun i => Rabs (g i)) t /\
  Rabs (teval Rplus g t) <= teval Rplus (fun i => Rabs (g i)) t.
Proof.
  induction t as [i|l IHl r IHr]; intros n Hd HF; cbn [teval leaves depth] in *.
  - split; [apply HF; cbn; auto|]. split; [|lra].
    rewrite Rminus_diag_eq, Rabs_R0 by auto.
    apply Rmult_le_pos; [|apply Rabs_pos].
    pose proof (pow_R1_Rle (1 + u) n ltac:(lra)). lra.
  - destruct n as [|n]; [lia|].
    destruct (IHl n) as (Fl & El & Al); [lia|intros; apply HF, in_or_app; auto|].
    destruct (IHr n) as (Fr & Er & Ar); [lia|intros; apply HF, in_or_app; auto|].
    destruct (Hpl _ _ Fl Fr) as [Fp Ep]. split; auto.
    set (a := teval pl g l) in *. set (b := teval pl g r) in *.
    set (A := teval Rplus g l) in *. set (B := teval Rplus g r) in *.
    set (SA := teval Rplus (fun i => Rabs (g i)) l) in *.
    set (SB := teval Rplus (fun i => Rabs (g i)) r) in *.
    set (k := (1 + u) ^ n) in *.
    split.
    + assert (Hab : Rabs (a + b) <= k * (SA + SB)).
      { replace (a + b) with ((a - A) + (b - B) + (A + B)) by ring.
        eapply Rle_trans; [apply Rabs_triang|].
        eapply Rle_trans; [apply Rplus_le_compat_r, Rabs_triang|].
        pose proof (Rabs_triang A B). lra. }
      replace (pl a b - (A + B)) with ((pl a b - (a + b)) + ((a - A) + (b - B))) by ring.
      eapply Rle_trans; [apply Rabs_triang|].
      eapply Rle_trans; [apply Rplus_le_compat_l, Rabs_triang|].
      assert (u * Rabs (a + b) <= u * (k * (SA + SB))) by (apply Rmult_le_compat_l; auto).
      cbn [pow]. fold k. lra.
    + eapply Rle_trans; [apply Rabs_triang|]. lra.
Qed.
End Rounding.

Lemma rnd32_plus_error a b : F32 a -> F32 b ->
  F32 (rnd32 (a + b)) /\ (Rabs (rnd32 (a + b) - (a + b)) <= u32 * Rabs (a + b))%R.
Proof.
  intros Fa Fb. split. { apply generic_format_round; typeclasses eauto. }
  destruct (FLT_plus_error_N_ex radix2 (-149) 24 (fun z => negb (Z.even z)) a b Fa Fb)
    as (eps & He & E).
  change (round radix2 fexp32 (Znearest (fun z => negb (Z.even z))) (a + b))
    with (rnd32 (a + b)) in E.
  rewrite E.
  replace ((a + b) * (1 + eps) - (a + b))%R with (eps * (a + b))%R by ring.
  rewrite Rabs_mult. apply Rmult_le_compat_r; [apply Rabs_pos|].
  eapply Rle_trans; [exact He|].
  unfold u_ro, u32. cbn. lra.
Qed.

(** ** Degenerate shapes *)
Lemma transform_no_rows {A} (plus : A -> A -> A) idx fuel : forall inp tmp out io to oo p,
  transform plus idx fuel inp (Block io 0 p) tmp (Block to 0 p) out (Block oo 0 p) = Loop.
Proof.
  induction fuel as [|f IH]; intros; cbn; auto.
  unfold head, tail, head_size, rowptr. cbn. now rewrite IH.
Qed.

Lemma for_ok_inv {S} (body : nat -> S -> res S) : forall n lo s s',
  for_ n lo body s = Ok s' -> forall i, lo <= i < lo + n -> exists a b, body i a = Ok b.
Proof.
  induction n as [|n IH]; cbn; intros lo s s' H i Hi; [lia|].
  destruct (body lo s) eqn:E; try discriminate. cbn in H.
  destruct (Nat.eq_dec i lo) as [->|]; eauto. eapply IH; eauto. lia.
Qed.

Lemma add_ok_inv {A} (plus : A -> A -> A) x xo y yo size z zo z' :
  add plus x xo y yo size z zo = Ok z' ->
  length z' = length z /\ forall i, i < size -> xo + i < length x /\ yo + i < length y.
Proof.
  assert (G : forall size lo z z', for_ size lo (fun i z =>
    a <- rd x (xo + i) ;; b <- rd y (yo + i) ;; wr z (zo + i) (plus a b)) z = Ok z' ->
    length z' = length z /\ forall i, lo <= i < lo + size -> xo + i < length x /\ yo + i < length y).
  { clear. induction size as [|n IH]; cbn; intros lo z z' H.
    - injection H as <-. split; auto. intros; lia.
    - unfold rd in H. destruct (nth_error x (xo + lo)) eqn:Ex; try discriminate. cbn in H.
      destruct (nth_error y (yo + lo)) eqn:Ey; try discriminate. cbn in H.
      unfold wr in H. destruct (Nat.ltb_spec (zo + lo) (length z)); try discriminate. cbn in H.
      destruct (IH _ _ _ H) as [HL HI]. rewrite upd_length in HL. split; auto.
      intros i Hi. destruct (Nat.eq_dec i lo) as [->|].
      + split; apply nth_error_Some; congruence.
      + apply HI. lia. }
  intros H. destruct (G _ _ _ _ H) as [HL HI]. split; auto. intros i Hi. apply HI. lia.
Qed.

Lemma fra_ok_inv {A} (plus : A -> A -> A) x xo y yo size shift z zo z' :
  fused_rollback_add plus x xo y yo size shift z zo = Ok z' ->
  length z' = length z /\ 0 < size /\ xo + size <= length x /\ yo + size <= length y.
Proof.
  unfold fused_rollback_add. destruct (Nat.eqb_spec size 0); [discriminate|].
  pose proof (Nat.mod_upper_bound shift size ltac:(lia)) as Hp.
  set (p := shift mod size) in *.
  destruct (add plus x xo y (yo + p) (size - p) z zo) as [z1| | |] eqn:E1; try discriminate.
  cbn. intros E2. apply add_ok_inv in E1, E2. destruct E1 as [L1 I1], E2 as [L2 I2].
  split; [congruence|]. split; [lia|].
  pose proof (I1 (size - p - 1) ltac:(lia)).
  destruct (Nat.eq_dec p 0); [split; lia|].
  pose proof (I2 (p - 1) ltac:(lia)). split; lia.
Qed.

Lemma for_len {A} (body : nat -> list A -> res (list A)) :
  (forall i a b, body i a = Ok b -> length b = length a) ->
  forall n lo s s', for_ n lo body s = Ok s' -> length s' = length s.
Proof.
  intros Hb. induction n as [|n IH]; cbn; intros lo s s' H.
  - now injection H as <-.
  - destruct (body lo s) eqn:E; try discriminate. cbn in H.
    apply IH in H. apply Hb in E. congruence.
Qed.

Lemma memcpy_len {A} (out : list A) oo x xo n out' :
  memcpy out oo x xo n = Ok out' -> length out' = length out.
Proof.
  apply for_len. intros i a b H.
  unfold rd in H. destruct (nth_error x (xo + i)); try discriminate. cbn in H.
  unfold wr in H. destruct (Nat.ltb_spec (oo + i) (length a)); try discriminate.
  injection H as <-. apply upd_length.
Qed.

Lemma merge_len {A} (plus : A -> A -> A) idx src th tt out bo out' :
  merge plus idx src th tt out bo = Ok out' -> length out' = length out.
Proof.
  apply for_len. intros i a b H.
  destruct (b_cols bo =? 0); [discriminate|].
  apply fra_ok_inv in H. apply H.
Qed.

Lemma transform_len {A} (plus : A -> A -> A) idx : forall fuel inp bi tmp bt out bo tmp' out',
  transform plus idx fuel inp bi tmp bt out bo = Ok (tmp', out') ->
  length tmp' = length tmp /\ length out' = length out.
Proof.
  induction fuel as [|f IH]; intros; cbn [transform] in *; [discriminate|].
  destruct (b_rows bi =? 2).
  { destruct (add _ _ _ _ _ _ _ _) eqn:E1; try discriminate. cbn [bind] in H.
    destruct (fused_rollback_add _ _ _ _ _ _ _ _ _) eqn:E2; try discriminate. cbn in H.
    injection H as <- <-. split; auto. apply add_ok_inv in E1. apply fra_ok_inv in E2.
    destruct E1, E2. congruence. }
  destruct (b_rows bi =? 1).
  { destruct (memcpy _ _ _ _ _) eqn:E1; try discriminate. cbn in H. injection H as <- <-.
    split; auto. now apply memcpy_len in E1. }
  destruct (transform _ _ f _ (head bi) _ _ _ _) as [[o1 t1]| | |] eqn:E1; try discriminate.
  cbn [bind] in H.
  destruct (transform _ _ f _ (tail bi) _ _ _ _) as [[o2 t2]| | |] eqn:E2; try discriminate.
  cbn [bind] in H.
  destruct (merge _ _ _ _ _ _ _) eqn:E3; try discriminate. cbn in H. injection H as <- <-.
  apply IH in E1, E2. apply merge_len in E3. destruct E1, E2. split; congruence.
Qed.

(** no shape whose index arithmetic leaves the tail block succeeds *)
Lemma ffa2_bad_index {A} (plus : A -> A -> A) idx junk_t junk_o (X Y : arr2 A) s :
  let m := a_rows X in
  3 <= m -> s < m -> length junk_t = m * a_cols X ->
  m - m / 2 <= idx (m - m / 2) m s ->
  ffa2 plus idx junk_t junk_o X <> Ok Y.
Proof.
  intros m Hm Hs Hj Hb H. unfold ffa2, transform_ptr in H. fold m in H.
  cbn [transform b_rows b_cols] in H.
  destruct (Nat.eqb_spec m 2); [lia|]. destruct (Nat.eqb_spec m 1); [lia|].
  destruct (transform plus idx m _ (head _) _ _ _ _) as [[o1 t1]| | |] eqn:E1; try discriminate.
  cbn [bind] in H.
  destruct (transform plus idx m _ (tail _) _ _ _ _) as [[o2 t2]| | |] eqn:E2; try discriminate.
  cbn [bind] in H.
  destruct (merge _ _ _ _ _ _ _) as [o3| | |] eqn:E3; try discriminate.
  apply transform_len in E1, E2. destruct E1 as [_ E1], E2 as [_ E2].
  unfold merge, head, tail, head_size, rowptr in E3. cbn [b_rows b_cols b_off] in E3.
  destruct (for_ok_inv _ _ _ _ _ E3 s ltac:(lia)) as (a & b & E).
  destruct (Nat.eqb_spec (a_cols X) 0); [discriminate|].
  apply fra_ok_inv in E. destruct E as (_ & _ & _ & E).
  pose proof (half_facts m ltac:(lia)) as Hh.
  set (mh := m / 2) in *. set (t := idx (m - mh) m s) in *.
  rewrite E2, E1, Hj in E. nia.
Qed.

Lemma merge_index_huge m : Z.of_nat m = 16777217%Z ->
  m - m / 2 <= merge_index numSF (m - m / 2) m (m - 1).
Proof.
  intros Hm. unfold merge_index, merge_k, half.
  assert (Hh : Z.of_nat (m / 2) = 8388608%Z).
  { rewrite (Nat2Z.inj_div m 2), Hm. reflexivity. }
  assert (Ht : Z.of_nat (m - m / 2) = 8388609%Z) by lia.
  assert (Hs : Z.of_nat (m - 1) = 16777216%Z) by lia.
  rewrite Ht, Hs, Hm.
  match goal with |- _ <= Z.to_nat ?e => assert (E : e = 8388610%Z) by (vm_compute; reflexivity) end.
  rewrite E. lia.
Qed.
