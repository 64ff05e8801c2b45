(** C124: the order of sums. *)
From Coq Require Import List Arith ZArith Bool Lia Reals Lra Permutation.
From Flocq Require Import Core.
From Verif Require Import Base.Result Base.Buf Base.Num Model.Downsample Spec.SumOrder Proof.SumOrder
  Proof.Index Proof.Downsample Proof.DownsampleFloat Props.Downsample Props.SnrFloat Props.DownsampleFloat.
Import ListNotations.
Local Open Scope nat_scope.

Section Any.
Context {T : Type} (zero : T) (add mul : T -> T -> T) (fma : T -> T -> T -> T).
Notation tv := (term_val mul).

(** every order the model follows is an order in which the terms may be added *)
Lemma adds_perm fused l m v : Permutation l m -> adds add mul fma fused m v -> adds add mul fma fused l v.
Proof.
  intros HP H. inversion H; subst.
  - apply Permutation_sym, Permutation_length_1_inv in HP. subst. constructor.
  - apply Permutation_sym, Permutation_length_1_inv in HP. subst. constructor.
  - eapply adds_round; [|eassumption]. now rewrite HP.
  - eapply adds_two; [|eassumption]. now rewrite HP.
  - eapply adds_fused; [|assumption|eassumption]. now rewrite HP.
Qed.

Lemma adds_step (fused : Prop) l x y r (fuse : bool) v : (fuse = true -> fused) -> Permutation l (x :: y :: r) ->
  adds add mul fma fused (Val (add_terms add mul fma fuse x y) :: r) v -> adds add mul fma fused l v.
Proof.
  intros Hf HP H. apply (adds_perm _ _ _ _ HP). clear HP.
  assert (G : adds add mul fma fused (Val (tv x) :: y :: r) v).
  { destruct y as [y|w y]; cbn [add_terms] in H.
    - eapply adds_two; [reflexivity|exact H].
    - destruct fuse; [eapply adds_fused; [reflexivity|auto|exact H]|].
      eapply adds_round with (w := w) (x := y); [apply perm_swap|]. eapply adds_two; [apply perm_swap|exact H]. }
  destruct x as [x|w x]; [exact G|]. eapply adds_round; [reflexivity|exact G].
Qed.

Lemma sum_adds (bld : build) k l : l <> [] ->
  adds add mul fma (b_fma bld = true) l (sum_in_order zero add mul fma bld k l).
Proof.
  apply (sum_in_order_ind zero add mul fma bld (adds add mul fma (b_fma bld = true))).
  - intros [x|w x]; constructor.
  - intros m x y r fuse v Hf HP H. eapply adds_step; eauto.
Qed.

(** every order is followed by some build *)
Lemma sum_terms_ext p q : forall n a l, (forall k, k < n -> p k = q k) ->
  sum_terms add mul fma p n a l = sum_terms add mul fma q n a l.
Proof.
  induction n as [|n IH]; intros a l H; [reflexivity|]. cbn [sum_terms]. rewrite (H n) by lia.
  destruct (q n) as [[i j] f]. destruct (take i a l) as [x [|b r]]; auto. destruct (take j b r) as [y r'].
  apply IH. intros. apply H. lia.
Qed.

Definition like (a s : term T) : Prop := a = s \/ a = Val (tv s).

Lemma Forall2_perm {A B} (R : A -> B -> Prop) (l l' : list A) m :
  Permutation l l' -> Forall2 R l m -> exists m', Permutation m m' /\ Forall2 R l' m'.
Proof. intros HP HF. destruct (Permutation_Forall2 HP HF) as (m' & H1 & H2). eauto. Qed.

Lemma adds_sum (fm : bool) l v : adds add mul fma (fm = true) l v -> forall a s, Forall2 like l (a :: s) ->
  forall s', Permutation (a :: s) s' -> forall b q, s' = b :: q -> exists pick,
    (forall n, snd (pick n) = true -> fm = true) /\ sum_terms add mul fma pick (length q) b q = v.
Proof.
  assert (STEP : forall (fuse : bool) x y r v, (fuse = true -> fm = true) ->
    (forall b q, Permutation (Val (add_terms add mul fma fuse x y) :: r) (b :: q) -> exists pick,
      (forall n, snd (pick n) = true -> fm = true) /\ sum_terms add mul fma pick (length q) b q = v) ->
    forall b q, Permutation (x :: y :: r) (b :: q) -> exists pick,
      (forall n, snd (pick n) = true -> fm = true) /\ sum_terms add mul fma pick (length q) b q = v).
  { intros fuse x y r v' Hf IH b q HP. symmetry in HP.
    destruct (take_in x b q _ HP) as (i & r1 & E1 & P1).
    destruct r1 as [|c r1]; [apply Permutation_length in P1; discriminate|].
    destruct (take_in y c r1 r) as (j & r2 & E2 & P2); [now rewrite P1|].
    destruct (IH (Val (add_terms add mul fma fuse x y)) r2) as (pick & Hp & E); [now constructor|].
    pose proof (take_length _ _ _ _ _ E1) as L1. pose proof (take_length _ _ _ _ _ E2) as L2. cbn in L1.
    exists (fun n => if n =? length r2 then (i, j, fuse) else pick n). split.
    - intros n. destruct (n =? length r2); [exact Hf|apply Hp].
    - rewrite <- L1, <- L2. cbn [sum_terms]. rewrite Nat.eqb_refl, E1, E2. rewrite <- E. apply sum_terms_ext.
      intros k Hk. destruct (Nat.eqb_spec k (length r2)); [lia|reflexivity]. }
  intros H. induction H as [x|w x|l w x r v HP H IH|l x y r v HP H IH|l x w y r v HP Hf H IH]; intros a s HF s' HS b q ->.
  - inversion HF as [|? ? ? ? H1 H2]; subst. inversion H2; subst. apply Permutation_length_1_inv in HS. injection HS as -> ->.
    exists (fun _ => (0, 0, false)). split; [intros n; discriminate|]. cbn. destruct H1 as [<-|E]; [reflexivity|]. congruence.
  - inversion HF as [|? ? ? ? H1 H2]; subst. inversion H2; subst. apply Permutation_length_1_inv in HS. injection HS as -> ->.
    exists (fun _ => (0, 0, false)). split; [intros n; discriminate|]. cbn. destruct H1 as [<-|E]; [reflexivity|]. congruence.
  - destruct (Forall2_perm _ _ _ _ HP HF) as (m & Pm & Fm). inversion Fm as [|? c ? m' H1 H2]; subst.
    destruct H1 as [<-|E]; [|discriminate].
    apply (IH (Prod w x) m') with (s' := b :: q); auto; [|now rewrite <- Pm]. constructor; [now right|exact H2].
  - destruct (Forall2_perm _ _ _ _ HP HF) as (m & Pm & Fm). inversion Fm as [|? c ? m1 H1 F1]; subst.
    inversion F1 as [|? d ? m2 H2 F2]; subst.
    assert (Ec : tv c = x) by (destruct H1 as [<-|E]; [reflexivity|congruence]).
    assert (Ed : tv d = y) by (destruct H2 as [<-|E]; [reflexivity|congruence]).
    apply (STEP false c d m2); [discriminate| |now rewrite <- Pm].
    assert (EA : add_terms add mul fma false c d = add x y) by (destruct d; cbn [add_terms]; cbn in Ed; congruence).
    rewrite EA. intros b' q' HP'. apply (IH (Val (add x y)) m2) with (s' := b' :: q'); auto. constructor; [now left|exact F2].
  - destruct (Forall2_perm _ _ _ _ HP HF) as (m & Pm & Fm). inversion Fm as [|? c ? m1 H1 F1]; subst.
    inversion F1 as [|? d ? m2 H2 F2]; subst.
    assert (Ec : tv c = x) by (destruct H1 as [<-|E]; [reflexivity|congruence]).
    destruct H2 as [<-|E]; [|discriminate].
    apply (STEP true c (Prod w y) m2); [auto| |now rewrite <- Pm].
    cbn [add_terms]. rewrite Ec.
    intros b' q' HP'. apply (IH (Val (fma w y x)) m2) with (s' := b' :: q'); auto. constructor; [now left|exact F2].
Qed.
End Any.

(** C124.  The sum computed by the model for some build is a value obtained by adding the terms in
    some order, and each such value is computed for some build. *)
Theorem sum_any_order :
  forall {T : Type} (zero : T) (add mul : T -> T -> T) (fma : T -> T -> T -> T) (fm : bool) (l : list (term T)) (v : T), l <> [] ->
  (exists bld k, b_fma bld = fm /\ sum_in_order zero add mul fma bld k l = v) <-> adds add mul fma (fm = true) l v.
Proof.
  intros T zero add mul fma fm l v Hl. split.
  - intros (bld & k & <- & <-). now apply sum_adds.
  - intros H. destruct l as [|a l]; [easy|].
    destruct (adds_sum add mul fma fm _ _ H a l) with (s' := a :: l) (b := a) (q := l) as (pick & Hp & E); auto.
    { clear. generalize (a :: l). intros m. induction m; constructor; auto. now left. }
    exists (Build fm (fun _ _ => pick)), 0. split; [reflexivity|]. rewrite <- E. unfold sum_in_order. cbn [b_pick b_fma].
    apply sum_terms_ext. intros n _. specialize (Hp n). destruct (pick n) as [[i j] f]. cbn [snd] in Hp.
    destruct f; auto. rewrite Hp; auto.
Qed.

Local Open Scope R_scope.

(** the terms of output sample [k] of downsample *)
Definition sample_terms (fm : bool) (x : list R) (f : R) (k : nat) : list (term R) :=
  let start := rnd64 (INR k * f) in
  let end_ := if fm then rnd64 (INR k * f + f) else rnd64 (start + f) in
  let first := Z.to_nat (Zfloor start) in
  let last := Z.to_nat (Z.min (Zfloor end_) (Z.of_nat (length x - 1))) in
  Prod (rnd32 (rnd64 (INR (first + 1) - start))) (nth first x 0)
  :: map (fun i => Val (nth i x 0)) (seq (first + 1) (last - (first + 1)))
  ++ [Prod (rnd32 (rnd64 (end_ - INR last))) (nth last x 0)].

Lemma finite_choice {A} (P : nat -> A -> Prop) (d : A) : forall n, (forall k, (k < n)%nat -> exists a, P k a) ->
  exists g, forall k, (k < n)%nat -> P k (g k).
Proof.
  induction n as [|n IH]; intros H; [exists (fun _ => d); intros; lia|].
  destruct IH as (g & Hg); [intros; apply H; lia|]. destruct (H n ltac:(lia)) as (a & Ha).
  exists (fun k => if (k =? n)%nat then a else g k). intros k Hk. destruct (Nat.eqb_spec k n) as [->|]; auto. apply Hg. lia.
Qed.

(** C124.  The outputs of downsample over all builds are the arrays whose samples are sums of their
    terms in some order, chosen for each sample. *)
Theorem downsample_any_order :
  forall (fm : bool) (alloc : nat -> list R) (x : list R) (f : R) (out : list R), allocates alloc ->
  (Z.of_nat (length x) <= 33554432)%Z -> double f -> 1 < f <= INR (length x) -> Forall single x ->
  (exists bld, b_fma bld = fm /\ py_downsample (numF bld) alloc x f = Ok out) <->
  length out = Z.to_nat (Zfloor (rnd64 (INR (length x) / f))) /\
  forall k, (k < length out)%nat ->
    adds (fun a b => rnd32 (a + b)) (fun a b => rnd32 (a * b)) (fun a b c => rnd32 (a * b + c)) (fm = true)
      (sample_terms fm x f k) (nth k out 0).
Proof.
  intros fm alloc x f out Ha HN Ff Hf HF.
  assert (HF' : forall i, (i < length x)%nat -> F32 (nth i x 0)).
  { intros i Hi. rewrite Forall_forall in HF. apply HF. now apply nth_In. }
  assert (SZ : forall bld, downsampled_size (numF bld) (length x) f = Z.to_nat (Zfloor (rnd64 (INR (length x) / f)))).
  { intros bld. unfold downsampled_size. cbn [numF opsF n_floor n_dbl o_div o_ofZ]. rewrite <- INR_IZR_INZ.
    rewrite (rnd64_id (INR (length x))); auto. rewrite INR_IZR_INZ. apply F64_int. lia. }
  assert (PY : forall bld, exists o, py_downsample (numF bld) alloc x f = Ok o /\
    length o = Z.to_nat (Zfloor (rnd64 (INR (length x) / f))) /\
    forall k, (k < length o)%nat -> nth k o 0 = o_sum (opsF rnd32 bld) k (sample_terms (b_fma bld) x f k)).
  { intros bld. pose proof (downsample_values bld x f (alloc (downsampled_size (numF bld) (length x) f)) HN Ff Hf HF') as H.
    cbv zeta in H. rewrite Ha in H. specialize (H (Nat.le_refl _)). destruct H as (o & E & L & V).
    exists o. split.
    - unfold py_downsample.
      assert (HV : valid_factor (numF bld) (length x) f = true).
      { unfold downsample in E. destruct (valid_factor (numF bld) (length x) f); auto. discriminate E. }
      change (n_T (numF bld)) with R in *. rewrite HV. cbn [guard bind]. exact E.
    - rewrite Ha in L. split; [rewrite L; apply SZ|]. intros k Hk. rewrite L in Hk. specialize (V k Hk). unfold ds_value in V. cbv zeta in V.
      unfold sample_terms. set (i := Z.to_nat (Zfloor (rnd64 (INR k * f)))) in *.
      set (e := if b_fma bld then _ else _) in *. set (j := Z.to_nat (Z.min _ _)) in *.
      assert (Hj : (j < length x)%nat).
      { unfold j. assert (1 < length x)%nat by (apply INR_lt; cbn; lra). lia. }
      assert (Hi : (i < length x)%nat).
      { destruct (le_lt_dec (length x) i); auto. rewrite rd_oob in V by auto. discriminate. }
      rewrite (rd_nth x i 0), (rd_range x 0), (rd_nth x j 0) in V by lia. cbn [bind] in V. rewrite map_map in V. congruence. }
  split.
  - intros (bld & <- & E). destruct (PY bld) as (o & E' & L & V). change (n_T (numF bld)) with R in *.
    rewrite E in E'. assert (EO : o = out) by congruence. subst o.
    split; [exact L|]. intros k Hk. rewrite (V k Hk). apply (sum_adds (rnd32 0)). discriminate.
  - intros [L HA]. 
    destruct (finite_choice (fun k pick => (forall n, snd (pick n) = true -> fm = true) /\
      forall a q, sample_terms fm x f k = a :: q -> 
        sum_terms (fun a b => rnd32 (a + b)) (fun a b => rnd32 (a * b)) (fun a b c => rnd32 (a * b + c)) pick (length q) a q = nth k out 0)
      (fun _ => (0, 0, false)%nat) (length out)) as (g & Hg).
    { intros k Hk. specialize (HA k Hk). destruct (sample_terms fm x f k) as [|a q] eqn:ET; [discriminate|].
      destruct (adds_sum _ _ _ fm _ _ HA a q) with (s' := a :: q) (b := a) (q := q) as (pick & Hp & E); auto.
      { clear. generalize (a :: q). intros m. induction m; constructor; auto. now left. }
      exists pick. split; auto. intros a' q' Eq. injection Eq as <- <-. exact E. }
    exists (Build fm (fun k _ => g k)). split; [reflexivity|].
    destruct (PY (Build fm (fun k _ => g k))) as (o & E & L' & V). rewrite E. f_equal.
    change (n_T (numF (Build fm (fun k _ => g k)))) with R in *.
    apply nth_ext with (d := 0) (d' := 0); [lia|]. intros k Hk. rewrite (V k Hk). cbn [b_fma].
    destruct (Hg k ltac:(lia)) as [Hp HS]. destruct (sample_terms fm x f k) as [|a q] eqn:ET; [discriminate|].
    rewrite <- (HS a q eq_refl). cbn [opsF o_sum sum_in_order b_pick b_fma].
    apply sum_terms_ext. intros n _. specialize (Hp n). destruct (g k n) as [[i j] fu]. cbn [snd] in Hp.
    destruct fu; auto. rewrite Hp; auto.
Qed.

(** in single precision 2^24 + 1 + 1 is 2^24 from left to right and 2^24 + 2 in another order; a
    product added without rounding it first gives a third value *)
Example sum_any_order_ex :
  let big := Val (sf_ofZ 53 1024 16777216) in let one := Val (sf_ofZ 53 1024 1) in
  let small := Prod (sf_ofZ 53 1024 4097) (sf_ofZ 53 1024 4097) in
  let last_two := Build true (fun _ _ n => if (n =? 0)%nat then (0, 0, false)%nat else (1, 1, false)%nat) in
  let fuse := Build true (fun _ _ _ => (0, 0, true)%nat) in
  map sf_floor [o_sum (@n_sgl (numI left_to_right)) 0 [big; one; one]; o_sum (@n_sgl (numI last_two)) 0 [big; one; one];
    o_sum (@n_sgl (numI left_to_right)) 0 [one; small]; o_sum (@n_sgl (numI fuse)) 0 [one; small]]
  = [16777216; 16777218; 16785408; 16785410]%Z.
Proof. vm_compute. reflexivity. Qed.

(** a series of three samples downsampled by 1.5 *)
Example downsample_any_order_ex : let x := [1; 2; 3] in
  (Z.of_nat (length x) <= 33554432)%Z /\ double (3 / 2) /\ 1 < 3 / 2 <= INR (length x) /\ Forall single x /\
  allocates (repeat 0).
Proof.
  cbv zeta. split; [cbn; lia|]. split.
  { apply generic_format_FLT. exists (Float radix2 3 (-1)); cbn [Fnum Fexp]; [unfold F2R; cbn; lra|cbn; lia|lia]. }
  split; [cbn; lra|]. split; [|intros n; apply repeat_length].
  repeat constructor; [apply (F32_int 1)|apply (F32_int 2)|apply (F32_int 3)]; lia.
Qed.

Print Assumptions sum_any_order.
Print Assumptions downsample_any_order.
