(** Sums in any order. *)
From Coq Require Import List Arith ZArith Bool Lia Reals Lra Permutation.
From Flocq Require Import Core.
From Verif Require Import Base.Result Base.Buf Base.Num Spec.Sums.
Import ListNotations.
Local Open Scope R_scope.

Lemma take_perm {A} : forall i (a : A) l x r, take i a l = (x, r) -> Permutation (a :: l) (x :: r).
Proof.
  induction i as [|i IH]; intros a l x r H; cbn in H.
  - injection H as <- <-. reflexivity.
  - destruct l as [|b l]; [injection H as <- <-; reflexivity|].
    destruct (take i b l) as [c q] eqn:E. injection H as <- <-.
    apply IH in E. rewrite E. apply perm_swap.
Qed.

Lemma take_length {A} i (a : A) l x r : take i a l = (x, r) -> length r = length l.
Proof. intros H. apply take_perm, Permutation_length in H. cbn in H. lia. Qed.

(** every term can be taken *)
Lemma take_in {A} (x : A) : forall a l r, Permutation (a :: l) (x :: r) ->
  exists i r', take i a l = (x, r') /\ Permutation r r'.
Proof.
  intros a l r H.
  assert (I : In x (a :: l)) by (apply (Permutation_in _ (Permutation_sym H)); now left).
  assert (G : forall l a, In x (a :: l) -> exists i r', take i a l = (x, r')).
  { clear. induction l as [|b l IH]; intros a [<-|I].
    - exists 0%nat, []. reflexivity.
    - destruct I.
    - exists 0%nat, (b :: l). reflexivity.
    - destruct (IH b I) as (i & r' & E). exists (S i), (a :: r'). cbn. now rewrite E. }
  destruct (G l a I) as (i & r' & E). exists i, r'. split; auto.
  apply take_perm in E. apply Permutation_cons_inv with x. now rewrite <- H, E.
Qed.

Section Ind.
Context {T : Type} (zero : T) (add mul : T -> T -> T) (fma : T -> T -> T -> T).
Notation tv := (term_val mul).
Notation at_ := (add_terms add mul fma).

Lemma sum_terms_ind (Q : bool -> Prop) (P : list (term T) -> T -> Prop) :
  (forall t, P [t] (tv t)) ->
  (forall l x y r fuse v, Q fuse -> Permutation l (x :: y :: r) -> P (Val (at_ fuse x y) :: r) v -> P l v) ->
  forall pick n a l, (forall k, Q (snd (pick k))) -> length l = n -> P (a :: l) (sum_terms add mul fma pick n a l).
Proof.
  intros H0 HS pick. induction n as [|n IH]; intros a l HQ HL.
  - destruct l; [|discriminate]. apply H0.
  - cbn [sum_terms]. specialize (HQ n) as Qn. destruct (pick n) as [[i j] fuse]. cbn in Qn.
    destruct (take i a l) as [x r] eqn:E1. pose proof (take_length _ _ _ _ _ E1) as L1. apply take_perm in E1.
    destruct r as [|b r]; [cbn in L1; lia|].
    destruct (take j b r) as [y q] eqn:E2. pose proof (take_length _ _ _ _ _ E2) as L2. apply take_perm in E2.
    apply (HS _ x y q fuse); auto.
    + rewrite E1. now constructor.
    + apply IH; auto. cbn in L1. lia.
Qed.

Lemma sum_in_order_ind (bld : build) (P : list (term T) -> T -> Prop) :
  (forall t, P [t] (tv t)) ->
  (forall l x y r fuse v, (fuse = true -> b_fma bld = true) -> Permutation l (x :: y :: r) ->
     P (Val (at_ fuse x y) :: r) v -> P l v) ->
  forall k l, l <> [] -> P l (sum_in_order zero add mul fma bld k l).
Proof.
  intros H0 HS k [|a l] Hl; [easy|]. cbn [sum_in_order].
  apply sum_terms_ind with (Q := fun fuse => fuse = true -> b_fma bld = true); auto.
  intros n. destruct (b_pick _ _ _ _) as [[i j] f]. cbn. intros H. now apply andb_prop in H.
Qed.

(** sums of plain values *)
Lemma sum_vals_ind (bld : build) (P : list T -> T -> Prop) : (forall x, P [x] x) ->
  (forall l x y r v, Permutation l (x :: y :: r) -> P (add x y :: r) v -> P l v) ->
  forall k l, l <> [] -> P l (sum_in_order zero add mul fma bld k (map Val l)).
Proof.
  intros H0 HS k l Hl.
  apply (sum_in_order_ind bld (fun tl v => forall l, tl = map Val l -> P l v)) with (k := k) (l := map Val l); auto.
  - intros t [|x [|]] E; try discriminate. injection E as ->. apply H0.
  - clear l Hl. intros tl x y r fuse v _ HP IH l ->. symmetry in HP. apply Permutation_map_inv in HP.
    destruct HP as ([|a [|b q]] & E & HP); try discriminate. injection E as -> -> ->.
    apply (HS l a b q); auto.
  - now destruct l.
Qed.

Lemma sum_left (k : nat) : forall l a,
  sum_in_order zero add mul fma left_to_right k (Val a :: map Val l) = fold_left add l a.
Proof.
  intros l a. unfold sum_in_order. rewrite map_length. cbn [left_to_right b_pick b_fma andb].
  generalize (length (Val a :: map Val l)). intros m. clear m. revert a. induction l as [|b l IH]; intros a; [reflexivity|].
  cbn [length sum_terms map take fold_left]. apply IH.
Qed.
End Ind.

(** two evaluations of the same sum, step by step *)
Lemma take_rel {A B} (Q : A -> B -> Prop) : forall i a b l m x r, Q a b -> Forall2 Q l m -> take i a l = (x, r) ->
  exists y q, take i b m = (y, q) /\ Q x y /\ Forall2 Q r q.
Proof.
  induction i as [|i IH]; intros a b l m x r Hab Hlm H; cbn in *.
  - injection H as <- <-. eauto.
  - destruct Hlm as [|c d l m Hcd Hlm].
    + injection H as <- <-. exists b, []. repeat split; auto.
    + destruct (take i c l) as [u w] eqn:E. injection H as <- <-.
      destruct (IH c d l m u w Hcd Hlm E) as (y & q & E2 & Q1 & Q2). rewrite E2.
      exists y, (b :: q). repeat split; auto.
Qed.

(** reading consecutive elements *)
Lemma rd_range {A} (x : list A) d : forall n lo, (lo + n <= length x)%nat ->
  mapM (rd x) (seq lo n) = Ok (map (fun i => nth i x d) (seq lo n)).
Proof.
  induction n as [|n IH]; intros lo H; cbn; auto.
  rewrite (rd_nth x lo d) by lia. cbn [bind]. now rewrite IH by lia.
Qed.

(** exact sums *)
Definition exact_sum (l : list (term R)) : R := fold_right (fun t s => term_val Rmult t + s) 0 l.

Lemma exact_sum_app l m : exact_sum (l ++ m) = exact_sum l + exact_sum m.
Proof. unfold exact_sum. induction l as [|a l IH]; cbn [app fold_right]; [lra|]. rewrite IH. lra. Qed.

Lemma exact_sum_cons t l : exact_sum (t :: l) = term_val Rmult t + exact_sum l.
Proof. reflexivity. Qed.

Lemma exact_sum_perm l m : Permutation l m -> exact_sum l = exact_sum m.
Proof. unfold exact_sum. induction 1; cbn [fold_right]; lra. Qed.

Lemma exact_sum_range (g : nat -> R) : forall n lo, exact_sum (map Val (map g (seq lo n))) = rsum n (fun i => g (lo + i)%nat).
Proof.
  induction n as [|n IH]; intros lo; [reflexivity|]. cbn [seq map]. rewrite rsum_first, Nat.add_0_r.
  change (exact_sum (Val (g lo) :: map Val (map g (seq (S lo) n)))) with (g lo + exact_sum (map Val (map g (seq (S lo) n)))).
  rewrite IH. f_equal. apply rsum_ext. intros. f_equal. lia.
Qed.

Lemma exact_sum_list (l : list R) : exact_sum (map Val l) = rsum (length l) (fun i => nth i l 0).
Proof.
  induction l as [|a l IH]; [reflexivity|]. cbn [length map]. rewrite rsum_first. cbn [nth].
  rewrite <- IH. reflexivity.
Qed.

(** ** the same sum in two arithmetics *)
Lemma take_map {A B} (f : A -> B) : forall i a l x r, take i a l = (x, r) -> take i (f a) (map f l) = (f x, map f r).
Proof.
  induction i as [|i IH]; intros a l x r H; cbn in *; [injection H as <- <-; reflexivity|].
  destruct l as [|b l]; [injection H as <- <-; reflexivity|]. cbn [map].
  destruct (take i b l) as [c q] eqn:E. injection H as <- <-. now rewrite (IH _ _ _ _ E).
Qed.

Section Pair.
Context {T1 T2 : Type} (z1 : T1) (z2 : T2) (add1 mul1 : T1 -> T1 -> T1) (fma1 : T1 -> T1 -> T1 -> T1)
  (add2 mul2 : T2 -> T2 -> T2) (fma2 : T2 -> T2 -> T2 -> T2).
Let pr : Type := term T1 * term T2 * nat.
Let t1 (p : pr) : term T1 := fst (fst p).
Let t2 (p : pr) : term T2 := snd (fst p).
Let cnt (p : pr) : nat := snd p.
Definition tcount {A} (l : list (A * nat)) : nat := fold_right (fun p s => snd p + s)%nat 0%nat l.

Lemma tcount_perm {A} (l m : list (A * nat)) : Permutation l m -> tcount l = tcount m.
Proof. unfold tcount. induction 1; cbn [fold_right]; lia. Qed.

Context (K : nat -> pr -> Prop) (D M : nat) (fm : bool).
Context (Kmono : forall d p, (S d <= D)%nat -> K d p -> K (S d) p).
Context (Kadd : forall d fuse x y, (fuse = true -> fm = true) -> (S d <= D)%nat -> (cnt x + cnt y <= M)%nat -> K d x -> K d y ->
  K (S d) (Val (add_terms add1 mul1 fma1 fuse (t1 x) (t1 y)), Val (add_terms add2 mul2 fma2 fuse (t2 x) (t2 y)), (cnt x + cnt y)%nat)).

Lemma sum_terms_pair pick (Hp : forall n, snd (pick n) = true -> fm = true) : forall n d a L, length L = n -> (d + n <= D)%nat ->
  (tcount (a :: L) <= M)%nat -> Forall (K d) (a :: L) ->
  exists p, K (d + n) p /\ cnt p = tcount (a :: L) /\
    sum_terms add1 mul1 fma1 pick n (t1 a) (map t1 L) = term_val mul1 (t1 p) /\
    sum_terms add2 mul2 fma2 pick n (t2 a) (map t2 L) = term_val mul2 (t2 p).
Proof.
  induction n as [|n IH]; intros d a L HL HD HM HF.
  - destruct L; [|discriminate]. exists a. rewrite Nat.add_0_r. split; [now inversion HF|]. unfold cnt. cbn. split; [lia|auto].
  - cbn [sum_terms]. specialize (Hp n) as Hpn. destruct (pick n) as [[i j] fuse]. cbn [snd] in Hpn.
    destruct (take i a L) as [x r] eqn:E1. pose proof (take_length _ _ _ _ _ E1) as L1.
    rewrite (take_map t1 _ _ _ _ _ E1), (take_map t2 _ _ _ _ _ E1). apply take_perm in E1.
    destruct r as [|b r]; [cbn in L1; lia|]. cbn [map].
    destruct (take j b r) as [y q] eqn:E2. pose proof (take_length _ _ _ _ _ E2) as L2.
    rewrite (take_map t1 _ _ _ _ _ E2), (take_map t2 _ _ _ _ _ E2). apply take_perm in E2.
    assert (PM : Permutation (a :: L) (x :: y :: q)) by (rewrite E1; now constructor).
    pose proof (Permutation_Forall PM HF) as HF'. inversion HF' as [|? ? Kx HF2]; subst. inversion HF2 as [|? ? Ky Kq]; subst.
    rewrite (tcount_perm _ _ PM) in *. cbn [tcount fold_right] in HM. fold (tcount q) in HM.
    set (s := (Val (add_terms add1 mul1 fma1 fuse (t1 x) (t1 y)), Val (add_terms add2 mul2 fma2 fuse (t2 x) (t2 y)), (cnt x + cnt y)%nat) : pr).
    destruct (IH (S d) s q) as (p & Kp & Cp & S1 & S2).
    + cbn in L1, HL. lia.
    + lia.
    + cbn [tcount fold_right]. fold (tcount q). unfold s, cnt in *. cbn [snd]. lia.
    + constructor; [apply Kadd; auto; unfold cnt; lia|]. apply Forall_forall. intros p Hp2. apply Kmono; [lia|].
      rewrite Forall_forall in Kq. now apply Kq.
    + exists p. replace (d + S n)%nat with (S d + n)%nat by lia. split; [exact Kp|]. split; [|split; [exact S1|exact S2]].
      rewrite Cp. cbn [tcount fold_right]. unfold s, cnt. cbn [snd]. lia.
Qed.

Lemma sum_pair (bld : build) k L : L <> [] -> b_fma bld = fm -> (length L - 1 <= D)%nat -> (tcount L <= M)%nat -> Forall (K 0%nat) L ->
  exists p, K (length L - 1) p /\ cnt p = tcount L /\
    sum_in_order z1 add1 mul1 fma1 bld k (map t1 L) = term_val mul1 (t1 p) /\
    sum_in_order z2 add2 mul2 fma2 bld k (map t2 L) = term_val mul2 (t2 p).
Proof.
  intros HL Hb HD HM HF. destruct L as [|a L]; [easy|]. unfold sum_in_order. cbn [map length] in *. rewrite !map_length.
  replace (S (length L) - 1)%nat with (length L) in * by lia. apply sum_terms_pair with (d := 0%nat); auto.
  intros n. destruct (b_pick _ _ _ _) as [[i j] f]. cbn [snd]. intros H. apply andb_prop in H. now rewrite <- Hb.
Qed.
End Pair.
