(** running_median on two lists whose elements are related and compare alike. *)
From Coq Require Import List Arith Bool Lia.
From Verif Require Import Base.Result Base.Buf Model.RunMed.
Import ListNotations.

(** same outcome, with related values *)
Definition rres {A B} (Q : A -> B -> Prop) (m : res A) (m' : res B) : Prop :=
  match m, m' with
  | Ok a, Ok b => Q a b
  | Err e, Err e' => e = e'
  | UB, UB | Loop, Loop => True
  | _, _ => False
  end.

Lemma rres_bind {A B A' B'} (Q : A -> B -> Prop) (Q' : A' -> B' -> Prop) m m' k k' :
  rres Q m m' -> (forall a b, Q a b -> rres Q' (k a) (k' b)) -> rres Q' (bind m k) (bind m' k').
Proof. destruct m, m'; cbn; auto; try tauto. Qed.

Lemma rres_for {A B} (Q : nat -> A -> B -> Prop) f g : forall n lo s t, Q lo s t ->
  (forall i s t, lo <= i < lo + n -> Q i s t -> rres (Q (S i)) (f i s) (g i t)) ->
  rres (Q (lo + n)) (for_ n lo f s) (for_ n lo g t).
Proof.
  induction n as [|n IH]; intros lo s t H HS; cbn [for_]; [now rewrite Nat.add_0_r|].
  apply rres_bind with (Q (S lo)); [apply HS; auto; lia|].
  intros a b Hab. replace (lo + S n) with (S lo + n) by lia. apply IH; auto. intros. apply HS; auto. lia.
Qed.

Section Rel.
Context {A B : Type} (Q : A -> B -> Prop).

Lemma F2_nth_error l l' i : Forall2 Q l l' ->
  match nth_error l i, nth_error l' i with Some a, Some b => Q a b | None, None => True | _, _ => False end.
Proof. intros H. revert i. induction H; destruct i; cbn; auto. apply IHForall2. Qed.

Lemma F2_len l l' : Forall2 Q l l' -> length l = length l'.
Proof. induction 1; cbn; auto. Qed.

Lemma rres_rd l l' i : Forall2 Q l l' -> rres Q (rd l i) (rd l' i).
Proof. intros H. pose proof (F2_nth_error l l' i H). unfold rd. destruct (nth_error l i), (nth_error l' i); cbn; auto. Qed.

Lemma F2_upd l l' i a b : Forall2 Q l l' -> Q a b -> Forall2 Q (upd l i a) (upd l' i b).
Proof. intros H Hab. revert i. induction H; destruct i; cbn; constructor; auto. Qed.

Lemma rres_wr l l' i a b : Forall2 Q l l' -> Q a b -> rres (Forall2 Q) (wr l i a) (wr l' i b).
Proof.
  intros H Hab. unfold wr. rewrite (F2_len _ _ H). destruct (i <? length l'); cbn; auto. now apply F2_upd.
Qed.

Context (lt : A -> A -> bool) (lt' : B -> B -> bool).
Hypothesis Hlt : forall a b a' b', Q a b -> Q a' b' -> lt a a' = lt' b b'.

Lemma rres_swap l l' i j : Forall2 Q l l' -> rres (Forall2 Q) (swap l i j) (swap l' i j).
Proof.
  intros H. unfold swap. eapply rres_bind; [now apply rres_rd|]. intros a b Hab. cbv beta.
  eapply rres_bind; [now apply rres_rd|]. intros a' b' Hab'. cbv beta.
  eapply rres_bind; [now apply rres_wr|]. intros d d' Hd. now apply rres_wr.
Qed.

Definition pairQ (p : nat * list A) (p' : nat * list B) : Prop := fst p = fst p' /\ Forall2 Q (snd p) (snd p').

Lemma rres_partition l l' s e i : Forall2 Q l l' -> rres pairQ (partition lt l s e i) (partition lt' l' s e i).
Proof.
  intros H. unfold partition. eapply rres_bind; [now apply rres_rd|]. intros p p' Hp. cbv beta.
  eapply rres_bind; [now apply rres_swap|]. intros d d' Hd. cbv beta.
  eapply rres_bind.
  - apply (rres_for (fun _ => pairQ)); [now split|]. intros k [j x] [j' x'] _ [E Hx]. cbn [fst snd] in *. subst j'.
    eapply rres_bind; [now apply rres_rd|]. intros a b Hab. cbv beta. rewrite (Hlt _ _ _ _ Hab Hp).
    destruct (lt' b p').
    + eapply rres_bind; [now apply rres_swap|]. intros y y' Hy. cbn. now split.
    + cbn. now split.
  - intros [j x] [j' x'] [E Hx]. cbn [fst snd] in *. subst j'.
    eapply rres_bind; [now apply rres_swap|]. intros y y' Hy. cbn. now split.
Qed.

Definition selQ (p : A * list A) (p' : B * list B) : Prop := Q (fst p) (fst p') /\ Forall2 Q (snd p) (snd p').

Lemma rres_nth_element n : forall fuel l l' s e, Forall2 Q l l' ->
  rres selQ (nth_element lt fuel l s e n) (nth_element lt' fuel l' s e n).
Proof.
  induction fuel as [|fuel IH]; intros l l' s e H; [exact I|]. cbn [nth_element].
  assert (V : forall i x x', Forall2 Q x x' -> rres selQ (v <- rd x i ;; Ok (v, x)) (v <- rd x' i ;; Ok (v, x'))).
  { intros i x x' Hx. eapply rres_bind; [now apply rres_rd|]. intros a b Hab. cbn. now split. }
  destruct (s =? e); [now apply V|].
  eapply rres_bind; [now apply rres_partition|]. intros [j x] [j' x'] [E Hx]. cbn [fst snd] in *. subst j'.
  destruct (j =? n); [now apply V|]. destruct (j <? n); [now apply IH|]. destruct (j =? 0); [exact I|now apply IH].
Qed.

Definition stQ (r : rmed (A := A)) (r' : rmed (A := B)) : Prop :=
  r_width r = r_width r' /\ r_pos r = r_pos r' /\ Forall2 Q (r_ring r) (r_ring r') /\ Forall2 Q (r_buffer r) (r_buffer r').

Lemma rres_push r r' a b : stQ r r' -> Q a b ->
  rres (fun p p' => Q (fst p) (fst p') /\ stQ (snd p) (snd p')) (rmed_push lt r a) (rmed_push lt' r' b).
Proof.
  intros (E1 & E2 & H1 & H2) Hab. unfold rmed_push, ringbuf_push.
  eapply rres_bind with (Q := stQ).
  - rewrite E1, E2. eapply rres_bind; [now apply rres_wr|]. intros x x' Hx. cbn. repeat split; auto.
  - intros [w g p u] [w' g' p' u'] (F1 & F2 & G1 & G2). cbn [r_width r_pos r_ring r_buffer] in *. subst w' p'.
    rewrite (F2_len _ _ G1). eapply rres_bind.
    + apply (rres_for (fun _ => Forall2 Q)); [exact G2|]. intros i x x' _ Hx.
      eapply rres_bind; [apply rres_rd; exact G1|]. intros v v' Hv. now apply rres_wr.
    + intros x x' Hx. cbv beta. eapply rres_bind; [now apply rres_nth_element|].
      intros [m y] [m' y'] [Hm Hy]. cbn. repeat split; auto.
Qed.

(** the first [k] cells of the output are related *)
Definition outQ (n k : nat) (o : list A) (o' : list B) : Prop :=
  (length o = n /\ length o' = n) /\ Forall2 Q (firstn k o) (firstn k o').

Lemma outQ_wr n k o o' a b : outQ n k o o' -> Q a b -> rres (outQ n (S k)) (wr o k a) (wr o' k b).
Proof.
  intros [[L1 L2] H] Hab. unfold wr. rewrite L1, L2. destruct (Nat.ltb_spec k n) as [Hk|Hk]; cbn; auto.
  split; [now rewrite !upd_length|]. assert (L : length o = length o') by congruence. subst n. clear L2. revert o o' L H Hk. induction k as [|k IH]; intros [|x o] [|x' o'] L H Hk; cbn in *; try lia.
  - repeat constructor; auto.
  - inversion H; subst. constructor; auto. apply IH; auto; lia.
Qed.

Lemma rmed_rel zero zero' (l : list A) (l' : list B) w (o : list A) (o' : list B) : Forall2 Q l l' -> Q zero zero' ->
  length o = length l -> length o' = length l' ->
  rres (Forall2 Q) (running_median lt zero l (length l) w o) (running_median lt' zero' l' (length l') w o').
Proof.
  intros H Hz Lo Lo'. unfold running_median. rewrite <- (F2_len _ _ H) in *.
  destruct (w mod 2 =? 0); [reflexivity|]. destruct (Nat.ltb_spec w (length l)) as [Hw|Hw]; cbn [negb]; [|reflexivity].
  assert (HR : stQ (rmed_new zero w) (rmed_new zero' w)).
  { unfold rmed_new. repeat split; cbn [r_ring r_buffer]; induction w; cbn; constructor; auto; apply IHw; lia. }
  assert (Hh : w / 2 <= w) by (pose proof (Nat.mul_div_le w 2); lia).
  assert (STEP : forall v v' r r', Q v v' -> stQ r r' ->
    rres stQ ('(_, r1) <- rmed_push lt r v ;; Ok r1) ('(_, r1) <- rmed_push lt' r' v' ;; Ok r1)).
  { intros v v' r r' Hv Hr. eapply rres_bind; [now apply rres_push|]. intros [m x] [m' x'] [_ Hx]. exact Hx. }
  assert (OUT : forall v v' r r' k k' x x', Q v v' -> stQ r r' -> k' = k -> outQ (length l) k x x' ->
    rres (fun p p' => stQ (fst p) (fst p') /\ outQ (length l) (S k) (snd p) (snd p'))
      ('(m, r1) <- rmed_push lt r v ;; o1 <- wr x k' m ;; Ok (r1, o1))
      ('(m, r1) <- rmed_push lt' r' v' ;; o1 <- wr x' k' m ;; Ok (r1, o1))).
  { intros v v' r r' k k' x x' Hv Hr -> Hx. eapply rres_bind; [now apply rres_push|].
    intros [m y] [m' y'] [Hm Hy]. cbn [fst snd] in *. eapply rres_bind; [eapply outQ_wr; eassumption|].
    intros z z' Hz'. cbn. now split. }
  eapply rres_bind.
  { apply (rres_for (fun _ => stQ)); [exact HR|]. intros i r r' _ Hr. eapply rres_bind; [now apply rres_rd|].
    intros v v' Hv. now apply STEP. }
  intros r r' Hr. cbv beta. eapply rres_bind.
  { apply (rres_for (fun _ => stQ)); [exact Hr|]. intros i s s' _ Hs. eapply rres_bind; [now apply rres_rd|].
    intros v v' Hv. now apply STEP. }
  intros r1 r1' Hr1. cbv beta. eapply rres_bind.
  { apply (rres_for (fun i (p : rmed * list A) (p' : rmed * list B) => stQ (fst p) (fst p') /\ outQ (length l) (i - w / 2) (snd p) (snd p'))).
    - cbn [fst snd]. split; auto. rewrite Nat.sub_diag. split; [split; congruence|constructor].
    - intros i [s x] [s' x'] Hi [Hs Hx]. cbn [fst snd] in *. eapply rres_bind; [now apply rres_rd|]. intros v v' Hv. cbv beta.
      replace (S i - w / 2) with (S (i - w / 2)) by lia. apply OUT; auto. }
  intros [r2 x2] [r2' x2'] [Hr2 Hx2]. cbn [fst snd] in *. eapply rres_bind.
  { apply (rres_for (fun i (p : rmed * list A) (p' : rmed * list B) => stQ (fst p) (fst p') /\
      outQ (length l) (length l - w / 2 + i) (snd p) (snd p'))).
    - cbn [fst snd]. split; auto. rewrite Nat.add_0_r. replace (length l - w / 2) with (w / 2 + (length l - w / 2) - w / 2) by lia. exact Hx2.
    - intros i [s x] [s' x'] Hi [Hs Hx]. cbn [fst snd] in *. eapply rres_bind; [now apply rres_rd|]. intros v v' Hv. cbv beta.
      replace (length l - w / 2 + S i) with (S (length l - w / 2 + i)) by lia. apply OUT; auto. }
  intros [r3 x3] [r3' x3'] [_ [[L3 L3'] H3]]. cbn [fst snd rres] in *.
  replace (length l - w / 2 + (0 + w / 2)) with (length l) in H3 by lia.
  rewrite <- L3 in H3 at 1. rewrite <- L3' in H3. now rewrite !firstn_all in H3.
Qed.
End Rel.
