(** C arrays as lists with checked access. *)

From Coq Require Import List Arith Lia.
From Verif Require Import Base.Result.
Import ListNotations.

Section Buf.
Context {A : Type}.

(** [b[i]]; reading outside the allocation is undefined behaviour. *)
Definition rd (b : list A) (i : nat) : res A :=
  match nth_error b i with Some a => Ok a | None => UB end.

Fixpoint upd (b : list A) (i : nat) (v : A) : list A :=
  match b, i with
  | [], _ => []
  | _ :: t, O => v :: t
  | h :: t, S i' => h :: upd t i' v
  end.

(** [b[i] = v]; writing outside the allocation is undefined behaviour. *)
Definition wr (b : list A) (i : nat) (v : A) : res (list A) :=
  if i <? length b then Ok (upd b i v) else UB.

Lemma upd_length b i v : length (upd b i v) = length b.
Proof. revert i; induction b; destruct i; cbn; auto. Qed.

Lemma upd_same b i v : i < length b -> nth_error (upd b i v) i = Some v.
Proof. revert i; induction b; destruct i; cbn; intros; try lia; auto. apply IHb; lia. Qed.

Lemma upd_other b i j v : i <> j -> nth_error (upd b i v) j = nth_error b j.
Proof.
  revert i j; induction b; destruct i, j; cbn; intros; auto; try lia.
Qed.

Lemma rd_ok b i : i < length b -> exists a, rd b i = Ok a /\ nth_error b i = Some a.
Proof.
  intros H. unfold rd. destruct (nth_error b i) eqn:E; eauto.
  apply nth_error_None in E; lia.
Qed.

Lemma rd_some b i a : nth_error b i = Some a -> rd b i = Ok a.
Proof. unfold rd; now intros ->. Qed.

Lemma rd_nth b i d : i < length b -> rd b i = Ok (nth i b d).
Proof. intros H. unfold rd. now rewrite (nth_error_nth' b d H). Qed.

Lemma rd_oob b i : length b <= i -> rd b i = UB.
Proof. intros H. unfold rd. apply nth_error_None in H. now rewrite H. Qed.

Lemma wr_ok b i v : i < length b -> wr b i v = Ok (upd b i v).
Proof. intros H. unfold wr. apply Nat.ltb_lt in H. now rewrite H. Qed.

Lemma nth_error_nth_d (b : list A) i d a : nth_error b i = Some a -> nth i b d = a.
Proof. apply nth_error_nth. Qed.

Lemma nth_error_eq_nth (l l' : list A) i d :
  nth_error l i = nth_error l' i -> nth i l d = nth i l' d.
Proof. rewrite <- !nth_default_eq. unfold nth_default. now intros ->. Qed.

(** [written b b' o n g]: [b'] is [b] with cells [o .. o+n-1] set to
    [g 0 .. g (n-1)] and nothing else changed. *)
Definition written (b b' : list A) (o n : nat) (g : nat -> A) : Prop :=
  length b' = length b /\
  (forall j, j < n -> nth_error b' (o + j) = Some (g j)) /\
  (forall j, j < o \/ o + n <= j -> nth_error b' j = nth_error b j).

(** only cells [o .. o+n-1] may differ *)
Definition frame (b b' : list A) (o n : nat) : Prop :=
  length b' = length b /\
  (forall j, j < o \/ o + n <= j -> nth_error b' j = nth_error b j).

Lemma written_frame b b' o n g : written b b' o n g -> frame b b' o n.
Proof. intros (H1 & _ & H3); split; auto. Qed.

Lemma frame_refl b o n : frame b b o n.
Proof. split; auto. Qed.

Lemma frame_trans b b' b'' o n : frame b b' o n -> frame b' b'' o n -> frame b b'' o n.
Proof. intros [H1 H2] [H3 H4]; split; [congruence|]. intros j Hj. now rewrite H4, H2. Qed.

Lemma frame_widen b b' o n o' n' :
  frame b b' o n -> o' <= o -> o + n <= o' + n' -> frame b b' o' n'.
Proof. intros [H1 H2] ? ?; split; auto. intros; apply H2; lia. Qed.
End Buf.

(** Loop rule. *)
Lemma for_inv {S} (P : nat -> S -> Prop) body :
  forall n lo s,
    P lo s ->
    (forall i s, lo <= i < lo + n -> P i s -> exists s', body i s = Ok s' /\ P (Datatypes.S i) s') ->
    exists s', for_ n lo body s = Ok s' /\ P (lo + n) s'.
Proof.
  induction n as [|n IH]; intros lo s H0 Hs; cbn.
  - exists s; split; auto. now rewrite Nat.add_0_r.
  - destruct (Hs lo s) as (s1 & E & P1); [lia|auto|]. rewrite E; cbn.
    destruct (IH (Datatypes.S lo) s1 P1) as (s2 & E2 & P2).
    { intros i s' Hi HP; apply Hs; [lia|auto]. }
    exists s2; split; auto. now rewrite Nat.add_succ_r.
Qed.

Lemma for_ext {S} n lo (f g : nat -> S -> res S) s :
  (forall i s, lo <= i < lo + n -> f i s = g i s) -> for_ n lo f s = for_ n lo g s.
Proof.
  revert lo s; induction n as [|n IH]; intros lo s H; cbn; auto.
  rewrite H by lia. destruct (g lo s); cbn; auto. apply IH. intros; apply H; lia.
Qed.

Lemma for_app {S} n1 n2 lo (f : nat -> S -> res S) s :
  for_ (n1 + n2) lo f s = (s' <- for_ n1 lo f s ;; for_ n2 (lo + n1) f s').
Proof.
  revert lo s; induction n1 as [|n1 IH]; intros lo s; cbn.
  - now rewrite Nat.add_0_r.
  - destruct (f lo s); cbn; auto. rewrite IH. now rewrite Nat.add_succ_r.
Qed.

(** A loop whose [i]-th iteration stores a value [g i], computed without looking
    at the cells already written, in cell [o + (i - lo)]. *)
Lemma for_written {A} (body : nat -> list A -> res (list A)) (g : nat -> A) n lo b o :
  o + n <= length b ->
  (forall i b', lo <= i < lo + n -> length b' = length b ->
     (forall j, j < o \/ o + n <= j -> nth_error b' j = nth_error b j) ->
     body i b' = wr b' (o + (i - lo)) (g (i - lo))) ->
  exists b', for_ n lo body b = Ok b' /\ written b b' o n g.
Proof.
  intros Hlen Hbody.
  destruct (for_inv
    (fun i b' => lo <= i <= lo + n /\ written b b' o (i - lo) g) body n lo b) as (b' & E & _ & W).
  - split; [lia|]. rewrite Nat.sub_diag. split; auto. split; intros; auto; lia.
  - intros i b' Hi (Hi' & L & W1 & W2).
    rewrite (Hbody i b'); auto; [|intros; apply W2; lia].
    rewrite wr_ok by lia. eexists; split; [reflexivity|].
    split; [lia|]. split; [now rewrite upd_length|]. split.
    + intros j Hj. destruct (Nat.eq_dec j (i - lo)) as [->|Hne].
      * apply upd_same; lia.
      * rewrite upd_other by lia. apply W1; lia.
    + intros j Hj. rewrite upd_other by lia. apply W2; lia.
  - exists b'; split; auto. replace (lo + n - lo) with n in W by lia. exact W.
Qed.

Lemma foreach_inv {X S} (P : list X -> S -> Prop) (body : X -> S -> res S) :
  forall l done s,
    P done s ->
    (forall pre x post s, done ++ l = pre ++ x :: post -> length done <= length pre ->
        P pre s -> exists s', body x s = Ok s' /\ P (pre ++ [x]) s') ->
    exists s', foreach l body s = Ok s' /\ P (done ++ l) s'.
Proof.
  induction l as [|x l IH]; intros done s H0 Hs; cbn.
  - exists s; rewrite app_nil_r; auto.
  - destruct (Hs done x l s) as (s1 & E & P1); auto. rewrite E; cbn.
    destruct (IH (done ++ [x]) s1 P1) as (s2 & E2 & P2).
    { intros pre y post s' Heq Hl HP. apply (Hs pre y post); auto.
      - rewrite <- Heq, <- app_assoc; reflexivity.
      - rewrite app_length in Hl; cbn in Hl; lia. }
    exists s2; split; auto. now rewrite <- app_assoc in P2.
Qed.

Lemma nth_map {A B} (f : A -> B) l i d d' : i < length l ->
  nth i (map f l) d = f (nth i l d').
Proof.
  intros H. rewrite (nth_indep _ d (f d')) by (now rewrite map_length). apply map_nth.
Qed.

Lemma nth_map_seq {B} (f : nat -> B) n i d : i < n -> nth i (map f (seq 0 n)) d = f i.
Proof.
  intros H. rewrite (nth_map f _ _ d 0) by (now rewrite seq_length). now rewrite seq_nth.
Qed.

Lemma nth_firstn_skipn {A} (l : list A) o n c d :
  c < n -> nth c (firstn n (skipn o l)) d = nth (o + c) l d.
Proof.
  revert l o n. induction c as [|c IH]; intros l o [|n] H; try lia.
  - rewrite Nat.add_0_r. revert o. induction l as [|a l IHl]; intros [|o]; cbn; auto.
    cbn in IHl. rewrite <- IHl. now destruct l.
  - destruct (skipn o l) as [|a r] eqn:E.
    + cbn. rewrite nth_overflow; auto. 
      assert (length (skipn o l) = 0) as L by now rewrite E.
      rewrite skipn_length in L. lia.
    + cbn [firstn nth].
      replace r with (skipn (S o) l).
      * rewrite IH by lia. f_equal. lia.
      * clear - E. revert o E. induction l as [|x l IHl]; intros [|o] E; cbn in *; try discriminate.
        -- now inversion E.
        -- now apply IHl.
Qed.
