(** C24, C25: quickselect and the running median. *)
From Coq Require Import List Arith Bool Lia Permutation Reals Lra.
From Flocq Require Import Core.
From Verif Require Import Base.Result Base.Buf Model.RunMed Spec.Order Proof.RunMed Props.Downsample.
Import ListNotations.

(** C24.  The first two parts hold for any comparison, also one that is not an order (NaN):
    the selection ends, stays in the buffer and only permutes it. *)
Theorem nth_element_selects :
  forall (A : Type) (ltb : A -> A -> bool) (l : list A) (k : nat), k < length l ->
  exists v l', nth_element ltb (S (length l)) l 0 (length l - 1) k = Ok (v, l') /\
    Permutation l l' /\ (strict_weak ltb -> order_stat ltb k l v).
Proof.
  intros A ltb l k Hk. destruct l as [|d l0]; [cbn in Hk; lia|].
  apply (nth_element_top ltb d); auto.
Qed.
Print Assumptions nth_element_selects.

(** the order of the reals (and of finite floats) is a strict weak order *)
Lemma strict_weak_R : strict_weak Rlt_bool.
Proof.
  repeat split.
  - intros a. apply Rlt_bool_false. lra.
  - intros a b H. apply Rlt_bool_false. destruct (Rlt_bool_spec a b); [lra|discriminate].
  - intros a b c H1 H2. destruct (Rlt_bool_spec b a), (Rlt_bool_spec c b); try discriminate.
    apply Rlt_bool_false. lra.
Qed.

Example nth_element_ex :
  nth_element Nat.ltb 8 [5; 1; 4; 1; 5; 9; 2] 0 6 3 = Ok (4, [1; 1; 2; 4; 5; 9; 5]).
Proof. reflexivity. Qed.

(** C25.  [padded x j] is sample [j - half] of [x] extended by copies of its first and last
    sample; the window centred on [c] holds the samples [c - half .. c + half]. *)
Definition centred_window {A} (d : A) (x : list A) (half c : nat) : list A :=
  map (fun k => nth (Nat.min (c + k - half) (length x - 1)) x d) (seq 0 (2 * half + 1)).

Theorem running_median_correct :
  forall (A : Type) (ltb : A -> A -> bool) (zero d : A) (alloc : nat -> list A) (x : list A)
    (width : nat), allocates alloc ->
  (~ (Nat.odd width = true /\ width < length x) ->
     py_running_median ltb zero alloc x width = Err ValueError) /\
  (Nat.odd width = true /\ width < length x ->
   exists out, py_running_median ltb zero alloc x width = Ok out /\ length out = length x /\
     (strict_weak ltb -> forall c, c < length x ->
        is_median ltb (centred_window d x (width / 2) c) (nth c out d))).
Proof.
  intros A ltb zero d alloc x width Ha. unfold py_running_median. split.
  - intros H. unfold running_median.
    destruct (Nat.eqb_spec (width mod 2) 0) as [H0|H0]; [reflexivity|].
    destruct (Nat.ltb_spec width (length x)); [|reflexivity].
    exfalso. apply H. split; auto. apply Nat.odd_spec.
    exists (width / 2). pose proof (Nat.div_mod width 2 ltac:(lia)).
    pose proof (Nat.mod_upper_bound width 2 ltac:(lia)). lia.
  - intros [Hodd Hw]. apply Nat.odd_spec in Hodd. destruct Hodd as [half ->].
    destruct (running_median_spec ltb d x half zero (alloc (length x))) as (out & E & L & H);
      [exact Hw|apply Ha|].
    exists out. split; auto. split; auto. intros SW c Hc.
    replace ((2 * half + 1) / 2) with half by (apply Nat.div_unique with 1; lia).
    unfold is_median. replace (length (centred_window d x half c)) with (2 * half + 1)
      by (unfold centred_window; now rewrite map_length, seq_length).
    split. { apply Nat.odd_spec. now exists half. }
    replace ((2 * half + 1) / 2) with half by (apply Nat.div_unique with 1; lia).
    now apply H.
Qed.
Print Assumptions running_median_correct.

Example running_median_ex :
  py_running_median Nat.ltb 0 (repeat 7) [3; 1; 4; 1; 5; 9] 3 = Ok [3; 3; 1; 4; 5; 9] /\
  py_running_median Nat.ltb 0 (repeat 7) [3; 1; 4; 1; 5; 9] 4 = Err ValueError.
Proof. split; reflexivity. Qed.

(** the value is determined: two medians of a list are equivalent, on the reals equal *)
Theorem median_unique_R :
  forall (l : list R) (v v' : R), is_median Rlt_bool l v -> is_median Rlt_bool l v' -> v = v'.
Proof.
  intros l v v' [_ H] [_ H'].
  destruct (order_stat_unique _ _ _ _ _ strict_weak_R H H') as [H1 H2].
  destruct (Rlt_bool_spec v v'), (Rlt_bool_spec v' v); try discriminate. lra.
Qed.
Print Assumptions median_unique_R.
