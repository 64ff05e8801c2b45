(** Greedy covering by intervals. *)
From Coq Require Import List Arith ZArith Bool Lia Reals Lra Sorted Permutation.
From Flocq Require Import Core.
From Verif Require Import Base.Result Base.Num Model.Cluster Model.DmIter Proof.Cluster.
Import ListNotations.
Local Open Scope R_scope.

Section Greedy.
Context (dms radii : list R).
Notation n := (length dms).
Definition lo (i : nat) : R := nth i dms 0 - nth i radii 0.
Definition hi (i : nat) : R := nth i dms 0 + nth i radii 0.
Context (R0 : forall i, (i < n)%nat -> 0 < nth i radii 0).
Context (LO : forall i j, (i <= j < n)%nat -> lo i <= lo j).
Context (HI : forall i j, (i < j < n)%nat -> hi i < hi j).

Lemma lo_hi i : (i < n)%nat -> lo i <= hi i.
Proof. intros H. specialize (R0 i H). unfold lo, hi. lra. Qed.

(** the selected positions after [i]: each is the farthest within tolerance, or the next one *)
Fixpoint walk (i : nat) (p : list nat) : Prop :=
  match p with
  | [] => S i = n
  | j :: p' => (i < j < n)%nat /\ (j = S i \/ lo j <= hi i) /\
      (forall k, (k < n)%nat -> lo k <= hi i -> (k <= j)%nat) /\ walk j p'
  end.

Lemma gap_pos i j : n_ltb (o_ofZ n_dbl 0) (dm_gap numR dms radii i j) = Rlt_bool (hi i) (lo j).
Proof.
  unfold dm_gap. rsimp. fold (lo j) (hi i).
  destruct (Rlt_bool_spec 0 (lo j - hi i)), (Rlt_bool_spec (hi i) (lo j)); auto; lra.
Qed.

Lemma largest_spec i : (i < n)%nat ->
  let t := largest_in_range numR dms radii i in
  (S i <= t)%nat /\ ((S i = n /\ t = n) \/ (t < n)%nat /\ (t = S i \/ lo t <= hi i) /\
     forall k, (k < n)%nat -> lo k <= hi i -> (k <= t)%nat).
Proof.
  intros Hi t.
  assert (G : forall m j, (j + m = n)%nat -> (i <= j)%nat -> (forall k, (i <= k < j)%nat -> lo k <= hi i) ->
    let t := largest_from numR dms radii i m j in
    (S i <= t)%nat /\ ((S i = n /\ t = n) \/ (t < n)%nat /\ (t = S i \/ lo t <= hi i) /\
     forall k, (k < n)%nat -> lo k <= hi i -> (k <= t)%nat)).
  { induction m as [|m IH]; intros j Hj Hij Hb t'; unfold t'; cbn [largest_from].
    - split; [lia|]. destruct (Nat.eq_dec (S i) n) as [E|E]; [left; lia|].
      right. split; [lia|]. split; [|intros; lia].
      right. apply Hb. lia.
    - rewrite gap_pos. destruct (Rlt_bool_spec (hi i) (lo j)) as [L|L].
      + split; [lia|].
        assert (i < j)%nat. { destruct (Nat.eq_dec i j); [|lia]. subst. pose proof (lo_hi j Hi). lra. }
        right. split; [lia|]. split.
        * destruct (Nat.eq_dec j (S i)); [left; lia|]. right. replace (Nat.max (j - 1) (i + 1)) with (j - 1)%nat by lia.
          apply Hb. lia.
        * intros k Hk Lk. destruct (Nat.le_gt_cases j k) as [C|C]; [|lia].
          pose proof (LO j k ltac:(lia)). lra.
      + apply IH; try lia. intros k Hk. destruct (Nat.eq_dec k j); [subst; lra|]. apply Hb. lia. }
  apply (G (n - i)%nat i); lia.
Qed.

Lemma select_loop_walk : forall fuel i, (i < n)%nat -> (n - i < fuel)%nat ->
  exists p, select_loop numR dms radii fuel i = Ok (map (fun k => nth k dms 0) p) /\ walk i p.
Proof.
  induction fuel as [|fuel IH]; intros i Hi Hf; [lia|].
  cbn [select_loop]. destruct (largest_spec i Hi) as [H1 H2].
  set (t := largest_in_range numR dms radii i) in *. numR_ty.
  destruct H2 as [[E1 E2]|(L & H2 & H3)].
  - replace (n <=? t) with true by (symmetry; apply Nat.leb_le; lia). exists []. split; [reflexivity|exact E1].
  - replace (n <=? t) with false by (symmetry; apply Nat.leb_gt; lia).
    destruct (IH t L ltac:(lia)) as (p & E & W). rewrite E. exists (t :: p). split; [reflexivity|].
    cbn. repeat split; auto; lia.
Qed.

Lemma walk_bounds p : forall i, (i < n)%nat -> walk i p -> forall k, In k p -> (i < k < n)%nat.
Proof.
  induction p as [|j p IH]; intros i Hi W k Hk; [destruct Hk|].
  destruct W as (B & _ & _ & W). destruct Hk as [<-|Hk]; [lia|].
  specialize (IH j ltac:(lia) W k Hk). lia.
Qed.

Lemma walk_sorted p : forall i, (i < n)%nat -> walk i p -> StronglySorted lt (i :: p).
Proof.
  induction p as [|j p IH]; intros i Hi W; [repeat constructor|].
  constructor.
  - destruct W as (B & _ & _ & W). apply IH; [lia|auto].
  - apply Forall_forall. intros k Hk. apply (walk_bounds _ i Hi W k Hk).
Qed.

Lemma walk_last p : forall i, walk i p -> In (n - 1)%nat (i :: p).
Proof.
  induction p as [|j p IH]; intros i W; [cbn in W; left; lia|].
  destruct W as (B & _ & _ & W). right. now apply IH.
Qed.

(** nothing is lost *)
Lemma walk_covers p : forall i, walk i p -> forall k, (i <= k < n)%nat -> forall x, lo k <= x <= hi k ->
  exists s, In s (i :: p) /\ lo s <= x <= hi s.
Proof.
  induction p as [|j p IH]; intros i W k Hk x Hx.
  - cbn in W. exists k. split; [left; lia|auto].
  - destruct W as (B & T & _ & W). destruct (Nat.le_gt_cases j k) as [C|C].
    + destruct (IH j W k ltac:(lia) x Hx) as (s & Hs & ?). exists s. split; [now right|auto].
    + destruct (Nat.eq_dec i k) as [->|Ne]; [exists k; split; [now left|auto]|].
      destruct T as [T|T]; [lia|].
      destruct (Rle_lt_dec x (hi i)).
      * exists i. split; [now left|]. pose proof (LO i k ltac:(lia)). lra.
      * exists j. split; [right; now left|]. pose proof (HI k j ltac:(lia)). lra.
Qed.

(** any other covering selection has an element in each step *)
Context (LOS : forall i j, (i < j < n)%nat -> lo i < lo j).
Context (sel : nat -> Prop) (SB : forall s, sel s -> (s < n)%nat).
Context (COV : forall k x, (k < n)%nat -> lo k <= x <= hi k -> exists s, sel s /\ lo s <= x <= hi s).

Lemma step_hit i j : (i < j < n)%nat -> (j = S i \/ lo j <= hi i) ->
  (forall k, (k < n)%nat -> lo k <= hi i -> (k <= j)%nat) -> exists s, sel s /\ (i < s <= j)%nat.
Proof.
  intros B T M.
  assert (BELOW : forall s x, (s < n)%nat -> hi i < x -> x <= hi s -> (i < s)%nat).
  { intros s x Hs H1 H2. destruct (Nat.le_gt_cases s i) as [C|C]; auto. exfalso.
    destruct (Nat.eq_dec s i); [subst; lra|]. pose proof (HI s i ltac:(lia)). lra. }
  destruct (Rle_lt_dec (lo j) (hi i)) as [L|L].
  - set (b := if Nat.eq_dec (S j) n then hi j else Rmin (hi j) (lo (S j))).
    assert (HB : hi i < b /\ b <= hi j).
    { unfold b. pose proof (HI i j B). destruct (Nat.eq_dec (S j) n); [lra|]. split; [|apply Rmin_l].
      apply Rmin_glb_lt; auto. destruct (Rle_lt_dec (lo (S j)) (hi i)) as [C|C]; auto.
      apply M in C; lia. }
    destruct (COV j ((hi i + b) / 2)) as (s & Hs & Hx); [lia|lra|]. exists s. split; auto.
    pose proof (SB s Hs). split; [apply (BELOW s ((hi i + b) / 2)); auto; lra|].
    destruct (Nat.le_gt_cases s j) as [C|C]; auto. exfalso.
    unfold b in *. destruct (Nat.eq_dec (S j) n); [lia|].
    pose proof (LO (S j) s ltac:(lia)). pose proof (Rmin_r (hi j) (lo (S j))). lra.
  - assert (j = S i) by (destruct T; [auto|lra]). subst j.
    destruct (COV (S i) (lo (S i))) as (s & Hs & Hx); [lia|pose proof (lo_hi (S i) ltac:(lia)); lra|].
    exists s. split; auto. pose proof (SB s Hs).
    split; [apply (BELOW s (lo (S i))); auto; lra|].
    destruct (Nat.le_gt_cases s (S i)) as [C|C]; auto. pose proof (LOS (S i) s ltac:(lia)). lra.
Qed.

Lemma first_hit : (0 < n)%nat -> sel 0%nat.
Proof.
  intros Hn. destruct (COV 0%nat (lo 0)) as (s & Hs & Hx); auto; [pose proof (lo_hi 0%nat Hn); lra|].
  destruct s as [|s]; auto. pose proof (SB _ Hs). pose proof (LOS 0%nat (S s) ltac:(lia)). lra.
Qed.

Lemma walk_hits p : forall i, (i < n)%nat -> walk i p ->
  exists T, length T = length p /\ NoDup T /\ forall s, In s T -> sel s /\ (i < s)%nat.
Proof.
  induction p as [|j p IH]; intros i Hi W; [exists []; repeat split; [constructor|easy|easy]|].
  destruct W as (B & T & M & W). destruct (IH j ltac:(lia) W) as (Ts & L & ND & H).
  destruct (step_hit i j B T M) as (s & Hs & Bs).
  exists (s :: Ts). split; [cbn; lia|]. split.
  - constructor; auto. intros C. apply H in C. lia.
  - intros k [<-|Hk]; [split; [auto|lia]|]. apply H in Hk. split; [tauto|lia].
Qed.
End Greedy.
