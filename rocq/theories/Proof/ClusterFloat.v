(** Clustering with rounded differences. *)
From Coq Require Import List Arith ZArith Bool Lia Reals Lra.
From Flocq Require Import Core.
From Verif Require Import Base.Result Base.Num Model.Cluster Proof.Index Proof.Downsample Proof.Rounding Proof.Cluster.
Import ListNotations.
Local Open Scope R_scope.

Lemma rnd64_0 : rnd64 0 = 0. Proof. apply rnd64_id, generic_format_0. Qed.
Lemma rnd64_opp x : rnd64 (- x) = - rnd64 x. Proof. apply round_NE_opp. Qed.
Lemma rnd64_F x : F64 (rnd64 x). Proof. apply generic_format_round; typeclasses eauto. Qed.
Lemma rnd64_nonneg x : 0 <= x -> 0 <= rnd64 x.
Proof. intros H. rewrite <- rnd64_0. now apply rnd64_le. Qed.
Lemma rnd64_abs x : rnd64 (Rabs x) = Rabs (rnd64 x).
Proof.
  destruct (Rle_lt_dec 0 x) as [H|H].
  - rewrite !Rabs_pos_eq; auto. now apply rnd64_nonneg.
  - rewrite Rabs_left by lra. rewrite rnd64_opp. rewrite Rabs_left1; [reflexivity|].
    rewrite <- rnd64_0. apply rnd64_le. lra.
Qed.

(** the largest of a list of numbers and [r] *)
Definition rmax (r : R) (l : list R) : R := fold_right Rmax r l.
Lemma rmax_ge r l : r <= rmax r l.
Proof. induction l as [|a l IH]; cbn; [lra|]. eapply Rle_trans; [exact IH|apply Rmax_r]. Qed.
Lemma rmax_in r l d : In d l -> d <= rmax r l.
Proof.
  induction l as [|a l IH]; [intros []|]. intros [->|H]; cbn; [apply Rmax_l|]. eapply Rle_trans; [now apply IH|apply Rmax_r].
Qed.
Lemma rmax_or r l : rmax r l = r \/ In (rmax r l) l.
Proof.
  induction l as [|a l IH]; cbn; [now left|]. fold (rmax r l). destruct (Rle_dec a (rmax r l)).
  - rewrite Rmax_right by auto. destruct IH; auto.
  - rewrite Rmax_left by lra. auto.
Qed.

(** among finitely many distances, those that round to at most [r] are those up to some [r'] *)
Lemma radius (ds : list R) (r : R) : F64 r -> (forall d, In d ds -> 0 <= d) ->
  exists r', r <= r' /\ (r' = r \/ (In r' ds /\ rnd64 r' <= r)) /\
    forall d, In d ds -> (rnd64 d <= r <-> d <= r').
Proof.
  intros Fr Hd. set (fl := filter (fun d => Rle_bool (rnd64 d) r) ds). exists (rmax r fl).
  assert (RF : rmax r fl = r \/ (In (rmax r fl) ds /\ rnd64 (rmax r fl) <= r)).
  { destruct (rmax_or r fl) as [|H]; auto. right. apply filter_In in H as [H1 H2]. split; auto.
    destruct (Rle_bool_spec (rnd64 (rmax r fl)) r); [auto|discriminate]. }
  split; [apply rmax_ge|]. split; [exact RF|].
  intros d Hin. split; intros H.
  - apply rmax_in. apply filter_In. split; auto. now apply Rle_bool_true.
  - destruct RF as [E|[_ H2]].
    + rewrite E in H. rewrite <- (rnd64_id r) by auto. now apply rnd64_le.
    + eapply Rle_trans; [apply rnd64_le, H|exact H2].
Qed.

Lemma nabs_F bld x : F64 x -> nabs (numF bld) x = Rabs x.
Proof.
  intros Fx. unfold nabs. cbn [numF opsF n_ltb n_dbl o_sub o_ofZ]. rewrite rnd64_0.
  destruct (Rlt_bool_spec x 0).
  - rewrite Rminus_0_l, rnd64_opp, rnd64_id by auto. now rewrite Rabs_left.
  - now rewrite Rabs_pos_eq.
Qed.

Lemma diff_close x y : F64 x -> F64 y -> Rabs (x - y) * (1 - u64) <= rnd64 (Rabs (x - y)).
Proof.
  intros Fx Fy. pose proof (rnd64_plus_error x (- y) Fx ltac:(now apply generic_format_opp)) as E.
  change (x + - y) with (x - y) in E. rewrite rnd64_abs.
  pose proof (Rabs_triang_inv (x - y) (x - y - rnd64 (x - y))) as T.
  replace (x - y - (x - y - rnd64 (x - y))) with (rnd64 (x - y)) in T by ring.
  rewrite (Rabs_minus_sym (x - y) (rnd64 (x - y))) in T. lra.
Qed.

Lemma cluster1d_F (bld : build) (argsort : list R -> list nat) (x : list R) (r : R) (srt : bool) :
  Forall F64 x -> F64 r ->
  exists r', cluster1d (numF bld) argsort x r srt = cluster1d numR argsort x r' srt /\
    r <= r' /\ (0 <= r -> r' <= r * (1 + 2 * u64)) /\ (r < 0 -> r' = r).
Proof.
  intros Fx Fr.
  set (n := length x). set (idx := if srt then seq 0 n else argsort x).
  set (xs := map (fun i => nth i x 0) idx).
  assert (Fxs : forall k, F64 (nth k xs 0)).
  { intros k. unfold xs. destruct (Nat.lt_ge_cases k (length idx)) as [H|H].
    - rewrite nth_indep with (d' := (fun i => nth i x 0) 0%nat) by now rewrite map_length.
      rewrite (map_nth (fun i => nth i x 0)). destruct (Nat.lt_ge_cases (nth k idx 0%nat) (length x)) as [H'|H'].
      + rewrite Forall_forall in Fx. apply Fx. now apply nth_In.
      + rewrite nth_overflow by auto. apply generic_format_0.
    - rewrite nth_overflow by (now rewrite map_length). apply generic_format_0. }
  set (dist := fun k => Rabs (nth (S k) xs 0 - nth k xs 0)).
  destruct (radius (map dist (seq 0 (n - 1))) r Fr) as (r' & H1 & H2 & H3).
  { intros d Hd. apply in_map_iff in Hd as (k & <- & _). apply Rabs_pos. }
  exists r'. split.
  - unfold cluster1d. change (n_T (numF bld)) with R in *. change (n_T numR) with R in *. fold n.
    destruct (n =? 0)%nat; [reflexivity|]. cbn [numF opsF n_dbl o_ofZ o_sub n_ltb]. rewrite rnd64_0.
    rsimp. change (IZR 0) with 0. fold idx xs.
    match goal with |- (if length (filter ?f ?l) =? 0 then _ else _)%nat = (if length (filter ?g ?l) =? 0 then _ else _)%nat =>
      assert (EF : filter f l = filter g l) end.
    { apply filter_ext_in. intros k Hk.
      rewrite (nth_indep (map (fun k => rnd64 (nth (S k) xs 0 - nth k xs 0)) _) 0 (rnd64 (nth (S 0) xs 0 - nth 0 xs 0)))
        by (rewrite map_length, seq_length; apply in_seq in Hk; lia).
      rewrite (nth_indep (map (fun k => (nth (S k) xs 0 - nth k xs 0)) _) 0 (nth (S 0) xs 0 - nth 0 xs 0))
        by (rewrite map_length, seq_length; apply in_seq in Hk; lia).
      rewrite (map_nth (fun k => rnd64 (nth (S k) xs 0 - nth k xs 0))), (map_nth (fun k => nth (S k) xs 0 - nth k xs 0)).
      rewrite seq_nth by (apply in_seq in Hk; lia). cbn [Nat.add].
      rewrite nabs_F by apply rnd64_F. rewrite nabs_R, <- rnd64_abs. fold (dist k).
      assert (K : In (dist k) (map dist (seq 0 (n - 1)))) by now apply in_map.
      specialize (H3 _ K). destruct (Rlt_bool_spec r (rnd64 (dist k))), (Rlt_bool_spec r' (dist k)); auto; lra. }
    rewrite EF. reflexivity.
  - split; [exact H1|].
    assert (U : 0 < u64 < / 1000) by (unfold u64; lra).
    split; intros Hr.
    + destruct H2 as [->|[Hin Hle]]; [nra|]. apply in_map_iff in Hin as (k & <- & _).
      pose proof (diff_close (nth (S k) xs 0) (nth k xs 0) (Fxs _) (Fxs _)) as D. fold (dist k) in D.
      assert (dist k * (1 - u64) <= r) by lra. pose proof (Rabs_pos (nth (S k) xs 0 - nth k xs 0)) as P. fold (dist k) in P.
      assert (dist k * (1 - u64) * (1 + 2 * u64) <= r * (1 + 2 * u64)) by (apply Rmult_le_compat_r; lra).
      assert (0 <= dist k * (u64 * (1 - 2 * u64))) by (apply Rmult_le_pos; [lra|apply Rmult_le_pos; lra]). lra.
    + destruct H2 as [|[Hin Hle]]; auto. apply in_map_iff in Hin as (k & E & _).
      assert (0 <= rnd64 r') by (apply rnd64_nonneg; rewrite <- E; apply Rabs_pos). lra.
Qed.
