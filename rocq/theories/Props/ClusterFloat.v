(** C118: clustering in floating point. *)
From Coq Require Import List Arith ZArith Bool Lia Reals Lra Permutation Sorted Relations.
From Flocq Require Import Core.
From Verif Require Import Base.Result Base.Num Model.Cluster Spec.Friends Proof.Index Proof.Downsample
  Proof.Cluster Proof.ClusterFloat Props.Cluster.
Import ListNotations.
Local Open Scope R_scope.

(** With rounded differences [cluster1d] gives exactly the groups of friends of friends of a radius
    that differs from [r] by at most a relative 2^-52, the same radius for all points. *)
Theorem cluster1d_float_friends :
  forall (bld : build) (argsort : list R -> list nat) (x : list R) (r : R) (already_sorted : bool),
  sorts argsort -> (already_sorted = true -> increasing x \/ decreasing x) ->
  Forall F64 x -> F64 r -> 0 <= r ->
  let groups := cluster1d (numF bld) argsort x r already_sorted in
  exists r', r <= r' <= r * (1 + / 2 ^ 52) /\
  Permutation (concat groups) (seq 0 (length x)) /\
  (forall g, In g groups -> g <> []) /\
  (forall i j, (i < length x)%nat -> (j < length x)%nat ->
     (together groups i j <-> friends (fun k => (k < length x)%nat) (fun k => nth k x 0) r' i j)) /\
  (already_sorted = true -> concat groups = seq 0 (length x)) /\
  (already_sorted = false ->
     StronglySorted (fun i j => nth i x 0 <= nth j x 0) (concat groups) /\
     StronglySorted (fun g h => forall i j, In i g -> In j h -> r' < nth j x 0 - nth i x 0) groups).
Proof.
  intros bld argsort x r srt HA HS Fx Fr Hr groups.
  destruct (cluster1d_F bld argsort x r srt Fx Fr) as (r' & E & H1 & H2 & _).
  exists r'. split.
  - split; auto. replace (/ 2 ^ 52) with (2 * u64) by (unfold u64; lra). auto.
  - unfold groups. rewrite E. now apply cluster1d_friends.
Qed.
Print Assumptions cluster1d_float_friends.

(** The radius can indeed differ: 1 and -2^-54 are more than 1 apart and end in one group. *)
Theorem cluster1d_float_exact_radius_refuted :
  exists (x : list R) (r : R), Forall F64 x /\ F64 r /\ 0 < r /\ decreasing x /\
    forall bld argsort,
    let groups := cluster1d (numF bld) argsort x r true in
    together groups 0 1 /\ ~ friends (fun k => (k < length x)%nat) (fun k => nth k x 0) r 0%nat 1%nat.
Proof.
  exists [1; - / 2 ^ 54], 1.
  assert (F1 : F64 1) by now apply F64_int.
  assert (F2 : F64 (- / 2 ^ 54)).
  { apply generic_format_opp. replace (/ 2 ^ 54) with (bpow radix2 (-54)) by (cbn; lra).
    apply generic_format_bpow. cbn. lia. }
  split; [repeat constructor; auto|]. split; auto. split; [lra|]. split.
  { unfold decreasing. repeat constructor. lra. }
  intros bld argsort groups. split.
  - assert (E : groups = [[0; 1]%nat]).
    { unfold groups, cluster1d. change (n_T (numF bld)) with R in *. cbn [length seq Nat.eqb map nth Nat.sub].
      cbn [numF opsF n_dbl n_ltb o_ofZ o_sub]. change (@nth (n_T (numF bld))) with (@nth R).
      cbn [filter nth map seq].
      assert (RN : rnd64 (- / 2 ^ 54 - 1) = - 1).
      { replace (- / 2 ^ 54 - 1) with (- (1 + / 2 ^ 54)) by ring. rewrite rnd64_opp.
        enough (E : rnd64 (1 + / 2 ^ 54) = 1) by (rewrite E; reflexivity).
        apply Rle_antisym.
        - apply round_N_le_midp; [typeclasses eauto|exact F1|].
          rewrite succ_eq_pos by lra. change (ulp radix2 fexp64 1) with (ulp radix2 fexp64 (bpow radix2 0)). rewrite ulp_bpow.
          change (fexp64 (0 + 1)) with (-52)%Z. cbn. lra.
        - rewrite <- (rnd64_id 1 F1) at 1. apply rnd64_le. lra. }
      rewrite RN. rewrite nabs_F by (apply generic_format_opp; exact F1).
      rewrite (Rabs_left (-1)) by lra. rewrite Rlt_bool_false by lra. reflexivity. }
    exists [0; 1]%nat. rewrite E. cbn. auto.
  - intros F. assert (G : forall a b, friends (fun k => (k < length [1%R; (- / 2 ^ 54)%R])%nat)
        (fun k => nth k [1; - / 2 ^ 54] 0) 1 a b -> a = 0%nat -> b = 0%nat).
    { intros a b K. induction K as [a b (_ & Hb & Hr)|a|a b c _ IH1 _ IH2]; auto.
      intros ->. destruct b as [|[|b]]; auto; cbn [nth length] in *; [|lia].
      rewrite Rabs_pos_eq in Hr by lra. lra. }
    discriminate (G _ _ F eq_refl).
Qed.
Print Assumptions cluster1d_float_exact_radius_refuted.

Example cluster1d_float_friends_used : forall bld, exists r',
  1 <= r' <= 1 * (1 + / 2 ^ 52) /\
  forall i j, (i < 5)%nat -> (j < 5)%nat ->
    (together (cluster1d (numF bld) argsort_R [5; 1; 2; 9; 2] 1 false) i j <->
     friends (fun k => (k < 5)%nat) (fun k => nth k [5; 1; 2; 9; 2] 0) r' i j).
Proof.
  intros bld. destruct (cluster1d_float_friends bld argsort_R [5; 1; 2; 9; 2] 1 false argsort_R_sorts
    ltac:(discriminate)) as (r' & H & _ & _ & F & _).
  - repeat constructor; now apply F64_int.
  - now apply F64_int.
  - lra.
  - exists r'. split; auto.
Qed.
