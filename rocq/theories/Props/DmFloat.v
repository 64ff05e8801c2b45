(** C139: the selection of trial DMs in floating point. *)
From Coq Require Import String List Arith ZArith Bool Lia Reals Lra Sorted Permutation.
From Flocq Require Import Core Plus_error.
From Verif Require Import Base.Result Base.Num Model.Cluster Model.Peaks Model.DmIter Spec.Smearing
  Proof.Cluster Proof.DmIter Proof.Downsample Proof.SearchFloat Proof.ClusterFloat Proof.RadiusFloat
  Props.Cluster Props.DownsampleFloat Props.DmIter.
Import ListNotations.
Local Open Scope R_scope.

(** ** the greedy loop in any arithmetic *)
Section Greedy.
Context (N : num) (dms radii : list N).
Notation n := (length dms).
Notation far i j := (n_ltb (o_ofZ n_dbl 0) (dm_gap N dms radii i j)).
Context (SELF : forall i, (i < n)%nat -> far i i = false).

(** the selected positions after [i] *)
Fixpoint steps (i : nat) (p : list nat) : Prop :=
  match p with
  | [] => S i = n
  | j :: p' => (i < j < n)%nat /\ (j = S i \/ far i j = false) /\
      (S j = n \/ exists k, (i < k <= S j)%nat /\ (k < n)%nat /\ far i k = true) /\ steps j p'
  end.

Lemma largest_any i : (i < n)%nat ->
  let t := largest_in_range N dms radii i in
  (S i = n /\ t = n) \/ (i < t < n)%nat /\ (t = S i \/ far i t = false) /\
    (S t = n \/ exists k, (i < k <= S t)%nat /\ (k < n)%nat /\ far i k = true).
Proof.
  intros Hi t.
  assert (G : forall m j, (j + m = n)%nat -> (i <= j)%nat -> (forall k, (i <= k < j)%nat -> far i k = false) ->
    let t := largest_from N dms radii i m j in
    (S i = n /\ t = n) \/ (i < t < n)%nat /\ (t = S i \/ far i t = false) /\
      (S t = n \/ exists k, (i < k <= S t)%nat /\ (k < n)%nat /\ far i k = true)).
  { induction m as [|m IH]; intros j Hj Hij Hb t'; unfold t'; cbn [largest_from].
    - destruct (Nat.eq_dec (S i) n) as [E|E]; [left; lia|]. right.
      replace (Nat.max (j - 1) (i + 1)) with (j - 1)%nat by lia.
      split; [lia|]. split; [right; apply Hb; lia|left; lia].
    - destruct (far i j) eqn:F.
      + assert (i < j)%nat. { destruct (Nat.eq_dec i j); [|lia]. subst j. rewrite SELF in F; [discriminate|auto]. }
        right. split; [lia|]. split; [|right; exists j; repeat split; auto; lia].
        destruct (Nat.eq_dec j (S i)); [left; lia|]. right. replace (Nat.max (j - 1) (i + 1)) with (j - 1)%nat by lia.
        apply Hb. lia.
      + apply IH; try lia. intros k Hk. destruct (Nat.eq_dec k j); [now subst|]. apply Hb. lia. }
  apply (G (n - i)%nat i); lia.
Qed.

Lemma select_loop_steps : forall fuel i, (i < n)%nat -> (n - i < fuel)%nat ->
  exists p, select_loop N dms radii fuel i = Ok (map (fun k => nth k dms (o_ofZ n_dbl 0)) p) /\ steps i p.
Proof.
  induction fuel as [|fuel IH]; intros i Hi Hf; [lia|].
  cbn [select_loop]. pose proof (largest_any i Hi) as H2.
  set (t := largest_in_range N dms radii i) in *.
  destruct H2 as [[E1 E2]|(L & H2 & H3)].
  - replace (n <=? t) with true by (symmetry; apply Nat.leb_le; lia). exists []. split; [reflexivity|exact E1].
  - replace (n <=? t) with false by (symmetry; apply Nat.leb_gt; lia).
    destruct (IH t) as (p & E & W); [lia|lia|]. rewrite E. exists (t :: p). split; [reflexivity|].
    cbn. repeat split; auto; lia.
Qed.

Lemma steps_bounds p : forall i, (i < n)%nat -> steps i p -> forall k, In k p -> (i < k < n)%nat.
Proof.
  induction p as [|j p IH]; intros i Hi W k Hk; [destruct Hk|].
  destruct W as (B & _ & _ & W). destruct Hk as [<-|Hk]; [lia|].
  specialize (IH j ltac:(lia) W k Hk). lia.
Qed.

Lemma steps_sorted p : forall i, (i < n)%nat -> steps i p -> StronglySorted lt (i :: p).
Proof.
  induction p as [|j p IH]; intros i Hi W; [repeat constructor|].
  constructor.
  - destruct W as (B & _ & _ & W). apply IH; [lia|auto].
  - apply Forall_forall. intros k Hk. apply (steps_bounds _ i Hi W k Hk).
Qed.

Lemma steps_last p : forall i, steps i p -> In (n - 1)%nat (i :: p).
Proof.
  induction p as [|j p IH]; intros i W; [cbn in W; left; lia|].
  destruct W as (B & _ & _ & W). right. now apply IH.
Qed.

(** each position is selected or between two consecutive selected ones *)
Lemma steps_between p : forall i, steps i p -> forall k, (i <= k < n)%nat ->
  In k (i :: p) \/ exists a b, In a (i :: p) /\ In b (i :: p) /\ (a < k < b)%nat /\ (b < n)%nat /\ far a b = false.
Proof.
  induction p as [|j p IH]; intros i W k Hk.
  - cbn in W. left. left. lia.
  - destruct W as (B & T & _ & W). destruct (Nat.le_gt_cases j k) as [C|C].
    + destruct (IH j W k ltac:(lia)) as [H|(a & b & Ha & Hb & H)]; [left; now right|].
      right. exists a, b. split; [now right|]. split; [now right|auto].
    + destruct (Nat.eq_dec i k) as [->|Ne]; [left; now left|].
      destruct T as [T|T]; [lia|]. right. exists i, j. split; [now left|]. split; [right; now left|]. repeat split; auto; lia.
Qed.

(** a step cannot be lengthened *)
Lemma steps_far p : forall i, steps i p -> forall l1 a b l2, i :: p = l1 ++ a :: b :: l2 ->
  S b = n \/ exists k, (a < k <= S b)%nat /\ (k < n)%nat /\ far a k = true.
Proof.
  induction p as [|j p IH]; intros i W l1 a b l2 E.
  - destruct l1 as [|? [|? ?]]; discriminate.
  - destruct W as (B & _ & T & W). destruct l1 as [|c l1]; [injection E as -> -> _; exact T|].
    injection E as _ E. apply (IH j W l1 a b l2 E).
Qed.
End Greedy.

(** ** one gap *)
Section Gap.
Context (bld : build) (fmin fmax : R) (nchans : Z) (wmin : R).
Context (HF : bpow radix2 (-100) <= fmin <= bpow radix2 100) (HB : 17 / 16 * fmin <= fmax <= 4 * fmin).
Context (HN : (1 <= nchans <= 16384)%Z) (HW : bpow radix2 (-500) <= wmin).
Notation r := (dm_radius numR fmin fmax nchans wmin).
Notation rf := (dm_radius (numF bld) fmin fmax nchans wmin).
Definition slack (s d : R) : R := / 67108864 * d + / 4503599627370496 * s.

Lemma band_pos : 0 < fmin < fmax.
Proof. pose proof (bpow_gt_0 radix2 (-100)). lra. Qed.

Lemma r_err d : 0 <= d -> Rabs (rf d - r d) <= 33554432 * u64 * r d /\ bpow radix2 (-720) <= r d.
Proof.
  intros Hd. rewrite radius_R by (try apply band_pos; try lia; pose proof (bpow_gt_0 radix2 (-500)); lra).
  now apply radius_err.
Qed.

Lemma far_F x y : double x -> double y -> 0 <= x <= y ->
  let far := Rlt_bool (rnd64 0) (rnd64 (rnd64 (y - rf y) - rnd64 (x + rf x))) in
  (far = false -> y - r y <= x + r x + slack y (r y)) /\
  (far = true -> x + r x - slack y (r y) < y - r y).
Proof.
  intros Dx Dy Hxy far.
  destruct (r_err x ltac:(lra)) as [Ex Lx]. destruct (r_err y ltac:(lra)) as [Ey Ly].
  destruct (radius_mono fmin fmax nchans wmin band_pos ltac:(lia) x y Hxy) as [M _].
  pose proof (bpow_gt_0 radix2 (-720)) as T0.
  assert (U : 0 < u64) by (unfold u64; lra).
  assert (C1 : 33554432 * u64 * r x <= 33554432 * u64 * r y) by (apply Rmult_le_compat_l; lra).
  assert (C2 : 33554432 * u64 * r y <= / 1000000 * r y) by (apply Rmult_le_compat_r; [|unfold u64]; lra).
  assert (C3 : 0 <= u64 * r y) by (apply Rmult_le_pos; lra).
  pose proof (rnd64_err (y - rf y)) as EA. pose proof (rnd64_err (x + rf x)) as EB.
  assert (T : bpow radix2 (-1075) <= / 4 * u64 * r y).
  { apply Rle_trans with (/ 4 * u64 * bpow radix2 (-720)).
    - replace (/ 4 * u64) with (bpow radix2 (-55)) by (cbn; unfold u64; lra). rewrite <- bpow_plus. apply bpow_le. lia.
    - apply Rmult_le_compat_l; lra. }
  apply Rabs_le_inv in Ex, Ey.
  assert (A1 : u64 * Rabs (y - rf y) <= u64 * (y + 3 / 2 * r y)) by (apply Rmult_le_compat_l; [lra|apply Rabs_le; lra]).
  assert (A2 : u64 * Rabs (x + rf x) <= u64 * (y + 3 / 2 * r y)) by (apply Rmult_le_compat_l; [lra|apply Rabs_le; lra]).
  apply Rabs_le_inv in EA, EB.
  assert (SL : slack y (r y) = 134217728 * u64 * r y + 2 * u64 * y) by (unfold slack, u64; lra).
  set (A := rnd64 (y - rf y)) in *. set (B := rnd64 (x + rf x)) in *.
  assert (FA : generic_format radix2 (FLT_exp (-1074) 53) A) by apply rnd64_F.
  assert (FB : generic_format radix2 (FLT_exp (-1074) 53) B) by apply rnd64_F.
  unfold far. clear far. rewrite rnd64_0. split; intros H.
  - revert H. case Rlt_bool_spec; [discriminate|]. intros H _.
    assert (A <= B).
    { destruct (Rle_lt_dec A B) as [L|L]; auto. exfalso.
      assert (Z : rnd64 (A + - B) <> 0).
      { apply round_plus_neq_0; [now apply FLT_exp_valid|typeclasses eauto|apply valid_rnd_N|exact FA|now apply generic_format_opp|lra]. }
      pose proof (rnd64_nonneg (A - B) ltac:(lra)). apply Z. unfold Rminus in *. lra. }
    lra.
  - revert H. case Rlt_bool_spec; [|discriminate]. intros H _.
    assert (B < A).
    { destruct (Rle_lt_dec A B) as [L|L]; auto. exfalso.
      pose proof (rnd64_le (A - B) 0 ltac:(lra)). rewrite rnd64_0 in H0. lra. }
    lra.
Qed.
End Gap.

Lemma sorted_last (l : list R) : StronglySorted Rlt l -> forall y, In y l -> y <= last l 0.
Proof.
  induction l as [|a [|b l] IH]; intros HS y Hy; [easy| |].
  - destruct Hy as [<-|[]]. cbn. lra.
  - inversion HS as [|? ? HS' F]; subst. specialize (IH HS').
    change (last (a :: b :: l) 0) with (last (b :: l) 0).
    destruct Hy as [<-|Hy]; [|now apply IH].
    rewrite Forall_forall in F. apply Rlt_le. eapply Rlt_le_trans; [apply (F b); now left|]. apply IH. now left.
Qed.

Lemma map_split {A B} (f : A -> B) l l1 a b l2 : map f l = l1 ++ a :: b :: l2 ->
  exists k1 i j k2, l = k1 ++ i :: j :: k2 /\ f i = a /\ f j = b.
Proof.
  revert l1. induction l as [|x l IH]; intros l1 E; [destruct l1; discriminate|].
  destruct l1 as [|c l1].
  - destruct l as [|y l]; [discriminate|]. injection E as E1 E2 _. exists [], x, y, l. auto.
  - injection E as _ E. destruct (IH l1 E) as (k1 & i & j & k2 & -> & H). exists (x :: k1), i, j, k2. auto.
Qed.

(** C139.  The trials selected in floating point, from double trial DMs, miss nothing that a trial
    in the range would cover by more than a rounding error, and no step between two selected
    trials could be lengthened without leaving a gap, up to a rounding error. *)
Theorem select_dms_float :
  forall (bld : build) (trial_dms : list R) (dm_start dm_end fmin fmax : R) (nchans : Z) (wmin : R),
  NoDup trial_dms -> (forall d, In d trial_dms -> double d /\ 0 <= d) ->
  bpow radix2 (-100) <= fmin <= bpow radix2 100 -> 17 / 16 * fmin <= fmax <= 4 * fmin ->
  (1 <= nchans <= 16384)%Z -> bpow radix2 (-500) <= wmin ->
  let avail := in_range trial_dms dm_start dm_end in
  let good := tolerable fmin fmax nchans wmin in
  ((forall d, ~ avail d) -> select_dms (numF bld) trial_dms dm_start dm_end fmin fmax nchans wmin = Err ValueError) /\
  ((exists d, avail d) -> exists sel : list R,
     select_dms (numF bld) trial_dms dm_start dm_end fmin fmax nchans wmin = Ok sel /\
     StronglySorted Rlt sel /\ (forall d, In d sel -> avail d) /\
     (forall d, avail d -> hd 0 sel <= d <= last sel 0) /\
     (forall d x, avail d -> good d x -> exists s y, In s sel /\ good s y /\
        Rabs (x - y) <= / 67108864 * Rabs (y - s) + / 4503599627370496 * s) /\
     (forall l1 a b l2, sel = l1 ++ a :: b :: l2 -> forall d x y, avail d -> b < d -> good a x -> good d y ->
        x - y <= / 33554432 * (d - a) + / 2251799813685248 * d)).
Proof.
  intros bld trial_dms dm_start dm_end fmin fmax nchans wmin ND DBL HF HB HN HW avail good.
  pose proof (band_pos fmin fmax HF HB) as HP.
  assert (HW0 : 0 < wmin) by (pose proof (bpow_gt_0 radix2 (-500)); lra).
  assert (HN1 : (1 <= nchans)%Z) by lia.
  unfold select_dms. cbn [numF n_leb n_ltb]. change (n_T (numF bld)) with R in *.
  set (keep := filter (fun d => (Rle_bool dm_start d && Rle_bool d dm_end)%bool) trial_dms).
  assert (KI : forall d, In d keep <-> avail d).
  { intros d. unfold keep, avail, in_range. rewrite filter_In, andb_true_iff.
    destruct (Rle_bool_spec dm_start d), (Rle_bool_spec d dm_end); intuition (try discriminate; try lra). }
  set (dms := sorted_asc Rlt_bool keep).
  assert (PD : Permutation keep dms) by apply (sorted_asc_perm (fun x : R => x)).
  assert (DI : forall d, In d dms <-> avail d).
  { intros d. rewrite <- KI. split; apply Permutation_in; [now symmetry|auto]. }
  assert (SD : StronglySorted Rlt dms).
  { apply sorted_strict; [|apply (sorted_asc_sorted (fun x : R => x))].
    eapply Permutation_NoDup; [exact PD|]. now apply NoDup_filter. }
  split.
  { intros NA. destruct dms as [|d l]; [reflexivity|]. exfalso. apply (NA d), DI. now left. }
  intros (d' & Hd'). apply DI in Hd'.
  destruct dms as [|d0 dl] eqn:ED; [destruct Hd'|]. rewrite <- ED in *. clear d' Hd'.
  set (r := dm_radius numR fmin fmax nchans wmin). set (radii := map (dm_radius (numF bld) fmin fmax nchans wmin) dms).
  set (n := length dms). assert (Hn : (0 < n)%nat) by (unfold n; rewrite ED; cbn; lia).
  set (f := fun k => nth k dms 0).
  assert (NR : forall i, (i < n)%nat -> nth i radii 0 = dm_radius (numF bld) fmin fmax nchans wmin (f i)).
  { intros i Hi. unfold radii. rewrite nth_indep with (d' := dm_radius (numF bld) fmin fmax nchans wmin 0) by now rewrite map_length.
    apply map_nth. }
  assert (P0 : forall i, (i < n)%nat -> double (f i) /\ 0 <= f i).
  { intros i Hi. apply DBL. apply (nth_In _ 0) in Hi. apply DI in Hi. apply Hi. }
  assert (NS : forall i j, (i < j < n)%nat -> f i < f j) by (now apply sorted_nth).
  assert (NL : forall i j, (i <= j < n)%nat -> f i <= f j).
  { intros i j H. destruct (Nat.eq_dec i j) as [->|]; [lra|]. apply Rlt_le, NS. lia. }
  assert (RM : forall i j, (i <= j < n)%nat -> r (f i) <= r (f j) /\ r (f j) - r (f i) <= f j - f i).
  { intros i j H. apply radius_mono; auto. split; [apply P0; lia|now apply NL]. }
  assert (RP : forall d, 0 < r d) by (intros d; now apply radius_pos).
  assert (GAP : forall i j, (i < n)%nat -> (j < n)%nat ->
    n_ltb (o_ofZ n_dbl 0) (dm_gap (numF bld) dms radii i j) =
    Rlt_bool (rnd64 0) (rnd64 (rnd64 (f j - dm_radius (numF bld) fmin fmax nchans wmin (f j)) -
                              rnd64 (f i + dm_radius (numF bld) fmin fmax nchans wmin (f i))))).
  { intros i j Hi Hj. unfold dm_gap. cbn [numF opsF n_dbl o_ofZ o_sub o_add n_ltb]. rewrite rnd64_0.
    rewrite (NR i Hi), (NR j Hj). reflexivity. }
  assert (SELF : forall i, (i < n)%nat -> n_ltb (o_ofZ n_dbl 0) (dm_gap (numF bld) dms radii i i) = false).
  { intros i Hi. rewrite GAP by auto. rewrite rnd64_0. apply Rlt_bool_false.
    rewrite <- rnd64_0. apply rnd64_le.
    destruct (r_err bld fmin fmax nchans wmin HF HB HN HW (f i)) as [E1 E2]; [apply P0; auto|].
    fold r in E1, E2. apply Rabs_le_inv in E1. pose proof (RP (f i)).
    assert (33554432 * u64 * r (f i) <= / 2 * r (f i)) by (apply Rmult_le_compat_r; [|unfold u64]; lra).
    match goal with |- rnd64 ?a - rnd64 ?b <= 0 => pose proof (rnd64_le a b ltac:(lra)) end. lra. }
  assert (TO : forall i x, (i < n)%nat -> (good (f i) x <-> f i - r (f i) <= x <= f i + r (f i))).
  { intros i x Hi. unfold good. rewrite tolerable_radius by auto. fold r.
    split; intros H; [apply Rabs_le_inv in H; lra|apply Rabs_le; lra]. }
  assert (IX : forall d, In d dms -> exists i, (i < n)%nat /\ f i = d).
  { intros d Hd. apply (In_nth _ _ 0) in Hd. destruct Hd as (i & ? & ?). eauto. }
  assert (Hf : (n - 0 < Datatypes.S n)%nat) by lia.
  destruct (select_loop_steps (numF bld) dms radii SELF (Datatypes.S n) 0 Hn Hf) as (p & EP & W).
  change (map (dm_radius (numF bld) fmin fmax nchans wmin) dms) with radii.
  match goal with |- context [select_loop ?a ?b ?c ?d ?e] =>
    change (select_loop a b c d e) with (select_loop (numF bld) dms radii (Datatypes.S n) 0) end.
  assert (EP' : select_loop (numF bld) dms radii (Datatypes.S n) 0 = Ok (map f p))
    by (etransitivity; [exact EP|]; f_equal; apply map_ext; intros k; unfold f; cbn; now rewrite rnd64_0).
  change (n_T (numF bld)) with R in *. rewrite EP'. cbn [bind].
  assert (E0 : d0 = f 0%nat) by (unfold f; rewrite ED; reflexivity).
  assert (WB : forall k, In k (0%nat :: p) -> (k < n)%nat).
  { intros k [<-|Hk]; auto. apply (steps_bounds (numF bld) dms radii p 0 Hn W k Hk). }
  assert (ES : d0 :: map f p = map f (0%nat :: p)) by (cbn; now rewrite E0).
  exists (d0 :: map f p). rewrite ES. split; [reflexivity|].
  assert (INC : StronglySorted Rlt (map f (0%nat :: p))).
  { pose proof (steps_sorted (numF bld) dms radii p 0 Hn W) as SS.
    clear - SS WB NS. induction SS as [|a l S IH F]; cbn; constructor.
    - apply IH. intros k Hk. apply WB. now right.
    - apply Forall_forall. intros y Hy. apply in_map_iff in Hy as (k & <- & Hk).
      rewrite Forall_forall in F. apply NS. split; [now apply F|]. apply WB. now right. }
  split; [exact INC|]. split.
  { intros d Hd. apply in_map_iff in Hd as (k & <- & Hk). apply DI. apply nth_In. now apply WB. }
  split.
  { intros d Hd. apply DI in Hd. destruct (IX d Hd) as (i & Hi & <-). split.
    - cbn [map hd]. apply NL. lia.
    - assert (In (f (n - 1)%nat) (map f (0%nat :: p))) by (apply in_map, (steps_last (numF bld) dms radii p 0 W)).
      pose proof (sorted_last _ INC _ H). eapply Rle_trans; [|exact H0]. apply NL. lia. }
  assert (SL : forall i j, (i <= j < n)%nat -> 0 <= slack (f i) (r (f i)) <= slack (f j) (r (f j))).
  { intros i j H. destruct (RM i j H). pose proof (NL i j H). pose proof (proj2 (P0 i ltac:(lia))). pose proof (RP (f i)).
    unfold slack. split; lra. }
  split.
  - intros d x Hd T. apply DI in Hd. destruct (IX d Hd) as (k & Hk & <-). pose proof T as T'. apply TO in T'; auto.
    assert (H0k : (0 <= k < n)%nat) by lia.
    destruct (steps_between (numF bld) dms radii p 0 W k H0k) as [H|(a & b & Ha & Hb & B & Bn & F)].
    + exists (f k), x. split; [now apply in_map|]. split; [exact T|].
      replace (x - x) with 0 by ring. rewrite Rabs_R0. pose proof (Rabs_pos (x - f k)). pose proof (proj2 (P0 k Hk)). lra.
    + change (b < n)%nat in Bn. rewrite GAP in F by lia.
      assert (Pa : (a < n)%nat) by lia.
      destruct (far_F bld fmin fmax nchans wmin HF HB HN HW (f a) (f b)) as [FF _];
        [now apply P0|now apply P0|split; [now apply P0|apply NL; lia]|].
      specialize (FF F). fold r in FF.
      destruct (RM a k ltac:(lia)) as [_ Rak]. destruct (RM k b ltac:(lia)) as [Rkb _]. pose proof (NL k b ltac:(lia)).
      pose proof (Rabs_pos (x - f a)). pose proof (Rabs_pos (x - f b)).
      pose proof (proj2 (P0 a ltac:(lia))). pose proof (proj2 (P0 b ltac:(lia))).
      destruct (Rle_lt_dec x (f a + r (f a))) as [L1|L1].
      { exists (f a), x. split; [now apply in_map|]. split; [apply TO; auto; lra|].
        replace (x - x) with 0 by ring. rewrite Rabs_R0. lra. }
      destruct (Rle_lt_dec (f b - r (f b)) x) as [L2|L2].
      { exists (f b), x. split; [now apply in_map|]. split; [apply TO; auto; lra|].
        replace (x - x) with 0 by ring. rewrite Rabs_R0. lra. }
      exists (f b), (f b - r (f b)). split; [now apply in_map|]. pose proof (RP (f b)). split; [apply TO; auto; lra|].
      replace (f b - r (f b) - f b) with (- r (f b)) by ring. rewrite Rabs_Ropp, (Rabs_pos_eq (r (f b))) by lra.
      fold (slack (f b) (r (f b))). apply Rabs_le. pose proof (SL b b ltac:(lia)). lra.
  - intros l1 a' b' l2 E d x y Hd Hlt Ta Td. apply DI in Hd. destruct (IX d Hd) as (c & Hc & <-).
    destruct (map_split f _ _ _ _ _ E) as (k1 & a & b & k2 & EL & <- & <-).
    assert (Ba : (a < n)%nat) by (apply WB; rewrite EL; apply in_elt).
    assert (Bb : (b < n)%nat) by (apply WB; rewrite EL; apply in_or_app; right; right; now left).
    assert (BC : (b < c)%nat).
    { destruct (Nat.le_gt_cases c b) as [C|C]; auto. pose proof (NL c b ltac:(lia)). lra. }
    destruct (steps_far (numF bld) dms radii p 0 W k1 a b k2 EL) as [H|(k & B1 & B2 & F)]; [change (Datatypes.S b = n) in H; lia|]. change (k < n)%nat in B2.
    rewrite GAP in F by auto.
    destruct (far_F bld fmin fmax nchans wmin HF HB HN HW (f a) (f k)) as [_ FF];
      [now apply P0|now apply P0|split; [now apply P0|apply NL; split; [lia|exact B2]]|].
    specialize (FF F). fold r in FF. apply TO in Ta, Td; auto.
    destruct (RM k c ltac:(lia)) as [_ Rkc]. pose proof (SL k c ltac:(lia)) as S1. pose proof (RP (f a)). pose proof (RP (f c)).
    pose proof (proj2 (P0 c Hc)). unfold slack in *. lra.
Qed.
Print Assumptions select_dms_float.

(** concrete data: DMs 0, 1, 2, 500, a band of 1024 channels from 1182 to 1582 MHz, pulses of 1 ms *)
Example select_dms_float_used :
  NoDup [500; 0; 2; 1] /\ (forall d, In d [500; 0; 2; 1] -> double d /\ 0 <= d) /\
  bpow radix2 (-100) <= 1182 <= bpow radix2 100 /\ 17 / 16 * 1182 <= 1582 <= 4 * 1182 /\
  bpow radix2 (-500) <= / 1024 /\ in_range [500; 0; 2; 1] 0 100 2 /\ ~ in_range [500; 0; 2; 1] 0 100 500.
Proof.
  split; [repeat constructor; cbn; intuition lra|]. split.
  { intros d H. assert (D : forall z, (Z.abs z < 2 ^ 53)%Z -> double (IZR z)) by (intros z Hz; now apply F64_int).
    cbn in H. destruct H as [<-|[<-|[<-|[<-|[]]]]]; (split; [apply D; lia|lra]). }
  split.
  { split; [apply Rle_trans with (bpow radix2 0); [apply bpow_le; lia|cbn; lra]|].
    apply Rle_trans with (bpow radix2 20); [cbn; lra|apply bpow_le; lia]. }
  split; [lra|]. split; [apply Rle_trans with (bpow radix2 (-10)); [apply bpow_le; lia|cbn; lra]|].
  split; [split; [cbn; intuition lra|lra]|]. intros [_ H]. lra.
Qed.
