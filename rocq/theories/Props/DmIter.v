(** C41-C44: selection of trial DMs and iteration over the files. *)
From Coq Require Import String List Arith ZArith Bool Lia Reals Lra Sorted Permutation.
From Flocq Require Import Core.
From Verif Require Import Base.Result Base.Num Model.Cluster Model.Peaks Model.DmIter Spec.Smearing
  Proof.Cluster Proof.DmIter Props.Cluster.
Import ListNotations.
Local Open Scope R_scope.

Section Radius.
Context (fmin fmax : R) (nchans : Z) (wmin : R).
Context (HF : 0 < fmin < fmax) (HN : (1 <= nchans)%Z) (HW : 0 < wmin).
Let cw := (fmax - fmin) / IZR nchans.
Let mid := (fmin + fmax) / 2.
Let K := / (241 / 1000000).
Let kd := K * (/ fmin ^ 2 - / fmax ^ 2).
Let ks := K * (/ (mid - cw / 2) ^ 2 - / (mid + cw / 2) ^ 2).

Lemma inv2_lt a b : 0 < a < b -> / b ^ 2 < / a ^ 2.
Proof. intros H. apply Rinv_lt_contravar; [|nra]. apply Rmult_lt_0_compat; nra. Qed.

Lemma inv2_le a b : 0 < a <= b -> / b ^ 2 <= / a ^ 2.
Proof. intros [H1 [H2| ->]]; [|lra]. apply Rlt_le, inv2_lt. lra. Qed.

Lemma Kpos : 0 < K. Proof. unfold K. apply Rinv_0_lt_compat. lra. Qed.

Lemma cw_bounds : 0 < cw <= fmax - fmin.
Proof.
  assert (1 <= IZR nchans) by (apply IZR_le; lia). unfold cw. split.
  - apply Rdiv_lt_0_compat; lra.
  - apply Rmult_le_reg_r with (IZR nchans); [lra|]. unfold Rdiv. rewrite Rmult_assoc, Rinv_l by lra. nra.
Qed.

Lemma kd_pos : 0 < kd.
Proof. unfold kd. apply Rmult_lt_0_compat; [apply Kpos|]. pose proof (inv2_lt fmin fmax HF). lra. Qed.

Lemma ks_bounds : 0 < ks <= kd.
Proof.
  pose proof cw_bounds. pose proof Kpos. unfold ks, kd.
  assert (0 < mid - cw / 2 < mid + cw / 2) by (unfold mid; lra).
  pose proof (inv2_lt _ _ H1).
  pose proof (inv2_le fmin (mid - cw / 2) ltac:(unfold mid; lra)).
  pose proof (inv2_le (mid + cw / 2) fmax ltac:(unfold mid in *; lra)).
  split; [apply Rmult_lt_0_compat; lra|]. apply Rmult_le_compat_l; lra.
Qed.

Lemma ks_strict : (2 <= nchans)%Z -> ks < kd.
Proof.
  intros H2. pose proof cw_bounds. pose proof Kpos. unfold ks, kd.
  assert (cw < fmax - fmin).
  { assert (2 <= IZR nchans) by (apply IZR_le; lia). unfold cw.
    apply Rmult_lt_reg_r with (IZR nchans); [lra|]. unfold Rdiv. rewrite Rmult_assoc, Rinv_l by lra. nra. }
  pose proof (inv2_lt fmin (mid - cw / 2) ltac:(unfold mid; lra)).
  pose proof (inv2_lt (mid + cw / 2) fmax ltac:(unfold mid; lra)).
  apply Rmult_lt_compat_l; lra.
Qed.

Lemma radius_R d : dm_radius numR fmin fmax nchans wmin d = Rmax wmin (ks * d) / kd.
Proof.
  pose proof cw_bounds.
  unfold dm_radius, KDM, inv2, nmax2. rsimp.
  assert (E1 : 1 / (241 / 1000000) * (1 / (fmin * fmin) - 1 / (fmax * fmax)) = kd).
  { unfold kd, K. field. lra. }
  rewrite E1. fold cw.
  assert (E2 : 1 / (241 / 1000000) *
     (1 / (((fmax + fmin) / 2 - cw / 2) * ((fmax + fmin) / 2 - cw / 2)) -
      1 / (((fmax + fmin) / 2 + cw / 2) * ((fmax + fmin) / 2 + cw / 2))) = ks).
  { unfold ks, K, mid. rewrite (Rplus_comm fmax fmin). field. repeat split; lra. }
  rewrite E2. f_equal. destruct (Rlt_bool_spec wmin (ks * d)).
  - rewrite Rmax_right; lra.
  - rewrite Rmax_left; lra.
Qed.

Lemma radius_pos d : 0 < dm_radius numR fmin fmax nchans wmin d.
Proof.
  rewrite radius_R. apply Rdiv_lt_0_compat; [|apply kd_pos]. eapply Rlt_le_trans; [exact HW|apply Rmax_l].
Qed.

(** the radius is the largest tolerable DM error *)
Lemma tolerable_radius d x :
  tolerable fmin fmax nchans wmin d x <-> Rabs (x - d) <= dm_radius numR fmin fmax nchans wmin d.
Proof.
  rewrite radius_R. unfold tolerable, smearing, delay. fold cw. fold mid.
  replace (d / (241 / 1000000) * (/ (mid - cw / 2) ^ 2 - / (mid + cw / 2) ^ 2)) with (ks * d)
    by (unfold ks, K; field; lra || (pose proof cw_bounds; unfold mid in *; repeat split; lra)).
  replace (Rabs (x - d) / (241 / 1000000) * (/ fmin ^ 2 - / fmax ^ 2)) with (Rabs (x - d) * kd)
    by (unfold kd, K; field; lra).
  pose proof kd_pos. split; intros H1.
  - apply Rmult_le_reg_r with kd; auto. unfold Rdiv. rewrite Rmult_assoc, Rinv_l by lra. lra.
  - apply (Rmult_le_compat_r kd) in H1; [|lra]. unfold Rdiv in H1. rewrite Rmult_assoc, Rinv_l in H1 by lra. lra.
Qed.

Lemma radius_mono a b : 0 <= a <= b ->
  let r := dm_radius numR fmin fmax nchans wmin in r a <= r b /\ r b - r a <= b - a.
Proof.
  intros H r. unfold r. rewrite !radius_R. pose proof kd_pos. pose proof ks_bounds.
  assert (ks * a <= ks * b) by nra.
  assert (M : Rmax wmin (ks * a) <= Rmax wmin (ks * b) <= Rmax wmin (ks * a) + kd * (b - a)).
  { unfold Rmax. destruct (Rle_dec wmin (ks * a)), (Rle_dec wmin (ks * b)); split; nra. }
  split.
  - apply Rmult_le_compat_r; [apply Rlt_le, Rinv_0_lt_compat; lra|lra].
  - apply Rmult_le_reg_r with kd; auto. rewrite Rmult_minus_distr_r.
    unfold Rdiv. rewrite !Rmult_assoc, Rinv_l by lra. nra.
Qed.

Lemma radius_mono_strict a b : (2 <= nchans)%Z -> 0 <= a < b ->
  let r := dm_radius numR fmin fmax nchans wmin in r b - r a < b - a.
Proof.
  intros H2 H r. unfold r. rewrite !radius_R. pose proof kd_pos. pose proof ks_bounds. pose proof (ks_strict H2).
  assert (M : Rmax wmin (ks * b) < Rmax wmin (ks * a) + kd * (b - a)).
  { unfold Rmax. destruct (Rle_dec wmin (ks * a)), (Rle_dec wmin (ks * b)); nra. }
  apply Rmult_lt_reg_r with kd; auto. rewrite Rmult_minus_distr_r.
  unfold Rdiv. rewrite !Rmult_assoc, Rinv_l by lra. nra.
Qed.
End Radius.

Lemma sorted_nth (l : list R) : StronglySorted Rlt l -> forall i j, (i < j < length l)%nat -> nth i l 0 < nth j l 0.
Proof.
  induction 1 as [|a l S IH F]; intros i j Hij; [cbn in Hij; lia|].
  cbn [length] in Hij. destruct j as [|j]; [lia|]. destruct i as [|i]; cbn [nth].
  - rewrite Forall_forall in F. apply F, nth_In. lia.
  - apply IH. lia.
Qed.

Lemma sorted_strict (l : list R) : NoDup l -> StronglySorted Rle l -> StronglySorted Rlt l.
Proof.
  intros ND S. induction S as [|a l S IH F]; constructor; inversion ND; subst; auto.
  rewrite Forall_forall in *. intros b Hb. destruct (F b Hb); auto. subst. contradiction.
Qed.

(** the trial DMs between [dm_start] and [dm_end] *)
Definition in_range (trial_dms : list R) (dm_start dm_end d : R) : Prop :=
  In d trial_dms /\ dm_start <= d <= dm_end.

(** C41, C42.  The selection covers everything all the trials in the range cover, and with two or
    more channels no other selection doing so is shorter. *)
Theorem select_dms_correct :
  forall (trial_dms : list R) (dm_start dm_end fmin fmax : R) (nchans : Z) (wmin : R),
  NoDup trial_dms -> (forall d, In d trial_dms -> 0 <= d) ->
  0 < fmin < fmax -> (1 <= nchans)%Z -> 0 < wmin ->
  let avail := in_range trial_dms dm_start dm_end in
  let covers l := covered fmin fmax nchans wmin l in
  ((forall d, ~ avail d) -> select_dms numR trial_dms dm_start dm_end fmin fmax nchans wmin = Err ValueError) /\
  ((exists d, avail d) -> exists sel : list R,
     select_dms numR trial_dms dm_start dm_end fmin fmax nchans wmin = Ok sel /\
     StronglySorted Rlt sel /\ (forall d, In d sel -> avail d) /\
     (forall d, avail d -> hd 0 sel <= d <= last sel 0) /\
     (forall d x, avail d -> tolerable fmin fmax nchans wmin d x -> covers sel x) /\
     ((2 <= nchans)%Z -> forall other, (forall d, In d other -> avail d) ->
        (forall d x, avail d -> tolerable fmin fmax nchans wmin d x -> covers other x) ->
        (length sel <= length other)%nat)).
Proof.
  intros trial_dms dm_start dm_end fmin fmax nchans wmin ND POS HF HN HW avail covers.
  unfold select_dms. rsimp.
  set (keep := filter (fun d => (Rle_bool dm_start d && Rle_bool d dm_end)%bool) trial_dms).
  assert (KI : forall d, In d keep <-> avail d).
  { intros d. unfold keep, avail, in_range. rewrite filter_In, andb_true_iff.
    destruct (Rle_bool_spec dm_start d), (Rle_bool_spec d dm_end); intuition (try discriminate; try lra). }
  set (dms := sorted_asc Rlt_bool keep).
  assert (PD : Permutation keep dms) by apply (sorted_asc_perm (fun x : R => x)).
  assert (DI : forall d, In d dms <-> avail d).
  { intros d. rewrite <- KI. split; apply Permutation_in; [now symmetry|auto]. }
  assert (SD : StronglySorted Rlt dms).
  { apply sorted_strict; [|apply (sorted_asc_sorted (fun x : R => x))].
    eapply Permutation_NoDup; [exact PD|]. now apply NoDup_filter. }
  split.
  { intros NA. destruct dms as [|d l]; [reflexivity|]. exfalso. apply (NA d), DI. now left. }
  intros (d' & Hd'). apply DI in Hd'.
  destruct dms as [|d0 dl] eqn:ED; [destruct Hd'|]. rewrite <- ED in *. clear d' Hd'.
  set (r := dm_radius numR fmin fmax nchans wmin). set (radii := map r dms).
  set (n := length dms). assert (Hn : (0 < n)%nat) by (unfold n; rewrite ED; cbn; lia).
  assert (NR : forall i, (i < n)%nat -> nth i radii 0 = r (nth i dms 0)).
  { intros i Hi. unfold radii. rewrite nth_indep with (d' := r 0) by now rewrite map_length. apply map_nth. }
  assert (P0 : forall i, (i < n)%nat -> 0 <= nth i dms 0).
  { intros i Hi. apply POS. apply (nth_In _ 0) in Hi. apply DI in Hi. apply Hi. }
  assert (NS : forall i j, (i < j < n)%nat -> nth i dms 0 < nth j dms 0) by (now apply sorted_nth).
  assert (R0 : forall i, (i < n)%nat -> 0 < nth i radii 0).
  { intros i Hi. rewrite NR by auto. now apply radius_pos. }
  assert (LO : forall i j, (i <= j < n)%nat -> lo dms radii i <= lo dms radii j).
  { intros i j Hij. destruct (Nat.eq_dec i j) as [->|Ne]; [lra|]. unfold lo. rewrite !NR by lia.
    pose proof (NS i j ltac:(lia)). pose proof (P0 i ltac:(lia)).
    destruct (radius_mono fmin fmax nchans wmin HF HN (nth i dms 0) (nth j dms 0)) as [_ M]; [lra|].
    fold r in M. lra. }
  assert (HI : forall i j, (i < j < n)%nat -> hi dms radii i < hi dms radii j).
  { intros i j Hij. unfold hi. rewrite !NR by lia.
    pose proof (NS i j ltac:(lia)). pose proof (P0 i ltac:(lia)).
    destruct (radius_mono fmin fmax nchans wmin HF HN (nth i dms 0) (nth j dms 0)) as [M _]; [lra|].
    fold r in M. lra. }
  assert (TO : forall i x, (i < n)%nat ->
    (tolerable fmin fmax nchans wmin (nth i dms 0) x <-> lo dms radii i <= x <= hi dms radii i)).
  { intros i x Hi. rewrite tolerable_radius by auto. fold r. unfold lo, hi. rewrite !NR by auto.
    split; intros H; [apply Rabs_le_inv in H; lra|apply Rabs_le; lra]. }
  assert (IX : forall d, In d dms -> exists i, (i < n)%nat /\ nth i dms 0 = d).
  { intros d Hd. apply (In_nth _ _ 0) in Hd. destruct Hd as (i & ? & ?). eauto. }
  destruct (select_loop_walk dms radii R0 LO (Datatypes.S n) 0 Hn ltac:(lia)) as (p & EP & W).
  fold n. fold r. numR_ty. unfold radii in EP. numR_ty. rewrite EP. cbn [bind].
  set (f := fun k => nth k dms 0) in *.
  assert (E0 : d0 = f 0%nat) by (unfold f; rewrite ED; reflexivity).
  assert (WB : forall k, In k (0%nat :: p) -> (k < n)%nat).
  { intros k [<-|Hk]; auto. apply (walk_bounds _ _ p 0 Hn W k Hk). }
  assert (ES : d0 :: map f p = map f (0%nat :: p)) by (cbn; now rewrite E0).
  exists (d0 :: map f p). rewrite ES. split; [reflexivity|].
  assert (INC : StronglySorted Rlt (map f (0%nat :: p))).
  { pose proof (walk_sorted _ _ p 0 Hn W) as SS.
    clear - SS WB NS. induction SS as [|a l S IH F]; cbn; constructor.
    - apply IH. intros k Hk. apply WB. now right.
    - apply Forall_forall. intros y Hy. apply in_map_iff in Hy as (k & <- & Hk).
      rewrite Forall_forall in F. apply NS. split; [now apply F|]. apply WB. now right. }
  split; [exact INC|]. split.
  { intros d Hd. apply in_map_iff in Hd as (k & <- & Hk). apply DI. apply nth_In. now apply WB. }
  split.
  { intros d Hd. apply DI in Hd. destruct (IX d Hd) as (i & Hi & <-). split.
    - cbn [map hd]. unfold f. destruct (Nat.eq_dec i 0) as [->|Ne]; [lra|]. apply Rlt_le, NS. lia.
    - assert (LM : forall l : list R, l <> [] -> StronglySorted Rlt l -> forall y, In y l -> y <= last l 0).
      { clear. induction l as [|a [|b l] IH]; intros Hne HS y Hy; [easy| |].
        - destruct Hy as [<-|[]]. cbn. lra.
        - inversion HS as [|? ? HS' F]; subst. specialize (IH ltac:(discriminate) HS').
          change (last (a :: b :: l) 0) with (last (b :: l) 0).
          destruct Hy as [<-|Hy]; [|now apply IH].
          rewrite Forall_forall in F. apply Rlt_le. eapply Rlt_le_trans; [apply (F b); now left|]. apply IH. now left. }
      assert (In (f (n - 1)%nat) (map f (0%nat :: p))) by (apply in_map, (walk_last dms radii p 0 W)).
      specialize (LM (map f (0%nat :: p)) ltac:(discriminate) INC _ H). eapply Rle_trans; [|exact LM]. unfold f.
      destruct (Nat.eq_dec i (n - 1)) as [->|Ne]; [lra|]. apply Rlt_le, NS. lia. }
  split.
  { intros d x Hd T. apply DI in Hd. destruct (IX d Hd) as (i & Hi & <-). apply TO in T; auto.
    destruct (walk_covers dms radii LO HI p 0 W i ltac:(fold n; lia) x T) as (s & Hs & B).
    exists (f s). split; [now apply in_map|]. apply TO; auto. }
  intros N2 other OA OC.
  set (sel := fun i => (i < n)%nat /\ In (f i) other).
  assert (LOS : forall i j, (i < j < n)%nat -> lo dms radii i < lo dms radii j).
  { intros i j Hij. unfold lo. rewrite !NR by lia.
    pose proof (NS i j ltac:(lia)). pose proof (P0 i ltac:(lia)).
    pose proof (radius_mono_strict fmin fmax nchans wmin HF HN (nth i dms 0) (nth j dms 0) N2 ltac:(lra)) as M.
    cbv zeta in M. fold r in M. lra. }
  assert (SB : forall s, sel s -> (s < n)%nat) by (intros s [H _]; exact H).
  assert (CV : forall k x, (k < n)%nat -> lo dms radii k <= x <= hi dms radii k ->
     exists s, sel s /\ lo dms radii s <= x <= hi dms radii s).
  { intros k x Hk Hx. destruct (OC (f k) x) as (d & Hd & T).
    - apply DI. now apply nth_In.
    - apply TO; auto.
    - destruct (IX d) as (s & Hs & E); [apply DI, OA; auto|]. exists s. subst d. split; [split; auto|].
      apply TO; auto. }
  destruct (walk_hits dms radii R0 LO HI LOS sel SB CV p 0 Hn W) as (T & LT & NT & HT).
  pose proof (first_hit dms radii R0 LOS sel SB CV Hn) as H0.
  assert (INJ : NoDup (map f (0%nat :: T))).
  { assert (NT0 : NoDup (0%nat :: T)). { constructor; auto. intros C. apply HT in C. lia. }
    assert (BT : forall k, In k (0%nat :: T) -> (k < n)%nat).
    { intros k [<-|Hk]; auto. apply HT in Hk as [[? _] _]. auto. }
    clear - NT0 BT NS. induction NT0 as [|a l NI ND IH]; cbn; constructor.
    - intros C. apply in_map_iff in C as (k & E & Hk). unfold f in E.
      assert (a <> k) by (intros ->; contradiction).
      pose proof (BT a ltac:(now left)). pose proof (BT k ltac:(now right)).
      destruct (Nat.lt_ge_cases a k); [pose proof (NS a k ltac:(lia))|pose proof (NS k a ltac:(lia))]; lra.
    - apply IH. intros k Hk. apply BT. now right. }
  assert (LL : (length (map f (0%nat :: T)) <= length other)%nat).
  { apply NoDup_incl_length; auto. intros y Hy. apply in_map_iff in Hy as (k & <- & [<-|Hk]); [apply H0|].
    apply HT in Hk as [[_ ?] _]. auto. }
  rewrite map_length in *. cbn [length] in *. lia.
Qed.
Print Assumptions select_dms_correct.

(** concrete data: DMs 0, 1, 2, 3, band 1000-1500 MHz *)
Example select_dms_correct_used :
  NoDup [3; 0; 2; 1] /\ (forall d, In d [3; 0; 2; 1] -> 0 <= d) /\ in_range [3; 0; 2; 1] 0 (5 / 2) 2.
Proof.
  split; [repeat constructor; cbn; intuition lra|]. split; [cbn; intuition lra|].
  split; [cbn; intuition lra|lra].
Qed.

(** The documentation calls the selection the minimum subset covering the DM range.  As long as
    only the range from the first to the last trial has to be covered that is wrong: among 0, 1
    and 2, trial 1 alone does it, but two trials are selected. *)
Definition ex_wmin : R := delay 1 3 1.

Theorem select_dms_minimum_refuted :
  exists trial_dms sel : list R,
    select_dms numR trial_dms 0 2 1 3 4 ex_wmin = Ok sel /\ length sel = 2%nat /\
    In 1 trial_dms /\ forall x, 0 <= x <= 2 -> covered 1 3 4 ex_wmin [1] x.
Proof.
  assert (W : ex_wmin = 8 / 9 / (241 / 1000000)) by (unfold ex_wmin, delay; field).
  assert (HW : 0 < ex_wmin) by (rewrite W; apply Rdiv_lt_0_compat; lra).
  assert (T1 : forall d, 0 <= d <= 2 -> dm_radius numR 1 3 4 ex_wmin d = 1).
  { intros d Hd. rewrite radius_R by (lra || lia).
    replace (3 - 1) with 2 by lra. replace ((1 + 3) / 2) with 2 by lra. rewrite W.
    numR_ty. rewrite Rmax_left; [field|].
    replace (/ (241 / 1000000) * (/ (2 - 2 / 4 / 2) ^ 2 - / (2 + 2 / 4 / 2) ^ 2) * d)
      with (512 / 3969 * d / (241 / 1000000)) by field.
    unfold Rdiv at 1 4. apply Rmult_le_compat_r; [apply Rlt_le, Rinv_0_lt_compat; lra|lra]. }
  destruct (select_dms_correct [0; 1; 2] 0 2 1 3 4 ex_wmin) as [_ H]; try lra; try lia.
  { repeat constructor; cbn; intuition lra. }
  { cbn. intuition lra. }
  destruct H as (sel & E & SS & IN & EX & CV & MIN).
  { exists 0. split; [cbn; intuition lra|lra]. }
  exists [0; 1; 2], sel. split; [exact E|].
  assert (C0 : forall d x, 0 <= d <= 2 -> (tolerable 1 3 4 ex_wmin d x <-> Rabs (x - d) <= 1)).
  { intros d x Hd. rewrite tolerable_radius by (lra || lia). rewrite T1 by auto. reflexivity. }
  split; [|split; [cbn; intuition lra|]].
  - assert (MI : (length sel <= length [0%R; 2%R])%nat).
    { apply MIN; [lia| |].
      - intros d [<-|[<-|[]]]; (split; [cbn; intuition lra|lra]).
      - intros d x [_ Hd] T. apply C0 in T; auto. apply Rabs_le_inv in T.
        destruct (Rle_lt_dec x 1).
        + exists 0. split; [now left|]. apply C0; [lra|]. apply Rabs_le. lra.
        + exists 2. split; [right; now left|]. apply C0; [lra|]. apply Rabs_le. lra. }
    cbn in MI.
    pose proof (EX 0 ltac:(split; [cbn; intuition lra|lra])) as X0.
    pose proof (EX 2 ltac:(split; [cbn; intuition lra|lra])) as X2.
    destruct sel as [|a [|b [|c l]]]; cbn in *; try lia; lra.
  - intros x Hx. exists 1. split; [now left|]. apply C0; [lra|]. apply Rabs_le. lra.
Qed.
Print Assumptions select_dms_minimum_refuted.

(** ** the files *)
Lemma dict_get_set (k k' : R) (m : meta numR) d :
  dict_get numR k' (dict_set numR k m d) = if Req_bool k k' then Ok m else dict_get numR k' d.
Proof.
  induction d as [|[a v] d IH]; cbn.
  - rsimp. destruct (Req_bool_spec k' k), (Req_bool_spec k k'); auto; congruence.
  - rsimp. destruct (Req_bool_spec k a) as [->|Ne]; cbn; rsimp.
    + destruct (Req_bool_spec k' a) as [->|Ne'].
      * now rewrite Req_bool_true.
      * rewrite Req_bool_false; auto.
    + rewrite IH. destruct (Req_bool_spec k' a) as [->|Ne']; [now rewrite Req_bool_false|]. reflexivity.
Qed.

Lemma dict_keys_set (k k' : R) (m : meta numR) d :
  In k' (map fst (dict_set numR k m d)) <-> k' = k \/ In k' (map fst d).
Proof.
  induction d as [|[a v] d IH]; cbn; [intuition congruence|].
  rsimp. destruct (Req_bool_spec k a) as [->|Ne]; cbn.
  - intuition congruence.
  - rewrite IH. intuition congruence.
Qed.

Lemma dict_nodup_set (k : R) (m : meta numR) d : NoDup (map fst d) -> NoDup (map fst (dict_set numR k m d)).
Proof.
  induction d as [|[a v] d IH]; cbn; intros ND; [repeat constructor; auto|].
  rsimp. inversion ND; subst. destruct (Req_bool_spec k a) as [->|Ne]; cbn.
  - constructor; auto.
  - constructor; [|now apply IH]. rewrite dict_keys_set. intuition congruence.
Qed.

Lemma Req_bool_neq a b : a <> b -> Req_bool a b = false.
Proof. apply Req_bool_false. Qed.

(** [m] is the last of [l] with this DM *)
Definition last_with (l : list (meta numR)) (k : R) (m : meta numR) : Prop :=
  exists l1 l2, l = l1 ++ m :: l2 /\ m_dm m = k /\ forall m', In m' l2 -> m_dm m' <> k.

Lemma dict_of_spec (l : list (meta numR)) :
  NoDup (map fst (dict_of numR l)) /\
  (forall k, In k (map fst (dict_of numR l)) <-> In k (map m_dm l)) /\
  (forall k, In k (map m_dm l) -> exists m, dict_get numR k (dict_of numR l) = Ok m /\ last_with l k m) /\
  (forall k, ~ In k (map m_dm l) -> dict_get numR k (dict_of numR l) = Err KeyError).
Proof.
  induction l as [|m l IH] using rev_ind.
  { repeat split; try constructor; try easy. }
  unfold dict_of in *. rewrite fold_left_app, map_app. cbn [fold_left map].
  set (d := fold_left (fun d m => dict_set numR (m_dm m) m d) l []) in *.
  destruct IH as (I1 & I2 & I3 & I4). split; [now apply dict_nodup_set|].
  split.
  { intros k. rewrite dict_keys_set, I2, in_app_iff. cbn. intuition congruence. }
  split.
  - intros k Hk. rewrite dict_get_set. destruct (Req_bool_spec (m_dm m) k) as [E|E].
    + exists m. split; auto. exists l, []. repeat split; auto.
    + apply in_app_iff in Hk as [Hk|[Hk|[]]]; [|congruence].
      destruct (I3 k Hk) as (m' & G & l1 & l2 & -> & E' & N). exists m'. split; auto.
      exists l1, (l2 ++ [m]). split; [now rewrite <- app_assoc|]. split; auto.
      intros y Hy. apply in_app_iff in Hy as [Hy|[<-|[]]]; auto.
  - intros k Hk. rewrite dict_get_set. rewrite in_app_iff in Hk. cbn in Hk.
    rewrite Req_bool_neq by tauto. apply I4. tauto.
Qed.

(** C43: all the selected files, once each, in order, in full chunks but for the last *)
Definition chunked {A} (size : nat) (chunks : list (list A)) : Prop :=
  forall pre c post, chunks = pre ++ c :: post ->
    c <> [] /\ (length c <= size)%nat /\ (post <> [] -> length c = size).

Lemma chunks_from_spec (d : dmiter numR) (size : nat) : (1 <= size)%nat ->
  forall dms names, Forall2 (fun x s => get_filename numR d x = Ok s) dms names ->
  forall chunk, (length chunk < size)%nat ->
  exists chunks, chunks_from numR d size dms chunk = Ok chunks /\
    concat chunks = chunk ++ names /\ chunked size chunks.
Proof.
  intros HS dms names F. induction F as [|x s dms names E F IH]; intros chunk HC.
  - cbn. destruct (Nat.eqb_spec (length chunk) 0) as [Z|Z].
    + exists []. destruct chunk; [|discriminate]. repeat split; auto; destruct pre; discriminate.
    + exists [chunk]. split; [reflexivity|]. split; [cbn; now rewrite !app_nil_r|].
      intros pre c post H. destruct pre as [|? [|? ?]]; try discriminate. injection H as <- <-.
      split; [intros ->; now cbn in Z|]. split; [lia|congruence].
  - cbn [chunks_from]. unfold get_filename in E. numR_ty.
    destruct (dict_get numR x (di_dict d)) as [m| | |]; try discriminate. cbn [bind] in *.
    injection E as ->. rewrite app_length. cbn [length].
    destruct (Nat.eqb_spec (length chunk + 1) size) as [Z|Z].
    + destruct (IH []) as (cs & -> & C1 & C2); [cbn; lia|]. cbn [bind]. eexists. split; [reflexivity|].
      split; [cbn; rewrite C1; cbn; now rewrite <- app_assoc|].
      intros pre c post H. destruct pre as [|p pre]; cbn in H; injection H as H1 H2.
      * subst c post. split; [destruct chunk; discriminate|]. rewrite app_length. cbn. split; [lia|auto].
      * subst p. eapply C2. exact H2.
    + destruct (IH (chunk ++ [s])) as (cs & -> & C1 & C2); [rewrite app_length; cbn; lia|].
      exists cs. split; [reflexivity|]. split; [rewrite C1; now rewrite <- app_assoc|exact C2].
Qed.

(** C41-C44 for the whole iterator.  [ok] metadata: DMs not negative, a proper band. *)
Definition band_ok (f0 f1 : R) (nc : Z) : Prop := 0 < f0 < f1 /\ (1 <= nc)%Z.

(** the DM range asked for: [start] is given or the lowest DM of the files; [stop] is given or
    the highest one, and not above the cap divided by [sin b] *)
Definition range_of abs_sin (l : list (meta numR)) (dm_start dm_end dmsinb_max : option R) (start stop : R) : Prop :=
  match dm_start with
  | Some a => start = a
  | None => (forall m, In m l -> start <= m_dm m) /\ exists m, In m l /\ start = m_dm m
  end /\
  exists e, match dm_end with
            | Some a => e = a
            | None => (forall m, In m l -> m_dm m <= e) /\ exists m, In m l /\ e = m_dm m
            end /\
    match dmsinb_max with
    | None => stop = e
    | Some c => exists m gb, In m l /\ gb = m_gb m /\
        if Req_bool (abs_sin gb) 0 then stop = e else stop = Rmin e (c / abs_sin gb)
    end.

Lemma fold_min_spec (ms : list (meta numR)) : forall a r : R,
  fold_left (fun a m => nmin2 numR a (m_dm m)) ms a = r ->
  r <= a /\ (forall m, In m ms -> r <= m_dm m) /\ (r = a \/ exists m, In m ms /\ r = m_dm m).
Proof.
  induction ms as [|m ms IH]; intros a r E; [cbn in E; subst r; repeat split; auto; [lra|easy]|].
  cbn in E. destruct (IH (nmin2 numR a (m_dm m)) r E) as (I1 & I2 & I3).
  assert (NM : nmin2 numR a (m_dm m) <= a /\ nmin2 numR a (m_dm m) <= m_dm m /\
    (nmin2 numR a (m_dm m) = a \/ nmin2 numR a (m_dm m) = m_dm m)).
  { unfold nmin2. rsimp. destruct (Rlt_bool_spec (m_dm m) a); repeat split; auto; lra. }
  destruct NM as (N1 & N2 & N3). numR_ty.
  split; [lra|]. split.
  - intros y [<-|Hy]; [lra|auto].
  - destruct I3 as [-> |(y & Hy & EY)]; [|right; exists y; split; [now right|exact EY]].
    destruct N3 as [N3|N3]; rewrite N3; [now left|right; exists m; split; [now left|auto]].
Qed.

Lemma fold_max_spec (ms : list (meta numR)) : forall a r : R,
  fold_left (fun (a : R) (m : meta numR) => if Rlt_bool a (m_dm m) then m_dm m else a) ms a = r ->
  a <= r /\ (forall m, In m ms -> m_dm m <= r) /\ (r = a \/ exists m, In m ms /\ r = m_dm m).
Proof.
  induction ms as [|m ms IH]; intros a r E; [cbn in E; subst r; repeat split; auto; [lra|easy]|].
  cbn in E. set (a' := if Rlt_bool a (m_dm m) then m_dm m else a) in *.
  destruct (IH a' r E) as (I1 & I2 & I3). numR_ty.
  assert (NM : a <= a' /\ m_dm m <= a' /\ (a' = a \/ a' = m_dm m)).
  { unfold a'. destruct (Rlt_bool_spec a (m_dm m)); repeat split; auto; lra. }
  destruct NM as (N1 & N2 & N3).
  split; [lra|]. split.
  - intros y [<-|Hy]; [lra|auto].
  - destruct I3 as [-> |(y & Hy & EY)]; [|right; exists y; split; [now right|exact EY]].
    destruct N3 as [N3|N3]; rewrite N3; [now left|right; exists m; split; [now left|auto]].
Qed.

Theorem dm_iterator_correct :
  forall abs_sin (l : list (meta numR)) dm_start dm_end dmsinb_max (wmin : R) fmin fmax nchans
    (d : dmiter numR),
  (forall m, In m l -> 0 <= m_dm m) -> 0 < wmin ->
  dm_iterator numR abs_sin l dm_start dm_end dmsinb_max wmin fmin fmax nchans = Ok d ->
  band_ok (di_fmin d) (di_fmax d) (di_nchans d) ->
  StronglySorted Rlt (di_selected d) /\
  (exists start stop, range_of abs_sin l dm_start dm_end dmsinb_max start stop /\
     (forall x, In x (di_selected d) -> start <= x <= stop) /\
     (forall m x, In m l -> start <= m_dm m <= stop ->
        tolerable (di_fmin d) (di_fmax d) (di_nchans d) wmin (m_dm m) x ->
        covered (di_fmin d) (di_fmax d) (di_nchans d) wmin (di_selected d) x)) /\
  (forall x, In x (di_selected d) -> exists m, last_with l x m /\ get_filename numR d x = Ok (m_fname m)) /\
  forall chunksize, (1 <= chunksize)%nat ->
    exists chunks, iterate_filenames numR d chunksize = Ok chunks /\ chunked chunksize chunks /\
      Forall2 (fun x s => exists m, last_with l x m /\ m_fname m = s) (di_selected d) (concat chunks).
Proof.
  intros abs_sin l dm_start dm_end cap wmin fmin fmax nchans d POS HW H HB.
  unfold dm_iterator in H. destruct l as [|m0 ms] eqn:EL; [discriminate|]. rewrite <- EL in *.
  destruct (get_galactic numR l) as [[gl gb]| | |] eqn:EG; try discriminate. cbn [bind] in H.
  match type of H with bind ?b _ = _ => destruct b as [[[f0 f1] nc]| | |]; try discriminate end.
  cbn [bind] in H.
  match type of H with bind (select_dms _ _ ?s0 ?s1 _ _ _ _) _ = _ => set (start := s0) in H; set (stop := s1) in H end.
  destruct (select_dms numR (map fst (dict_of numR l)) start stop f0 f1 nc wmin) as [sel| | |] eqn:ES; try discriminate.
  cbn [bind] in H. injection H as <-. cbn [di_fmin di_fmax di_nchans di_selected] in *.
  destruct HB as [HF HN]. destruct (dict_of_spec l) as (D1 & D2 & D3 & _).
  assert (RNG : range_of abs_sin l dm_start dm_end cap start stop).
  { assert (GB : exists m, In m l /\ gb = m_gb m).
    { unfold get_galactic in EG. rewrite EL in EG.
      match type of EG with bind (guard ?b _) _ = _ => destruct b; try discriminate end.
      injection EG as _ <-. exists m0. rewrite EL. split; [now left|auto]. }
    split.
    - unfold start. destruct dm_start as [a|]; [reflexivity|].
      destruct (fold_min_spec ms (m_dm m0) _ eq_refl) as (F1 & F2 & F3). rewrite EL. numR_ty. split.
      + intros m [<-|Hm]; auto.
      + destruct F3 as [->|(m & Hm & E)]; [exists m0; split; [now left|auto]|exists m; split; [now right|exact E]].
    - unfold stop. rsimp. clear stop ES.
      match goal with |- context [match cap with None => ?x | _ => _ end] => set (e := x) end.
      exists e. split.
      + unfold e. destruct dm_end as [a|]; [reflexivity|].
        destruct (fold_max_spec ms (m_dm m0) _ eq_refl) as (F1 & F2 & F3). rewrite EL. numR_ty. split.
        * intros m [<-|Hm]; auto.
        * destruct F3 as [->|(m & Hm & E)]; [exists m0; split; [now left|auto]|exists m; split; [now right|exact E]].
      + destruct cap as [c|]; [|reflexivity]. destruct GB as (m & Hm & Em). exists m, gb. split; auto. split; auto.
        destruct (Req_bool (abs_sin gb) 0); auto. unfold nmin2. rsimp.
        destruct (Rlt_bool_spec (c / abs_sin gb) e); [rewrite Rmin_right|rewrite Rmin_left]; lra. }
  clearbody start stop. clear m0 ms EL EG.
  assert (SEL : StronglySorted Rlt sel /\ (forall x, In x sel -> In x (map m_dm l)) /\
    (forall x, In x sel -> start <= x <= stop) /\
    (forall m x, In m l -> start <= m_dm m <= stop -> tolerable f0 f1 nc wmin (m_dm m) x -> covered f0 f1 nc wmin sel x)).
  { destruct (select_dms_correct (map fst (dict_of numR l)) start stop f0 f1 nc wmin D1) as [S1 S2]; auto.
    - intros x Hx. apply D2 in Hx. apply in_map_iff in Hx as (m & <- & Hm). now apply POS.
    - assert (EXT : (forall x, ~ in_range (map fst (dict_of numR l)) start stop x) \/
                    exists x, in_range (map fst (dict_of numR l)) start stop x).
      { set (q := map fst (dict_of numR l)).
        destruct (existsb (fun x => (Rle_bool start x && Rle_bool x stop)%bool) q) eqn:EB.
        - right. apply existsb_exists in EB as (x & Hx & B). exists x. split; auto.
          apply andb_true_iff in B. destruct (Rle_bool_spec start x), (Rle_bool_spec x stop); intuition discriminate.
        - left. intros x [Hx B].
          assert (C : existsb (fun x => (Rle_bool start x && Rle_bool x stop)%bool) q = true).
          { apply existsb_exists. exists x. split; auto. rewrite !Rle_bool_true by apply B. reflexivity. }
          congruence. }
      destruct EXT as [NA|A].
      + rewrite (S1 NA) in ES. discriminate.
      + destruct (S2 A) as (sel' & E & SS & IN & _ & CV & _). rewrite E in ES. injection ES as <-.
        split; auto. split; [|split].
        * intros x Hx. apply IN in Hx as [Hx _]. now apply D2.
        * intros x Hx. apply IN in Hx as [_ Hx]. exact Hx.
        * intros m x Hm Hr. apply CV. split; auto. apply D2. now apply in_map. }
  destruct SEL as (SS & SI & SR & SC). split; [exact SS|]. split; [exists start, stop; auto|].
  assert (GF : forall x, In x sel -> exists m, last_with l x m /\
     get_filename numR (DMI l (dict_of numR l) sel f0 f1 nc) x = Ok (m_fname m)).
  { intros x Hx. destruct (D3 x (SI x Hx)) as (m & G & LW). exists m. split; auto.
    unfold get_filename. cbn [di_dict]. rewrite G. reflexivity. }
  split; [exact GF|]. intros size Hs.
  assert (EN : exists names, Forall2 (fun x s => get_filename numR (DMI l (dict_of numR l) sel f0 f1 nc) x = Ok s) sel names /\
     Forall2 (fun x s => exists m, last_with l x m /\ m_fname m = s) sel names).
  { clear SS SI ES SR SC. induction sel as [|x sel IH]; [exists []; split; constructor|].
    destruct (GF x (or_introl eq_refl)) as (m & LW & G).
    destruct IH as (names & F1 & F2).
    { intros y Hy. destruct (GF y (or_intror Hy)) as (m' & ? & ?). exists m'. auto. }
    exists (m_fname m :: names). split; constructor; auto. eauto. }
  destruct EN as (names & F1 & F2).
  destruct (chunks_from_spec (DMI l (dict_of numR l) sel f0 f1 nc) size Hs sel names F1 []) as (chunks & E & C1 & C2); [cbn; lia|].
  exists chunks. split; [exact E|]. split; [exact C2|]. rewrite C1. exact F2.
Qed.
Print Assumptions dm_iterator_correct.

(** C44 when no two files have one DM: every file in the range whose DM was selected is handed
    out, exactly once *)
Lemma last_with_unique (l : list (meta numR)) (m : meta numR) : NoDup (map m_dm l) -> In m l ->
  forall m', last_with l (m_dm m) m' -> m' = m.
Proof.
  intros ND Hm m' (l1 & l2 & -> & E & _).
  rewrite map_app in ND. cbn in ND. apply NoDup_remove_2 in ND. rewrite <- map_app in ND.
  apply in_app_iff in Hm as [Hm|[Hm|Hm]]; auto; exfalso; apply ND; rewrite E; apply in_map; apply in_app_iff; auto.
Qed.

Theorem dm_iterator_all_files :
  forall abs_sin (l : list (meta numR)) dm_start dm_end dmsinb_max (wmin : R) fmin fmax nchans
    (d : dmiter numR) (chunksize : nat),
  (forall m, In m l -> 0 <= m_dm m) -> 0 < wmin ->
  dm_iterator numR abs_sin l dm_start dm_end dmsinb_max wmin fmin fmax nchans = Ok d ->
  band_ok (di_fmin d) (di_fmax d) (di_nchans d) ->
  NoDup (map m_dm l) -> NoDup (map m_fname l) -> (1 <= chunksize)%nat ->
  exists chunks, iterate_filenames numR d chunksize = Ok chunks /\
    NoDup (concat chunks) /\
    forall m, In m l -> (In (m_fname m) (concat chunks) <-> In (m_dm m) (di_selected d)).
Proof.
  intros abs_sin l dm_start dm_end cap wmin fmin fmax nchans d size POS HW H HB ND NF HS.
  destruct (dm_iterator_correct abs_sin l dm_start dm_end cap wmin fmin fmax nchans d POS HW H HB)
    as (SS & _ & _ & CH).
  destruct (CH size HS) as (chunks & E & _ & F). exists chunks. split; auto.
  set (sel := di_selected d) in *. clearbody sel. clear CH E H HB.
  assert (LWin : forall k m, last_with l k m -> In m l /\ m_dm m = k).
  { intros k m (l1 & l2 & -> & Ek & _). split; auto. apply in_app_iff. right. now left. }
  assert (INJ : forall a b, In a l -> In b l -> m_fname a = m_fname b -> a = b).
  { clear - NF. induction l as [|c l IH]; intros a b Ha Hb E; [destruct Ha|].
    cbn in NF. inversion NF as [|? ? N1 N2]; subst.
    destruct Ha as [<-|Ha], Hb as [<-|Hb]; auto; exfalso; apply N1; [rewrite E|rewrite <- E]; now apply in_map. }
  assert (INs : forall m, In m l -> (In (m_fname m) (concat chunks) <-> In (m_dm m) sel)).
  { intros m Hm. clear SS. induction F as [|x s sel names (m' & LW & En) F IH]; [reflexivity|].
    cbn [In]. rewrite IH. destruct (LWin _ _ LW) as [Im' Ed]. split; (intros [C|C]; [left|now right]).
    - assert (m' = m) by (apply INJ; auto; congruence). subst m'. congruence.
    - rewrite C in LW. rewrite (last_with_unique l m ND Hm m' LW) in En. congruence. }
  split; auto.
  clear INs. induction F as [|x s sel names (m' & LW & En) F IH]; [constructor|].
  inversion SS as [|? ? SS' FF]; subst. constructor; [|now apply IH].
  intros C. assert (exists y my, In y sel /\ last_with l y my /\ m_fname my = m_fname m').
  { clear - F C. induction F as [|y t sel names (m2 & L2 & E2) F IH]; [destruct C|].
    destruct C as [<-|C]; [exists y, m2; repeat split; auto; now left|].
    destruct (IH C) as (z & mz & ? & ? & ?). exists z, mz. repeat split; auto. now right. }
  destruct H as (y & my & Hy & Ly & Ey). destruct (LWin _ _ LW) as [I1 D1]. destruct (LWin _ _ Ly) as [I2 D2].
  assert (my = m') by (apply INJ; auto). subst my.
  rewrite Forall_forall in FF. specialize (FF y Hy). rewrite <- D1, <- D2 in FF. lra.
Qed.
Print Assumptions dm_iterator_all_files.

(** two files: DM 0, DM 10, with given band and width *)
Definition ex_meta (name : string) (dm : R) : meta numR :=
  Meta (N := numR) name dm 100 (1 / 1000) 0 30 None.

Lemma ex_iterator (l : list (meta numR)) : l <> [] ->
  (forall m, In m l -> 0 <= m_dm m /\ m_gl m = 0 /\ m_gb m = 30 /\ m_band m = None) ->
  exists d, dm_iterator numR (fun _ => 1 / 2) l (Some 0) None None 1 (Some 1000) (Some 1500) (Some 100%Z) = Ok d /\
    di_fmin d = 1000 /\ di_fmax d = 1500 /\ di_nchans d = 100%Z.
Proof.
  intros NE H. destruct l as [|m0 ms] eqn:EL; [easy|]. unfold dm_iterator. rewrite <- EL in *.
  assert (EG : get_galactic numR l = Ok (0, 30)).
  { unfold get_galactic. rewrite EL. rewrite <- EL.
    replace (forallb _ l) with true.
    - cbn [guard bind]. destruct (H m0) as (_ & -> & -> & _); [rewrite EL; now left|]. reflexivity.
    - symmetry. apply forallb_forall. intros m Hm. rsimp.
      destruct (H m Hm) as (_ & -> & -> & _). destruct (H m0) as (_ & -> & -> & _); [rewrite EL; now left|].
      now rewrite !Req_bool_true. }
  rewrite EG. cbn [bind].
  assert (EI : infer_band_params numR l = Err ValueError).
  { unfold infer_band_params. rewrite EL. cbn [mapM]. unfold get_band_params.
    destruct (H m0) as (_ & _ & _ & ->); [rewrite EL; now left|]. reflexivity. }
  rewrite EI. cbn [bind].
  destruct (dict_of_spec l) as (D1 & D2 & D3 & D4).
  match goal with |- context [select_dms _ _ ?a ?b _ _ _ _] => set (stop := b) end.
  destruct (select_dms_correct (map fst (dict_of numR l)) 0 stop 1000 1500 100 1 D1) as [_ S]; try lra; try lia.
  { intros x Hx. apply D2 in Hx. apply in_map_iff in Hx as (m & <- & Hm). now apply H. }
  destruct S as (sel & E & _).
  { exists (m_dm m0). split; [apply D2; rewrite EL; now left|].
    split; [apply H; rewrite EL; now left|]. unfold stop. numR_ty.
    destruct (fold_max_spec ms (m_dm m0) _ eq_refl) as (F1 & _). exact F1. }
  numR_ty. rewrite E. cbn [bind]. eexists. split; [reflexivity|]. auto.
Qed.

Example dm_iterator_correct_used :
  let l := [ex_meta "b" 10; ex_meta "a" 0] in
  (forall m, In m l -> 0 <= m_dm m) /\ NoDup (map m_dm l) /\ NoDup (map m_fname l) /\
  exists d, dm_iterator numR (fun _ => 1 / 2) l (Some 0) None None 1 (Some 1000) (Some 1500) (Some 100%Z) = Ok d /\
    band_ok (di_fmin d) (di_fmax d) (di_nchans d).
Proof.
  intros l. split; [cbn; intros m [<-|[<-|[]]]; cbn; lra|].
  split; [repeat constructor; cbn; intuition lra|].
  split; [repeat constructor; cbn; intuition discriminate|].
  destruct (ex_iterator l) as (d & E & F0 & F1 & NC); [discriminate|cbn; intros m [<-|[<-|[]]]; cbn; repeat split; lra|].
  exists d. split; [exact E|]. rewrite F0, F1, NC. split; [lra|lia].
Qed.

(** With two files of one DM only the last is ever searched. *)
Theorem dm_iterator_all_files_refuted :
  exists (l : list (meta numR)) (d : dmiter numR),
    dm_iterator numR (fun _ => 1 / 2) l (Some 0) None None 1 (Some 1000) (Some 1500) (Some 100%Z) = Ok d /\
    NoDup (map m_fname l) /\ band_ok (di_fmin d) (di_fmax d) (di_nchans d) /\
    exists m, In m l /\ In (m_dm m) (di_selected d) /\
      forall chunksize chunks, (1 <= chunksize)%nat -> iterate_filenames numR d chunksize = Ok chunks ->
        ~ In (m_fname m) (concat chunks).
Proof.
  set (l := [ex_meta "first" 10; ex_meta "second" 10]).
  assert (POS : forall m, In m l -> 0 <= m_dm m) by (cbn; intros m [<-|[<-|[]]]; cbn; lra).
  destruct (ex_iterator l) as (d & E & F0 & F1 & NC); [discriminate|cbn; intros m [<-|[<-|[]]]; cbn; repeat split; lra|].
  exists l, d. split; [exact E|]. split; [repeat constructor; cbn; intuition discriminate|].
  assert (BO : band_ok (di_fmin d) (di_fmax d) (di_nchans d)) by (rewrite F0, F1, NC; split; [lra|lia]).
  split; [exact BO|]. exists (ex_meta "first" 10). split; [now left|].
  destruct (dm_iterator_correct _ _ _ _ _ _ _ _ _ d POS Rlt_0_1 E BO) as (SS & (start & stop & RG & SR & CV) & GF & CH).
  assert (LW : forall k m, last_with l k m -> m_fname m = "second"%string).
  { intros k m (l1 & l2 & EQ & Ed & N). destruct l1 as [|a [|b [|c l1]]]; cbn in EQ; try discriminate.
    - injection EQ as <- <-. exfalso. apply (N (ex_meta "second" 10)); [now left|]. rewrite <- Ed. reflexivity.
    - injection EQ as _ <- _. reflexivity. }
  split.
  - destruct RG as (-> & e & (EX & m1 & Im1 & Ee) & ->).
    assert (e = 10) by (rewrite Ee; cbn in Im1; destruct Im1 as [<-|[<-|[]]]; reflexivity). subst e.
    destruct (CV (ex_meta "first" 10) 10) as (x & Hx & _); [now left|cbn; lra| |].
    + unfold tolerable. replace (10 - m_dm (ex_meta "first" 10)) with 0 by (cbn; lra). rewrite Rabs_R0.
      unfold delay at 1. unfold Rdiv at 1. rewrite !Rmult_0_l. eapply Rle_trans; [|apply Rmax_l]. lra.
    + destruct (GF x Hx) as (m & (l1 & l2 & EQ & Ed & _) & _).
      assert (Im : In m l) by (rewrite EQ; apply in_app_iff; right; now left).
      replace (m_dm (ex_meta "first" 10)) with x; auto. rewrite <- Ed. cbn in Im. destruct Im as [<-|[<-|[]]]; reflexivity.
  - intros size chunks HS EC C. destruct (CH size HS) as (chunks' & EC' & _ & F). rewrite EC in EC'.
    injection EC' as <-. clear - F C LW. induction F as [|x s sel names (m & L & En) F IH]; [destruct C|].
    destruct C as [C|C]; [|now apply IH]. apply LW in L. cbn in C. congruence.
Qed.
Print Assumptions dm_iterator_all_files_refuted.

(** ** The band and the coordinates *)
(** the edges of the band of a PRESTO file: the centre frequency of the lowest channel and the
    one [nchans] channel widths away from it, in either order *)
Definition band_edges (m : meta numR) (f0 f1 : R) (nc : Z) : Prop :=
  exists fbot cbw, m_band m = Some (fbot, cbw, nc) /\
    f0 = Rmin fbot (fbot + IZR nc * cbw) /\ f1 = Rmax fbot (fbot + IZR nc * cbw).
Definition common_band (l : list (meta numR)) (f0 f1 : R) (nc : Z) : Prop :=
  forall m, In m l -> band_edges m f0 f1 nc.
(** the band of the files when they all have the same one, the configured band otherwise *)
Definition band_of (l : list (meta numR)) (fmin fmax : option R) (nchans : option Z) (f0 f1 : R) (nc : Z) : Prop :=
  common_band l f0 f1 nc \/
  ~ (exists g0 g1 n, common_band l g0 g1 n) /\ fmin = Some f0 /\ fmax = Some f1 /\ nchans = Some nc.
Definition one_position (l : list (meta numR)) : Prop :=
  forall m m', In m l -> In m' l -> m_gl m = m_gl m' /\ m_gb m = m_gb m'.

Lemma band_params_spec (m : meta numR) f0 f1 nc : get_band_params numR m = Ok (f0, f1, nc) <-> band_edges m f0 f1 nc.
Proof.
  unfold get_band_params, band_edges, nmin2. destruct (m_band m) as [[[fbot cbw] n]|].
  - rsimp. set (ftop := fbot + IZR n * cbw).
    assert (E0 : (if Rlt_bool ftop fbot then ftop else fbot) = Rmin fbot ftop).
    { destruct (Rlt_bool_spec ftop fbot); [rewrite Rmin_right|rewrite Rmin_left]; auto; lra. }
    assert (E1 : (if Rlt_bool fbot ftop then ftop else fbot) = Rmax fbot ftop).
    { destruct (Rlt_bool_spec fbot ftop); [rewrite Rmax_right|rewrite Rmax_left]; auto; lra. }
    rewrite E0, E1. split.
    + intros H. injection H as <- <- <-. exists fbot, cbw. auto.
    + intros (a & b & H & -> & ->). injection H as <- <- <-. reflexivity.
  - split; [discriminate|]. intros (a & b & H & _). discriminate.
Qed.

Lemma infer_band_spec (l : list (meta numR)) : l <> [] ->
  match infer_band_params numR l with
  | Ok (f0, f1, nc) => common_band l f0 f1 nc
  | Err e => (e = ValueError \/ e = RuntimeError) /\ ~ (exists g0 g1 n, common_band l g0 g1 n)
  | _ => False
  end.
Proof.
  intros NE. unfold infer_band_params.
  assert (M : (exists ps, mapM (get_band_params numR) l = Ok ps /\ Forall2 (fun m p => get_band_params numR m = Ok p) l ps) \/
    mapM (get_band_params numR) l = Err ValueError /\ exists m, In m l /\ m_band m = None).
  { clear NE. induction l as [|m l IH]; [left; exists []; split; [reflexivity|constructor]|]. cbn [mapM].
    destruct (m_band m) as [[[a b] c]|] eqn:EB.
    - assert (exists p, get_band_params numR m = Ok p) as [p Ep] by (unfold get_band_params; rewrite EB; eauto).
      rewrite Ep. cbn [bind]. destruct IH as [(ps & -> & F)|(-> & x & Hx & Ex)]; cbn [bind].
      + left. eexists. split; [reflexivity|]. constructor; auto.
      + right. split; [reflexivity|]. exists x. split; [now right|exact Ex].
    - right. unfold get_band_params at 1. rewrite EB. split; [reflexivity|]. exists m. split; [now left|exact EB]. }
  destruct M as [(ps & E & F)|(-> & m & Hm & EB)]; cbn [bind].
  2:{ split; auto. intros (a & b & c & H). destruct (H m Hm) as (? & ? & E & _). congruence. }
  rewrite E. cbn [bind]. destruct F as [|m0 p0 l ps E0 F]; [easy|].
  destruct p0 as [[f0 f1] nc]. destruct (forallb (band_eqb numR (f0, f1, nc)) ((f0, f1, nc) :: ps)) eqn:FB; cbn [guard bind].
  - rewrite forallb_forall in FB. intros m [<-|Hm]; [now apply band_params_spec|].
    assert (exists p, In p ps /\ get_band_params numR m = Ok p) as ([[a b] c] & Hp & Ep).
    { clear - F Hm. induction F as [|x p l ps E F IH]; [destruct Hm|]. destruct Hm as [<-|Hm]; [exists p; split; [now left|auto]|].
      destruct (IH Hm) as (q & Hq & Eq). exists q. split; [now right|auto]. }
    specialize (FB _ (or_intror Hp)). unfold band_eqb in FB. rsimp_all.
    apply andb_true_iff in FB as [FB F3]. apply andb_true_iff in FB as [F1 F2]. apply Z.eqb_eq in F3.
    destruct (Req_bool_spec f0 a), (Req_bool_spec f1 b); try discriminate. subst. now apply band_params_spec.
  - split; auto. intros (a & b & c & H).
    assert (forallb (band_eqb numR (f0, f1, nc)) ((f0, f1, nc) :: ps) = true); [|congruence].
    apply forallb_forall. intros p Hp.
    assert (forall q m, get_band_params numR m = Ok q -> In m (m0 :: l) -> q = (a, b, c)) as Q.
    { intros q m Eq Hm. specialize (H m Hm). apply band_params_spec in H.
      assert (Z : Ok q = Ok (a, b, c)) by (etransitivity; [symmetry; exact Eq|exact H]). now injection Z. }
    assert (p = (a, b, c) /\ (f0, f1, nc) = (a, b, c)) as [-> EQ].
    { split; [|apply (Q _ m0); [exact E0|now left]]. destruct Hp as [<-|Hp]; [apply (Q _ m0); [exact E0|now left]|].
      clear - F Hp Q. assert (exists m, In m l /\ get_band_params numR m = Ok p) as (m & Hm & Em).
      { clear Q. induction F as [|x q l ps E F IH]; [destruct Hp|]. destruct Hp as [<-|Hp]; [exists x; split; [now left|auto]|].
        destruct (IH Hp) as (m & Hm & Em). exists m. split; [now right|auto]. }
      apply (Q _ m); auto. now right. }
    injection EQ as -> -> ->. unfold band_eqb. rsimp. rewrite !Req_bool_true by reflexivity. now rewrite Z.eqb_refl.
Qed.

Lemma get_galactic_spec (l : list (meta numR)) : l <> [] ->
  (one_position l -> exists m, In m l /\ get_galactic numR l = Ok (m_gl m, m_gb m)) /\
  (~ one_position l -> get_galactic numR l = Err RuntimeError) /\
  (forall r, get_galactic numR l = Ok r -> one_position l).
Proof.
  destruct l as [|m0 l]; [easy|]. intros _. unfold get_galactic. set (L := m0 :: l).
  assert (G : forallb (fun m => n_eqb (m_gl m) (m_gl m0) && n_eqb (m_gb m) (m_gb m0)) L = true <-> one_position L).
  { rewrite forallb_forall. rsimp. split.
    - intros H. assert (Q : forall m, In m L -> m_gl m = m_gl m0 /\ m_gb m = m_gb m0).
      { intros m Hm. specialize (H m Hm). apply andb_true_iff in H as [H1 H2].
        destruct (Req_bool_spec (m_gl m) (m_gl m0)), (Req_bool_spec (m_gb m) (m_gb m0)); try discriminate; auto. }
      intros m m' Hm Hm'. destruct (Q m Hm) as [-> ->], (Q m' Hm') as [-> ->]. auto.
    - intros H m Hm. destruct (H m m0 Hm (or_introl eq_refl)) as [-> ->]. now rewrite !Req_bool_true. }
  split; [intros H|split; [intros H|intros r E; apply G; now destruct (forallb _ L)]].
  - apply G in H. rewrite H. cbn [guard bind]. exists m0. split; [now left|reflexivity].
  - destruct (forallb _ L) eqn:E; [exfalso; apply H; now apply G|]. reflexivity.
Qed.

(** C75: the band is the one all the files have, and the configured one only when there is no
    such band; and all the files have one position. *)
Theorem dm_iterator_band :
  forall abs_sin (l : list (meta numR)) dm_start dm_end dmsinb_max (wmin : R) fmin fmax nchans (d : dmiter numR),
  dm_iterator numR abs_sin l dm_start dm_end dmsinb_max wmin fmin fmax nchans = Ok d ->
  l <> [] /\ one_position l /\ band_of l fmin fmax nchans (di_fmin d) (di_fmax d) (di_nchans d).
Proof.
  intros abs_sin l dm_start dm_end cap wmin fmin fmax nchans d H.
  destruct l as [|m0 ms] eqn:EL; [discriminate|]. rewrite <- EL in *. unfold dm_iterator in H. rewrite EL in H. rewrite <- EL in H.
  assert (NE : l <> []) by (rewrite EL; discriminate). split; auto.
  destruct (get_galactic_spec l NE) as (_ & _ & G3). assert (OP : one_position l).
  { destruct (get_galactic numR l) as [r| | |] eqn:EG; try discriminate. now apply (G3 r). }
  split; auto. destruct (get_galactic numR l) as [[gl gb]| | |]; try discriminate. cbn [bind] in H.
  pose proof (infer_band_spec l NE) as IB. destruct (infer_band_params numR l) as [[[f0 f1] nc]|e| |]; try contradiction.
  - cbn [bind] in H. destruct (select_dms _ _ _ _ _ _ _ _) as [sel| | |]; try discriminate. injection H as <-. now left.
  - destruct IB as [IE IB]. destruct IE as [-> | ->]; (destruct fmin as [a|], fmax as [b|], nchans as [c|]; try discriminate; cbn [bind] in H;
    destruct (select_dms _ _ _ _ _ _ _ _) as [sel| | |]; try discriminate; injection H as <-; right; auto).
Qed.
Print Assumptions dm_iterator_band.

(** C75: what is refused: no file, files of several positions, no common band when the
    configuration does not give one, no DM in the range. *)
Theorem dm_iterator_refuses :
  forall abs_sin (l : list (meta numR)) dm_start dm_end dmsinb_max (wmin : R) fmin fmax nchans,
  let X := dm_iterator numR abs_sin l dm_start dm_end dmsinb_max wmin fmin fmax nchans in
  (l = [] -> exists e, X = Err e) /\
  (l <> [] ->
   (~ one_position l -> X = Err RuntimeError) /\
   (one_position l -> (forall f0 f1 nc, ~ band_of l fmin fmax nchans f0 f1 nc) -> X = Err ValueError) /\
   (one_position l ->
    forall f0 f1 nc start stop, band_of l fmin fmax nchans f0 f1 nc -> band_ok f0 f1 nc -> 0 < wmin ->
    (forall m, In m l -> 0 <= m_dm m) ->
    range_of abs_sin l dm_start dm_end dmsinb_max start stop ->
    ((exists m, In m l /\ start <= m_dm m <= stop) -> exists d, X = Ok d) /\
    ((forall m, In m l -> ~ start <= m_dm m <= stop) -> X = Err ValueError))).
Proof.
  intros abs_sin l dm_start dm_end cap wmin fmin fmax nchans X. split.
  { intros ->. unfold X, dm_iterator. eauto. }
  intros NE. destruct (get_galactic_spec l NE) as (G1 & G2 & _).
  destruct l as [|m0 ms] eqn:EL; [easy|]. rewrite <- EL in *. unfold X, dm_iterator. rewrite EL. rewrite <- EL.
  split; [intros N; now rewrite (G2 N)|]. split.
  - intros OP NB. destruct (G1 OP) as (m & _ & ->). cbn [bind]. pose proof (infer_band_spec l NE) as IB.
    destruct (infer_band_params numR l) as [[[f0 f1] nc]|e| |]; try contradiction; [exfalso; apply (NB f0 f1 nc); now left|].
    destruct IB as [IE IB].
    assert (K : match fmin, fmax, nchans with Some a, Some b, Some c => Ok (a, b, c) | _, _, _ => Err ValueError end = Err ValueError).
    { destruct fmin as [a|], fmax as [b|], nchans as [c|]; auto. exfalso. apply (NB a b c). right. auto. }
    destruct IE as [-> | ->]; rewrite K; reflexivity.
  - intros OP f0 f1 nc start stop BO (HF & HN) HW POS RG. destruct (G1 OP) as (mg & Img & ->). cbn [bind].
    match goal with |- context [select_dms _ _ ?s0 ?s1 _ _ _ _] => set (st := s0); set (sp := s1) end.
    assert (EB : match infer_band_params numR l with
      | Err ValueError | Err RuntimeError => match fmin, fmax, nchans with Some a, Some b, Some c => Ok (a, b, c) | _, _, _ => Err ValueError end
      | r => r end = Ok (f0, f1, nc)).
    { pose proof (infer_band_spec l NE) as IB. destruct BO as [CB|(NB & -> & -> & ->)].
      - destruct (infer_band_params numR l) as [[[g0 g1] n]|e| |]; try contradiction.
        + pose proof (IB m0) as B1. pose proof (CB m0) as B2. rewrite EL in B1, B2. specialize (B1 (or_introl eq_refl)).
          specialize (B2 (or_introl eq_refl)). apply band_params_spec in B1. apply band_params_spec in B2.
          etransitivity; [symmetry; exact B1|exact B2].
        + exfalso. apply (proj2 IB). eauto.
      - destruct (infer_band_params numR l) as [[[g0 g1] n]|e| |]; try contradiction; [exfalso; apply NB; eauto|].
        destruct IB as [[-> | ->] _]; reflexivity. }
    rewrite EB. cbn [bind].
    assert (ST : st = start /\ sp = stop).
    { destruct RG as (R1 & e & R2 & R3). split.
      - unfold st. destruct dm_start as [a|]; [auto|]. rewrite EL in R1. destruct R1 as [L (m & Im & Em)].
        destruct (fold_min_spec ms (m_dm m0) _ eq_refl) as (F1 & F2 & F3).
        apply Rle_antisym.
        + rewrite Em. destruct Im as [<-|Im]; [exact F1|now apply F2].
        + destruct F3 as [-> |(y & Hy & ->)]; [apply L; now left|apply L; now right].
      - assert (EE : match dm_end with Some d => d | None => fold_left (fun a m => if n_ltb a (m_dm m) then m_dm m else a) ms (m_dm m0) end = e).
        { destruct dm_end as [a|]; [auto|]. rewrite EL in R2. destruct R2 as [L (m & Im & Em)].
          destruct (fold_max_spec ms (m_dm m0) _ eq_refl) as (F1 & F2 & F3). rsimp. apply Rle_antisym.
          + destruct F3 as [-> |(y & Hy & ->)]; [apply L; now left|apply L; now right].
          + rewrite Em. destruct Im as [<-|Im]; [exact F1|now apply F2]. }
        unfold sp. rewrite EE. destruct cap as [c|]; [|auto]. destruct R3 as (m & gb & Im & -> & R3).
        destruct (OP mg m Img Im) as [_ ->]. rsimp. destruct (Req_bool (abs_sin (m_gb m)) 0); auto. rewrite R3.
        unfold nmin2. rsimp. destruct (Rlt_bool_spec (c / abs_sin (m_gb m)) e); [rewrite Rmin_right|rewrite Rmin_left]; auto; lra. }
    destruct ST as [-> ->]. destruct (dict_of_spec l) as (D1 & D2 & D3 & _).
    destruct (select_dms_correct (map fst (dict_of numR l)) start stop f0 f1 nc wmin D1) as [S1 S2]; auto.
    { intros x Hx. apply D2 in Hx. apply in_map_iff in Hx as (m & <- & Hm). auto. }
    split.
    + intros (m & Im & L). destruct S2 as (sel & E & _).
      { exists (m_dm m). split; [apply D2; now apply in_map|exact L]. }
      numR_ty. rewrite E. cbn [bind]. eauto.
    + intros N. numR_ty. rewrite S1; [reflexivity|]. intros x [Hx L]. apply D2 in Hx. apply in_map_iff in Hx as (m & <- & Hm). now apply (N m).
Qed.
Print Assumptions dm_iterator_refuses.

(** two PRESTO files with the band 1000-1500 MHz, one counting its channels downwards *)
Example dm_iterator_band_used :
  let m name dm fbot cbw := Meta (N := numR) name dm 100 (1 / 1000) 0 30 (Some (fbot, cbw, 100%Z)) in
  let l := [m "a"%string 0 1000 5; m "b"%string 10 1500 (-5)] in
  l <> [] /\ one_position l /\ band_of l (Some 1) (Some 2) None 1000 1500 100 /\ band_ok 1000 1500 100 /\
  range_of (fun _ => 1 / 2) l None (Some 20) (Some 3) 0 6 /\ (exists x, In x l /\ 0 <= m_dm x <= 6) /\
  exists d, dm_iterator numR (fun _ => 1 / 2) l None (Some 20) (Some 3) 1 (Some 1) (Some 2) None = Ok d.
Proof.
  intros m l.
  assert (NE : l <> []) by discriminate.
  assert (OP : one_position l) by (intros x y [<-|[<-|[]]] [<-|[<-|[]]]; cbn; auto).
  assert (BO : band_of l (Some 1) (Some 2) None 1000 1500 100).
  { left. intros x [<-|[<-|[]]]; [exists 1000, 5|exists 1500, (-5)]; (split; [reflexivity|]);
      [rewrite Rmin_left, Rmax_right by lra|rewrite Rmin_right, Rmax_left by lra]; lra. }
  assert (BK : band_ok 1000 1500 100) by (split; [lra|lia]).
  assert (RG : range_of (fun _ => 1 / 2) l None (Some 20) (Some 3) 0 6).
  { split; [split; [intros x [<-|[<-|[]]]; cbn; lra|exists (m "a"%string 0 1000 5); split; [now left|reflexivity]]|].
    exists 20. split; [reflexivity|]. exists (m "a"%string 0 1000 5), 30. split; [now left|]. split; [reflexivity|].
    rewrite Req_bool_false by lra. rewrite Rmin_right by lra. lra. }
  assert (EX : exists x, In x l /\ 0 <= m_dm x <= 6) by (exists (m "a"%string 0 1000 5); split; [now left|cbn; lra]).
  split; auto. split; auto. split; auto. split; auto. split; auto. split; auto.
  destruct (dm_iterator_refuses (fun _ => 1 / 2) l None (Some 20) (Some 3) 1 (Some 1) (Some 2) None) as [_ Q].
  destruct (Q NE) as (_ & _ & Q3). apply (Q3 OP 1000 1500 100%Z 0 6); auto; [lra|]. intros x [<-|[<-|[]]]; cbn; lra.
Qed.
