(** C15 - C18: downsampling by a real factor. *)
From Coq Require Import List Arith ZArith Bool Lia Reals Lra Psatz.
From Flocq Require Import Core.
From Verif Require Import Base.Result Base.Buf Base.Num Model.Downsample Spec.Sums Spec.Overlap
  Proof.Downsample.
Import ListNotations.
Local Open Scope R_scope.

(** [alloc n] is the uninitialised content of a new array of [n] elements. *)
Definition allocates {A} (alloc : nat -> list A) : Prop := forall n, length (alloc n) = n.

(** C15, C17 (error side).  Exact arithmetic. *)
Theorem downsample_integrates :
  forall (alloc : nat -> list R) (x : list R) (f : R), allocates alloc ->
  (~ (1 < f <= INR (length x)) -> py_downsample numR alloc x f = Err ValueError) /\
  (1 < f <= INR (length x) ->
   exists (out : list R) n, py_downsample numR alloc x f = Ok out /\ length out = n /\
     INR n <= INR (length x) / f < INR n + 1 /\
     forall k, (k < n)%nat ->
       nth k out 0
       = rsum (length x) (fun i => nth i x 0 * weight i (INR k * f) ((INR k + 1) * f))).
Proof.
  intros alloc x f Ha. unfold py_downsample. numR_ty. split; intros Hf.
  - destruct (valid_factor numR (length x) f) eqn:E; [|reflexivity].
    apply valid_factor_R in E. contradiction.
  - pose proof (proj2 (valid_factor_R (length x) f) Hf) as HV. rewrite HV. cbn [guard bind].
    destruct (downsample_spec x f (alloc (downsampled_size numR (length x) f)) HV)
      as (out & E & L & W & _).
    { rewrite Ha. lia. }
    numR_ty. exists out, (downsampled_size numR (length x) f). split; auto.
    split. { rewrite L. apply Ha. } split.
    + destruct (downsampled_size_R (length x) f ltac:(lra)) as [A B]. split.
      * apply Rmult_le_reg_r with f; [lra|]. field_simplify; lra.
      * apply Rmult_lt_reg_r with f; [lra|].
        replace (INR (length x) / f * f) with (INR (length x)) by (field; lra). exact B.
    + intros k Hk. apply nth_error_nth. now rewrite <- (W k Hk).
Qed.
Print Assumptions downsample_integrates.

Example downsample_integrates_ex : 1 < 3 / 2 <= INR (length [1; 2; 3; 4]).
Proof. cbn. lra. Qed.

(** C16. *)
Theorem downsample_conserves :
  forall (alloc : nat -> list R) (x : list R) (f : R), allocates alloc ->
  1 < f <= INR (length x) ->
  exists (out : list R) n, py_downsample numR alloc x f = Ok out /\ length out = n /\
    rsum n (fun k => nth k out 0)
      = rsum (length x) (fun i => nth i x 0 * weight i 0 (INR n * f)) /\
    (INR n * f = INR (length x) ->
     rsum n (fun k => nth k out 0) = rsum (length x) (fun i => nth i x 0)) /\
    (forall c, (forall i, (i < length x)%nat -> nth i x 0 = c) ->
     forall k, (k < n)%nat -> nth k out 0 = f * c) /\
    (forall lo hi, (forall i, (i < length x)%nat -> lo <= nth i x 0 <= hi) ->
     forall k, (k < n)%nat -> f * lo <= nth k out 0 <= f * hi).
Proof.
  intros alloc x f Ha Hf.
  destruct (downsample_integrates alloc x f Ha) as [_ H].
  destruct (H Hf) as (out & n & E & L & B & V). exists out, n. split; auto. split; auto.
  assert (Hn : INR n * f <= INR (length x)).
  { destruct B as [B _]. apply Rmult_le_compat_r with (r := f) in B; [|lra].
    field_simplify in B; lra. }
  assert (S : rsum n (fun k => nth k out 0)
      = rsum (length x) (fun i => nth i x 0 * weight i 0 (INR n * f))).
  { rewrite (rsum_ext n _ (fun k => rsum (length x)
        (fun i => nth i x 0 * weight i (INR k * f) ((INR k + 1) * f)))) by (intros; apply V; auto).
    rewrite rsum_swap. apply rsum_ext. intros i Hi. rewrite rsum_scal.
    rewrite weight_steps by lra. reflexivity. }
  assert (T : forall k, (k < n)%nat ->
    rsum (length x) (fun i => weight i (INR k * f) ((INR k + 1) * f)) = f).
  { intros k Hk. pose proof (pos_INR k).
    assert (INR k + 1 <= INR n) by (rewrite <- S_INR; apply le_INR; lia).
    rewrite weight_total.
    - ring.
    - apply Rmult_le_pos; lra.
    - apply Rmult_le_compat_r; lra.
    - apply Rle_trans with (INR n * f); auto. apply Rmult_le_compat_r; lra. }
  split; [exact S|]. split.
  - intros Hex. rewrite S. apply rsum_ext. intros i Hi. rewrite Hex.
    assert (INR i + 1 <= INR (length x)) by (rewrite <- S_INR; apply le_INR; lia).
    pose proof (pos_INR i).
    replace (weight i 0 (INR (length x))) with 1 by minmax. lra.
  - split.
    + intros c Hc k Hk. rewrite V by auto.
      rewrite (rsum_ext _ _ (fun i => c * weight i (INR k * f) ((INR k + 1) * f)))
        by (intros i Hi; rewrite Hc by auto; reflexivity).
      rewrite rsum_scal, T by auto. ring.
    + intros lo hi Hb k Hk. rewrite V by auto. specialize (T k Hk).
      set (w := fun i => weight i (INR k * f) ((INR k + 1) * f)) in *.
      change (rsum (length x) w = f) in T.
      replace (f * lo) with (rsum (length x) (fun i => lo * w i))
        by (rewrite rsum_scal, T; ring).
      replace (f * hi) with (rsum (length x) (fun i => hi * w i))
        by (rewrite rsum_scal, T; ring).
      split; apply rsum_le; intros i Hi; fold (w i);
        assert (0 <= w i) by apply weight_nonneg;
        destruct (Hb i Hi); apply Rmult_le_compat_r; auto.
Qed.
Print Assumptions downsample_conserves.

(** C16, linearity. *)
Theorem downsample_linear :
  forall (alloc : nat -> list R) (x y : list R) (f a b : R), allocates alloc ->
  length x = length y -> 1 < f <= INR (length x) ->
  exists u v w : list R,
    py_downsample numR alloc x f = Ok u /\ py_downsample numR alloc y f = Ok v /\
    py_downsample numR alloc
      (map (fun p => a * fst p + b * snd p) (combine x y)) f = Ok w /\
    w = map (fun p => a * fst p + b * snd p) (combine u v).
Proof.
  intros alloc x y f a b Ha HL Hf.
  set (z := map (fun p => a * fst p + b * snd p) (combine x y)).
  assert (Lz : length z = length x).
  { unfold z. rewrite map_length, combine_length. lia. }
  destruct (proj2 (downsample_integrates alloc x f Ha) Hf) as (u & n & Eu & Lu & Bu & Vu).
  destruct (proj2 (downsample_integrates alloc y f Ha)) as (v & n' & Ev & Lv & Bv & Vv).
  { now rewrite <- HL. }
  destruct (proj2 (downsample_integrates alloc z f Ha)) as (w & n'' & Ew & Lw & Bw & Vw).
  { now rewrite Lz. }
  exists u, v, w. repeat split; auto.
  rewrite <- HL in Bv. rewrite Lz in Bw.
  assert (n' = n).
  { assert (n' < n + 1)%nat by (apply INR_lt; rewrite plus_INR; cbn; lra).
    assert (n < n' + 1)%nat by (apply INR_lt; rewrite plus_INR; cbn; lra). lia. }
  assert (n'' = n).
  { assert (n'' < n + 1)%nat by (apply INR_lt; rewrite plus_INR; cbn; lra).
    assert (n < n'' + 1)%nat by (apply INR_lt; rewrite plus_INR; cbn; lra). lia. }
  subst n' n''.
  apply nth_ext with 0 0.
  { rewrite map_length, combine_length. lia. }
  intros k Hk.
  set (g := fun p : R * R => a * fst p + b * snd p).
  assert (N2 : forall (l l' : list R) i, length l = length l' -> (i < length l)%nat ->
     nth i (map g (combine l l')) 0 = a * nth i l 0 + b * nth i l' 0).
  { intros l l' i Hl Hi. rewrite (nth_indep _ 0 (g (0, 0)))
      by (rewrite map_length, combine_length; lia).
    rewrite map_nth, combine_nth by auto. reflexivity. }
  rewrite N2 by lia. rewrite Vu, Vv, Vw by lia. rewrite <- HL, Lz.
  rewrite <- !rsum_scal, <- rsum_plus. apply rsum_ext. intros i Hi.
  unfold z. fold g. rewrite N2 by auto. ring.
Qed.
Print Assumptions downsample_linear.

(** C17.  All coordinates in binary64 (fused or not): every access is in bounds. *)
Theorem downsample_float_memory_safe :
  forall (bld : build) (alloc : nat -> list R) (x : list R) (f : R), allocates alloc ->
  (Z.of_nat (length x) <= 2 ^ 50)%Z -> 1 < f <= INR (length x) ->
  exists out, py_downsample (numF bld) alloc x f = Ok out /\
    length out = downsampled_size (numF bld) (length x) f.
Proof.
  intros bld alloc x f Ha HN Hf. unfold py_downsample.
  destruct (downsample_float_safe bld x f (alloc (downsampled_size (numF bld) (length x) f)))
    as (out & E & L); auto; [now rewrite Ha|].
  change (n_T (numF bld)) with R in *.
  assert (HV : valid_factor (numF bld) (length x) f = true).
  { unfold downsample in E. change (n_T (numF bld)) with R in *.
    destruct (valid_factor (numF bld) (length x) f); [reflexivity|discriminate]. }
  rewrite HV. cbn [guard bind]. exists out. split; auto. rewrite L. apply Ha.
Qed.
Print Assumptions downsample_float_memory_safe.

(** and the check accepts exactly 1 < f <= N *)
Theorem downsample_float_check :
  forall (bld : build) (alloc : nat -> list R) (x : list R) (f : R),
  (Z.of_nat (length x) <= 2 ^ 50)%Z ->
  ~ (1 < f <= INR (length x)) -> py_downsample (numF bld) alloc x f = Err ValueError.
Proof.
  intros bld alloc x f HN Hf. unfold py_downsample, valid_factor.
  change (n_T (numF bld)) with R in *.
  cbn [numF opsF n_ltb n_leb n_dbl o_ofZ]. rewrite <- INR_IZR_INZ.
  rewrite (rnd64_id (INR (length x))) by (rewrite INR_IZR_INZ; apply F64_int; lia).
  rewrite (rnd64_id 1) by (apply (F64_int 1); lia).
  destruct (Rlt_bool_spec 1 f); [|reflexivity].
  destruct (Rle_bool_spec f (INR (length x))); [|reflexivity].
  exfalso; apply Hf; lra.
Qed.
Print Assumptions downsample_float_check.

(** C18.  The variance of output sample [k] when the input is white noise of unit variance
    is the sum of its squared weights. *)
Definition white_noise_variance (size : nat) (f : R) (k : nat) : R :=
  rsum size (fun i => (weight i (INR k * f) ((INR k + 1) * f)) ^ 2).

Lemma white_noise_variance_int size K k :
  (1 <= K)%nat -> ((k + 1) * K <= size)%nat -> white_noise_variance size (INR K) k = INR K.
Proof.
  intros HK Hk. unfold white_noise_variance.
  rewrite (rsum_ext size _ (fun i => weight i (INR k * INR K) ((INR k + 1) * INR K))).
  2:{ intros i Hi. rewrite <- S_INR, <- !mult_INR.
      assert (weight i (INR (k * K)) (INR (S k * K)) = 0 \/ weight i (INR (k * K)) (INR (S k * K)) = 1).
      { destruct (lt_dec i (k * K)).
        - left. assert (INR i + 1 <= INR (k * K)) by (rewrite <- S_INR; apply le_INR; lia).
          assert (INR (k * K) <= INR (S k * K)) by (apply le_INR; lia). minmax.
        - assert (INR (k * K) <= INR i) by (apply le_INR; lia).
          destruct (lt_dec i (S k * K)).
          + right. assert (INR i + 1 <= INR (S k * K)) by (rewrite <- S_INR; apply le_INR; lia).
            minmax.
          + left. assert (INR (S k * K) <= INR i) by (apply le_INR; lia). minmax. }
      destruct H as [->| ->]; lra. }
  pose proof (pos_INR k). assert (1 <= INR K) by (apply (le_INR 1); lia).
  rewrite weight_total; [lra| | |].
  - apply Rmult_le_pos; lra.
  - apply Rmult_le_compat_r; lra.
  - rewrite <- S_INR, <- mult_INR. apply le_INR. lia.
Qed.

Lemma downsampled_variance_int size K : (1 <= K)%nat ->
  downsampled_variance numR size (INR K) = (INR K - 1) * (INR K - 1) + 1.
Proof.
  intros HK. unfold downsampled_variance. rsimp.
  rewrite INR_IZR_INZ, Zfloor_IZR.
  replace (IZR (Z.of_nat K) - IZR (Z.of_nat K)) with 0 by ring. rewrite Rmult_0_r.
  rewrite Rlt_bool_false by lra. ring.
Qed.

(** With an integer factor K the code reports (K-1)^2 + 1: exact for K = 2 ... *)
Theorem downsampled_variance_partial :
  forall size k, (2 * (k + 1) <= size)%nat ->
  downsampled_variance numR size 2 = white_noise_variance size 2 k.
Proof.
  intros size k Hk. change 2 with (INR 2).
  rewrite downsampled_variance_int, white_noise_variance_int by lia. cbn. lra.
Qed.
Print Assumptions downsampled_variance_partial.

(** ... too large for every K >= 3, by a factor that grows with K. *)
Theorem downsampled_variance_refuted :
  forall size K k, (3 <= K)%nat -> ((k + 1) * K <= size)%nat ->
  white_noise_variance size (INR K) k = INR K /\
  downsampled_variance numR size (INR K) = INR K + (INR K - 1) * (INR K - 2).
Proof.
  intros size K k HK Hk. rewrite downsampled_variance_int, white_noise_variance_int by lia.
  numR_ty. split; ring.
Qed.
Print Assumptions downsampled_variance_refuted.

Example downsampled_variance_ex : ((4 + 1) * 3 <= 15)%nat.
Proof. lia. Qed.
