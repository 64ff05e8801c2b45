(** Where the flux of a periodic signal lands in a folded profile. *)
From Coq Require Import List Arith ZArith Bool Lia Reals Lra Psatz.
From Flocq Require Import Core.
From Verif Require Import Spec.Sums Spec.Overlap Spec.Boxcar Spec.Pulse Proof.Downsample Proof.Snr.
Import ListNotations.
Local Open Scope R_scope.

Lemma rsum_blocks rows b g : rsum rows (fun r => rsum b (fun c => g (r * b + c)%nat)) = rsum (rows * b) g.
Proof.
  induction rows as [|rows IH]; cbn [rsum]; [reflexivity|].
  rewrite IH. replace (S rows * b)%nat with (rows * b + b)%nat by lia. now rewrite rsum_split.
Qed.

Lemma rsum_zero n g : (forall i, (i < n)%nat -> g i = 0) -> rsum n g = 0.
Proof. intros H. rewrite (rsum_ext n g (fun _ => 0)) by auto. apply rsum_0. Qed.

(** the shift, in bins over all the rows, of a signal of frequency [nu] *)
Definition drift (f tsamp : R) (b rows : nat) (nu : R) : R :=
  (1 - INR b * (nu * (f * tsamp))) * INR b * (INR rows - 1).

Lemma drift_bounds f tsamp b rows s nu : 1 <= f -> 0 < tsamp -> (2 <= b)%nat -> (s + 1 < rows)%nat ->
  let top := (INR b - INR s / (INR rows - 1)) / (f * tsamp * INR b ^ 2) in
  nu <= top -> top - nu <= / (f * tsamp * INR b ^ 2 * (INR rows - 1)) ->
  INR s <= drift f tsamp b rows nu <= INR s + 1.
Proof.
  intros Hf Ht Hb Hs top Hhi Hlo.
  assert (HbR : 2 <= INR b) by (apply (le_INR 2); auto).
  assert (HsR : INR s + 1 <= INR rows - 1).
  { assert (INR (s + 1) + 1 <= INR rows) by (rewrite <- S_INR; apply le_INR; lia). rewrite plus_INR in H. cbn [INR] in H. lra. }
  pose proof (pos_INR s) as Ps. unfold drift.
  set (m := INR rows - 1) in *. assert (Pm : 0 < m) by lra.
  set (d := 1 - INR b * (nu * (f * tsamp))).
  assert (Pft : 0 < f * tsamp) by (apply Rmult_lt_0_compat; lra).
  assert (T : top * (f * tsamp) * INR b = 1 - INR s / m / INR b).
  { unfold top. field. repeat split; try lra; apply Rgt_not_eq; lra. }
  split.
  - assert (nu * (f * tsamp) * INR b <= top * (f * tsamp) * INR b).
    { apply Rmult_le_compat_r; [lra|]. apply Rmult_le_compat_r; lra. }
    rewrite T in H. assert (INR s / m / INR b <= d) by (unfold d; lra).
    apply Rmult_le_compat_r with (r := INR b * m) in H0; [|apply Rmult_le_pos; lra].
    replace (INR s / m / INR b * (INR b * m)) with (INR s) in H0 by (field; lra). lra.
  - apply Rmult_le_compat_r with (r := f * tsamp * INR b * (INR b * m)) in Hlo.
    2:{ apply Rmult_le_pos; [apply Rmult_le_pos; lra|apply Rmult_le_pos; lra]. }
    replace (/ (f * tsamp * INR b ^ 2 * m) * (f * tsamp * INR b * (INR b * m))) with 1 in Hlo by (field; lra).
    replace ((top - nu) * (f * tsamp * INR b * (INR b * m)))
      with ((top * (f * tsamp) * INR b - nu * (f * tsamp) * INR b) * (INR b * m)) in Hlo by ring.
    rewrite T in Hlo.
    replace ((1 - INR s / m / INR b - nu * (f * tsamp) * INR b) * (INR b * m))
      with (d * INR b * m - INR s) in Hlo by (unfold d; field; lra). lra.
Qed.

(** One trial: the path [sh] stays within [dev] of the straight line of drift [s], which is that of
    the signal up to one bin and [e]. *)
Section Trial.
Context (size : nat) (f tsamp : R) (b rows s : nat) (sh : nat -> nat) (dev e : R).
Context (Hf : 1 <= f) (Ht : 0 < tsamp) (Hb : (2 <= b)%nat) (Hs : (s + 1 < rows)%nat) (He : 0 <= e).
Context (Hsize : INR (rows * b) * f <= INR size).
Context (Hdev : forall r, (r < rows)%nat ->
  Rabs (INR (sh r) - INR r * INR s / (INR rows - 1)) <= dev).
Context (nu phi w : R).
Context (Hdrift : INR s - e <= drift f tsamp b rows nu <= INR s + 1 + e).

Let A := INR b * phi - dev - 1 - 2 * e.
Let len := w * INR b + 2 * dev + 3 + 4 * e.

(** the part of a sample of the downsampled data at time [u] is folded into the window *)
Lemma aligned (r c : nat) (u : R) (j : Z) : (r < rows)%nat -> (c < b)%nat ->
  INR (r * b + c) * f <= u <= (INR (r * b + c) + 1) * f ->
  phi + IZR j <= nu * (u * tsamp) <= phi + w + IZR j ->
  A <= INR c - INR (sh r) + (INR r - IZR j) * INR b <= A + len.
Proof.
  intros Hr Hc Hu Hj. specialize (Hdev r Hr). apply Rabs_le_inv in Hdev.
  assert (HbR : 2 <= INR b) by (apply (le_INR 2); auto).
  assert (HrR : INR r + 1 <= INR rows) by (rewrite <- S_INR; apply le_INR; lia).
  assert (HsR : INR s + 1 <= INR rows - 1).
  { assert (INR (s + 1) + 1 <= INR rows) by (rewrite <- S_INR; apply le_INR; lia). rewrite plus_INR in H. cbn [INR] in H. lra. }
  assert (HcR : INR c + 1 <= INR b) by (rewrite <- S_INR; apply le_INR; lia).
  pose proof (pos_INR r) as Pr. pose proof (pos_INR c) as Pc. pose proof (pos_INR s) as Ps.
  unfold drift in Hdrift. destruct Hdrift as [D1 D2].
  set (m := INR rows - 1) in *. assert (Pm : 1 <= m) by lra.
  (* drift of the signal per bin, relative to [b] bins per rotation *)
  set (d := 1 - INR b * (nu * (f * tsamp))) in *.
  (* the time in bins *)
  set (th := u / f - INR (r * b + c)).
  assert (Th : 0 <= th <= 1).
  { unfold th. assert (u = u / f * f) as U by (field; lra). split.
    - apply Rmult_le_reg_r with f; [lra|]. lra.
    - apply Rmult_le_reg_r with f; [lra|]. lra. }
  assert (EU : u = (INR r * INR b + INR c + th) * f).
  { unfold th. rewrite plus_INR, mult_INR. field. lra. }
  assert (EN : INR b * (nu * (u * tsamp)) = (INR r * INR b + INR c + th) * (1 - d)).
  { rewrite EU. unfold d. ring. }
  assert (J : INR b * (phi + IZR j) <= (INR r * INR b + INR c + th) * (1 - d) <= INR b * (phi + w + IZR j)).
  { rewrite <- EN. split; apply Rmult_le_compat_l; lra. }
  (* the drift up to row [r] and inside it *)
  assert (E1 : INR r * INR s / m - e <= d * INR b * INR r <= INR r * INR s / m + 1 + e).
  { assert (Hrm : INR r <= m) by (unfold m; lra).
    assert (e * INR r <= e * m) by (apply Rmult_le_compat_l; auto).
    split.
    - apply Rmult_le_reg_r with m; [lra|]. replace ((INR r * INR s / m - e) * m) with (INR r * INR s - e * m) by (field; lra).
      apply Rmult_le_compat_l with (r := INR r) in D1; auto. lra.
    - apply Rmult_le_reg_r with m; [lra|].
      replace ((INR r * INR s / m + 1 + e) * m) with (INR r * INR s + m + e * m) by (field; lra).
      apply Rmult_le_compat_l with (r := INR r) in D2; auto. lra. }
  assert (E2 : - e <= d * (INR c + th) <= 1 + e).
  { assert (B1 : - e <= d * INR b).
    { apply Rmult_le_reg_r with m; [lra|].
      assert (e * 1 <= e * m) by (apply Rmult_le_compat_l; auto). lra. }
    assert (B2 : d * INR b <= 1 + e).
    { apply Rmult_le_reg_r with m; [lra|].
      assert (e * 1 <= e * m) by (apply Rmult_le_compat_l; auto). lra. }
    set (q := (INR c + th) / INR b).
    assert (Q : 0 <= q <= 1).
    { unfold q. split.
      - apply Rmult_le_pos; [lra|]. left. apply Rinv_0_lt_compat. lra.
      - apply Rmult_le_reg_r with (INR b); [lra|].
        replace ((INR c + th) / INR b * INR b) with (INR c + th) by (field; lra). lra. }
    replace (d * (INR c + th)) with (d * INR b * q) by (unfold q; field; lra).
    split.
    - apply Rle_trans with (- e * q).
      + assert (e * q <= e * 1) by (apply Rmult_le_compat_l; lra). lra.
      + apply Rmult_le_compat_r; lra.
    - apply Rle_trans with ((1 + e) * q).
      + apply Rmult_le_compat_r; lra.
      + assert ((1 + e) * q <= (1 + e) * 1) by (apply Rmult_le_compat_l; lra). lra. }
  unfold A, len.
  assert (X : (INR r * INR b + INR c + th) * (1 - d) = INR r * INR b + INR c + th - d * INR b * INR r - d * (INR c + th)) by ring.
  rewrite X in J. split; lra.
Qed.

(** first bin of the window *)
Definition window_start : nat := Z.to_nat (Zceil A mod Z.of_nat b).

Lemma window_start_lt : (window_start < b)%nat.
Proof. unfold window_start. pose proof (Z.mod_pos_bound (Zceil A) (Z.of_nat b) ltac:(lia)). lia. Qed.

Lemma in_window_of (W c c' r : nat) (q : Z) : len + 1 <= INR W -> (W < b)%nat -> (c < b)%nat -> c' = ((c + sh r) mod b)%nat ->
  A <= INR c' - INR (sh r) + IZR q * INR b <= A + len -> in_window b window_start W c = true.
Proof.
  intros HW HWb Hc Ec H. unfold in_window. apply Nat.ltb_lt.
  pose proof (Nat.div_mod (c + sh r) b ltac:(lia)) as DM. rewrite <- Ec in DM.
  set (qe := ((c + sh r) / b)%nat) in *.
  set (z := (Z.of_nat c' - Z.of_nat (sh r) + q * Z.of_nat b)%Z).
  assert (Ez : IZR z = INR c' - INR (sh r) + IZR q * INR b).
  { unfold z. rewrite plus_IZR, minus_IZR, mult_IZR, <- !INR_IZR_INZ. reflexivity. }
  rewrite <- Ez in H. destruct H as [Z1 Z2].
  assert (Z3 : (Zceil A <= z)%Z) by (now apply Zceil_glb).
  assert (Z4 : (z - Zceil A < Z.of_nat W)%Z).
  { apply lt_IZR. rewrite minus_IZR, <- INR_IZR_INZ. pose proof (Zceil_ub A). lra. }
  assert (Q : exists k : Z, (Z.of_nat ((c + (b - window_start)) mod b) = z - Zceil A + k * Z.of_nat b)%Z).
  { rewrite Nat2Z.inj_mod, Nat2Z.inj_add, Nat2Z.inj_sub by (pose proof window_start_lt; lia).
    unfold window_start. rewrite Z2Nat.id by (apply Z.mod_pos_bound; lia).
    rewrite (Z.mod_eq (Zceil A)) by lia. rewrite Z.mod_eq by lia. unfold z.
    assert (Z.of_nat c + Z.of_nat (sh r) = Z.of_nat b * Z.of_nat qe + Z.of_nat c')%Z by (rewrite <- !Nat2Z.inj_add, DM; lia).
    match goal with |- exists k, (?x + (?y - (?a - ?y * ?p)) - ?y * ?o = _)%Z =>
      exists (1 + p - o - q + Z.of_nat qe)%Z end. nia. }
  destruct Q as [k Q].
  pose proof (Nat.mod_upper_bound (c + (b - window_start)) b ltac:(lia)) as U.
  assert (k = 0)%Z by nia. subst k. lia.
Qed.

Definition template (W c : nat) : R := if in_window b window_start W c then bh b W else - bb b W.

(** contribution of sample [i] to the response to the boxcar of width [W] in the window *)
Definition coefficient (W i : nat) : R :=
  rsum rows (fun r => rsum b (fun c =>
    let k := (r * b + (c + sh r) mod b)%nat in template W c * weight i (INR k * f) ((INR k + 1) * f))).

Lemma row_rotation (r : nat) (g : nat -> R) :
  rsum b (fun c => g (r * b + (c + sh r) mod b)%nat) = rsum b (fun c => g (r * b + c)%nat).
Proof. apply (rsum_rot b (sh r) (fun c => g (r * b + c)%nat)). lia. Qed.

Lemma weight_folded i :
  rsum rows (fun r => rsum b (fun c => let k := (r * b + (c + sh r) mod b)%nat in weight i (INR k * f) ((INR k + 1) * f)))
  = weight i 0 (INR (rows * b) * f).
Proof.
  rewrite <- weight_steps by lra. rewrite <- rsum_blocks. apply rsum_ext. intros r Hr.
  apply (row_rotation r (fun k => weight i (INR k * f) ((INR k + 1) * f))).
Qed.

Lemma coefficient_on (W i : nat) : len + 1 <= INR W -> (W < b)%nat -> 0 <= nu -> on_pulse nu phi w tsamp i ->
  coefficient W i = bh b W * weight i 0 (INR (rows * b) * f).
Proof.
  intros HW HWb Hnu (j & J1 & J2). rewrite <- weight_folded, <- rsum_scal. unfold coefficient.
  apply rsum_ext. intros r Hr. rewrite <- rsum_scal. apply rsum_ext. intros c Hc. cbv zeta.
  set (k := (r * b + (c + sh r) mod b)%nat).
  destruct (Req_dec (weight i (INR k * f) ((INR k + 1) * f)) 0) as [->|N]; [ring|]. f_equal.
  unfold template. rewrite (in_window_of W c ((c + sh r) mod b)%nat r (Z.of_nat r - j)); auto.
  rewrite minus_IZR, <- INR_IZR_INZ.
  apply (aligned r _ (Rmax (INR i) (INR k * f)) j Hr).
  - apply Nat.mod_upper_bound. lia.
  - fold k. pose proof (pos_INR k). split; [apply Rmax_r|].
    apply Rmax_lub; [|nra]. revert N. unfold weight, overlap, Rmax, Rmin.
    repeat destruct (Rle_dec _ _); lra.
  - assert (U : INR i <= Rmax (INR i) (INR k * f) <= INR i + 1).
    { split; [apply Rmax_l|]. apply Rmax_lub; [lra|]. revert N. unfold weight, overlap, Rmax, Rmin.
      repeat destruct (Rle_dec _ _); lra. }
    set (u := Rmax (INR i) (INR k * f)) in *. split.
    + apply Rle_trans with (1 := J1). apply Rmult_le_compat_l; auto. apply Rmult_le_compat_r; lra.
    + apply Rle_trans with (2 := J2). apply Rmult_le_compat_l; auto. apply Rmult_le_compat_r; lra.
Qed.

Lemma coefficient_ge (W i : nat) : (0 < W < b)%nat ->
  - bb b W * weight i 0 (INR (rows * b) * f) <= coefficient W i.
Proof.
  intros HW. destruct (bh_facts b W HW) as (B1 & B2 & _).
  rewrite <- weight_folded, <- rsum_scal. apply rsum_le. intros r Hr.
  rewrite <- rsum_scal. apply rsum_le. intros c Hc. cbv zeta.
  apply Rmult_le_compat_r; [apply weight_nonneg|]. unfold template. destruct (in_window _ _ _ _); lra.
Qed.

Lemma template_sum (W : nat) : (0 < W < b)%nat -> rsum b (template W) = 0.
Proof.
  intros HW. destruct (template_exists b W window_start window_start_lt HW) as (_ & _ & _ & _ & H & _). exact H.
Qed.

Lemma k_bound r c : (r < rows)%nat -> (c < b)%nat -> (r * b + c + 1 <= rows * b)%nat.
Proof. intros. nia. Qed.

Lemma coefficient_sum (W : nat) : (0 < W < b)%nat -> rsum size (coefficient W) = 0.
Proof.
  intros HW. unfold coefficient. rewrite rsum_swap.
  apply rsum_zero. intros r Hr. rewrite rsum_swap.
  transitivity (rsum b (fun c => f * template W c)).
  - apply rsum_ext. intros c Hc. cbv zeta. rewrite rsum_scal.
    set (k := (r * b + (c + sh r) mod b)%nat).
    assert (K : (INR k + 1) * f <= INR (rows * b) * f).
    { apply Rmult_le_compat_r; [lra|]. rewrite <- S_INR. apply le_INR. unfold k.
      rewrite <- Nat.add_1_r. apply k_bound; auto. apply Nat.mod_upper_bound. lia. }
    pose proof (pos_INR k). rewrite weight_total; [ring|nra|nra|lra].
  - rewrite rsum_scal, template_sum by auto. ring.
Qed.

(** no response is below that of the window *)
Lemma coefficient_response (W : nat) (data x prof : list R) (v : R) : (0 < W < b)%nat ->
  (forall k, (k < rows * b)%nat ->
    nth k x 0 = rsum size (fun i => nth i data 0 * weight i (INR k * f) ((INR k + 1) * f))) ->
  length prof = b ->
  (forall c, (c < b)%nat -> nth c prof 0 = rsum rows (fun r => nth (r * b + (c + sh r) mod b) x 0)) ->
  best_response prof W v ->
  rsum size (fun i => coefficient W i * nth i data 0) <= v.
Proof.
  intros HW Hx Lp Hp [_ M]. rewrite Lp in M.
  specialize (M window_start (template W) window_start_lt (template_exists b W window_start window_start_lt HW)).
  apply Rle_trans with (2 := M). right. unfold inner.
  transitivity (rsum b (fun c => rsum rows (fun r => rsum size (fun i =>
    let k := (r * b + (c + sh r) mod b)%nat in template W c * weight i (INR k * f) ((INR k + 1) * f) * nth i data 0)))).
  - rewrite (rsum_ext size _ (fun i => rsum rows (fun r => rsum b (fun c =>
      let k := (r * b + (c + sh r) mod b)%nat in template W c * weight i (INR k * f) ((INR k + 1) * f) * nth i data 0)))).
    + rewrite rsum_swap.
      transitivity (rsum rows (fun r => rsum b (fun c => rsum size (fun i =>
        let k := (r * b + (c + sh r) mod b)%nat in template W c * weight i (INR k * f) ((INR k + 1) * f) * nth i data 0)))).
      * apply rsum_ext. intros r Hr. apply rsum_swap.
      * apply rsum_swap.
    + intros i Hi. unfold coefficient. rewrite Rmult_comm, <- rsum_scal. apply rsum_ext. intros r Hr.
      rewrite <- rsum_scal. apply rsum_ext. intros c Hc. cbv zeta. ring.
  - apply rsum_ext. intros c Hc. rewrite Hp by auto. rewrite Rmult_comm, <- rsum_scal. apply rsum_ext. intros r Hr.
    rewrite Hx.
    + rewrite <- rsum_scal. apply rsum_ext. intros i Hi. cbv zeta. ring.
    + unfold lt. rewrite <- Nat.add_1_r. apply k_bound; auto. apply Nat.mod_upper_bound. lia.
Qed.
End Trial.
