(** C130: folding in floating point. *)
From Coq Require Import List Arith ZArith Bool Lia Reals Lra Psatz.
From Flocq Require Import Core Relative.
From Verif Require Import Base.Result Base.Buf Base.Num Model.Transforms Model.Downsample Model.Folding
  Spec.Sums Spec.Overlap Proof.Index Proof.SumOrder Proof.Downsample Proof.Rounding Proof.DownsampleFloat Proof.SearchFloat Proof.CoverageFloat
  Proof.NormFloat Props.Downsample Props.Folding Props.SnrFloat Props.DownsampleFloat.
Import ListNotations.
Local Open Scope R_scope.

(** bin [c] of row [r] of the data folded with [f] samples per bin, [m] rows of [bins] bins, in units of
    the standard deviation of the sum of [m f] samples *)
Definition cell (data : list R) (bins m : nat) (f : R) (r c : nat) : R :=
  binned data f (r * bins + c) / sqrt (INR m * f).

(** one rounding in single precision for each of [n] operations *)
Definition growth (n : nat) : R := (1 + / 2 ^ 24) ^ n.

(** the part of the error of a cell which does not scale with the samples summed: the displacement of
    its ends in double precision (for samples of at most [X]) and underflow *)
Definition cell_floor (N m : nat) (f X : R) : R :=
  (INR N * / 2 ^ 50 * X + 3 * / 2 ^ 150) / sqrt (INR m * f) + / 2 ^ 150.

Lemma U24 : / 2 ^ 24 = u32.
Proof. unfold u32. f_equal. rewrite pow_IZR. reflexivity. Qed.
Lemma U53 : / 2 ^ 53 = u64.
Proof. unfold u64. f_equal. rewrite pow_IZR. reflexivity. Qed.

Lemma growth_ge1 n : 1 <= growth n.
Proof. apply pow_R1_Rle. rewrite U24. pose proof u32_pos. lra. Qed.
Lemma growth_add a b : growth (a + b) = growth a * growth b.
Proof. apply pow_add. Qed.

(** a value near another times a factor near another *)
Lemma near_scale g S e v A h s sg : 1 <= g -> 0 <= e -> 0 <= sg -> Rabs (s - sg) <= (h - 1) * sg -> 1 <= h -> near g S e v A ->
  near (g * h) (S * sg) (e * sg) (v * s) (A * sg).
Proof.
  intros Hg He Hs Hh H1 [N1 N2]. split.
  { rewrite Rabs_mult, (Rabs_pos_eq sg) by auto. now apply Rmult_le_compat_r. }
  assert (S0 : 0 <= S) by (pose proof (Rabs_pos A); lra).
  assert (V : Rabs v <= g * (S + e)).
  { replace v with (A + (v - A)) by ring. eapply Rle_trans; [apply Rabs_triang|]. lra. }
  replace (v * s - A * sg) with (v * (s - sg) + (v - A) * sg) by ring.
  eapply Rle_trans; [apply Rabs_triang|]. rewrite !Rabs_mult, (Rabs_pos_eq sg) by auto.
  assert (Rabs v * Rabs (s - sg) <= g * (S + e) * ((h - 1) * sg)).
  { apply Rmult_le_compat; auto using Rabs_pos. }
  assert (Rabs (v - A) * sg <= ((g - 1) * S + g * e) * sg) by now apply Rmult_le_compat_r.
  replace ((g * h - 1) * (S * sg) + g * h * (e * sg)) with (g * (S + e) * ((h - 1) * sg) + ((g - 1) * S + g * e) * sg) by ring.
  lra.
Qed.

(** the scale factor *)
Lemma scale_near q : 1 <= q <= 2 ^ 26 ->
  let s := rnd32 (rnd64 (1 / rnd64 (sqrt (rnd64 q)))) in
  Rabs (s - / sqrt q) <= ((1 + u32) * (1 + u32) - 1) * / sqrt q /\ F32 s.
Proof.
  intros Hq s. split; [|apply F32_rnd].
  assert (B1000 : forall x, / 2 ^ 30 <= x -> bpow radix2 (-1000) <= x).
  { intros x Hx. eapply Rle_trans; [|exact Hx]. replace (/ 2 ^ 30) with (bpow radix2 (-30)); [apply bpow_le; lia|].
    change (bpow radix2 (-30)) with (/ IZR (Z.pow_pos 2 30)). f_equal. rewrite pow_IZR. reflexivity. }
  assert (P30 : / 2 ^ 30 <= / 2).
  { apply Rinv_le_contravar; [lra|]. rewrite <- (pow_1 2) at 1. apply Rle_pow; [lra|lia]. }
  assert (Q1 : rel64 (0 + 1 + / 10) (rnd64 q) q) by (apply rel64_rnd; [lra|apply B1000; lra|apply rel64_exact; lra]).
  assert (SQ : 1 <= sqrt q <= 2 ^ 13).
  { split; [rewrite <- sqrt_1; apply sqrt_le_1_alt; lra|]. rewrite <- (sqrt_Rsqr (2 ^ 13)) by (apply pow_le; lra).
    apply sqrt_le_1_alt. unfold Rsqr. rewrite <- pow_add. exact (proj2 Hq). }
  assert (Q2 : rel64 (0 + 1 + / 10) (sqrt (rnd64 q)) (sqrt q)).
  { unfold rel64 in *. apply sqrt_rel; auto; [lra|]. unfold u64. lra. }
  apply rel64_rnd in Q2; [|lra|apply B1000; lra].
  assert (Q3 : rel64 (0 + (0 + 1 + / 10 + 1 + / 10) + / 10) (1 / rnd64 (sqrt (rnd64 q))) (1 / sqrt q)).
  { apply rel64_div; try lra; [apply rel64_exact; lra|exact Q2]. }
  assert (I1 : / 2 ^ 13 <= 1 / sqrt q <= 1).
  { unfold Rdiv. rewrite Rmult_1_l. split; [apply Rinv_le_contravar; lra|]. rewrite <- Rinv_1. apply Rinv_le_contravar; lra. }
  apply rel64_rnd in Q3; [|lra|].
  2:{ apply B1000. eapply Rle_trans; [|exact (proj1 I1)]. apply Rinv_le_contravar; [apply pow_lt; lra|]. apply Rle_pow; [lra|lia]. }
  set (t := rnd64 (1 / _)) in *. replace (1 / sqrt q) with (/ sqrt q) in * by (unfold Rdiv; ring).
  set (sg := / sqrt q) in *. assert (S0 : / 2 ^ 13 <= sg) by lra.
  assert (S0' : 0 < sg) by (eapply Rlt_le_trans; [apply Rinv_0_lt_compat, (pow_lt 2 13); lra|exact S0]).
  unfold rel64 in Q3.
  assert (T1 : Rabs (t - sg) <= 4 * u64 * sg).
  { eapply Rle_trans; [exact Q3|]. apply Rmult_le_compat_r; [lra|]. unfold u64. lra. }
  clear Q3. pose proof (Rabs_le_inv _ _ T1) as T2.
  assert (U4 : 4 * u64 * sg <= / 4 * sg) by (apply Rmult_le_compat_r; [lra|]; unfold u64; lra).
  assert (T3 : Rabs (rnd32 t - t) <= u32 * Rabs t).
  { apply rnd32_normal. rewrite Rabs_pos_eq by lra. apply Rle_trans with (/ 2 * / 2 ^ 13); [|lra].
    replace (/ 2 * / 2 ^ 13) with (bpow radix2 (-14)); [apply bpow_le; lia|].
    change (bpow radix2 (-14)) with (/ IZR (Z.pow_pos 2 14)). rewrite <- Rinv_mult. f_equal. rewrite <- tech_pow_Rmult || idtac.
    replace (2 * 2 ^ 13) with (2 ^ 14) by ring. rewrite pow_IZR. reflexivity. }
  rewrite (Rabs_pos_eq t) in T3 by lra.
  replace (s - sg) with ((rnd32 t - t) + (t - sg)) by (unfold s; ring).
  eapply Rle_trans; [apply Rabs_triang|].
  assert (u32 * t <= u32 * ((1 + 4 * u64) * sg)) by (apply Rmult_le_compat_l; [unfold u32|]; lra).
  apply Rle_trans with (u32 * ((1 + 4 * u64) * sg) + 4 * u64 * sg); [lra|].
  replace (u32 * ((1 + 4 * u64) * sg) + 4 * u64 * sg) with ((u32 * (1 + 4 * u64) + 4 * u64) * sg) by ring.
  apply Rmult_le_compat_r; [lra|]. unfold u32, u64. lra.
Qed.

Lemma weights_le (N : nat) a b : 0 <= a <= b -> rsum N (fun i => weight i a b) <= b - a.
Proof.
  intros H. rewrite (rsum_ext N _ (fun i => weight i 0 b - weight i 0 a)).
  - rewrite rsum_minus, !weight_prefix by lra. pose proof (pos_INR N). minmax.
  - intros i _. rewrite <- (weight_split i 0 a b) by lra. ring.
Qed.

Lemma binned_abs (data : list R) f k : 0 <= f ->
  Rabs (binned data f k) <= binned (map Rabs data) f k /\
  binned (map Rabs data) f k = rsum (length data) (fun i => Rabs (nth i data 0 * weight i (INR k * f) ((INR k + 1) * f))).
Proof.
  intros Hf.
  assert (E : binned (map Rabs data) f k = rsum (length data) (fun i => Rabs (nth i data 0 * weight i (INR k * f) ((INR k + 1) * f)))).
  { unfold binned. rewrite map_length. apply rsum_ext. intros i Hi.
    rewrite nth_map_in with (d' := 0) by exact Hi. rewrite Rabs_mult, (Rabs_pos_eq (weight _ _ _)); [reflexivity|apply weight_nonneg]. }
  split; [|exact E]. rewrite E. apply rsum_abs.
Qed.

Lemma binned_max (data : list R) f k X : 0 <= f -> 0 <= X -> (forall i, (i < length data)%nat -> Rabs (nth i data 0) <= X) ->
  0 <= binned (map Rabs data) f k <= X * f.
Proof.
  intros Hf HX0 HX. destruct (binned_abs data f k Hf) as [A E].
  split; [eapply Rle_trans; [apply Rabs_pos|exact A]|]. rewrite E.
  apply Rle_trans with (rsum (length data) (fun i => X * weight i (INR k * f) ((INR k + 1) * f))).
  - apply rsum_le. intros i Hi. rewrite Rabs_mult, (Rabs_pos_eq (weight _ _ _)) by apply weight_nonneg.
    apply Rmult_le_compat_r; [apply weight_nonneg|now apply HX].
  - rewrite rsum_scal. apply Rmult_le_compat_l; [exact HX0|]. eapply Rle_trans; [apply weights_le|].
    + pose proof (pos_INR k). split; [now apply Rmult_le_pos|]. apply Rmult_le_compat_r; lra.
    + lra.
Qed.

Lemma eta_pos : 0 < / 2 ^ 150.
Proof. apply Rinv_0_lt_compat, pow_lt. lra. Qed.

Section Cells.
Context (bld : build) (data : list R) (f X : R) (bins m : nat) (down : list R).
Let N := length data.
Let t := (Z.to_nat (Zceil f) + 3)%nat.
Context (HN : (Z.of_nat N <= 33554432)%Z) (Hf : 1 < f) (X0 : 0 <= X).
Context (HX : forall i, (i < N)%nat -> Rabs (nth i data 0) <= X).
Context (Hb : (1 <= bins)%nat) (Hm : (1 <= m)%nat) (Hd : (m * bins <= length down)%nat).
Context (Hs : INR (length down) * f <= INR N * (1 + / 2 ^ 53)).
Context (HV : forall k, (k < length down)%nat ->
  let term i := nth i data 0 * weight i (INR k * f) ((INR k + 1) * f) in
  Rabs (nth k down 0 - rsum N term)
    <= ((1 + / 2 ^ 24) ^ t - 1) * rsum N (fun i => Rabs (term i)) + (1 + / 2 ^ 24) ^ t * (INR N * / 2 ^ 50 * X + 3 * / 2 ^ 150)).

Let s := rnd32 (rnd64 (1 / rnd64 (sqrt (rnd64 (INR m * f))))).
Let M : arr2 R := Arr2 m bins (map (fun v => rnd32 (v * s)) (firstn (m * bins) down)).

Lemma mf_range : 1 <= INR m * f <= 2 ^ 26.
Proof.
  assert (M1 : 1 <= INR m) by (apply (le_INR 1); lia). split; [nra|].
  assert (INR m <= INR (length down)) by (apply le_INR; nia).
  assert (INR m * f <= INR (length down) * f) by (apply Rmult_le_compat_r; lra).
  assert (N1 : INR N <= 33554432) by (rewrite INR_IZR_INZ; apply IZR_le; exact HN). pose proof (pos_INR N).
  rewrite U53 in Hs. assert (INR N * (1 + u64) <= 33554432 * 2) by (unfold u64; nra).
  replace (2 ^ 26) with 67108864 by ring. lra.
Qed.

Lemma cell_floor_nonneg : 0 <= cell_floor N m f X.
Proof.
  unfold cell_floor. pose proof eta_pos. pose proof mf_range. pose proof (pos_INR N).
  assert (0 < / sqrt (INR m * f)) by (apply Rinv_0_lt_compat, sqrt_lt_R0; lra).
  assert (0 < / 2 ^ 50) by (apply Rinv_0_lt_compat, pow_lt; lra).
  assert (0 <= INR N * / 2 ^ 50 * X) by (apply Rmult_le_pos; [apply Rmult_le_pos; lra|lra]).
  assert (0 <= (INR N * / 2 ^ 50 * X + 3 * / 2 ^ 150) / sqrt (INR m * f)) by (apply Rmult_le_pos; lra). lra.
Qed.

Lemma cells_near r c : (r < m)%nat -> (c < bins)%nat ->
  F32 (at2 0 M r c) /\
  near (growth (t + 3)) (cell (map Rabs data) bins m f r c) (cell_floor N m f X) (at2 0 M r c) (cell data bins m f r c).
Proof.
  intros Hr Hc. set (k := (r * bins + c)%nat).
  assert (K : (k < m * bins)%nat) by (unfold k; nia).
  assert (E : at2 0 M r c = rnd32 (nth k down 0 * s)).
  { unfold at2, M. cbn [a_cols a_data]. fold k.
    rewrite nth_map_in with (d' := 0) by (rewrite firstn_length; lia). now rewrite nth_firstn_lt. }
  rewrite E. split; [apply F32_rnd|].
  pose proof mf_range as MF. destruct (scale_near _ MF) as [SN _]. fold s in SN.
  assert (SQ : 0 < sqrt (INR m * f)) by (apply sqrt_lt_R0; lra).
  assert (SG : 0 < / sqrt (INR m * f)) by now apply Rinv_0_lt_compat.
  pose proof (pos_INR N) as N0. pose proof u32_pos as U. pose proof eta32_pos as ET. pose proof eta_pos as EP.
  set (e0 := INR N * / 2 ^ 50 * X + 3 * / 2 ^ 150).
  assert (E0 : 0 <= e0).
  { unfold e0. assert (0 < / 2 ^ 50) by (apply Rinv_0_lt_compat, pow_lt; lra).
    assert (0 <= INR N * / 2 ^ 50 * X) by (apply Rmult_le_pos; [apply Rmult_le_pos; lra|lra]). lra. }
  destruct (binned_abs data f k ltac:(lra)) as [BA BE].
  assert (ND : near (growth t) (binned (map Rabs data) f k) e0 (nth k down 0) (binned data f k)).
  { split; [exact BA|]. rewrite BE. exact (HV k ltac:(lia)). }
  pose proof (growth_ge1 t) as G1.
  apply (near_scale _ _ _ _ _ ((1 + u32) * (1 + u32)) s (/ sqrt (INR m * f))) in ND; auto; try lra; [|nra].
  apply (near_rnd eta32) in ND; try lra; [|apply Rle_trans with (1 * 1); [lra|apply Rmult_le_compat; try lra; nra]|apply Rmult_le_pos; lra|apply rnd32_err].
  unfold cell, cell_floor, Rdiv. fold N e0. rewrite <- eta32_eq.
  replace (growth (t + 3)) with ((1 + u32) * (growth t * ((1 + u32) * (1 + u32)))); [exact ND|].
  rewrite growth_add. unfold growth at 3. rewrite U24. ring.
Qed.

(** a profile: the sums of the columns, in any order *)
Lemma profile_near c : (c < bins)%nat ->
  near (growth (m - 1 + (t + 3))) (rsum m (fun r => cell (map Rabs data) bins m f r c)) (INR m * cell_floor N m f X)
    (nth c (column_sums (numF bld) M) 0) (rsum m (fun r => cell data bins m f r c)).
Proof.
  intros Hc. unfold column_sums. change (n_T (numF bld)) with R in *. rewrite nth_seq_map by exact Hc.
  change (@n_sgl (numF bld)) with (opsF rnd32 bld).
  set (an := map (fun r => (cell (map Rabs data) bins m f r c, cell_floor N m f X, cell data bins m f r c) : ann) (seq 0 m)).
  assert (LC : length (column (numF bld) M c) = m) by (unfold column; now rewrite map_length, seq_length).
  destruct (sum_near bld c (map Val (column (numF bld) M c)) an (growth (t + 3))) as [_ Q].
  - intros Q. apply map_eq_nil in Q. rewrite Q in LC. cbn in LC. lia.
  - apply growth_ge1.
  - unfold column, an. cbn [M a_rows]. rewrite map_map. pose proof cell_floor_nonneg as E0.
    assert (G : forall n lo, (lo + n <= m)%nat -> Forall2 (tnear (growth (t + 3)))
      (map (fun r => Val (nth (r * a_cols M + c) (a_data M) (rnd64 0))) (seq lo n))
      (map (fun r => (cell (map Rabs data) bins m f r c, cell_floor N m f X, cell data bins m f r c) : ann) (seq lo n))).
    { induction n as [|n IH]; intros lo Hlo; cbn [seq map]; constructor; [|apply IH; lia].
      destruct (cells_near lo c ltac:(lia) Hc) as [F1 F2]. unfold at2 in F1, F2.
      assert (Z0 : rnd64 0 = 0) by (apply (rnd64_id 0), generic_format_0). rewrite Z0.
      split; [exact E0|]. split; [exact F1|exact F2]. }
    apply (G m 0%nat). lia.
  - rewrite map_length, LC in Q. unfold an in Q. rewrite !tot_range in Q.
    cbn [Nat.add] in Q. unfold a_S, a_e, a_A in Q. cbn [fst snd] in Q. rewrite rsum_const in Q.
    rewrite growth_add. unfold growth at 1. rewrite U24. exact Q.
Qed.
End Cells.

Lemma vertical_F (bld : build) (alloc : nat -> list R) (M : arr2 R) (v XX : R) : allocates alloc ->
  (Z.of_nat (a_rows M) <= 33554432)%Z -> double v -> 1 < v < INR (a_rows M) ->
  (forall r c, (r < a_rows M)%nat -> (c < a_cols M)%nat -> F32 (at2 0 M r c) /\ Rabs (at2 0 M r c) <= XX) ->
  let m := a_rows M in
  exists Y : arr2 R, downsample_vertical (numF bld) alloc M v = Ok Y /\ a_rows Y = downsampled_size (numF bld) m v /\
    a_cols Y = a_cols M /\ arr2_wf Y /\
    ((1 <= a_cols M)%nat -> INR (a_rows Y) * v <= INR m * (1 + / 2 ^ 53) /\ INR m * (1 - / 2 ^ 53) < (INR (a_rows Y) + 1) * v) /\
    forall q c, (q < a_rows Y)%nat -> (c < a_cols M)%nat ->
      let w r := weight r (INR q * v) ((INR q + 1) * v) in
      let g := growth (Z.to_nat (Zceil v) + 3) in
      Rabs (at2 0 Y q c - rsum m (fun r => at2 0 M r c * w r))
        <= (g - 1) * rsum m (fun r => Rabs (at2 0 M r c * w r)) + g * (INR m * / 2 ^ 50 * XX + 3 * / 2 ^ 150).
Proof.
  intros Ha Hm Fv Hv HM m.
  assert (Z0 : rnd64 0 = 0) by (apply (rnd64_id 0), generic_format_0).
  set (dn := fun c => match py_downsample (numF bld) alloc (column (numF bld) M c) v with Ok o => o | _ => nil end).
  set (n := downsampled_size (numF bld) m v).
  assert (CN : forall c r, (r < m)%nat -> nth r (column (numF bld) M c) 0 = at2 0 M r c).
  { intros c r Hr. unfold column. change (n_T (numF bld)) with R in *. rewrite nth_seq_map by exact Hr.
    cbn [numF opsF n_dbl o_ofZ]. rewrite Z0. reflexivity. }
  assert (DN : forall c, (c < a_cols M)%nat ->
    py_downsample (numF bld) alloc (column (numF bld) M c) v = Ok (dn c) /\ length (dn c) = n /\
    INR n * v <= INR m * (1 + / 2 ^ 53) /\ INR m * (1 - / 2 ^ 53) < (INR n + 1) * v /\
    forall q, (q < n)%nat -> let w r := weight r (INR q * v) ((INR q + 1) * v) in
      let g := growth (Z.to_nat (Zceil v) + 3) in
      Rabs (nth q (dn c) 0 - rsum m (fun r => at2 0 M r c * w r))
        <= (g - 1) * rsum m (fun r => Rabs (at2 0 M r c * w r)) + g * (INR m * / 2 ^ 50 * XX + 3 * / 2 ^ 150)).
  { intros c Hc.
    assert (LC : @length R (column (numF bld) M c) = m) by (unfold column; now rewrite map_length, seq_length).
    destruct (downsample_rounding bld alloc (column (numF bld) M c) v XX Ha) as (o & k & Eo & Lo & _ & _ & B1 & B2 & Vo);
      try (change (n_T (numF bld)) with R in *; rewrite LC).
    - exact Hm.
    - exact Fv.
    - fold m in Hv. lra.
    - apply Forall_forall. intros y Hy. destruct (In_nth _ _ 0 Hy) as (r & Hr & <-).
      change (n_T (numF bld)) with R in *. rewrite LC in Hr. rewrite CN by exact Hr. exact (proj1 (HM r c Hr Hc)).
    - intros r Hr. rewrite CN by exact Hr. exact (proj2 (HM r c Hr Hc)).
    - pose proof (py_downsample_length (numF bld) alloc _ v o Ha Eo) as LK. unfold dn.
      change (n_T (numF bld)) with R in *. rewrite Eo. rewrite LC in LK, B1, B2, Vo. fold n in LK.
      rewrite LK in Lo. subst k.
      split; [reflexivity|]. split; [exact LK|]. split; [exact B1|]. split; [exact B2|].
      intros q Hq. set (w := fun r => weight r (INR q * v) ((INR q + 1) * v)). set (g := growth (Z.to_nat (Zceil v) + 3)).
      specialize (Vo q Hq). cbv zeta in Vo. fold g in Vo.
      rewrite (rsum_ext m _ (fun r => at2 0 M r c * w r)) in Vo by (intros r Hr; now rewrite CN).
      rewrite (rsum_ext m (fun i => Rabs _) (fun r => Rabs (at2 0 M r c * w r))) in Vo by (intros r Hr; now rewrite CN).
      exact Vo. }
  exists (from_columns (numF bld) n (map dn (seq 0 (a_cols M)))). split.
  { unfold downsample_vertical. cbn [numF opsF n_ltb n_dbl o_ofZ]. fold m. change (n_T (numF bld)) with R in *.
    rewrite (rnd64_id 1) by (apply (F64_int 1); lia).
    rewrite (rnd64_id (IZR (Z.of_nat (a_rows M)))), <- INR_IZR_INZ by (apply F64_int; lia).
    rewrite Rlt_bool_t by lra. rewrite Rlt_bool_t by lra. cbn [guard bind].
    match goal with |- bind ?x _ = _ => assert (EM : x = Ok (map dn (seq 0 (a_cols M)))) end.
    { apply mapM_ok. intros c Hc. apply in_seq in Hc. apply DN. lia. }
    rewrite EM. reflexivity. }
  unfold from_columns. cbn [a_rows a_cols numF opsF n_dbl o_ofZ]. change (n_T (numF bld)) with R in *. rewrite Z0, map_length, seq_length.
  assert (LR : forall r, length (map (fun c : list R => nth r c 0) (map dn (seq 0 (a_cols M)))) = a_cols M).
  { intros. now rewrite !map_length, seq_length. }
  split; [reflexivity|]. split; [reflexivity|]. split.
  { unfold arr2_wf. cbn [a_rows a_cols a_data]. now apply length_flat_map_rows. }
  split.
  { intros Hc. destruct (DN 0%nat ltac:(lia)) as (_ & _ & B1 & B2 & _). auto. }
  intros q c Hq Hc. unfold at2 at 1. cbn [a_rows a_cols a_data].
  rewrite (nth_flat_map_rows _ n (a_cols M)) by auto.
  rewrite nth_map_in with (d' := nil) by now rewrite map_length, seq_length.
  rewrite nth_seq_map by auto. now apply DN.
Qed.

(** C130.  When fold() returns in floating point, [f] being the rounded number of samples per bin and [m] the
    number of rows: a profile is the sum of the rows, subintegrations are the rows or, for fewer
    subintegrations than rows, integrals over [v] rows; each value is exact up to one
    rounding per operation of the sum of absolute values, plus the floor of each cell. *)
Theorem fold_rounding :
  forall (bld : build) (alloc : nat -> list R) (data : list R) (tsamp period X : R) (bins : nat) (subints : option Z) out,
  allocates alloc -> let N := length data in
  (Z.of_nat N <= 33554432)%Z -> (1 <= bins)%nat -> (Z.of_nat bins < 2 ^ 53)%Z -> double tsamp -> / 2 ^ 200 <= tsamp ->
  Forall single data -> (forall i, (i < N)%nat -> Rabs (nth i data 0) <= X) ->
  fold (numF bld) alloc data tsamp period bins subints = Ok out ->
  exists (f : R) (m : nat),
    double f /\ 1 < f /\ Rabs (f - period / INR bins / tsamp) <= / 2 ^ 51 * (period / INR bins / tsamp) /\ (1 <= m)%nat /\
    INR (m * bins) * f <= INR N * (1 + / 2 ^ 53) /\ INR N * (1 - / 2 ^ 53) < INR ((m + 1) * bins) * f /\
    let exact := cell data bins m f in
    let mass := cell (map Rabs data) bins m f in
    let t := (Z.to_nat (Zceil f) + 6)%nat in
    let e := cell_floor N m f X in
    match out with
    | Prof p =>
      (subints = Some 1%Z \/ m = 1%nat) /\ length p = bins /\
      forall c, (c < bins)%nat -> let g := growth (m - 1 + t) in
        Rabs (nth c p 0 - rsum m (fun r => exact r c)) <= (g - 1) * rsum m (fun r => mass r c) + g * (INR m * e)
    | Subs Y =>
      a_cols Y = bins /\ arr2_wf Y /\
      ((subints = None \/ subints = Some (Z.of_nat m)) /\ (2 <= m)%nat /\ a_rows Y = m /\
       (forall r c, (r < m)%nat -> (c < bins)%nat -> let g := growth t in
          Rabs (at2 0 Y r c - exact r c) <= (g - 1) * mass r c + g * e)
       \/
       exists (s : nat) (v : R), subints = Some (Z.of_nat s) /\ (2 <= s < m)%nat /\ double v /\ 1 < v /\
         Rabs (v - INR m / INR s) <= / 2 ^ 53 * (INR m / INR s) /\ (s - 1 <= a_rows Y <= s)%nat /\
         INR (a_rows Y) * v <= INR m * (1 + / 2 ^ 53) /\ INR m * (1 - / 2 ^ 53) < (INR (a_rows Y) + 1) * v /\
         forall q c, (q < a_rows Y)%nat -> (c < bins)%nat ->
           let w r := weight r (INR q * v) ((INR q + 1) * v) in
           let g1 := growth t in let g := growth (Z.to_nat (Zceil v) + 3) in
           Rabs (at2 0 Y q c - rsum m (fun r => exact r c * w r))
             <= (g * g1 - 1) * rsum m (fun r => mass r c * w r) + g * g1 * (v * e)
                + g * (INR m * / 2 ^ 50 * (g1 * (X * f / sqrt (INR m * f) + e)) + 3 * / 2 ^ 150))
    end.
Proof.
  intros bld alloc data tsamp period X bins subints out Ha N HN Hb Hb2 Ft T0 HF HX H. unfold fold in H. fold N in H.
  cbn [numF opsF n_ltb n_eqb n_leb n_dbl n_sgl n_narrow o_div o_mul o_ofZ o_sqrt] in H. change (n_T (numF bld)) with R in *.
  match type of H with (if ?b then _ else _) = _ => destruct b; [discriminate|] end.
  destruct (Nat.eqb_spec bins 0) as [|B0]; [discriminate|].
  assert (HB : 1 <= INR bins) by (apply (le_INR 1); lia).
  rewrite (rnd64_id (IZR (Z.of_nat bins))), <- INR_IZR_INZ in H by (apply F64_int; lia).
  destruct (Rlt_bool_spec tsamp (rnd64 (period / INR bins))) as [TB|]; [|discriminate]. cbn [guard bind] in H.
  match type of H with bind ?g _ = _ => destruct g as [u| | |] eqn:EG; try discriminate end. cbn [bind] in H.
  set (f := rnd64 (rnd64 (period / INR bins) / tsamp)) in *.
  match type of H with bind ?d _ = _ => destruct d as [down| | |] eqn:Ed; try discriminate end. cbn [bind] in H.
  assert (T0' : 0 < tsamp) by (eapply Rlt_le_trans; [apply Rinv_0_lt_compat, (pow_lt 2 200); lra|exact T0]).
  (* the factor *)
  assert (FF : 1 < f <= INR N).
  { unfold py_downsample in Ed. destruct (valid_factor _ _ _) eqn:EV; [|discriminate]. fold N in EV.
    unfold valid_factor in EV. apply andb_prop in EV as [V1 V2].
    cbn [numF opsF n_ltb n_leb n_dbl o_ofZ] in V1, V2. change (n_T (numF bld)) with R in *.
    rewrite (rnd64_id 1) in V1 by (apply (F64_int 1); lia).
    fold N in V2.
    rewrite (rnd64_id (IZR (Z.of_nat N))), <- INR_IZR_INZ in V2 by (apply F64_int; lia).
    split; [destruct (Rlt_bool_spec 1 f); [auto|discriminate]|destruct (Rle_bool_spec f (INR N)); [auto|discriminate]]. }
  assert (FD : double f) by apply F64_rnd.
  assert (PB : tsamp < period / INR bins).
  { apply Rnot_le_lt. intros Q. apply rnd64_le in Q. rewrite (rnd64_id tsamp) in Q by exact Ft. lra. }
  assert (B1000 : bpow radix2 (-1000) <= tsamp).
  { eapply Rle_trans; [|exact T0]. replace (/ 2 ^ 200) with (bpow radix2 (-200)); [apply bpow_le; lia|].
    change (bpow radix2 (-200)) with (/ IZR (Z.pow_pos 2 200)). f_equal. rewrite pow_IZR. reflexivity. }
  assert (FR : Rabs (f - period / INR bins / tsamp) <= / 2 ^ 51 * (period / INR bins / tsamp)).
  { assert (Q0 : 0 < period / INR bins) by lra.
    assert (Q : 1 < period / INR bins / tsamp).
    { apply Rmult_lt_reg_r with tsamp; [exact T0'|]. unfold Rdiv at 1. rewrite Rmult_assoc, Rinv_l, Rmult_1_r by lra. lra. }
    assert (R1 : rel64 (0 + 1 + / 10) (rnd64 (period / INR bins)) (period / INR bins)).
    { apply rel64_rnd; [lra|lra|]. apply rel64_exact. lra. }
    assert (R2 : rel64 (0 + 1 + / 10 + 0 + / 10) (rnd64 (period / INR bins) / tsamp) (period / INR bins / tsamp)).
    { apply rel64_div; try lra; [exact R1|apply rel64_exact; lra]. }
    apply rel64_rnd in R2; [|lra|].
    2:{ apply Rle_trans with (bpow radix2 0); [apply bpow_le; lia|]. cbn. lra. }
    fold f in R2. unfold rel64 in R2. eapply Rle_trans; [exact R2|]. apply Rmult_le_compat_r; [lra|].
    replace (/ 2 ^ 51) with (4 * u64); [unfold u64; lra|]. unfold u64. replace (2 ^ 51) with 2251799813685248 by ring. lra. }
  assert (N1 : 1 <= INR N) by lra. assert (N1' : (1 <= N)%nat) by (apply INR_le; cbn; lra).
  assert (X0 : 0 <= X) by (pose proof (HX 0%nat ltac:(lia)); pose proof (Rabs_pos (nth 0 data 0)); lra).
  destruct (downsample_rounding bld alloc data f X Ha HN FD FF HF HX) as (down' & n & Ed' & Ln & _ & _ & S1 & S2 & HV).
  change (n_T (numF bld)) with R in *. rewrite Ed' in Ed. injection Ed as ->. fold N in S1, S2, HV. rewrite <- Ln in S1, S2, HV.
  set (m := (length down / bins)%nat) in *.
  pose proof (Nat.div_mod (length down) bins ltac:(lia)) as D. pose proof (Nat.mod_upper_bound (length down) bins ltac:(lia)) as D2. fold m in D.
  assert (HD : (m * bins <= length down)%nat) by lia.
  assert (LN : (length down <= N)%nat).
  { apply INR_le. apply Rnot_lt_le. intros Q. apply INR_lt in Q. apply (le_INR (S N)) in Q. rewrite S_INR in Q.
    assert (INR N + 1 <= INR N * (1 + / 2 ^ 53)) by nra. rewrite U53 in *.
    assert (INR N <= 33554432) by (rewrite INR_IZR_INZ; apply IZR_le; exact HN). unfold u64 in *. nra. }
  assert (MN : (m <= N)%nat) by nia.
  rewrite (rnd64_id (IZR (Z.of_nat m))), <- INR_IZR_INZ in H by (apply F64_int; lia).
  match type of H with (if ?b then _ else _) = _ => destruct b eqn:E0; [discriminate|] end.
  assert (HM : (1 <= m)%nat).
  { destruct (Nat.eq_dec m 0) as [Q|]; [exfalso|lia]. rewrite Q in E0. cbn [INR] in E0.
    rewrite Rmult_0_l, Req_bool_true in E0 by reflexivity. discriminate. }
  rewrite (rnd64_id 1) in H by (apply (F64_int 1); lia).
  set (M := Arr2 m bins (map (fun v => rnd32 (v * rnd32 (rnd64 (1 / rnd64 (sqrt (rnd64 (INR m * f))))))) (firstn (m * bins) down))) in *.
  exists f, m. split; [exact FD|]. split; [lra|]. split; [exact FR|]. split; [exact HM|].
  split. { eapply Rle_trans; [|exact S1]. apply Rmult_le_compat_r; [lra|]. now apply le_INR. }
  split. { eapply Rlt_le_trans; [exact S2|]. apply Rmult_le_compat_r; [lra|]. rewrite <- S_INR. apply le_INR. lia. }
  intros exact mass t e.
  assert (CN : forall r c, (r < m)%nat -> (c < bins)%nat -> F32 (at2 0 M r c) /\ near (growth t) (mass r c) e (at2 0 M r c) (exact r c)).
  { intros r c Hr Hc. unfold t. replace (Z.to_nat (Zceil f) + 6)%nat with (Z.to_nat (Zceil f) + 3 + 3)%nat by lia.
    apply (cells_near data f X bins m down); auto; lra. }
  assert (PN : forall c, (c < bins)%nat -> near (growth (m - 1 + t)) (rsum m (fun r => mass r c)) (INR m * e)
    (nth c (column_sums (numF bld) M) 0) (rsum m (fun r => exact r c))).
  { intros c Hc. unfold t. replace (Z.to_nat (Zceil f) + 6)%nat with (Z.to_nat (Zceil f) + 3 + 3)%nat by lia.
    apply (profile_near bld data f X bins m down); auto; lra. }
  assert (LP : length (column_sums (numF bld) M) = bins) by (unfold column_sums; now rewrite map_length, seq_length).
  assert (WM : arr2_wf M).
  { unfold arr2_wf, M. cbn [a_rows a_cols a_data]. rewrite map_length, firstn_length. lia. }
  assert (PROF : forall c, (c < bins)%nat -> let g := growth (m - 1 + t) in
     Rabs (nth c (column_sums (numF bld) M) 0 - rsum m (fun r => exact r c)) <= (g - 1) * rsum m (fun r => mass r c) + g * (INR m * e)).
  { intros c Hc g. exact (proj2 (PN c Hc)). }
  assert (ROWS : forall r c, (r < m)%nat -> (c < bins)%nat -> let g := growth t in
     Rabs (at2 0 M r c - exact r c) <= (g - 1) * mass r c + g * e).
  { intros r c Hr Hc g. exact (proj2 (proj2 (CN r c Hr Hc))). }
  destruct subints as [s|].
  2:{ destruct (Nat.eqb_spec m 1) as [M1|M1]; injection H as <-.
      - split; [now right|]. split; [exact LP|exact PROF].
      - split; [reflexivity|]. split; [exact WM|]. left. split; [now left|]. split; [lia|]. split; [reflexivity|exact ROWS]. }
  destruct (Z.leb_spec 1 s) as [S1'|]; [|discriminate].
  destruct (Z.eqb_spec s 1) as [->|Sn]; cbn [orb] in H.
  { injection H as <-. split; [now left|]. split; [exact LP|exact PROF]. }
  destruct (Nat.eqb_spec m 1) as [M1|M1].
  { injection H as <-. split; [now right|]. split; [exact LP|exact PROF]. }
  destruct (Z.eqb_spec s (Z.of_nat m)) as [EM|EM].
  { injection H as <-. split; [reflexivity|]. split; [exact WM|]. left. split; [right; now f_equal|]. split; [lia|]. split; [reflexivity|exact ROWS]. }
  match type of H with bind ?d _ = _ => destruct d as [Y'| | |] eqn:EY; try discriminate end.
  cbn [bind] in H. injection H as <-.
  set (v := rnd64 (INR m / rnd64 (IZR s))) in *.
  assert (VV : 1 < v).
  { unfold downsample_vertical in EY. cbn [numF opsF n_ltb n_dbl o_ofZ] in EY. change (n_T (numF bld)) with R in *.
    rewrite (rnd64_id 1) in EY by (apply (F64_int 1); lia).
    destruct (Rlt_bool_spec 1 v); [auto|discriminate]. }
  assert (SM : (s < Z.of_nat m)%Z).
  { destruct (Z.lt_ge_cases s (Z.of_nat m)) as [|GE]; auto. exfalso.
    assert (INR m / rnd64 (IZR s) <= 1).
    { assert (Q1 : INR m <= rnd64 (IZR s)).
      { rewrite INR_IZR_INZ, <- (rnd64_id (IZR (Z.of_nat m))) by (apply F64_int; lia). apply rnd64_le, IZR_le. lia. }
      assert (Q2 : 1 <= rnd64 (IZR s)).
      { rewrite <- (rnd64_id 1) by (apply (F64_int 1); lia). apply rnd64_le, IZR_le. lia. }
      apply Rmult_le_reg_r with (rnd64 (IZR s)); [lra|]. unfold Rdiv. rewrite Rmult_assoc, Rinv_l; lra. }
    apply rnd64_le in H. rewrite (rnd64_id 1) in H by (apply (F64_int 1); lia). fold v in H. lra. }
  assert (ES : IZR s = INR (Z.to_nat s)) by (rewrite INR_IZR_INZ, Z2Nat.id by lia; reflexivity).
  assert (EV : v = rnd64 (INR m / INR (Z.to_nat s))).
  { unfold v. rewrite (rnd64_id (IZR s)) by (apply F64_int; lia). now rewrite ES. }
  set (s' := Z.to_nat s) in *. assert (S2' : (2 <= s' < m)%nat) by lia.
  assert (IS : 2 <= INR s') by (apply (le_INR 2); lia). assert (IM : INR s' + 1 <= INR m) by (rewrite <- S_INR; apply le_INR; lia).
  assert (V0 : 1 <= INR m / INR s').
  { apply Rmult_le_reg_r with (INR s'); [lra|]. unfold Rdiv. rewrite Rmult_assoc, Rinv_l; lra. }
  destruct (Folding.rnd64_rel (INR m / INR s') V0) as [VL VU]. rewrite <- EV in VL, VU.
  assert (VM : v < INR m).
  { eapply Rle_lt_trans; [exact VU|]. assert (INR m / INR s' <= INR m / 2).
    { apply Rmult_le_compat_l; [lra|]. apply Rinv_le_contravar; lra. }
    unfold u64. lra. }
  pose proof (rows_float bld m s' ltac:(lia) ltac:(lia)) as RF. cbv zeta in RF. rewrite <- EV in RF.
  set (g1 := growth t). set (XX := g1 * (X * f / sqrt (INR m * f) + e)).
  pose proof (growth_ge1 t) as G1. fold g1 in G1.
  assert (MF : 1 <= INR m * f <= 2 ^ 26) by (apply (mf_range data f bins m down); auto; lra).
  assert (SQ : 0 < / sqrt (INR m * f)) by (apply Rinv_0_lt_compat, sqrt_lt_R0; lra).
  assert (E0' : 0 <= e) by (apply (cell_floor_nonneg data f X bins m down); auto; lra).
  assert (MS : forall r c, 0 <= mass r c <= X * f / sqrt (INR m * f)).
  { intros r c. destruct (binned_max data f (r * bins + c) X ltac:(lra) X0 HX) as [Q1 Q2]. unfold mass, cell, Rdiv.
    split; [apply Rmult_le_pos; lra|]. apply Rmult_le_compat_r; lra. }
  assert (AB : forall r c, (r < m)%nat -> (c < bins)%nat -> Rabs (at2 0 M r c) <= g1 * (mass r c + e)).
  { intros r c Hr Hc. destruct (CN r c Hr Hc) as [_ [Q1 Q2]]. fold g1 in Q2.
    replace (at2 0 M r c) with (exact r c + (at2 0 M r c - exact r c)) by ring.
    eapply Rle_trans; [apply Rabs_triang|]. lra. }
  destruct (vertical_F bld alloc M v XX Ha) as (Y & EY2 & RY & CY & WY & BY & VY).
  { cbn [M a_rows]. lia. }
  { rewrite EV. apply F64_rnd. }
  { cbn [M a_rows]. lra. }
  { cbn [M a_rows a_cols]. intros r c Hr Hc. split; [exact (proj1 (CN r c Hr Hc))|].
    eapply Rle_trans; [exact (AB r c Hr Hc)|]. unfold XX. apply Rmult_le_compat_l; [lra|]. pose proof (MS r c). lra. }
  change (n_T (numF bld)) with R in *. rewrite EY2 in EY. injection EY as <-.
  cbn [M a_rows a_cols] in RY, CY, BY, VY. destruct (BY ltac:(lia)) as [BY1 BY2].
  split; [exact CY|]. split; [exact WY|]. right. exists s', v.
  split; [f_equal; unfold s'; lia|]. split; [exact S2'|]. split; [rewrite EV; apply F64_rnd|]. split; [exact VV|].
  split. { rewrite U53. apply Rabs_le. lra. }
  rewrite RY in *. split; [exact RF|]. split; [exact BY1|]. split; [exact BY2|].
  intros q c Hq Hc w g1' g. fold g1 in g1'. unfold g1'. clear g1'. fold XX.
  specialize (VY q c Hq Hc). cbv zeta in VY. fold w g in VY.
  assert (W0 : forall r, 0 <= w r) by (intros; apply weight_nonneg).
  assert (WS : rsum m w <= v).
  { eapply Rle_trans; [apply weights_le|lra]. pose proof (pos_INR q). split; [apply Rmult_le_pos; lra|apply Rmult_le_compat_r; lra]. }
  pose proof (growth_ge1 (Z.to_nat (Zceil v) + 3)) as GG. fold g in GG.
  assert (A1 : rsum m (fun r => Rabs (at2 0 M r c * w r)) <= g1 * rsum m (fun r => mass r c * w r) + g1 * (e * v)).
  { apply Rle_trans with (rsum m (fun r => g1 * (mass r c * w r) + g1 * e * w r)).
    - apply rsum_le. intros r Hr. rewrite Rabs_mult, (Rabs_pos_eq (w r)) by auto.
      replace (g1 * (mass r c * w r) + g1 * e * w r) with (g1 * (mass r c + e) * w r) by ring.
      apply Rmult_le_compat_r; auto.
    - rewrite rsum_plus, !rsum_scal. apply Rplus_le_compat_l. rewrite Rmult_assoc.
      apply Rmult_le_compat_l; [lra|]. now apply Rmult_le_compat_l. }
  assert (A2 : Rabs (rsum m (fun r => at2 0 M r c * w r) - rsum m (fun r => exact r c * w r))
    <= (g1 - 1) * rsum m (fun r => mass r c * w r) + g1 * (e * v)).
  { rewrite <- rsum_minus. eapply Rle_trans; [apply rsum_abs|].
    apply Rle_trans with (rsum m (fun r => (g1 - 1) * (mass r c * w r) + g1 * e * w r)).
    - apply rsum_le. intros r Hr. rewrite <- Rmult_minus_distr_r, Rabs_mult, (Rabs_pos_eq (w r)) by auto.
      replace ((g1 - 1) * (mass r c * w r) + g1 * e * w r) with (((g1 - 1) * mass r c + g1 * e) * w r) by ring.
      apply Rmult_le_compat_r; auto.
    - rewrite rsum_plus, !rsum_scal. apply Rplus_le_compat_l. rewrite Rmult_assoc.
      apply Rmult_le_compat_l; [lra|]. now apply Rmult_le_compat_l. }
  set (S := rsum m (fun r => mass r c * w r)) in *.
  match type of VY with Rabs (?y - ?z) <= _ => set (yy := y) in *; set (zz := z) in * end.
  match goal with |- Rabs (_ - ?z) <= _ => set (xx := z) in * end.
  replace (yy - xx) with ((yy - zz) + (zz - xx)) by ring. eapply Rle_trans; [apply Rabs_triang|].
  assert ((g - 1) * rsum m (fun r => Rabs (at2 0 M r c * w r)) <= (g - 1) * (g1 * S + g1 * (e * v))) by (apply Rmult_le_compat_l; lra).
  change (Rabs (zz - xx) <= (g1 - 1) * S + g1 * (e * v)) in A2.
  assert (VY' : Rabs (yy - zz) <= (g - 1) * rsum m (fun r => Rabs (at2 0 M r c * w r)) + g * (INR m * / 2 ^ 50 * XX + 3 * / 2 ^ 150)) by exact VY.
  lra.
Qed.
Print Assumptions fold_rounding.

Lemma exists_bound (l : list R) : exists X, forall i, (i < length l)%nat -> Rabs (nth i l 0) <= X.
Proof.
  induction l as [|a l [X IH]]; [exists 0; cbn; lia|]. exists (Rmax (Rabs a) X). intros [|i] Hi; cbn in *; [apply Rmax_l|].
  eapply Rle_trans; [apply IH; lia|apply Rmax_r].
Qed.

(** fold() returns in floating point when the period, the bins and the subintegrations fit with a margin *)
Theorem fold_float_returns :
  forall (bld : build) (alloc : nat -> list R) (data : list R) (tsamp period : R) (bins : nat) (subints : option Z),
  allocates alloc -> let N := length data in
  (Z.of_nat N <= 33554432)%Z -> (1 <= bins)%nat -> (Z.of_nat bins < 2 ^ 53)%Z -> double tsamp -> / 2 ^ 200 <= tsamp ->
  Forall single data ->
  period * (1 + / 2 ^ 49) <= INR N * tsamp ->
  tsamp * (1 + / 2 ^ 49) <= period / INR bins ->
  match subints with None => True | Some s => (1 <= s)%Z /\ IZR s * period * (1 + / 2 ^ 49) <= INR N * tsamp end ->
  exists out, fold (numF bld) alloc data tsamp period bins subints = Ok out.
Proof.
  intros bld alloc data tsamp period bins subints Ha N HN Hb Hb2 Ft T0 HF HP HT HS.
  assert (T0' : 0 < tsamp) by (eapply Rlt_le_trans; [apply Rinv_0_lt_compat, (pow_lt 2 200); lra|exact T0]).
  assert (B1000 : bpow radix2 (-1000) <= tsamp).
  { eapply Rle_trans; [|exact T0]. replace (/ 2 ^ 200) with (bpow radix2 (-200)); [apply bpow_le; lia|].
    change (bpow radix2 (-200)) with (/ IZR (Z.pow_pos 2 200)). f_equal. rewrite pow_IZR. reflexivity. }
  assert (HB : 1 <= INR bins) by (apply (le_INR 1); lia).
  assert (U : / 2 ^ 49 = 16 * u64).
  { unfold u64. replace (2 ^ 49) with 562949953421312 by ring. lra. }
  rewrite U in *. assert (U0 : 0 < u64 < / 1000000) by (unfold u64; lra).
  set (pb := period / INR bins) in *. assert (PB : pb * INR bins = period) by (unfold pb; field; lra).
  assert (PB0 : tsamp < pb) by nra.
  assert (P1 : pb <= period) by nra.
  assert (N0 : 1 <= INR N).
  { destruct N as [|N'] eqn:EN; [exfalso; cbn [INR] in HP; nra|]. apply (le_INR 1). lia. }
  assert (N1 : INR N <= 33554432) by (rewrite INR_IZR_INZ; apply IZR_le; exact HN).
  assert (NT : tsamp <= INR N * tsamp) by nra.
  assert (RL : rel64 (0 + 1 + / 10) (rnd64 (INR N * tsamp)) (INR N * tsamp)).
  { apply rel64_rnd; [lra|lra|apply rel64_exact; lra]. }
  apply rel64_bounds in RL. set (len := rnd64 (INR N * tsamp)) in *.
  assert (PL : period <= len) by nra.
  assert (RB : rel64 (0 + 1 + / 10) (rnd64 pb) pb) by (apply rel64_rnd; [lra|lra|apply rel64_exact; lra]).
  assert (RQ : rel64 (0 + 1 + / 10 + 0 + / 10) (rnd64 pb / tsamp) (pb / tsamp)).
  { apply rel64_div; try lra; [exact RB|apply rel64_exact; lra]. }
  assert (Q1 : 1 + 16 * u64 <= pb / tsamp).
  { apply Rmult_le_reg_r with tsamp; [exact T0'|]. unfold Rdiv. rewrite Rmult_assoc, Rinv_l, Rmult_1_r by lra. lra. }
  apply rel64_rnd in RQ; [|lra|apply Rle_trans with (bpow radix2 0); [apply bpow_le; lia|cbn; lra]].
  apply rel64_bounds in RB. apply rel64_bounds in RQ.
  set (f := rnd64 (rnd64 pb / tsamp)) in *. set (x := pb / tsamp) in *.
  assert (TX : x * tsamp = pb) by (unfold x; field; lra).
  assert (F1 : 1 < f) by nra.
  assert (XN : INR bins * x * (1 + 16 * u64) <= INR N).
  { apply Rmult_le_reg_r with tsamp; [exact T0'|]. replace (INR bins * x * (1 + 16 * u64) * tsamp) with (x * tsamp * INR bins * (1 + 16 * u64)) by ring.
    rewrite TX, PB. exact HP. }
  assert (BF : INR bins * f <= INR N * (1 - 8 * u64)).
  { assert (INR bins * f <= INR bins * (x * (1 + 3 * u64))).
    { apply Rmult_le_compat_l; [lra|]. eapply Rle_trans; [exact (proj2 RQ)|]. apply Rmult_le_compat_l; [lra|]. lra. }
    assert (INR bins * x * (1 + 16 * u64) * (1 - 8 * u64) <= INR N * (1 - 8 * u64)) by (apply Rmult_le_compat_r; lra).
    assert (0 <= INR bins * x) by (apply Rmult_le_pos; lra).
    assert (INR bins * x * (1 + 3 * u64) <= INR bins * x * ((1 + 16 * u64) * (1 - 8 * u64))).
    { apply Rmult_le_compat_l; [lra|]. nra. }
    lra. }
  assert (FN : f <= INR N) by nra.
  assert (FD : double f) by apply F64_rnd.
  destruct (exists_bound data) as (X & HX).
  destruct (downsample_rounding bld alloc data f X Ha HN FD (conj F1 FN) HF HX) as (down & n & Ed & Ln & _ & _ & S1 & S2 & _).
  fold N in S1, S2. rewrite U53 in S1, S2.
  assert (MS : forall s : nat, (1 <= s)%nat -> INR s * (INR bins * f) <= INR N * (1 - 3 * u64) -> (s <= n / bins)%nat).
  { intros s Hs Q. apply Nat.div_le_lower_bound; [lia|]. apply Nat.lt_succ_r. apply INR_lt. rewrite S_INR, mult_INR.
    apply Rmult_lt_reg_r with f; [lra|]. eapply Rle_lt_trans; [|exact S2].
    replace (INR bins * INR s * f) with (INR s * (INR bins * f)) by ring. eapply Rle_trans; [exact Q|]. apply Rmult_le_compat_l; lra. }
  assert (M1 : (1 <= n / bins)%nat) by (apply MS; [lia|]; cbn [INR]; nra).
  unfold fold. fold N. cbn [numF opsF n_ltb n_eqb n_leb n_dbl n_sgl n_narrow o_div o_mul o_ofZ o_sqrt]. change (n_T (numF bld)) with R in *. fold N.
  rewrite (rnd64_id (IZR (Z.of_nat N))), <- INR_IZR_INZ by (apply F64_int; lia). fold len.
  rewrite Rlt_bool_f by exact PL. destruct (Nat.eqb_spec bins 0) as [|_]; [lia|].
  rewrite (rnd64_id (IZR (Z.of_nat bins))), <- INR_IZR_INZ by (apply F64_int; lia). fold pb.
  rewrite Rlt_bool_t by nra. cbn [guard bind].
  match goal with |- context [bind ?g _] => assert (EG : g = Ok tt) end.
  { destruct subints as [s|]; [|reflexivity]. destruct HS as [Hs1 Hs2]. destruct (Z.leb_spec 1 s); [|lia]. cbn [guard bind].
    rewrite Rlt_bool_f; [reflexivity|].
    apply rnd64_le. apply Rmult_le_reg_r with period; [lra|]. unfold Rdiv. rewrite Rmult_assoc, Rinv_l, Rmult_1_r by lra.
    assert (1 <= IZR s) by (apply IZR_le; exact Hs1). assert (0 <= IZR s * period) by (apply Rmult_le_pos; lra). nra. }
  rewrite EG. cbn [bind]. fold f. rewrite Ed. cbn [bind]. rewrite Ln. set (m := (n / bins)%nat) in *.
  assert (NN : (n <= N)%nat).
  { apply INR_le. apply Rnot_lt_le. intros Q. apply INR_lt in Q. apply (le_INR (S N)) in Q. rewrite S_INR in Q.
    assert (INR n * 1 <= INR n * f) by (apply Rmult_le_compat_l; [apply pos_INR|lra]).
    assert (INR N * u64 <= 33554432 * u64) by (apply Rmult_le_compat_r; lra). assert (33554432 * u64 < 1) by (unfold u64; lra). lra. }
  assert (MN : (m <= N)%nat) by (apply Nat.div_le_upper_bound; nia).
  rewrite (rnd64_id (IZR (Z.of_nat m))), <- INR_IZR_INZ by (apply F64_int; lia).
  assert (M1' : 1 <= INR m) by (apply (le_INR 1); lia).
  rewrite Req_bool_false.
  2:{ rewrite (rnd64_id 0) by apply generic_format_0. assert (1 <= rnd64 (INR m * f)); [|lra]. rewrite <- (rnd64_id 1) by (apply (F64_int 1); lia). apply rnd64_le. nra. }
  destruct subints as [s|]; [|destruct (m =? 1)%nat; eauto].
  destruct ((s =? 1)%Z || (m =? 1)%nat)%bool eqn:E1; [eauto|]. apply orb_false_iff in E1 as [E1 E2].
  apply Z.eqb_neq in E1. apply Nat.eqb_neq in E2. destruct (Z.eqb_spec s (Z.of_nat m)) as [|E3]; [eauto|].
  destruct HS as [Hs1 Hs2].
  assert (ES : IZR s = INR (Z.to_nat s)) by (rewrite INR_IZR_INZ, Z2Nat.id by lia; reflexivity).
  assert (SM : (Z.to_nat s <= m)%nat).
  { apply MS; [lia|]. rewrite <- ES. assert (I1 : 1 <= IZR s) by (apply IZR_le; exact Hs1).
    assert (X1 : IZR s * (INR bins * x) * (1 + 16 * u64) <= INR N).
    { apply Rmult_le_reg_r with tsamp; [exact T0'|].
      replace (IZR s * (INR bins * x) * (1 + 16 * u64) * tsamp) with (IZR s * (x * tsamp * INR bins) * (1 + 16 * u64)) by ring.
      rewrite TX, PB. exact Hs2. }
    assert (X2 : IZR s * (INR bins * f) <= IZR s * (INR bins * x) * (1 + 3 * u64)).
    { replace (IZR s * (INR bins * x) * (1 + 3 * u64)) with (IZR s * (INR bins * (x * (1 + 3 * u64)))) by ring.
      apply Rmult_le_compat_l; [lra|]. apply Rmult_le_compat_l; [lra|]. eapply Rle_trans; [exact (proj2 RQ)|].
      apply Rmult_le_compat_l; lra. }
    assert (X0 : 0 <= IZR s * (INR bins * x)) by (apply Rmult_le_pos; [lra|apply Rmult_le_pos; lra]).
    assert (X3 : IZR s * (INR bins * x) * ((1 + 16 * u64) * (1 - 3 * u64)) <= INR N * (1 - 3 * u64)).
    { rewrite <- Rmult_assoc. apply Rmult_le_compat_r; lra. }
    assert (X4 : IZR s * (INR bins * x) * (1 + 3 * u64) <= IZR s * (INR bins * x) * ((1 + 16 * u64) * (1 - 3 * u64))).
    { apply Rmult_le_compat_l; [lra|]. nra. }
    lra. }
  rewrite (rnd64_id (IZR s)), ES by (apply F64_int; lia). set (s' := Z.to_nat s) in *.
  assert (S2' : (2 <= s' < m)%nat) by lia.
  assert (IS : 2 <= INR s') by (apply (le_INR 2); lia). assert (IM : INR s' + 1 <= INR m) by (rewrite <- S_INR; apply le_INR; lia).
  assert (IMN : INR m <= INR N) by (now apply le_INR).
  assert (V0 : 1 + / 67108864 <= INR m / INR s').
  { apply Rmult_le_reg_r with (INR s'); [lra|]. unfold Rdiv. rewrite Rmult_assoc, Rinv_l by lra. lra. }
  destruct (Folding.rnd64_rel (INR m / INR s') ltac:(lra)) as [VL VU]. set (v := rnd64 (INR m / INR s')) in *.
  match goal with |- context [downsample_vertical _ _ ?MM _] => set (M := MM) end.
  destruct (exists_bound (a_data M)) as (XX & HXX).
  destruct (vertical_F bld alloc M v XX Ha) as (Y & EY & _).
  - cbn [M a_rows]. lia.
  - apply F64_rnd.
  - cbn [M a_rows]. split.
    { eapply Rlt_le_trans; [|exact VL]. apply Rlt_le_trans with ((1 + / 67108864) * (1 - u64)); [unfold u64; lra|].
      apply Rmult_le_compat_r; lra. }
    eapply Rle_lt_trans; [exact VU|]. assert (INR m / INR s' <= INR m / 2).
    { apply Rmult_le_compat_l; [lra|]. apply Rinv_le_contravar; lra. }
    apply Rle_lt_trans with (INR m / 2 * (1 + u64)); [apply Rmult_le_compat_r; lra|]. unfold u64. lra.
  - intros r c Hr Hc. unfold at2.
    assert (LI : (r * a_cols M + c < length (a_data M))%nat).
    { cbn [M a_cols a_rows a_data] in *. rewrite map_length, firstn_length.
      pose proof (Nat.div_mod n bins ltac:(lia)) as D. fold m in D. rewrite Ln. nia. }
    split; [|apply HXX; exact LI].
    cbn [M a_cols a_data] in LI |- *. rewrite map_length in LI. rewrite nth_map_in with (d' := 0) by exact LI. apply F32_rnd.
  - change (n_T (numF bld)) with R in *. rewrite EY. cbn [bind]. eauto.
Qed.
Print Assumptions fold_float_returns.

(** 1000 samples of 1 ms folded with a period of 10 ms in 4 bins, 100 rows in 7 subintegrations *)
Example fold_float_ex : let data := repeat 1 (10 * 100) in let N := length data in
  (Z.of_nat N <= 33554432)%Z /\ (1 <= 4)%nat /\ (Z.of_nat 4 < 2 ^ 53)%Z /\ double (/ 1024) /\ / 2 ^ 200 <= / 1024 /\ Forall single data /\
  (forall i, (i < N)%nat -> Rabs (nth i data 0) <= 1) /\
  / 100 * (1 + / 2 ^ 49) <= INR N * / 1024 /\ / 1024 * (1 + / 2 ^ 49) <= / 100 / INR 4 /\
  (1 <= 7)%Z /\ 7 * / 100 * (1 + / 2 ^ 49) <= INR N * / 1024.
Proof.
  intros data N. assert (LN : N = (10 * 100)%nat) by apply repeat_length.
  assert (IN : INR N = 1000) by (rewrite LN, mult_INR; rewrite !INR_IZR_INZ; cbn; lra).
  assert (U : / 2 ^ 49 <= / 1000) by (apply Rinv_le_contravar; [lra|]; replace (2 ^ 49) with 562949953421312 by ring; lra).
  assert (0 < / 2 ^ 49) by (apply Rinv_0_lt_compat, pow_lt; lra).
  split; [rewrite LN; lia|]. split; [lia|]. split; [lia|].
  split. { replace (/ 1024) with (bpow radix2 (-10)) by (cbn; lra). apply generic_format_bpow. unfold FLT_exp. lia. }
  split. { apply Rinv_le_contravar; [lra|]. replace 1024 with (2 ^ 10) by ring. apply Rle_pow; [lra|lia]. }
  split. { apply Forall_forall. intros x Hx. apply repeat_spec in Hx. subst x.
    replace 1 with (bpow radix2 0) by reflexivity. apply generic_format_bpow. unfold FLT_exp. lia. }
  split. { intros i Hi. unfold data. rewrite (nth_indep _ 0 1) by exact Hi. rewrite nth_repeat, Rabs_R1. lra. }
  rewrite IN. replace (INR 4) with 4 by (cbn; lra). split; [lra|]. split; [lra|]. split; [lia|lra].
Qed.
