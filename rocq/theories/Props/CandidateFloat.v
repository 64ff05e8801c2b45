(** C144: validated ranges make the candidates foldable, in floating point. *)
From Coq Require Import String List Arith ZArith Bool Lia Reals Lra Psatz Permutation.
From Flocq Require Import Core.
From Verif Require Import Base.Result Base.Buf Base.Num Model.FastRmed Model.Transforms Model.Downsample Model.Libffa Model.Periodogram Model.Metadata
  Model.TimeSeries Model.Search Model.Cluster Model.Peaks Model.Pipeline Model.Ranges Model.Worker
  Model.Harmonic Model.Folding Model.DmIter Model.Pool Model.Writer Model.Process
  Proof.Downsample Proof.SearchFloat Proof.Pipeline Proof.RunKeeps Proof.RadiusFloat Props.Downsample Props.DownsampleFloat Props.EndToEndFloat
  Props.RunKeeps Props.RunFloat Props.RunTotal Props.DmIterFloat Props.PrepareFloat.
Import ListNotations.
Local Open Scope R_scope.

Section Candidates.
Context (bld : build).
Local Notation NF := (numF bld).
Context (abs_sin : R -> R) (read_meta : string -> res (meta NF)).

(** C144.  In floating point, once prepare() has returned: a cluster whose brightest peak has a period in one of the ranges, not
    within 2^-48 of the smallest period of a range holding it, gives a candidate, whatever the data of the file of its
    DM, provided that the period fits in the data and that the number of sub-integrations times the period is not
    within rounding of their length. *)
Theorem validated_ranges_fold_float :
  forall (alloc : nat -> list R) (cf : config NF) files d (m : meta NF) (ts0 ts : series NF) (c : cluster NF) best,
  allocates alloc -> prepare NF abs_sin read_meta cf files = Ok d ->
  (forall r, In r (cf_ranges cf) -> (1 <= r_cbins r < 2 ^ 53)%Z /\ (1 <= r_csubints r < 2 ^ 53)%Z) ->
  (* the file *)
  In m (di_list d) -> se_tsamp ts0 = m_tsamp m -> prepare_ts NF alloc (cf_rmed_width cf) (cf_rmed_minpts cf) ts0 = Ok ts ->
  let n := INR (length (se_data ts0)) in let t : R := se_tsamp ts0 in
  (Z.of_nat (length (se_data ts0)) <= 33554432)%Z -> double t -> / 2 ^ 200 <= t ->
  (* the period *)
  centre c = Ok best -> let P : R := p_period best in
  P * (1 + / 2 ^ 49) <= n * t ->
  (exists r, In r (cf_ranges cf) /\ sk_pmin (r_search r) <= P < sk_pmax (r_search r)) ->
  (forall r, In r (cf_ranges cf) -> sk_pmin (r_search r) <= P < sk_pmax (r_search r) ->
     sk_pmin (r_search r) * (1 + / 2 ^ 48) <= P /\
     (IZR (r_csubints r) * P * (1 + / 2 ^ 49) <= n * t \/ n * t <= IZR (r_csubints r) * P)) ->
  exists cd, made_of NF alloc cf ts c = Ok cd /\ cd_params cd = best /\ cd_peaks cd = c_peaks c.
Proof.
  intros alloc cf files d m ts0 ts c best Ha EP CB Im ET EPT n t HN Ft T0 EC P HP HR HF.
  destruct (prepare_float_validated bld abs_sin read_meta cf files d EP) as (_ & _ & V).
  eapply candidate_float; eauto. fold P. split; [exact HN|]. split; [exact Ft|]. split; [exact T0|]. split; [exact HP|]. split; [exact HR|].
  intros r Hr Hh. destruct (CB r Hr) as [C1 C2]. destruct (HF r Hr Hh) as [M1 M2]. split; [exact C1|]. split; [|split; [exact C2|exact M2]].
  destruct (V r Hr) as [_ B]. specialize (B ltac:(lia) m Im). destruct B as [_ B]. rewrite lit_F in B by lia.
  change (n_T NF) with R in *. rewrite <- ET in B. fold t in B.
  assert (K1 : 1 <= IZR (r_cbins r)) by (apply IZR_le; lia). set (k := IZR (r_cbins r)) in *.
  assert (P200 : / 2 ^ 200 = bpow radix2 (-200)).
  { change (bpow radix2 (-200)) with (/ IZR (Z.pow_pos 2 200)). f_equal. rewrite pow_IZR. reflexivity. }
  assert (TT : bpow radix2 (-200) <= t) by (rewrite <- P200; exact T0). pose proof (bpow_gt_0 radix2 (-200)) as B0.
  assert (KT : bpow radix2 (-200) <= k * t) by (apply Rle_trans with (1 * t); [lra|apply Rmult_le_compat_r; lra]).
  assert (RL : rel (2 * u64) (rnd64 (k * t)) (k * t)) by (apply rel_rnd0; eapply Rle_trans; [apply bpow_le|exact KT]; lia).
  unfold rel in RL. apply Rabs_le_inv in RL.
  replace (/ 2 ^ 48) with (32 * u64) in M1 by (unfold u64; cbn; lra). replace (/ 2 ^ 49) with (16 * u64) by (unfold u64; cbn; lra).
  assert (Q : k * t * (1 - 2 * u64) <= sk_pmin (r_search r)) by lra.
  assert (Q2 : k * t * (1 - 2 * u64) * (1 + 32 * u64) <= sk_pmin (r_search r) * (1 + 32 * u64)) by (apply Rmult_le_compat_r; [unfold u64|]; lra).
  assert (Q3 : k * t * (1 + 16 * u64) <= k * t * ((1 - 2 * u64) * (1 + 32 * u64))) by (apply Rmult_le_compat_l; [lra|unfold u64; lra]).
  apply Rmult_le_reg_r with k; [lra|]. unfold Rdiv. rewrite (Rmult_assoc P), (Rinv_l k), Rmult_1_r by lra.
  change (se_tsamp ts0 : R) with t. replace (t * (1 + 16 * u64) * k) with (k * t * (1 + 16 * u64)) by ring. eapply Rle_trans; [exact Q3|]. eapply Rle_trans; [|exact M1].
  rewrite <- Rmult_assoc. exact Q2.
Qed.
End Candidates.
Print Assumptions validated_ranges_fold_float.

(** the candidate of a pulse of 3/32 s in the file of C129, with the ranges of C137 *)
Example validated_ranges_fold_float_ex : forall bld,
  let cf := blips_config bld in let ts := blips_file bld in let n := INR (length (se_data ts)) in let t : R := se_tsamp ts in let P := 3 / 32 in
  (exists d, prepare (numF bld) (fun _ => / 2) (blips_meta bld) cf ["a.inf"%string] = Ok d /\ exists m, In m (di_list d) /\ t = m_tsamp m) /\
  (Z.of_nat (length (se_data ts)) <= 33554432)%Z /\ P * (1 + / 2 ^ 49) <= n * t /\
  (exists r, In r (cf_ranges cf) /\ sk_pmin (r_search r) <= P < sk_pmax (r_search r)) /\
  forall r, In r (cf_ranges cf) -> ((1 <= r_cbins r < 2 ^ 53)%Z /\ (1 <= r_csubints r < 2 ^ 53)%Z) /\ sk_pmin (r_search r) * (1 + / 2 ^ 48) <= P /\
    (IZR (r_csubints r) * P * (1 + / 2 ^ 49) <= n * t \/ n * t <= IZR (r_csubints r) * P).
Proof.
  intros bld cf ts n t P.
  assert (LN : length (se_data ts) = (100 * 100)%nat).
  { cbn [ts blips_file se_data]. unfold blips. rewrite map_length. apply seq_length. }
  assert (IN : n = 10000) by (unfold n; rewrite LN, mult_INR, !INR_IZR_INZ; cbn; lra).
  assert (U : 0 < / 2 ^ 49 <= / 1000 /\ 0 < / 2 ^ 48 <= / 1000) by (cbn; lra).
  assert (TE : t = / 1024) by reflexivity. unfold P. rewrite IN, TE. split.
  { destruct (run_float_prepared_ex bld) as (H1 & H2 & H3 & H4 & H5 & H6 & H7 & H8).
    destruct (prepare_float_total bld (fun _ => / 2) (blips_meta bld) (blips_config bld) ["a.inf"%string] _ 1000 1500 100 10 10 H1 H2 H3 H4 H5 H6 H7 H8)
      as (d & E & DL & _). exists d. split; [exact E|]. rewrite DL. eexists. split; [now left|]. reflexivity. }
  split; [rewrite LN; lia|]. split; [lra|]. split.
  { exists (blips_range bld). split; [now left|]. cbn [blips_range r_search blips_kw sk_pmin sk_pmax]. lra. }
  intros r [<-|[]]. cbn [blips_range r_cbins r_csubints r_search blips_kw sk_pmin]. split; [lia|]. split; [lra|]. left. lra.
Qed.
