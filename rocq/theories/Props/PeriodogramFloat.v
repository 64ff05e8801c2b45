(** C27 in binary64 arithmetic: the periodogram never leaves its buffers and writes exactly
    as many trials as have been announced. *)
From Coq Require Import List Arith ZArith Bool Lia Reals Lra Psatz.
From Flocq Require Import Core.
From Verif Require Import Base.Result Base.Buf Base.Num Model.Kernels Model.Transforms
  Model.Downsample Model.Snr Model.Periodogram Spec.Sums Spec.FfaSpec Spec.Overlap
  Proof.Transforms Proof.Index Proof.Ffa Proof.Downsample Proof.Kernels Proof.Snr
  Proof.Periodogram Proof.PeriodogramR Props.Downsample Props.Snr.
Import ListNotations.
Local Open Scope R_scope.

(** What is assumed of the library functions log and pow: the order of the values around 1. *)
Definition good_log (flog : R -> R) : Prop :=
  (forall x, 1 <= x -> 0 <= flog x) /\ (forall x, 1 < x -> 0 < flog x).
Definition good_pow (fpow : R -> nat -> R) : Prop :=
  forall x n, 1 <= x -> 1 <= fpow x n.

Lemma rnd_pos x : 0 <= x -> 0 <= rnd64 x.
Proof. intros. rewrite <- (rnd64_id 0) by apply generic_format_0. now apply rnd64_le. Qed.

Lemma rnd_ge1 x : 1 <= x -> 1 <= rnd64 x.
Proof. intros. rewrite <- (rnd64_id 1) by (apply (F64_int 1); lia). now apply rnd64_le. Qed.

Lemma rnd_le1 x : x <= 1 -> rnd64 x <= 1.
Proof. intros. rewrite <- (rnd64_id 1) by (apply (F64_int 1); lia). now apply rnd64_le. Qed.

Lemma F64_nat n : (Z.of_nat n <= 2 ^ 51)%Z -> F64 (INR n).
Proof. intros. rewrite INR_IZR_INZ. apply F64_int. lia. Qed.

Section PlanF.
Context (bld : build) (flog : R -> R) (fpow : R -> nat -> R).
Context (size : nat) (tsamp pmin pmax : R) (bmin bmax : nat).
Notation N := (numF bld).
Context (Hlog : good_log flog) (Hpow : good_pow fpow).
Context (Fts : F64 tsamp) (Fmin : F64 pmin) (Fmax : F64 pmax).
Context (Hsize : (Z.of_nat size <= 2 ^ 50)%Z) (Hbb : (Z.of_nat bmax <= 2 ^ 50)%Z).
Context (Hcheck : check_arguments N tsamp pmin pmax bmin bmax = Ok tt).
Context (Hpt : pmax / tsamp <= 2 ^ 63).

Lemma check_F : 0 < tsamp /\ 0 < pmin /\ pmin < pmax /\ (2 <= bmin)%nat /\ (bmin <= bmax)%nat /\
  rnd64 (tsamp * INR bmin) <= pmin.
Proof.
  revert Hcheck. unfold check_arguments. cbn [numF opsF n_ltb n_leb n_dbl o_ofZ o_mul].
  rewrite <- INR_IZR_INZ. rewrite (rnd64_id 0) by apply generic_format_0.
  destruct (Rlt_bool_spec 0 tsamp); [|discriminate].
  destruct (Rlt_bool_spec 0 pmin); [|discriminate].
  destruct (Rlt_bool_spec pmin pmax); [|discriminate].
  destruct (Nat.ltb_spec 1 bmin); [|discriminate].
  destruct (Nat.leb_spec bmin bmax); [|discriminate].
  cbn [guard bind].
  destruct (Rle_bool_spec (rnd64 (tsamp * rnd64 (INR bmin))) pmin) as [Hle|]; [|discriminate].
  intros _. rewrite (rnd64_id (INR bmin)) in Hle by (apply F64_nat; lia).
  repeat split; auto.
Qed.

Notation ini := (pl_ini N tsamp pmin bmin).
Notation geo := (pl_geo N bmin bmax).
Notation cyc := (pl_cyc N flog pmin pmax bmin bmax).
Notation f_ := (pl_f N fpow tsamp pmin bmin bmax).
Notation tau := (pl_tau N fpow tsamp pmin bmin bmax).
Notation pms := (pl_pms N fpow tsamp pmin pmax bmin bmax).
Notation n_ := (pl_n N fpow size tsamp pmin bmin bmax).
Notation bstop := (pl_bstop N fpow size tsamp pmin pmax bmin bmax).
Notation rows := (pl_rows N fpow size tsamp pmin bmin bmax).
Notation pceil := (pl_ceil N fpow tsamp pmin pmax bmin bmax).
Notation shift := (pl_shift N fpow size tsamp pmin pmax bmin bmax).
Notation cycles := (pl_cycles N flog pmin pmax bmin bmax).
Notation conv := (pl_conv N flog fpow size tsamp pmin pmax bmin bmax).
Notation total := (pl_total N flog fpow size tsamp pmin pmax bmin bmax).
Notation valid := (pl_valid N fpow size tsamp pmin bmin bmax).

Lemma base_pos : 0 < rnd64 (tsamp * INR bmin).
Proof.
  destruct check_F as (H1 & _ & _ & H4 & _).
  apply Rlt_le_trans with tsamp; auto. rewrite <- (rnd64_id tsamp Fts) at 1.
  apply rnd64_le. assert (2 <= INR bmin) by (apply (le_INR 2); lia). nra.
Qed.

Lemma iniF : ini = rnd64 (pmin / rnd64 (tsamp * INR bmin)).
Proof.
  destruct check_F as (_ & _ & _ & _ & H5 & _).
  unfold pl_ini. cbn [numF opsF n_dbl o_ofZ o_mul o_div].
  rewrite <- INR_IZR_INZ. now rewrite (rnd64_id (INR bmin)) by (apply F64_nat; lia).
Qed.

Lemma ini_geF : 1 <= ini.
Proof.
  rewrite iniF. apply rnd_ge1. pose proof base_pos. destruct check_F as (_ & _ & _ & _ & _ & HB).
  apply Rmult_le_reg_r with (rnd64 (tsamp * INR bmin)); auto.
  unfold Rdiv. rewrite Rmult_assoc, Rinv_l by lra. lra.
Qed.

Lemma geo_F : 1 < geo.
Proof.
  destruct check_F as (_ & _ & _ & H4 & H5 & _).
  unfold pl_geo. cbn [numF opsF n_dbl o_ofZ o_mul o_div o_add].
  rewrite <- !INR_IZR_INZ.
  rewrite (rnd64_id (INR bmin)) by (apply F64_nat; lia).
  rewrite (rnd64_id (INR bmax)) by (apply F64_nat; lia).
  rewrite (rnd64_id 1) by (apply (F64_int 1); lia).
  rewrite <- S_INR. rewrite (rnd64_id (INR (S bmax))) by (apply F64_nat; lia).
  (* 1 + 2^-52 is a double not above the quotient *)
  set (u := 1 + / 4503599627370496).
  assert (Fu : F64 u).
  { unfold u. replace (1 + / 4503599627370496) with (F2R (Float radix2 4503599627370497 (-52))).
    - apply generic_format_FLT. exists (Float radix2 4503599627370497 (-52)); cbn; auto; lia.
    - unfold F2R. cbn. field. }
  apply Rlt_le_trans with u; [unfold u; lra|].
  rewrite <- (rnd64_id u Fu). apply rnd64_le.
  assert (2 <= INR bmin) by (apply (le_INR 2); lia).
  assert (INR bmin <= INR bmax) by (apply le_INR; lia).
  assert (INR bmax <= 1125899906842624).
  { rewrite INR_IZR_INZ. apply (IZR_le _ 1125899906842624). lia. }
  apply Rmult_le_reg_r with (INR bmin); [lra|].
  unfold Rdiv. rewrite Rmult_assoc, Rinv_l by lra. rewrite S_INR. unfold u. nra.
Qed.

Lemma f_F ids : f_ ids = rnd64 (ini * fpow geo ids).
Proof. reflexivity. Qed.

Lemma F_ini : F64 ini.
Proof. rewrite iniF. apply generic_format_round; typeclasses eauto. Qed.

Lemma f_geF ids : ini <= f_ ids.
Proof.
  rewrite f_F. rewrite <- (rnd64_id ini F_ini) at 1. apply rnd64_le.
  pose proof ini_geF. pose proof (Hpow geo ids ltac:(pose proof geo_F; lra)). nra.
Qed.

Lemma f_ge1F ids : 1 <= f_ ids.
Proof. pose proof ini_geF. pose proof (f_geF ids). lra. Qed.

Lemma tauF ids : tsamp <= tau ids.
Proof.
  unfold pl_tau. cbn [numF opsF n_dbl o_mul]. rewrite <- (rnd64_id tsamp Fts) at 1.
  apply rnd64_le. pose proof (f_ge1F ids) as H. destruct check_F as (H1 & _).
  nra.
Qed.

Lemma pmsF ids : 0 <= pms ids <= 2 ^ 63.
Proof.
  unfold pl_pms. cbn [numF opsF n_dbl o_div]. destruct check_F as (H1 & H2 & H3 & _).
  pose proof (tauF ids) as HT.
  assert (0 <= pmax / tau ids <= 2 ^ 63) as [A B].
  { split.
    - apply Rmult_le_pos; [lra|]. left. apply Rinv_0_lt_compat. lra.
    - apply Rle_trans with (2 := Hpt). apply Rmult_le_compat_l; [lra|].
      apply Rinv_le_contravar; lra. }
  split; [now apply rnd_pos|].
  assert (F63 : F64 (2 ^ 63)).
  { replace (2 ^ 63) with (F2R (Float radix2 1 63)) by (unfold F2R; cbn; lra).
    apply generic_format_FLT. exists (Float radix2 1 63); cbn; auto; lia. }
  rewrite <- (rnd64_id _ F63). now apply rnd64_le.
Qed.

Lemma nF ids : n_ ids = Z.to_nat (Zfloor (rnd64 (INR size / f_ ids))).
Proof.
  unfold pl_n, downsampled_size. cbn [numF opsF n_dbl o_div o_ofZ n_floor].
  rewrite <- INR_IZR_INZ. now rewrite (rnd64_id (INR size)) by (apply F64_nat; lia).
Qed.

Lemma n_bufF ids : (n_ ids <= pl_buf N size tsamp pmin bmin)%nat.
Proof.
  rewrite nF. unfold pl_buf, downsampled_size. cbn [numF opsF n_dbl o_div o_ofZ n_floor].
  rewrite <- INR_IZR_INZ. rewrite (rnd64_id (INR size)) by (apply F64_nat; lia).

  apply Z2Nat.inj_le.
  - apply Zfloor_lub. apply rnd_pos. pose proof (f_ge1F ids).
    apply Rmult_le_pos; [apply pos_INR|]. left. apply Rinv_0_lt_compat. lra.
  - apply Zfloor_lub. apply rnd_pos. pose proof ini_geF.
    apply Rmult_le_pos; [apply pos_INR|]. left. apply Rinv_0_lt_compat. lra.
  - apply Zfloor_le. apply rnd64_le. apply Rmult_le_compat_l; [apply pos_INR|].
    pose proof ini_geF. apply Rinv_le_contravar; [lra|apply f_geF].
Qed.

Lemma n_leF ids : (n_ ids <= size)%nat.
Proof.
  rewrite nF. pose proof (f_ge1F ids).
  assert (Hle : rnd64 (INR size / f_ ids) <= INR size).
  { rewrite <- (rnd64_id (INR size)) at 2 by (apply F64_nat; lia). apply rnd64_le.
    rewrite <- (Rmult_1_r (INR size)) at 2. apply Rmult_le_compat_l; [apply pos_INR|].
    rewrite <- Rinv_1. apply Rinv_le_contravar; lra. }
  assert (Zfloor (rnd64 (INR size / f_ ids)) <= Z.of_nat size)%Z; [|lia].
  apply le_IZR. apply Rle_trans with (1 := Zfloor_lb _). now rewrite <- INR_IZR_INZ.
Qed.

Lemma bstopF ids b : (b <= bstop ids)%nat -> (b <= bmax)%nat /\ (b <= n_ ids)%nat /\ INR b <= pms ids.
Proof.
  unfold pl_bstop. cbn [numF n_trunc].
  destruct (pmsF ids) as [A _]. rewrite Ztrunc_nonneg by auto.
  rewrite !Nat.min_glb_iff, to_nat_floor_ge by auto. tauto.
Qed.

Lemma pceilF ids b : (1 <= b)%nat -> (b <= bstop ids)%nat -> INR b <= pceil ids b.
Proof.
  intros Hb1 Hb. apply bstopF in Hb as (Hb & Hn & Hp). pose proof (n_leF ids) as Hnl.
  unfold pl_ceil, min_dbl. cbn [numF opsF n_ltb n_dbl o_add o_ofZ].
  rewrite <- INR_IZR_INZ. rewrite (rnd64_id (INR b)) by (apply F64_nat; lia).
  rewrite (rnd64_id 1) by (apply (F64_int 1); lia). rewrite <- S_INR.
  rewrite (rnd64_id (INR (S b))) by (apply F64_nat; lia).
  destruct (Rlt_bool (INR (S b)) (pms ids)); auto. apply le_INR. lia.
Qed.

Lemma rows_mul ids b : (1 <= b)%nat -> (rows ids b * b <= n_ ids)%nat.
Proof. intros. unfold pl_rows. rewrite Nat.mul_comm. apply Nat.mul_div_le. lia. Qed.

Lemma shiftF ids b : (bmin <= b <= bstop ids)%nat -> (0 <= shift ids b <= 2 ^ 50)%Z.
Proof.
  intros [Hb1 Hb2]. destruct check_F as (_ & _ & _ & H4 & H5 & _).
  pose proof (pceilF ids b ltac:(lia) Hb2) as HC.
  pose proof (bstopF ids b Hb2) as (Hbm & Hbn & _). pose proof (n_leF ids) as Hnl.
  pose proof (rows_mul ids b ltac:(lia)) as Hr.
  assert (Hr1 : (1 <= rows ids b)%nat) by (unfold pl_rows; apply Nat.div_le_lower_bound; lia).
  assert (Hb0 : 2 <= INR b) by (apply (le_INR 2); lia).
  unfold pl_shift. cbn [numF opsF n_ceil n_dbl o_mul o_sub o_div o_ofZ].
 rewrite <- !INR_IZR_INZ.
  rewrite !(rnd64_id (INR b)) by (apply F64_nat; lia).
  rewrite (rnd64_id (INR (rows ids b))) by (apply F64_nat; nia).
  rewrite !(rnd64_id 1) by (apply (F64_int 1); lia).
  replace (INR (rows ids b) - 1) with (INR (rows ids b - 1)) by (rewrite minus_INR by lia; cbn; lra).
  rewrite (rnd64_id (INR (rows ids b - 1))) by (apply F64_nat; nia).
  rewrite <- mult_INR. rewrite (rnd64_id (INR (b * (rows ids b - 1)))) by (apply F64_nat; nia).
  set (q := rnd64 (1 - rnd64 (INR b / pceil ids b))).
  assert (Hq : 0 <= q <= 1).
  { unfold q. assert (0 <= rnd64 (INR b / pceil ids b) <= 1) as [A B].
    { split.
      - apply rnd_pos. apply Rmult_le_pos; [lra|]. left. apply Rinv_0_lt_compat. lra.
      - apply rnd_le1. apply Rmult_le_reg_r with (pceil ids b); [lra|].
        unfold Rdiv. rewrite Rmult_assoc, Rinv_l by lra. lra. }
    split; [apply rnd_pos; lra|apply rnd_le1; lra]. }
  pose proof (pos_INR (b * (rows ids b - 1))) as HP.
  split.
  - apply le_IZR. apply Rle_trans with (2 := Zceil_ub _). apply rnd_pos. apply Rmult_le_pos; lra.
  - apply Z.le_trans with (Z.of_nat (b * (rows ids b - 1))); [|nia].
    apply Zceil_glb. rewrite <- INR_IZR_INZ.
    rewrite <- (rnd64_id (INR (b * (rows ids b - 1)))) at 2 by (apply F64_nat; nia).
    apply rnd64_le. nra.
Qed.

Lemma convF : (cyc < 2 ^ 64)%Z -> conv.
Proof.
  intros Hc. destruct check_F as (H1 & H2 & H3 & _). destruct Hlog as [Hl1 Hl2].
  split.
  - split; auto. unfold pl_cyc. cbn [numF opsF n_ceil n_dbl o_div].

    apply le_IZR. apply Rle_trans with (2 := Zceil_ub _). apply rnd_pos.
    apply Rmult_le_pos.
    + apply Hl1. apply rnd_ge1. apply Rmult_le_reg_r with pmin; auto.
      unfold Rdiv. rewrite Rmult_assoc, Rinv_l by lra. lra.
    + left. apply Rinv_0_lt_compat. apply Hl2. apply geo_F.
  - intros ids _. destruct (pmsF ids) as [A B]. split.
    + cbn [numF n_trunc].
      rewrite Ztrunc_nonneg by auto. split; [now apply Zfloor_lub|].
      apply Z.le_lt_trans with (2 ^ 63)%Z; [|reflexivity].
      apply le_IZR. apply Rle_trans with (1 := Zfloor_lb _).
      change (IZR (2 ^ 63)) with 9223372036854775808. lra.
    + intros b Hb. pose proof (shiftF ids b Hb). lia.
Qed.
Lemma valid_F ids : valid ids = true <-> f_ ids = 1 \/ f_ ids <= INR size.
Proof.
  unfold pl_valid, valid_factor. cbn [numF opsF n_T n_eqb n_ltb n_leb n_dbl o_ofZ].
  rewrite <- INR_IZR_INZ. rewrite (rnd64_id (INR size)) by (apply F64_nat; lia).
  rewrite (rnd64_id 1) by (apply (F64_int 1); lia). pose proof (f_ge1F ids).
  destruct (Req_bool_spec (f_ ids) 1) as [E|E]; cbn [orb]; [tauto|].
  rewrite Rlt_bool_true by lra. cbn [andb].
  destruct (Rle_bool_spec (f_ ids) (INR size)); split; intros; auto; try discriminate.
  destruct H1; [tauto|lra].
Qed.


Context (alloc : nat -> list R) (allocz : nat -> list Z) (data : list R) (ws : list nat).
Context (Halloc : allocates alloc) (Hallocz : allocates allocz) (Hdata : length data = size).
Context (Hws : ws <> []) (Hw : good_widths ws bmin).
Context (Hcyc : (cyc < 2 ^ 64)%Z) (Hrows : (Z.of_nat (size / bmin) <= 4194304)%Z).

Lemma rowsF ids b : (bmin <= b)%nat -> (Z.of_nat (rows ids b) <= 4194304)%Z.
Proof.
  intros Hb. destruct check_F as (_ & _ & _ & H4 & _).
  apply Z.le_trans with (2 := Hrows). apply Nat2Z.inj_le. unfold pl_rows.
  apply Nat.le_trans with (size / b)%nat.
  - apply Nat.div_le_mono; [lia|apply n_leF].
  - apply Nat.div_le_compat_l. lia.
Qed.

Lemma run_F :
  let len := total in
  let run := periodogram N flog fpow alloc data size tsamp ws pmin pmax bmin bmax
    (alloc len) (allocz len) (alloc (len * length ws)%nat) in
  if forallb valid (seq 0 cycles) then
    exists st, run = Ok st /\ pl_inv N flog fpow size tsamp pmin pmax bmin bmax ws total st
  else run = Err ValueError.
Proof.
  cbv zeta. destruct check_F as (H1 & H2 & H3 & H4 & H5 & H6).
  pose proof (periodogram_spec N flog fpow size tsamp pmin pmax bmin bmax alloc data ws 0
    (alloc total) (allocz total) (alloc (total * length ws)%nat) (fun _ _ => True)
    (fun _ _ _ _ => True) Halloc Hdata Hcheck
    (convF Hcyc) ltac:(lia) (Halloc _) (Hallocz _) (Halloc _)) as HS.
  match type of HS with ?A -> ?B -> ?C -> ?D -> ?E -> ?F -> ?G =>
    assert (HR : G) end.
  { apply HS.
    - intros ids _. apply n_bufF.
    - intros ids _ _. split; auto. apply n_leF.
    - intros ids out _ E1 HV Ho.
      destruct (downsample_float_safe bld data (f_ ids) out) as (out' & E & L).
      + rewrite Hdata. auto.
      + assert (HV' : valid ids = true).
        { unfold pl_valid. change (n_T N) with R in *. rewrite HV. apply orb_true_r. }
        apply valid_F in HV'. rewrite Hdata. pose proof (f_ge1F ids) as G.
        cbn [numF opsF n_T n_eqb n_dbl o_ofZ] in E1. rewrite (rnd64_id 1) in E1 by (apply (F64_int 1); lia).
        destruct (Req_bool_spec (f_ ids) 1); [discriminate|]. lra.
      + rewrite Hdata. change (n_T N) with R in *. rewrite Ho. apply n_bufF.
      + rewrite Hdata in E. exists out'. auto.
    - intros ids b m _ Hb [Hm Hm2]. apply good_index_float; auto.
      pose proof (rowsF ids b ltac:(lia)). lia.
    - intros ids b _ Hb. pose proof (rowsF ids b ltac:(lia)). lia.
    - intros ids b blk out oo _ Hb Hl Ho.
      destruct (snr2_val N alloc blk (pl_eval N fpow size tsamp pmin pmax bmin bmax ids b) b ws
        (pl_sd N fpow size tsamp pmin bmin bmax ids b) out oo) as (out' & E & FR & V); auto.
      + intros w Hin. pose proof (Hw w Hin). lia.
      + exists out'. split; [exact E|]. split; [exact FR|]. intros i k Hi Hk.
        destruct (V i k Hi Hk) as (v & Ev & _). exists v. auto. }
  destruct (forallb valid (seq 0 cycles)); [|exact HR].
  destruct HR as (st & E & HI & _). exists st. auto.
Qed.
End PlanF.

(** The factor of cycle [i] and the number of cycles, as computed (all operations rounded). *)
Definition first_factor (tsamp pmin : R) (bmin : nat) : R :=
  rnd64 (pmin / rnd64 (tsamp * INR bmin)).
Definition factor_ratio (bmin bmax : nat) : R := rnd64 ((INR bmax + 1) / INR bmin).
Definition factor (fpow : R -> nat -> R) (tsamp pmin : R) (bmin bmax i : nat) : R :=
  rnd64 (first_factor tsamp pmin bmin * fpow (factor_ratio bmin bmax) i).
Definition cycle_count (flog : R -> R) (pmin pmax : R) (bmin bmax : nat) : Z :=
  Zceil (rnd64 (flog (rnd64 (pmax / pmin)) / flog (factor_ratio bmin bmax))).

(** C27 in binary64, for every libm whose log() and pow() have the right order around 1:
    whatever the arguments are, the search either raises ValueError, or ends with all
    accesses in bounds and with the three output pointers exactly at the ends of the arrays
    allocated from the announced length [len].  ValueError is raised only for rejected
    arguments or when the data is shorter than one downsampled sample. *)
Theorem periodogram_float_safe :
  forall (bld : build) (flog : R -> R) (fpow : R -> nat -> R)
    (alloc : nat -> list R) (allocz : nat -> list Z) (data : list R) (ws : list nat)
    (tsamp pmin pmax : R) (bmin bmax : nat),
  let N := numF bld in
  let size := length data in
  good_log flog -> good_pow fpow -> allocates alloc -> allocates allocz ->
  F64 tsamp -> F64 pmin -> F64 pmax ->
  (Z.of_nat size <= 2 ^ 50)%Z -> (Z.of_nat bmax <= 2 ^ 50)%Z ->
  pmax / tsamp <= 2 ^ 63 -> (cycle_count flog pmin pmax bmin bmax < 2 ^ 64)%Z ->
  (Z.of_nat (size / bmin) <= 4194304)%Z ->
  ws <> [] -> good_widths ws bmin ->
  let ok := 0 < tsamp /\ 0 < pmin /\ pmin < pmax /\ (2 <= bmin <= bmax)%nat /\
    rnd64 (tsamp * INR bmin) <= pmin in
  let run := py_periodogram N flog fpow alloc allocz data tsamp ws pmin pmax bmin bmax in
  (~ ok -> periodogram_length N flog fpow size tsamp pmin pmax bmin bmax = Err ValueError /\
           run = Err ValueError) /\
  (ok -> exists len,
    periodogram_length N flog fpow size tsamp pmin pmax bmin bmax = Ok len /\
    ((exists i, (Z.of_nat i < cycle_count flog pmin pmax bmin bmax)%Z /\
        1 < factor fpow tsamp pmin bmin bmax i /\
        INR size < factor fpow tsamp pmin bmin bmax i /\ run = Err ValueError) \/
     (exists st,
        periodogram N flog fpow alloc data size tsamp ws pmin pmax bmin bmax
          (alloc len) (allocz len) (alloc (len * length ws)%nat) = Ok st /\
        p_po st = len /\ p_fo st = len /\ p_so st = (len * length ws)%nat /\
        length (p_periods st) = len /\ length (p_bins st) = len /\
        length (p_snr st) = (len * length ws)%nat /\
        run = Ok (p_periods st, p_bins st, Arr2 len (length ws) (p_snr st))))).
Proof.
  intros bld flog fpow alloc allocz data ws tsamp pmin pmax bmin bmax N size
    Hl Hp Ha Hz F1 F2 F3 Hs Hb Hpt Hc Hr Hws Hw ok run.
  assert (HC : (ok /\ check_arguments N tsamp pmin pmax bmin bmax = Ok tt) \/
               (~ ok /\ check_arguments N tsamp pmin pmax bmin bmax = Err ValueError)).
  { unfold check_arguments, N. cbn [numF opsF n_ltb n_leb n_dbl o_ofZ o_mul].
    rewrite <- INR_IZR_INZ. rewrite (rnd64_id 0) by apply generic_format_0.
    destruct (Rlt_bool_spec 0 tsamp) as [A1|A1]; [|right; split; [unfold ok; lra|reflexivity]].
    destruct (Rlt_bool_spec 0 pmin) as [A2|A2]; [|right; split; [unfold ok; lra|reflexivity]].
    destruct (Rlt_bool_spec pmin pmax) as [A3|A3]; [|right; split; [unfold ok; lra|reflexivity]].
    destruct (Nat.ltb_spec 1 bmin) as [A4|A4]; [|right; split; [unfold ok; lia|reflexivity]].
    destruct (Nat.leb_spec bmin bmax) as [A5|A5]; [|right; split; [unfold ok; lia|reflexivity]].
    rewrite (rnd64_id (INR bmin)) by (apply F64_nat; lia). cbn [guard bind].
    destruct (Rle_bool_spec (rnd64 (tsamp * INR bmin)) pmin) as [A6|A6].
    - left. split; [unfold ok; repeat split; auto; lia|reflexivity].
    - right. split; [unfold ok; lra|reflexivity]. }
  destruct HC as [[HO HC]|[HO HC]].
  2:{ split; [|tauto]. intros _. unfold run, py_periodogram, periodogram_length.
      change (n_T N) with R in *. rewrite HC. cbn [bind]. auto. }
  split; [tauto|]. intros _.
  assert (Egeo : pl_geo N bmin bmax = factor_ratio bmin bmax).
  { destruct HO as (_ & _ & _ & HB & _). unfold pl_geo, factor_ratio, N.
    cbn [numF opsF n_dbl o_ofZ o_mul o_div o_add]. rewrite <- !INR_IZR_INZ.
    rewrite (rnd64_id (INR bmin)) by (apply F64_nat; lia).
    rewrite (rnd64_id (INR bmax)) by (apply F64_nat; lia).
    rewrite (rnd64_id 1) by (apply (F64_int 1); lia).
    rewrite <- S_INR. now rewrite (rnd64_id (INR (S bmax))) by (apply F64_nat; lia). }
  assert (Ecyc : pl_cyc N flog pmin pmax bmin bmax = cycle_count flog pmin pmax bmin bmax).
  { unfold pl_cyc, cycle_count. rewrite Egeo. reflexivity. }
  assert (Ef : forall i, pl_f N fpow tsamp pmin bmin bmax i = factor fpow tsamp pmin bmin bmax i).
  { intros i. unfold factor. rewrite <- Egeo. unfold first_factor.
    assert (Ei : pl_ini N tsamp pmin bmin = rnd64 (pmin / rnd64 (tsamp * INR bmin)))
      by (eapply iniF; eassumption).
    rewrite <- Ei. reflexivity. }
  exists (pl_total N flog fpow size tsamp pmin pmax bmin bmax).
  assert (Hcv : (pl_cyc N flog pmin pmax bmin bmax < 2 ^ 64)%Z) by now rewrite Ecyc.
  assert (Hconv : pl_conv N flog fpow size tsamp pmin pmax bmin bmax)
    by (eapply convF; eassumption).
  assert (HL : periodogram_length N flog fpow size tsamp pmin pmax bmin bmax
    = Ok (pl_total N flog fpow size tsamp pmin pmax bmin bmax)) by now apply length_spec.
  split; [exact HL|].
  set (total := pl_total N flog fpow size tsamp pmin pmax bmin bmax) in *.
  assert (HR : let prun := periodogram N flog fpow alloc data size tsamp ws pmin pmax bmin bmax
      (alloc total) (allocz total) (alloc (total * length ws)%nat) in
    if forallb (pl_valid N fpow size tsamp pmin bmin bmax)
         (seq 0 (pl_cycles N flog pmin pmax bmin bmax)) then
      exists st, prun = Ok st /\ pl_inv N flog fpow size tsamp pmin pmax bmin bmax ws total st
    else prun = Err ValueError) by (apply run_F; auto).
  cbv zeta in HR.
  destruct (forallb _ _) eqn:EV.
  - right. destruct HR as (st & E & (I1 & I2 & I3 & I4 & I5 & I6 & I7 & I8 & I9)).
    exists st. do 7 (split; [assumption|]).
    unfold run, py_periodogram. change (n_T N) with R in *. fold size.
    rewrite HL. cbn [bind]. rewrite E. reflexivity.
  - left. assert (exists i, In i (seq 0 (pl_cycles N flog pmin pmax bmin bmax)) /\
      pl_valid N fpow size tsamp pmin bmin bmax i = false) as (i & Hin & Hv).
    { clear - EV. revert EV. generalize (seq 0 (pl_cycles N flog pmin pmax bmin bmax)).
      induction l as [|a l IH]; [discriminate|]. cbn [forallb].
      destruct (pl_valid N fpow size tsamp pmin bmin bmax a) eqn:Ea.
      - intros H. destruct (IH H) as (i & ? & ?). exists i. split; auto. now right.
      - intros _. exists a. split; auto. now left. }
    exists i. apply in_seq in Hin. split.
    { unfold pl_cycles in Hin. rewrite Ecyc in Hin. lia. }
    rewrite <- Ef.
    assert (~ (pl_f N fpow tsamp pmin bmin bmax i = 1 \/ pl_f N fpow tsamp pmin bmin bmax i <= INR size)).
    { intros HV. assert (pl_valid N fpow size tsamp pmin bmin bmax i = true)
        by (eapply valid_F; eassumption). congruence. }
    assert (1 <= pl_f N fpow tsamp pmin bmin bmax i) by (eapply f_ge1F; eassumption). split; [lra|]. split; [lra|].
    unfold run, py_periodogram. change (n_T N) with R in *. fold size.
    rewrite HL. cbn [bind]. rewrite HR. reflexivity.
Qed.
Print Assumptions periodogram_float_safe.

Example periodogram_float_safe_ex :
  let data := repeat 0 (100 * 100) in let size := length data in
  let tsamp := / 1024 in let pmin := / 32 in let pmax := 1 in
  good_log ln /\ good_pow pow /\ F64 tsamp /\ F64 pmin /\ F64 pmax /\
  (Z.of_nat size <= 2 ^ 50)%Z /\ (Z.of_nat 22 <= 2 ^ 50)%Z /\
  pmax / tsamp <= 2 ^ 63 /\ (cycle_count ln pmin pmax 20 22 < 2 ^ 64)%Z /\
  (Z.of_nat (size / 20) <= 4194304)%Z /\ [1; 2; 3]%nat <> [] /\ good_widths [1; 2; 3]%nat 20 /\
  0 < tsamp /\ 0 < pmin /\ pmin < pmax /\ (2 <= 20 <= 22)%nat /\ rnd64 (tsamp * INR 20) <= pmin.
Proof.
  cbv zeta. rewrite repeat_length.
  assert (Fp : F64 (/ 32)).
  { replace (/ 32) with (F2R (Float radix2 1 (-5))) by (unfold F2R; cbn; lra).
    apply generic_format_FLT. exists (Float radix2 1 (-5)); cbn; auto; lia. }
  assert (H32 : rnd64 (1 / / 32) = 32).
  { replace (1 / / 32) with 32 by field. apply rnd64_id. apply (F64_int 32). lia. }
  assert (E20 : INR 20 = 20) by (cbn; lra). assert (E22 : INR 22 = 22) by (cbn; lra).
  assert (E9 : 9 / 8 <= factor_ratio 20 22).
  { unfold factor_ratio. rewrite E20, E22. rewrite <- (rnd64_id (9 / 8)).
    - apply rnd64_le. lra.
    - replace (9 / 8) with (F2R (Float radix2 9 (-3))) by (unfold F2R; cbn; lra).
      apply generic_format_FLT. exists (Float radix2 9 (-3)); cbn; auto; lia. }
  assert (L9 : / 9 <= ln (factor_ratio 20 22)).
  { apply Rle_trans with (ln (9/8)).
    - pose proof (exp_ineq1_le (ln (8/9))) as H. rewrite exp_ln in H by lra.
      replace (9/8) with (/ (8/9)) by field. rewrite ln_Rinv by lra. lra.
    - destruct E9 as [E9|E9]; [left; apply ln_increasing; lra|rewrite E9; lra]. }
  assert (L32 : 0 <= ln 32 <= 31).
  { split.
    - rewrite <- ln_1. left. apply ln_increasing; lra.
    - pose proof (exp_ineq1_le (ln 32)) as H. rewrite exp_ln in H by lra. lra. }
  split. { split; intros x Hx.
    - destruct Hx as [Hx|<-]; [|rewrite ln_1; lra]. rewrite <- ln_1. left. apply ln_increasing; lra.
    - rewrite <- ln_1. apply ln_increasing; lra. }
  split. { intros x n Hx. apply pow_R1_Rle. auto. }
  split. { replace (/ 1024) with (F2R (Float radix2 1 (-10))) by (unfold F2R; cbn; lra).
    apply generic_format_FLT. exists (Float radix2 1 (-10)); cbn; auto; lia. }
  split; [exact Fp|]. split; [apply (F64_int 1); lia|].
  split; [lia|]. split; [lia|]. split; [lra|].
  split. { unfold cycle_count. rewrite H32.
    apply Z.le_lt_trans with 279%Z; [|reflexivity]. apply Zceil_glb.
    rewrite <- (rnd64_id 279) by (apply (F64_int 279); lia). apply rnd64_le.
    apply Rmult_le_reg_r with (ln (factor_ratio 20 22)); [lra|].
    unfold Rdiv. rewrite Rmult_assoc, Rinv_l by lra. lra. }
  split. { apply Z.le_trans with (Z.of_nat (100 * 100)); [|lia].
    apply Nat2Z.inj_le. apply Nat.div_le_upper_bound; lia. }
  split; [discriminate|]. split; [intros w [<-|[<-|[<-|[]]]]; lia|].
  split; [lra|]. split; [lra|]. split; [lra|]. split; [lia|].
  rewrite E20. rewrite <- (rnd64_id _ Fp). apply rnd64_le. lra.
Qed.
