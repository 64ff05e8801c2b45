(** C126: rounding errors of deredden(). *)
From Coq Require Import List Arith ZArith Bool Lia Reals Lra Psatz.
From Flocq Require Import Core.
From Verif Require Import Base.Result Base.Buf Base.Num Model.RunMed Model.FastRmed Model.TimeSeries Model.Worker Spec.Order Spec.Sums
  Proof.Downsample Proof.Index Proof.Rounding Proof.SearchFloat Proof.DownsampleFloat Proof.PeaksFloat Proof.FastRmed
  Proof.RunMedRel Proof.DereddenIeee Proof.DereddenFloat Proof.DereddenError Props.Downsample Props.RunMed Props.FastRmed
  Props.Ieee Props.DownsampleFloat Props.SnrFloat Props.Worker Props.DereddenIeee.
Import ListNotations.
Local Open Scope R_scope.

(** error of running medians taken over means of [f] samples of at most [X]; none over samples *)
Definition median_accuracy (f : nat) (X : R) : R :=
  if (f =? 1)%nat then 0 else ((1 + / 2 ^ 24) ^ (f + 2) - 1) * X + / 2 ^ 148.

(** samples per mean, see [window_fits] *)
Definition samples_per_mean (w m : Z) : nat := if (w <? 2 * m)%Z then 1%nat else Z.to_nat (w / m).

Lemma inv_pow2 k : / 2 ^ k = bpow radix2 (- Z.of_nat k).
Proof. rewrite bpow_opp, bpow_2. reflexivity. Qed.

Lemma accuracy_bound f X d : (2 <= f)%nat -> (Z.of_nat f <= 33554432)%Z -> 0 <= X -> d = ((1 + u32) ^ (f + 1) - 1) * X + 2 * eta32 ->
  d + 16 * u64 * (X + d) + 4 * INR f * eta64 <= median_accuracy f X.
Proof.
  intros Hf Lf X0 ->. unfold median_accuracy. destruct (Nat.eqb_spec f 1); [lia|].
  assert (U : u32 = / 2 ^ 24) by (unfold u32; f_equal; ring).
  assert (E : / 2 ^ 148 = 4 * eta32).
  { rewrite inv_pow2. unfold eta32. change 4 with (bpow radix2 2). rewrite <- bpow_plus. reflexivity. }
  rewrite <- U, E. clear U E. replace (f + 2)%nat with (S (f + 1)) by lia. cbn [pow].
  pose proof u32_pos as U. pose proof u64_small as U6. pose proof eta32_pos as E3.
  set (G := (1 + u32) ^ (f + 1)). assert (G1 : 1 <= G) by (apply pow_R1_Rle; lra).
  assert (GX : 0 <= G * X) by (apply Rmult_le_pos; lra).
  assert (UU : 16 * u64 <= u32) by (unfold u64, u32; lra).
  assert (16 * u64 * (G * X) <= u32 * (G * X)) by (apply Rmult_le_compat_r; lra).
  assert (16 * u64 * (2 * eta32) <= / 10 * eta32).
  { assert (16 * u64 * 2 <= / 10) by (unfold u64; lra). replace (16 * u64 * (2 * eta32)) with (16 * u64 * 2 * eta32) by ring.
    apply Rmult_le_compat_r; lra. }
  assert (4 * INR f * eta64 <= / 10 * eta32).
  { assert (INR f <= bpow radix2 25) by (rewrite INR_IZR_INZ; change 25%Z with (Z.of_nat 25); rewrite bpow_2; replace (2 ^ 25) with (IZR 33554432) by ring; apply IZR_le; lia).
    apply Rle_trans with (bpow radix2 (2 + 25 + -1075)).
    - rewrite !bpow_plus. change (bpow radix2 2) with 4. unfold eta64. apply Rmult_le_compat_r; [apply bpow_ge_0|]. lra.
    - apply Rle_trans with (bpow radix2 (-10) * bpow radix2 (-150)); [rewrite <- bpow_plus; apply bpow_le; lia|].
      unfold eta32. apply Rmult_le_compat_r; [apply bpow_ge_0|]. cbn. lra. }
  lra.
Qed.

Lemma map_rnd32 bld (s : list R) : Forall single s -> map (@n_narrow (numF bld)) s = s.
Proof. induction 1 as [|a l H _ IH]; [reflexivity|]. cbn [map]. rewrite IH. f_equal. now apply rnd32_id. Qed.

Lemma Forall_nth' (P : R -> Prop) l i : Forall P l -> (i < length l)%nat -> P (nth i l 0).
Proof. intros H Hi. rewrite Forall_forall in H. apply H. now apply nth_In. Qed.

Lemma F2_nth_intro (P : R -> R -> Prop) l l' : length l = length l' -> (forall i, (i < length l)%nat -> P (nth i l 0) (nth i l' 0)) -> Forall2 P l l'.
Proof.
  revert l'. induction l as [|a l IH]; intros [|b l'] L H; try discriminate; constructor.
  - apply (H 0%nat). cbn. lia.
  - apply IH; [cbn in L; lia|]. intros i Hi. apply (H (S i)). cbn. lia.
Qed.

Lemma interp_double bld (xp r : list R) (y : R) : Forall F64 r -> double (interp (numF bld) xp r y).
Proof.
  assert (Z : double (o_ofZ (@n_dbl (numF bld)) 0)) by (apply generic_format_round; typeclasses eauto).
  assert (G : forall xp r, Forall F64 r -> double (interp_in (numF bld) xp r y)).
  { clear xp r. induction xp as [|x0 xp IH]; intros r Fr.
    - destruct r; cbn [interp_in]; [exact Z|]. now inversion Fr.
    - destruct r as [|f0 r]; cbn [interp_in]; [now destruct xp|]. inversion Fr; subst.
      destruct xp as [|x1 xp]; [assumption|]. destruct r as [|f1 r]; [assumption|].
      destruct (n_ltb _ _); [apply generic_format_round; typeclasses eauto|]. now apply IH. }
  intros Fr. unfold interp. destruct xp as [|x0 xp]; [exact Z|]. destruct r as [|f0 r]; [exact Z|].
  destruct (n_ltb _ _); [now inversion Fr|]. now apply G.
Qed.

(** fast_running_median *)
Lemma fast_err bld (alloc allocR : nat -> list R) (x : list R) X w m : allocates alloc -> allocates allocR ->
  (0 < m <= 2 ^ 52)%Z -> Z.odd m = true -> (0 <= w <= 2 ^ 52)%Z -> (Z.of_nat (length x) <= 33554432)%Z ->
  Forall single x -> (forall v, In v x -> Rabs v <= X) -> window_fits w m (Z.of_nat (length x)) ->
  exists r rR, fast_running_median (numF bld) alloc x w m = Ok r /\ fast_running_median numR allocR x w m = Ok rR /\
    length r = length x /\ length rR = length x /\ Forall double r /\
    forall i, (i < length x)%nat -> Rabs (nth i r 0 - nth i rR 0) <= median_accuracy (samples_per_mean w m) X.
Proof.
  intros Ha HaR Hm Om Hw HL HF HX Fit. unfold window_fits in Fit. unfold samples_per_mean.
  destruct (Z.ltb_spec w (2 * m)) as [L|L].
  - destruct Fit as [O B].
    destruct (fast_running_median_correct allocR x w m HaR ltac:(lia)) as (_ & K & _).
    assert (KR := K Om L). clear K. unfold running_median_py in KR. destruct (Z.ltb_spec w 0); [lia|]. revert KR. numR_ty.
    rewrite map_narrow_R. intros KR.
    unfold fast_running_median at 1. rewrite Zmod_odd, Om. cbn [Z.eqb]. rewrite scrunch_factor_F by lia.
    destruct (Z.ltb_spec w (2 * m)); [|lia]. cbn [Z.eqb]. unfold running_median_py. destruct (Z.ltb_spec w 0); [lia|].
    rewrite (map_rnd32 bld x HF). change (n_T (numF bld)) with R in *.
    assert (E0 : o_ofZ (@n_dbl (numF bld)) 0 = 0) by (apply (litF bld 0); lia). change (n_T (numF bld)) with R in *. rewrite E0.
    destruct (running_median_correct R Rlt_bool 0 0 alloc x (Z.to_nat w) Ha) as [_ (r & E1 & L1 & M1)];
      [rewrite odd_to_nat by lia; split; auto; lia|].
    destruct (running_median_correct R Rlt_bool 0 0 allocR x (Z.to_nat w) HaR) as [_ (rR & E2 & L2 & M2)];
      [rewrite odd_to_nat by lia; split; auto; lia|].
    exists r, rR. split; [exact E1|]. split; [rewrite KR; exact E2|]. split; [exact L1|]. split; [exact L2|]. split.
    { destruct (rmed_in alloc 0 x (Z.to_nat w) r Ha E1) as (_ & I & _). apply Forall_forall. intros v Hv.
      apply F32_F64. rewrite Forall_forall in HF. apply HF. now apply I. }
    intros i Hi. specialize (M1 strict_weak_R i Hi). specialize (M2 strict_weak_R i Hi).
    unfold median_accuracy. cbn [Nat.eqb]. apply (median_close 0 _ _ _ _) with (2 := M1) (3 := M2).
    clear. induction (centred_window 0 x (Z.to_nat w / 2) i); constructor; auto.
    rewrite Rminus_diag_eq, Rabs_R0 by auto. lra.
  - assert (S2 : (2 <= w / m)%Z) by (apply Z.div_le_lower_bound; lia).
    destruct (fast_unfold allocR x w m ltac:(lia) ltac:(rewrite Zmod_odd, Om; discriminate) L) as [Hf ER].
    set (f := Z.to_nat (w / m)) in *.
    assert (EL : (Z.of_nat (length x) / (w / m))%Z = Z.of_nat (length x / f)).
    { rewrite Nat2Z.inj_div. unfold f. now rewrite Z2Nat.id by lia. }
    rewrite EL in Fit. set (nb := (length x / f)%nat) in *.
    set (s := scrunch (numF bld) x f : list R). set (sR := scrunch numR x f : list R).
    assert (Ls : length s = nb) by (unfold s, scrunch; now rewrite map_length, seq_length).
    assert (LsR : length sR = nb) by apply scrunch_length.
    assert (Fs : Forall single s).
    { unfold s, scrunch. apply Forall_forall. intros v Hv. apply in_map_iff in Hv as (i & <- & _). apply F32_rnd. }
    assert (Es : Z.of_nat f = (w / m)%Z) by (unfold f; lia).
    assert (NF0 : (nb * f <= length x)%nat) by (unfold nb; rewrite Nat.mul_comm; apply Nat.mul_div_le; lia).
    assert (X0 : 0 <= X).
    { destruct x as [|v x]; [cbn in NF0; nia|]. pose proof (HX v (or_introl eq_refl)). pose proof (Rabs_pos v). lra. }
    set (d := ((1 + u32) ^ (f + 1) - 1) * X + 2 * eta32).
    assert (d0 : 0 <= d).
    { unfold d. pose proof u32_pos. pose proof eta32_pos. assert (1 <= (1 + u32) ^ (f + 1)) by (apply pow_R1_Rle; lra).
      assert (0 <= ((1 + u32) ^ (f + 1) - 1) * X) by (apply Rmult_le_pos; lra). lra. }
    assert (SE : forall i, (i < nb)%nat -> Rabs (nth i s 0 - nth i sR 0) <= d).
    { intros i Hi. apply scrunch_err; auto. lia. }
    assert (O' : Nat.odd (Z.to_nat m) = true) by (rewrite odd_to_nat by lia; exact Om).
    destruct (running_median_correct R Rlt_bool 0 0 alloc s (Z.to_nat m) Ha) as [_ (r & E1 & L1 & M1)];
      [split; auto; rewrite Ls; lia|].
    destruct (running_median_correct R Rlt_bool 0 0 allocR sR (Z.to_nat m) HaR) as [_ (rR & E2 & L2 & M2)];
      [split; auto; rewrite LsR; lia|].
    destruct (rmed_in alloc 0 s (Z.to_nat m) r Ha E1) as (_ & I1 & _).
    destruct (rmed_in allocR 0 sR (Z.to_nat m) rR HaR E2) as (_ & I2 & _).
    assert (MC : Forall2 (fun a b => Rabs (a - b) <= d) r rR).
    { apply F2_nth_intro; [congruence|]. intros i Hi. rewrite L1, Ls in Hi.
      specialize (M1 strict_weak_R i ltac:(lia)). specialize (M2 strict_weak_R i ltac:(lia)).
      apply median_close with (2 := M1) (3 := M2). unfold centred_window. apply F2_seq. intros k _.
      rewrite Ls, LsR. apply SE. lia. }
    assert (SB : forall v, In v r -> Rabs v <= X + d).
    { intros v Hv. destruct (In_nth s v 0 (I1 v Hv)) as (i & Hi & <-). rewrite Ls in Hi.
      assert (Rabs (nth i sR 0) <= X).
      { apply Rabs_le. apply (scrunch_range x f); [lia| |apply nth_In; now rewrite scrunch_length].
        intros y Hy. apply Rabs_le_inv. now apply HX. }
      specialize (SE i Hi). replace (nth i s 0) with (nth i sR 0 + (nth i s 0 - nth i sR 0)) by ring.
      eapply Rle_trans; [apply Rabs_triang|]. lra. }
    unfold fast_running_median at 1. rewrite Zmod_odd, Om. cbn [Z.eqb]. rewrite scrunch_factor_F by lia.
    destruct (Z.ltb_spec w (2 * m)); [lia|]. destruct (Z.eqb_spec (w / m) 1); [lia|].
    unfold running_median_py. destruct (Z.ltb_spec m 0); [lia|]. fold f.
    change (scrunch (numF bld) x f) with s. rewrite (map_rnd32 bld s Fs).
    assert (E0 : o_ofZ (@n_dbl (numF bld)) 0 = 0) by (apply (litF bld 0); lia). change (n_T (numF bld)) with R in *. rewrite E0.
    change (@n_ltb (numF bld)) with Rlt_bool. rewrite E1. cbn [bind]. rewrite Ls, <- Es.
    assert (XL : map (fun i => o_add (@n_dbl (numF bld)) (o_ofZ (@n_dbl (numF bld)) (Z.of_nat (i * f)))
        (o_mul (@n_dbl (numF bld)) (o_div (@n_dbl (numF bld)) (o_ofZ (@n_dbl (numF bld)) 1) (o_ofZ (@n_dbl (numF bld)) 2)) (o_ofZ (@n_dbl (numF bld)) (Z.of_nat f - 1)))) (seq 0 nb)
      = map (centreF f) (seq 0 nb)).
    { apply map_ext_in. intros i Hi. apply in_seq in Hi. apply (centre_I bld f i ltac:(lia)).
      assert (S i * f <= nb * f)%nat by (apply Nat.mul_le_mono_r; lia). cbn [Nat.mul] in *. lia. }
    change (n_T (numF bld)) with R in *. rewrite XL.
    revert ER. numR_ty. change (scrunch numR x f) with sR. rewrite E2. cbn [bind].
    assert (XR : map (fun i => INR (i * f) + 1 / 2 * (IZR (w / m) - 1)) (seq 0 nb) = map (centreF f) (seq 0 nb)).
    { apply map_ext. intros i. unfold centreF. rewrite <- Es, <- INR_IZR_INZ. field. }
    rewrite XR. intros ER. eexists _, _. split; [reflexivity|]. split; [exact ER|].
    split; [now rewrite map_length, seq_length|]. split; [now rewrite map_length, seq_length|].
    assert (Fr : Forall F64 r).
    { apply Forall_forall. intros v Hv. apply F32_F64. rewrite Forall_forall in Fs. apply Fs. now apply I1. }
    split.
    { apply Forall_forall. intros v Hv. apply in_map_iff in Hv as (i & <- & _). now apply interp_double. }
    intros i Hi. rewrite !nth_map_seq by auto.
    assert (Ei : o_ofZ (@n_dbl (numF bld)) (Z.of_nat i) = INR i) by (rewrite litF by lia; now rewrite <- INR_IZR_INZ).
    change (n_T (numF bld)) with R in *. rewrite Ei.
    assert (FL : (1 * f <= nb * f)%nat) by (apply Nat.mul_le_mono_r; lia).
    eapply Rle_trans; [|apply (accuracy_bound f X d); auto; lia].
    apply interp_err; auto; try lia.
    apply Forall_forall. exact SB.
Qed.

(** C126.  deredden() on [float] samples of at most [X]: the running medians are those of the exact
    samples, up to the rounding errors of the means they are taken over, and what is left of each sample after
    subtracting them is the exact difference up to these errors and a relative error of 2^-23. *)
Theorem deredden_rounding :
  forall (bld : build) (alloc : nat -> list R) (data : list R) (tsamp width X : R) (m : Z),
  let size := length data in
  let w := ZnearestE (rnd64 (width / tsamp)) in
  let acc := median_accuracy (samples_per_mean w m) X in
  allocates alloc -> 0 < tsamp -> 0 <= width -> width / tsamp <= 2 ^ 51 ->
  (0 < m <= 2 ^ 52)%Z -> Z.odd m = true -> (Z.of_nat size <= 33554432)%Z ->
  Forall single data -> (forall i, (i < size)%nat -> Rabs (nth i data 0) <= X) ->
  window_fits w m (Z.of_nat size) ->
  exists r rR : list R,
    rmed (numF bld) alloc data tsamp width m = Ok r /\ median_of data w (PInt m) rR /\
    length r = size /\ length (minus (numF bld) data r) = size /\ Forall single (minus (numF bld) data r) /\
    forall i, (i < size)%nat ->
      let rest := nth i data 0 - nth i rR 0 in
      Rabs (nth i r 0 - nth i rR 0) <= acc /\
      Rabs (nth i (minus (numF bld) data r) 0 - rest) <= acc + / 2 ^ 23 * (Rabs rest + acc) + / 2 ^ 150.
Proof.
  intros bld alloc data tsamp width X m size w acc Ha T0 W0 B Hm Om HL HF HX Fit.
  assert (W1 : 0 <= width / tsamp) by (apply Rmult_le_pos; [lra|left; now apply Rinv_0_lt_compat]).
  assert (Q : 0 <= rnd64 (width / tsamp) <= bpow radix2 51).
  { split.
    - rewrite <- (rnd64_id 0) by (apply (F64_int 0); lia). now apply rnd64_le.
    - rewrite <- (rnd64_id (bpow radix2 51)); [apply rnd64_le; change 51%Z with (Z.of_nat 51); rewrite bpow_2; exact B|].
      apply (F64_int (2 ^ 51)). lia. }
  assert (Ew : py_round (numF bld) (o_div (@n_dbl (numF bld)) width tsamp) = w).
  { apply py_round_F; [apply generic_format_round; typeclasses eauto|exact Q]. }
  assert (Hw : (0 <= w <= 2 ^ 51)%Z).
  { unfold w. split.
    - rewrite <- (Zrnd_IZR ZnearestE 0). apply Zrnd_le; [typeclasses eauto|]. apply Q.
    - rewrite <- (Zrnd_IZR ZnearestE (2 ^ 51)). apply Zrnd_le; [typeclasses eauto|]. exact (proj2 Q). }
  assert (HX' : forall v, In v data -> Rabs v <= X).
  { intros v Hv. destruct (In_nth data v 0 Hv) as (i & Hi & <-). now apply HX. }
  assert (HaR : allocates (fun n => repeat 0 n)) by (intros k; apply repeat_length).
  destruct (fast_err bld alloc (fun n => repeat 0 n) data X w m Ha HaR Hm Om ltac:(lia) HL HF HX' Fit)
    as (r & rR & E1 & E2 & L1 & L2 & FD & K).
  exists r, rR. split; [unfold rmed; now rewrite Ew|]. split; [now apply (median_py_ok (fun n => repeat 0 n) data w (PInt m) rR HaR)|].
  split; [exact L1|].
  assert (Lm : length (minus (numF bld) data r) = size).
  { unfold minus. rewrite map_length, combine_length. change (n_T (numF bld)) with R in *. unfold size. lia. }
  split; [exact Lm|]. split.
  { apply Forall_forall. intros v Hv. unfold minus in Hv. apply in_map_iff in Hv as (p & <- & _). apply F32_rnd. }
  intros i Hi rest. specialize (K i Hi). fold acc in K. split; [exact K|].
  assert (N : nth i (minus (numF bld) data r) 0 = rnd32 (rnd64 (nth i data 0 - nth i r 0))).
  { unfold minus. set (g := fun p : R * R => rnd32 (rnd64 (fst p - snd p))).
    change (nth i (map g (combine data r)) 0 = g (nth i data 0, nth i r 0)).
    assert (LC : length (combine data r) = size) by (rewrite combine_length; unfold size; lia).
    rewrite (nth_indep _ 0 (g (0, 0))) by (rewrite map_length; apply (eq_ind_r (fun n => i < n)%nat Hi LC)).
    rewrite map_nth. f_equal. apply combine_nth. now symmetry. }
  rewrite N. change (n_T (numF bld)) with R in *. change (n_T numR) with R in *. set (x := nth i data 0) in *. set (a := nth i r 0) in *. set (b := nth i rR 0) in *.
  assert (Fx : F64 x) by (apply F32_F64; apply Forall_nth'; auto).
  assert (Fa : F64 (- a)) by (apply generic_format_opp; apply Forall_nth'; auto; apply (eq_ind_r (fun n => i < n)%nat Hi L1)).
  destruct (rnd64_plus_error x (- a) Fx Fa) as [_ R1]. change (x + - a) with (x - a) in R1. set (q := rnd64 (x - a)) in *.
  pose proof (rnd32_err q) as R2. set (z := rnd32 q) in *.
  assert (XA : Rabs (x - a) <= Rabs rest + acc).
  { replace (x - a) with (rest + - (a - b)) by (unfold rest; ring). eapply Rle_trans; [apply Rabs_triang|]. rewrite Rabs_Ropp. lra. }
  assert (E : eta32 = / 2 ^ 150) by (now rewrite inv_pow2). rewrite <- E.
  pose proof u32_pos as U3. pose proof u64_small as U6.
  assert (QB : Rabs q <= (1 + u64) * Rabs (x - a)).
  { replace q with ((x - a) + (q - (x - a))) by ring. eapply Rle_trans; [apply Rabs_triang|]. lra. }
  assert (UB : u32 * Rabs q <= u32 * ((1 + u64) * Rabs (x - a))) by (apply Rmult_le_compat_l; lra).
  assert (UU : (u64 + u32 * (1 + u64)) * Rabs (x - a) <= / 2 ^ 23 * (Rabs rest + acc)).
  { apply Rmult_le_compat; [unfold u32, u64; lra|apply Rabs_pos| |exact XA].
    replace (2 ^ 23) with 8388608 by ring. unfold u32, u64. lra. }
  replace (z - rest) with ((z - q) + (q - (x - a)) + (b - a)) by (unfold rest; ring).
  eapply Rle_trans; [apply Rabs_triang|]. pose proof (Rabs_triang (z - q) (q - (x - a))).
  rewrite (Rabs_minus_sym b a). lra.
Qed.
Print Assumptions deredden_rounding.

(** means of 3 samples *)
Example deredden_rounding_ex : let tsamp := / 1024 in let width := 303 / 1024 in
  let w := ZnearestE (rnd64 (width / tsamp)) in
  0 < tsamp /\ 0 <= width /\ width / tsamp <= 2 ^ 51 /\ (0 < 101 <= 2 ^ 52)%Z /\ Z.odd 101 = true /\
  (Z.of_nat (length blip) <= 33554432)%Z /\ Forall single blip /\ (forall i, (i < length blip)%nat -> Rabs (nth i blip 0) <= 2) /\
  window_fits w 101 (Z.of_nat (length blip)) /\ samples_per_mean w 101 = 3%nat /\
  median_accuracy 3 2 <= / 2 ^ 20.
Proof.
  cbv zeta. assert (W : ZnearestE (rnd64 (303 / 1024 / / 1024)) = 303%Z).
  { replace (303 / 1024 / / 1024) with (IZR 303) by field. rewrite rnd64_id by (apply F64_int; lia). apply (Zrnd_IZR ZnearestE 303). }
  rewrite W. split; [lra|]. split; [lra|]. split.
  { replace (303 / 1024 / / 1024) with 303 by field. apply Rle_trans with (2 ^ 10); [cbn; lra|]. apply Rle_pow; [lra|lia]. }
  split; [lia|]. split; [reflexivity|]. rewrite blip_len. split; [cbn; lia|]. split.
  { apply Forall_forall. intros v Hv. destruct (In_nth _ _ 0 Hv) as (i & _ & <-).
    assert (S : forall k, single (nth k blip 0)); [|apply S]. clear. intros k. unfold blip.
    destruct k as [|[|k]]; [apply (F32_int 1); lia|apply (F32_int 2); lia|]. cbn [nth].
    destruct (nth_in_or_default k (repeat 1 3998) 0) as [I| ->]; [|apply (F32_int 0); lia].
    apply repeat_spec in I. rewrite I. apply (F32_int 1); lia. }
  split.
  { intros i _. unfold blip. destruct i as [|[|k]]; [cbn; rewrite Rabs_pos_eq; lra|cbn; rewrite Rabs_pos_eq; lra|]. cbn [nth].
    destruct (nth_in_or_default k (repeat 1 3998) 0) as [I| ->]; [|rewrite Rabs_R0; lra].
    apply repeat_spec in I. rewrite I. rewrite Rabs_pos_eq; lra. }
  split. { unfold window_fits. change (303 <? 2 * 101)%Z with false. cbv iota. change (303 / 101)%Z with 3%Z. change (Z.of_nat (40 * 100)) with 4000%Z. now apply Z.ltb_lt. }
  split; [reflexivity|]. unfold median_accuracy. cbn [Nat.eqb Nat.add].
  assert (/ 2 ^ 148 <= / 2 ^ 30) by (apply Rinv_le_contravar; [apply pow_lt; lra|apply Rle_pow; [lra|lia]]).
  set (h := / 2 ^ 24). assert (Hh : h = / 16777216) by (unfold h; f_equal; ring).
  replace (2 ^ 30) with 1073741824 in * by ring. replace (2 ^ 20) with 1048576 by ring. rewrite Hh. cbn [pow]. lra.
Qed.
