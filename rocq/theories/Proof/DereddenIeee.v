(** deredden() in IEEE arithmetic. *)
From Coq Require Import List Arith ZArith Bool Lia Reals Lra SpecFloat.
From Flocq Require Import Core.
From Verif Require Import Base.Result Base.Buf Base.Num Model.RunMed Model.FastRmed Model.TimeSeries
  Proof.Ieee Proof.KernelsIeee Proof.SumOrder Proof.SumIeee Proof.NormIeee Proof.WidthsIeee Proof.Downsample
  Proof.Index Proof.Rounding Proof.RunMedRel Props.Downsample Props.RunMed Props.PeriodogramIeee.
Import ListNotations.
Local Open Scope R_scope.

Lemma F2_map {A B C D} (P : A -> B -> Prop) (Q : C -> D -> Prop) f g l l' :
  (forall a b, P a b -> Q (f a) (g b)) -> Forall2 P l l' -> Forall2 Q (map f l) (map g l').
Proof. intros H. induction 1; cbn; constructor; auto. Qed.

Lemma F2_seq {C D} (Q : C -> D -> Prop) f g m : forall s,
  (forall i, (s <= i < s + m)%nat -> Q (f i) (g i)) -> Forall2 Q (map f (seq s m)) (map g (seq s m)).
Proof.
  induction m as [|m IH]; intros s H; cbn [seq map]; constructor; [apply H; lia|].
  apply IH. intros. apply H. lia.
Qed.

Section Deredden.
Context (bld : build).
Notation NI := (numI bld).
Notation NF := (numF bld).
Notation z0 := (S754_zero false).
Notation litI z := (o_ofZ (@n_dbl NI) z).
Notation litF z := (o_ofZ (@n_dbl NF) z).

(** ** the running median compares and copies *)
Lemma running_median_I j (alloc : nat -> list R) (allocI : nat -> list spec_float) (x : list R) (xI : list spec_float) w :
  allocates alloc -> allocates allocI -> (-149 <= j <= 127)%Z -> Forall2 (fb32 j) xI x ->
  rres (Forall2 (fb32 j)) (running_median_py NI allocI xI w) (running_median_py NF alloc x w).
Proof.
  intros Ha HaI Hj HF. unfold running_median_py. destruct (w <? 0)%Z; [reflexivity|].
  unfold py_running_median. apply rmed_rel.
  - intros a b a' b' [H _] [H' _]. apply fl_ltb; now apply fl32_64.
  - eapply F2_map; [|exact HF]. intros a b H. apply d_narrow; [lia|]. now apply s_wide.
  - assert (E : litF 0 = 0) by apply (proj2 (lit_I bld 0 ltac:(lia))). rewrite E.
    split; [apply fl0; reflexivity|]. rewrite Rabs_R0. apply bpow_ge_0.
  - apply HaI.
  - apply Ha.
Qed.

(** ** the block means *)
Lemma scrunch_I j (x : list R) (xI : list spec_float) f : (-100 <= j <= 90)%Z -> Forall2 (fb32 j) xI x ->
  (Z.of_nat (length x) <= 33554432)%Z -> (1 <= f)%nat ->
  Forall2 (fb32 (j + 29)) (scrunch NI xI f) (scrunch NF x f).
Proof.
  intros Hj HF HL Hf. unfold scrunch. change (n_T NI) with spec_float in *. change (n_T NF) with R in *.
  pose proof (F2_len _ _ _ HF) as EL. rewrite EL. apply F2_seq. intros i Hi.
  assert (Lf : (f <= length x)%nat).
  { destruct (Nat.le_gt_cases f (length x)) as [H|H]; auto. rewrite Nat.div_small in Hi by lia. lia. }
  assert (HI : (i * f + f <= length x)%nat).
  { assert (S i <= length x / f)%nat by lia. assert (S i * f <= length x / f * f)%nat by (apply Nat.mul_le_mono_r; auto).
    pose proof (Nat.mul_div_le (length x) f ltac:(lia)). lia. }
  destruct (len_I bld f ltac:(lia)) as [LI LE].
  apply d_narrow; [lia|]. replace (j + 29)%Z with (j + 29 - 0)%Z by lia. apply d_div; [lia| |apply LI|].
  - apply s_wide. apply s_sum; auto.
    + apply F2_seq. intros k Hk. cbn [term_I].
      apply (nth_Forall2 _ _ _ (litI 0) (litF 0) HF). change (n_T NF) with R. lia.
    + rewrite map_length, seq_length. lia.
  - assert (K : bpow radix2 0 <= Rabs (litF (Z.of_nat f))); [|exact K].
    rewrite LE. change (bpow radix2 0) with 1. rewrite Rabs_pos_eq by apply pos_INR. apply (le_INR 1). lia.
Qed.

(** ** the interpolation *)
Definition centreF (f i : nat) : R := INR (i * f) + (INR f - 1) / 2.

Lemma centre_I f i : (1 <= f)%nat -> (Z.of_nat (i * f + f) <= 33554432)%Z ->
  let g N := o_add (@n_dbl N) (o_ofZ (@n_dbl N) (Z.of_nat (i * f)))
    (o_mul (@n_dbl N) (o_div (@n_dbl N) (o_ofZ (@n_dbl N) 1) (o_ofZ (@n_dbl N) 2)) (o_ofZ (@n_dbl N) (Z.of_nat f - 1))) in
  fb64 27 (g NI) (g NF) /\ g NF = centreF f i.
Proof.
  intros Hf Hi g. unfold g.
  destruct (lit_I bld 1 ltac:(lia)) as [L1 E1]. destruct (lit_I bld 2 ltac:(lia)) as [L2 E2].
  destruct (len_I bld (i * f) ltac:(lia)) as [L3 E3]. destruct (lit_I bld (Z.of_nat f - 1) ltac:(lia)) as [_ E4].
  assert (L4 : fb64 25 (litI (Z.of_nat f - 1)) (litF (Z.of_nat f - 1))) by (apply d_ofZ; lia).
  assert (L1' : fb64 0 (litI 1) (litF 1)) by (apply d_ofZ; lia).
  assert (Eh : o_div (@n_dbl NF) (litF 1) (litF 2) = / 2).
  { rewrite E1, E2. cbn [numF opsF n_dbl o_div]. replace (1 / 2) with (IZR 1 * / 2) by lra. rewrite rnd64_id; [lra|]. apply F64_half. lia. }
  split.
  - replace 27%Z with (26 + 1)%Z by lia. apply d_add; [lia|apply fb_weaken with (j := 25%Z); [lia|exact L3]|].
    apply fb_weaken with (j := (0 - 0 + 25)%Z); [lia|]. apply d_mul; [lia| |exact L4].
    apply d_div; [lia|exact L1'|apply L2|].
    assert (K : bpow radix2 0 <= Rabs (litF 2)); [|exact K]. rewrite E2. change (bpow radix2 0) with 1. rewrite Rabs_pos_eq; lra.
  - rewrite Eh, E3, E4. cbn [numF opsF n_dbl o_add o_mul]. rewrite (Rmult_comm (/ 2)). rewrite (rnd64_id (_ * / 2)) by (apply F64_half; lia).
    unfold centreF. rewrite minus_IZR, <- INR_IZR_INZ. rewrite !INR_IZR_INZ.
    replace (IZR (Z.of_nat (i * f)) + (IZR (Z.of_nat f) - 1) * / 2) with (IZR (2 * Z.of_nat (i * f) + Z.of_nat f - 1) * / 2)
      by (rewrite !minus_IZR, plus_IZR, mult_IZR; field).
    rewrite rnd64_id by (apply F64_half; lia). rewrite !minus_IZR, plus_IZR, mult_IZR. change (n_T NF) with R; field.
Qed.

Lemma interp_in_I j f n : (-149 <= j <= 900)%Z -> (1 <= f)%nat ->
  forall (m s : nat) (xpI fpI : list spec_float) (fp : list R) (yI : spec_float),
  (Z.of_nat ((s + m) * f) <= 33554432)%Z -> (Z.of_nat n <= 33554432)%Z ->
  Forall2 (fb64 27) xpI (map (centreF f) (seq s m)) -> Forall2 (fb64 j) fpI fp -> length fp = m -> (1 <= m)%nat ->
  fb64 25 yI (INR n) -> centreF f s <= INR n ->
  fb64 (j + 3) (interp_in NI xpI fpI yI) (interp_in NF (map (centreF f) (seq s m)) fp (INR n)).
Proof.
  intros Hj Hf. induction m as [|m IH]; intros s xpI fpI fp yI Hs Hn HX HP HL H1 HY HC; [lia|].
  cbn [seq map] in *. inversion HX as [|x0 x0' xp1 xp1' X0 X1 EX1 EX2]; subst.
  destruct HP as [|f0 f0' fp1 fp1' P0 P1]; [discriminate|].
  assert (HP0 : fb64 (j + 3) f0 f0') by (apply fb_weaken with (j := j); [lia|exact P0]).
  destruct m as [|m].
  { cbn [seq map] in *. inversion X1; subst. destruct P1; [|discriminate]. cbn [interp_in]. exact HP0. }
  cbn [seq map] in *. inversion X1 as [|x1 x1' xp2 xp2' X2 X3 EX1 EX2]; subst.
  destruct P1 as [|f1 f1' fp2 fp2' P2 P3]; [discriminate|].
  cbn [interp_in]. assert (EB : @n_ltb NI yI x1 = @n_ltb NF (INR n) (centreF f (S s))).
  { apply fl_ltb; [apply HY|apply X2]. }
  rewrite EB. change (@n_ltb NF) with Rlt_bool. destruct (Rlt_bool_spec (INR n) (centreF f (S s))) as [HB|HB].
  - assert (ST : centreF f (S s) - centreF f s = INR f).
    { unfold centreF. cbn [Nat.mul]. rewrite plus_INR. lra. }
    assert (E10 : o_sub (@n_dbl NF) (centreF f (S s)) (centreF f s) = INR f).
    { cbn [numF opsF n_dbl o_sub]. rewrite ST. rewrite INR_IZR_INZ. apply rnd64_id, F64_int.
      assert ((s + S (S m)) * f >= f)%nat by (cbn [Nat.add]; nia). lia. }
    pose (a := Z.log2 (Z.of_nat f)). destruct (Z.log2_spec (Z.of_nat f) ltac:(lia)) as [A1 A2]. fold a in A1, A2.
    assert (A0 : (0 <= a)%Z) by apply Z.log2_nonneg.
    assert (A3 : (a <= 25)%Z).
    { assert ((s + S (S m)) * f >= f)%nat by nia. change 25%Z with (Z.log2 33554432). apply Z.log2_le_mono. lia. }
    assert (Pa : bpow radix2 a <= INR f < bpow radix2 (a + 1)).
    { rewrite INR_IZR_INZ, <- !IZR_Zpower by lia. split; [now apply IZR_le|]. apply IZR_lt. exact A2. }
    assert (D10 : fl64 (o_sub (@n_dbl NI) x1 x0) (INR f)).
    { rewrite <- E10. exact (proj1 (d_sub bld 27 _ _ _ _ ltac:(lia) X2 X0)). }
    assert (SL : fb64 (j + 1 - a) (o_div (@n_dbl NI) (o_sub (@n_dbl NI) f1 f0) (o_sub (@n_dbl NI) x1 x0))
      (o_div (@n_dbl NF) (o_sub (@n_dbl NF) f1' f0') (o_sub (@n_dbl NF) (centreF f (S s)) (centreF f s)))).
    { rewrite E10. apply d_div; [lia|apply d_sub; auto; lia|exact D10|]. rewrite Rabs_pos_eq by apply pos_INR. apply Pa. }
    assert (DY : fb64 (a + 1) (o_sub (@n_dbl NI) yI x0) (o_sub (@n_dbl NF) (INR n) (centreF f s))).
    { split; [apply (d_sub bld 27 _ _ _ _ ltac:(lia)); auto; apply fb_weaken with (j := 25%Z); [lia|exact HY]|].
      cbn [numF opsF n_dbl o_sub]. apply (rndf_bpow 53 1024 p53); [lia|]. rewrite Rabs_pos_eq by lra. lra. }
    replace (j + 3)%Z with (j + 2 + 1)%Z by lia. apply d_add; [lia|apply fb_weaken with (j := j); [lia|exact P0]|].
    replace (j + 2)%Z with (j + 1 - a + (a + 1))%Z by lia. apply d_mul; [lia|exact SL|exact DY].
  - apply (IH (S s) (x1 :: xp2) (f1 :: fp2) (f1' :: fp2')); auto; lia.
Qed.

Lemma interp_I j f n m (xpI fpI : list spec_float) (fp : list R) (yI : spec_float) :
  (-149 <= j <= 900)%Z -> (1 <= f)%nat -> (Z.of_nat (m * f) <= 33554432)%Z -> (Z.of_nat n <= 33554432)%Z ->
  Forall2 (fb64 27) xpI (map (centreF f) (seq 0 m)) -> Forall2 (fb64 j) fpI fp -> length fp = m -> (1 <= m)%nat ->
  fb64 25 yI (INR n) ->
  fb64 (j + 3) (interp NI xpI fpI yI) (interp NF (map (centreF f) (seq 0 m)) fp (INR n)).
Proof.
  intros Hj Hf Hm Hn HX HP HL H1 HY. pose proof (interp_in_I j f n Hj Hf m 0 xpI fpI fp yI Hm Hn HX HP HL H1 HY) as G.
  unfold interp. destruct m as [|m]; [lia|]. cbn [seq map] in *. inversion HX as [|x0 x0' xp1 xp1' X0 X1 EX1 EX2]; subst.
  destruct HP as [|f0 f0' fp1 fp1' P0 P1]; [discriminate|].
  assert (EB : @n_ltb NI yI x0 = @n_ltb NF (INR n) (centreF f 0)) by (apply fl_ltb; [apply HY|apply X0]).
  rewrite EB. change (@n_ltb NF) with Rlt_bool. destruct (Rlt_bool_spec (INR n) (centreF f 0)) as [HB|HB].
  - apply fb_weaken with (j := j); [lia|exact P0].
  - apply G. exact HB.
Qed.

(** ** fast_running_median *)
Lemma scrunch_factor_I w m : (Z.abs w <= 2 ^ 52)%Z -> (Z.abs m <= 2 ^ 52)%Z -> (m mod 2 <> 0)%Z ->
  scrunch_factor NI w m = scrunch_factor NF w m /\ (1 <= scrunch_factor NF w m)%Z.
Proof.
  intros Hw Hm Ho. unfold scrunch_factor. destruct (lit_I bld w Hw) as [Lw Ew]. destruct (lit_I bld m Hm) as [Lm Em].
  destruct (lit_I bld 1 ltac:(lia)) as [L1 E1].
  assert (M0 : m <> 0%Z) by (intros ->; now apply Ho).
  assert (D : fb64 (53 - 0) (o_div (@n_dbl NI) (litI w) (litI m)) (o_div (@n_dbl NF) (litF w) (litF m))).
  { apply d_div; [lia|exact Lw|apply Lm|]. assert (K : bpow radix2 0 <= Rabs (litF m)); [|exact K].
    rewrite Em. change (bpow radix2 0) with 1. rewrite <- abs_IZR. apply (IZR_le 1). lia. }
  assert (EB : @n_ltb NI (litI 1) (o_div (@n_dbl NI) (litI w) (litI m))
    = @n_ltb NF (litF 1) (o_div (@n_dbl NF) (litF w) (litF m))) by (apply fl_ltb; [apply L1|apply D]).
  rewrite EB. change (@n_ltb NF) with Rlt_bool. rewrite E1.
  destruct (Rlt_bool_spec 1 (o_div (@n_dbl NF) (litF w) (litF m))) as [H|H]; [|split; lia].
  split; [apply fl_trunc; apply D|]. change (@n_trunc NF) with Ztrunc. rewrite Ztrunc_floor by lra. apply Zfloor_lub. lra.
Qed.

Lemma fast_I j (alloc : nat -> list R) (allocI : nat -> list spec_float) (x : list R) (xI : list spec_float) w m :
  allocates alloc -> allocates allocI -> (-100 <= j <= 90)%Z -> Forall2 (fb32 j) xI x ->
  (Z.of_nat (length x) <= 33554432)%Z -> (Z.abs w <= 2 ^ 52)%Z -> (Z.abs m <= 2 ^ 52)%Z ->
  rres (Forall2 (fb64 (j + 32))) (fast_running_median NI allocI xI w m) (fast_running_median NF alloc x w m).
Proof.
  intros Ha HaI Hj HF HL Hw Hm. unfold fast_running_median. destruct (Z.eqb_spec (m mod 2) 0) as [He|He]; [reflexivity|].
  destruct (scrunch_factor_I w m Hw Hm He) as [E S1]. rewrite E. set (sf := scrunch_factor NF w m) in *.
  destruct (Z.eqb_spec sf 1) as [H1|H1].
  { pose proof (running_median_I j alloc allocI x xI w Ha HaI ltac:(lia) HF) as G.
    destruct (running_median_py NI allocI xI w), (running_median_py NF alloc x w); cbn [rres] in *; auto.
    eapply Forall2_mono; [|exact G]. intros u v H. apply fb_weaken with (j := j); [lia|]. now apply s_wide. }
  set (f := Z.to_nat sf). assert (Hf : (1 <= f)%nat) by (unfold f; lia).
  pose proof (scrunch_I j x xI f Hj HF HL Hf) as HS. set (sI := scrunch NI xI f) in *. set (s := scrunch NF x f) in *.
  assert (Ls : length s = (length x / f)%nat) by (unfold s, scrunch; now rewrite map_length, seq_length).
  assert (LsI : length sI = length s) by exact (F2_len _ _ _ HS).
  pose proof (running_median_I (j + 29) alloc allocI s sI m Ha HaI ltac:(lia) HS) as G.
  assert (LR : forall r, running_median_py NF alloc s m = Ok r -> length r = length s /\ (1 <= length r)%nat).
  { intros r. unfold running_median_py. destruct (m <? 0)%Z; [discriminate|]. intros Er.
    destruct (running_median_correct R Rlt_bool (litF 0) 0 alloc (map (@n_narrow NF) s) (Z.to_nat m) Ha) as [R1 R2].
    change (n_T NF) with R in *.
    assert (LN : length (map (@n_narrow NF) s) = length s) by apply map_length.
    change (n_T NF) with R in *. rewrite LN in R1, R2.
    destruct (Bool.bool_dec (Nat.odd (Z.to_nat m)) true) as [O1|O1]; [destruct (le_lt_dec (length s) (Z.to_nat m)) as [O2|O2]|].
    - exfalso. cut (Err (A := list R) ValueError = Ok r); [discriminate|]. rewrite <- Er, <- R1; [reflexivity|]. intros [_ ?]. lia.
    - destruct R2 as (r' & Er' & L' & _); [now split|].
      assert (r' = r) by (cut (Ok r' = Ok r); [congruence|]; rewrite <- Er', <- Er; reflexivity). subst r'. lia.
    - exfalso. cut (Err (A := list R) ValueError = Ok r); [discriminate|]. rewrite <- Er, <- R1; [reflexivity|]. intros [? _]. contradiction. }
  destruct (running_median_py NI allocI sI m) as [rI| | |], (running_median_py NF alloc s m) as [r| | |]; cbn [rres bind] in *; auto; try contradiction.
  destruct (LR r eq_refl) as [L1 L2]. change (n_T NF) with R in *. change (n_T NI) with spec_float in *.
  rewrite LsI. rewrite <- (F2_len _ _ _ HF : length xI = length x) in HL |- *.
  assert (HM : (length s * f <= length x)%nat).
  { rewrite Ls, Nat.mul_comm. apply Nat.mul_div_le. lia. }
  assert (EX : (length xI = length x)%nat) by exact (F2_len _ _ _ HF).
  assert (Esf : sf = Z.of_nat f) by (unfold f; lia). rewrite Esf.
  assert (XL : map (fun i => o_add (@n_dbl NF) (litF (Z.of_nat (i * f)))
      (o_mul (@n_dbl NF) (o_div (@n_dbl NF) (litF 1) (litF 2)) (litF (Z.of_nat f - 1)))) (seq 0 (length s))
    = map (centreF f) (seq 0 (length s))).
  { apply map_ext_in. intros i Hi. apply in_seq in Hi. apply (centre_I f i Hf).
    assert (S i * f <= length s * f)%nat by (apply Nat.mul_le_mono_r; lia). cbn [Nat.mul] in *. lia. }
  change (n_T NF) with R in *. rewrite XL. apply F2_seq. intros i Hi.
  destruct (len_I bld i ltac:(lia)) as [LI LE].
  match goal with |- fb64 _ ?u _ => cut (fb64 (j + 32) u (interp NF (map (centreF f) (seq 0 (length s))) r (INR i))) end;
    [rewrite <- LE; auto|].
  replace (j + 32)%Z with (j + 29 + 3)%Z by lia. apply interp_I; auto; try lia.
  - apply F2_seq. intros k Hk. rewrite <- (proj2 (centre_I f k Hf ltac:(assert (S k * f <= length s * f)%nat by (apply Nat.mul_le_mono_r; lia); cbn [Nat.mul] in *; lia))).
    apply (centre_I f k Hf). assert (S k * f <= length s * f)%nat by (apply Nat.mul_le_mono_r; lia). cbn [Nat.mul] in *. lia.
  - eapply Forall2_mono; [|exact G]. intros. now apply s_wide.
  - rewrite <- LE. exact LI.
Qed.

(** ** round() and deredden() *)
Lemma py_round_I xI x : fb64 51 xI x -> py_round NI xI = py_round NF x /\ (Z.abs (py_round NF x) <= 2 ^ 52)%Z.
Proof.
  intros HX. unfold py_round.
  assert (EF : @n_floor NI xI = @n_floor NF x) by (apply fl_floor; apply HX). rewrite EF.
  set (k := @n_floor NF x).
  assert (Hk : (- 2 ^ 51 <= k <= 2 ^ 51)%Z).
  { destruct HX as [_ B]. apply Rabs_le_inv in B. rewrite <- (IZR_Zpower radix2 51) in B by lia. rewrite <- opp_IZR in B. split.
    - unfold k. apply Zfloor_lub. apply B.
    - unfold k. apply le_IZR. apply Rle_trans with (1 := Zfloor_lb x). apply B. }
  destruct (lit_I bld k ltac:(lia)) as [Lk Ek]. destruct (lit_I bld 1 ltac:(lia)) as [L1 E1]. destruct (lit_I bld 2 ltac:(lia)) as [L2 E2].
  assert (D : fb64 54 (o_sub (@n_dbl NI) xI (litI k)) (o_sub (@n_dbl NF) x (litF k))).
  { replace 54%Z with (53 + 1)%Z by lia. apply d_sub; auto; [lia|]. apply fb_weaken with (j := 51%Z); [lia|exact HX]. }
  assert (H : fb64 (53 - 0) (o_div (@n_dbl NI) (litI 1) (litI 2)) (o_div (@n_dbl NF) (litF 1) (litF 2))).
  { apply d_div; [lia|exact L1|apply L2|]. assert (K : bpow radix2 0 <= Rabs (litF 2)); [|exact K].
    rewrite E2. change (bpow radix2 0) with 1. rewrite Rabs_pos_eq; lra. }
  assert (B1 : @n_ltb NI (o_sub (@n_dbl NI) xI (litI k)) (o_div (@n_dbl NI) (litI 1) (litI 2))
    = @n_ltb NF (o_sub (@n_dbl NF) x (litF k)) (o_div (@n_dbl NF) (litF 1) (litF 2))) by (apply fl_ltb; [apply D|apply H]).
  assert (B2 : @n_ltb NI (o_div (@n_dbl NI) (litI 1) (litI 2)) (o_sub (@n_dbl NI) xI (litI k))
    = @n_ltb NF (o_div (@n_dbl NF) (litF 1) (litF 2)) (o_sub (@n_dbl NF) x (litF k))) by (apply fl_ltb; [apply H|apply D]).
  rewrite B1, B2. split; [reflexivity|].
  destruct (@n_ltb NF _ _); [lia|]. destruct (@n_ltb NF _ _); [lia|]. destruct (Z.even k); lia.
Qed.

Lemma rmed_I j (alloc : nat -> list R) (allocI : nat -> list spec_float) (x : list R) (xI : list spec_float) tI t wI w m :
  allocates alloc -> allocates allocI -> (-100 <= j <= 90)%Z -> Forall2 (fb32 j) xI x ->
  (Z.of_nat (length x) <= 33554432)%Z -> (Z.abs m <= 2 ^ 52)%Z ->
  fl64 tI t -> fl64 wI w -> t <> 0 -> Rabs (w / t) <= bpow radix2 51 ->
  rres (Forall2 (fb64 (j + 32))) (rmed NI allocI xI tI wI m) (rmed NF alloc x t w m).
Proof.
  intros Ha HaI Hj HF HL Hm Ht Hw T0 B. unfold rmed.
  assert (Q : fb64 51 (o_div (@n_dbl NI) wI tI) (o_div (@n_dbl NF) w t)).
  { split.
    - apply (fl_div 53 1024 p53 e1024 inc64); auto. eapply Rle_trans; [exact B|]. apply bpow_le. lia.
    - apply (rndf_bpow 53 1024 p53); auto. lia. }
  destruct (py_round_I _ _ Q) as [E BW]. rewrite E. now apply fast_I.
Qed.

Lemma minus_I j (x : list R) (xI : list spec_float) (r : list R) (rI : list spec_float) : (-149 <= j <= 126)%Z ->
  Forall2 (fb32 j) xI x -> Forall2 (fb64 j) rI r ->
  Forall2 (fb32 (j + 1)) (minus NI xI rI) (minus NF x r).
Proof.
  intros Hj HF. revert r rI. unfold minus. change (n_T NI) with spec_float. change (n_T NF) with R.
  induction HF as [|a b xI x H HF IH]; intros r rI HR; [constructor|].
  destruct HR as [|c d rI r HC HR]; [constructor|]. cbn [combine map fst snd]. constructor; [|now apply IH].
  apply d_narrow; [lia|]. apply d_sub; [lia| |exact HC]. now apply s_wide.
Qed.
End Deredden.
