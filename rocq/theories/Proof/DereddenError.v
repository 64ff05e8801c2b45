(** Rounding errors of deredden(). *)
From Coq Require Import List Arith ZArith Bool Lia Reals Lra Psatz.
From Flocq Require Import Core.
From Verif Require Import Base.Result Base.Buf Base.Num Model.RunMed Model.FastRmed Model.TimeSeries Spec.Order Spec.Sums
  Proof.Downsample Proof.Index Proof.Rounding Proof.SearchFloat Proof.DownsampleFloat Proof.PeaksFloat Proof.FastRmed
  Proof.RunMedRel Proof.DereddenIeee Proof.DereddenFloat Props.Downsample Props.RunMed Props.FastRmed.
Import ListNotations.
Local Open Scope R_scope.

(** ** medians of close lists are close *)
Lemma count_F2 {A B} (P : A -> B -> Prop) (p : A -> bool) (q : B -> bool) l l' : Forall2 P l l' ->
  (forall a b, P a b -> p a = true -> q b = true) -> (count p l <= count q l')%nat.
Proof.
  intros F H. unfold count. induction F as [|a b l l' Hab F IH]; cbn [filter]; auto.
  destruct (p a) eqn:E; [rewrite (H a b Hab E); cbn; lia|]. destruct (q b); cbn; lia.
Qed.

Lemma median_close d l l' m m' : Forall2 (fun a b => Rabs (a - b) <= d) l l' ->
  is_median Rlt_bool l m -> is_median Rlt_bool l' m' -> Rabs (m - m') <= d.
Proof.
  intros F (_ & _ & A1 & A2) (_ & _ & B1 & B2). pose proof (F2_len _ _ _ F) as L. rewrite <- L in B1, B2.
  apply Rabs_le. split.
  - apply Rnot_lt_le. intros H.
    assert (count (fun x => negb (Rlt_bool m x)) l <= count (fun x => Rlt_bool x m') l')%nat; [|lia].
    apply (count_F2 _ _ _ _ _ F). intros a b Hab. destruct (Rlt_bool_spec m a); [discriminate|]. intros _.
    apply Rlt_bool_true. apply Rabs_le_inv in Hab. lra.
  - apply Rnot_lt_le. intros H.
    assert (count (fun x => negb (Rlt_bool m' x)) l' <= count (fun x => Rlt_bool x m) l)%nat; [|lia].
    apply (count_F2 (fun a b => Rabs (b - a) <= d) _ _ l' l).
    { clear - F. induction F; constructor; auto. }
    intros a b Hab. destruct (Rlt_bool_spec m' a); [discriminate|]. intros _.
    apply Rlt_bool_true. apply Rabs_le_inv in Hab. lra.
Qed.

(** ** one step of numpy.interp *)
Lemma slope_err (a b t f B : R) : F64 a -> F64 b -> Rabs a <= B -> Rabs b <= B -> 1 <= f -> 0 <= t <= f ->
  Rabs (rnd64 (a + rnd64 (rnd64 (rnd64 (b - a) / f) * t)) - (a + (b - a) * (t / f))) <= 16 * u64 * B + 4 * f * eta64.
Proof.
  intros Fa Fb Ha Hb Hf Ht. pose proof u64_small as U. pose proof eta64_small as E.
  destruct (rnd64_plus_error b (- a) Fb ltac:(now apply generic_format_opp)) as [_ E1].
  change (b + - a) with (b - a) in E1. set (d := rnd64 (b - a)) in *.
  assert (D : Rabs (b - a) <= 2 * B) by (pose proof (Rabs_triang b (- a)) as X; rewrite Rabs_Ropp in X; unfold Rminus; lra).
  assert (B0 : 0 <= B) by (pose proof (Rabs_pos a); lra).
  assert (E1' : Rabs (d - (b - a)) <= u64 * (2 * B)).
  { eapply Rle_trans; [exact E1|]. apply Rmult_le_compat_l; lra. }
  assert (UB : 0 <= u64 * B) by (apply Rmult_le_pos; lra).
  assert (UB' : u64 * B <= / 1000 * B) by (apply Rmult_le_compat_r; lra).
  assert (Dd : Rabs d <= 3 * B).
  { pose proof (Rabs_triang (d - (b - a)) (b - a)) as X. replace (d - (b - a) + (b - a)) with d in X by ring. lra. }
  assert (FI : 0 < / f) by (apply Rinv_0_lt_compat; lra).
  pose proof (rnd64_err (d / f)) as E2. fold eta64 in E2. set (q := rnd64 (d / f)) in *.
  assert (Dq : Rabs (d / f) = Rabs d * / f) by (unfold Rdiv; rewrite Rabs_mult, (Rabs_pos_eq (/ f)); auto; lra).
  set (tau := t / f) in *.
  assert (Et : t = tau * f) by (unfold tau; field; lra).
  assert (Ht1 : 0 <= tau <= 1).
  { unfold tau. split; [apply Rmult_le_pos; lra|]. apply Rmult_le_reg_r with f; [lra|]. unfold Rdiv. rewrite Rmult_assoc, Rinv_l by lra. lra. }
  assert (Fe : 0 < f * eta64) by (apply Rmult_lt_0_compat; lra).
  assert (fe : eta64 <= f * eta64) by (rewrite <- (Rmult_1_l eta64) at 1; apply Rmult_le_compat_r; lra).
  assert (E2' : Rabs ((q - d / f) * t) <= 3 * (u64 * B) + f * eta64).
  { rewrite Rabs_mult, (Rabs_pos_eq t) by lra.
    apply Rle_trans with ((u64 * Rabs (d / f) + eta64) * f).
    - apply Rmult_le_compat; try lra. apply Rabs_pos.
    - rewrite Dq. replace ((u64 * (Rabs d * / f) + eta64) * f) with (u64 * Rabs d + f * eta64) by (field; lra).
      assert (u64 * Rabs d <= u64 * (3 * B)) by (apply Rmult_le_compat_l; lra). lra. }
  assert (E4 : Rabs ((d - (b - a)) * tau) <= u64 * (2 * B)).
  { rewrite Rabs_mult, (Rabs_pos_eq tau) by lra. rewrite <- (Rmult_1_r (u64 * (2 * B))).
    apply Rmult_le_compat; try lra. apply Rabs_pos. }
  assert (QT : Rabs (q * t - (b - a) * tau) <= 5 * (u64 * B) + f * eta64).
  { replace (q * t - (b - a) * tau) with ((q - d / f) * t + (d - (b - a)) * tau) by (rewrite Et; field; lra).
    eapply Rle_trans; [apply Rabs_triang|]. lra. }
  assert (BT : Rabs ((b - a) * tau) <= 2 * B).
  { rewrite Rabs_mult, (Rabs_pos_eq tau) by lra. rewrite <- (Rmult_1_r (2 * B)).
    apply Rmult_le_compat; try lra. apply Rabs_pos. }
  assert (QB : Rabs (q * t) <= 2 * B + (5 * (u64 * B) + f * eta64)).
  { replace (q * t) with ((b - a) * tau + (q * t - (b - a) * tau)) by ring. eapply Rle_trans; [apply Rabs_triang|]. lra. }
  pose proof (rnd64_err (q * t)) as E3. fold eta64 in E3. set (p := rnd64 (q * t)) in *.
  assert (UF : u64 * (f * eta64) <= / 1000 * (f * eta64)) by (apply Rmult_le_compat_r; lra).
  assert (UUB : u64 * (u64 * B) <= / 1000 * (u64 * B)) by (apply Rmult_le_compat_r; lra).
  assert (E3' : Rabs (p - q * t) <= 3 * (u64 * B) + 11 / 10 * (f * eta64)).
  { assert (u64 * Rabs (q * t) <= u64 * (2 * B + (5 * (u64 * B) + f * eta64))) by (apply Rmult_le_compat_l; lra). lra. }
  assert (P : Rabs (p - (b - a) * tau) <= 8 * (u64 * B) + 21 / 10 * (f * eta64)).
  { replace (p - (b - a) * tau) with ((p - q * t) + (q * t - (b - a) * tau)) by ring.
    eapply Rle_trans; [apply Rabs_triang|]. lra. }
  destruct (rnd64_plus_error a p Fa ltac:(apply generic_format_round; typeclasses eauto)) as [_ E5]. set (z := rnd64 (a + p)) in *.
  assert (AP : Rabs (a + p) <= 3 * B + (8 * (u64 * B) + 21 / 10 * (f * eta64))).
  { replace (a + p) with (a + ((b - a) * tau + (p - (b - a) * tau))) by ring.
    eapply Rle_trans; [apply Rabs_triang|]. pose proof (Rabs_triang ((b - a) * tau) (p - (b - a) * tau)). lra. }
  replace (z - (a + (b - a) * tau)) with ((z - (a + p)) + (p - (b - a) * tau)) by ring.
  eapply Rle_trans; [apply Rabs_triang|].
  assert (u64 * Rabs (a + p) <= u64 * (3 * B + (8 * (u64 * B) + 21 / 10 * (f * eta64)))) by (apply Rmult_le_compat_l; lra).
  lra.
Qed.

Lemma convex_close d a b a' b' tau : 0 <= tau <= 1 -> Rabs (a - a') <= d -> Rabs (b - b') <= d ->
  Rabs (a + (b - a) * tau - (a' + (b' - a') * tau)) <= d.
Proof.
  intros Ht Ha Hb. replace (a + (b - a) * tau - (a' + (b' - a') * tau)) with ((a - a') * (1 - tau) + (b - b') * tau) by ring.
  eapply Rle_trans; [apply Rabs_triang|]. rewrite !Rabs_mult, (Rabs_pos_eq tau), (Rabs_pos_eq (1 - tau)) by lra.
  assert (Rabs (a - a') * (1 - tau) <= d * (1 - tau)) by (apply Rmult_le_compat_r; lra).
  assert (Rabs (b - b') * tau <= d * tau) by (apply Rmult_le_compat_r; lra). lra.
Qed.

Section Float.
Context (bld : build).
Notation NF := (numF bld).

Lemma interp_in_err d B f n : (1 <= f)%nat -> 0 <= d ->
  forall (m s : nat) (fp fq : list R),
  (Z.of_nat ((s + m) * f) <= 33554432)%Z -> (Z.of_nat n <= 33554432)%Z ->
  Forall2 (fun a b => Rabs (a - b) <= d) fp fq -> Forall F64 fp -> Forall (fun v => Rabs v <= B) fp -> length fp = m -> (1 <= m)%nat ->
  centreF f s <= INR n ->
  Rabs (interp_in NF (map (centreF f) (seq s m)) fp (INR n) - interp_in numR (map (centreF f) (seq s m)) fq (INR n))
    <= d + 16 * u64 * B + 4 * INR f * eta64.
Proof.
  intros Hf Hd. pose proof u64_small as U. pose proof eta64_small as E.
  assert (F1 : 1 <= INR f) by (apply (le_INR 1); lia).
  assert (EX : 0 <= INR f * eta64) by (apply Rmult_le_pos; lra).
  induction m as [|m IH]; intros s fp fq Hs Hn HP HF HB HL H1 HC; [lia|].
  cbn [seq map] in *. destruct HP as [|f0 g0 fp1 fq1 P0 P1]; [discriminate|].
  inversion HF as [|? ? F0 FF]; subst. inversion HB as [|? ? B0 BB]; subst.
  assert (EB : 0 <= u64 * B) by (apply Rmult_le_pos; [lra|pose proof (Rabs_pos f0); lra]).
  destruct m as [|m].
  { cbn [seq map] in *. destruct P1; [|discriminate]. cbn [interp_in]. change (n_T NF) with R. lra. }
  cbn [seq map] in *. destruct P1 as [|f1 g1 fp2 fq2 P2 P3]; [discriminate|].
  cbn [interp_in]. change (@n_ltb NF) with Rlt_bool. change (@n_ltb numR) with Rlt_bool.
  destruct (Rlt_bool_spec (INR n) (centreF f (S s))) as [HQ|HQ].
  - assert (ST : centreF f (S s) - centreF f s = INR f).
    { unfold centreF. cbn [Nat.mul]. rewrite plus_INR. lra. }
    assert (E10 : rnd64 (centreF f (S s) - centreF f s) = INR f).
    { rewrite ST. rewrite INR_IZR_INZ. apply rnd64_id, F64_int.
      assert ((s + S (S m)) * f >= f)%nat by (cbn [Nat.add]; nia). lia. }
    assert (EY : rnd64 (INR n - centreF f s) = INR n - centreF f s).
    { apply rnd64_id. unfold centreF.
      replace (INR n - (INR (s * f) + (INR f - 1) / 2)) with (IZR (2 * Z.of_nat n - 2 * Z.of_nat (s * f) - Z.of_nat f + 1) * / 2)
        by (rewrite plus_IZR, !minus_IZR, !mult_IZR, <- !INR_IZR_INZ; field).
      apply F64_half. assert ((s + S (S m)) * f = s * f + f + S m * f)%nat by (cbn [Nat.mul Nat.add]; nia). lia. }
    cbn [numF numR opsF opsR n_dbl o_add o_sub o_mul o_div]. rewrite E10, EY. rewrite ST.
    inversion FF as [|? ? F2 _]; subst. inversion BB as [|? ? B2 _]; subst.
    set (t := INR n - centreF f s) in *. assert (T : 0 <= t <= INR f) by (unfold t; lra).
    pose proof (slope_err f0 f1 t (INR f) B F0 F2 B0 B2 F1 T) as SE.
    replace ((g1 - g0) / INR f * t) with ((g1 - g0) * (t / INR f)) by (field; lra).
    assert (T1 : 0 <= t / INR f <= 1).
    { assert (0 < / INR f) by (apply Rinv_0_lt_compat; lra). unfold Rdiv. split; [apply Rmult_le_pos; lra|].
      apply Rmult_le_reg_r with (INR f); [lra|]. rewrite Rmult_assoc, Rinv_l by lra. lra. }
    pose proof (convex_close d f0 f1 g0 g1 (t / INR f) T1 P0 P2) as CC.
    match goal with |- Rabs (?u - ?v) <= _ => replace (u - v) with ((u - (f0 + (f1 - f0) * (t / INR f))) + (f0 + (f1 - f0) * (t / INR f) - v)) by ring end.
    eapply Rle_trans; [apply Rabs_triang|]. lra.
  - apply (IH (S s) (f1 :: fp2) (g1 :: fq2)); auto; lia.
Qed.

Lemma interp_err d B f n m (fp fq : list R) : (1 <= f)%nat -> 0 <= d ->
  (Z.of_nat (m * f) <= 33554432)%Z -> (Z.of_nat n <= 33554432)%Z ->
  Forall2 (fun a b => Rabs (a - b) <= d) fp fq -> Forall F64 fp -> Forall (fun v => Rabs v <= B) fp -> length fp = m -> (1 <= m)%nat ->
  Rabs (interp NF (map (centreF f) (seq 0 m)) fp (INR n) - interp numR (map (centreF f) (seq 0 m)) fq (INR n))
    <= d + 16 * u64 * B + 4 * INR f * eta64.
Proof.
  intros Hf Hd Hm Hn HP HF HB HL H1. pose proof (interp_in_err d B f n Hf Hd m 0 fp fq Hm Hn HP HF HB HL H1) as G.
  unfold interp. destruct m as [|m]; [lia|]. cbn [seq map] in *.
  destruct HP as [|f0 g0 fp1 fq1 P0 P1]; [discriminate|].
  change (@n_ltb NF) with Rlt_bool. change (@n_ltb numR) with Rlt_bool.
  destruct (Rlt_bool_spec (INR n) (centreF f 0)) as [HQ|HQ]; [|now apply G].
  inversion HB as [|? ? B0 BB]; subst. pose proof u64_small as U. pose proof eta64_small as E.
  assert (EB : 0 <= u64 * B) by (apply Rmult_le_pos; [lra|pose proof (Rabs_pos f0); lra]).
  assert (EX : 0 <= INR f * eta64) by (apply Rmult_le_pos; [apply pos_INR|lra]). change (n_T NF) with R. lra.
Qed.

(** ** the block means *)
Lemma scrunch_err (x : list R) X f i : (1 <= f)%nat -> (Z.of_nat (length x) <= 33554432)%Z -> (i < length x / f)%nat ->
  Forall F32 x -> (forall v, In v x -> Rabs v <= X) ->
  Rabs (nth i (scrunch NF x f) 0 - nth i (scrunch numR x f) 0) <= ((1 + u32) ^ (f + 1) - 1) * X + 2 * eta32.
Proof.
  intros Hf HL Hi HF HX. rewrite scrunch_nth by (auto; lia).
  assert (Lf : (i * f + f <= length x)%nat).
  { assert (S i * f <= length x / f * f)%nat by (apply Nat.mul_le_mono_r; lia).
    pose proof (Nat.mul_div_le (length x) f ltac:(lia)). lia. }
  set (terms := map (fun j => Val (nth (i * f + j) x 0)) (seq 0 f)).
  set (a := o_sum (opsF rnd32 bld) i terms).
  assert (EN : nth i (scrunch NF x f) 0 = rnd32 (rnd64 (a / INR f))).
  { unfold scrunch. change (n_T NF) with R in *. rewrite nth_map_seq by auto. 
    assert (E0 : o_ofZ (@n_dbl NF) 0 = 0) by (apply (litF bld 0); lia).
    assert (Ef : o_ofZ (@n_dbl NF) (Z.of_nat f) = INR f) by (rewrite litF by lia; now rewrite <- INR_IZR_INZ).
    change (n_T NF) with R in *. rewrite E0, Ef. reflexivity. }
  rewrite EN. set (g := fun k => nth (i * f + k) x 0).
  assert (In0 : forall k, (k < f)%nat -> In (g k) x) by (intros k Hk; unfold g; apply nth_In; lia).
  destruct (sum_near bld i terms (map (fun j => (Rabs (g j), 0, g j)) (seq 0 f)) 1) as [Fa [A1 A2]].
  { unfold terms. destruct f; [lia|]. discriminate. }
  { lra. }
  { unfold terms. apply F2_seq. intros k Hk. split; [unfold a_e; cbn; lra|]. split.
    - rewrite Forall_forall in HF. apply HF. apply In0. lia.
    - unfold a_S, a_e, a_A. cbn [fst snd]. apply near_exact. }
  fold a in Fa, A2. revert A1 A2. rewrite !tot_range. unfold a_S, a_A, a_e. cbn [fst snd Nat.add].
  unfold terms. rewrite map_length, seq_length. rewrite rsum_const. intros A1 A2.
  set (A := rsum f g) in *. set (S := rsum f (fun j => Rabs (g j))) in *. change (rsum f (fun j => g j)) with A in *.
  set (G := (1 + u32) ^ (f - 1)) in *. pose proof u32_pos as U3. pose proof u64_small as U6. pose proof eta64_small as E6. pose proof eta32_pos as E3.
  assert (F1 : 1 <= INR f) by (apply (le_INR 1); lia). assert (FI : 0 < / INR f) by (apply Rinv_0_lt_compat; lra).
  assert (G1 : 1 <= G) by (apply pow_R1_Rle; lra).
  assert (SX : S <= INR f * X).
  { unfold S. rewrite <- rsum_const. apply rsum_le. intros k Hk. apply HX. now apply In0. }
  assert (X0 : 0 <= X) by (pose proof (HX _ (In0 0%nat ltac:(lia))); pose proof (Rabs_pos (g 0%nat)); lra).
  assert (A3 : Rabs (a / INR f - A / INR f) <= (G - 1) * X).
  { replace (a / INR f - A / INR f) with ((a - A) * / INR f) by (field; lra). rewrite Rabs_mult, (Rabs_pos_eq (/ INR f)) by lra.
    apply Rmult_le_reg_r with (INR f); [lra|]. rewrite Rmult_assoc, Rinv_l by lra. rewrite Rmult_1_r.
    eapply Rle_trans; [exact A2|]. assert ((G - 1) * S <= (G - 1) * (INR f * X)) by (apply Rmult_le_compat_l; lra). lra. }
  assert (A4 : Rabs (A / INR f) <= X).
  { unfold Rdiv. rewrite Rabs_mult, (Rabs_pos_eq (/ INR f)) by lra.
    apply Rmult_le_reg_r with (INR f); [lra|]. rewrite Rmult_assoc, Rinv_l by lra. lra. }
  set (c := A / INR f) in *. set (b := a / INR f) in *.
  assert (Bb : Rabs b <= G * X) by (replace b with (c + (b - c)) by ring; eapply Rle_trans; [apply Rabs_triang|]; lra).
  pose proof (rnd64_err b) as R1. fold eta64 in R1. set (q := rnd64 b) in *.
  pose proof (rnd32_err q) as R2. set (z := rnd32 q) in *.
  assert (R1' : Rabs (q - b) <= u64 * (G * X) + eta64).
  { assert (u64 * Rabs b <= u64 * (G * X)) by (apply Rmult_le_compat_l; lra). lra. }
  assert (Qb : Rabs q <= (1 + u64) * (G * X) + eta64).
  { replace q with (b + (q - b)) by ring. eapply Rle_trans; [apply Rabs_triang|]. lra. }
  assert (R2' : Rabs (z - q) <= u32 * ((1 + u64) * (G * X) + eta64) + eta32).
  { assert (u32 * Rabs q <= u32 * ((1 + u64) * (G * X) + eta64)) by (apply Rmult_le_compat_l; lra). lra. }
  assert (GX : 0 <= G * X) by (apply Rmult_le_pos; lra).
  assert (EP : (1 + u32) ^ (f + 1) = G * (1 + u32) * (1 + u32)).
  { unfold G. replace (f + 1)%nat with (f - 1 + 2)%nat by lia. rewrite pow_add. cbn [pow]. ring. }
  rewrite EP.
  assert (UU : u64 <= u32) by (unfold u64, u32; lra).
  assert (E63 : eta64 <= / 1000 * eta32).
  { unfold eta64, eta32. apply Rle_trans with (bpow radix2 (-160)); [apply bpow_le; lia|].
    replace (bpow radix2 (-160)) with (bpow radix2 (-10) * bpow radix2 (-150)) by (rewrite <- bpow_plus; reflexivity).
    apply Rmult_le_compat_r; [apply bpow_ge_0|]. cbn. lra. }
  assert (U3s : u32 <= / 1000) by (unfold u32; lra).
  assert (u32 * eta64 <= 1 * eta64) by (apply Rmult_le_compat_r; lra).
  assert (K : (1 + u64) * (1 + u32) * (G * X) <= (1 + u32) * (1 + u32) * (G * X)).
  { apply Rmult_le_compat_r; auto. apply Rmult_le_compat_r; lra. }
  replace (z - c) with ((z - q) + (q - b) + (b - c)) by ring.
  eapply Rle_trans; [apply Rabs_triang|]. pose proof (Rabs_triang (z - q) (q - b)). lra.
Qed.
End Float.
