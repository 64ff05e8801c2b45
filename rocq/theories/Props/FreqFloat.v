(** C142: the trial frequencies and periods of an FFA transform in floating point. *)
From Coq Require Import List Arith ZArith Bool Lia Reals Lra.
From Flocq Require Import Core.
From Verif Require Import Base.Result Base.Num Model.Libffa Proof.Downsample Proof.SearchFloat Proof.ClusterFloat Proof.RadiusFloat.
Import ListNotations.
Local Open Scope R_scope.

(** the frequency for which the phase drifts by [s] bins of [p] from the first to the last of [m] periods *)
Definition row_freq (m p s : nat) (dt : R) : R := / (INR p * dt) * (1 - INR s / ((INR m - 1) * INR p)).

(** relative to the frequencies, consecutive ones are far apart *)
Lemma apart (m p s : nat) : (2 <= p)%nat -> (s + 1 < m)%nat -> INR m * INR p <= bpow radix2 46 ->
  let g s := 1 - INR s / ((INR m - 1) * INR p) in g (s + 1)%nat + 128 * u64 <= g s.
Proof.
  intros Hp Hs Hn g. unfold g. rewrite plus_INR. cbn [INR].
  assert (M : 2 <= INR m) by (apply (le_INR 2); lia). assert (P : 2 <= INR p) by (apply (le_INR 2); lia).
  assert (Q : 0 < (INR m - 1) * INR p) by (apply Rmult_lt_0_compat; lra).
  assert (L : (INR m - 1) * INR p <= bpow radix2 46) by lra.
  unfold Rdiv. apply Rinv_le_contravar in L; auto. rewrite <- bpow_opp in L.
  replace (128 * u64) with (bpow radix2 (-46)) by (cbn; unfold u64; lra). cbn [Z.opp] in L. lra.
Qed.

Lemma between (m p s : nat) : (2 <= p)%nat -> (s < m)%nat -> / 2 <= 1 - INR s / ((INR m - 1) * INR p) <= 1.
Proof.
  intros Hp Hs. assert (P : 2 <= INR p) by (apply (le_INR 2); lia). pose proof (pos_INR s) as S0.
  destruct (Nat.eq_dec s 0) as [->|N]; [cbn [INR]; unfold Rdiv; rewrite Rmult_0_l; lra|].
  assert (M : INR s <= INR m - 1).
  { replace (INR m - 1) with (INR (m - 1)) by (rewrite minus_INR by lia; cbn; lra). apply le_INR. lia. }
  assert (S1 : 1 <= INR s) by (apply (le_INR 1); lia).
  assert (Q : 0 < (INR m - 1) * INR p) by (apply Rmult_lt_0_compat; lra).
  assert (A : 0 <= INR s / ((INR m - 1) * INR p)) by (apply Rmult_le_pos; [lra|apply Rlt_le, Rinv_0_lt_compat; auto]).
  assert (B : INR s / ((INR m - 1) * INR p) <= / 2).
  { apply Rmult_le_reg_r with ((INR m - 1) * INR p); auto. unfold Rdiv. rewrite Rmult_assoc, Rinv_l by lra.
    apply Rle_trans with (INR m - 1); [lra|]. replace (INR m - 1) with (/ 2 * ((INR m - 1) * 2)) at 1 by field.
    apply Rmult_le_compat_l; [lra|]. apply Rmult_le_compat_l; lra. }
  lra.
Qed.

Section Float.
Context (bld : build).
Local Notation NF := (numF bld).

Definition f0_rnd (p : nat) : R := rnd64 (1 / INR p).
Definition fq_rnd (m p : nat) (dt : R) (s : nat) : R :=
  if (m =? 1)%nat then rnd64 (f0_rnd p / dt)
  else rnd64 (rnd64 (f0_rnd p - rnd64 (rnd64 (INR s / (INR m - 1)) * rnd64 (f0_rnd p * f0_rnd p))) / dt).

Lemma lit_nat n : (Z.of_nat n < 2 ^ 53)%Z -> rnd64 (IZR (Z.of_nat n)) = INR n.
Proof. intros H. rewrite lit_F by lia. now rewrite INR_IZR_INZ. Qed.

Lemma ffafreq_F (n p : nat) (dt : R) : (1 < p <= n)%nat -> (Z.of_nat n < 2 ^ 53)%Z -> 0 < dt ->
  ffafreq NF (PyInt (Z.of_nat n)) (PyInt (Z.of_nat p)) dt = Ok (map (fq_rnd (n / p) p dt) (seq 0 (n / p))).
Proof.
  intros Hp Hn Hdt. unfold ffafreq. destruct (Z.ltb_spec 0 (Z.of_nat n)); [|lia]. cbn [negb].
  destruct (Z.ltb_spec 1 (Z.of_nat p)); [|lia]. cbn [negb]. destruct (Z.leb_spec (Z.of_nat p) (Z.of_nat n)); [|lia]. cbn [negb].
  cbn [numF opsF n_dbl o_ofZ o_div o_sub o_mul n_ltb]. change (n_T NF) with R in *.
  rewrite (lit_F 0), (lit_F 1) by lia. rewrite Rlt_bool_true by exact Hdt. cbn [negb].
  rewrite <- Nat2Z.inj_div, Nat2Z.id. set (m := (n / p)%nat). rewrite (lit_nat p) by lia.
  assert (Hm : (Z.of_nat m < 2 ^ 53)%Z) by (assert (m <= n)%nat by (apply Nat.div_le_upper_bound; nia); lia).
  rewrite (lit_nat m) by exact Hm. f_equal. destruct (Nat.eqb_spec m 1) as [E1|E1].
  - rewrite E1. cbn [seq map]. unfold fq_rnd. reflexivity.
  - rewrite map_map. apply map_ext_in. intros s Hs. apply in_seq in Hs. rewrite (lit_nat s) by lia. unfold fq_rnd.
    destruct (Nat.eqb_spec m 1); [contradiction|]. unfold f0_rnd.
    replace (INR m - 1) with (IZR (Z.of_nat m - 1)) by (rewrite minus_IZR, <- INR_IZR_INZ; reflexivity). now rewrite (lit_F (Z.of_nat m - 1)) by lia.
Qed.

Lemma f0_rel p : (2 <= p)%nat -> (Z.of_nat p < 2 ^ 53)%Z -> rel (2 * u64) (f0_rnd p) (/ INR p) /\ bpow radix2 (-53) <= / INR p <= / 2.
Proof.
  intros Hp Hb. assert (P : 2 <= INR p) by (apply (le_INR 2); lia).
  assert (B : bpow radix2 (-53) <= / INR p).
  { change (-53)%Z with (- (53))%Z. rewrite bpow_opp. apply Rinv_le_contravar; [lra|].
    rewrite INR_IZR_INZ. replace (bpow radix2 53) with (IZR (2 ^ 53)) by (cbn; lra). apply IZR_le. lia. }
  split; [|split; [exact B|apply Rinv_le_contravar; lra]].
  unfold f0_rnd. replace (1 / INR p) with (/ INR p) by (unfold Rdiv; ring). apply rel_rnd0.
  eapply Rle_trans; [apply bpow_le|exact B]. lia.
Qed.

Lemma rel_scale e a x k : 0 <= k -> rel e a x -> rel e (a * k) (x * k).
Proof.
  unfold rel. intros Hk H. replace (a * k - x * k) with ((a - x) * k) by ring. rewrite Rabs_mult, (Rabs_pos_eq k) by auto.
  replace (e * (x * k)) with (e * x * k) by ring. now apply Rmult_le_compat_r.
Qed.

Lemma fq_rel (m p s : nat) (dt : R) : (2 <= p)%nat -> (s < m)%nat -> (Z.of_nat (m * p) < 2 ^ 53)%Z ->
  bpow radix2 (-500) <= dt <= bpow radix2 500 -> rel (40 * u64) (fq_rnd m p dt s) (row_freq m p s dt) /\ bpow radix2 (-600) <= row_freq m p s dt <= bpow radix2 600.
Proof.
  intros Hp Hs Hn Hdt. destruct (between m p s Hp Hs) as [G1 G2]. set (g := 1 - INR s / ((INR m - 1) * INR p)) in *.
  assert (Hpb : (Z.of_nat p < 2 ^ 53)%Z) by nia. destruct (f0_rel p Hp Hpb) as (F & B1 & B2). set (a := f0_rnd p) in *. set (x := / INR p) in *.
  assert (D0 : 0 < dt) by (pose proof (bpow_gt_0 radix2 (-500)); lra).
  assert (P : 2 <= INR p) by (apply (le_INR 2); lia).
  assert (U : u64 = bpow radix2 (-53)) by (cbn; unfold u64; lra).
  pose proof (bpow_gt_0 radix2 (-53)) as B0.
  assert (DI : bpow radix2 (-500) <= / dt <= bpow radix2 500).
  { split.
    - change (-500)%Z with (- (500))%Z. rewrite bpow_opp. apply Rinv_le_contravar; lra.
    - replace (bpow radix2 500) with (/ bpow radix2 (-500)) by (rewrite <- bpow_opp; reflexivity). apply Rinv_le_contravar; [apply bpow_gt_0|lra]. }
  assert (RF : row_freq m p s dt = x * g * / dt) by (unfold row_freq, x; fold g; field; lra).
  assert (XG : bpow radix2 (-54) <= x * g <= / 2).
  { split.
    - replace (bpow radix2 (-54)) with (bpow radix2 (-53) * / 2) by (change (/ 2) with (bpow radix2 (-1)); rewrite <- bpow_plus; reflexivity).
      apply Rmult_le_compat; lra.
    - replace (/ 2) with (/ 2 * 1) by ring. apply Rmult_le_compat; lra. }
  assert (RB : bpow radix2 (-600) <= row_freq m p s dt <= bpow radix2 600).
  { rewrite RF. split.
    - apply Rle_trans with (bpow radix2 (-54) * bpow radix2 (-500)); [rewrite <- bpow_plus; apply bpow_le; lia|].
      pose proof (bpow_gt_0 radix2 (-54)). pose proof (bpow_gt_0 radix2 (-500)). apply Rmult_le_compat; lra.
    - apply Rle_trans with (bpow radix2 0 * bpow radix2 500); [|rewrite <- bpow_plus; apply bpow_le; lia].
      pose proof (bpow_gt_0 radix2 (-54)). pose proof (bpow_gt_0 radix2 (-500)). apply Rmult_le_compat; try lra. cbn. lra. }
  split; [|exact RB].
  assert (FIN : forall c, rel (38 * u64) c (x * g) -> rel (40 * u64) (rnd64 (c / dt)) (row_freq m p s dt)).
  { intros c Hc. replace (40 * u64) with (38 * u64 + 2 * u64) by ring. apply rel_rnd; [unfold u64; lra| |].
    - eapply Rle_trans; [apply bpow_le|apply RB]. lia.
    - rewrite RF. apply rel_scale; [pose proof (bpow_gt_0 radix2 (-500)); lra|exact Hc]. }
  unfold fq_rnd. destruct (Nat.eqb_spec m 1) as [E1|E1]; fold a.
  - apply FIN. assert (s = 0%nat) by lia. subst s. replace g with 1 by (unfold g; cbn [INR]; unfold Rdiv; ring). rewrite Rmult_1_r.
    apply rel_weak with (3 := F); [lra|unfold u64; lra].
  - apply FIN. replace (38 * u64) with (36 * u64 + 2 * u64) by ring. apply rel_rnd; [unfold u64; lra| |].
    { eapply Rle_trans; [apply bpow_le|apply XG]. lia. }
    set (t := INR s / (INR m - 1)).
    assert (XX : bpow radix2 (-106) <= x * x).
    { replace (bpow radix2 (-106)) with (bpow radix2 (-53) * bpow radix2 (-53)) by (rewrite <- bpow_plus; reflexivity). apply Rmult_le_compat; lra. }
    assert (SQ : rel (7 * u64) (rnd64 (a * a)) (x * x)).
    { replace (7 * u64) with (5 * u64 + 2 * u64) by ring. apply rel_rnd; [unfold u64; lra|eapply Rle_trans; [apply bpow_le|exact XX]; lia|].
      apply rel_mul with (2 * u64) (2 * u64); try assumption; try (unfold u64; lra); lra. }
    assert (M1 : 1 <= INR m - 1) by (assert (2 <= INR m) by (apply (le_INR 2); lia); lra).
    assert (EG : x * g = x - t * (x * x)) by (unfold g, t, x; field; lra).
    assert (Y : rel (12 * u64) (rnd64 (rnd64 t * rnd64 (a * a))) (t * (x * x))).
    { destruct (Nat.eq_dec s 0) as [Z|Z].
      - assert (T0 : t = 0) by (unfold t; rewrite Z; cbn [INR]; unfold Rdiv; ring). rewrite T0, rnd64_0, Rmult_0_l, rnd64_0, Rmult_0_l.
        unfold rel. rewrite Rminus_0_r, Rabs_R0. lra.
      - assert (T : bpow radix2 (-53) <= t).
        { unfold t, Rdiv. apply Rle_trans with (1 * / (INR m - 1)).
          - rewrite Rmult_1_l. change (-53)%Z with (- (53))%Z. rewrite bpow_opp. apply Rinv_le_contravar; [lra|].
            assert (INR m <= bpow radix2 53); [|lra]. rewrite INR_IZR_INZ. replace (bpow radix2 53) with (IZR (2 ^ 53)) by (cbn; lra). apply IZR_le. nia.
          - apply Rmult_le_compat_r; [apply Rlt_le, Rinv_0_lt_compat; lra|]. apply (le_INR 1). lia. }
        replace (12 * u64) with (10 * u64 + 2 * u64) by ring. apply rel_rnd; [unfold u64; lra| |].
        + apply Rle_trans with (bpow radix2 (-53) * bpow radix2 (-106)); [rewrite <- bpow_plus; apply bpow_le; lia|].
          pose proof (bpow_gt_0 radix2 (-106)). apply Rmult_le_compat; lra.
        + apply rel_mul with (2 * u64) (7 * u64); try exact SQ; try (unfold u64; lra).
          * pose proof (bpow_gt_0 radix2 (-106)). lra.
          * apply rel_rnd0. eapply Rle_trans; [apply bpow_le|exact T]. lia. }
    rewrite EG. assert (YB : 0 <= t * (x * x) <= x / 2).
    { split.
      - apply Rmult_le_pos; [|pose proof (bpow_gt_0 radix2 (-106)); lra]. unfold t, Rdiv. apply Rmult_le_pos; [apply pos_INR|apply Rlt_le, Rinv_0_lt_compat; lra].
      - assert (x * / 2 <= x * g) by (apply Rmult_le_compat_l; lra). rewrite EG in *. lra. }
    apply rel_sub with (12 * u64) 3; try exact Y; try (unfold u64; lra); try lra.
    apply rel_weak with (3 := F); [lra|unfold u64; lra].
Qed.

(** C142.  In floating point, ffafreq() and ffaprd() return one frequency and one period per row of the transform, within
    40 and 43 times 2^-53 of the frequency of the row and of its inverse.  Up to 2^46 samples, no two rows get the same
    frequency or period and they are in order. *)
Theorem ffafreq_float :
  forall (n p : nat) (dt : R), (1 < p <= n)%nat -> (Z.of_nat n < 2 ^ 53)%Z -> bpow radix2 (-500) <= dt <= bpow radix2 500 ->
  let m := (n / p)%nat in
  exists f P : list R, ffafreq NF (PyInt (Z.of_nat n)) (PyInt (Z.of_nat p)) dt = Ok f /\
    ffaprd NF (PyInt (Z.of_nat n)) (PyInt (Z.of_nat p)) dt = Ok P /\
    length f = m /\ length P = m /\
    (forall s, (s < m)%nat -> let g := / (INR p * dt) * (1 - INR s / ((INR m - 1) * INR p)) in
       Rabs (nth s f 0 - g) <= 40 * / 2 ^ 53 * g /\ Rabs (nth s P 0 - / g) <= 43 * / 2 ^ 53 * / g) /\
    ((Z.of_nat n <= 2 ^ 46)%Z -> forall s, (s + 1 < m)%nat -> nth (s + 1) f 0 < nth s f 0 /\ nth s P 0 < nth (s + 1) P 0).
Proof.
  intros n p dt Hp Hn Hdt m.
  assert (D0 : 0 < dt) by (pose proof (bpow_gt_0 radix2 (-500)); lra).
  assert (Hmp : (m * p <= n)%nat) by (unfold m; rewrite Nat.mul_comm; apply Nat.mul_div_le; lia).
  set (fs := map (fq_rnd m p dt) (seq 0 m)). exists fs, (map (fun x : R => rnd64 (1 / x)) fs).
  assert (EF : ffafreq NF (PyInt (Z.of_nat n)) (PyInt (Z.of_nat p)) dt = Ok fs) by now apply ffafreq_F.
  split; [exact EF|]. split.
  { unfold ffaprd. rewrite EF. cbn [bind numF opsF n_dbl o_ofZ o_div]. now rewrite (lit_F 1) by lia. }
  split; [unfold fs; now rewrite map_length, seq_length|]. split; [unfold fs; now rewrite !map_length, seq_length|].
  assert (Nf : forall s, (s < m)%nat -> nth s fs 0 = fq_rnd m p dt s).
  { intros s Hs. unfold fs. rewrite (nth_indep _ 0 (fq_rnd m p dt 0)) by (rewrite map_length, seq_length; auto).
    rewrite map_nth, seq_nth by auto. reflexivity. }
  assert (NP : forall s, (s < m)%nat -> nth s (map (fun x : R => rnd64 (1 / x)) fs) 0 = rnd64 (1 / fq_rnd m p dt s)).
  { intros s Hs. rewrite (nth_indep _ 0 ((fun x : R => rnd64 (1 / x)) 0)) by (unfold fs; rewrite !map_length, seq_length; auto).
    rewrite (map_nth (fun x : R => rnd64 (1 / x))). now rewrite Nf. }
  assert (U : u64 = / 2 ^ 53) by (unfold u64; cbn; lra).
  assert (Q : forall s, (s < m)%nat -> rel (40 * u64) (fq_rnd m p dt s) (row_freq m p s dt) /\
    rel (43 * u64) (rnd64 (1 / fq_rnd m p dt s)) (/ row_freq m p s dt) /\ 0 < row_freq m p s dt).
  { intros s Hs. destruct (fq_rel m p s dt) as [R1 [R2 R3]]; auto; try lia. pose proof (bpow_gt_0 radix2 (-600)).
    split; [exact R1|]. split; [|lra]. replace (43 * u64) with (41 * u64 + 2 * u64) by ring. apply rel_rnd; [unfold u64; lra| |].
    - apply Rle_trans with (/ bpow radix2 600); [rewrite <- bpow_opp; apply bpow_le; lia|]. apply Rinv_le_contravar; lra.
    - apply rel_inv with (40 * u64); auto; try lra; unfold u64; lra. }
  split.
  - intros s Hs g. destruct (Q s Hs) as (Q1 & Q2 & _). rewrite Nf, NP by auto. change g with (row_freq m p s dt). rewrite <- U. split; [exact Q1|exact Q2].
  - intros Hn46 s Hs. rewrite !Nf, !NP by lia. destruct (Q s) as (A1 & A2 & A3); [lia|]. destruct (Q (s + 1)%nat) as (C1 & C2 & C3); [lia|].
    assert (AP := apart m p s). cbv zeta in AP.
    assert (MP : INR m * INR p <= bpow radix2 46).
    { rewrite <- mult_INR, INR_IZR_INZ. replace (bpow radix2 46) with (IZR (2 ^ 46)) by (cbn; lra). apply IZR_le. lia. }
    specialize (AP ltac:(lia) ltac:(lia) MP). unfold row_freq in *. set (k := / (INR p * dt)) in *.
    destruct (between m p s) as [G1 G2]; [lia|lia|]. destruct (between m p (s + 1)) as [G3 G4]; [lia|lia|].
    set (g := 1 - INR s / ((INR m - 1) * INR p)) in *. set (h := 1 - INR (s + 1) / ((INR m - 1) * INR p)) in *.
    assert (K : 0 < k). { apply Rinv_0_lt_compat, Rmult_lt_0_compat; [apply lt_0_INR; lia|auto]. }
    assert (KA : k * h + 128 * u64 * k <= k * g) by (replace (k * h + 128 * u64 * k) with (k * (h + 128 * u64)) by ring; apply Rmult_le_compat_l; lra).
    assert (KG : k * g <= k) by (rewrite <- (Rmult_1_r k) at 2; apply Rmult_le_compat_l; lra).
    unfold rel in *. apply Rabs_le_inv in A1, C1. split.
    + unfold u64 in *. lra.
    + set (x := k * g) in *. set (y := k * h) in *. apply Rabs_le_inv in A2, C2.
      (* 1/x and 1/y with x - y >= 128 u k >= 128 u x *)
      assert (XY : y <= x * (1 - 128 * u64)) by (assert (128 * u64 * x <= 128 * u64 * k) by (apply Rmult_le_compat_l; unfold u64; lra); lra).
      assert (I : / x <= / y * (1 - 128 * u64)).
      { apply Rmult_le_reg_r with (x * y); [now apply Rmult_lt_0_compat|].
        replace (/ x * (x * y)) with y by (field; lra). replace (/ y * (1 - 128 * u64) * (x * y)) with (x * (1 - 128 * u64)) by (field; lra). exact XY. }
      assert (0 < / y) by (now apply Rinv_0_lt_compat). unfold u64 in *. lra.
Qed.
End Float.
Print Assumptions ffafreq_float.

Example ffafreq_float_ex : (1 < 4 <= 19)%nat /\ (Z.of_nat 19 <= 2 ^ 46)%Z /\ (2 + 1 < 19 / 4)%nat /\ bpow radix2 (-500) <= / 1024 <= bpow radix2 500.
Proof.
  split; [lia|]. split; [cbn; lia|]. split; [cbn; lia|]. replace (/ 1024) with (bpow radix2 (-10)) by (cbn; lra). split; apply bpow_le; lia.
Qed.
