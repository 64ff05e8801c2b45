(** C121: dereddening and pulses. *)
From Coq Require Import List Arith ZArith Bool Lia Reals Lra Psatz.
From Flocq Require Import Core.
From Verif Require Import Base.Result Base.Buf Base.Num Model.Worker Spec.Order Spec.Sums Spec.Pulse
  Props.RunMed Props.Worker Props.Detect.
Import ListNotations.
Local Open Scope R_scope.

(** ** medians of lists most of whose elements are equal *)
Lemma count_split {A} (p q : A -> bool) (l : list A) : (forall a, p a = true -> q a = false) ->
  (count p l + count q l <= length l)%nat.
Proof.
  intros H. unfold count. induction l as [|a l IH]; cbn; auto.
  destruct (p a) eqn:P; [rewrite (H a P); cbn; lia|]. destruct (q a); cbn; lia.
Qed.
Lemma count_mono {A} (p q : A -> bool) (l : list A) : (forall a, In a l -> p a = true -> q a = true) ->
  (count p l <= count q l)%nat.
Proof.
  unfold count. induction l as [|a l IH]; intros H; cbn; auto.
  specialize (IH (fun b Hb => H b (or_intror Hb))).
  destruct (p a) eqn:P; [rewrite (H a (or_introl eq_refl) P); cbn; lia|]. destruct (q a); cbn; lia.
Qed.
Lemma count_map {A B} (g : A -> B) (p : B -> bool) (l : list A) : count p (map g l) = count (fun a => p (g a)) l.
Proof. unfold count. induction l as [|a l IH]; cbn; auto. destruct (p (g a)); cbn; auto. Qed.

Lemma median_majority (l : list R) (v m : R) : is_median Rlt_bool l m ->
  (length l < 2 * count (fun a => Req_bool a v) l)%nat -> m = v.
Proof.
  intros (_ & _ & M1 & M2) H.
  pose proof (Nat.div_mod (length l) 2 ltac:(lia)) as D. pose proof (Nat.mod_upper_bound (length l) 2 ltac:(lia)) as D'.
  destruct (Rtotal_order m v) as [L|[E|L]]; auto; exfalso.
  - pose proof (count_split (fun a => negb (Rlt_bool m a)) (fun a => Req_bool a v) l) as C.
    assert ((count (fun a => negb (Rlt_bool m a)) l + count (fun a => Req_bool a v) l <= length l)%nat); [|lia].
    apply C. intros a Ha. apply Req_bool_false. intros ->. rewrite Rlt_bool_true in Ha by auto. discriminate.
  - assert ((count (fun a => Req_bool a v) l <= count (fun a => Rlt_bool a m) l)%nat); [|lia].
    apply count_mono. intros a _ Ha. apply Rlt_bool_true. destruct (Req_bool_spec a v); [lra|discriminate].
Qed.

(** ** quiet data *)

(** In every window of [m] groups of [f] samples, the first and the last group being repeated beyond
    the ends, more than half of the groups have only samples equal to [base]. *)
Definition mostly_quiet (x : list R) (base : R) (f m : nat) : Prop :=
  let nb := (length x / f)%nat in
  exists quiet : nat -> bool,
    (forall j i, (j < nb)%nat -> quiet j = true -> (i < f)%nat -> nth (j * f + i) x 0 = base) /\
    forall c, (c < nb)%nat ->
      (m < 2 * count quiet (map (fun k => Nat.min (c + k - m / 2) (nb - 1)) (seq 0 m)))%nat.

(** the groups of samples whose medians are taken, see [median_of] *)
Definition groups_of (w : Z) (minpts : pynum numR) : nat * nat :=
  match minpts with
  | PInt z => if (2 * z <=? w)%Z && (0 <? z)%Z then (Z.to_nat (w / z), Z.to_nat z) else (1%nat, Z.to_nat w)
  | PFloat _ => (1%nat, Z.to_nat w)
  end.

Lemma odd_nat z : Z.odd z = true -> (0 < z)%Z -> (2 * (Z.to_nat z / 2) + 1 = Z.to_nat z)%nat.
Proof.
  intros O P. apply Z.odd_spec in O as [k Hk].
  replace (Z.to_nat z) with (Z.to_nat k * 2 + 1)%nat by lia. rewrite Nat.div_add_l by lia. cbn. lia.
Qed.

(** C121, first part: the running median of mostly quiet data is their quiet level, so that
    dereddening takes away the level and leaves the pulses as they are. *)
Theorem running_median_of_quiet_data :
  forall (x : list R) (w : Z) (minpts : pynum numR) (r : list R) (base : R),
  median_of x w minpts r ->
  mostly_quiet x base (fst (groups_of w minpts)) (snd (groups_of w minpts)) ->
  forall i, (i < length x)%nat -> nth i r 0 = base.
Proof.
  intros x w minpts r base [LR MO] MQ i Hi.
  assert (DIR : forall w, direct_median x w r -> mostly_quiet x base 1 (Z.to_nat w) -> nth i r 0 = base).
  { clear - Hi. intros w (O & W & M) (q & Q1 & Q2). rewrite Nat.div_1_r in *.
    specialize (M i Hi). specialize (Q2 i Hi). apply (median_majority _ base _ M).
    unfold centred_window in *. rewrite odd_nat in * by (auto; lia).
    rewrite map_length, seq_length. rewrite count_map in Q2. rewrite count_map.
    eapply Nat.lt_le_trans; [exact Q2|]. apply Nat.mul_le_mono_l. apply count_mono.
    intros k _ Hk. apply Req_bool_true. set (p := Nat.min _ _) in *.
    rewrite <- (Q1 p 0%nat); [|unfold p; lia|exact Hk|lia]. now rewrite Nat.mul_1_r, Nat.add_0_r. }
  destruct minpts as [z|y]; cbn [groups_of] in MQ.
  2:{ destruct MO as (_ & _ & D). now apply (DIR w). }
  destruct MO as (O & [[C D]|[C (M0 & med & LM & M1 & M2 & M3 & M4)]]).
  { apply (DIR w D). destruct (Z.leb_spec (2 * z) w), (Z.ltb_spec 0 z); cbn in MQ; auto; lia. }
  destruct (Z.leb_spec (2 * z) w); [|lia]. destruct (Z.ltb_spec 0 z); [|lia]. cbn [andb fst snd] in MQ.
  destruct MQ as (q & Q1 & Q2). set (f := Z.to_nat (w / z)) in *. set (m := Z.to_nat z) in *. set (nb := (length x / f)%nat) in *.
  assert (F1 : (1 <= f)%nat).
  { unfold f. assert (1 <= w / z)%Z by (apply Z.div_le_lower_bound; lia). lia. }
  assert (F0 : 0 < INR f) by (apply (lt_INR 0); lia).
  assert (MED : forall k, (k < nb)%nat -> nth k med 0 = base).
  { intros k Hk. specialize (M1 k Hk). specialize (Q2 k Hk). apply (median_majority _ base _ M1).
    unfold centred_window in *. unfold m in *. rewrite odd_nat in * by (auto; lia). fold m in Q2 |- *.
    rewrite !map_length, !seq_length in *. rewrite count_map in Q2. rewrite count_map.
    eapply Nat.lt_le_trans; [exact Q2|]. apply Nat.mul_le_mono_l. apply count_mono.
    intros j _ Hj. apply Req_bool_true. set (p := Nat.min (k + j - m / 2) (nb - 1)) in *.
    assert (Hp : (p < nb)%nat) by (unfold p; lia).
    rewrite (nth_indep _ 0 ((fun j => rsum f (fun i => nth (j * f + i) x 0) / INR f) 0%nat)) by (rewrite map_length, seq_length; lia).
    rewrite (map_nth (fun j => rsum f (fun i => nth (j * f + i) x 0) / INR f)), seq_nth by auto. cbn [Nat.add].
    rewrite (rsum_ext f _ (fun _ => base)) by (intros i' Hi'; now apply Q1). rewrite rsum_const. field. lra. }
  set (centre := fun k => INR (k * f) + (INR f - 1) / 2) in *.
  destruct (Rle_lt_dec (INR i) (centre 0%nat)) as [L|L]; [rewrite M3; auto; apply MED; lia|].
  destruct (Rle_lt_dec (centre (nb - 1)%nat) (INR i)) as [U|U]; [rewrite M4; auto; apply MED; lia|].
  assert (EX : exists k, (S k < nb)%nat /\ centre k <= INR i <= centre (S k)).
  { set (y := (INR i - (INR f - 1) / 2) / INR f).
    assert (Y : INR i - (INR f - 1) / 2 = y * INR f) by (unfold y; field; lra).
    unfold centre in *. cbn [Nat.mul] in L. rewrite mult_INR in U. change (INR 0) with 0 in L.
    assert (Y0 : 0 <= y) by (apply Rmult_le_reg_r with (INR f); lra).
    assert (Y1 : y < INR (nb - 1)) by (apply Rmult_lt_reg_r with (INR f); lra).
    assert (K0 : (0 <= Zfloor y)%Z) by (apply Zfloor_lub; lra).
    assert (K : INR (Z.to_nat (Zfloor y)) = IZR (Zfloor y)) by (rewrite INR_IZR_INZ, Z2Nat.id; auto).
    pose proof (Zfloor_lb y) as B1. pose proof (Zfloor_ub y) as B2.
    exists (Z.to_nat (Zfloor y)). split.
    - assert (Z.to_nat (Zfloor y) < nb - 1)%nat by (apply INR_lt; lra). lia.
    - rewrite !mult_INR, S_INR, K.
      assert (IZR (Zfloor y) * INR f <= y * INR f) by (apply Rmult_le_compat_r; lra).
      assert (y * INR f <= (IZR (Zfloor y) + 1) * INR f) by (apply Rmult_le_compat_r; lra). lra. }
  destruct EX as (k & Hk & Ck). rewrite (M2 i k Hi Hk Ck). rewrite !MED by lia. ring.
Qed.
Print Assumptions running_median_of_quiet_data.

(** ** pulse trains *)

(** among [m] consecutive groups, of length [a] in turns, those touched by a pulse of width [w] *)
Lemma pulses_in_window (a w phi s : R) (m : nat) (touched : nat -> bool) : 0 < a -> 0 <= w -> w + a < 1 ->
  (forall k, (k < m)%nat -> touched k = true -> exists rot : Z, phi + IZR rot - a <= (s + INR k) * a <= phi + IZR rot + w) ->
  INR (count touched (seq 0 m)) <= (INR m * a + w + 1) * (w / a + 2).
Proof.
  intros A0 W0 WA H.
  set (rho := fun k : nat => Zfloor ((s + INR k) * a - phi + a)).
  set (rho0 := Zceil (s * a - phi - w)). set (kap := fun r : Z => Zceil ((phi + IZR r - a) / a - s)).
  set (NR := S (Z.to_nat (Zfloor (INR m * a + w)))). set (NK := S (Z.to_nat (Zfloor (w / a + 1)))).
  set (g := fun k => (Z.to_nat (rho k - rho0), Z.to_nat (Z.of_nat k - kap (rho k)))).
  assert (AM : 0 <= INR m * a) by (apply Rmult_le_pos; [apply pos_INR|lra]).
  assert (WAa : 0 <= w / a) by (apply Rmult_le_pos; [lra|left; now apply Rinv_0_lt_compat]).
  assert (FACT : forall k, (k < m)%nat -> touched k = true ->
    (0 <= rho k - rho0 <= Zfloor (INR m * a + w))%Z /\
    (0 <= Z.of_nat k - kap (rho k) <= Zfloor (w / a + 1))%Z).
  { intros k Hk T. destruct (H k Hk T) as (rot & R1 & R2).
    assert (E : rho k = rot). { unfold rho. apply Zfloor_imp. rewrite plus_IZR. lra. }
    assert (KM : INR k + 1 <= INR m) by (rewrite <- S_INR; apply le_INR; lia).
    assert (K0 : 0 <= INR k) by apply pos_INR.
    assert (KA : 0 <= INR k * a) by (apply Rmult_le_pos; lra).
    assert (KMA : (INR k + 1) * a <= INR m * a) by (apply Rmult_le_compat_r; lra).
    rewrite E. split.
    - split.
      + assert (rho0 <= rot)%Z; [|lia]. unfold rho0. apply Zceil_glb. lra.
      + apply Zfloor_lub. rewrite minus_IZR. pose proof (Zceil_ub (s * a - phi - w)) as U. fold rho0 in U. lra.
    - unfold kap. split.
      + assert (Zceil ((phi + IZR rot - a) / a - s) <= Z.of_nat k)%Z; [|lia]. apply Zceil_glb.
        rewrite <- INR_IZR_INZ. assert ((phi + IZR rot - a) / a <= s + INR k); [|lra].
        apply Rmult_le_reg_r with a; [lra|]. replace ((phi + IZR rot - a) / a * a) with (phi + IZR rot - a) by (field; lra). lra.
      + apply Zfloor_lub. rewrite minus_IZR, <- INR_IZR_INZ.
        pose proof (Zceil_ub ((phi + IZR rot - a) / a - s)) as U.
        assert (s + INR k <= (phi + IZR rot + w) / a).
        { apply Rmult_le_reg_r with a; [lra|]. replace ((phi + IZR rot + w) / a * a) with (phi + IZR rot + w) by (field; lra). lra. }
        replace ((phi + IZR rot + w) / a) with ((phi + IZR rot - a) / a + w / a + 1) in * by (field; lra). lra. }
  set (L := filter touched (seq 0 m)).
  assert (IL : forall k, In k L -> (k < m)%nat /\ touched k = true).
  { intros k Hk. apply filter_In in Hk as [Hk T]. apply in_seq in Hk. split; [lia|exact T]. }
  assert (LEN : (length L <= NR * NK)%nat).
  { rewrite <- (map_length g). rewrite <- (seq_length NR 0), <- (seq_length NK 0) at 1. rewrite <- prod_length.
    apply NoDup_incl_length.
    - assert (ND : NoDup L) by apply NoDup_filter, seq_NoDup.
      assert (INJ : forall k k', In k L -> In k' L -> g k = g k' -> k = k').
      { intros k k' Hk Hk' E. destruct (IL k Hk) as [B T], (IL k' Hk') as [B' T'].
        destruct (FACT k B T) as [F1 F2], (FACT k' B' T') as [F1' F2']. unfold g in E. injection E as E1 E2.
        assert (E3 : rho k = rho k') by lia. rewrite E3 in *. lia. }
      clear - ND INJ. induction ND as [|k L N ND IH]; cbn; constructor.
      + intros Hin. apply in_map_iff in Hin as (k' & E & Hk'). apply N.
        rewrite (INJ k k'); auto; [now left|now right].
      + apply IH. intros; apply INJ; auto; now right.
    - intros [u v] Hin. apply in_map_iff in Hin as (k & E & Hk). destruct (IL k Hk) as [B T].
      destruct (FACT k B T) as [F1 F2]. unfold g in E. injection E as <- <-.
      apply in_prod; apply in_seq; unfold NR, NK; lia. }
  assert (BR : INR NR <= INR m * a + w + 1).
  { unfold NR. rewrite S_INR, INR_IZR_INZ, Z2Nat.id by (apply Zfloor_lub; lra).
    pose proof (Zfloor_lb (INR m * a + w)). lra. }
  assert (BK : INR NK <= w / a + 2).
  { unfold NK. rewrite S_INR, INR_IZR_INZ, Z2Nat.id by (apply Zfloor_lub; lra).
    pose proof (Zfloor_lb (w / a + 1)). lra. }
  unfold count. fold L. apply Rle_trans with (INR (NR * NK)); [now apply le_INR|]. rewrite mult_INR.
  apply Rmult_le_compat; auto; apply pos_INR.
Qed.

(** C121, second part: a pulse train is mostly quiet data if its pulses are short compared with its
    period and with the window.  [a] is the length of a group of [f] samples in periods; the first and
    the last group have to be free of pulses, since they are repeated beyond the ends. *)
Theorem pulse_train_is_mostly_quiet :
  forall (x : list R) (tsamp period phi w base : R) (on : nat -> bool) (f m : nat),
  0 < tsamp -> 0 < period -> 0 <= w -> (1 <= f)%nat -> (1 <= m)%nat ->
  let nb := (length x / f)%nat in
  let a := INR f * tsamp / period in
  (forall i, (i < length x)%nat -> on i = true -> on_pulse (/ period) phi w tsamp i) ->
  (forall i, (i < length x)%nat -> on i = false -> nth i x 0 = base) ->
  (forall i, (i < f)%nat -> on i = false /\ on ((nb - 1) * f + i)%nat = false) ->
  2 * ((INR m * a + w + 1) * (w / a + 2)) < INR m ->
  mostly_quiet x base f m.
Proof.
  intros x tsamp period phi w base on f m T0 P0 W0 F1 M1 nb a Hon Hoff Hends HC.
  assert (FR : 1 <= INR f) by (apply (le_INR 1); lia).
  assert (MR : 1 <= INR m) by (apply (le_INR 1); lia).
  assert (NU : 0 < / period) by now apply Rinv_0_lt_compat.
  assert (A0 : 0 < a).
  { unfold a. apply Rmult_lt_0_compat; auto. apply Rmult_lt_0_compat; lra. }
  assert (WAa : 0 <= w / a) by (apply Rmult_le_pos; [lra|left; now apply Rinv_0_lt_compat]).
  assert (WA : w + a < 1).
  { assert (E : INR m * a * (w / a + 2) = INR m * (w + 2 * a)) by (field; lra).
    assert (0 <= (w + 1) * (w / a + 2)) by (apply Rmult_le_pos; lra).
    assert (2 * (INR m * (w + 2 * a)) < INR m * 1) by lra.
    assert (2 * (w + 2 * a) < 1); [|lra]. apply Rmult_lt_reg_l with (INR m); lra. }
  set (quiet := fun j => forallb (fun i => negb (on (j * f + i)%nat)) (seq 0 f)).
  assert (NBX : (nb * f <= length x)%nat) by (unfold nb; rewrite Nat.mul_comm; apply Nat.mul_div_le; lia).
  exists quiet. split.
  - intros j i Hj Q Hi. fold nb in Hj. apply Hoff; [nia|].
    unfold quiet in Q. rewrite forallb_forall in Q. specialize (Q i). rewrite in_seq in Q.
    specialize (Q ltac:(lia)). now apply negb_true_iff in Q.
  - fold nb. intros c Hc. rewrite count_map.
    set (pos := fun k => Nat.min (c + k - m / 2) (nb - 1)).
    assert (SUM : (count (fun k => quiet (pos k)) (seq 0 m) + count (fun k => negb (quiet (pos k))) (seq 0 m) = m)%nat).
    { rewrite <- (seq_length m 0) at 3. unfold count. induction (seq 0 m) as [|k l IH]; cbn; auto.
      destruct (quiet (pos k)); cbn; lia. }
    assert (TOUCH : INR (count (fun k => negb (quiet (pos k))) (seq 0 m)) <= (INR m * a + w + 1) * (w / a + 2)).
    { apply (pulses_in_window a w phi (INR c - INR (m / 2)) m); auto.
      intros k Hk Q. apply negb_true_iff in Q.
      assert (EX : exists i, (i < f)%nat /\ on (pos k * f + i)%nat = true).
      { unfold quiet in Q. destruct (existsb (fun i => on (pos k * f + i)%nat) (seq 0 f)) eqn:E.
        - apply existsb_exists in E as (i & Hi & O). apply in_seq in Hi. exists i. split; [lia|exact O].
        - exfalso. rewrite <- not_true_iff_false in Q. apply Q. apply forallb_forall. intros i Hi.
          apply negb_true_iff. rewrite <- not_true_iff_false in E |- *. intros O. apply E. apply existsb_exists. eauto. }
      destruct EX as (i & Hi & O).
      assert (P1 : pos k <> 0%nat). { intros Z. rewrite Z in O. cbn in O. destruct (Hends i Hi) as [Y _]. congruence. }
      assert (P2 : pos k <> (nb - 1)%nat). { intros Z. rewrite Z in O. destruct (Hends i Hi) as [_ Y]. congruence. }
      assert (PE : INR (pos k) = INR c - INR (m / 2) + INR k).
      { replace (pos k) with (c + k - m / 2)%nat by (unfold pos in *; lia).
        rewrite minus_INR by (unfold pos in *; lia). rewrite plus_INR. lra. }
      assert (PL : (pos k * f + i < length x)%nat) by (unfold pos in *; nia).
      destruct (Hon _ PL O) as (rot & R1 & R2). exists rot.
      rewrite plus_INR, mult_INR, PE in R1, R2. set (y := INR c - INR (m / 2) + INR k) in *.
      assert (YA : y * a = / period * (y * INR f * tsamp)) by (unfold a; field; lra).
      rewrite YA.
      assert (I0 : 0 <= INR i) by apply pos_INR.
      assert (I1 : INR i + 1 <= INR f) by (rewrite <- S_INR; apply le_INR; lia).
      assert (AE : a = / period * (INR f * tsamp)) by (unfold a; field; lra).
      split.
      - rewrite AE. assert (/ period * (INR i * tsamp) <= / period * (INR f * tsamp)).
        { apply Rmult_le_compat_l; [lra|]. apply Rmult_le_compat_r; lra. }
        replace (/ period * ((y * INR f + INR i) * tsamp)) with (/ period * (y * INR f * tsamp) + / period * (INR i * tsamp)) in R1 by ring. lra.
      - assert (0 <= / period * ((INR i + 1) * tsamp)) by (apply Rmult_le_pos; [lra|apply Rmult_le_pos; lra]).
        replace (/ period * ((y * INR f + INR i + 1) * tsamp)) with (/ period * (y * INR f * tsamp) + / period * ((INR i + 1) * tsamp)) in R2 by ring. lra. }
    change (fun k => quiet (Nat.min (c + k - m / 2) (nb - 1))) with (fun k => quiet (pos k)).
    apply INR_lt. rewrite mult_INR. change (INR 2) with 2.
    apply (f_equal INR) in SUM. rewrite plus_INR in SUM. lra.
Qed.
Print Assumptions pulse_train_is_mostly_quiet.

(** 100 samples with a pulse every 10, and the running median over 31 samples *)
Definition ten_on (i : nat) : bool := (i mod 10 =? 5)%nat.
Definition ten (n : nat) : list R := map (fun i => if ten_on i then 7 else 2) (seq 0 n).

Lemma ten_quiet : mostly_quiet (ten 100) 2 1 31.
Proof.
  assert (L : length (ten 100) = 100%nat) by (unfold ten; now rewrite map_length, seq_length).
  apply (pulse_train_is_mostly_quiet (ten 100) 1 10 (1 / 2) (1 / 10) 2 ten_on); try lra; try lia; rewrite ?L.
  - intros i Hi H. unfold ten_on in H. apply Nat.eqb_eq in H.
    pose proof (Nat.div_mod i 10 ltac:(lia)) as D. rewrite H in D. exists (Z.of_nat (i / 10)). rewrite <- INR_IZR_INZ.
    apply (f_equal INR) in D. rewrite plus_INR, mult_INR in D. replace (INR 10) with 10 in D by (cbn; lra). replace (INR 5) with 5 in D by (cbn; lra). lra.
  - intros i Hi E. unfold ten. rewrite (nth_indep _ 0 ((fun i => if ten_on i then 7 else 2) 0%nat)) by (now rewrite map_length, seq_length).
    rewrite (map_nth (fun i => if ten_on i then 7 else 2)), seq_nth by exact Hi. cbn [Nat.add]. now rewrite E.
  - intros i Hi. assert (i = 0)%nat as -> by lia. split; reflexivity.
  - cbn. lra.
Qed.

Example running_median_used : exists r, median_of (ten 100) 31 (PInt 31) r /\
  forall i, (i < 100)%nat -> nth i r 0 = 2.
Proof.
  assert (L : length (ten 100) = 100%nat) by (unfold ten; now rewrite map_length, seq_length).
  destruct (median_accepts (fun n => repeat 0 n) (ten 100) 31 31) as [K _]; [intros k; apply repeat_length|lia|].
  destruct K as (r & E & _).
  { rewrite L. split; [reflexivity|]. split; [intros _; split; [reflexivity|lia]|lia]. }
  exists r. assert (M : median_of (ten 100) 31 (PInt 31) r).
  { apply (median_py_ok (fun n => repeat 0 n)); [intros k; apply repeat_length|exact E]. }
  split; [exact M|]. intros i Hi.
  apply (running_median_of_quiet_data (ten 100) 31 (PInt 31) r 2 M ten_quiet). now rewrite L.
Qed.
