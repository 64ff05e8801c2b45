(** C13, C14, C23: ffa1, trial frequencies and periods, trial widths. *)
From Coq Require Import List Arith ZArith Bool Lia Reals Lra Sorted.
From Flocq Require Import Core.
From Verif Require Import Base.Result Base.Buf Base.Num Model.Kernels Model.Transforms Model.Libffa
  Spec.Sums Spec.FfaSpec Proof.Transforms Proof.Index Proof.Ffa Proof.Libffa Props.Ffa Props.Downsample.
Import ListNotations.
Local Open Scope R_scope.

(** the argument combinations ffa1 rejects *)
Definition ffa1_bad {A} (data : ndarray A) (p : pyarg) : Prop :=
  length (nd_shape data) <> 1%nat \/ p = PyNotInt \/
  exists z, p = PyInt z /\ ((z <= 0)%Z \/ (Z.of_nat (nd_size data) < z)%Z).

(** C13, errors. *)
Theorem ffa1_checks :
  forall (A : Type) (plus : A -> A -> A) idx alloc (data : ndarray A) (p : pyarg),
  ffa1_bad data p -> ffa1 plus idx alloc data p = Err ValueError.
Proof.
  intros A plus idx alloc data p H. unfold ffa1.
  destruct (Nat.eqb_spec (length (nd_shape data)) 1) as [H1|H1]; [|reflexivity].
  cbn [negb]. destruct H as [H|[->|(z & -> & H)]]; [contradiction|reflexivity|].
  destruct (Z.ltb_spec 0 z); [|reflexivity]. cbn [negb].
  destruct (Z.ltb_spec (Z.of_nat (nd_size data)) z); [reflexivity|lia].
Qed.
Print Assumptions ffa1_checks.

Example ffa1_checks_ex : ffa1_bad (Nd [3%nat] [1; 2; 3]) (PyInt 4).
Proof. right. right. exists 4%Z. split; auto. right. reflexivity. Qed.

(** C13, result: floor(N/p) rows of p columns, each a fold of the first floor(N/p)*p samples
    (binary32 index arithmetic, up to 2^22 rows). *)
Theorem ffa1_folds :
  forall (bld : build) (m : nat), (1 <= m)%nat -> (Z.of_nat m <= 4194304)%Z ->
  exists (sh : nat -> nat -> nat) (t : tree),
    (forall s, (s < m)%nat -> folding_path m s (sh s)) /\ leaves t = seq 0 m /\
    forall (A : Type) (plus : A -> A -> A) (d : A) alloc (data : ndarray A) (p : nat),
      allocates alloc -> nd_wf data -> length (nd_shape data) = 1%nat ->
      (1 <= p <= nd_size data)%nat -> m = (nd_size data / p)%nat ->
      exists Y, ffa1 plus (merge_index (numF bld)) alloc data (PyInt (Z.of_nat p)) = Ok Y /\
        arr2_wf Y /\ a_rows Y = m /\ a_cols Y = p /\
        forall s c, (s < m)%nat -> (c < p)%nat ->
          at2 d Y s c
          = teval plus (fun i => nth (i * p + (c + sh s i) mod p) (nd_data data) d) t.
Proof.
  intros bld m Hm Hm'.
  destruct (ffa2_float_fold bld m Hm Hm') as (sh & t & HP & HL & _ & H).
  exists sh, t. split; auto. split; auto.
  intros A plus d alloc data p Ha Hwf Hnd Hp Em.
  assert (Hmp : (m * p <= nd_size data)%nat).
  { subst m. rewrite Nat.mul_comm. apply Nat.mul_div_le. lia. }
  set (X := Arr2 m p (firstn (m * p) (nd_data data))).
  assert (WX : arr2_wf X).
  { unfold arr2_wf, X; cbn. rewrite firstn_length, Hwf. lia. }
  destruct (H A plus d X WX eq_refl) as (Y & WY & RY & CY & V & E); [cbn; lia|].
  cbn [X a_cols] in *.
  exists Y. split.
  { unfold ffa1. rewrite Hnd. cbn [Nat.eqb negb].
    destruct (Z.ltb_spec 0 (Z.of_nat p)); [|lia]. cbn [negb].
    destruct (Z.ltb_spec (Z.of_nat (nd_size data)) (Z.of_nat p)); [lia|].
    rewrite Nat2Z.id, <- Em. apply E; apply Ha. }
  split; auto. split; auto. split; auto.
  intros s c Hs Hc. rewrite V by auto.
  assert (G : forall g g' : nat -> A, (forall i, In i (leaves t) -> g i = g' i) ->
     teval plus g t = teval plus g' t).
  { clear. intros g g'. induction t as [i|l IHl r IHr]; cbn; intros Hg.
    - apply Hg. cbn. auto.
    - rewrite IHl, IHr; auto; intros; apply Hg, in_or_app; auto. }
  apply G. intros i Hi. rewrite HL in Hi. apply in_seq in Hi.
  unfold at2; cbn.
  pose proof (Nat.mod_upper_bound (c + sh s i) p ltac:(lia)).
  set (q := ((c + sh s i) mod p)%nat) in *.
  assert (i * p + q < m * p)%nat by nia.
  rewrite <- (firstn_skipn (m * p) (nd_data data)) at 2.
  rewrite app_nth1; auto. rewrite firstn_length, Hwf. lia.
Qed.
Print Assumptions ffa1_folds.

Example ffa1_folds_ex :
  let data := Nd [7%nat] [1; 2; 3; 4; 5; 6; 7] in
  nd_wf data /\ length (nd_shape data) = 1%nat /\ (1 <= 3 <= nd_size data)%nat /\
  (nd_size data / 3 = 2)%nat.
Proof. repeat split; cbn; lia. Qed.

(** C14, errors *)
Theorem ffafreq_checks :
  forall (n p : pyarg) (dt : R),
  (forall n' p', n = PyInt n' -> p = PyInt p' ->
     ~ ((0 < n')%Z /\ (1 < p')%Z /\ (p' <= n')%Z /\ 0 < dt)) ->
  ffafreq numR n p dt = Err ValueError /\ ffaprd numR n p dt = Err ValueError.
Proof.
  intros n p dt H.
  assert (E : ffafreq numR n p dt = Err ValueError).
  { unfold ffafreq. destruct n as [n|]; [|reflexivity].
    destruct (Z.ltb_spec 0 n); [|reflexivity]. cbn [negb].
    destruct p as [p|]; [|reflexivity].
    destruct (Z.ltb_spec 1 p); [|reflexivity]. cbn [negb].
    destruct (Z.leb_spec p n); [|reflexivity]. cbn [negb]. rsimp.
    destruct (Rlt_bool_spec 0 dt); [|reflexivity].
    exfalso. apply (H n p); auto. }
  split; auto. unfold ffaprd. now rewrite E.
Qed.
Print Assumptions ffafreq_checks.

(** C14.  [(m - 1) p dt] is the time from the first to the last period of the data, so
    [(f_0 - f_s) (m - 1) p dt] is the phase drift in cycles, and [1/p] of a cycle is a bin. *)
Theorem ffafreq_trials :
  forall (n p : nat) (dt : R), (1 < p <= n)%nat -> 0 < dt ->
  let m := (n / p)%nat in
  exists f P, ffafreq numR (PyInt (Z.of_nat n)) (PyInt (Z.of_nat p)) dt = Ok f /\
    ffaprd numR (PyInt (Z.of_nat n)) (PyInt (Z.of_nat p)) dt = Ok P /\
    length f = m /\ length P = m /\
    nth 0 f 0 = / (INR p * dt) /\
    (forall s, (s < m)%nat -> 0 < nth s f 0 /\
       (nth 0 f 0 - nth s f 0) * ((INR m - 1) * INR p * dt) = INR s * / INR p /\
       nth s P 0 = / nth s f 0) /\
    (forall s, (s + 1 < m)%nat ->
       nth (s + 1) f 0 < nth s f 0 /\ nth s P 0 < nth (s + 1) P 0).
Proof.
  intros n p dt Hp Hdt m.
  assert (Hm : (1 <= m)%nat). { apply Nat.div_le_lower_bound; lia. }
  set (f0 := / INR p).
  set (frq := fun s : nat => (f0 - INR s / (INR m - 1) * (f0 * f0)) / dt).
  set (fr := fun s : nat => if (m =? 1)%nat then f0 / dt else frq s).
  assert (Hp1 : 2 <= INR p) by (apply (le_INR 2); lia).
  assert (Hf0 : 0 < f0 < 1).
  { unfold f0. split; [apply Rinv_0_lt_compat; lra|].
    rewrite <- Rinv_1. apply Rinv_lt_contravar; lra. }
  assert (Hdti : 0 < / dt) by (apply Rinv_0_lt_compat; auto).
  assert (Hpos : forall s, (s < m)%nat -> 0 < fr s).
  { intros s Hs. unfold fr, frq, Rdiv. destruct (Nat.eqb_spec m 1) as [E1|E1].
    { apply Rmult_lt_0_compat; lra. }
    assert (2 <= INR m) by (apply (le_INR 2); lia).
    assert (INR s <= INR m - 1).
    { replace (INR m - 1) with (INR (m - 1)) by (rewrite minus_INR by lia; cbn; lra).
      apply le_INR. lia. }
    assert (INR s * / (INR m - 1) <= 1).
    { apply Rmult_le_reg_r with (INR m - 1); [lra|]. field_simplify; lra. }
    apply Rmult_lt_0_compat; [|lra].
    assert (INR s * / (INR m - 1) * (f0 * f0) <= 1 * (f0 * f0)).
    { apply Rmult_le_compat_r; auto. apply Rmult_le_pos; lra. }
    assert (f0 * f0 < f0 * 1) by (apply Rmult_lt_compat_l; lra). lra. }
  assert (Hdec : forall s, (s + 1 < m)%nat -> fr (s + 1)%nat < fr s).
  { intros s Hs. unfold fr, frq. destruct (Nat.eqb_spec m 1); [lia|].
    assert (2 <= INR m) by (apply (le_INR 2); lia).
    unfold Rdiv. apply Rmult_lt_compat_r; auto. rewrite plus_INR. cbn [INR].
    assert (0 < / (INR m - 1) * (f0 * f0)).
    { apply Rmult_lt_0_compat; [apply Rinv_0_lt_compat; lra|]. apply Rmult_lt_0_compat; lra. }
    lra. }
  assert (E : ffafreq numR (PyInt (Z.of_nat n)) (PyInt (Z.of_nat p)) dt = Ok (map fr (seq 0 m))).
  { unfold ffafreq. destruct (Z.ltb_spec 0 (Z.of_nat n)); [|lia]. cbn [negb].
    destruct (Z.ltb_spec 1 (Z.of_nat p)); [|lia]. cbn [negb].
    destruct (Z.leb_spec (Z.of_nat p) (Z.of_nat n)); [|lia]. cbn [negb]. rsimp.
    rewrite Rlt_bool_true by auto. cbn [negb].
    rewrite <- Nat2Z.inj_div, Nat2Z.id. fold m. f_equal.
    unfold fr. destruct (Nat.eqb_spec m 1) as [E1|E1].
    - rewrite E1. cbn. unfold f0. rewrite <- INR_IZR_INZ. f_equal. unfold Rdiv. ring.
    - rewrite map_map. apply map_ext. intros s. unfold frq, f0.
      rewrite <- !INR_IZR_INZ. unfold Rdiv. rewrite !Rmult_1_l. reflexivity. }
  exists (map fr (seq 0 m)), (map (fun x => 1 / x) (map fr (seq 0 m))).
  assert (Nf : forall s, (s < m)%nat -> nth s (map fr (seq 0 m)) 0 = fr s).
  { intros s Hs. rewrite (nth_indep _ 0 (fr 0%nat)) by (rewrite map_length, seq_length; auto).
    rewrite map_nth, seq_nth by auto. reflexivity. }
  assert (NP : forall s, (s < m)%nat ->
    nth s (map (fun x => 1 / x) (map fr (seq 0 m))) 0 = / fr s).
  { intros s Hs. rewrite (nth_indep _ 0 ((fun x => 1 / x) 0))
      by (rewrite !map_length, seq_length; auto).
    rewrite map_nth, Nf by auto. unfold Rdiv. ring. }
  split; auto. split. { unfold ffaprd. rewrite E. reflexivity. }
  split. { now rewrite map_length, seq_length. }
  split. { now rewrite !map_length, seq_length. }
  assert (F0 : fr 0%nat = f0 / dt).
  { unfold fr, frq. destruct (Nat.eqb_spec m 1); auto. cbn [INR]. f_equal. unfold Rdiv. ring. }
  split. { rewrite Nf, F0 by lia. unfold f0. numR_ty. field. lra. }
  split.
  - intros s Hs. rewrite !Nf, NP by lia. split; auto. split; auto.
    rewrite F0. unfold fr, frq. destruct (Nat.eqb_spec m 1) as [E1|E1].
    + replace s with 0%nat by lia. cbn [INR]. rewrite E1. cbn [INR]. ring.
    + assert (2 <= INR m) by (apply (le_INR 2); lia). unfold f0. numR_ty. field. lra.
  - intros s Hs. rewrite !Nf, !NP by lia. split; auto.
    apply Rinv_lt_contravar; auto. apply Rmult_lt_0_compat; apply Hpos; lia.
Qed.
Print Assumptions ffafreq_trials.

Example ffafreq_trials_ex : (1 < 4 <= 19)%nat /\ 0 < 1.
Proof. split; [lia|lra]. Qed.

(** C23.  [linked Q l]: [Q] holds between consecutive elements.  The while loop of the
    source ends for every input (no [Loop]). *)
Theorem width_trials :
  forall (nbins : Z) (ducy_max wtsp : R),
  let limit := Rmax 1 (ducy_max * IZR nbins) in
  exists ws, generate_width_trials numR nbins ducy_max wtsp = Ok ws /\
    StronglySorted Z.lt ws /\ hd 0%Z ws = 1%Z /\ ws <> [] /\
    Forall (fun w => (1 <= w)%Z /\ IZR w <= limit) ws /\
    linked (fun w w' => IZR w' <= Rmax (IZR w + 1) (wtsp * IZR w) < IZR w' + 1) ws /\
    Rmax (IZR (last ws 0%Z) + 1) (wtsp * IZR (last ws 0%Z)) >= IZR (Zfloor limit) + 1.
Proof.
  intros nbins ducy wtsp limit. unfold generate_width_trials.
  destruct (width_limit_spec nbins ducy) as (L1 & L2 & L3).
  set (wmax := width_limit numR nbins ducy) in *.
  destruct (width_loop_spec wtsp wmax (S (Z.to_nat wmax)) 1) as (ws & E & S & F & Nil & Hd & L & La);
    [lia|lia|].
  assert (Hne : ws <> []) by (intros ->; assert (wmax < 1)%Z by (apply Nil; auto); lia).
  exists ws. split; auto. split; auto. split; auto. split; auto.
  assert (F1 : Forall (fun w => (1 <= w)%Z /\ IZR w <= limit) ws).
  { eapply Forall_impl; [|exact F]. intros w [H1 H2]. split; auto.
    apply IZR_le in H2. unfold limit. lra. }
  split; auto. split.
  - clear - L F. induction L as [|a|a b l H L IH]; constructor.
    + inversion F; subst. destruct (next_width_spec wtsp a) as [_ B]; [lia|]. exact B.
    + apply IH. now inversion F.
  - specialize (La Hne).
    assert (Hl : (1 <= last ws 0)%Z).
    { clear - F Hne. induction F as [|a l Ha F IH]; [congruence|].
      destruct l; [cbn; lia|]. apply IH. discriminate. }
    destruct (next_width_spec wtsp (last ws 0%Z) Hl) as (_ & B & _).
    assert (Zfloor limit = wmax).
    { apply Zfloor_imp. rewrite plus_IZR. unfold limit. lra. }
    rewrite H. assert (wmax + 1 <= next_width numR wtsp (last ws 0))%Z as H' by lia.
    apply IZR_le in H'. rewrite plus_IZR in H'. lra.
Qed.
Print Assumptions width_trials.
