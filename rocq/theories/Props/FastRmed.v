(** C26: fast_running_median. *)
From Coq Require Import List Arith ZArith Bool Lia Reals Lra.
From Flocq Require Import Core.
From Verif Require Import Base.Result Base.Buf Base.Num Model.RunMed Model.FastRmed Spec.Order Spec.Sums
  Proof.RunMed Proof.FastRmed Props.Downsample Props.RunMed.
Import ListNotations.
Local Open Scope R_scope.

Lemma x_lores_increasing f c m : (0 < f)%nat ->
  increasing (map (fun i => INR (i * f) + c) (seq 0 m)).
Proof.
  intros Hf i j Hij. rewrite map_length, seq_length in Hij. rewrite !nth_map_seq by lia.
  apply Rplus_lt_compat_r. apply lt_INR. nia.
Qed.

Lemma fast_unfold (alloc : nat -> list R) (x : list R) w m :
  (0 < m)%Z -> (m mod 2 <> 0)%Z -> (2 * m <= w)%Z ->
  let f := Z.to_nat (w / m) in
  (2 <= f)%nat /\
  fast_running_median numR alloc x w m =
    (rmed <- py_running_median Rlt_bool 0 alloc (scrunch numR x f) (Z.to_nat m) ;;
     Ok (map (fun i => interp numR (map (fun i => INR (i * f) + 1 / 2 * (IZR (w / m) - 1))
                                       (seq 0 (length x / f))) rmed (INR i)) (seq 0 (length x)))).
Proof.
  intros Hm Ho Hw f. destruct (scrunch_factor_R w m Hm) as [_ H]. destruct (H Hw) as [E G].
  split; [unfold f; lia|]. unfold fast_running_median.
  destruct (Z.eqb_spec (m mod 2) 0); [contradiction|]. rewrite E.
  destruct (Z.eqb_spec (w / m) 1); [lia|]. unfold running_median_py.
  destruct (Z.ltb_spec m 0); [lia|]. rewrite map_narrow_R. fold f. rewrite scrunch_length.
  cbn [numR n_T n_ltb n_dbl opsR o_ofZ o_add o_mul o_div].
  destruct (py_running_median Rlt_bool 0 alloc (scrunch numR x f) (Z.to_nat m)); try reflexivity.
  cbn [bind]. f_equal. apply map_ext. intros i. rewrite <- INR_IZR_INZ. f_equal.
  apply map_ext. intros j. rewrite <- INR_IZR_INZ. now rewrite minus_IZR.
Qed.

(** C26.  [m] is min_points, [f = width / m] the scrunching factor. *)
Theorem fast_running_median_correct :
  forall (alloc : nat -> list R) (x : list R) (width m : Z), allocates alloc -> (0 < m)%Z ->
  (Z.even m = true -> fast_running_median numR alloc x width m = Err ValueError) /\
  (Z.odd m = true -> (width < 2 * m)%Z ->
     fast_running_median numR alloc x width m = running_median_py numR alloc x width) /\
  (Z.odd m = true -> (2 * m <= width)%Z ->
     let f := (width / m)%Z in
     ((Z.of_nat (length x) / f <= m)%Z ->
        fast_running_median numR alloc x width m = Err ValueError) /\
     ((m < Z.of_nat (length x) / f)%Z ->
      exists out : list R, fast_running_median numR alloc x width m = Ok out /\
        length out = length x /\
        (forall lo hi, (forall y, In y x -> lo <= y <= hi) -> forall v, In v out -> lo <= v <= hi) /\
        (forall a c, 0 < a ->
           fast_running_median numR alloc (map (fun y => a * y + c) x) width m
           = Ok (map (fun y => a * y + c) out)))).
Proof.
  intros alloc x width m Ha Hm. split; [|split].
  - intros He. unfold fast_running_median. rewrite Zmod_even, He. reflexivity.
  - intros Ho Hw. unfold fast_running_median. rewrite Zmod_odd, Ho. cbn [Z.eqb].
    destruct (scrunch_factor_R width m Hm) as [H _]. rewrite (H Hw). reflexivity.
  - intros Ho Hw f0.
    assert (Ho' : (m mod 2 <> 0)%Z) by (rewrite Zmod_odd, Ho; discriminate).
    destruct (fast_unfold alloc x width m Hm Ho' Hw) as [Hf E].
    set (f := Z.to_nat (width / m)) in *.
    assert (Ef : f0 = Z.of_nat f) by (unfold f, f0; rewrite Z2Nat.id; auto; apply Z.div_pos; lia).
    assert (Elen : (Z.of_nat (length x) / f0)%Z = Z.of_nat (length x / f))
      by (rewrite Ef; symmetry; apply Nat2Z.inj_div).
    assert (Om : Nat.odd (Z.to_nat m) = true).
    { rewrite <- Z.bit0_odd in Ho. apply Nat.odd_spec.
      rewrite Z.bit0_odd in Ho. apply Z.odd_spec in Ho. destruct Ho as [k Hk].
      exists (Z.to_nat k). lia. }
    rewrite Elen. split.
    + intros Hle. rewrite E.
      destruct (running_median_correct R Rlt_bool 0 0 alloc (scrunch numR x f) (Z.to_nat m) Ha) as [H1 _].
      numR_ty. rewrite H1; [reflexivity|]. rewrite scrunch_length. intros [_ ?]. lia.
    + intros Hlt.
      destruct (running_median_correct R Rlt_bool 0 0 alloc (scrunch numR x f) (Z.to_nat m) Ha) as [_ H2].
      destruct H2 as (rm & Er & Lr & _). { split; auto. rewrite scrunch_length. lia. }
      numR_ty. rewrite E, Er. cbn [bind].
      destruct (rmed_in _ _ _ _ _ Ha Er) as (_ & Hin & _). rewrite scrunch_length in Lr.
      eexists. split; [reflexivity|].
      set (xl := map (fun i => INR (i * f) + 1 / 2 * (IZR (width / m) - 1)) (seq 0 (length x / f))).
      assert (Lxl : length xl = length rm) by (unfold xl; rewrite map_length, seq_length; auto).
      assert (Inc : increasing xl) by (apply x_lores_increasing; lia).
      assert (Nrm : rm <> []). { intros ->. cbn in Lr. lia. }
      split. { now rewrite map_length, seq_length. } split.
      * intros lo hi Hx v Hv. apply in_map_iff in Hv. destruct Hv as (i & <- & _).
        apply interp_range; auto. intros u Hu. apply (scrunch_range x f); auto. lia.
      * intros a c Hpos.
        destruct (fast_unfold alloc (map (fun y => a * y + c) x) width m Hm Ho' Hw) as [_ E'].
        fold f in E'. rewrite E'. rewrite scrunch_affine by lia.
        rewrite (rmed_affine _ _ _ _ _ a c Ha Hpos Er). cbn [bind]. f_equal.
        rewrite map_length, map_map. fold xl. apply map_ext. intros i.
        apply interp_affine; auto.
Qed.
Print Assumptions fast_running_median_correct.

(** The values: the median over [m] block means, taken at the block centres
    [k f + (f - 1) / 2] and joined by straight lines, constant beyond the outer centres. *)
Theorem fast_running_median_values :
  forall (alloc : nat -> list R) (x : list R) (width m : Z), allocates alloc -> (0 < m)%Z ->
  Z.odd m = true -> (2 * m <= width)%Z -> (m < Z.of_nat (length x) / (width / m))%Z ->
  let f := Z.to_nat (width / m) in
  let nb := (length x / f)%nat in
  let centre k := INR (k * f) + (INR f - 1) / 2 in
  exists (out med : list R), fast_running_median numR alloc x width m = Ok out /\
    length out = length x /\ length med = nb /\
    (forall k, (k < nb)%nat ->
       is_median Rlt_bool
         (centred_window 0
            (map (fun j => rsum f (fun i => nth (j * f + i) x 0) / INR f) (seq 0 nb))
            (Z.to_nat m / 2) k)
         (nth k med 0)) /\
    (forall i k, (i < length x)%nat -> (S k < nb)%nat -> centre k <= INR i <= centre (S k) ->
       nth i out 0 = nth k med 0 + (nth (S k) med 0 - nth k med 0) * ((INR i - centre k) / INR f)) /\
    (forall i, (i < length x)%nat -> INR i <= centre 0%nat -> nth i out 0 = nth 0 med 0) /\
    (forall i, (i < length x)%nat -> centre (nb - 1)%nat <= INR i ->
       nth i out 0 = nth (nb - 1) med 0).
Proof.
  intros alloc x width m Ha Hm Ho Hw Hlt f nb centre.
  assert (Ho' : (m mod 2 <> 0)%Z) by (rewrite Zmod_odd, Ho; discriminate).
  destruct (fast_unfold alloc x width m Hm Ho' Hw) as [Hf E]. fold f in Hf, E.
  assert (Ef : (width / m)%Z = Z.of_nat f) by (unfold f; rewrite Z2Nat.id; auto; apply Z.div_pos; lia).
  rewrite Ef, <- Nat2Z.inj_div in Hlt. fold nb in Hlt.
  assert (Om : Nat.odd (Z.to_nat m) = true).
  { apply Nat.odd_spec. apply Z.odd_spec in Ho. destruct Ho as [k Hk]. exists (Z.to_nat k). lia. }
  destruct (running_median_correct R Rlt_bool 0 0 alloc (scrunch numR x f) (Z.to_nat m) Ha) as [_ H2].
  destruct H2 as (rm & Er & Lr & Mr). { split; auto. rewrite scrunch_length. fold nb. lia. }
  rewrite scrunch_length in Lr, Mr. fold nb in Lr, Mr.
  numR_ty. rewrite Er in E. cbn [bind] in E. fold nb in E.
  set (xl := map (fun i => INR (i * f) + 1 / 2 * (IZR (width / m) - 1)) (seq 0 nb)) in *.
  assert (Hfp : 0 < INR f) by (apply (lt_INR 0); lia).
  assert (Cx : forall k, (k < nb)%nat -> nth k xl 0 = centre k).
  { intros k Hk. unfold xl, centre. rewrite nth_map_seq by auto. rewrite Ef, <- INR_IZR_INZ. field. }
  assert (Lxl : length xl = nb) by (unfold xl; now rewrite map_length, seq_length).
  assert (Inc : increasing xl) by (apply x_lores_increasing; lia).
  assert (SC : scrunch numR x f = map (fun j => rsum f (fun i => nth (j * f + i) x 0) / INR f) (seq 0 nb)).
  { apply nth_ext with 0 0. { rewrite scrunch_length, map_length, seq_length. reflexivity. }
    intros i Hi. rewrite scrunch_length in Hi. rewrite scrunch_nth by (auto; lia).
    now rewrite nth_map_seq. }
  assert (STEP : forall k, centre (S k) - centre k = INR f).
  { intros k. unfold centre. cbn [Nat.mul]. rewrite plus_INR. lra. }
  eexists _, rm. split; [exact E|]. split; [now rewrite map_length, seq_length|]. split; auto.
  split. { intros k Hk. rewrite <- SC. apply Mr; auto. apply strict_weak_R. }
  assert (HD : forall y : R, interp numR xl rm y = if Rlt_bool y (centre 0%nat) then nth 0 rm 0 else interp_in numR xl rm y).
  { intros y. rewrite <- Cx by lia. unfold interp.
    destruct xl as [|x0 xl0]; [cbn in Lxl; lia|]. destruct rm as [|r0 rm0]; [cbn in Lr; lia|]. reflexivity. }
  assert (MONO : forall a b, (a <= b)%nat -> centre a <= centre b).
  { intros a b Hab. unfold centre. apply Rplus_le_compat_r, le_INR. nia. }
  assert (NODE : forall k, (k < nb)%nat -> interp_in numR xl rm (centre k) = nth k rm 0).
  { intros k Hk. destruct (Nat.eq_dec k (nb - 1)) as [->|Hne].
    - rewrite interp_in_last; rewrite ?Lxl; auto.
      + intros Hnil; rewrite Hnil in Lxl; cbn in Lxl; lia.
      + rewrite Cx by lia. lra.
    - rewrite interp_in_at with (k := k); auto; try lia.
      + rewrite !Cx by lia. rewrite STEP. numR_ty. field. lra.
      + rewrite !Cx by lia. pose proof (STEP k). lra. }
  split; [|split].
  - intros i k Hi Hk Hc. rewrite nth_map_seq by auto. rewrite HD.
    rewrite Rlt_bool_false by (apply Rle_trans with (centre k); [apply MONO; lia|lra]).
    destruct (Req_dec (INR i) (centre (S k))) as [He|He].
    + rewrite He, NODE by auto. rewrite STEP. field. lra.
    + rewrite interp_in_at with (k := k); auto; try lia.
      * rewrite !Cx by lia. rewrite STEP. field. lra.
      * rewrite !Cx by lia. lra.
  - intros i Hi Hc. rewrite nth_map_seq by auto. rewrite HD.
    destruct (Rlt_bool_spec (INR i) (centre 0%nat)); auto.
    replace (INR i) with (centre 0%nat) by lra. apply NODE. lia.
  - intros i Hi Hc. rewrite nth_map_seq by auto. rewrite HD.
    rewrite Rlt_bool_false by (apply Rle_trans with (2 := Hc); apply MONO; lia).
    rewrite interp_in_last; rewrite ?Lxl; auto.
    + intros Hnil; rewrite Hnil in Lxl; cbn in Lxl; lia.
    + rewrite Cx by lia. auto.
Qed.
Print Assumptions fast_running_median_values.

Example fast_running_median_ex :
  (0 < 3)%Z /\ Z.odd 3 = true /\ (2 * 3 <= 7)%Z /\ (3 < Z.of_nat (length [1;2;3;4;5;6;7;8]) / (7 / 3))%Z.
Proof. repeat split; lia || reflexivity. Qed.

(** A width that is valid for running_median (odd and smaller than the data) can be refused by
    fast_running_median: after scrunching the window no longer fits. *)
Theorem fast_running_median_short_refuted :
  exists (alloc : nat -> list R) (x : list R) (width m : Z), allocates alloc /\ Z.odd m = true /\
    Z.odd width = true /\ (0 < m)%Z /\ (width < Z.of_nat (length x))%Z /\
    fast_running_median numR alloc x width m = Err ValueError /\
    exists out, running_median_py numR alloc x width = Ok out.
Proof.
  assert (Ha : allocates (repeat 0)) by (intros n; apply repeat_length).
  exists (repeat 0), (repeat 0 10), 9%Z, 3%Z.
  split; auto. split; [reflexivity|]. split; [reflexivity|]. split; [lia|]. split; [reflexivity|]. split.
  - destruct (fast_running_median_correct (repeat 0) (repeat 0 10) 9 3 Ha) as (_ & _ & H); [lia|].
    destruct H as [H _]; [reflexivity|lia|]. apply H. vm_compute. discriminate.
  - unfold running_median_py. cbn [Z.ltb Z.compare]. rewrite map_narrow_R.
    destruct (running_median_correct R Rlt_bool 0 0 (repeat 0) (repeat 0 10) (Z.to_nat 9) Ha) as [_ H].
    destruct H as (out & E & _). { split; [reflexivity|]. cbn. lia. }
    exists out. exact E.
Qed.
Print Assumptions fast_running_median_short_refuted.
