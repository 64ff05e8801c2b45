(** The kernels of the search in IEEE arithmetic compute what they compute in [numF], as long as the
    data stays in a range where nothing overflows. *)
From Coq Require Import List Arith ZArith Bool Lia Reals Lra SpecFloat.
From Flocq Require Import Core.
From Verif Require Import Base.Result Base.Buf Base.Num Model.Kernels Model.Transforms Model.Snr
  Spec.FfaSpec Proof.Ieee Proof.Index Proof.Downsample Proof.Transforms Proof.Rounding Proof.Snr Proof.SnrFloat.
Import ListNotations.
Local Open Scope R_scope.

Section Ops.
Context (bld : build).
Notation NI := (numI bld).
Notation NF := (numF bld).

Lemma inc64 : (53 <= 53 /\ 1024 <= 1024 /\ -1074 <= 3 - 1024 - 53)%Z. Proof. lia. Qed.
Lemma inc32 : (24 <= 53 /\ 128 <= 1024 /\ -1074 <= 3 - 128 - 24)%Z. Proof. lia. Qed.

Lemma d_ofZ k z : (0 <= k <= 1023)%Z -> (Z.abs z <= 2 ^ k)%Z ->
  fb64 k (o_ofZ (@n_dbl NI) z) (o_ofZ (@n_dbl NF) z).
Proof. intros. apply (fb_ofZ 53 1024 p53 e1024 inc64); auto. Qed.
Lemma d_add j x y a b : (-1074 <= j <= 1022)%Z -> fb64 j x a -> fb64 j y b ->
  fb64 (j + 1) (o_add (@n_dbl NI) x y) (o_add (@n_dbl NF) a b).
Proof. intros. apply (fb_add 53 1024 p53 e1024 inc64); auto. Qed.
Lemma d_sub j x y a b : (-1074 <= j <= 1022)%Z -> fb64 j x a -> fb64 j y b ->
  fb64 (j + 1) (o_sub (@n_dbl NI) x y) (o_sub (@n_dbl NF) a b).
Proof. intros. apply (fb_sub 53 1024 p53 e1024 inc64); auto. Qed.
Lemma d_mul j k x y a b : (-1074 <= j + k <= 1023)%Z -> fb64 j x a -> fb64 k y b ->
  fb64 (j + k) (o_mul (@n_dbl NI) x y) (o_mul (@n_dbl NF) a b).
Proof. intros. apply (fb_mul 53 1024 p53 e1024 inc64); auto. Qed.
Lemma d_div j k x y a b : (-1074 <= j - k <= 1023)%Z -> fb64 j x a -> fl64 y b -> bpow radix2 k <= Rabs b ->
  fb64 (j - k) (o_div (@n_dbl NI) x y) (o_div (@n_dbl NF) a b).
Proof. intros. apply (fb_div 53 1024 p53 e1024 inc64); auto. Qed.
Lemma d_mad i j k x y z a b c : (-1074 <= k <= 1022)%Z -> (i + j <= k)%Z ->
  fb64 i x a -> fb64 j y b -> fb64 k z c ->
  fb64 (k + 1) (o_mad (@n_dbl NI) x y z) (o_mad (@n_dbl NF) a b c).
Proof. intros. apply (fb_mad 53 1024 p53 e1024 inc64) with (i := i) (j := j); auto. Qed.

Lemma s_ofZ k z : (0 <= k <= 127)%Z -> (Z.abs z <= 2 ^ k)%Z ->
  fb32 k (o_ofZ (@n_sgl NI) z) (o_ofZ (@n_sgl NF) z).
Proof. intros. apply (fb_ofZ 24 128 p24 e128 inc32); auto. Qed.
Lemma s_add j x y a b : (-149 <= j <= 126)%Z -> fb32 j x a -> fb32 j y b ->
  fb32 (j + 1) (o_add (@n_sgl NI) x y) (o_add (@n_sgl NF) a b).
Proof. intros. apply (fb_add 24 128 p24 e128 inc32); auto. Qed.
Lemma s_sub j x y a b : (-149 <= j <= 126)%Z -> fb32 j x a -> fb32 j y b ->
  fb32 (j + 1) (o_sub (@n_sgl NI) x y) (o_sub (@n_sgl NF) a b).
Proof. intros. apply (fb_sub 24 128 p24 e128 inc32); auto. Qed.
Lemma s_mul j k x y a b : (-149 <= j + k <= 127)%Z -> fb32 j x a -> fb32 k y b ->
  fb32 (j + k) (o_mul (@n_sgl NI) x y) (o_mul (@n_sgl NF) a b).
Proof. intros. apply (fb_mul 24 128 p24 e128 inc32); auto. Qed.
Lemma s_div j k x y a b : (-149 <= j - k <= 127)%Z -> fb32 j x a -> fl32 y b -> bpow radix2 k <= Rabs b ->
  fb32 (j - k) (o_div (@n_sgl NI) x y) (o_div (@n_sgl NF) a b).
Proof. intros. apply (fb_div 24 128 p24 e128 inc32); auto. Qed.
Lemma s_mad i j k x y z a b c : (-149 <= k <= 126)%Z -> (i + j <= k)%Z ->
  fb32 i x a -> fb32 j y b -> fb32 k z c ->
  fb32 (k + 1) (o_mad (@n_sgl NI) x y z) (o_mad (@n_sgl NF) a b c).
Proof. intros. apply (fb_mad 24 128 p24 e128 inc32) with (i := i) (j := j); auto. Qed.

Lemma d_narrow k x a : (-149 <= k <= 127)%Z -> fb64 k x a -> fb32 k (@n_narrow NI x) (@n_narrow NF a).
Proof.
  intros Hk [F B]. split.
  - apply fl_narrow; auto. eapply Rle_trans; [exact B|]. apply bpow_le. lia.
  - apply (rndf_bpow 24 128 p24); auto. lia.
Qed.
Lemma s_wide k x a : fb32 k x a -> fb64 k x a.
Proof. intros [F B]. split; auto. now apply fl32_64. Qed.

(** ** sums *)
(** a running sum of values not above [2^k] stays below [2^(k+25)] however long it is *)
Lemma sat32 k a x : (-149 <= k)%Z -> Rabs a <= bpow radix2 (k + 25) -> Rabs x <= bpow radix2 k ->
  Rabs (rnd32 (a + x)) <= bpow radix2 (k + 25).
Proof.
  intros Hk Ha Hx.
  assert (V : Valid_exp (FLT_exp (-149) 24)) by (apply FLT_exp_valid; reflexivity).
  set (G := bpow radix2 (k + 25)) in *.
  assert (FG : generic_format radix2 (FLT_exp (-149) 24) G).
  { apply generic_format_bpow. unfold FLT_exp. lia. }
  assert (U : forall v, v <= G + bpow radix2 k -> rnd32 v <= G).
  { intros v Hv. apply round_N_le_midp; auto.
    assert (ES : succ radix2 (FLT_exp (-149) 24) G = G + bpow radix2 (k + 2)).
    { rewrite succ_eq_pos by (apply bpow_ge_0). unfold G. rewrite ulp_bpow. do 2 f_equal. unfold FLT_exp. lia. }
    rewrite ES. replace (bpow radix2 (k + 2)) with (4 * bpow radix2 k).
    - pose proof (bpow_gt_0 radix2 k). lra.
    - rewrite bpow_plus. change (bpow radix2 2) with 4. ring. }
  apply Rabs_le_inv in Ha, Hx. apply Rabs_le. split.
  - assert (H : rnd32 (- (a + x)) <= G) by (apply U; lra).
    unfold rnd32 in H. rewrite round_NE_opp in H. fold (rnd32 (a + x)) in H. lra.
  - apply U. lra.
Qed.

Lemma s_acc k x y a b : (-149 <= k <= 101)%Z -> fb32 (k + 25) x a -> fb32 k y b ->
  fb32 (k + 25) (o_add (@n_sgl NI) x y) (o_add (@n_sgl NF) a b).
Proof.
  intros Hk Hx Hy. split.
  - apply (s_add (k + 25)); auto; [lia|]. apply fb_weaken with (j := k); auto. lia.
  - apply sat32; [lia|apply Hx|apply Hy].
Qed.

(** a value of at most [m] units *)
Definition fm (p e k : Z) (m : nat) (x : spec_float) (r : R) : Prop :=
  fl p e x r /\ Rabs r <= IZR (Z.of_nat m) * bpow radix2 k.

Lemma units k l m : (0 <= l)%Z -> (Z.of_nat m <= 2 ^ l)%Z ->
  IZR (Z.of_nat m) * bpow radix2 k <= bpow radix2 (k + l).
Proof.
  intros Hl Hm. rewrite bpow_plus, Rmult_comm. apply Rmult_le_compat_l; [apply bpow_ge_0|].
  rewrite <- (IZR_Zpower radix2) by auto. now apply IZR_le.
Qed.

Lemma fm_fb p e k l m x r : (0 <= l)%Z -> (Z.of_nat m <= 2 ^ l)%Z -> fm p e k m x r -> fb p e (k + l) x r.
Proof. intros Hl Hm [F B]. split; auto. eapply Rle_trans; [exact B|]. now apply units. Qed.

Lemma fb_fm p e k x r : fb p e k x r -> fm p e k 1 x r.
Proof. intros [F B]. split; auto. cbn [Z.of_nat Pos.of_succ_nat]. lra. Qed.

Lemma fm_sum k m n a b : Rabs a <= IZR (Z.of_nat m) * bpow radix2 k -> Rabs b <= IZR (Z.of_nat n) * bpow radix2 k ->
  Rabs (a + b) <= IZR (Z.of_nat (m + n)) * bpow radix2 k.
Proof.
  intros A B. eapply Rle_trans; [apply Rabs_triang|]. rewrite Nat2Z.inj_add, plus_IZR. lra.
Qed.

Lemma s_addm k m n x y a b : (-149 <= k <= 100)%Z -> (Z.of_nat (m + n) <= 2 ^ 24)%Z ->
  fm 24 128 k m x a -> fm 24 128 k n y b ->
  fm 24 128 k (m + n) (o_add (@n_sgl NI) x y) (o_add (@n_sgl NF) a b).
Proof.
  intros Hk Hm [Fx Bx] [Fy By]. pose proof (fm_sum k m n a b Bx By) as B. split.
  - apply (fl_add 24 128 p24 e128 inc32); auto. eapply Rle_trans; [exact B|].
    eapply Rle_trans; [apply (units k 24); auto; lia|]. apply bpow_le. lia.
  - apply (rndf_mult 24 128 p24); auto; lia.
Qed.

Lemma d_addm k m n x y a b : (-1074 <= k <= 900)%Z -> (Z.of_nat (m + n) <= 2 ^ 53)%Z ->
  fm 53 1024 k m x a -> fm 53 1024 k n y b ->
  fm 53 1024 k (m + n) (o_add (@n_dbl NI) x y) (o_add (@n_dbl NF) a b).
Proof.
  intros Hk Hm [Fx Bx] [Fy By]. pose proof (fm_sum k m n a b Bx By) as B. split.
  - apply (fl_add 53 1024 p53 e1024 inc64); auto. eapply Rle_trans; [exact B|].
    eapply Rle_trans; [apply (units k 53); auto; lia|]. apply bpow_le. lia.
  - apply (rndf_mult 53 1024 p53); auto; lia.
Qed.

(** the sums of the transform *)
Lemma teval_I k (g : nat -> spec_float) (g' : nat -> R) t : (-149 <= k <= 100)%Z ->
  (Z.of_nat (length (leaves t)) <= 2 ^ 24)%Z -> (forall i, In i (leaves t) -> fb32 k (g i) (g' i)) ->
  fm 24 128 k (length (leaves t)) (teval (o_add (@n_sgl NI)) g t) (teval (o_add (@n_sgl NF)) g' t).
Proof.
  intros Hk. induction t as [i|l IHl r IHr]; cbn [leaves teval]; intros HL HG.
  - apply fb_fm. apply HG. now left.
  - rewrite app_length in *. apply s_addm; auto.
    + apply IHl; [lia|]. intros. apply HG. apply in_or_app. auto.
    + apply IHr; [lia|]. intros. apply HG. apply in_or_app. auto.
Qed.

(** ** row indices of the transform *)
Lemma merge_index_I part m s : (Z.of_nat part <= 2 ^ 23)%Z -> (2 <= m)%nat -> (Z.of_nat m <= 2 ^ 23)%Z ->
  (Z.of_nat s <= 2 ^ 23)%Z -> merge_index NI part m s = merge_index NF part m s.
Proof.
  intros Hp Hm2 Hm Hs. unfold merge_index. f_equal. apply fl_trunc. apply fl32_64.
  assert (H : forall k : nat, (Z.of_nat k <= 2 ^ 23)%Z ->
    fb32 23 (o_ofZ (@n_sgl NI) (Z.of_nat k)) (o_ofZ (@n_sgl NF) (Z.of_nat k))) by (intros; apply s_ofZ; lia).
  assert (H1 : fb32 23 (o_ofZ (@n_sgl NI) 1) (o_ofZ (@n_sgl NF) 1)) by (apply (H 1%nat); lia).
  assert (K : fb32 (24 - 0) (merge_k NI part m) (merge_k NF part m)).
  { unfold merge_k. apply s_div; [lia|apply (s_sub 23); auto; lia| |].
    - apply (s_sub 23); auto; lia.
    - cbn [numF opsF n_sgl o_sub o_ofZ]. rewrite !rnd32_id.
      + change (bpow radix2 0) with 1. rewrite <- minus_IZR, <- abs_IZR. apply IZR_le. lia.
      + apply F32_int; lia.
      + apply F32_int; lia.
      + rewrite !rnd32_id by (apply F32_int; lia). rewrite <- minus_IZR. apply F32_int. lia. }
  assert (L : fb32 47 (half NI) (half NF)).
  { apply fb_weaken with (j := (1 - 0)%Z); [lia|]. unfold half. apply s_div; [lia|apply s_ofZ; lia|apply (s_ofZ 2); lia|].
    cbn [numF opsF n_sgl o_ofZ]. rewrite rnd32_id by (apply F32_int; lia). cbn. rewrite Rabs_pos_eq; lra. }
  apply (s_mad (24 - 0) 23 47); auto; try lia.
Qed.

Lemma path_I : forall fuel m s r, (Z.of_nat m <= 4194304)%Z -> (s < m)%nat -> (m <= fuel)%nat ->
  path (merge_index NI) fuel m s r = path (merge_index NF) fuel m s r.
Proof.
  induction fuel as [|fu IH]; intros m s r Hm Hs Hf; [reflexivity|]. cbn [path].
  destruct (Nat.leb_spec m 1); auto. destruct (Nat.eqb_spec m 2); auto.
  pose proof (half_facts m ltac:(lia)) as Hh.
  rewrite !merge_index_I by lia.
  pose proof (good_index_float bld m ltac:(lia) ltac:(lia) s Hs) as (G1 & G2 & _).
  rewrite !IH by lia. reflexivity.
Qed.

(** ** prefix sums *)
Notation z0 := (S754_zero false).

Lemma pacc_I k (x : list spec_float) (y : list R) n : (-149 <= k <= 100)%Z -> (Z.of_nat n <= 4194304)%Z ->
  (forall i, (i < n)%nat -> fb32 k (nth i x z0) (nth i y 0)) ->
  fm 53 1024 k n (pacc NI z0 x 0 n) (pacc NF 0 y 0 n).
Proof.
  intros Hk. induction n as [|n IH]; intros Hn HX; cbn [pacc].
  - destruct (d_ofZ 0 0) as [F _]; [lia|lia|]. split; [exact F|].
    cbn [numF opsF n_dbl o_ofZ]. rewrite rnd64_id by apply generic_format_0. cbn. rewrite Rabs_R0. lra.
  - replace (S n) with (n + 1)%nat by lia. apply d_addm; [lia|lia|apply IH; [lia|intros; apply HX; lia]|].
    apply fb_fm. apply s_wide. cbn [Nat.add]. apply HX. lia.
Qed.

Lemma pval_I k (x : list spec_float) (y : list R) n j : (-149 <= k <= 100)%Z -> (Z.of_nat n <= 4194304)%Z ->
  (0 < n)%nat -> (forall i, (i < n)%nat -> fb32 k (nth i x z0) (nth i y 0)) -> (j < n + n)%nat ->
  fb32 (k + 23) (pval NI z0 x 0 n j) (pval NF 0 y 0 n j).
Proof.
  intros Hk Hn Hn0 HX Hj.
  assert (L : forall i, (i <= n)%nat -> fb32 (k + 22) (@n_narrow NI (pacc NI z0 x 0 i)) (@n_narrow NF (pacc NF 0 y 0 i))).
  { intros i Hi. apply d_narrow; [lia|]. apply fm_fb with (m := i); [lia|lia|]. apply pacc_I; auto; [lia|].
    intros; apply HX; lia. }
  unfold pval. destruct (Nat.ltb_spec j n) as [H|H].
  - apply fb_weaken with (j := (k + 22)%Z); [lia|]. apply L. lia.
  - replace (k + 23)%Z with ((k + 22) + 1)%Z by lia. apply s_add; [lia| |].
    + apply L. pose proof (Nat.mod_upper_bound j n ltac:(lia)). lia.
    + replace (k + 22)%Z with (0 + (k + 22))%Z by lia. apply s_mul; [lia| |apply L; lia].
      apply s_ofZ; [lia|]. assert (j / n < 2)%nat by (apply Nat.div_lt_upper_bound; lia). lia.
Qed.

Lemma for_sim {A B} (Q : A -> B -> Prop) (f : nat -> A -> res A) (g : nat -> B -> res B) :
  forall n lo s t, Q s t ->
  (forall i s t, (lo <= i < lo + n)%nat -> Q s t -> exists s' t', f i s = Ok s' /\ g i t = Ok t' /\ Q s' t') ->
  exists s' t', for_ n lo f s = Ok s' /\ for_ n lo g t = Ok t' /\ Q s' t'.
Proof.
  induction n as [|n IH]; intros lo s t HQ HS; cbn [for_]; [eauto 6|].
  destruct (HS lo s t ltac:(lia) HQ) as (s1 & t1 & E1 & E2 & Q1). rewrite E1, E2. cbn [bind].
  apply IH; auto. intros. apply HS; auto. lia.
Qed.

Lemma max_I k s t d d' : fb32 k s t -> fb32 k d d' ->
  fb32 k (if @n_ltb NI s d then d else s) (if @n_ltb NF t d' then d' else t).
Proof.
  intros HQ D. cbn [numI numF n_ltb]. rewrite (fl_ltb _ _ _ _ (fl32_64 _ _ (proj1 HQ)) (fl32_64 _ _ (proj1 D))).
  destruct (Rlt_bool _ _); auto.
Qed.

Lemma diff_max_I k (c : list spec_float) (c' : list R) w n : (-149 <= k <= 126)%Z -> (0 < n)%nat ->
  (w + n <= length c)%nat -> (w + n <= length c')%nat ->
  (forall j, (j < w + n)%nat -> fb32 k (nth j c z0) (nth j c' 0)) ->
  exists v v', diff_max NI c w 0 n = Ok v /\ diff_max NF c' w 0 n = Ok v' /\ fb32 (k + 1) v v'.
Proof.
  intros Hk Hn Hl Hl' HV. unfold diff_max. change (n_T NI) with spec_float. change (n_T NF) with R.
  rewrite (rd_nth c w z0), (rd_nth c 0 z0), (rd_nth c' w 0), (rd_nth c' 0 0) by lia. cbn [bind].
  apply for_sim.
  - apply s_sub; auto; apply HV; lia.
  - intros i s t Hi HQ.
    rewrite (rd_nth c (w + i) z0), (rd_nth c (0 + i) z0), (rd_nth c' (w + i) 0), (rd_nth c' (0 + i) 0) by lia.
    cbn [bind].
    assert (D : fb32 (k + 1) (o_sub (@n_sgl NI) (nth (w + i) c z0) (nth (0 + i) c z0))
      (o_sub (@n_sgl NF) (nth (w + i) c' 0) (nth (0 + i) c' 0))) by (apply s_sub; auto; apply HV; lia).
    do 2 eexists. split; [reflexivity|]. split; [reflexivity|].
    now apply max_I.
Qed.

(** ** the S/N *)
Lemma bhb_le1 n w : (0 < w < n)%nat -> bh n w <= 1 /\ bb n w <= 1.
Proof.
  intros Hw. destruct (bh_facts n w Hw) as (B1 & B2 & B3 & B4 & Hn' & W1 & W2).
  assert (1 <= INR w) by (apply (le_INR 1); lia). assert (1 <= INR (n - w)) by (apply (le_INR 1); lia).
  pose proof (pow2_ge_0 (bh n w)). pose proof (pow2_ge_0 (bb n w)).
  assert (bh n w ^ 2 <= INR w * bh n w ^ 2) by nra. assert (bb n w ^ 2 <= INR (n - w) * bb n w ^ 2) by nra.
  split; apply Rnot_lt_le; intros L; nra.
Qed.

Lemma height_I (y : list R) w : let n := length y in (Z.of_nat n <= 4194304)%Z -> (0 < w < n)%nat ->
  fb32 1 (boxcar_height NI n w) (boxcar_height NF n w).
Proof.
  intros n Hn Hw. destruct (height_app bld y Hn w Hw) as [_ [A1 A2]]. fold n in A1, A2.
  destruct (bh_facts n w Hw) as (B1 & B2 & B3 & B4 & Hn' & W1 & W2).
  split.
  - unfold boxcar_height. rewrite !size_sub_le by lia.
    assert (P : 1 <= rnd32 (IZR (Z.of_nat (n * w)))).
    { rewrite <- (rnd32_id 1) by (apply (F32_int 1); lia). apply round_le; try typeclasses eauto. apply IZR_le. nia. }
    assert (D : fb32 (22 - 0) (o_div (@n_sgl NI) (o_ofZ (@n_sgl NI) (Z.of_nat (n - w))) (o_ofZ (@n_sgl NI) (Z.of_nat (n * w))))
       (o_div (@n_sgl NF) (o_ofZ (@n_sgl NF) (Z.of_nat (n - w))) (o_ofZ (@n_sgl NF) (Z.of_nat (n * w))))).
    { apply s_div; [lia|apply s_ofZ; lia|apply (s_ofZ 44); nia|].
      cbn [numF opsF n_sgl o_ofZ]. change (bpow radix2 0) with 1. rewrite Rabs_pos_eq; lra. }
    apply (fl_sqrt 24 128 p24 e128 inc32); [apply D|].
    cbn [numF opsF n_sgl o_ofZ o_div]. rewrite <- (rnd32_id 0) by apply generic_format_0.
    apply round_le; try typeclasses eauto. apply Rmult_le_pos; [|left; apply Rinv_0_lt_compat; lra].
    rewrite <- (rnd32_id 0) by apply generic_format_0. apply round_le; try typeclasses eauto. apply IZR_le. lia.
  - assert (bh n w <= 1) by (destruct (bhb_le1 n w Hw); auto).
    apply Rle_trans with (1 := app_size _ _ _ _ _ (conj A1 A2)). change (bpow radix2 1) with 2. unfold u32. lra.
Qed.

Lemma base_I (y : list R) w : let n := length y in (Z.of_nat n <= 4194304)%Z -> (0 < w < n)%nat ->
  fb32 1 (boxcar_base NI n w (boxcar_height NI n w)) (boxcar_base NF n w (boxcar_height NF n w)).
Proof.
  intros n Hn Hw. destruct (base_app bld y Hn w Hw) as [_ A]. fold n in A.
  split.
  - unfold boxcar_base. rewrite !size_sub_le by lia.
    apply (s_mul (22 - 0) 1); [lia| |now apply height_I].
    apply s_div; [lia|apply s_ofZ; lia|apply (s_ofZ 22); lia|].
    cbn [numF opsF n_sgl o_ofZ]. rewrite rnd32_id by (apply F32_int; lia). change (bpow radix2 0) with 1.
    rewrite <- abs_IZR. apply IZR_le. lia.
  - assert (bb n w <= 1) by (destruct (bhb_le1 n w Hw); auto).
    apply Rle_trans with (1 := app_size _ _ _ _ _ A). change (bpow radix2 1) with 2. unfold u32. lra.
Qed.

Lemma snr_value_I k (x : list spec_float) (y : list R) sd sd' w v v' : let n := length y in
  (0 <= k <= 95)%Z -> (Z.of_nat n <= 4194304)%Z -> (0 < w < n)%nat ->
  (forall i, (i < n)%nat -> fb32 k (nth i x z0) (nth i y 0)) ->
  fl32 sd sd' -> / 4 <= sd' -> fb32 (k + 24) v v' ->
  fb32 (k + 30) (snr_value NI z0 x n sd w v) (snr_value NF 0 y n sd' w v').
Proof.
  intros n Hk Hn Hw HX Hs Hs4 Hv. unfold snr_value.
  replace (k + 30)%Z with (k + 28 - (-2))%Z by lia. apply s_div; [lia| |auto|].
  2:{ change (bpow radix2 (-2)) with (/ 4). rewrite Rabs_pos_eq; lra. }
  apply fb_weaken with (j := (k + 26 + 1)%Z); [lia|].
  pose proof (height_I y w Hn Hw) as HH. pose proof (base_I y w Hn Hw) as HB. fold n in HH, HB.
  apply (s_mad 2 (k + 24)); [lia|lia| |auto|].
  - apply (s_add 1); auto. lia.
  - replace (k + 26)%Z with (k + 25 + 1)%Z by lia. apply s_sub; [lia| |].
    + apply s_ofZ; [lia|]. apply Z.pow_nonneg. lia.
    + apply fb_weaken with (j := (1 + (k + 23))%Z); [lia|]. apply s_mul; auto; [lia|].
      apply pval_I; auto; lia.
Qed.
End Ops.
