(** Downsampling in IEEE arithmetic. *)
From Coq Require Import List Arith ZArith Bool Lia Reals Lra SpecFloat.
From Flocq Require Import Core.
From Verif Require Import Base.Result Base.Buf Base.Num Model.Downsample
  Proof.Ieee Proof.KernelsIeee Proof.Index Proof.Downsample Proof.DownsampleFloat Proof.Rounding
  Proof.SumOrder Proof.SumIeee Spec.Noise Proof.SearchFloat.
Import ListNotations.
Local Open Scope R_scope.

(** output sample number [k] *)
Section Cell.
Context (N : num).
Notation ofnat k := (o_ofZ (@n_dbl N) (Z.of_nat k)).
Notation lit z := (o_ofZ (@n_dbl N) z).

Definition ds_cell (inp : list N) (size : nat) (f : N) (k : nat) : res N :=
  let start := o_mul n_dbl (ofnat k) f in
  let end_ := o_mad n_dbl (ofnat k) f f in
  let imin := Z.to_nat (n_floor start) in
  let imax := Z.to_nat (Z.min (n_floor end_) (n_floor (o_sub n_dbl (ofnat size) (lit 1)))) in
  let wmin := n_narrow (o_sub n_dbl (ofnat (imin + 1)) start) in
  let wmax := n_narrow (o_sub n_dbl end_ (ofnat imax)) in
  xmin <- rd inp imin ;;
  xs <- mapM (rd inp) (seq (imin + 1) (imax - (imin + 1))) ;;
  xmax <- rd inp imax ;;
  Ok (o_sum n_sgl k (Prod wmin xmin :: map Val xs ++ [Prod wmax xmax])).

Lemma bind_assoc {A B C} (r : res A) (f : A -> res B) (g : B -> res C) :
  bind (bind r f) g = bind r (fun x => bind (f x) g).
Proof. now destruct r. Qed.

Lemma downsample_cells (inp : list N) size f out :
  valid_factor N size f = true -> (downsampled_size N size f <= length out)%nat ->
  (forall k, (k < downsampled_size N size f)%nat -> exists v, ds_cell inp size f k = Ok v) ->
  exists out', downsample N inp size f out = Ok out' /\ length out' = length out /\
    forall k, (k < downsampled_size N size f)%nat -> exists v, ds_cell inp size f k = Ok v /\ nth_error out' k = Some v.
Proof.
  intros HV Ho HC. unfold downsample. rewrite HV. cbn [guard bind].
  set (n := downsampled_size N size f) in *.
  match goal with |- context [for_ n 0 ?b out] =>
    assert (EB : forall k o, b k o = (v <- ds_cell inp size f k ;; wr o k v)) end.
  { intros k o. unfold ds_cell. cbv zeta. destruct (rd inp _) as [xm| | |]; cbn [bind]; auto.
    destruct (mapM _ _) as [ac| | |]; cbn [bind]; auto.
    destruct (rd inp _) as [xx| | |]; cbn [bind]; auto. }
  match goal with |- context [for_ n 0 ?b out] =>
    destruct (for_inv (fun i (o : list N) => length o = length out /\
      forall k, (k < i)%nat -> exists v, ds_cell inp size f k = Ok v /\ nth_error o k = Some v) b n 0%nat out)
      as (o & E & L & V) end.
  - split; auto. intros; lia.
  - intros i o Hi [L V]. cbn [Nat.add] in Hi. rewrite EB. destruct (HC i ltac:(lia)) as (v & Ev).
    rewrite Ev. cbn [bind]. rewrite wr_ok by lia. eexists; split; [reflexivity|].
    split; [now rewrite upd_length|]. intros k Hk. destruct (Nat.eq_dec k i) as [->|Hne].
    + exists v. split; auto. apply upd_same. lia.
    + rewrite upd_other by lia. apply V. lia.
  - exists o. split; [exact E|]. split; auto.
Qed.

Lemma downsample_inv (inp : list N) size f out out' :
  downsample N inp size f out = Ok out' -> (downsampled_size N size f <= length out)%nat ->
  (forall k, (k < downsampled_size N size f)%nat -> exists v, ds_cell inp size f k = Ok v) ->
  valid_factor N size f = true ->
  forall k, (k < downsampled_size N size f)%nat -> exists v, ds_cell inp size f k = Ok v /\ nth_error out' k = Some v.
Proof.
  intros E Ho HC HV. destruct (downsample_cells inp size f out HV Ho HC) as (o & E' & _ & V).
  rewrite E in E'. injection E' as <-. exact V.
Qed.
End Cell.

Section Sim.
Context (bld : build).
Notation NI := (numI bld).
Notation NF := (numF bld).
Notation z0 := (S754_zero false).

Lemma size_I size x f : (Z.of_nat size <= 33554432)%Z -> fl64 x f -> 1 <= f ->
  downsampled_size NI size x = downsampled_size NF size f.
Proof.
  intros Hs Hx Hf. unfold downsampled_size. f_equal. apply fl_floor.
  apply (d_div bld 25 0); [lia|apply d_ofZ; lia|auto|]. cbn. rewrite Rabs_pos_eq; lra.
Qed.

Lemma valid_I size x f : (Z.of_nat size <= 33554432)%Z -> fl64 x f ->
  valid_factor NI size x = valid_factor NF size f.
Proof.
  intros Hs Hx. unfold valid_factor. f_equal.
  - apply fl_ltb; auto. apply (d_ofZ bld 0); lia.
  - apply fl_leb; auto. apply (d_ofZ bld 25); lia.
Qed.

Lemma cell_I (data : list spec_float) (y : list R) x f k : let size := length y in
  (Z.of_nat size <= 33554432)%Z -> fl64 x f -> 1 < f <= INR size -> length data = size ->
  (forall i, (i < size)%nat -> fb32 40 (nth i data z0) (nth i y 0)) ->
  (k < downsampled_size NF size f)%nat ->
  exists v v', ds_cell NI data size x k = Ok v /\ ds_cell NF y size f k = Ok v' /\ fb32 70 v v'.
Proof.
  intros size Hs Hx Hf HL HD Hk.
  destruct (size_F bld size f Hs ltac:(apply Hx) Hf) as (S1 & S2 & S3).
  set (n := downsampled_size NF size f) in *.
  assert (NR : 1 < INR size <= 33554432).
  { split; [lra|]. rewrite INR_IZR_INZ. apply (IZR_le _ 33554432). lia. }
  assert (Hk1 : INR k + 1 <= INR n) by (rewrite <- S_INR; apply le_INR; lia).
  pose proof (pos_INR k) as Hk0.
  assert (KF : (INR k + 1) * f <= INR size + / 4).
  { apply Rle_trans with (INR n * f); [apply Rmult_le_compat_r; lra|]. unfold u64 in S1. lra. }
  assert (Hf25 : fb64 25 x f).
  { split; auto. rewrite Rabs_pos_eq by lra. change (bpow radix2 25) with 33554432. lra. }
  assert (K : forall j : nat, (Z.of_nat j <= 33554432)%Z -> fb64 25 (o_ofZ (@n_dbl NI) (Z.of_nat j)) (o_ofZ (@n_dbl NF) (Z.of_nat j)))
    by (intros; apply d_ofZ; lia).
  assert (FN : forall j : nat, (Z.of_nat j <= 67108864)%Z -> o_ofZ (@n_dbl NF) (Z.of_nat j) = INR j).
  { intros j Hj. cbn [numF opsF n_dbl o_ofZ]. rewrite <- INR_IZR_INZ. apply rnd64_id. rewrite INR_IZR_INZ. apply F64_int. lia. }
  (* start and end *)
  pose proof (d_mul bld 25 25 _ _ _ _ ltac:(lia) (K k ltac:(lia)) Hf25) as HS.
  pose proof (d_mad bld 25 25 50 _ _ _ _ _ _ ltac:(lia) ltac:(lia) (K k ltac:(lia)) Hf25 (fb_weaken 53 1024 25 50 _ _ ltac:(lia) Hf25)) as HE.
  unfold ds_cell.
  set (st := o_mul (@n_dbl NI) _ x) in *. set (st' := o_mul (@n_dbl NF) _ f) in *.
  set (en := o_mad (@n_dbl NI) _ x x) in *. set (en' := o_mad (@n_dbl NF) _ f f) in *.
  assert (Est : st' = rnd64 (INR k * f)) by (unfold st'; rewrite FN by lia; reflexivity).
  assert (Een : en' = if b_fma bld then rnd64 (INR k * f + f) else rnd64 (rnd64 (INR k * f) + f))
    by (unfold en'; rewrite FN by lia; reflexivity).
  assert (F1 : F64 (INR size + 1)) by (rewrite <- S_INR, INR_IZR_INZ; apply F64_int; lia).
  assert (KF0 : 0 <= INR k * f) by (apply Rmult_le_pos; lra).
  assert (St0 : 0 <= st').
  { rewrite Est. rewrite <- (rnd64_id 0) by apply generic_format_0. now apply rnd64_le. }
  assert (Rk : rnd64 (INR k * f) <= INR k * f + / 4).
  { destruct (Rle_lt_dec 1 (INR k * f)) as [H1|H1].
    - pose proof (rnd64_rel_up _ H1). unfold u64 in *. lra.
    - destruct k as [|k']; [cbn [INR]; rewrite Rmult_0_l, rnd64_id by apply generic_format_0; lra|].
      exfalso. rewrite S_INR in H1. pose proof (pos_INR k'). nra. }
  assert (En1 : en' <= INR size + 1).
  { rewrite Een. rewrite <- (rnd64_id _ F1). destruct (b_fma bld); apply rnd64_le; lra. }
  assert (En0 : st' <= en').
  { rewrite Een, Est. destruct (b_fma bld); [apply rnd64_le; lra|].
    rewrite <- (rnd64_id (rnd64 (INR k * f))) at 1 by (apply generic_format_round; typeclasses eauto).
    apply rnd64_le. lra. }
  (* indices *)
  cbn [numI n_floor]. rewrite (fl_floor st st') by apply HS. rewrite (fl_floor en en') by apply HE.
  assert (HN1 : fb64 26 (o_sub (@n_dbl NI) (o_ofZ (@n_dbl NI) (Z.of_nat size)) (o_ofZ (@n_dbl NI) 1))
    (o_sub (@n_dbl NF) (o_ofZ (@n_dbl NF) (Z.of_nat size)) (o_ofZ (@n_dbl NF) 1))).
  { apply (d_sub bld 25); [lia|apply K; lia|apply (K 1%nat); lia]. }
  change (o_sub (opsI 53 1024 bld)) with (o_sub (@n_dbl NI)).
  rewrite (fl_floor _ _ (proj1 HN1)).
  assert (EN1 : o_sub (@n_dbl NF) (o_ofZ (@n_dbl NF) (Z.of_nat size)) (o_ofZ (@n_dbl NF) 1) = INR (size - 1)).
  { rewrite FN by lia. change 1%Z with (Z.of_nat 1). rewrite FN by lia. cbn [numF opsF n_dbl o_sub].
    rewrite <- minus_INR by lia. apply rnd64_id. rewrite INR_IZR_INZ. apply F64_int. lia. }
  rewrite EN1. change (@n_floor NF) with Zfloor. rewrite (INR_IZR_INZ (size - 1)), Zfloor_IZR.
  destruct (to_nat_floor_bounds st' St0) as [I1 I2].
  assert (E00 : 0 <= en') by lra. destruct (to_nat_floor_bounds en' E00) as [I3 I4].
  set (imin := Z.to_nat (Zfloor st')) in *.
  assert (Emax : Z.to_nat (Z.min (Zfloor en') (Z.of_nat (size - 1))) = Nat.min (Z.to_nat (Zfloor en')) (size - 1)).
  { rewrite Z2Nat.inj_min, Nat2Z.id. reflexivity. }
  rewrite Emax. set (imax := Nat.min (Z.to_nat (Zfloor en')) (size - 1)).
  assert (Hmin : (imin < size)%nat).
  { apply INR_lt. rewrite Est in I1. lra. }
  assert (Hs1 : (1 < size)%nat) by (apply (INR_lt 1); cbn; lra).
  assert (Hmax : (imax < size)%nat) by (unfold imax; lia).
  assert (W1 : fb64 0 (o_sub (@n_dbl NI) (o_ofZ (@n_dbl NI) (Z.of_nat (imin + 1))) st)
    (o_sub (@n_dbl NF) (o_ofZ (@n_dbl NF) (Z.of_nat (imin + 1))) st')).
  { split.
    - apply (d_sub bld 50); [lia| |exact HS]. apply fb_weaken with (j := 25%Z); [lia|]. apply K. lia.
    - rewrite FN by lia. cbn [numF opsF n_dbl o_sub]. apply (rndf_bpow 53 1024 p53); [lia|].
      rewrite plus_INR. cbn [INR]. change (bpow radix2 0) with 1. rewrite Rabs_pos_eq; lra. }
  assert (W2 : fb64 1 (o_sub (@n_dbl NI) en (o_ofZ (@n_dbl NI) (Z.of_nat imax)))
    (o_sub (@n_dbl NF) en' (o_ofZ (@n_dbl NF) (Z.of_nat imax)))).
  { split.
    - apply (d_sub bld 51); [lia|exact HE|]. apply fb_weaken with (j := 25%Z); [lia|]. apply K. lia.
    - rewrite FN by lia. cbn [numF opsF n_dbl o_sub]. apply (rndf_bpow 53 1024 p53); [lia|].
      change (bpow radix2 1) with 2.
      assert (INR imax <= en' <= INR imax + 2); [|rewrite Rabs_pos_eq; lra].
      unfold imax. destruct (Nat.min_spec (Z.to_nat (Zfloor en')) (size - 1)) as [[Hm ->]|[Hm ->]]; [lra|].
      apply le_INR in Hm. rewrite minus_INR in * by lia. cbn [INR] in *. lra. }
  apply (d_narrow bld) in W1; [|lia]. apply (d_narrow bld) in W2; [|lia].
  change (n_T NI) with spec_float. change (n_T NF) with R.
  rewrite (rd_nth data imin z0), (rd_nth y imin 0) by (unfold size in *; lia). cbn [bind].
  rewrite (rd_range data z0), (rd_range y 0) by (unfold size in *; lia). cbn [bind].
  rewrite (rd_nth data imax z0), (rd_nth y imax 0) by (unfold size in *; lia). cbn [bind].
  do 2 eexists. split; [reflexivity|]. split; [reflexivity|].
  apply (s_sum bld 41).
  - lia.
  - constructor; [exists 1%Z, 40%Z; split; [lia|]; split; [apply fb_weaken with (j := 0%Z); [lia|exact W1]|now apply HD]|].
    apply Forall2_app; [|constructor; [|constructor]; exists 1%Z, 40%Z; split; [lia|]; split; [exact W2|now apply HD]].
    assert (G : forall l, (forall i, In i l -> (i < size)%nat) ->
      Forall2 (term_I 41) (map Val (map (fun i => nth i data z0) l)) (map Val (map (fun i => nth i y 0) l))).
    { induction l as [|i l IH]; intros H; cbn [map]; constructor; auto.
      - cbn [term_I]. apply fb_weaken with (j := 40%Z); [lia|]. apply HD, H. now left.
      - apply IH. intros. apply H. now right. }
    apply G. intros i Hi. apply in_seq in Hi. lia.
  - cbn [length]. rewrite app_length, !map_length, seq_length. cbn [length]. lia.
Qed.

(** noise *)
Lemma variance_I size x f : (Z.of_nat size <= 33554432)%Z -> fl64 x f -> 1 <= f <= INR size ->
  (Z.of_nat (downsampled_size NF size f) <= 33554432)%Z ->
  fb64 107 (downsampled_variance NI size x) (downsampled_variance NF size f).
Proof.
  intros Hs Hx Hf Hn.
  assert (NR : INR size <= 33554432) by (rewrite INR_IZR_INZ; apply (IZR_le _ 33554432); lia).
  assert (Hf25 : fb64 25 x f).
  { split; auto. rewrite Rabs_pos_eq by lra. change (bpow radix2 25) with 33554432. lra. }
  unfold downsampled_variance. rewrite (size_I size x f) by (auto; lra).
  change (@n_floor NI) with sf_floor. change (@n_floor NF) with Zfloor. rewrite (fl_floor x f Hx).
  set (n := downsampled_size NF size f) in *. set (k := Zfloor f).
  assert (Hk : (0 <= k <= 33554432)%Z).
  { split; [apply Zfloor_lub; lra|]. apply le_IZR. eapply Rle_trans; [apply Zfloor_lb|]. lra. }
  assert (HK : fb64 25 (o_ofZ (@n_dbl NI) k) (o_ofZ (@n_dbl NF) k)) by (apply d_ofZ; lia).
  pose proof (d_sub bld 25 _ _ _ _ ltac:(lia) Hf25 HK) as HR.
  assert (HN : fb64 25 (o_ofZ (@n_dbl NI) (Z.of_nat n)) (o_ofZ (@n_dbl NF) (Z.of_nat n))) by (apply d_ofZ; lia).
  pose proof (d_mul bld 25 26 _ _ _ _ ltac:(lia) HN HR) as HX.
  assert (L : forall z, (0 <= z <= 4)%Z -> fb64 2 (o_ofZ (@n_dbl NI) z) (o_ofZ (@n_dbl NF) z)) by (intros; apply d_ofZ; lia).
  assert (T3 : 1 <= Rabs (o_ofZ (@n_dbl NF) 3)).
  { cbn [numF opsF n_dbl o_ofZ]. rewrite rnd64_id by (apply (F64_int 3); lia). rewrite Rabs_pos_eq; lra. }
  assert (H1 : fb64 2 (o_div (@n_dbl NI) (o_ofZ (@n_dbl NI) 1) (o_ofZ (@n_dbl NI) 3))
     (o_div (@n_dbl NF) (o_ofZ (@n_dbl NF) 1) (o_ofZ (@n_dbl NF) 3))).
  { apply (d_div bld 2 0); [lia|apply L; lia|apply L; lia|exact T3]. }
  assert (H2 : fb64 2 (o_div (@n_dbl NI) (o_ofZ (@n_dbl NI) 2) (o_ofZ (@n_dbl NI) 3))
     (o_div (@n_dbl NF) (o_ofZ (@n_dbl NF) 2) (o_ofZ (@n_dbl NF) 3))).
  { apply (d_div bld 2 0); [lia|apply L; lia|apply L; lia|exact T3]. }
  set (xx := o_mul (@n_dbl NI) (o_ofZ (@n_dbl NI) (Z.of_nat n)) _) in *.
  set (xx' := o_mul (@n_dbl NF) (o_ofZ (@n_dbl NF) (Z.of_nat n)) _) in *.
  change (@n_ltb NI) with SFltb. rewrite (fl_ltb _ _ _ _ (proj1 (L 1%Z ltac:(lia))) (proj1 HX)).
  change (@n_ltb NF) with Rlt_bool. destruct (Rlt_bool _ xx').
  - apply fb_weaken with (j := 26%Z); [lia|]. apply (d_sub bld 25); auto; [lia|].
    apply fb_weaken with (j := 2%Z); [lia|auto].
  - assert (HM : fb64 26 (o_sub (@n_dbl NI) (o_ofZ (@n_dbl NI) k) (o_ofZ (@n_dbl NI) 1))
      (o_sub (@n_dbl NF) (o_ofZ (@n_dbl NF) k) (o_ofZ (@n_dbl NF) 1))).
    { apply (d_sub bld 25); auto; [lia|]. apply fb_weaken with (j := 2%Z); [lia|apply L; lia]. }
    apply (d_add bld 106); [lia| |apply fb_weaken with (j := 2%Z); [lia|apply L; lia]].
    apply (d_sub bld 105); [lia| |apply fb_weaken with (j := (25 + 26)%Z); [lia|exact HX]].
    apply (d_mad bld 2 102 104); [lia|lia|exact H2|apply (d_mul bld 51 51); auto; lia|].
    apply fb_weaken with (j := (26 + 26)%Z); [lia|]. apply d_mul; auto; lia.
Qed.

Lemma variance_pos size f : (Z.of_nat size <= 33554432)%Z -> F64 f -> 1 <= f <= INR size ->
  0 <= downsampled_variance NF size f.
Proof.
  intros Hs Ff Hf. destruct (variance_F bld size f Hs Ff Hf) as (V & HV & E).
  pose proof (noise_variance_low _ _ _ (proj1 Hf) HV). apply Rabs_le_inv in E. unfold u64 in E. lra.
Qed.

Lemma sd_I size rows x f : (Z.of_nat size <= 33554432)%Z -> fl64 x f -> 1 <= f <= INR size ->
  (Z.of_nat (downsampled_size NF size f) <= 33554432)%Z -> (1 <= rows <= size)%nat ->
  let sd := fun (N : num) (f : N) => @n_narrow N (o_sqrt n_dbl (o_mul n_dbl (o_ofZ n_dbl (Z.of_nat rows)) (downsampled_variance N size f))) in
  fl32 (sd NI x) (sd NF f) /\ / 4 <= sd NF f.
Proof.
  intros Hs Hx Hf Hn Hr sd. pose proof (variance_I size x f Hs Hx Hf Hn) as HV.
  assert (Ff : F64 f) by apply Hx.
  pose proof (variance_pos size f Hs Ff Hf) as V0.
  assert (Er : o_ofZ (@n_dbl NF) (Z.of_nat rows) = INR rows).
  { cbn [numF opsF n_dbl o_ofZ]. rewrite <- INR_IZR_INZ. apply rnd64_id. rewrite INR_IZR_INZ. apply F64_int. lia. }
  split.
  - unfold sd. assert (HM : fb64 (25 + 107) (o_mul (@n_dbl NI) (o_ofZ (@n_dbl NI) (Z.of_nat rows)) (downsampled_variance NI size x))
       (o_mul (@n_dbl NF) (o_ofZ (@n_dbl NF) (Z.of_nat rows)) (downsampled_variance NF size f))).
    { apply d_mul; auto; [lia|]. apply d_ofZ; lia. }
    apply (d_narrow bld 66); [lia|]. split.
    + apply (fl_sqrt 53 1024 p53 e1024 inc64); [apply HM|]. rewrite Er. cbn [numF opsF n_dbl o_mul].
      rewrite <- (rnd64_id 0) by apply generic_format_0. apply rnd64_le. apply Rmult_le_pos; auto. apply pos_INR.
    + destruct HM as [_ HM]. cbn [numF opsF n_dbl o_sqrt] in *. apply (rndf_bpow 53 1024 p53); [lia|].
      rewrite Rabs_pos_eq by apply sqrt_pos. rewrite <- (sqrt_square (bpow radix2 66)) by apply bpow_ge_0.
      apply sqrt_le_1_alt. rewrite <- bpow_plus. eapply Rle_trans; [apply Rle_abs|exact HM].
  - destruct (noise_F bld size rows f Hs Ff Hf) as (V & HV' & EV); [lia|lia|].
    unfold sd. rewrite Er. cbn [numF opsF n_dbl n_narrow o_sqrt o_mul].
    pose proof (noise_variance_low _ _ _ (proj1 Hf) HV') as VL.
    assert (SL : / 2 <= R_sqrt.sqrt (INR rows * V)).
    { rewrite <- (sqrt_square (/ 2)) by lra. apply sqrt_le_1_alt.
      assert (1 <= INR rows) by (apply (le_INR 1); lia).
      apply Rle_trans with (1 * (5 / 8)); [lra|]. apply Rmult_le_compat; lra. }
    apply Rabs_le_inv in EV. unfold u32 in EV. lra.
Qed.
End Sim.
