(** NaNs spread through the search. *)
From Coq Require Import List Arith ZArith Bool Lia Reals SpecFloat.
From Verif Require Import Base.Result Base.Buf Base.Num Model.Kernels Model.Transforms
  Model.Downsample Model.Snr Model.Periodogram Spec.FfaSpec Proof.Transforms Proof.DownsampleIeee
  Proof.SnrFloat Proof.Periodogram Proof.Ieee Proof.SumOrder Proof.KernelsIeee Proof.SearchIeee Proof.Rounding Proof.Downsample
  Props.Snr Props.Downsample Props.PeriodogramFloat Props.PeriodogramRounding Props.PeriodogramIeee.
From Flocq Require Import Core.
Import ListNotations.
Local Open Scope nat_scope.

Section Nan.
Context (bld : build).
Notation NI := (numI bld).
Notation nan := S754_nan.
Notation z0 := (S754_zero false).

Lemma sf_nan_r p e x : SFadd p e x nan = nan. Proof. now destruct x. Qed.
Lemma sf_mul_nan p e x : SFmul p e x nan = nan. Proof. now destruct x. Qed.

Lemma s_add_nan (x : spec_float) : o_add (@n_sgl NI) nan x = nan. Proof. reflexivity. Qed.
Lemma s_add_nan_r (x : spec_float) : o_add (@n_sgl NI) x nan = nan.
Proof. cbn. now rewrite sf_nan_r. Qed.
Lemma d_add_nan_r (x : spec_float) : o_add (@n_dbl NI) x nan = nan.
Proof. cbn. now rewrite sf_nan_r. Qed.
Lemma s_mul_nan (x : spec_float) : o_mul (@n_sgl NI) x nan = nan.
Proof. cbn. now rewrite sf_mul_nan. Qed.
Lemma s_sub_nan (x : spec_float) : o_sub (@n_sgl NI) x nan = nan.
Proof. cbn. now destruct (sf_round 24 128 x). Qed.
Lemma s_mad_nan (x y : spec_float) : o_mad (@n_sgl NI) x y nan = nan.
Proof.
  cbn [numI n_sgl opsI o_mad]. change (sf_round 24 128 nan) with nan.
  destruct (b_fma bld); [|now rewrite sf_nan_r].
  destruct (sf_round 24 128 x), (sf_round 24 128 y); cbn [sf_fma]; now rewrite ?sf_nan_r.
Qed.
Lemma s_div_nan (x : spec_float) : o_div (@n_sgl NI) nan x = nan. Proof. reflexivity. Qed.
Lemma narrow_nan : @n_narrow NI nan = nan. Proof. reflexivity. Qed.

(** sums, in any order *)
Definition nan_term (t : term spec_float) : Prop := match t with Val x => x = nan | Prod _ x => x = nan end.

Lemma s_sum_nan k (l : list (term spec_float)) : l <> [] -> (forall t, In t l -> nan_term t) ->
  o_sum (@n_sgl NI) k l = nan.
Proof.
  intros Hl. apply (sum_in_order_ind (T := spec_float)) with (bld := bld)
    (P := fun l s => (forall t, In t l -> nan_term t) -> s = nan); auto.
  - intros t H. specialize (H t (or_introl eq_refl)). destruct t as [x|w x]; cbn [term_val nan_term] in *; subst x; auto.
    apply (s_mul_nan w).
  - intros tl x y r fuse v _ HP IH H. apply IH. intros t [<-|Ht]; [|apply H; rewrite HP; right; now right].
    assert (Hy : nan_term y) by (apply H; rewrite HP; right; now left).
    cbn [nan_term]. destruct y as [y|w y]; cbn [add_terms nan_term] in *; subst y.
    + apply s_add_nan_r.
    + destruct fuse.
      * change (sf_round 24 128 nan) with nan.
        assert (forall a b, sf_fma 24 128 a nan b = nan) as -> by (intros [| | |] b; reflexivity). reflexivity.
      * change (o_add (@n_sgl NI) (term_val (o_mul (@n_sgl NI)) x) (o_mul (@n_sgl NI) w nan) = nan).
        now rewrite s_mul_nan, s_add_nan_r.
Qed.

(** one sample of the downsampled data *)
Lemma cell_nan (data data' : list spec_float) size x k v : ds_cell NI data size x k = Ok v ->
  length data' = length data -> (forall i, i < length data' -> nth i data' z0 = nan) ->
  ds_cell NI data' size x k = Ok nan.
Proof.
  intros E HL HN. unfold ds_cell in *. change (n_T NI) with spec_float in *.
  set (imin := Z.to_nat (n_floor _)) in *. set (imax := Z.to_nat (Z.min _ _)) in *.
  assert (RD : forall i, i < length data' -> rd data' i = Ok nan).
  { intros i Hi. rewrite <- (HN i Hi). now apply rd_nth. }
  destruct (rd data imin) as [a| | |] eqn:E1; try discriminate. cbn [bind] in E.
  assert (Hi : imin < length data').
  { rewrite HL. apply nth_error_Some. unfold rd in E1. destruct (nth_error data imin); congruence. }
  match type of E with bind ?l _ = _ => destruct l as [b| | |] eqn:E2; try discriminate end. cbn [bind] in E.
  destruct (rd data imax) as [c| | |] eqn:E3; try discriminate.
  assert (Hx : imax < length data').
  { rewrite HL. apply nth_error_Some. unfold rd in E3. destruct (nth_error data imax); congruence. }
  assert (E4 : exists xs, mapM (rd data') (seq (imin + 1) (imax - (imin + 1))) = Ok xs /\ forall v, In v xs -> v = nan).
  { assert (G : forall l, (forall i, In i l -> i < length data') -> exists xs, mapM (rd data') l = Ok xs /\ forall v, In v xs -> v = nan).
    { induction l as [|i l IH]; intros H; [now exists []|]. destruct IH as (xs & Ex & Hxs); [intros; apply H; now right|].
      exists (nan :: xs). cbn [mapM]. rewrite RD by (apply H; now left). cbn [bind]. rewrite Ex. cbn [bind]. split; auto.
      intros v' [<-|Hv]; auto. }
    apply G. intros i Hin. apply in_seq in Hin. lia. }
  destruct E4 as (xs & E4 & Hxs).
  rewrite (RD _ Hi), E4, (RD _ Hx). cbn [bind]. f_equal. apply s_sum_nan; [discriminate|].
  intros t [<-|Ht]; [cbn; auto|]. apply in_app_or in Ht as [Ht|[<-|[]]]; [|cbn; auto].
  apply in_map_iff in Ht as (u & <- & Hu). cbn. auto.
Qed.

Lemma teval_nan (g : nat -> spec_float) t : (forall r, In r (leaves t) -> g r = nan) ->
  teval (o_add (@n_sgl NI)) g t = nan.
Proof.
  induction t as [i|l IHl r IHr]; intros H; cbn [teval].
  - apply H. cbn. auto.
  - rewrite IHl, IHr; auto; intros; apply H; cbn; apply in_or_app; auto.
Qed.

Lemma sn_nan ws p k sd v : p <> [] -> (forall j, j < length p -> nth j p z0 = nan) ->
  sn_run NI z0 ws p k sd v -> v = nan.
Proof.
  intros Hp HN (c & dmax & _ & _ & _ & ->). unfold snr_value, pval. change (n_T NI) with spec_float in *.
  assert (L : 0 < length p) by (destruct p; [congruence|cbn; lia]).
  destruct (Nat.ltb_spec (length p - 1) (length p)); [|lia].
  cbn [pacc].
  rewrite Nat.add_0_l, HN by lia. rewrite d_add_nan_r, narrow_nan, s_mul_nan, s_sub_nan, s_mad_nan. reflexivity.
Qed.
End Nan.

(** ** the search on a series of NaNs *)
Section Sim.
Context (bld : build) (flog : R -> R) (fpow : R -> nat -> R).
Context (flogI : spec_float -> spec_float) (fpowI : spec_float -> nat -> spec_float).
Context (size : nat) (tsamp pmin pmax : R) (bmin bmax : nat) (tsI pminI pmaxI : spec_float).
Notation NF := (numF bld).
Notation NI := (numI bld).
Notation z0 := (S754_zero false).
Context (Hlog : good_log flog) (Hpow : good_pow fpow).
Context (HlogI : libm_log flogI flog) (HpowI : libm_pow fpowI fpow).
Context (Lts : fl64 tsI tsamp) (Lmin : fl64 pminI pmin) (Lmax : fl64 pmaxI pmax).
Context (Hsize : (Z.of_nat size <= 33554432)%Z) (Hbb : (Z.of_nat bmax <= 4194304)%Z).
Context (Hcheck : check_arguments NF tsamp pmin pmax bmin bmax = Ok tt).
Context (Hpt : (pmax / tsamp <= 2 ^ 63)%R) (Hpm : (pmax <= 2 ^ 900)%R).
Notation fits := (fits bld fpow size tsamp pmin bmin bmax).
Notation cyc := (pl_cyc NF flog pmin pmax bmin bmax).
Notation cycles := (pl_cycles NF flog pmin pmax bmin bmax).
Notation n_ := (pl_n NF fpow size tsamp pmin bmin bmax).
Notation total := (pl_total NF flog fpow size tsamp pmin pmax bmin bmax).
Context (Hcyc : (cyc < 2 ^ 64)%Z) (Hrows : (Z.of_nat (size / bmin) <= 4194304)%Z).
Context (HF : forall ids, (ids < cycles)%nat -> fits ids).
Context (ws : list nat) (Hws : ws <> []) (Hw : good_widths ws bmin).
Context (dI : list spec_float) (HdI : length dI = size).
Context (HN : forall i, i < size -> nth i dI z0 = S754_nan).
Notation zerosI := (repeat z0 size).
Notation zeros := (repeat 0%R size).

Lemma zero_data i : i < size -> fb32 40 (nth i zerosI z0) (nth i zeros 0%R).
Proof.
  intros Hi. rewrite !nth_repeat. split.
  - split; [reflexivity|]. split; [reflexivity|]. split; [reflexivity|]. split; [apply generic_format_0|].
    rewrite Rabs_R0. apply bpow_gt_0.
  - rewrite Rabs_R0. apply bpow_ge_0.
Qed.

Lemma ds_nan ids k : fits ids -> k < n_ ids ->
  ds_at NI z0 fpowI size tsI pminI bmin bmax dI ids k = Ok S754_nan.
Proof.
  intros Hf Hk.
  assert (E : exists v v', ds_at NI z0 fpowI size tsI pminI bmin bmax zerosI ids k = Ok v /\
    ds_at NF 0%R fpow size tsamp pmin bmin bmax zeros ids k = Ok v' /\ fb32 70 v v').
  { eapply ds_I with (pmax := pmax); eauto using repeat_length, zero_data. }
  destruct E as (v & v' & E & _).
  unfold ds_at in *. destruct (n_eqb _ _).
  - f_equal. apply HN. apply Nat.lt_le_trans with (1 := Hk). eapply n_leF with (pmax := pmax); eauto; try lia. apply Lts.
  - eapply cell_nan; eauto.
    + now rewrite repeat_length.
    + intros i Hi. apply HN. now rewrite <- HdI.
Qed.

Lemma profile_nan ids b s x : fits ids -> (bmin <= b)%nat -> (s < pl_rows NF fpow size tsamp pmin bmin bmax ids b)%nat ->
  ds_run NI z0 fpowI size tsI pminI bmin bmax dI ids x ->
  let p := pl_profile NI fpowI size tsI pminI bmin bmax z0 ids b s x in
  length p = b /\ forall c, (c < b)%nat -> nth c p z0 = S754_nan.
Proof.
  intros Hf Hb Hs Hx p.
  destruct (check_F bld size tsamp pmin pmax bmin bmax ltac:(lia) Hcheck) as (_ & _ & _ & H4 & _).
  assert (EN : pl_n NI fpowI size tsI pminI bmin bmax ids = n_ ids) by (eapply n_I with (pmax := pmax); eauto).
  split; [unfold p, pl_profile; now rewrite map_length, seq_length|].
  intros c Hc. unfold p, pl_profile. rewrite !nth_map_seq by auto. cbn [Nat.add].
  assert (ER : pl_rows NI fpowI size tsI pminI bmin bmax ids b = pl_rows NF fpow size tsamp pmin bmin bmax ids b).
  { unfold pl_rows. now rewrite EN. }
  rewrite ER. set (m := pl_rows NF fpow size tsamp pmin bmin bmax ids b) in *.
  apply teval_nan. intros r Hr. rewrite leaves_mtree in Hr by lia. apply in_seq in Hr.
  set (k := (r * b + (c + path (merge_index NI) (S m) m s r) mod b)%nat).
  assert (Hk : (k < n_ ids)%nat).
  { pose proof (Nat.mod_upper_bound (c + path (merge_index NI) (S m) m s r) b ltac:(lia)).
    assert (m * b <= n_ ids)%nat.
    { unfold m, pl_rows. rewrite Nat.mul_comm. apply Nat.mul_div_le. lia. }
    unfold k. nia. }
  assert (Hk' : (k < pl_n NI fpowI size tsI pminI bmin bmax ids)%nat) by now rewrite EN.
  specialize (Hx k Hk'). rewrite (ds_nan ids k Hf Hk) in Hx. injection Hx as Hx. symmetry. exact Hx.
Qed.

Lemma search_nan (allocI : nat -> list spec_float) (alloc : nat -> list R) (alloczI allocz : nat -> list Z) :
  allocates allocI -> allocates alloc -> allocates alloczI -> allocates allocz ->
  exists (PI : list spec_float) B (SI : arr2 spec_float) (P : list R) (S : arr2 R),
    py_periodogram NI flogI fpowI allocI alloczI dI tsI ws pminI pmaxI bmin bmax = Ok (PI, B, SI) /\
    py_periodogram NF flog fpow alloc allocz zeros tsamp ws pmin pmax bmin bmax = Ok (P, B, S) /\
    Forall2 fl64 PI P /\ a_rows SI = length P /\ a_cols SI = length ws /\
    a_data SI = repeat S754_nan (length P * length ws).
Proof.
  intros HaI Ha HzI Hz.
  assert (Z0 : exists (PI : list spec_float) BI (SI : arr2 spec_float) (P : list R) B (S : arr2 R),
    py_periodogram NI flogI fpowI allocI alloczI zerosI tsI ws pminI pmaxI bmin bmax = Ok (PI, BI, SI) /\
    py_periodogram NF flog fpow alloc allocz zeros tsamp ws pmin pmax bmin bmax = Ok (P, B, S) /\
    Forall2 fl64 PI P /\ BI = B /\ a_rows SI = a_rows S /\ a_cols SI = a_cols S /\
    Forall2 (fb32 122) (a_data SI) (a_data S)).
  { eapply search_I; eauto using repeat_length, zero_data. }
  destruct Z0 as (P0 & B0 & S0 & P & B & S & E0 & E & FP & -> & _).
  assert (R0 : forall d : list spec_float, length d = size ->
    (forall ids k, (ids < cycles)%nat -> (k < n_ ids)%nat ->
     exists v, ds_at NI z0 fpowI size tsI pminI bmin bmax d ids k = Ok v) ->
    exists PI BI (SI : arr2 spec_float),
    py_periodogram NI flogI fpowI allocI alloczI d tsI ws pminI pmaxI bmin bmax = Ok (PI, BI, SI) /\
    length PI = total /\ length BI = total /\ a_rows SI = total /\ a_cols SI = length ws /\
    length (a_data SI) = (total * length ws)%nat /\
    forall i j s, (i < cycles)%nat -> (j < pl_nb NF fpow size tsamp pmin pmax bmin bmax i)%nat ->
      (s < pl_eval NF fpow size tsamp pmin pmax bmin bmax i (bmin + j))%nat ->
      let t := (pl_off NF fpow size tsamp pmin pmax bmin bmax i
                + pl_off2 NF fpow size tsamp pmin pmax bmin bmax i j + s)%nat in
      nth_error PI t = Some (pl_period NI fpowI size tsI pminI bmin bmax i (bmin + j) s) /\
      nth_error BI t = Some (Z.of_nat (bmin + j) mod 2 ^ 32)%Z /\
      exists x, ds_run NI z0 fpowI size tsI pminI bmin bmax d i x /\
        forall k, (k < length ws)%nat -> exists v, nth_error (a_data SI) (t * length ws + k) = Some v /\
          sn_run NI z0 ws (pl_profile NI fpowI size tsI pminI bmin bmax z0 i (bmin + j) s x) k
            (pl_sd NI fpowI size tsI pminI bmin bmax i (bmin + j)) v).
  { intros d Hd HDd. eapply run_I with (dataI := zerosI) (data := zeros); eauto using repeat_length. }
  destruct (R0 zerosI) as (P1 & B1 & S1 & E1 & LP1 & LB1 & _ & _ & _ & V1).
  { apply repeat_length. }
  { intros ids k Hi Hk.
    assert (K : exists v v', ds_at NI z0 fpowI size tsI pminI bmin bmax zerosI ids k = Ok v /\
      ds_at NF 0%R fpow size tsamp pmin bmin bmax zeros ids k = Ok v' /\ fb32 70 v v').
    { eapply ds_I with (pmax := pmax); eauto using repeat_length, zero_data. }
    destruct K as (v & _ & K & _). eauto. }
  rewrite E1 in E0. injection E0 as -> -> ->.
  destruct (R0 dI HdI) as (P2 & B2 & S2 & E2 & LP2 & LB2 & LR2 & LC2 & LD2 & V2).
  { intros ids k Hi Hk. exists S754_nan. apply ds_nan; auto. }
  assert (CELL : forall t, (t < total)%nat -> nth t P2 z0 = nth t P0 z0 /\ nth t B2 0%Z = nth t B 0%Z /\
    forall k, (k < length ws)%nat -> nth (t * length ws + k) (a_data S2) z0 = S754_nan).
  { intros t Ht.
    destruct (off_decode NF flog fpow size tsamp pmin pmax bmin bmax t Ht) as (i & j & s & Hi & Hj & Hs & Et).
    destruct (V1 i j s Hi Hj Hs) as (A1 & A2 & _). cbv zeta in A1, A2.
    destruct (V2 i j s Hi Hj Hs) as (C1 & C2 & x & Hx & C3). cbv zeta in C1, C2, C3.
    rewrite <- Et in *. change (n_T NI) with spec_float in *.
    rewrite (nth_error_nth _ _ z0 A1), (nth_error_nth _ _ z0 C1), (nth_error_nth _ _ 0%Z A2), (nth_error_nth _ _ 0%Z C2).
    split; auto. split; auto. intros k Hk. destruct (C3 k Hk) as (v & Ev & Hv).
    rewrite (nth_error_nth _ _ z0 Ev).
    assert (Hsr : (s < pl_rows NF fpow size tsamp pmin bmin bmax i (bmin + j))%nat) by (unfold pl_eval in Hs; lia).
    destruct (profile_nan i (bmin + j) s x (HF i Hi) ltac:(lia) Hsr Hx) as (L & HP).
    destruct (check_F bld size tsamp pmin pmax bmin bmax ltac:(lia) Hcheck) as (_ & _ & _ & H4 & _).
    change (n_T NI) with spec_float in *.
    refine (sn_nan bld ws _ k _ v _ _ Hv).
    - intros E'. change (n_T NI) with spec_float in *. rewrite E' in L. cbn in L. lia.
    - intros c Hc. apply HP. change (n_T NI) with spec_float in *. now rewrite <- L. }
  change (n_T NI) with spec_float in *.
  assert (LPP : length P = total) by (rewrite <- LP1; symmetry; now apply (nth_Forall2 fl64 P0 P z0 0%R)).
  exists P2, B, S2, P, S.
  replace B with B2; [|apply nth_ext with (d := 0%Z) (d' := 0%Z); [congruence|]; intros; apply CELL; lia].
  split; [exact E2|]. split.
  { rewrite E. do 2 f_equal. f_equal. apply nth_ext with (d := 0%Z) (d' := 0%Z); [congruence|]. intros t Ht. symmetry. apply CELL. lia. }
  split. { replace P2 with P0; auto. apply nth_ext with (d := z0) (d' := z0); [congruence|]. intros t Ht. symmetry. apply CELL. lia. }
  split; [congruence|]. split; [congruence|].
  apply nth_ext with (d := z0) (d' := S754_nan).
  { rewrite repeat_length. congruence. }
  change (n_T NI) with spec_float in *. rewrite LD2. intros q Hq. rewrite nth_repeat.
  assert (Hl : (0 < length ws)%nat) by (destruct ws; [congruence|cbn; lia]).
  pose proof (Nat.div_mod q (length ws) ltac:(lia)) as DM.
  pose proof (Nat.mod_upper_bound q (length ws) ltac:(lia)) as MU.
  rewrite DM. rewrite (Nat.mul_comm (length ws)). apply CELL; auto.
  apply Nat.div_lt_upper_bound; lia.
Qed.
End Sim.
