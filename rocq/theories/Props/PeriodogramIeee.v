(** The search in IEEE arithmetic. *)
From Coq Require Import List Arith ZArith Bool Lia Reals Lra SpecFloat.
From Flocq Require Import Core.
From Verif Require Import Base.Result Base.Buf Base.Num Model.Kernels Model.Transforms
  Model.Downsample Model.Snr Model.Periodogram Spec.FfaSpec Spec.Noise Proof.Transforms
  Proof.Ieee Proof.KernelsIeee Proof.DownsampleIeee Proof.SearchIeee Proof.Index Proof.Downsample
  Proof.Snr Proof.SnrFloat Proof.Periodogram Proof.DownsampleFloat Proof.Rounding
  Spec.Ieee Props.Downsample Props.DownsampleFloat Props.Snr Props.SnrFloat Props.Ieee Props.PeriodogramFloat
  Props.PeriodogramRounding.
Import ListNotations.
Local Open Scope R_scope.

(** ** one run of the search, for any numbers *)
Section Run.
Context (N : num) (d : N) (flog : N -> N) (fpow : N -> nat -> N).
Context (size : nat) (tsamp pmin pmax : N) (bmin bmax : nat).
Context (alloc : nat -> list N) (allocz : nat -> list Z) (data : list N) (ws : list nat).
Notation f_ := (pl_f N fpow tsamp pmin bmin bmax).
Notation n_ := (pl_n N fpow size tsamp pmin bmin bmax).
Notation bstop := (pl_bstop N fpow size tsamp pmin pmax bmin bmax).
Notation nb := (pl_nb N fpow size tsamp pmin pmax bmin bmax).
Notation rows := (pl_rows N fpow size tsamp pmin bmin bmax).
Notation eval := (pl_eval N fpow size tsamp pmin pmax bmin bmax).
Notation sd := (pl_sd N fpow size tsamp pmin bmin bmax).
Notation period := (pl_period N fpow size tsamp pmin bmin bmax).
Notation off := (pl_off N fpow size tsamp pmin pmax bmin bmax).
Notation off2 := (pl_off2 N fpow size tsamp pmin pmax bmin bmax).
Notation profile := (pl_profile N fpow size tsamp pmin bmin bmax d).
Notation cycles := (pl_cycles N flog pmin pmax bmin bmax).
Notation total := (pl_total N flog fpow size tsamp pmin pmax bmin bmax).
Notation valid := (pl_valid N fpow size tsamp pmin bmin bmax).

(** sample [k] of the data downsampled for cycle [ids] *)
Definition ds_at (ids k : nat) : res N :=
  if n_eqb (f_ ids) (o_ofZ n_dbl 1) then Ok (nth k data d) else ds_cell N data size (f_ ids) k.
Definition ds_run (ids : nat) (x : list N) : Prop :=
  forall k, (k < n_ ids)%nat -> ds_at ids k = Ok (nth k x d).
Definition sn_run (p : list N) (k : nat) (sd v : N) : Prop :=
  let w := nth k ws 0%nat in
  exists c dmax, (w + length p <= length c)%nat /\
    (forall j, (j < w + length p)%nat -> nth j c d = pval N d p 0 (length p) j) /\
    diff_max N c w 0 (length p) = Ok dmax /\ v = snr_value N d p (length p) sd w dmax.

Lemma run_spec : allocates alloc -> allocates allocz -> length data = size -> (0 < bmin)%nat ->
  ws <> [] -> good_widths ws bmin ->
  check_arguments N tsamp pmin pmax bmin bmax = Ok tt ->
  pl_conv N flog fpow size tsamp pmin pmax bmin bmax ->
  (forall ids, (ids < cycles)%nat -> valid ids = true /\ (n_ ids <= size)%nat /\
     (n_ ids <= pl_buf N size tsamp pmin bmin)%nat /\
     forall k, (k < n_ ids)%nat -> exists v, ds_at ids k = Ok v) ->
  (forall ids b, (ids < cycles)%nat -> (bmin <= b <= bstop ids)%nat ->
     (Z.of_nat (rows ids b) <= 4194304)%Z /\
     forall m, (3 <= m <= rows ids b)%nat -> good_index (merge_index N) m) ->
  exists (P : list N) B S,
    py_periodogram N flog fpow alloc allocz data tsamp ws pmin pmax bmin bmax = Ok (P, B, S) /\
    length P = total /\ length B = total /\ a_rows S = total /\ a_cols S = length ws /\
    length (a_data S) = (total * length ws)%nat /\
    forall i j s, (i < cycles)%nat -> (j < nb i)%nat -> (s < eval i (bmin + j))%nat ->
      let t := (off i + off2 i j + s)%nat in
      nth_error P t = Some (period i (bmin + j) s) /\
      nth_error B t = Some (Z.of_nat (bmin + j) mod 2 ^ 32)%Z /\
      exists x, ds_run i x /\
        forall k, (k < length ws)%nat -> exists v, nth_error (a_data S) (t * length ws + k) = Some v /\
          sn_run (profile i (bmin + j) s x) k (sd i (bmin + j)) v.
Proof.
  intros Ha Hz Hd Hb0 Hws Hw HK HC HD HR.
  unfold py_periodogram. rewrite Hd. rewrite length_spec by auto. cbn [bind].
  pose proof (periodogram_spec N flog fpow size tsamp pmin pmax bmin bmax alloc data ws d
    (alloc total) (allocz total) (alloc (total * length ws)%nat) ds_run sn_run Ha Hd HK
    HC Hb0 (Ha _) (Hz _) (Ha _)) as HS.
  match type of HS with ?A -> ?B -> ?C -> ?D -> ?E -> ?F -> ?G => assert (HG : G) end.
  { apply HS; clear HS.
    - intros ids Hi. apply HD; auto.
    - intros ids Hi E1. destruct (HD ids Hi) as (_ & Hn & _). split; auto.
      intros k Hk. unfold ds_at. now rewrite E1.
    - intros ids out Hi E1 HV Ho. destruct (HD ids Hi) as (_ & _ & Hbuf & HCell).
      destruct (downsample_cells N data size (f_ ids) out HV) as (out' & E & L & V).
      + fold (n_ ids). lia.
      + intros k Hk. destruct (HCell k Hk) as (v & Ev). exists v. unfold ds_at in Ev. now rewrite E1 in Ev.
      + exists out'. split; [exact E|]. split; [exact L|]. intros k Hk. unfold ds_at. rewrite E1.
        destruct (V k Hk) as (v & Ev & Et). rewrite Ev. f_equal. symmetry. now apply nth_error_nth.
    - intros ids b m Hi Hb Hm. apply (HR ids b Hi Hb); auto.
    - intros ids b Hi Hb. destruct (HR ids b Hi Hb) as [H _]. lia.
    - intros ids b blk out oo Hi Hb Hl Ho.
      assert (Hwb : good_widths ws b) by (intros w Hin; pose proof (Hw w Hin); lia).
      destruct (snr2_val N alloc blk (eval ids b) b ws (sd ids b) out oo) as (out' & E & FR & V); auto.
      exists out'. split; [exact E|]. split; [exact FR|]. intros i k Hi' Hk.
      destruct (V i k Hi' Hk) as (v & Ev & s & Es & Esk). exists v. split; [exact Ev|].
      set (x := firstn b (skipn (i * b) blk)) in *.
      assert (Lx : length x = b).
      { unfold x. rewrite firstn_length, skipn_length. nia. }
      destruct (snr1_value N d alloc x b ws (sd ids b) (alloc (length ws)) 0) as (s' & c & Es' & Vc & V'); auto.
      { lia. }
      { rewrite Ha. lia. }
      rewrite Es' in Es. injection Es as ->.
      destruct (V' k Hk) as (dmax & Ed & Ev'). cbn [Nat.add] in Ev'.
      destruct (Vc (nth k ws 0%nat) ltac:(now apply nth_In)) as [Lc Vc'].
      exists c, dmax. rewrite Lx. split; [lia|]. split; [exact Vc'|]. split; [exact Ed|]. congruence. }
  assert (HVa : forallb valid (seq 0 cycles) = true).
  { apply forallb_forall. intros i Hi. apply in_seq in Hi. apply HD. lia. }
  rewrite HVa in HG. destruct HG as (st & E & (I1 & I2 & I3 & I4 & I5 & I6 & I7 & I8 & I9) & HCell).
  rewrite E. cbn [bind]. exists (p_periods st), (p_bins st), (Arr2 total (length ws) (p_snr st)).
  split; [reflexivity|]. do 5 (split; [auto|]).
  intros i j s Hi Hj Hs. destruct (HCell i j s Hi Hj Hs) as (A & B & x & Hx & V). cbv zeta in *. auto.
  split; [exact A|]. split; [exact B|]. exists x. split; auto.
Qed.
End Run.

Lemma Forall2_nth {A B} (Q : A -> B -> Prop) (l : list A) (l' : list B) (a : A) (b : B) :
  length l = length l' -> (forall i, (i < length l)%nat -> Q (nth i l a) (nth i l' b)) -> Forall2 Q l l'.
Proof.
  revert l'. induction l as [|x l IH]; intros [|y l'] HL HQ; try discriminate; constructor.
  - apply (HQ 0%nat). cbn. lia.
  - apply IH; [cbn in HL; lia|]. intros i Hi. apply (HQ (S i)). cbn. lia.
Qed.

Lemma nth_Forall2 {A B} (Q : A -> B -> Prop) (l : list A) (l' : list B) (a : A) (b : B) :
  Forall2 Q l l' -> length l = length l' /\ forall i, (i < length l')%nat -> Q (nth i l a) (nth i l' b).
Proof.
  induction 1 as [|x y l l' H HF [IL IH]]; cbn [length]; [split; [auto|intros; lia]|].
  split; [now f_equal|]. intros [|i] Hi; cbn; auto. apply IH. lia.
Qed.

Lemma Forall2_mono {A B} (P Q : A -> B -> Prop) (l : list A) (l' : list B) :
  (forall a b, P a b -> Q a b) -> Forall2 P l l' -> Forall2 Q l l'.
Proof. intros H. induction 1; auto. Qed.

Section Sim.
Context (bld : build) (flog : R -> R) (fpow : R -> nat -> R).
Context (flogI : spec_float -> spec_float) (fpowI : spec_float -> nat -> spec_float).
Context (size : nat) (tsamp pmin pmax : R) (bmin bmax : nat) (tsI pminI pmaxI : spec_float).
Notation NF := (numF bld).
Notation NI := (numI bld).
Notation z0 := (S754_zero false).
Context (Hlog : good_log flog) (Hpow : good_pow fpow).
Context (HlogI : libm_log flogI flog) (HpowI : libm_pow fpowI fpow).
Context (Lts : fl64 tsI tsamp) (Lmin : fl64 pminI pmin) (Lmax : fl64 pmaxI pmax).
Context (Hsize : (Z.of_nat size <= 33554432)%Z) (Hbb : (Z.of_nat bmax <= 4194304)%Z).
Context (Hcheck : check_arguments NF tsamp pmin pmax bmin bmax = Ok tt).
Context (Hpt : pmax / tsamp <= 2 ^ 63) (Hpm : pmax <= 2 ^ 900).
Notation fits := (fits bld fpow size tsamp pmin bmin bmax).
Notation f_ := (pl_f NF fpow tsamp pmin bmin bmax).
Notation n_ := (pl_n NF fpow size tsamp pmin bmin bmax).
Notation bstop := (pl_bstop NF fpow size tsamp pmin pmax bmin bmax).
Notation nb := (pl_nb NF fpow size tsamp pmin pmax bmin bmax).
Notation rows := (pl_rows NF fpow size tsamp pmin bmin bmax).
Notation eval := (pl_eval NF fpow size tsamp pmin pmax bmin bmax).
Notation cyc := (pl_cyc NF flog pmin pmax bmin bmax).
Notation cycles := (pl_cycles NF flog pmin pmax bmin bmax).
Notation total := (pl_total NF flog fpow size tsamp pmin pmax bmin bmax).
Notation fI := (pl_f NI fpowI tsI pminI bmin bmax).
Notation nI := (pl_n NI fpowI size tsI pminI bmin bmax).
Context (Hcyc : (cyc < 2 ^ 64)%Z) (Hrows : (Z.of_nat (size / bmin) <= 4194304)%Z).
Context (HF : forall ids, (ids < cycles)%nat -> fits ids).
Context (dataI : list spec_float) (data : list R) (ws : list nat).
Context (Hdata : length data = size) (HdataI : length dataI = size).
Context (HD : forall i, (i < size)%nat -> fb32 40 (nth i dataI z0) (nth i data 0)).
Context (Hws : ws <> []) (Hw : good_widths ws bmin).

Lemma fII ids : fits ids -> fb64 25 (fI ids) (f_ ids).
Proof. intros. eapply f_I with (pmax := pmax); eauto. Qed.

Lemma one_I ids : fits ids ->
  @n_eqb NI (fI ids) (o_ofZ (@n_dbl NI) 1) = @n_eqb NF (f_ ids) (o_ofZ (@n_dbl NF) 1) /\
  (@n_eqb NF (f_ ids) (o_ofZ (@n_dbl NF) 1) = false -> 1 < f_ ids <= INR size).
Proof.
  intros Hf. split.
  - apply fl_eqb; [apply (fII ids Hf)|apply (d_ofZ bld 0); lia].
  - intros E. cbn [numF opsF n_eqb n_dbl o_ofZ] in E. rewrite (rnd64_id 1) in E by (apply (F64_int 1); lia).
    destruct (Req_bool_spec (f_ ids) 1) as [|E1]; [discriminate|].
    pose proof (f_ge1F bld fpow size tsamp pmin pmax bmin bmax Hpow ltac:(apply Lts) ltac:(lia) Hcheck ids).
    split; [lra|exact Hf].
Qed.

Lemma ds_I ids k : fits ids -> (k < n_ ids)%nat ->
  exists v v', ds_at NI z0 fpowI size tsI pminI bmin bmax dataI ids k = Ok v /\
    ds_at NF 0 fpow size tsamp pmin bmin bmax data ids k = Ok v' /\ fb32 70 v v'.
Proof.
  intros Hf Hk. destruct (one_I ids Hf) as [E1 E2]. unfold ds_at. rewrite E1.
  destruct (n_eqb (f_ ids) _).
  - do 2 eexists. split; [reflexivity|]. split; [reflexivity|]. apply fb_weaken with (j := 40%Z); [lia|].
    apply HD. apply Nat.lt_le_trans with (1 := Hk). eapply n_leF with (pmax := pmax); eauto; try lia. apply Lts.
  - specialize (E2 eq_refl). rewrite <- Hdata. apply cell_I; auto.
    + now rewrite Hdata.
    + apply (fII ids Hf).
    + now rewrite Hdata.
    + now rewrite Hdata, HdataI.
    + now rewrite Hdata.
    + rewrite Hdata. exact Hk.
Qed.

Lemma index_I m : (3 <= m)%nat -> (Z.of_nat m <= 4194304)%Z -> good_index (merge_index NI) m.
Proof.
  intros H3 Hm s Hs. pose proof (half_facts m ltac:(lia)). rewrite !merge_index_I by lia.
  apply (good_index_float bld m); auto; lia.
Qed.

Lemma profile_I ids b s x y : fits ids -> (bmin <= b <= bstop ids)%nat -> (s < rows ids b)%nat ->
  ds_run NI z0 fpowI size tsI pminI bmin bmax dataI ids x ->
  ds_run NF 0 fpow size tsamp pmin bmin bmax data ids y ->
  let p := pl_profile NI fpowI size tsI pminI bmin bmax z0 ids b s x in
  let q := pl_profile NF fpow size tsamp pmin bmin bmax 0 ids b s y in
  length p = b /\ length q = b /\ forall c, (c < b)%nat -> fb32 92 (nth c p z0) (nth c q 0).
Proof.
  intros Hf Hb Hs Hx Hy p q.
  destruct (check_F bld size tsamp pmin pmax bmin bmax ltac:(lia) Hcheck) as (_ & _ & _ & H4 & _).
  assert (RF : (Z.of_nat (rows ids b) <= 4194304)%Z).
  { eapply rowsF with (pmax := pmax); eauto; try lia. apply Lts. }
  assert (EN : nI ids = n_ ids) by (eapply n_I with (pmax := pmax); eauto).
  split; [unfold p, pl_profile; now rewrite map_length, seq_length|].
  split; [unfold q, pl_profile; now rewrite map_length, seq_length|].
  intros c Hc. unfold p, q, pl_profile. rewrite !nth_map_seq by auto. cbn [Nat.add].
  assert (ER : pl_rows NI fpowI size tsI pminI bmin bmax ids b = rows ids b).
  { unfold pl_rows. now rewrite EN. }
  rewrite ER. set (m := rows ids b) in *.
  assert (LM : leaves (mtree (S m) 0 m) = seq 0 m) by (apply leaves_mtree; lia).
  apply (fm_fb 24 128 70 22 m); [lia|lia|].
  pose proof (teval_I bld 70
    (fun r => nth (r * b + (c + path (merge_index NI) (S m) m s r) mod b) x z0)
    (fun r => nth (r * b + (c + path (merge_index NF) (S m) m s r) mod b) y 0)
    (mtree (S m) 0 m) ltac:(lia)) as T.
  rewrite LM, seq_length in T. apply T; [lia|]. intros r Hr. apply in_seq in Hr.
  rewrite path_I by lia.
  set (k := (r * b + (c + path (merge_index NF) (S m) m s r) mod b)%nat).
  assert (Hk : (k < n_ ids)%nat).
  { pose proof (Nat.mod_upper_bound (c + path (merge_index NF) (S m) m s r) b ltac:(lia)).
    assert (m * b <= n_ ids)%nat.
    { unfold m, pl_rows. rewrite Nat.mul_comm. apply Nat.mul_div_le. lia. }
    unfold k. nia. }
  destruct (ds_I ids k Hf Hk) as (v & v' & E1 & E2 & FB).
  assert (Hk' : (k < nI ids)%nat) by now rewrite EN.
  specialize (Hx k Hk'). specialize (Hy k Hk). rewrite E1 in Hx. rewrite E2 in Hy.
  injection Hx as Hx. injection Hy as Hy. rewrite Hx, Hy in FB. exact FB.
Qed.

Lemma sn_I p q k sdI sd v v' : (Z.of_nat (length q) <= 4194304)%Z -> length p = length q ->
  (0 < nth k ws 0%nat < length q)%nat ->
  (forall c, (c < length q)%nat -> fb32 92 (nth c p z0) (nth c q 0)) -> fl32 sdI sd -> / 4 <= sd ->
  sn_run NI z0 ws p k sdI v -> sn_run NF 0 ws q k sd v' -> fb32 122 v v'.
Proof.
  intros Hn HL Hk HP Hs Hs4 (c & m & Lc & Vc & Ec & ->) (c' & m' & Lc' & Vc' & Ec' & ->).
  change (n_T NI) with spec_float in *. change (n_T NF) with R in *. rewrite HL in *.
  destruct (diff_max_I bld (92 + 23) c c' (nth k ws 0%nat) (length q)) as (u & u' & Eu & Eu' & FB); auto; try lia.
  - intros j Hj. rewrite Vc, Vc' by auto. apply pval_I; auto; lia.
  - rewrite Ec in Eu. rewrite Ec' in Eu'. injection Eu as <-. injection Eu' as <-.
    apply snr_value_I with (k := 92%Z); auto; lia.
Qed.

(** the run on IEEE data follows the plan of the run on numbers *)
Lemma run_I (allocI : nat -> list spec_float) (alloczI : nat -> list Z) (dI : list spec_float) :
  allocates allocI -> allocates alloczI -> length dI = size ->
  (forall ids k, (ids < cycles)%nat -> (k < n_ ids)%nat ->
     exists v, ds_at NI z0 fpowI size tsI pminI bmin bmax dI ids k = Ok v) ->
  exists (PI : list spec_float) BI SI,
    py_periodogram NI flogI fpowI allocI alloczI dI tsI ws pminI pmaxI bmin bmax = Ok (PI, BI, SI) /\
    length PI = total /\ length BI = total /\ a_rows SI = total /\ a_cols SI = length ws /\
    length (a_data SI) = (total * length ws)%nat /\
    forall i j s, (i < cycles)%nat -> (j < nb i)%nat -> (s < eval i (bmin + j))%nat ->
      let t := (pl_off NF fpow size tsamp pmin pmax bmin bmax i
                + pl_off2 NF fpow size tsamp pmin pmax bmin bmax i j + s)%nat in
      nth_error PI t = Some (pl_period NI fpowI size tsI pminI bmin bmax i (bmin + j) s) /\
      nth_error BI t = Some (Z.of_nat (bmin + j) mod 2 ^ 32)%Z /\
      exists x, ds_run NI z0 fpowI size tsI pminI bmin bmax dI i x /\
        forall k, (k < length ws)%nat -> exists v, nth_error (a_data SI) (t * length ws + k) = Some v /\
          sn_run NI z0 ws (pl_profile NI fpowI size tsI pminI bmin bmax z0 i (bmin + j) s x) k
            (pl_sd NI fpowI size tsI pminI bmin bmax i (bmin + j)) v.
Proof.
  intros HaI HzI HdI HDI.
  assert (Fts : F64 tsamp) by apply Lts.
  destruct (check_F bld size tsamp pmin pmax bmin bmax ltac:(lia) Hcheck) as (H1 & H2 & H3 & H4 & H5 & _).
  assert (HC : pl_conv NF flog fpow size tsamp pmin pmax bmin bmax) by (eapply convF; eauto; lia).
  assert (RF : forall ids b, (bmin <= b)%nat -> (Z.of_nat (rows ids b) <= 4194304)%Z).
  { intros ids b Hb. eapply rowsF with (pmax := pmax); eauto; lia. }
  assert (NL : forall ids, (n_ ids <= size)%nat).
  { intros ids. eapply n_leF with (pmax := pmax); eauto; lia. }
  assert (NB : forall ids, (n_ ids <= pl_buf NF size tsamp pmin bmin)%nat).
  { intros ids. eapply n_bufF with (pmax := pmax); eauto; lia. }
  assert (EC : pl_cycles NI flogI pminI pmaxI bmin bmax = cycles).
  { eapply cycles_I with (tsI := tsI) (tsamp := tsamp); eauto. }
  assert (EN : forall ids, fits ids -> nI ids = n_ ids) by (intros; eapply n_I with (pmax := pmax); eauto).
  assert (ER : forall ids b, fits ids -> pl_rows NI fpowI size tsI pminI bmin bmax ids b = rows ids b).
  { intros ids b Hf. unfold pl_rows. now rewrite EN. }
  assert (EB : forall ids, fits ids -> pl_bstop NI fpowI size tsI pminI pmaxI bmin bmax ids = bstop ids).
  { intros. eapply bstop_I; eauto. }
  assert (EU : pl_buf NI size tsI pminI bmin = pl_buf NF size tsamp pmin bmin).
  { eapply buf_I with (pmax := pmax) (bmax := bmax); eauto. }
  destruct (run_spec NI z0 flogI fpowI size tsI pminI pmaxI bmin bmax allocI alloczI dI ws)
    as (PI & BI & SI & EI & LPI & LBI & LRI & LCI & LDI & VI); auto; try lia.
  { eapply check_I with (tsamp := tsamp); eauto. }
  { eapply conv_I with (size := size) (tsamp := tsamp); eauto. }
  { intros ids Hi. rewrite EC in Hi. assert (Hf := HF ids Hi). rewrite (EN ids Hf), EU.
    split. { eapply valid_II with (pmax := pmax); eauto. }
    split; [apply NL|]. split; [apply NB|]. intros k Hk. apply HDI; auto. }
  { intros ids b Hi Hb. rewrite EC in Hi. assert (Hf := HF ids Hi). rewrite (EB ids Hf) in Hb.
    rewrite (ER ids b Hf). split; [apply RF; lia|]. intros m Hm. pose proof (RF ids b ltac:(lia)).
    apply index_I; lia. }
  rewrite EC in VI.
  assert (ET : pl_total NI flogI fpowI size tsI pminI pmaxI bmin bmax = total).
  { eapply total_I; eauto. }
  rewrite ET in *. exists PI, BI, SI. split; [exact EI|]. do 5 (split; [auto|]).
  intros i j s Hi Hj Hs. assert (Hf := HF i Hi).
  assert (Hb : (bmin <= bmin + j <= bstop i)%nat) by (unfold pl_nb in Hj; lia).
  assert (EV : pl_eval NI fpowI size tsI pminI pmaxI bmin bmax i (bmin + j) = eval i (bmin + j)) by (eapply eval_I; eauto).
  assert (EO1 : pl_off NI fpowI size tsI pminI pmaxI bmin bmax i = pl_off NF fpow size tsamp pmin pmax bmin bmax i).
  { eapply off_I; eauto. intros. apply HF. lia. }
  assert (EO2 : pl_off2 NI fpowI size tsI pminI pmaxI bmin bmax i j = pl_off2 NF fpow size tsamp pmin pmax bmin bmax i j).
  { eapply off2_I; eauto; lia. }
  assert (EO3 : pl_nb NI fpowI size tsI pminI pmaxI bmin bmax i = nb i) by (eapply nb_I; eauto).
  rewrite <- EO3 in Hj. rewrite <- EV in Hs. specialize (VI i j s Hi Hj Hs). cbv zeta in VI |- *.
  rewrite EO1, EO2 in VI. exact VI.
Qed.

Lemma search_I (allocI : nat -> list spec_float) (alloc : nat -> list R) (alloczI allocz : nat -> list Z) :
  allocates allocI -> allocates alloc -> allocates alloczI -> allocates allocz ->
  exists PI BI SI P B S,
    py_periodogram NI flogI fpowI allocI alloczI dataI tsI ws pminI pmaxI bmin bmax = Ok (PI, BI, SI) /\
    py_periodogram NF flog fpow alloc allocz data tsamp ws pmin pmax bmin bmax = Ok (P, B, S) /\
    Forall2 fl64 PI P /\ BI = B /\ a_rows SI = a_rows S /\ a_cols SI = a_cols S /\
    Forall2 (fb32 122) (a_data SI) (a_data S).
Proof.
  intros HaI Ha HzI Hz.
  assert (Fts : F64 tsamp) by apply Lts.
  destruct (check_F bld size tsamp pmin pmax bmin bmax ltac:(lia) Hcheck) as (H1 & H2 & H3 & H4 & H5 & _).
  assert (HC : pl_conv NF flog fpow size tsamp pmin pmax bmin bmax) by (eapply convF; eauto; lia).
  assert (RF : forall ids b, (bmin <= b)%nat -> (Z.of_nat (rows ids b) <= 4194304)%Z).
  { intros ids b Hb. eapply rowsF with (pmax := pmax); eauto; lia. }
  assert (BS : forall ids b, (bmin <= b <= bstop ids)%nat -> (b <= bmax)%nat).
  { intros ids b Hb. apply (bstopF bld fpow size tsamp pmin pmax bmin bmax Hpow Fts ltac:(lia) Hcheck Hpt ids b). lia. }
  destruct (run_spec NF 0 flog fpow size tsamp pmin pmax bmin bmax alloc allocz data ws)
    as (P & B & S & E & LP & LB & LR & LC & LD & V); auto; try lia.
  { intros ids Hi. split.
    { eapply valid_F with (pmax := pmax); eauto; try lia. right. now apply HF. }
    split; [eapply n_leF with (pmax := pmax); eauto; lia|]. split; [eapply n_bufF with (pmax := pmax); eauto; lia|].
    intros k Hk. destruct (ds_I ids k (HF ids Hi) Hk) as (v & v' & _ & Ev & _). eauto. }
  { intros ids b Hi Hb. split; [apply RF; lia|]. intros m Hm. pose proof (RF ids b ltac:(lia)).
    apply good_index_float; lia. }
  destruct (run_I allocI alloczI dataI) as (PI & BI & SI & EI & LPI & LBI & LRI & LCI & LDI & VI); auto.
  { intros ids k Hi Hk. destruct (ds_I ids k (HF ids Hi) Hk) as (v & v' & Ev & _). eauto. }
  (* one trial *)
  assert (CELL : forall t, (t < total)%nat ->
    fl64 (nth t PI z0) (nth t P 0) /\ nth t BI 0%Z = nth t B 0%Z /\
    forall k, (k < length ws)%nat ->
      fb32 122 (nth (t * length ws + k) (a_data SI) z0) (nth (t * length ws + k) (a_data S) 0)).
  { intros t Ht.
    destruct (off_decode NF flog fpow size tsamp pmin pmax bmin bmax t Ht) as (i & j & s & Hi & Hj & Hs & Et).
    assert (Hf := HF i Hi).
    assert (Hb : (bmin <= bmin + j <= bstop i)%nat) by (unfold pl_nb in Hj; lia).
    destruct (V i j s Hi Hj Hs) as (A1 & A2 & y & Hy & A3). cbv zeta in A1, A2, A3.
    destruct (VI i j s Hi Hj Hs) as (B1 & B2 & x & Hx & B3). cbv zeta in B1, B2, B3.
    rewrite <- Et in *.
    change (n_T NI) with spec_float in *. change (n_T NF) with R in *.
    assert (Hsr : (s < rows i (bmin + j))%nat) by (unfold pl_eval in Hs; lia).
    rewrite (nth_error_nth _ _ z0 B1), (nth_error_nth _ _ 0 A1), (nth_error_nth _ _ 0%Z B2), (nth_error_nth _ _ 0%Z A2).
    split.
    { eapply period_I with (pmax := pmax); eauto. eapply rows_two; eauto. }
    split; auto. intros k Hk. destruct (A3 k Hk) as (v' & Ev' & Hv'). destruct (B3 k Hk) as (v & Ev & Hv).
    rewrite (nth_error_nth _ _ z0 Ev), (nth_error_nth _ _ 0 Ev').
    pose proof (Hw _ (nth_In ws 0%nat Hk)) as Hwk. specialize (BS i _ Hb).
    destruct (profile_I i (bmin + j) s x y Hf Hb Hsr Hx Hy) as (L1 & L2 & FB).
    assert (SDD : fl32 (pl_sd NI fpowI size tsI pminI bmin bmax i (bmin + j))
        (pl_sd NF fpow size tsamp pmin bmin bmax i (bmin + j)) /\ / 4 <= pl_sd NF fpow size tsamp pmin bmin bmax i (bmin + j)).
    { eapply sd_II with (pmax := pmax); eauto. lia. }
    destruct SDD as [SD SD4].
    change (n_T NI) with spec_float in *. change (n_T NF) with R in *.
    refine (sn_I _ _ k _ _ v v' _ _ _ _ SD SD4 Hv Hv').
    - change (n_T NF) with R in *. rewrite L2. lia.
    - change (n_T NF) with R in *. change (n_T NI) with spec_float in *. congruence.
    - change (n_T NF) with R in *. rewrite L2. lia.
    - change (n_T NF) with R in *. rewrite L2. exact FB. }
  change (n_T NI) with spec_float in *. change (n_T NF) with R in *.
  exists PI, BI, SI, P, B, S. split; [exact EI|]. split; [exact E|].
  split. { apply Forall2_nth with (a := z0) (b := 0); [congruence|]. intros t Ht. apply CELL. lia. }
  split. { apply nth_ext with (d := 0%Z) (d' := 0%Z); [congruence|]. intros t Ht. apply CELL. lia. }
  split; [congruence|]. split; [congruence|].
  apply Forall2_nth with (a := z0) (b := 0); [congruence|]. rewrite LDI. intros q Hq.
  assert (Hl : (0 < length ws)%nat) by (destruct ws; [congruence|cbn; lia]).
  pose proof (Nat.div_mod q (length ws) ltac:(lia)) as DM.
  pose proof (Nat.mod_upper_bound q (length ws) ltac:(lia)) as MU.
  destruct (CELL (q / length ws)%nat) as (_ & _ & HK).
  { apply Nat.div_lt_upper_bound; lia. }
  rewrite DM. rewrite (Nat.mul_comm (length ws)). apply HK. exact MU.
Qed.
End Sim.

Lemma check_of (bld : build) tsamp pmin pmax bmin bmax : 0 < tsamp -> 0 < pmin < pmax ->
  (2 <= bmin <= bmax)%nat -> (Z.of_nat bmax <= 4194304)%Z -> rnd64 (tsamp * INR bmin) <= pmin ->
  check_arguments (numF bld) tsamp pmin pmax bmin bmax = Ok tt /\
  pl_geo (numF bld) bmin bmax = factor_ratio bmin bmax.
Proof.
  intros HT0 Hpm Hbm Hb Hbase. split.
  - unfold check_arguments. cbn [numF opsF n_ltb n_leb n_dbl o_ofZ o_mul].
    rewrite <- INR_IZR_INZ. rewrite (rnd64_id 0) by apply generic_format_0.
    rewrite !Rlt_bool_true by lra. rewrite (rnd64_id (INR bmin)) by (apply F64_nat; lia).
    rewrite Rle_bool_true by auto.
    destruct (Nat.ltb_spec 1 bmin); [|lia]. destruct (Nat.leb_spec bmin bmax); [|lia]. reflexivity.
  - unfold pl_geo, factor_ratio.
    cbn [numF opsF n_dbl o_ofZ o_mul o_div o_add]. rewrite <- !INR_IZR_INZ.
    rewrite (rnd64_id (INR bmin)) by (apply F64_nat; lia).
    rewrite (rnd64_id (INR bmax)) by (apply F64_nat; lia).
    rewrite (rnd64_id 1) by (apply (F64_int 1); lia).
    rewrite <- S_INR. now rewrite (rnd64_id (INR (S bmax))) by (apply F64_nat; lia).
Qed.

(** C111.  The search on IEEE data, with infinities and NaNs: for [float] samples of absolute value at
    most 2^40 it returns finite periods and S/Ns only, those of the search on the numbers the data
    stand for (C106).  Nothing overflows and no NaN arises on the way. *)
Theorem periodogram_ieee :
  forall (bld : build) (flog : R -> R) (fpow : R -> nat -> R)
    (flogI : spec_float -> spec_float) (fpowI : spec_float -> nat -> spec_float)
    (alloc : nat -> list R) (allocI : nat -> list spec_float) (allocz alloczI : nat -> list Z)
    (data : list R) (dataI : list spec_float) (ws : list nat)
    (tsamp pmin pmax : R) (tsampI pminI pmaxI : spec_float) (bmin bmax : nat),
  let size := length data in
  good_log flog -> good_pow fpow -> ieee_log flogI flog -> ieee_pow fpowI fpow ->
  allocates alloc -> allocates allocI -> allocates allocz -> allocates alloczI ->
  double_value tsampI tsamp -> double_value pminI pmin -> double_value pmaxI pmax ->
  (Z.of_nat size <= 33554432)%Z -> (Z.of_nat bmax <= 4194304)%Z ->
  pmax / tsamp <= 2 ^ 63 -> pmax <= 2 ^ 900 -> (cycle_count flog pmin pmax bmin bmax < 2 ^ 64)%Z ->
  (Z.of_nat (size / bmin) <= 4194304)%Z ->
  ws <> [] -> good_widths ws bmin ->
  0 < tsamp -> 0 < pmin < pmax -> (2 <= bmin <= bmax)%nat -> rnd64 (tsamp * INR bmin) <= pmin ->
  (forall i, (Z.of_nat i < cycle_count flog pmin pmax bmin bmax)%Z ->
     factor fpow tsamp pmin bmin bmax i <= INR size) ->
  Forall2 single_value dataI data -> (forall i, (i < size)%nat -> Rabs (nth i data 0) <= 2 ^ 40) ->
  exists (periodsI : list spec_float) (periods : list R) (bins : list Z)
    (snrsI : arr2 spec_float) (snrs : arr2 R),
    py_periodogram (numI bld) flogI fpowI allocI alloczI dataI tsampI ws pminI pmaxI bmin bmax
      = Ok (periodsI, bins, snrsI) /\
    py_periodogram (numF bld) flog fpow alloc allocz data tsamp ws pmin pmax bmin bmax
      = Ok (periods, bins, snrs) /\
    Forall2 double_value periodsI periods /\
    a_rows snrsI = a_rows snrs /\ a_cols snrsI = a_cols snrs /\
    Forall2 single_value (a_data snrsI) (a_data snrs) /\
    Forall (fun v => Rabs v <= 2 ^ 122) (a_data snrs).
Proof.
  intros bld flog fpow flogI fpowI alloc allocI allocz alloczI data dataI ws tsamp pmin pmax tsI pminI pmaxI
    bmin bmax size Hl Hp HlI HpI Ha HaI Hz HzI D1 D2 D3 Hs Hb Hpt Hpx Hc Hr Hws Hw HT0 Hpm Hbm Hbase Hfac HD HX.
  destruct (check_of bld tsamp pmin pmax bmin bmax HT0 Hpm Hbm Hb Hbase) as [HC Egeo].
  assert (L1 : fl64 tsI tsamp) by now apply double_fl.
  assert (Ecyc : pl_cyc (numF bld) flog pmin pmax bmin bmax = cycle_count flog pmin pmax bmin bmax).
  { unfold pl_cyc, cycle_count. rewrite Egeo. reflexivity. }
  assert (Ef : forall i, pl_f (numF bld) fpow tsamp pmin bmin bmax i = factor fpow tsamp pmin bmin bmax i).
  { intros i. unfold factor. rewrite <- Egeo. unfold first_factor.
    assert (Ei : pl_ini (numF bld) tsamp pmin bmin = rnd64 (pmin / rnd64 (tsamp * INR bmin))).
    { apply (iniF bld size tsamp pmin pmax bmin bmax); auto. lia. }
    rewrite <- Ei. reflexivity. }
  destruct (nth_Forall2 single_value dataI data (S754_zero false) 0 HD) as [HL HV].
  destruct (search_I bld flog fpow flogI fpowI size tsamp pmin pmax bmin bmax tsI pminI pmaxI)
    with (dataI := dataI) (data := data) (ws := ws) (allocI := allocI) (alloc := alloc) (alloczI := alloczI) (allocz := allocz)
    as (PI & BI & SI & P & B & S & E1 & E2 & F1 & -> & R1 & R2 & F2); auto.
  - intros x r Hx Hr1. apply double_fl, HlI; auto. now apply double_fl.
  - intros x r k Hx Hr1 Hk. apply double_fl, HpI; auto. now apply double_fl.
  - now apply double_fl.
  - now apply double_fl.
  - now rewrite Ecyc.
  - intros i Hi. unfold fits. rewrite Ef. apply Hfac. unfold pl_cycles in Hi. rewrite Ecyc in Hi. lia.
  - intros i Hi. split; [apply single_fl; now apply HV|]. change 40%Z with (Z.of_nat 40). rewrite bpow_2. now apply HX.
  - exists PI, P, B, SI, S. split; [exact E1|]. split; [exact E2|]. split.
    { eapply Forall2_mono; [|exact F1]. intros x r. apply double_fl. }
    split; [exact R1|]. split; [exact R2|]. split.
    { eapply Forall2_mono; [|exact F2]. intros x r [H _]. now apply single_fl. }
    rewrite Forall_forall. intros v Hv. change (n_T (numF bld)) with R in *.
    destruct (nth_Forall2 _ _ _ (S754_zero false) 0 F2) as [_ G].
    destruct (In_nth (a_data S) v 0 Hv) as (n & Hn & <-). rewrite <- bpow_2. apply (G n Hn).
Qed.
Print Assumptions periodogram_ieee.

(** *** an example *)
(** the [double] of a number *)
Definition sf_of (r : R) : spec_float :=
  SpecFloat.binary_normalize 53 1024 (Ztrunc (scaled_mantissa radix2 (FLT_exp (-1074) 53) r))
    (cexp radix2 (FLT_exp (-1074) 53) r) false.

Lemma sf_of_ok r : double r -> Rabs r < bpow radix2 1024 -> double_value (sf_of r) r.
Proof.
  intros F B. unfold sf_of.
  assert (E : F2R (Float radix2 (Ztrunc (scaled_mantissa radix2 (FLT_exp (-1074) 53) r))
    (cexp radix2 (FLT_exp (-1074) 53) r)) = r) by (symmetry; exact F).
  pose proof (normalize_flo 53 1024 p53 e1024
    (Ztrunc (scaled_mantissa radix2 (FLT_exp (-1074) 53) r)) (cexp radix2 (FLT_exp (-1074) 53) r) false) as H.
  rewrite E in H. assert (G : round radix2 (FLT_exp (3 - 1024 - 53) 53) ZnearestE r = r) by (apply (rnd64_id r F)).
  rewrite G in H. apply H. exact B.
Qed.

(** log and pow rounded up *)
Definition up64 : R -> R := round radix2 (FLT_exp (-1074) 53) Zceil.
Lemma up64_le x y : x <= y -> up64 x <= up64 y. Proof. apply round_le; typeclasses eauto. Qed.
Lemma up64_ge x : x <= up64 x. Proof. apply round_UP_pt; typeclasses eauto. Qed.
Lemma up64_F x : double (up64 x). Proof. apply generic_format_round; typeclasses eauto. Qed.
Lemma up64_id x : double x -> up64 x = x. Proof. apply round_generic; typeclasses eauto. Qed.

Lemma double_bpow k : (-1074 <= k)%Z -> double (bpow radix2 k).
Proof. intros. apply generic_format_bpow. unfold FLT_exp. lia. Qed.

Lemma up_log : good_log (fun x => up64 (ln x)).
Proof.
  assert (L0 : forall x, 1 <= x -> 0 <= ln x).
  { intros x Hx. rewrite <- ln_1. destruct (Req_dec x 1) as [->|]; [lra|]. left. apply ln_increasing; lra. }
  split; intros x Hx.
  - eapply Rle_trans; [|apply up64_ge]. auto.
  - eapply Rlt_le_trans; [|apply up64_ge]. rewrite <- ln_1. apply ln_increasing; lra.
Qed.

Lemma up_pow : good_pow (fun x k => up64 (x ^ k)).
Proof. intros x k Hx. eapply Rle_trans; [|apply up64_ge]. now apply pow_R1_Rle. Qed.

Lemma up_logI : ieee_log (fun x => sf_of (up64 (ln (BinarySingleNaN.SF2R radix2 x)))) (fun x => up64 (ln x)).
Proof.
  intros x r Hx Hr. pose proof (proj1 (double_fl _ _) Hx) as (_ & _ & _ & _ & B). destruct Hx as (_ & _ & ->).
  apply sf_of_ok; [apply up64_F|].
  assert (0 <= up64 (ln r)) by (apply up_log; auto). rewrite Rabs_pos_eq by auto.
  apply Rle_lt_trans with (bpow radix2 1023); [|apply bpow_lt; lia].
  rewrite <- (up64_id (bpow radix2 1023)) by (apply double_bpow; lia). apply up64_le.
  rewrite Rabs_pos_eq in B by lra.
  (* ln r <= 1024 <= 2^1023 *)
  assert (LN : forall n, (ln (bpow radix2 (Z.of_nat n)) <= INR n)).
  { intros n. rewrite bpow_pow. induction n as [|n IH]; [cbn; rewrite ln_1; lra|].
    rewrite <- tech_pow_Rmult. rewrite ln_mult; [|lra|apply pow_lt; lra]. rewrite S_INR.
    assert (ln 2 <= 1); [|lra]. rewrite <- (ln_exp 1). left. apply ln_increasing; [lra|].
    pose proof (exp_ineq1 1 ltac:(lra)). lra. }
  apply Rle_trans with (INR 1024).
  - apply Rle_trans with (2 := LN 1024%nat). destruct (Req_dec r (bpow radix2 1024)) as [->|]; [apply Rle_refl|].
    left. apply ln_increasing; [lra|]. exact B.
  - rewrite INR_IZR_INZ. change (Z.of_nat 1024) with (2 ^ 10)%Z. rewrite (IZR_Zpower radix2) by lia. apply bpow_le. lia.
Qed.

Lemma up_powI : ieee_pow (fun x k => sf_of (up64 (BinarySingleNaN.SF2R radix2 x ^ k))) (fun x k => up64 (x ^ k)).
Proof.
  intros x r k (_ & _ & ->) Hr Hk. apply sf_of_ok; [apply up64_F|].
  assert (1 <= up64 (r ^ k)) by (apply up_pow; auto). rewrite Rabs_pos_eq by lra.
  eapply Rle_lt_trans; [exact Hk|]. rewrite <- bpow_pow. apply bpow_lt. lia.
Qed.

(** the data of [periodogram_rounding_ex] *)
Example periodogram_ieee_ex :
  let data := repeat 1 (40 * 100) in let dataI := repeat (sf_of 1) (40 * 100) in let size := length data in
  let tsamp := / 1024 in let pmin := / 32 in let pmax := 3 / 64 in
  let flog x := up64 (ln x) in let fpow x k := up64 (x ^ k) in
  good_log flog /\ good_pow fpow /\
  (exists flogI fpowI, ieee_log flogI flog /\ ieee_pow fpowI fpow) /\
  (exists tsampI pminI pmaxI, double_value tsampI tsamp /\ double_value pminI pmin /\ double_value pmaxI pmax) /\
  (Z.of_nat size <= 33554432)%Z /\ (Z.of_nat 40 <= 4194304)%Z /\
  pmax / tsamp <= 2 ^ 63 /\ pmax <= 2 ^ 900 /\ (cycle_count flog pmin pmax 20 40 < 2 ^ 64)%Z /\
  (Z.of_nat (size / 20) <= 4194304)%Z /\ [1; 2; 3]%nat <> [] /\ good_widths [1; 2; 3]%nat 20 /\
  0 < tsamp /\ 0 < pmin < pmax /\ (2 <= 20 <= 40)%nat /\ rnd64 (tsamp * INR 20) <= pmin /\
  (forall i, (Z.of_nat i < cycle_count flog pmin pmax 20 40)%Z -> factor fpow tsamp pmin 20 40 i <= INR size) /\
  Forall2 single_value dataI data /\ (forall i, (i < size)%nat -> Rabs (nth i data 0) <= 2 ^ 40).
Proof.
  cbv zeta.
  destruct periodogram_rounding_ex as (_ & _ & F1 & F2 & F3 & A1 & A2 & A3 & _ & A4 & A5 & A6 & _ & A7 & A8 & A9 & _ & A10 & A11).
  cbv zeta in *. rewrite repeat_length in *.
  assert (S1 : forall r, 0 < r <= 1 -> Rabs r < bpow radix2 1024).
  { intros r Hr. rewrite Rabs_pos_eq by lra. apply Rle_lt_trans with (bpow radix2 0); [cbn; lra|]. apply bpow_lt. lia. }
  assert (E20 : INR 20 = 20) by (cbn; lra). assert (E40 : INR 40 = 40) by (cbn; lra).
  assert (H32 : rnd64 (3 / 64 / / 32) = 3 / 2).
  { replace (3 / 64 / / 32) with (3 * / 2) by field. apply rnd64_id. apply (F64_half 3). lia. }
  assert (E2 : 2 <= factor_ratio 20 40).
  { unfold factor_ratio. rewrite E20, E40. rewrite <- (rnd64_id 2) by (apply (F64_int 2); lia).
    apply rnd64_le. lra. }
  assert (HC : (cycle_count (fun x => up64 (ln x)) (/ 32) (3 / 64) 20 40 <= 1)%Z).
  { unfold cycle_count. rewrite H32. apply Zceil_glb. rewrite <- (rnd64_id 1) by (apply (F64_int 1); lia).
    apply rnd64_le.
    assert (up64 (ln (3 / 2)) <= up64 (ln (factor_ratio 20 40))).
    { apply up64_le. left. apply ln_increasing; lra. }
    assert (0 < up64 (ln (factor_ratio 20 40))) by (apply up_log; lra).
    apply Rmult_le_reg_r with (up64 (ln (factor_ratio 20 40))); [lra|].
    unfold Rdiv. rewrite Rmult_assoc, Rinv_l by lra. lra. }
  assert (HB : rnd64 (/ 1024 * INR 20) = 5 / 256).
  { rewrite E20. replace (/ 1024 * 20) with (F2R (Float radix2 5 (-8))) by (unfold F2R; cbn; lra).
    rewrite rnd64_id; [unfold F2R; cbn; lra|].
    apply generic_format_FLT. exists (Float radix2 5 (-8)); cbn; auto; lia. }
  split; [exact up_log|]. split; [exact up_pow|].
  split; [exists (fun x => sf_of (up64 (ln (BinarySingleNaN.SF2R radix2 x)))), (fun x k => sf_of (up64 (BinarySingleNaN.SF2R radix2 x ^ k)));
    split; [exact up_logI|exact up_powI]|].
  split. { exists (sf_of (/ 1024)), (sf_of (/ 32)), (sf_of (3 / 64)).
    split; [|split]; apply sf_of_ok; auto; apply S1; lra. }
  split; [exact A1|]. split; [exact A2|]. split; [exact A3|].
  split. { apply Rle_trans with 1; [lra|]. apply pow_R1_Rle. lra. }
  split; [lia|]. split; [exact A4|]. split; [exact A5|]. split; [exact A6|]. split; [lra|].
  split; [exact A7|]. split; [exact A8|]. split; [exact A9|].
  split. { intros i Hi. assert (i = 0%nat) as -> by lia. unfold factor, first_factor. rewrite HB.
    cbn [pow]. rewrite up64_id by (apply (F64_int 1); lia). rewrite Rmult_1_r. apply Rle_trans with 2; [|apply (le_INR 2); lia].
    rewrite <- (rnd64_id 2) by (apply (F64_int 2); lia). apply rnd64_le.
    rewrite <- (rnd64_id 2) by (apply (F64_int 2); lia). apply rnd64_le. lra. }
  split.
  - assert (D1 : single_value (sf_of 1) 1).
    { split; [apply sf_of_ok; [apply (F64_int 1); lia|apply S1; lra]|]. split.
      - apply rnd32_id. apply (F32_int 1). lia.
      - rewrite Rabs_R1. apply Rlt_pow_R1; [lra|lia]. }
    generalize (40 * 100)%nat. induction n as [|n IH]; cbn [repeat]; constructor; auto.
  - intros i Hi. eapply Rle_trans; [apply A11; auto|]. apply pow_R1_Rle. lra.
Qed.
