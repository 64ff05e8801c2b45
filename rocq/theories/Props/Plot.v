(** C85-C87: the profile, the DM curve and the plot of a candidate. *)
From Coq Require Import String List Arith ZArith Bool Lia Reals Lra Psatz Permutation Sorted.
From Flocq Require Import Core.
From Verif Require Import Base.Result Base.Buf Base.Num Model.Transforms Model.Metadata Model.TimeSeries Model.Cluster
  Model.Peaks Model.Harmonic Model.Folding Model.DmIter Model.Pipeline Model.Writer Model.Search Model.Worker Model.Process Model.Plot Spec.Sums Spec.Overlap
  Model.Ranges Proof.TimeSeries Props.Downsample Props.Folding Props.Peaks Props.DmIter Props.Ranges Props.Pipeline Props.Build Props.Writer Props.Worker
  Props.Process Props.Run.
Import ListNotations.
Local Open Scope R_scope.

(** ** C85: the DM curve *)
Lemma curve_add_spec (d s : R) (l : list (R * R)) : StronglySorted Rlt (map fst l) ->
  StronglySorted Rlt (map fst (curve_add numR d s l)) /\
  forall x v, In (x, v) (curve_add numR d s l) <->
    (x <> d /\ In (x, v) l) \/
    (x = d /\ ((v = s /\ forall v', In (d, v') l -> v' <= s) \/ (In (d, v) l /\ s <= v))).
Proof.
  induction l as [|[d' s'] l IH]; intros S; cbn [curve_add map].
  - split; [repeat constructor|]. intros x v. split.
    + intros [E|[]]. injection E as <- <-. right. split; auto. left. split; auto. intros ? [].
    + intros [[_ []]|[-> [[-> _]|[[] _]]]]. now left.
  - rsimp. cbn [map fst] in S. apply StronglySorted_inv in S as [S F]. rewrite Forall_forall in F.
    assert (FF : forall x v, In (x, v) l -> d' < x) by (intros x v H; apply F; now apply (in_map fst) in H).
    destruct (Rlt_bool_spec d d') as [L|L].
    { cbn [map fst]. split.
      - constructor; [constructor; auto; now apply Forall_forall|].
        constructor; auto. apply Forall_forall. intros y Hy. apply F in Hy. lra.
      - intros x v. split.
        + intros [E|[E|E]].
          * injection E as <- <-. right. split; auto. left. split; auto.
            intros v' [E|E]; [injection E as -> ->; lra|apply FF in E; lra].
          * injection E as <- <-. left. split; [lra|now left].
          * left. split; [apply FF in E; lra|now right].
        + intros [[_ H]|[-> [[-> _]|[[E|E] _]]]]; [now right|now left|injection E as -> ->; lra|apply FF in E; lra]. }
    destruct (Req_bool_spec d d') as [->|NE].
    { cbn [map fst]. split; [constructor; auto; now apply Forall_forall|].
      intros x v. split.
      - intros [E|E].
        + injection E as <- E. right. split; auto. destruct (Rlt_bool_spec s' s) as [M|M].
          * left. split; auto. intros v' [E'|E']; [injection E' as <-; lra|apply FF in E'; lra].
          * right. subst v. split; [now left|auto].
        + left. split; [apply FF in E; lra|now right].
      - intros [[NX [E|E]]|[-> [[-> K]|[[E|E] K]]]].
        + injection E as -> _. now destruct NX.
        + now right.
        + left. f_equal. destruct (Rlt_bool_spec s' s) as [M|M]; auto.
          specialize (K s' (or_introl eq_refl)). lra.
        + injection E as ->. left. f_equal. now rewrite Rlt_bool_false by lra.
        + apply FF in E. lra. }
    destruct (IH S) as [IS IH']. cbn [map fst]. split.
    { constructor; auto. apply Forall_forall. intros x Hx. apply in_map_iff in Hx as ((x' & v) & <- & Hx). cbn [fst].
      apply IH' in Hx as [[_ Hx]|[-> _]]; [now apply FF in Hx|lra]. }
    intros x v. split.
    + intros [E|E].
      * injection E as <- <-. left. split; [lra|now left].
      * apply IH' in E as [[NX E]|[-> [[-> K]|[E K]]]].
        -- left. split; [auto|now right].
        -- right. split; auto. left. split; auto. intros v' [E|E]; [injection E as -> _; lra|auto].
        -- right. split; auto. right. split; [now right|auto].
    + intros [[NX [E|E]]|[-> [[-> K]|[[E|E] K]]]].
      * now left.
      * right. apply IH'. left. auto.
      * right. apply IH'. right. split; auto. left. split; auto. intros v' Hv. apply K. now right.
      * injection E as -> ->. lra.
      * right. apply IH'. right. split; auto.
Qed.

(** the DMs of the peaks, increasing, each with the largest S/N of the peaks with that DM *)
Theorem dm_curve_correct :
  forall (peaks : list (peak numR)),
  let '(dms, snrs) := dm_curve numR peaks in
  length dms = length snrs /\ StronglySorted Rlt dms /\
  (forall d, In d dms <-> exists p, In p peaks /\ p_dm p = Some d) /\
  forall i, (i < length dms)%nat ->
    (exists p, In p peaks /\ p_dm p = Some (nth i dms 0) /\ p_snr p = nth i snrs 0) /\
    forall p, In p peaks -> p_dm p = Some (nth i dms 0) -> p_snr p <= nth i snrs 0.
Proof.
  intros peaks. unfold dm_curve.
  set (step := fun (l : list (R * R)) (p : peak numR) =>
    match p_dm p with Some d => curve_add numR d (p_snr p) l | None => l end : list (R * R)).
  change (fold_left _ peaks []) with (fold_left step peaks []).
  set (fine := fun (seen : list (peak numR)) (l : list (R * R)) =>
    StronglySorted Rlt (map fst l) /\
    (forall x : R, In x (map fst l) <-> exists p, In p seen /\ p_dm p = Some x) /\
    forall x v : R, In (x, v) l -> (exists p, In p seen /\ p_dm p = Some x /\ p_snr p = v) /\
      forall p, In p seen -> p_dm p = Some x -> p_snr p <= v).
  assert (G : forall ps l seen, fine seen l -> fine (seen ++ ps) (fold_left step ps l)).
  { induction ps as [|q ps IH]; intros l seen (S & D & V); cbn [fold_left].
    { rewrite app_nil_r. repeat split; auto; now apply D || apply V. }
    replace (seen ++ q :: ps) with ((seen ++ [q]) ++ ps) by (now rewrite <- app_assoc).
    apply IH. unfold step. destruct (p_dm q) as [d|] eqn:ED.
    2:{ split; auto. split.
        - intros x. rewrite D. split; intros (p & Hp & A); exists p; (split; [|auto]).
          + apply in_or_app. now left.
          + apply in_app_or in Hp as [?|[<-|[]]]; auto. rewrite ED in A. discriminate.
        - intros x v H. destruct (V x v H) as ((p & Hp & A) & K). split.
          + exists p. split; [apply in_or_app; now left|auto].
          + intros p' Hp' A'. apply in_app_or in Hp' as [?|[<-|[]]]; auto. rewrite ED in A'. discriminate. }
    destruct (curve_add_spec d (p_snr q) l S) as (S' & CA). split; auto. split.
    - intros x. split.
      + intros H. apply in_map_iff in H as ((x' & v) & <- & H). cbn [fst]. apply CA in H as [[_ H]|[-> _]].
        * apply (in_map fst) in H. apply D in H as (p & Hp & A). exists p. split; [apply in_or_app; now left|auto].
        * exists q. split; [apply in_or_app; right; now left|auto].
      + intros (p & Hp & A). apply in_app_or in Hp as [Hp|[<-|[]]].
        * assert (H : In x (map fst l)) by (apply D; eauto). apply in_map_iff in H as ((x' & v) & E & H). cbn [fst] in E. subst x'.
          destruct (Req_dec x d) as [->|NE].
          -- destruct (Rle_or_lt (p_snr q) v) as [L|L].
             ++ apply (in_map fst _ (d, v)). apply CA. right. auto.
             ++ apply (in_map fst _ (d, p_snr q)). apply CA. right. split; auto. left. split; auto.
                intros v' H'. destruct (V d v H) as [_ K]. destruct (V d v' H') as ((p' & Hp' & A' & <-) & _).
                specialize (K p' Hp' A'). lra.
          -- apply (in_map fst _ (x, v)). apply CA. left. auto.
        * rewrite ED in A. injection A as <-.
          destruct (in_dec Req_EM_T d (map fst l)) as [H|H].
          -- apply in_map_iff in H as ((x' & v) & E & H). cbn [fst] in E. subst x'.
             destruct (Rle_or_lt (p_snr q) v) as [L|L].
             ++ apply (in_map fst _ (d, v)). apply CA. right. auto.
             ++ apply (in_map fst _ (d, p_snr q)). apply CA. right. split; auto. left. split; auto.
                intros v' H'. destruct (V d v H) as [_ K]. destruct (V d v' H') as ((p' & Hp' & A' & <-) & _).
                specialize (K p' Hp' A'). lra.
          -- apply (in_map fst _ (d, p_snr q)). apply CA. right. split; auto. left. split; auto.
             intros v' H'. apply (in_map fst) in H'. contradiction.
    - intros x v H. apply CA in H as [[NX H]|[-> [[-> K]|[H K]]]].
      + destruct (V x v H) as ((p & Hp & A) & K). split; [exists p; split; [apply in_or_app; now left|auto]|].
        intros p' Hp' A'. apply in_app_or in Hp' as [?|[<-|[]]]; auto. rewrite ED in A'. injection A' as ->. now destruct NX.
      + split; [exists q; split; [apply in_or_app; right; now left|auto]|].
        intros p' Hp' A'. apply in_app_or in Hp' as [Hp'|[<-|[]]]; [|lra].
        assert (H : In d (map fst l)) by (apply D; eauto). apply in_map_iff in H as ((x' & v) & E & H). cbn [fst] in E. subst x'.
        destruct (V d v H) as [_ K']. specialize (K' p' Hp' A'). specialize (K v H). lra.
      + destruct (V d v H) as ((p & Hp & A) & K'). split; [exists p; split; [apply in_or_app; now left|auto]|].
        intros p' Hp' A'. apply in_app_or in Hp' as [?|[<-|[]]]; auto. }
  destruct (G peaks [] []) as (S & D & V).
  { split; [constructor|]. split; [|intros ? ? []]. intros x. split; [intros []|intros (p & [] & _)]. }
  cbn [app] in D, V. set (l := fold_left step peaks []) in *. clearbody l. numR_ty.
  rewrite !map_length. split; auto. split; auto. split; auto.
  intros i Hi. apply V.
  assert (E : nth i l (0, 0) = (nth i (map fst l) 0, nth i (map snd l) 0)).
  { transitivity (fst (nth i l (0, 0)), snd (nth i l (0, 0))); [now destruct (nth i l (0, 0))|].
    f_equal; symmetry; [apply (map_nth fst l (0, 0))|apply (map_nth snd l (0, 0))]. }
  rewrite <- E. now apply nth_In.
Qed.
Print Assumptions dm_curve_correct.

(** two DMs, one of them in two peaks *)
Example dm_curve_used :
  let pk dm snr := Peak (N := numR) 1 1 1 1 0 0 snr (Some dm) in
  dm_curve numR [pk 5 7; pk 2 8; pk 5 9] = ([2; 5], [8; 9]).
Proof.
  cbn [dm_curve]. unfold dm_curve. cbn [fold_left p_dm p_snr curve_add]. rsimp.
  rewrite Rlt_bool_true by lra. cbn [curve_add]. rsimp.
  rewrite (Rlt_bool_false 5 2) by lra. rewrite Req_bool_false by lra. cbn [curve_add]. rsimp.
  rewrite (Rlt_bool_false 5 5) by lra. rewrite Req_bool_true by lra. now rewrite Rlt_bool_true by lra.
Qed.

(** ** C86: the profile of a candidate is the data folded into one sub-integration, however many
    sub-integrations were asked for *)
Theorem profile_correct :
  forall (alloc : nat -> list R) (data : list R) (tsamp period : R) (bins : nat) (subints : option Z) (X : folded R),
  allocates alloc -> 0 < tsamp -> (1 <= bins)%nat ->
  fold numR alloc data tsamp period bins subints = Ok X ->
  length (profile numR X) = bins /\
  fold numR alloc data tsamp period bins (Some 1%Z) = Ok (Prof (profile numR X)).
Proof.
  intros alloc data tsamp period bins subints X Ha Ht Hb HX.
  destruct (fold_correct alloc data tsamp period bins subints Ha Ht Hb) as [R1 O1].
  destruct (fold_correct alloc data tsamp period bins (Some 1%Z) Ha Ht Hb) as [R2 O2].
  set (len := INR (length data) * tsamp) in *.
  assert (HR : ~ fold_refused len tsamp period bins subints).
  { intros H. rewrite (R1 H) in HX. discriminate. }
  destruct (O1 HR) as (m & M1 & Bm & H). cbv zeta in H.
  assert (HR' : ~ fold_refused len tsamp period bins (Some 1%Z)).
  { intros [?|[?|[?|A]]]; [apply HR; now left|apply HR; right; now left|lia|].
    assert (1 <= INR m) by (apply (le_INR 1); lia). lra. }
  destruct (O2 HR') as (m' & M1' & Bm' & H'). cbv zeta in H'. cbn [Z.eqb Pos.eqb] in H'.
  assert (m' = m).
  { assert (A : INR m' < INR m + 1) by lra. assert (B : INR m < INR m' + 1) by lra.
    rewrite <- S_INR in A, B. apply INR_lt in A. apply INR_lt in B. lia. }
  subst m'. destruct H' as (p & E1 & L1 & V1). numR_ty. rewrite E1.
  assert (EQ : profile numR X = p).
  { destruct (match subints with None => (m =? 1)%nat | Some s => (s =? 1)%Z end).
    - destruct H as (p' & E & L & V). rewrite E in HX. injection HX as <-. change (p' = p :> list R).
      apply nth_ext with 0 0; [now rewrite L, L1|]. intros c Hc. rewrite V, V1; auto; rewrite <- L; exact Hc.
    - destruct H as (Y & E & Sm & RY & CY & WF & _ & SUM). rewrite E in HX. injection HX as <-. cbn [profile].
      assert (LC : @length R (column_sums numR Y) = bins) by (unfold column_sums; now rewrite map_length, seq_length).
      change (column_sums numR Y = p :> list R). apply nth_ext with 0 0; [now rewrite LC, L1|]. intros c Hc. assert (Hc' : (c < bins)%nat) by (rewrite <- LC; exact Hc). clear Hc. rename Hc' into Hc.
      rewrite column_sums_R by lia. rewrite RY, SUM, V1; auto. }
  rewrite EQ. auto.
Qed.
Print Assumptions profile_correct.

(** ** C87: plotting a candidate *)
Local Notation cand := (candidate numR (series numR)).

(** what a plot needs: several sub-integrations, coordinates, an epoch and a source name *)
Definition plottable (c : cand) : Prop :=
  let md := se_md (cd_ts c) in
  (exists Y, cd_subints c = Subs Y) /\
  (exists t, md_get "tobs" md = Some (MFloat t)) /\
  (exists k, md_get "skycoord" md = Some (MCoord k)) /\
  (exists x, md_get "mjd" md = Some (MFloat x)) /\
  (exists s, md_get "source_name" md = Some (MStr s)) /\
  exists d, p_dm (cd_params c) = Some d.

(** the figure shows one and a half periods of the sub-integrations and of their sum *)
Definition shows (c : cand) (fig : figure numR) : Prop :=
  let md := se_md (cd_ts c) in
  let p := cd_params c in
  let t := fg_table fig in
  md_get "tobs" md = Some (MFloat (fg_tobs fig)) /\
  (forall Y, cd_subints c = Subs Y -> arr2_wf Y ->
     let n := a_cols Y in
     length (fg_image fig) = a_rows Y /\
     (forall r, (r < a_rows Y)%nat -> length (nth r (fg_image fig) []) = (n + n / 2)%nat /\
        forall k, (k < n + n / 2)%nat -> nth k (nth r (fg_image fig) []) 0 = at2 0 Y r (k mod n)) /\
     length (fg_bars fig) = (n + n / 2)%nat /\
     ((1 <= n)%nat -> exists base prof,
        length prof = n /\ (forall k, (k < n)%nat -> nth k prof 0 = rsum (a_rows Y) (fun r => at2 0 Y r k)) /\
        is_quantile (1 / 2) (prof ++ firstn (n / 2) prof) base /\
        forall k, (k < n + n / 2)%nat -> nth k (fg_bars fig) 0 = nth (k mod n) prof 0 - base)) /\
  tb_period_ms t = p_period p * 1000 /\ p_dm p = Some (tb_dm t) /\ tb_width t = p_width p /\
  tb_ducy_percent t = p_ducy p * 100 /\ tb_snr t = p_snr p /\
  md_get "source_name" md = Some (MStr (tb_source t)) /\
  md_get "skycoord" md = Some (MCoord (tb_coord t)) /\
  md_get "mjd" md = Some (MFloat (tb_mjd t)) /\
  fg_curve fig = dm_curve numR (cd_peaks c) /\
  exists lo hi, In lo (fst (fg_curve fig)) /\ In hi (fst (fg_curve fig)) /\
    (forall d, In d (fst (fg_curve fig)) -> lo <= d <= hi) /\
    fg_limits fig = if Req_EM_T lo hi then (lo - 1 / 2, lo + 1 / 2) else (lo, hi).

Lemma extended_nth (l : list R) k : (k < length l + length l / 2)%nat ->
  nth k (extended l) 0 = nth (k mod length l) l 0.
Proof.
  intros Hk. unfold extended. destruct (Nat.lt_ge_cases k (length l)) as [L|L].
  - rewrite app_nth1 by auto. now rewrite Nat.mod_small by auto.
  - rewrite app_nth2 by auto.
    assert (N0 : (0 < length l)%nat) by (destruct l; cbn in *; lia).
    assert (D : (length l / 2 < length l)%nat) by (apply Nat.div_lt; lia).
    rewrite nth_firstn_lt by lia.
    replace k with ((k - length l) + 1 * length l)%nat at 2 by lia.
    rewrite Nat.mod_add by lia. now rewrite Nat.mod_small by lia.
Qed.
Lemma extended_length {A} (l : list A) : length (extended l) = (length l + length l / 2)%nat.
Proof.
  unfold extended. rewrite app_length, firstn_length_le; auto.
  destruct l; [cbn; lia|]. apply Nat.lt_le_incl, Nat.div_lt; cbn; lia.
Qed.

Lemma fold1_greatest (l : list R) w : max_of numR l = Ok w -> In w l /\ forall x, In x l -> x <= w.
Proof.
  unfold max_of, fold1. destruct l as [|a l]; [discriminate|]. intros H. injection H as <-.
  revert a. induction l as [|b l IH]; intros a; cbn [fold_left].
  - split; [now left|]. intros x [<-|[]]. apply Rle_refl.
  - rsimp. specialize (IH (if Rlt_bool a b then b else a)). destruct IH as [I G].
    split.
    + destruct I as [E|I]; [|right; now right]. destruct (Rlt_bool a b); [right; left|left]; exact E.
    + intros x [<-|[<-|Hx]].
      * eapply Rle_trans; [|apply G; left; reflexivity]. destruct (Rlt_bool_spec a b); lra.
      * eapply Rle_trans; [|apply G; left; reflexivity]. destruct (Rlt_bool_spec a b); lra.
      * apply G. now right.
Qed.

Theorem plot_correct :
  forall c : cand, In (cd_params c) (cd_peaks c) ->
  (plottable c -> exists fig, plot_candidate numR c = Ok fig /\ shows c fig) /\
  (~ plottable c -> exists e, plot_candidate numR c = Err e).
Proof.
  intros c IN. set (md := se_md (cd_ts c)). split.
  - intros ((Y & EY) & (t & ET) & (k & EK) & (x & EX) & (s & ES) & (d & ED)).
    unfold plot_candidate. rewrite ET, EY. cbn [bind plot_subints]. unfold plot_table. rewrite EK, EX, ES. cbn [bind].
    rewrite ED. cbn [bind]. pose proof (dm_curve_correct (cd_peaks c)) as DC.
    destruct (dm_curve numR (cd_peaks c)) as [dms snrs] eqn:EC. destruct DC as (_ & _ & DD & _).
    assert (ID : In d dms) by (apply DD; eauto).
    unfold plot_dm_curve. cbn [fst].
    destruct (min_of numR dms) as [lo| | |] eqn:E1; try (unfold min_of, fold1 in E1; destruct dms; [destruct ID|discriminate]).
    destruct (max_of numR dms) as [hi| | |] eqn:E2; try (unfold max_of, fold1 in E2; destruct dms; [destruct ID|discriminate]).
    cbn [bind]. eexists. split; [reflexivity|]. apply fold1_least in E1 as [M1 M2]. apply fold1_greatest in E2 as [G1 G2].
    unfold shows. cbn [fg_tobs fg_image fg_bars fg_table fg_curve fg_limits tb_period_ms tb_dm tb_width tb_ducy_percent
      tb_snr tb_source tb_coord tb_mjd fst].
    split; [exact ET|]. split.
    { intros Y' EY' WF. rewrite EY in EY'. injection EY' as <-. cbv zeta. set (n := a_cols Y).
      rewrite map_length, seq_length. split; auto. split.
      { intros r Hr. numR_ty. rewrite nth_seq_map by auto.
        assert (LR : length (firstn n (skipn (r * n) (a_data Y))) = n).
        { rewrite firstn_length, skipn_length. unfold arr2_wf in WF. rewrite WF. fold n. nia. }
        rewrite extended_length. fold n. numR_ty. rewrite LR. split; auto.
        intros i Hi. rewrite extended_nth by (rewrite LR; auto). rewrite LR.
        unfold at2. fold n. apply nth_firstn_skipn. apply Nat.mod_upper_bound.
        intros E. rewrite E in Hi. cbn in Hi. lia. }
      assert (LC : @length R (column_sums numR Y) = n) by (unfold column_sums; now rewrite map_length, seq_length).
      assert (CS : forall i, (i < n)%nat -> nth i (column_sums numR Y) 0 = rsum (a_rows Y) (fun r => at2 0 Y r i))
        by (intros i Hi; now apply column_sums_R).
      cbn [profile]. numR_ty. revert LC CS. generalize (column_sums numR Y). numR_ty. intros q LC CS.
      unfold plot_profile. rewrite map_length, extended_length. numR_ty. rewrite LC. split; auto.
      intros N1. exists (nmedian numR (extended q)), q. split; auto. split; auto.
      assert (EE : extended q = q ++ firstn (n / 2) q) by (unfold extended; now rewrite LC).
      split.
      { rewrite EE. apply nmedian_R. destruct q; [cbn in LC; lia|discriminate]. }
      intros i Hi. rewrite nth_map_in with (d' := 0) by (rewrite extended_length; now rewrite LC).
      rewrite extended_nth by (now rewrite LC). rewrite LC. reflexivity. }
    rsimp. repeat (split; [reflexivity || assumption|]).
    split; [now rewrite EC|]. exists lo, hi. split; auto. split; auto. split; [auto|].
    destruct (Req_bool_spec lo hi) as [E|E]; destruct (Req_EM_T lo hi); try contradiction; reflexivity.
  - intros NP. unfold plot_candidate. fold md.
    destruct (md_get "tobs" md) as [[| | | | |]|] eqn:ET; cbn [bind]; eauto.
    destruct (cd_subints c) as [|Y] eqn:EY; cbn [plot_subints bind]; eauto. unfold plot_table.
    destruct (md_get "skycoord" md) as [[| | | | |]|] eqn:EK; cbn [bind]; eauto.
    destruct (md_get "mjd" md) as [[| | | | |]|] eqn:EX; cbn [bind]; eauto.
    destruct (md_get "source_name" md) as [v|] eqn:ES; cbn [bind]; eauto.
    destruct (p_dm (cd_params c)) as [d|] eqn:ED; cbn [bind]; eauto.
    destruct v as [| | |s| |]; cbn [bind]; eauto.
    exfalso. apply NP. unfold plottable. fold md. rewrite EY, ET, EK, EX, ES, ED. repeat split; eauto.
Qed.
Print Assumptions plot_correct.

(** a candidate with two sub-integrations of two bins, and the same with one *)
Definition ex_cand (X : folded R) : cand :=
  let p := Peak (N := numR) 1 1 1 (1/2) 0 0 9 (Some 5) in
  Cand (N := numR) p
    (Series (N := numR) [] 1 [("source_name", MStr "J0000+0000"); ("skycoord", MCoord 0); ("mjd", MFloat (N := numR) 58000);
       ("tobs", MFloat (N := numR) 10)]%string) [p] X.
Example plot_correct_used :
  plottable (ex_cand (Subs (Arr2 2 2 [1; 2; 3; 4]))) /\ arr2_wf (Arr2 2 2 [1; 2; 3; 4]) /\
  ~ plottable (ex_cand (Prof [4; 6])).
Proof.
  split; [repeat split; cbn; eauto|]. split; [reflexivity|]. intros ((Y & E) & _). discriminate.
Qed.

(** ** Plots of a run *)
Section PlotRun.
Context (alloc : nat -> list R) (allocz : nat -> list Z) (fit : list R -> list R -> Z -> res (R -> R))
  (argsort : list R -> list nat) (as_fraction : R -> res fraction) (abs_sin : R -> R)
  (read_meta : string -> res (meta numR)) (load : string -> res (series numR)).
Context (peaks_csv : list (peak numR) -> string) (clusters_csv : list (row numR) -> string)
  (candidates_csv : list (peak numR) -> string) (to_json : cand -> res string) (pieces : string -> list string).
Local Notation process := (process numR ln pow alloc allocz fit argsort as_fraction abs_sin read_meta load peaks_csv clusters_csv
  candidates_csv to_json).
Local Notation environment_ok := (environment_ok alloc allocz fit argsort).
Local Notation files_ok := (files_ok read_meta load).
Local Notation band_known := (band_known read_meta).

(** Which candidates of a run can be plotted: those of which more than one sub-integration was
    asked for, with a period of at most half of the data, from a file with coordinates, epoch and
    source name. *)
Theorem process_plottable :
  forall png faults cf files outdir s pr s',
  environment_ok -> config_ok cf -> files_ok cf files -> band_known cf files ->
  process png pieces faults cf files outdir s (Ok pr) s' ->
  forall c, In c (pr_candidates pr) ->
  In (cd_params c) (cd_peaks c) /\ In (cd_params c) (pr_peaks pr) /\
  exists r f m raw,
    In r (cf_ranges cf) /\ sk_pmin (r_search r) <= p_period (cd_params c) < sk_pmax (r_search r) /\
    In f files /\ read_meta f = Ok m /\ load (m_fname m) = Ok raw /\
    (plottable c <->
       (2 <= r_csubints r)%Z /\ 2 * p_period (cd_params c) <= INR (length (se_data raw)) * se_tsamp raw /\
       (exists k, md_get "skycoord" (se_md raw) = Some (MCoord k)) /\
       (exists x, md_get "mjd" (se_md raw) = Some (MFloat x)) /\
       exists n, md_get "source_name" (se_md raw) = Some (MStr n)).
Proof.
  intros png faults cf files outdir s pr s' EN CO FO BK H c Hc.
  destruct (process_correct _ _ _ _ _ _ _ _ _ _ _ _ _ _ _ _ _ _ _ _ _ EN CO FO BK H)
    as (metas & f0 & f1 & nc & trials & tmed & kept & outs & RM & _ & _ & FT & PM & _ & _ & _ & _ & _ & CA & PC & _).
  apply (Permutation_in _ PC) in Hc.
  assert (Ho : In (Some c) outs).
  { clear - Hc. induction outs as [|[o|] l IH]; cbn [somes] in Hc; [easy| |right; auto].
    destruct Hc as [->|Hc]; [now left|right; auto]. }
  destruct (Forall2_in_r _ _ _ CA _ Ho) as (i & _ & cl & p & t & r & _ & FB & Ht & Fp & PD & Hr & PR & NO & SO).
  destruct (Req_dec (p_period p) (IZR (r_cbins r) * se_tsamp (tr_ts t))) as [E|NE]; [specialize (NO E); discriminate|].
  destruct (SO NE) as (X & EC & FX). injection EC as ->. cbn [cd_params cd_peaks]. split.
  { destruct FB as (l1 & l2 & -> & _). apply in_or_app. right. now left. }
  split.
  { apply (Permutation_in _ (Permutation_sym PM)). apply in_concat. exists (found t). split; [now apply in_map|exact Fp]. }
  rewrite Forall_forall in FT. destruct (FT t Ht) as (m & (l1 & l2 & -> & _) & LD & (T1 & L1 & _ & MD & TO & _) & _).
  assert (Im : In m (l1 ++ m :: l2)) by (apply in_or_app; right; now left).
  destruct (Forall2_in_r _ _ _ RM m Im) as (f & Hf & Ef).
  exists r, f, m, (tr_raw t). split; auto. split; auto. split; auto. split; auto. split; auto.
  destruct CO as (_ & _ & FR & _). rewrite Forall_forall in FR. destruct (FR r Hr) as (P0 & _ & _ & S1).
  rewrite <- T1, <- L1. set (len := INR (length (se_data (tr_ts t))) * se_tsamp (tr_ts t)) in *.
  assert (PP : 0 < p_period p) by lra.
  (* when there is more than one sub-integration *)
  assert (KEY : (exists Y, X = Subs Y) <-> (2 <= r_csubints r)%Z /\ 2 * p_period p <= len).
  { destruct FX as (k & K1 & (K2 & K3) & FX). fold len in K2, K3.
    assert (KP : INR k * p_period p <= len).
    { apply (Rmult_le_compat_r (p_period p)) in K2; [|lra]. unfold Rdiv in K2. rewrite Rmult_assoc, Rinv_l, Rmult_1_r in K2 by lra. exact K2. }
    assert (KP2 : len < (INR k + 1) * p_period p).
    { apply (Rmult_lt_compat_r (p_period p)) in K3; [|lra]. unfold Rdiv in K3. rewrite Rmult_assoc, Rinv_l, Rmult_1_r in K3 by lra. exact K3. }
    destruct X as [q|Y].
    - split; [intros (Y & E); discriminate|]. intros (S2 & L2). exfalso. destruct FX as (FX & _).
      destruct (Rlt_dec (IZR (r_csubints r) * p_period p) len).
      + subst. lia.
      + subst k. cbn [INR] in KP2. lra.
    - split; [|intros _; eauto]. intros _. destruct FX as ((F1 & F2) & _).
      assert (KK : 2 <= INR k) by (apply (le_INR 2); lia).
      assert (L2 : 2 * p_period p <= len).
      { eapply Rle_trans; [|exact KP]. apply Rmult_le_compat_r; lra. }
      split; [|exact L2].
      destruct (Rlt_dec (IZR (r_csubints r) * p_period p) len) as [LT|LT]; [lia|].
      destruct (Z_le_gt_dec 2 (r_csubints r)) as [|G]; [assumption|exfalso].
      assert (E1 : r_csubints r = 1%Z) by lia. rewrite E1 in LT. lra. }
  unfold plottable. cbn [cd_subints cd_ts cd_params].
  assert (MC : (exists k, md_get "skycoord" (se_md (tr_ts t)) = Some (MCoord k)) <-> exists k, md_get "skycoord" (se_md (tr_raw t)) = Some (MCoord k)).
  { split; intros (k & E); exists k; apply (MD "skycoord"%string); auto; discriminate. }
  assert (MJ : (exists x, md_get "mjd" (se_md (tr_ts t)) = Some (MFloat x)) <-> exists x, md_get "mjd" (se_md (tr_raw t)) = Some (MFloat x)).
  { split; intros (k & E); exists k; apply (MD "mjd"%string); auto; discriminate. }
  assert (MN : (exists n, md_get "source_name" (se_md (tr_ts t)) = Some (MStr n)) <-> exists n, md_get "source_name" (se_md (tr_raw t)) = Some (MStr n)).
  { split; intros (k & E); exists k; apply (MD "source_name"%string); auto; discriminate. }
  rewrite KEY, MC, MJ, MN. split; [tauto|]. intros (A & B & C & D & E).
  split; [auto|]. split; [eauto|]. split; [exact C|]. split; [exact D|]. split; [exact E|eauto].
Qed.

Lemma savefig_writable render : (forall c, safe (to_json c)) -> (forall fig, safe (render fig)) ->
  writable to_json (savefig numR render).
Proof.
  intros SJ SR c. split; [apply SJ|]. unfold savefig.
  apply safe_bind; [|intros; apply SR]. unfold plot_candidate.
  repeat first [apply safe_ok | apply safe_err | apply safe_bind; [|intros]
    | progress unfold plot_table, plot_dm_curve, plot_subints, min_of, max_of, fold1
    | match goal with |- safe (match ?x with _ => _ end) => destruct x end].
Qed.

(** If plots are made, a run returns only if every candidate can be plotted, and then leaves a
    plot of each. *)
Theorem process_plots :
  forall render faults cf files outdir s pr s',
  environment_ok -> config_ok cf -> files_ok cf files -> band_known cf files -> splits pieces ->
  (forall c, safe (to_json c)) -> (forall fig, safe (render fig)) -> cf_plot cf = true ->
  process (savefig numR render) pieces faults cf files outdir s (Ok pr) s' ->
  forall rank c, nth_error (pr_candidates pr) rank = Some c ->
  plottable c /\ exists fig t, shows c fig /\ render fig = Ok t /\ s' (candidate_fname outdir rank ".png") = Some t.
Proof.
  intros render faults cf files outdir s pr s' EN CO FO BK SP SJ SR PL H rank c Hc.
  assert (In c (pr_candidates pr)) as Ic by (eapply nth_error_In; eauto).
  destruct (process_plottable _ _ _ _ _ _ _ _ EN CO FO BK H c Ic) as (IN & IP & _).
  destruct (plot_correct c IN) as [P1 P2].
  pose proof (savefig_writable render SJ SR) as WR.
  destruct (process_files _ _ _ _ _ _ _ _ _ _ _ _ _ _ _ _ _ _ _ _ _ EN CO FO BK SP WR H) as [N1 N2].
  destruct (Classical_Prop.classic (pr_peaks pr = [])) as [E|NE].
  { rewrite E in IP. destruct IP. }
  destruct (N2 NE) as (rows & _ & _ & _ & _ & _ & FC & _). destruct (FC rank c Hc) as (_ & PN). rewrite PL in PN.
  destruct PN as (t & E & Fs). unfold savefig in E. apply bind_ok in E as (fig & E1 & E2).
  destruct (Classical_Prop.classic (plottable c)) as [PB|NB].
  - split; auto. destruct (P1 PB) as (fig' & E' & SH). rewrite E1 in E'. injection E' as <-. eauto.
  - destruct (P2 NB) as (e & E'). rewrite E1 in E'. discriminate.
Qed.

(** the candidates do not depend on the renderer *)
Lemma same_candidates png cf files outdir s pr s' d peaks cs cands :
  environment_ok -> config_ok cf -> files_ok cf files -> band_known cf files ->
  process png pieces False cf files outdir s (Ok pr) s' ->
  prepare numR abs_sin read_meta cf files = Ok d ->
  search_files numR ln pow alloc allocz fit argsort load False cf d (Ok peaks) ->
  analyse numR alloc argsort as_fraction load cf d peaks = Ok (cs, cands) ->
  cands = pr_candidates pr.
Proof.
  intros EN CO FO BK H EP ES EA.
  pose proof (process_ok_inv _ _ _ _ _ _ _ _ _ _ _ _ _ _ _ _ _ _ _ _ _ H) as (d' & EP' & ES' & EA' & _).
  rewrite EP in EP'. injection EP' as <-.
  assert (EW : with_processes (cf_processes cf) cf = cf) by (now destruct cf).
  destruct CO as (HP & CO'). assert (CO : config_ok cf) by (split; assumption).
  assert (EQ : peaks = pr_peaks pr).
  { rewrite <- EW in ES, ES'.
    destruct (search_files_determined alloc allocz fit argsort abs_sin read_meta load False False _ _ cf files d _ _ EN CO FO BK HP HP EP ES ES')
      as [(v & A & B)|(e & e' & A & _)]; [|discriminate]. injection A as ->. now injection B as ->. }
  rewrite <- EQ, EA in EA'. now injection EA' as _ <-.
Qed.

(** A run that makes plots returns if, in addition to what process_total asks for, every file has
    coordinates, an epoch and a source name, at least two sub-integrations are asked for, and the
    periods are at most half of the data. *)
Theorem process_plots_total :
  forall render cf files outdir s metas f0 f1 nc start stop,
  environment_ok -> config_ok cf -> files_ok cf files -> band_known cf files -> splits pieces ->
  Forall2 (fun f m => read_meta f = Ok m) files metas ->
  one_position metas -> band_of metas (cf_fmin cf) (cf_fmax cf) (cf_nchans cf) f0 f1 nc ->
  range_of abs_sin metas (cf_dm_min cf) (cf_dm_max cf) (cf_dmsinb_max cf) start stop ->
  (exists m, In m metas /\ start <= m_dm m <= stop) ->
  cf_ranges cf <> [] -> contiguous (ranges_of cf) ->
  (forall m r, In m metas -> In r (cf_ranges cf) ->
     INR (sk_bmin (r_search r)) * m_tsamp m <= sk_pmin (r_search r) /\ IZR (r_cbins r) * m_tsamp m <= sk_pmin (r_search r)) ->
  (forall m, In m metas -> 0 < m_tobs m /\ searchable fit load cf m) ->
  (1 <= hf_denom_max (cf_harmonics cf))%Z ->
  (forall x, 1 <= x -> exists n d, as_fraction x = Ok (n, d) /\ (0 < d <= n)%Z /\ Z.gcd n d = 1%Z) ->
  (forall c, exists t, to_json c = Ok t) -> (forall fig, exists t, render fig = Ok t) ->
  (forall m ts, In m metas -> load (m_fname m) = Ok ts ->
     (exists k, md_get "skycoord" (se_md ts) = Some (MCoord k)) /\
     (exists x, md_get "mjd" (se_md ts) = Some (MFloat x)) /\
     (exists n, md_get "source_name" (se_md ts) = Some (MStr n)) /\
     forall r, In r (cf_ranges cf) -> (2 <= r_csubints r)%Z /\
       2 * sk_pmax (r_search r) <= INR (length (se_data ts)) * se_tsamp ts) ->
  (exists pr s', process (savefig numR render) pieces False cf files outdir s (Ok pr) s') /\
  forall r s', process (savefig numR render) pieces False cf files outdir s r s' -> exists pr, r = Ok pr.
Proof.
  intros render cf files outdir s metas f0 f1 nc start stop EN CO FO BK SP RM OP BO RG EX NR CT BN SE DM AF JS RE MD.
  assert (SJ : forall c, safe (to_json c)) by (intros c; destruct (JS c) as [t ->]; apply safe_ok).
  assert (SR : forall fig, safe (render fig)) by (intros f; destruct (RE f) as [t ->]; apply safe_ok).
  apply (process_returns alloc allocz fit argsort as_fraction abs_sin read_meta load peaks_csv clusters_csv candidates_csv
    to_json (savefig numR render) pieces cf files outdir s metas f0 f1 nc start stop); auto; [now apply savefig_writable|].
  intros d peaks cs cands EP ES EA c Hc. split; [apply JS|]. intros _.
  (* the same run without plots *)
  destruct (process_total alloc allocz fit argsort as_fraction abs_sin read_meta load peaks_csv clusters_csv candidates_csv
    to_json (fun _ => Ok ""%string) pieces cf files outdir s metas f0 f1 nc start stop) as ((pr & s' & H) & _); eauto.
  pose proof (same_candidates _ _ _ _ _ _ _ _ _ _ _ EN CO FO BK H EP ES EA) as ->.
  destruct (process_plottable _ _ _ _ _ _ _ _ EN CO FO BK H c Hc) as (IN & _ & r & f & m & raw & Hr & PR & Hf & Ef & LD & PB).
  destruct (plot_correct c IN) as [P1 _]. destruct P1 as (fig & E & _).
  { apply PB. assert (Im : In m metas).
    { destruct (Forall2_in_l _ _ _ RM f Hf) as (m' & Hm & Em). rewrite Ef in Em. injection Em as <-. exact Hm. }
    destruct (MD m raw Im LD) as (M1 & M2 & M3 & M4). destruct (M4 r Hr) as (M5 & M6).
    split; [exact M5|]. split; [lra|]. auto. }
  destruct (RE fig) as [t Et]. exists t. unfold savefig. rewrite E. exact Et.
Qed.
End PlotRun.
Print Assumptions process_plottable.
Print Assumptions process_plots.
Print Assumptions process_plots_total.

(** The run of Props/Run with 8 sub-integrations makes its plots. *)
Definition ex_render (_ : figure numR) : res string := Ok "png"%string.
Example process_plots_used :
  exists pr s', ex_process (savefig numR ex_render) False (ex_config 8 true) ["a.inf"; "b.inf"]%string "/out" (fun _ => None) (Ok pr) s' /\
    pr_candidates pr <> [].
Proof.
  destruct (ex_ok 8 true ltac:(lia)) as (EN & CO & FO & BK & SP).
  assert (SJ : forall c : cand, safe ((fun _ => Ok "{}"%string) c)) by (intros c; apply safe_ok).
  assert (SR : forall fig, safe (ex_render fig)) by (intros c; apply safe_ok).
  destruct (ex_returns 8 true (fun _ => Ok "png"%string)) as (pr & s' & H); [lia|intros c; split; split; discriminate|eauto|].
  destruct (ex_returns 8 true (savefig numR ex_render)) as (pr1 & s1 & H1); [lia|now apply savefig_writable| |].
  { intros d peaks cs cands EP ES EA c Hc _.
    pose proof (same_candidates _ _ _ _ _ _ _ _ _ _ _ _ _ _ _ _ _ _ _ _ _ _ _ _ EN CO FO BK H EP ES EA) as ->.
    destruct (process_plottable _ _ _ _ _ _ _ _ _ _ _ _ _ _ _ _ _ _ _ _ _ EN CO FO BK H c Hc)
      as (IN & _ & r & f & m & raw & Hr & PR & Hf & Ef & LD & PB).
    destruct (plot_correct c IN) as [(fig & E & _) _].
    { apply PB. destruct Hr as [<-|[]]. injection LD as <-. cbn [r_csubints]. split; [lia|].
      destruct impulse_fits as (_ & (_ & T2 & _) & _). cbn [sk_pmax r_search] in *. split.
      - cbn [ex_series se_data se_tsamp]. cbn in PR. revert T2. set (L := INR _). clearbody L. intros T2.
        set (q := p_period (cd_params c)) in *. change R in (type of q). clearbody q. lra.
      - cbn. repeat split; eexists; reflexivity. }
    exists "png"%string. unfold savefig. now rewrite E. }
  exists pr1, s1. split; [exact H1|]. apply ex_products in H1; [tauto|lia].
Qed.

(** C88: A configuration that asks for one sub-integration per candidate is accepted, and the same
    run without plots returns candidates, but no run that makes the plots returns. *)
Theorem plot_candidates_refuted :
  exists cf, config_ok cf /\
    cf_plot cf = true /\
    (exists pr s', ex_process (fun _ => Ok "png"%string) False cf ["a.inf"; "b.inf"]%string "/out" (fun _ => None) (Ok pr) s' /\ pr_candidates pr <> []) /\
    forall faults s pr s', ~ ex_process (savefig numR ex_render) faults cf ["a.inf"; "b.inf"]%string "/out" s (Ok pr) s'.
Proof.
  exists (ex_config 1 true). destruct (ex_ok 1 true ltac:(lia)) as (EN & CO & FO & BK & SP).
  split; [exact CO|]. split; [reflexivity|]. split.
  - destruct (ex_returns 1 true (fun _ => Ok "png"%string)) as (pr & s' & H); [lia|intros c; split; split; discriminate|eauto|].
    exists pr, s'. split; [exact H|]. apply ex_products in H; [tauto|lia].
  - intros faults s pr s' H. destruct (ex_products 1 true _ _ _ _ _ ltac:(lia) H) as [_ NC].
    destruct (pr_candidates pr) as [|c l] eqn:EC; [easy|].
    destruct (process_plots _ _ _ _ _ _ _ _ _ _ _ _ _ ex_render faults _ _ _ _ _ _ EN CO FO BK SP (fun _ => safe_ok _) (fun _ => safe_ok _) eq_refl H 0%nat c) as (PB & _);
      [now rewrite EC|].
    destruct (process_plottable _ _ _ _ _ _ _ _ _ _ _ _ _ _ _ _ _ _ _ _ _ EN CO FO BK H c) as (IN & _ & r & f & m & raw & Hr & PR & Hf & Ef & LD & PI);
      [rewrite EC; now left|].
    apply PI in PB as (PB & _). destruct Hr as [<-|[]]. cbn in PB. lia.
Qed.
Print Assumptions plot_candidates_refuted.
