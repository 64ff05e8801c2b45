(** C119, C120: peak detection in floating point. *)
From Coq Require Import List Arith ZArith Bool Lia Reals Lra Psatz Permutation Sorted Relations.
From Flocq Require Import Core.
From Verif Require Import Base.Result Base.Buf Base.Num Model.Transforms Model.Cluster Model.Peaks
  Spec.Order Spec.Friends Proof.Index Proof.Downsample Proof.Cluster Proof.ClusterFloat Proof.PeaksFloat
  Props.RunMed Props.Cluster Props.Peaks.
Import ListNotations.
Local Open Scope R_scope.

(** [v] is within [e] of the exact quantile *)
Definition near_quantile (q : R) (l : list R) (e v : R) : Prop :=
  exists w, is_quantile q l w /\ Rabs (v - w) <= e.

(** C120: segment_stats in floating point cuts the trials into [m] runs, [m] being the rounded number
    rounded up; its medians are off by at most 2^-51 of the largest frequency or 2^-50 of the largest
    S/N, its deviations by at most 2^-48 of the largest S/N ([eta64] = 2^-1075 is the rounding error of
    the smallest numbers). *)
Theorem segment_stats_float :
  forall (bld : build) (f s : list R) (T segwidth Bf Bs : R), length s = length f ->
  (Z.of_nat (length f) <= 2 ^ 50)%Z -> Forall F64 f -> Forall F64 s ->
  Forall (fun v => Rabs v <= Bf) f -> Forall (fun v => Rabs v <= Bs) s ->
  let n := length f in
  let segments := rnd64 (Rabs (rnd64 (last f 0 - nth 0 f 0)) / rnd64 (segwidth / T)) in
  (n = 0%nat -> segment_stats (numF bld) f s T segwidth = Err IndexError) /\
  (n <> 0%nat -> segments = 0 -> segment_stats (numF bld) f s T segwidth = Err ZeroDivisionError) /\
  (forall m, n <> 0%nat -> (1 <= m)%nat -> INR m - 1 < segments <= INR m ->
    ((n < m)%nat -> segment_stats (numF bld) f s T segwidth = Err IndexError) /\
    ((m <= n)%nat -> exists fc smed sstd : list R,
       segment_stats (numF bld) f s T segwidth = Ok (fc, smed, sstd) /\
       length fc = m /\ length smed = m /\ length sstd = m /\
       forall i, (i < m)%nat ->
         let p := (n / m)%nat in
         near_quantile (1 / 2) (segment f p i) (4 * u64 * Bf + 2 * eta64) (nth i fc 0) /\
         near_quantile (50 / 100) (segment s p i) (8 * u64 * Bs + 2 * eta64) (nth i smed 0) /\
         exists q1 q3, is_quantile (25 / 100) (segment s p i) q1 /\
           is_quantile (75 / 100) (segment s p i) q3 /\
           Rabs (nth i sstd 0 - (q3 - q1) / (1349 / 1000)) <= 32 * u64 * Bs + 8 * eta64)).
Proof.
  intros bld f s T segwidth Bf Bs HL HN Ff Fs HBf HBs n segments.
  assert (NA : nabs (numF bld) (rnd64 (last f 0 - nth 0 f 0)) = Rabs (rnd64 (last f 0 - nth 0 f 0)))
    by apply nabs_F, rnd64_F.
  split; [|split].
  - intros H. unfold segment_stats. change (n_T (numF bld)) with R in *. fold n. rewrite H. reflexivity.
  - intros H HS. unfold segment_stats. change (n_T (numF bld)) with R in *. fold n.
    destruct (Nat.eqb_spec n 0); [contradiction|].
    cbn [numF opsF n_dbl o_ofZ o_sub o_div n_ceil]. rewrite rnd64_0.
    change (n_T (numF bld)) with R in *. rewrite NA. fold segments. rewrite HS.
    rewrite Zceil_IZR. reflexivity.
  - intros m H Hm HB.
    assert (EC : Zceil segments = Z.of_nat m).
    { apply Zceil_imp. rewrite minus_IZR, <- INR_IZR_INZ. lra. }
    assert (HD : segment_stats (numF bld) f s T segwidth =
       (let p := (n / m)%nat in
        if (p =? 0)%nat then Err IndexError else
        let seg (x : list R) i := firstn p (skipn (i * p) x) in
        let stat (st : list R -> R) x := map (fun i => st (seg x i)) (seq 0 m) in
        Ok (stat (nmedian (numF bld)) f, stat (percentile (numF bld) 50) s,
          stat (fun c => rnd64 (rnd64 (percentile (numF bld) 75 c - percentile (numF bld) 25 c) /
             rnd64 (rnd64 1349 / rnd64 1000))) s))).
    { unfold segment_stats. change (n_T (numF bld)) with R in *. fold n.
      destruct (Nat.eqb_spec n 0); [contradiction|].
      cbn [numF opsF n_dbl o_ofZ o_sub o_div n_ceil]. rewrite rnd64_0.
      change (n_T (numF bld)) with R in *. rewrite NA. fold segments. rewrite EC.
      destruct (Z.eqb_spec (Z.of_nat m) 0); [lia|]. destruct (Z.ltb_spec (Z.of_nat m) 0); [lia|].
      rewrite Nat2Z.id. reflexivity. }
    rewrite HD. cbv zeta. split.
    + intros Hlt. rewrite Nat.div_small by auto. reflexivity.
    + intros Hle. assert (P1 : (1 <= n / m)%nat) by (apply Nat.div_le_lower_bound; lia).
      destruct (Nat.eqb_spec (n / m) 0); [lia|]. set (p := (n / m)%nat) in *.
      assert (PM : (m * p <= n)%nat) by (apply Nat.mul_div_le; lia).
      assert (SG : forall x, length x = n -> forall i, (i < m)%nat -> firstn p (skipn (i * p) x) = segment x p i).
      { intros x Lx i Hi. assert (HI : (i * p + p <= n)%nat) by nia. unfold segment.
        apply nth_ext with 0 0.
        - rewrite firstn_length, skipn_length, map_length, seq_length. lia.
        - intros k Hk. rewrite firstn_length, skipn_length in Hk.
          rewrite nth_indep with (d' := (fun k => nth (i * p + k) x 0) 0%nat) (n := k)
            (l := map (fun k => nth (i * p + k) x 0) (seq 0 p)) by (rewrite map_length, seq_length; lia).
          rewrite (map_nth (fun k => nth (i * p + k) x 0)), seq_nth by lia. cbn [Nat.add].
          rewrite Buf.nth_firstn_skipn by lia. reflexivity. }
      assert (LS : forall x i, length (segment x p i) = p).
      { intros x i. unfold segment. now rewrite map_length, seq_length. }
      assert (NEs : forall x i, segment x p i <> []).
      { intros x i E. apply (f_equal (@length R)) in E. rewrite LS in E. cbn in E. lia. }
      assert (FS : forall x (P : R -> Prop) i, length x = n -> (i < m)%nat -> Forall P x -> Forall P (segment x p i)).
      { intros x P i Lx Hi F. rewrite Forall_forall in *. intros v Hv. unfold segment in Hv.
        apply in_map_iff in Hv as (k & <- & Hk). apply in_seq in Hk. apply F, nth_In. rewrite Lx. nia. }
      assert (PN : (p <= n)%nat) by nia.
      eexists _, _, _. split; [reflexivity|]. rewrite !map_length, !seq_length. do 3 (split; [reflexivity|]).
      intros i Hi.
      assert (NM : forall g : nat -> R, nth i (map g (seq 0 m)) 0 = g i).
      { intros g. rewrite nth_indep with (d' := g 0%nat) by now rewrite map_length, seq_length.
        rewrite (map_nth g), seq_nth by auto. reflexivity. }
      rewrite !NM. rewrite !SG by auto. split; [|split].
      * exists (nmedian numR (segment f p i)). split; [now apply nmedian_R|].
        apply nmedian_F; auto.
      * exists (percentile numR 50 (segment s p i)). split; [apply (percentile_R 50); auto; lia|].
        apply (percentile_F bld 2); auto; [lia|rewrite LS; unfold n in *; lia].
      * exists (percentile numR 25 (segment s p i)), (percentile numR 75 (segment s p i)).
        split; [apply (percentile_R 25); auto; lia|]. split; [apply (percentile_R 75); auto; lia|].
        apply spread_F; try apply percentile_F64; try (apply percentile_bound; auto; lia).
        -- apply (percentile_F bld 1); auto; [lia|rewrite LS; unfold n in *; lia].
        -- apply (percentile_F bld 3); auto; [lia|rewrite LS; unfold n in *; lia].
Qed.
Print Assumptions segment_stats_float.

(** the dynamic threshold of one width, through the rounded control points *)
Definition is_threshold_rounded (bld : build) (fit : list R -> list R -> Z -> res (R -> R)) (f s : list R)
    (T smin segwidth nstd : R) (minseg polydeg : Z) (thr : R -> R) : Prop :=
  exists fc smed sstd, segment_stats (numF bld) f s T segwidth = Ok (fc, smed, sstd) /\
    if (minseg <=? Z.of_nat (length fc))%Z
    then fit fc (map (fun p => rnd64 (fst p + rnd64 (nstd * snd p))) (combine smed sstd)) polydeg = Ok thr
    else thr = fun _ => smin.

Lemma find_single_float (bld : build) fit argsort (f s : list R) T smin segwidth nstd minseg polydeg clrad idx :
  sorts argsort -> Forall F64 f -> 0 <= rnd64 (clrad / T) ->
  find_peaks_single (numF bld) fit argsort f s T smin segwidth nstd minseg polydeg clrad = Ok idx ->
  exists thr r, is_threshold_rounded bld fit f s T smin segwidth nstd minseg polydeg thr /\
    rnd64 (clrad / T) <= r <= rnd64 (clrad / T) * (1 + / 2 ^ 52) /\
    group_maxima (selected f s thr smin) (fun i => nth i f 0) (fun i => nth i s 0) r idx.
Proof.
  intros HA Ff HR H. unfold find_peaks_single in H.
  destruct (segment_stats (numF bld) f s T segwidth) as [[[fc smed] sstd]| | |] eqn:ES; try discriminate.
  cbn [bind] in H.
  match type of H with bind ?b _ = _ => destruct b as [thr| | |] eqn:ET; try discriminate end.
  cbn [bind] in H. injection H as <-.
  cbn [numF opsF n_dbl o_ofZ o_sub o_div o_add o_mul n_ltb] in *. rewrite rnd64_0 in *.
  change (n_T (numF bld)) with R in *.
  set (mask := fun i => (Rlt_bool (thr (nth i f 0)) (nth i s 0) && Rlt_bool smin (nth i s 0))%bool).
  destruct (cluster1d_F bld argsort (map (fun i => nth i f 0) (filter mask (seq 0 (length f)))) (rnd64 (clrad / T)) false)
    as (r & EC & R1 & R2 & _).
  { apply Forall_forall. intros v Hv. apply in_map_iff in Hv as (k & <- & Hk). apply filter_In in Hk as [Hk _].
    apply in_seq in Hk. rewrite Forall_forall in Ff. apply Ff, nth_In. lia. }
  { apply rnd64_F. }
  exists thr, r. split.
  { exists fc, smed, sstd. split; auto. change (n_T (numF bld)) with R in *.
    destruct (minseg <=? Z.of_nat (length fc))%Z; [exact ET|now injection ET as <-]. }
  split. { split; auto. replace (/ 2 ^ 52) with (2 * u64) by (unfold u64; lra). auto. }
  change (fun i => (Rlt_bool (thr (nth i f 0)) (nth i s 0) && Rlt_bool smin (nth i s 0))%bool) with mask.
  rewrite EC. pose proof (single_maxima argsort HA f s r mask) as G. cbv zeta in G.
  assert (SE : forall i, ((i < length f)%nat /\ mask i = true) <-> selected f s thr smin i).
  { intros i. unfold selected, mask. rewrite andb_true_iff.
    destruct (Rlt_bool_spec (thr (nth i f 0)) (nth i s 0)), (Rlt_bool_spec smin (nth i s 0));
      split; intros (A & B & C) || intros (A & B); repeat split; auto; try lra; try discriminate;
      destruct B; discriminate. }
  assert (FE : forall a b,
    friends (fun i => (i < length f)%nat /\ mask i = true) (fun i => nth i f 0) r a b <->
    friends (selected f s thr smin) (fun i => nth i f 0) r a b).
  { intros a b. split; intros F;
      [apply (friends_map (fun x => x) (fun i => (i < length f)%nat /\ mask i = true) (selected f s thr smin)
              (fun i => nth i f 0)); auto
      |apply (friends_map (fun x => x) (selected f s thr smin) (fun i => (i < length f)%nat /\ mask i = true)
              (fun i => nth i f 0)); auto]; intros c Hc; now apply SE. }
  destruct G as (G1 & G2 & G3 & G4). split; [exact G1|]. split; [|split].
  - intros p Hp. destruct (G2 p Hp) as [A B]. split; [now apply SE|]. intros i Hi. apply B. now apply FE.
  - intros i Hi. destruct (G3 i) as (p & Hp & F); [now apply SE|]. exists p. split; auto. now apply FE.
  - intros p q Hp Hq F. apply G4; auto. now apply FE.
Qed.

(** C119: find_peaks in floating point.  Each width has its own radius, equal to clrad / T up to
    rounding. *)
Theorem find_peaks_float :
  forall (bld : build) fit argsort (f : list R) (foldbins widths : list Z) (snrs : arr2 R) (T : R) (dm : option R)
    (smin segwidth nstd : R) (minseg polydeg : Z) (clrad : R) (peaks : list (peak (numF bld))),
  sorts argsort -> Forall F64 f -> 0 <= rnd64 (clrad / T) -> a_rows snrs = length f ->
  find_peaks (numF bld) fit argsort f foldbins widths snrs T dm smin segwidth nstd minseg polydeg clrad
    = Ok peaks ->
  StronglySorted (fun p q : peak (numF bld) => p_snr q <= p_snr p) peaks /\
  NoDup (map (fun p : peak (numF bld) => (p_iw p, p_ip p)) peaks) /\
  exists (thr : nat -> R -> R) (radius : nat -> R),
    (forall iw, (iw < length widths)%nat ->
       rnd64 (clrad / T) <= radius iw <= rnd64 (clrad / T) * (1 + / 2 ^ 52)) /\
    (forall iw, (iw < length widths)%nat ->
       is_threshold_rounded bld fit f (trials snrs iw) T smin segwidth nstd minseg polydeg (thr iw)) /\
    let sel iw := selected f (trials snrs iw) (thr iw) smin in
    let linked iw := friends (sel iw) (fun i => nth i f 0) (radius iw) in
    (forall p, In p peaks ->
       let iw := p_iw p in let i := p_ip p in
       (iw < length widths)%nat /\ sel iw i /\
       p_snr p = at2 0 snrs i iw /\ p_freq p = nth i f 0 /\ p_period p = rnd64 (1 / nth i f 0) /\
       p_width p = nth iw widths 0%Z /\
       p_ducy p = rnd64 (rnd64 (IZR (nth iw widths 0%Z)) / rnd64 (IZR (nth i foldbins 0%Z))) /\ p_dm p = dm /\
       forall j, linked iw i j -> at2 0 snrs j iw <= p_snr p) /\
    (forall iw i, (iw < length widths)%nat -> sel iw i ->
       exists p, In p peaks /\ p_iw p = iw /\ linked iw i (p_ip p)) /\
    (forall p q, In p peaks -> In q peaks -> p_iw p = p_iw q -> linked (p_iw p) (p_ip p) (p_ip q) ->
       p_ip p = p_ip q).
Proof.
  intros bld fit argsort f foldbins widths snrs T dm smin segwidth nstd minseg polydeg clrad peaks HA Ff HC HR H.
  unfold find_peaks in H.
  match type of H with bind ?b _ = _ => destruct b as [per| | |] eqn:EM; try discriminate end.
  cbn [bind] in H. injection H as <-. apply mapM_inv in EM.
  cbn [numF opsF n_dbl o_ofZ o_div n_ltb] in *. rewrite rnd64_0 in *.
  rewrite (rnd64_id 1) in * by now apply F64_int.
  change (n_T (numF bld)) with R in *.
  set (mk := fun iw ip => Peak (N := numF bld) (rnd64 (1 / nth ip f 0)) (nth ip f 0) (nth iw widths 0%Z)
     (rnd64 (rnd64 (IZR (nth iw widths 0%Z)) / rnd64 (IZR (nth ip foldbins 0%Z)))) iw ip (nth ip (trials snrs iw) 0) dm).
  assert (EX : exists (idx : nat -> list nat) (thr : nat -> R -> R) (radius : nat -> R),
    concat per = flat_map (fun iw => map (mk iw) (idx iw)) (seq 0 (length widths)) /\
    forall iw, (iw < length widths)%nat ->
      is_threshold_rounded bld fit f (trials snrs iw) T smin segwidth nstd minseg polydeg (thr iw) /\
      (rnd64 (clrad / T) <= radius iw <= rnd64 (clrad / T) * (1 + / 2 ^ 52)) /\
      group_maxima (selected f (trials snrs iw) (thr iw) smin) (fun i => nth i f 0)
        (fun i => nth i (trials snrs iw) 0) (radius iw) (idx iw)).
  { assert (G : forall l per, Forall2 (fun iw cur =>
        (let width := nth iw widths 0%Z in
         let s := trials snrs iw in
         cur <- find_peaks_single (numF bld) fit argsort f s T smin segwidth nstd minseg polydeg clrad ;;
         Ok (map (mk iw) cur)) = Ok cur) l per -> NoDup l ->
      exists (idx : nat -> list nat) (thr : nat -> R -> R) (radius : nat -> R),
        concat per = flat_map (fun iw => map (mk iw) (idx iw)) l /\
        forall iw, In iw l ->
          is_threshold_rounded bld fit f (trials snrs iw) T smin segwidth nstd minseg polydeg (thr iw) /\
      (rnd64 (clrad / T) <= radius iw <= rnd64 (clrad / T) * (1 + / 2 ^ 52)) /\
          group_maxima (selected f (trials snrs iw) (thr iw) smin) (fun i => nth i f 0)
            (fun i => nth i (trials snrs iw) 0) (radius iw) (idx iw)).
    { clear EM per. intros l per F. induction F as [|iw cur l per E F IH]; intros ND.
      - exists (fun _ => []), (fun _ _ => 0), (fun _ => 0). split; [reflexivity|]. intros ? [].
      - inversion ND as [|? ? N1 N2]; subst. destruct (IH N2) as (idx & thr & radius & E1 & E2). cbv zeta in E.
        destruct (find_peaks_single (numF bld) fit argsort f (trials snrs iw) T smin segwidth nstd minseg polydeg clrad)
          as [c| | |] eqn:ES; try discriminate.
        cbn [bind] in E. injection E as <-.
        destruct (find_single_float _ _ _ _ _ _ _ _ _ _ _ _ _ HA Ff HC ES) as (t & rr & T1 & T0 & T2).
        exists (fun k => if k =? iw then c else idx k)%nat, (fun k => if k =? iw then t else thr k)%nat, (fun k => if (k =? iw)%nat then rr else radius k).
        split.
        + cbn [concat flat_map]. rewrite Nat.eqb_refl. f_equal. rewrite E1.
          clear - N1. induction l as [|a l IHl]; [reflexivity|]. cbn [flat_map].
          rewrite IHl by (intros ?; apply N1; now right).
          destruct (Nat.eqb_spec a iw) as [->|]; [destruct N1; now left|reflexivity].
        + intros k [<-|Hk].
          * rewrite Nat.eqb_refl. auto.
          * destruct (Nat.eqb_spec k iw) as [->|]; [contradiction|]. now apply E2. }
    destruct (G (seq 0 (length widths)) per) as (idx & thr & radius & E1 & E2); [exact EM|apply seq_NoDup|].
    exists idx, thr, radius. split; auto. intros iw Hiw. apply E2, in_seq. lia. }
  destruct EX as (idx & thr & radius & EC & HT). change (n_T (numF bld)) with R in *.
  assert (EC' : @concat (peak (numF bld)) per = flat_map (fun iw => map (mk iw) (idx iw)) (seq 0 (length widths))) by exact EC.
  rewrite EC'. clear EC EC' EM per.
  set (all := flat_map (fun iw => map (mk iw) (idx iw)) (seq 0 (length widths))).
  pose proof (sorted_desc_perm (fun p : peak (numF bld) => (p_snr p : R)) all) as PM.
  pose proof (sorted_desc_sorted (fun p : peak (numF bld) => (p_snr p : R)) all) as SS.
  split; [exact SS|].
  assert (INA : forall p, In p (sorted_desc (fun a b : peak (numF bld) => Rlt_bool (p_snr a) (p_snr b)) all) <->
     exists iw i, (iw < length widths)%nat /\ In i (idx iw) /\ p = mk iw i).
  { intros p. split; intros Hp.
    - apply (Permutation_in _ (Permutation_sym PM)) in Hp. apply in_flat_map in Hp as (iw & Hw & Hp).
      apply in_map_iff in Hp as (i & <- & Hi). apply in_seq in Hw. exists iw, i. repeat split; auto; lia.
    - destruct Hp as (iw & i & Hw & Hi & ->). apply (Permutation_in _ PM). apply in_flat_map.
      exists iw. split; [apply in_seq; lia|]. now apply in_map. }
  assert (TN : forall iw i, (i < length f)%nat -> nth i (trials snrs iw) 0 = at2 0 snrs i iw).
  { intros iw i Hi. unfold trials. rewrite HR.
    rewrite nth_indep with (d' := (fun i => at2 0 snrs i iw) 0%nat) by now rewrite map_length, seq_length.
    rewrite (map_nth (fun i => at2 0 snrs i iw)). now rewrite seq_nth. }
  split.
  { eapply Permutation_NoDup; [apply Permutation_map; exact PM|]. unfold all.
    assert (G : forall l, NoDup l -> (forall iw, In iw l -> (iw < length widths)%nat) ->
      NoDup (map (fun p : peak (numF bld) => (p_iw p, p_ip p)) (flat_map (fun iw => map (mk iw) (idx iw)) l))).
    { induction l as [|iw l IH]; intros ND HL; cbn; [constructor|]. rewrite map_app, map_map.
      inversion ND as [|? ? N1 N2]; subst.
      assert (NA : forall (u w : list (nat * nat)), NoDup u -> NoDup w -> (forall x, In x u -> ~ In x w) -> NoDup (u ++ w)).
      { clear. induction u as [|a u IH]; intros w N1 N2 DJ; auto. cbn. inversion N1; subst. constructor.
        - rewrite in_app_iff. intros [?|?]; [auto|]. apply (DJ a); auto; now left.
        - apply IH; auto. intros x Hx. apply DJ. now right. }
      apply NA.
      - cbn [mk p_iw p_ip]. destruct (HT iw) as (_ & _ & (N & _)); [apply HL; now left|].
        apply FinFun.Injective_map_NoDup; auto. intros a b E. now injection E.
      - apply IH; auto. intros; apply HL; now right.
      - intros [a b] Ha Hb. apply in_map_iff in Ha as (i & E & _). injection E as -> ->.
        apply in_map_iff in Hb as (q & E & Hq). apply in_flat_map in Hq as (iw' & Hw' & Hq).
        apply in_map_iff in Hq as (j & <- & _). injection E as -> _. contradiction. }
    apply G; [apply seq_NoDup|]. intros iw Hw. apply in_seq in Hw. lia. }
  exists thr, radius. split; [intros iw Hw; now apply HT|]. split; [intros iw Hw; now apply HT|]. cbv zeta. split; [|split].
  - intros p Hp. apply INA in Hp as (iw & i & Hw & Hi & ->). cbn [mk p_iw p_ip p_snr p_freq p_period p_width p_ducy p_dm].
    destruct (HT iw Hw) as (_ & _ & (_ & G2 & _)). destruct (G2 i Hi) as [S1 S2].
    split; auto. split; auto. split; [apply TN; apply S1|]. do 5 (split; [reflexivity|]).
    intros j Hj. specialize (S2 j Hj).
    assert (Lj : (j < length f)%nat).
    { apply clos_rt_rtn1 in Hj. inversion Hj as [|a b (_ & (Q & _) & _) _]; subst; [apply S1|exact Q]. }
    now rewrite TN in S2 by auto.
  - intros iw i Hw Hi. destruct (HT iw Hw) as (_ & _ & (_ & _ & G3 & _)). destruct (G3 i Hi) as (q & Hq & F).
    exists (mk iw q). split; [apply INA; exists iw, q; auto|]. split; auto.
  - intros p q Hp Hq E F. apply INA in Hp as (iw & i & Hw & Hi & ->). apply INA in Hq as (iw' & j & Hw' & Hj & ->).
    cbn [mk p_iw p_ip] in *. subst iw'. destruct (HT iw Hw) as (_ & _ & (_ & _ & _ & G4)). now apply G4.
Qed.
Print Assumptions find_peaks_float.

(** the three trials of Props/Peaks *)
Lemma ex_F64 : Forall F64 ex_f /\ Forall F64 [5; 9; 8].
Proof. unfold ex_f. split; repeat constructor; now apply F64_int. Qed.

Example segment_stats_float_used : forall bld, exists fc smed sstd : list R,
  segment_stats (numF bld) ex_f [5; 9; 8] 1 1 = Ok (fc, smed, sstd) /\ length fc = 2%nat /\
  near_quantile (1 / 2) (segment ex_f 1 0) (4 * u64 * 3 + 2 * eta64) (nth 0 fc 0).
Proof.
  intros bld. destruct ex_F64 as [F1 F2].
  assert (R2 : rnd64 (Rabs (rnd64 (last ex_f 0 - nth 0 ex_f 0)) / rnd64 (1 / 1)) = 2).
  { cbn [last ex_f nth]. replace (3 - 1) with 2 by ring. rewrite (rnd64_id 2) by now apply F64_int.
    replace (1 / 1) with 1 by field. rewrite (rnd64_id 1) by now apply F64_int.
    rewrite Rabs_pos_eq by lra. replace (2 / 1) with 2 by field. rewrite rnd64_id; auto. now apply F64_int. }
  destruct (segment_stats_float bld ex_f [5; 9; 8] 1 1 3 9 eq_refl) as (_ & _ & H); auto.
  - cbn. lia.
  - unfold ex_f. repeat (apply Forall_cons; [apply Rabs_le; lra|]); constructor.
  - repeat (apply Forall_cons; [apply Rabs_le; lra|]); constructor.
  - destruct (H 2%nat) as (_ & K); [discriminate|lia|rewrite R2; cbn; lra|].
    destruct (K ltac:(cbn; lia)) as (fc & smed & sstd & E & L & _ & _ & Q).
    exists fc, smed, sstd. split; auto. split; auto. apply (Q 0%nat). lia.
Qed.

Example find_peaks_float_used : forall bld fit argsort, sorts argsort ->
  exists peaks, a_rows ex_snrs = length ex_f /\ Forall F64 ex_f /\ 0 <= rnd64 (1 / 2 / 1) /\
    find_peaks (numF bld) fit argsort ex_f [10; 10; 10]%Z [2%Z] ex_snrs 1 None 6 1 5 10 2 (1 / 2) = Ok peaks /\
    exists p : peak (numF bld), In p peaks /\ p_iw p = 0%nat.
Proof.
  intros bld fit argsort HA. destruct ex_F64 as [F1 F2].
  assert (R0 : 0 <= rnd64 (1 / 2 / 1)) by (apply rnd64_nonneg; lra).
  destruct (segment_stats_float_used bld) as (fc & smed & sstd & ES & L & _).
  assert (OKP : exists peaks, find_peaks (numF bld) fit argsort ex_f [10; 10; 10]%Z [2%Z] ex_snrs 1 None 6 1 5 10 2 (1 / 2) = Ok peaks).
  { unfold find_peaks. cbn [length seq mapM]. unfold find_peaks_single.
    cbn [numF opsF n_dbl o_ofZ o_div n_ltb]. rewrite rnd64_0.
    change (map (fun i => at2 0 ex_snrs i 0) (seq 0 (a_rows ex_snrs))) with [5; 9; 8].
    change (n_T (numF bld)) with R in *. rewrite ES. cbn [bind]. change (n_T (numF bld)) with R in *.
    rewrite L. cbn [bind Z.leb Z.of_nat Z.compare]. eexists. reflexivity. }
  destruct OKP as (peaks & OKP). exists peaks. split; [reflexivity|]. split; [exact F1|]. split; [exact R0|].
  split; [exact OKP|].
  destruct (find_peaks_float bld fit argsort ex_f [10; 10; 10]%Z [2%Z] ex_snrs 1 None 6 1 5 10 2 (1 / 2) peaks HA F1 R0 eq_refl OKP)
    as (_ & _ & thr & rad & _ & TH & _ & B & _).
  destruct (B 0%nat 1%nat) as (p & Hp & I & _); [cbn; lia| |exists p; auto].
  destruct (TH 0%nat) as (fc' & sm & sd & E & X); [cbn; lia|].
  change (trials ex_snrs 0) with [5; 9; 8] in E. rewrite ES in E. injection E as <- <- <-.
  change (@length (n_T (numF bld))) with (@length R) in X. rewrite L in X. cbn in X. rewrite X.
  change (trials ex_snrs 0) with [5; 9; 8]. unfold selected, ex_f. cbn. split; [lia|lra].
Qed.
