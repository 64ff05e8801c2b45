(** C141: when Pipeline.prepare() returns, in floating point, and with it a whole run. *)
From Coq Require Import String List Arith ZArith Bool Lia Reals Lra Psatz Permutation.
From Flocq Require Import Core.
From Verif Require Import Base.Result Base.Buf Base.Num Model.FastRmed Model.Transforms Model.Downsample Model.Libffa Model.Periodogram Model.Metadata
  Model.TimeSeries Model.Search Model.Cluster Model.Peaks Model.Pipeline Model.Ranges Model.Worker
  Spec.Sums Spec.Overlap Spec.Noise Spec.Pulse Spec.Libm
  Proof.Downsample Proof.Cluster Proof.ClusterFloat Proof.TimeSeries Proof.PeaksFloat Proof.Pipeline Proof.SearchFloat Proof.CoverageFloat
  Props.Downsample Props.Snr Props.TimeSeries Props.Peaks Props.PeaksFloat Props.PeriodogramFloat Props.SnrFloat Props.DownsampleFloat
  Props.Detect Props.DetectFloat Props.Worker Props.Deredden Props.DereddenIeee Props.DereddenError Props.DereddenDetect Props.EndToEndFloat
  Props.WorkerFloat Props.WorkerReturns Proof.Harmonic
  Model.Harmonic Model.Folding Model.DmIter Model.Pool Model.Writer Model.Process Props.Harmonic Props.Pool Proof.RunKeeps Proof.RunTotal
  Props.FoldFloat Props.RunKeeps Props.RunFloat Props.RunTotal Props.DmIterFloat.
Import ListNotations.
Local Open Scope R_scope.

Section Prepare.
Context (bld : build).
Local Notation NF := (numF bld).
Context (abs_sin : R -> R) (read_meta : string -> res (meta NF)).

(** each range starts where the previous one ends *)
Fixpoint adjacent (l : list (range NF)) : Prop :=
  match l with
  | a :: ((b :: _) as rest) => (sk_pmax (r_search a) : R) = sk_pmin (r_search b) /\ adjacent rest
  | _ => True
  end.

(** the bins of a range are not shorter than the samples of the file *)
Definition bins_resolved (r : range NF) (m : meta NF) : Prop :=
  rnd64 (rnd64 (IZR (Z.of_nat (sk_bmin (r_search r)))) * m_tsamp m) <= sk_pmin (r_search r) /\
  rnd64 (rnd64 (IZR (r_cbins r)) * m_tsamp m) <= sk_pmin (r_search r).

Lemma tsamp_max_float (d : dmiter NF) : di_list d <> [] -> exists m, In m (di_list d) /\ m_tsamp m = tsamp_max NF d.
Proof.
  unfold tsamp_max. generalize (di_list d). intros [|a l] NE; [easy|]. cbn [map]. clear NE.
  assert (G : forall (l : list R) (x : R), In (fold_left (fun a b : R => if Rlt_bool a b then b else a) l x) (x :: l)).
  { clear. induction l as [|b l IH]; intros x; cbn [fold_left]; [now left|].
    destruct (IH (if Rlt_bool x b then b else x)) as [I|I]; [|right; now right].
    rewrite <- I. destruct (Rlt_bool x b); [right; now left|now left]. }
  specialize (G (map m_tsamp l) (m_tsamp a)). apply (in_map_iff m_tsamp (a :: l)) in G as (m & E & Hm).
  exists m. split; [exact Hm|exact E].
Qed.

Lemma tsamp_max_ge (d : dmiter NF) m : In m (di_list d) -> m_tsamp m <= tsamp_max NF d.
Proof.
  unfold tsamp_max. generalize (di_list d). intros [|a l] Hm; [easy|]. cbn [map].
  assert (G : forall (l : list R) (x : R), let f := fold_left (fun a b : R => if Rlt_bool a b then b else a) l x in x <= f /\ forall y, In y l -> y <= f).
  { clear. induction l as [|b l IH]; intros x; cbn [fold_left]; [split; [lra|easy]|].
    specialize (IH (if Rlt_bool x b then b else x)). cbv zeta in IH. destruct IH as [I1 I2].
    set (f := fold_left _ l _) in *. destruct (Rlt_bool_spec x b); (split; [lra|intros y [<-|Hy]; [lra|auto]]). }
  destruct (G (map m_tsamp l) (m_tsamp a)) as [G1 G2]. destruct Hm as [<-|Hm]; [exact G1|]. apply G2. now apply in_map.
Qed.

Lemma wmin_float (l : list (range_conf NF)) : l <> [] -> (forall r, In r l -> rg_bmin r <> 0%Z) -> exists w, wmin NF l = Ok w.
Proof.
  intros NE B. unfold wmin. match goal with |- context [mapM ?f _] => set (g := f) end.
  assert (E : exists o, mapM g l = Ok o /\ length o = length l).
  { clear NE. induction l as [|r l IH]; cbn [mapM]; [exists []; auto|].
    destruct IH as (o & E & L); [intros; apply B; now right|]. unfold g at 1.
    destruct (Z.eqb_spec (rg_bmin r) 0) as [Z|_]; [exfalso; apply (B r); [now left|exact Z]|]. cbn [bind]. rewrite E. cbn [bind].
    eexists. split; [reflexivity|]. cbn [length]. now rewrite L. }
  destruct E as (o & -> & L). cbn [bind]. destruct o as [|a o]; [destruct l; [easy|discriminate]|].
  unfold min_of, fold1. eauto.
Qed.

Lemma contiguity_float (l : list (range NF)) : adjacent l -> validate_ranges_contiguity NF (map range_conf_of l) = Ok tt.
Proof.
  induction l as [|a [|b l] IH]; [reflexivity|reflexivity|]. intros [E A]. cbn [map].
  change (validate_ranges_contiguity NF (range_conf_of a :: range_conf_of b :: map range_conf_of l)) with
    (_ <- guard (Req_bool (sk_pmax (r_search a)) (sk_pmin (r_search b))) InvalidSearchRange ;;
     validate_ranges_contiguity NF (map range_conf_of (b :: l))).
  rewrite Req_bool_true by exact E. cbn [guard bind]. now apply IH.
Qed.

Theorem prepare_float_total :
  forall (cf : config NF) files metas f0 f1 nc start stop,
  Forall2 (fun f m => read_meta f = Ok m) files metas ->
  same_position bld metas -> band_rounded bld metas (cf_fmin cf) (cf_fmax cf) (cf_nchans cf) f0 f1 nc ->
  range_rounded bld abs_sin metas (cf_dm_min cf) (cf_dm_max cf) (cf_dmsinb_max cf) start stop ->
  (exists m, In m metas /\ start <= m_dm m <= stop) ->
  cf_ranges cf <> [] -> adjacent (cf_ranges cf) ->
  (forall r, In r (cf_ranges cf) -> (1 <= sk_bmin (r_search r))%nat /\ forall m, In m metas -> bins_resolved r m) ->
  exists d, prepare NF abs_sin read_meta cf files = Ok d /\ di_list d = metas /\ (di_fmin d : R) = f0 /\ (di_fmax d : R) = f1 /\ di_nchans d = nc.
Proof.
  intros cf files metas f0 f1 nc start stop RM OP BO RG (mx & Imx & Lmx) NR AD BN.
  assert (NE : metas <> []) by (intros ->; destruct Imx).
  unfold prepare. destruct (wmin_float (ranges_of cf)) as (w & EW).
  { unfold ranges_of. destruct (cf_ranges cf); [easy|discriminate]. }
  { intros r Hr. unfold ranges_of in Hr. apply in_map_iff in Hr as (r0 & <- & Hr). cbn [rg_bmin range_conf_of]. pose proof (proj1 (BN r0 Hr)). lia. }
  rewrite EW. cbn [bind]. assert (EM : mapM read_meta files = Ok metas).
  { clear - RM. induction RM as [|f m fs ms E F IH]; cbn [mapM]; [reflexivity|]. now rewrite E, IH. }
  rewrite EM. cbn [bind].
  rewrite (dm_iterator_reduces bld abs_sin metas _ _ _ w _ _ _ f0 f1 nc start stop NE OP BO RG).
  destruct (dict_of_spec_f bld metas) as (D1 & D2 & _).
  destruct (select_dms_total NF (map fst (dict_of NF metas)) start stop f0 f1 nc w) as [[A _]|[_ (sel & ES & _)]].
  { exfalso. apply (A (m_dm mx)); [apply D2; now apply in_map|]. cbn [numF n_leb]. rewrite !Rle_bool_true by apply Lmx. auto. }
  change (n_T NF) with R in *. rewrite ES. cbn [bind]. set (d := DMI (N := NF) metas (dict_of NF metas) sel f0 f1 nc).
  assert (V : validate_ranges NF (ranges_of cf) (tsamp_max NF d) = Ok tt).
  { destruct (tsamp_max_float d NE) as (mt & Imt & <-). unfold validate_ranges.
    assert (F : foreach (ranges_of cf) (fun r _ => validate_range NF (m_tsamp mt) r) tt = Ok tt).
    { unfold ranges_of. assert (BN' : forall r, In r (cf_ranges cf) -> bins_resolved r mt) by (intros r Hr; now apply BN).
      clear - BN'. induction (cf_ranges cf) as [|r rs IH]; [reflexivity|]. cbn [map foreach].
      destruct (BN' r (or_introl eq_refl)) as [B1 B2]. unfold validate_range at 1.
      cbn [rg_bmin rg_cbins rg_pmin range_conf_of numF opsF n_dbl o_ofZ o_mul n_ltb].
      rewrite (Rlt_bool_false _ _ B1), (Rlt_bool_false _ _ B2). cbn [negb guard bind]. apply IH. intros; apply BN'; now right. }
    rewrite F. cbn [bind]. now apply contiguity_float. }
  rewrite V. cbn [bind]. exists d. repeat split; reflexivity.
Qed.

(** conversely, what a run knows once prepare() has returned *)
Theorem prepare_float_validated :
  forall (cf : config NF) files d, prepare NF abs_sin read_meta cf files = Ok d ->
  cf_ranges cf <> [] /\ adjacent (cf_ranges cf) /\
  forall r, In r (cf_ranges cf) -> (1 <= sk_bmin (r_search r))%nat /\ ((0 <= r_cbins r)%Z -> forall m, In m (di_list d) -> bins_resolved r m).
Proof.
  intros cf files d H. unfold prepare in H. apply bind_ok in H as (w & EW & H). apply bind_ok in H as (l & _ & H).
  apply bind_ok in H as (d' & _ & H). apply bind_ok in H as (u & EV & H). injection H as <-.
  split; [intros E; unfold ranges_of in EW; rewrite E in EW; discriminate|].
  unfold validate_ranges in EV. apply bind_ok in EV as (u1 & EF & EC). split.
  - clear - EC. unfold ranges_of in EC. induction (cf_ranges cf) as [|a [|b rs] IH]; [exact I|exact I|]. cbn [map] in EC.
    change (validate_ranges_contiguity NF (range_conf_of a :: range_conf_of b :: map range_conf_of rs)) with
      (_ <- guard (Req_bool (sk_pmax (r_search a)) (sk_pmin (r_search b))) InvalidSearchRange ;;
       validate_ranges_contiguity NF (map range_conf_of (b :: rs))) in EC.
    destruct (Req_bool_spec (sk_pmax (r_search a)) (sk_pmin (r_search b))) as [E|E]; [|discriminate]. cbn [guard bind] in EC. split; [exact E|].
    apply IH. exact EC.
  - intros r Hr. split.
    + unfold wmin in EW. apply bind_ok in EW as (o & EM & _). apply mapM_inv in EM. unfold ranges_of in EM.
      clear - EM Hr. destruct (sk_bmin (r_search r)) eqn:Z; [exfalso|lia].
      revert o EM. induction (cf_ranges cf) as [|a rs IH]; [destruct Hr|]. intros o EM. cbn [map] in EM. inversion EM as [|x y k k' E F]; subst.
      destruct Hr as [->|Hr]; [|eapply IH; eauto]. cbn [rg_bmin range_conf_of] in E. rewrite Z in E. discriminate.
    + intros CB m Hm. pose proof (tsamp_max_ge d' m Hm) as LE. set (t := tsamp_max NF d') in *. change (n_T NF) with R in *.
      assert (B : rnd64 (rnd64 (IZR (Z.of_nat (sk_bmin (r_search r)))) * t) <= sk_pmin (r_search r) /\
                  rnd64 (rnd64 (IZR (r_cbins r)) * t) <= sk_pmin (r_search r)).
      { clear - EF Hr. unfold ranges_of in EF. destruct u1. induction (cf_ranges cf) as [|a rs IH]; [destruct Hr|]. cbn [map foreach] in EF.
        apply bind_ok in EF as ([] & E1 & E2). destruct Hr as [->|Hr]; [|auto]. unfold validate_range in E1.
        cbn [rg_bmin rg_cbins rg_pmin range_conf_of numF opsF n_dbl o_ofZ o_mul n_ltb] in E1.
        revert E1. destruct (Rlt_bool_spec (sk_pmin (r_search r)) (rnd64 (rnd64 (IZR (Z.of_nat (sk_bmin (r_search r)))) * t))); [discriminate|].
        cbn [negb guard bind]. destruct (Rlt_bool_spec (sk_pmin (r_search r)) (rnd64 (rnd64 (IZR (r_cbins r)) * t))); [discriminate|]. auto. }
      destruct B as [B1 B2].
      assert (P : forall z, (0 <= z)%Z -> 0 <= rnd64 (IZR z)).
      { intros z Hz. rewrite <- (rnd64_id 0) by apply generic_format_0. apply rnd64_le. now apply IZR_le. }
      split; (eapply Rle_trans; [apply rnd64_le, Rmult_le_compat_l; [apply P; lia|exact LE]|assumption]).
Qed.
End Prepare.
Print Assumptions prepare_float_total.
Print Assumptions prepare_float_validated.

Section Run.
Context (bld : build).
Local Notation NF := (numF bld).
Context (flog : R -> R) (fpow : R -> nat -> R) (alloc : nat -> list R) (allocz : nat -> list Z) (fit : list R -> list R -> Z -> res (R -> R))
  (argsort : list R -> list nat) (as_fraction : R -> res (Z * Z)) (abs_sin : R -> R)
  (read_meta : string -> res (meta NF)) (load : string -> res (series NF)).
Context (peaks_csv : list (peak NF) -> string) (clusters_csv : list (row NF) -> string)
  (candidates_csv : list (peak NF) -> string) (to_json png : candidate NF (series NF) -> res string)
  (pieces : string -> list string).
Local Notation process := (process NF flog fpow alloc allocz fit argsort as_fraction abs_sin read_meta load peaks_csv clusters_csv
  candidates_csv to_json png pieces).

(** C141.  In floating point: a run returns, with the same products whatever the schedule, under conditions on the files and
    the configuration alone: the files point at one position, a band of positive frequencies is shared by them or
    configured, some file has a DM in the range asked for, the search ranges are contiguous with bins no shorter than
    the samples, and the workers can search the files. *)
Theorem run_float_prepared :
  forall (cf : config NF) files outdir s metas (minpts : Z) f0 f1 nc start stop,
  allocates alloc -> allocates allocz -> sorts argsort ->
  (forall x, double x -> 1 <= x -> exists n d, as_fraction x = Ok (n, d) /\ (0 < d <= n)%Z /\ Z.gcd n d = 1%Z) ->
  (forall c, (exists t, to_json c = Ok t) /\ (cf_plot cf = true -> exists t, png c = Ok t)) ->
  (* the configuration *)
  cf_processes cf <> 0%nat -> 0 <= cf_rmed_width cf -> cf_rmed_minpts cf = PInt minpts -> (0 < minpts <= 2 ^ 52)%Z -> Z.odd minpts = true ->
  (1 <= hf_denom_max (cf_harmonics cf))%Z ->
  (forall r, In r (cf_ranges cf) -> double (sk_ducy (r_search r)) /\ sk_ducy (r_search r) < 1 /\
     fit_works_rounded bld fit (r_peaks r) /\ forall c, pk_clrad (r_peaks r) = Some c -> 0 <= c) ->
  cf_ranges cf <> [] -> adjacent bld (cf_ranges cf) ->
  (forall r, In r (cf_ranges cf) -> (1 <= sk_bmin (r_search r))%nat /\ forall m, In m metas -> bins_resolved bld r m) ->
  (* the files *)
  Forall2 (fun f m => read_meta f = Ok m) files metas ->
  same_position bld metas -> band_rounded bld metas (cf_fmin cf) (cf_fmax cf) (cf_nchans cf) f0 f1 nc -> 0 < f0 < f1 ->
  range_rounded bld abs_sin metas (cf_dm_min cf) (cf_dm_max cf) (cf_dmsinb_max cf) start stop ->
  (exists m, In m metas /\ start <= m_dm m <= stop) ->
  (forall m, In m metas -> / 2 ^ 1000 <= m_tobs m /\ searchable_rounded bld flog fpow load cf minpts m) ->
  exists pr, (exists s', process False cf files outdir s (Ok pr) s') /\
    forall r s', process False cf files outdir s r s' -> r = Ok pr.
Proof.
  intros cf files outdir s metas minpts f0 f1 nc start stop Ha Hz HS AF WR PR R0 MP M0 MO DM CR NR AD BN RM OP BO BP RG SM SE.
  destruct (prepare_float_total bld abs_sin read_meta cf files metas f0 f1 nc start stop RM OP BO RG SM NR AD BN) as (d & EP & _ & F0 & F1 & _).
  eapply (run_float_total bld flog fpow alloc allocz fit argsort as_fraction abs_sin read_meta load peaks_csv clusters_csv
    candidates_csv to_json png pieces cf files outdir s d metas minpts); eauto.
  change (n_T NF) with R in *. rewrite F0, F1. exact BP.
Qed.
End Run.
Print Assumptions run_float_prepared.

(** the conditions on the run of C137 *)
Example run_float_prepared_ex : forall bld,
  let m := Meta (N := numF bld) "a.inf" 10 (10000 / 1024) (/ 1024) 0 30 (Some (1000, 5, 100%Z)) in let cf := blips_config bld in
  Forall2 (fun f x => blips_meta bld f = Ok x) ["a.inf"%string] [m] /\ same_position bld [m] /\
  band_rounded bld [m] (cf_fmin cf) (cf_fmax cf) (cf_nchans cf) 1000 1500 100 /\
  range_rounded bld (fun _ => / 2) [m] (cf_dm_min cf) (cf_dm_max cf) (cf_dmsinb_max cf) 10 10 /\
  (exists x, In x [m] /\ 10 <= m_dm x <= 10) /\ cf_ranges cf <> [] /\ adjacent bld (cf_ranges cf) /\
  forall r, In r (cf_ranges cf) -> (1 <= sk_bmin (r_search r))%nat /\ forall x, In x [m] -> bins_resolved bld r x.
Proof.
  intros bld m cf. assert (I : forall z, (Z.abs z < 2 ^ 53)%Z -> rnd64 (IZR z) = IZR z) by (intros; now apply rnd64_id, F64_int).
  split; [repeat constructor|]. split; [intros x y [<-|[]] [<-|[]]; auto|]. split.
  { left. intros x [<-|[]]. exists 1000, 5. split; [reflexivity|]. unfold top_rounded. rewrite (I 100%Z) by lia. replace (100 * 5) with (IZR 500) by lra.
    rewrite (I 500%Z) by lia. replace (1000 + 500) with (IZR 1500) by lra. rewrite (I 1500%Z) by lia. rewrite Rmin_left, Rmax_right by lra. auto. }
  split.
  { split; [split; [intros x [<-|[]]; cbn; lra|exists m; split; [now left|reflexivity]]|].
    exists 10. split; [split; [intros x [<-|[]]; cbn; lra|exists m; split; [now left|reflexivity]]|]. reflexivity. }
  split; [exists m; split; [now left|cbn; lra]|]. split; [discriminate|]. split; [exact Logic.I|].
  intros r [<-|[]]. split; [cbn; lia|]. intros x [<-|[]]. unfold bins_resolved. cbn [blips_range r_search r_cbins blips_kw sk_pmin sk_bmin m_tsamp m].
  change (Z.of_nat 40) with 40%Z. rewrite (I 40%Z), (I 16%Z) by lia.
  assert (L : forall z, (0 <= z <= 64)%Z -> rnd64 (IZR z * / 1024) <= / 16).
  { intros z Hz. assert (D : F64 (/ 16)) by (replace (/ 16) with (bpow radix2 (-4)) by (cbn; lra); apply generic_format_bpow; unfold FLT_exp; lia).
    rewrite <- (rnd64_id _ D). apply rnd64_le. assert (IZR z <= 64) by (apply IZR_le; lia). lra. }
  split; apply L; lia.
Qed.
