(** C123: a pulse train in one of the input files comes out of the pipeline. *)
From Coq Require Import String List Arith ZArith Bool Lia Reals Lra Psatz Permutation Sorted Relations.
From Flocq Require Import Core.
From Verif Require Import Base.Result Base.Buf Base.Num Model.FastRmed Model.Transforms Model.Libffa Model.Periodogram
  Model.Metadata Model.TimeSeries Model.Cluster Model.Peaks Model.Harmonic Model.DmIter Model.Pipeline Model.Ranges Model.Pool
  Model.Writer Model.Worker Model.Process Spec.Friends Spec.Sums Spec.Noise Spec.Pulse Spec.Smearing Proof.Pipeline
  Proof.Cluster Proof.TimeSeries Proof.Detect Props.Downsample
  Props.FastRmed Props.Cluster Props.Snr Props.TimeSeries Props.Periodogram Props.Search Props.Peaks Props.DmIter Props.Pipeline
  Props.Build Props.Pool Props.Worker Props.Process Props.Run Props.RseekRun Props.Detect Props.Deredden Props.EndToEnd.
Import ListNotations.
Local Open Scope R_scope.

Section Run.
Context (alloc : nat -> list R) (allocz : nat -> list Z) (fit : list R -> list R -> Z -> res (R -> R))
  (argsort : list R -> list nat) (as_fraction : R -> res fraction) (abs_sin : R -> R)
  (read_meta : string -> res (meta numR)) (load : string -> res (series numR)).
Context (peaks_csv : list (peak numR) -> string) (clusters_csv : list (row numR) -> string)
  (candidates_csv : list (peak numR) -> string) (to_json png : candidate numR (series numR) -> res string)
  (pieces : string -> list string).
Local Notation process := (process numR ln pow alloc allocz fit argsort as_fraction abs_sin read_meta load peaks_csv clusters_csv
  candidates_csv to_json png pieces).
Local Notation worker := (worker numR ln pow alloc allocz fit argsort load).

(** every peak of the workers is in a cluster, whose brightest peak is no fainter *)
Lemma clustered_brightest radius peaks cs p : clustered radius peaks cs -> In p peaks ->
  exists i c q, nth_error cs i = Some c /\ In p (c_peaks c) /\ first_brightest (c_peaks c) q /\ p_snr p <= p_snr q.
Proof.
  intros (groups & EC & NE & _ & F2) Hp. destruct (In_nth_error _ _ Hp) as (j & Ej).
  assert (J : In j (concat groups)).
  { rewrite EC. apply in_seq. split; [lia|]. apply nth_error_Some. congruence. }
  apply in_concat in J as (g & Ig & Jg). destruct (In_nth_error _ _ Ig) as (i & Ei).
  assert (C : exists c, nth_error cs i = Some c /\ Forall2 (fun i p => nth_error peaks i = Some p) g (c_peaks c)).
  { clear - F2 Ei. revert i Ei. induction F2 as [|g' c' gs cs' H _ IH]; intros [|i] Ei; try discriminate.
    - injection Ei as ->. exists c'. split; [reflexivity|exact H].
    - apply (IH i Ei). }
  destruct C as (c & Ec & Fc).
  assert (Ip : In p (c_peaks c)).
  { clear - Fc Jg Ej. induction Fc as [|a b l l' H _ IH]; [destruct Jg|]. destruct Jg as [->|Jg]; [left; congruence|right; auto]. }
  destruct (brightest_exists (c_peaks c)) as (q & Bq); [intros E; rewrite E in Ip; destruct Ip|].
  exists i, c, q. split; [exact Ec|]. split; [exact Ip|]. split; [exact Bq|].
  destruct Bq as (l1 & l2 & E & B1 & B2). rewrite E in Ip. apply in_app_iff in Ip as [I|[<-|I]]; [apply Rlt_le; auto|apply Rle_refl|auto].
Qed.

Theorem process_finds_pulses :
  forall faults cf files outdir s pr s',
  environment_ok alloc allocz fit argsort -> config_ok cf -> files_ok read_meta load cf files -> band_known read_meta cf files ->
  process faults cf files outdir s (Ok pr) s' ->
  exists metas f0 f1 nc dms,
    Forall2 (fun f m => read_meta f = Ok m) files metas /\ selection abs_sin cf metas f0 f1 nc dms /\
  forall dm m ts r (period phi w base : R) (on : nat -> bool),
  In dm dms -> last_with metas dm m -> load (m_fname m) = Ok ts -> 0 < se_tsamp ts -> In r (cf_ranges cf) ->
  let k := r_search r in let q := r_peaks r in
  let x := se_data ts in let tsamp := se_tsamp ts in
  let groups := groups_of (ZnearestE (cf_rmed_width cf / tsamp)) (cf_rmed_minpts cf) in
  let T := INR (length x) * tsamp in
  range_fits (length x) tsamp k -> sk_pmin k <= period < sk_pmax k ->
  0 <= w -> pulse_train tsamp period phi w base on x -> median_blind tsamp period w on (length x) (fst groups) (snd groups) ->
  exists (widths : list Z) (periods : list R) (bins : list Z) (snrs : arr2 R) (thr : nat -> R -> R) (t b rows : nat) (f clrad : R),
    (* of the periodogram of the data *)
    (exists ts', ffa_search_ts numR ln pow alloc allocz ts k true (cf_rmed_width cf) (cf_rmed_minpts cf) false
       = Ok (ts', Pgram (N := numR) widths periods bins snrs (se_md ts'))) /\
    generate_width_trials numR (Z.of_nat (sk_bmin k)) (sk_ducy k) (sk_wtsp k) = Ok widths /\
    nearest_trial (length x) tsamp period periods bins t b rows f /\ (sk_bmin k <= b <= sk_bmax k)%nat /\
    Forall (fun P => sk_pmin k <= P < sk_pmax k) periods /\
    pk_clrad q = Some clrad /\
    (forall iw, (iw < length widths)%nat ->
       is_threshold fit (map (fun P => 1 / P) periods) (trials snrs iw) T
         (pk_smin q) (pk_segwidth q) (pk_nstd q) (pk_minseg q) (pk_polydeg q) (thr iw)) /\
    forall iw, (iw < length widths)%nat ->
      let W := Z.to_nat (nth iw widths 0%Z) in
      w * INR b + INR (Nat.log2_up rows) + 3 <= INR W ->
      let sure := sure_snr x base on b W rows f in
      pk_smin q < sure -> thr iw (1 / nth t periods 0) < sure ->
      (* a cluster holds the peak found in this file and has a brightest peak *)
      exists c p best,
        In c (pr_clusters pr) /\ In p (c_peaks c) /\ p_dm p = Some dm /\ sure <= p_snr p /\
        chain periods snrs (length widths) (pk_smin q) (clrad / T) (1 / nth t periods 0) (p_freq p) /\
        first_brightest (c_peaks c) best /\ sure <= p_snr best /\
        (* it is a candidate unless it is filtered out or cannot be folded *)
        (passes (cf_filters cf) c best -> fl_max_number (cf_filters cf) = None ->
         (forall r' m', In r' (cf_ranges cf) -> In m' metas -> p_period best <> IZR (r_cbins r') * m_tsamp m') ->
         exists cd, In cd (pr_candidates pr) /\ cd_params cd = best /\ cd_peaks cd = c_peaks c).
Proof.
  intros faults cf files outdir s pr s' EN CO FO BK H.
  destruct (process_ok_inv _ _ _ _ _ _ _ _ _ _ _ _ _ _ _ _ _ _ _ _ _ H) as (d & EP & ES & _ & _).
  destruct (process_correct _ _ _ _ _ _ _ _ _ _ _ _ _ _ _ _ _ _ _ _ _ EN CO FO BK H)
    as (metas' & f0' & f1' & nc' & trs & tmed & kept & outs & RM' & _ & _ & FT & _ & _ & _ & CL & _ & FI & CA & PO & _).
  destruct (prepare_inv _ _ _ cf files d CO FO BK EP) as (metas & w0 & RM & NE & LD & DD & LW & W0' & VR & POS & DI).
  assert (EM : metas' = metas).
  { clear - RM RM'. revert metas' RM'. induction RM as [|f m fs ms E _ IH]; intros metas' RM'; inversion RM'; subst; [reflexivity|].
    f_equal; [congruence|auto]. }
  subst metas'.
  pose proof (band_prepared _ _ cf files d BK EP) as BD.
  destruct (dm_iterator_correct abs_sin metas _ _ _ w0 _ _ _ d POS W0' DI BD) as (SS & (start & stop & RG & R1 & R2) & GF & CH).
  exists metas, (di_fmin d), (di_fmax d), (di_nchans d), (di_selected d). split; [exact RM|].
  split; [split; [exact SS|]; exists w0, start, stop; auto|].
  intros dm m ts r period phi w base on Idm LWm EL T0 Ir k q x tsamp groups T RF HP W0 PT MB.
  (* the worker that searched the file *)
  pose proof EN as (Ha & Hz & Hs & Hf).
  assert (WK : exists l, worker cf (m_fname m) = Ok l /\ forall p, In p l -> In p (pr_peaks pr)).
  { pose proof CO as (PR & _). destruct (CH (cf_processes cf)) as (chunks & EC & _ & F2); [lia|].
    unfold Process.search_files in ES. rewrite EC in ES.
    apply search_correct in ES; [|exact PR|].
    2:{ intros y Hy. destruct (Forall2_in_r _ _ _ F2 y Hy) as (k0 & _ & m0 & LW0 & <-).
        apply last_with_in in LW0 as [Im _].
        exact (proj1 (worker_ok alloc allocz fit argsort read_meta load cf files metas m0 EN CO FO RM Im)). }
    destruct ES as (ls & FL & PM & _ & _).
    destruct (Forall2_in_l _ _ _ F2 dm Idm) as (name & In1 & m0 & LW0 & <-).
    rewrite (last_with_fun _ _ _ _ LW0 LWm) in In1.
    destruct (Forall2_in_l _ _ _ FL _ In1) as (l & Il & El). exists l. split; [exact El|].
    intros p Ip. apply (Permutation_in _ (Permutation_sym PM)). apply in_concat. eauto. }
  destruct WK as (l & EW & IW).
  pose proof (last_with_in _ _ _ LWm) as [Im Em].
  destruct (Forall2_in_r _ _ _ RM m Im) as (f & If & Ef). destruct (FO f m If Ef) as (_ & _ & FO3).
  destruct (FO3 ts EL) as (DM & TS & _). rewrite Em in DM.
  assert (P0 : 0 < period).
  { pose proof CO as (_ & _ & FR & _). rewrite Forall_forall in FR. destruct (FR r Ir) as (X & _). fold k in X. numR_ty. lra. }
  destruct (worker_detects alloc allocz fit argsort load (cf_rmed_width cf) (cf_rmed_minpts cf) (search_confs cf) (m_fname m) ts dm l k q
    period phi w base on Ha Hz Hs EL T0 DM EW) as (widths & periods & bins & snrs & thr & t & b & rows & ff & clrad & KP & K1 & K2 & K3 & KR & K4 & K5 & K6);
    auto.
  { unfold search_confs. apply in_map_iff. exists r. split; [reflexivity|exact Ir]. }
  exists widths, periods, bins, snrs, thr, t, b, rows, ff, clrad. do 7 (split; [assumption|]).
  intros iw Hiw W Hwide sure HS1 HS2. destruct (K6 iw Hiw Hwide HS1 HS2) as (p & Ip & _ & Dp & Sp & Cp).
  destruct (clustered_brightest _ _ _ p CL (IW p Ip)) as (i & c & best & Ec & Ipc & Bc & Lb).
  exists c, p, best. split; [eapply nth_error_In; eauto|]. split; [exact Ipc|]. split; [exact Dp|]. split; [exact Sp|]. split; [exact Cp|].
  split; [exact Bc|]. split; [eapply Rle_trans; eauto|].
  intros PA MX NF. destruct FI as [_ FI]. rewrite MX in FI. destruct FI as [_ FI].
  assert (Ik : In i kept) by (apply (FI i best); exists c; auto).
  destruct (Forall2_in_l _ _ _ CA i Ik) as (o & Io & c' & p' & tr & r' & Ec' & B' & It & _ & _ & Ir' & _ & _ & CD).
  numR_ty. rewrite Ec in Ec'. injection Ec' as <-. rewrite (first_brightest_fun _ _ _ B' Bc) in *.
  rewrite Forall_forall in FT. destruct (FT tr It) as (m' & LW' & EL' & (T' & _) & _).
  pose proof (last_with_in _ _ _ LW') as [Im' _].
  destruct (Forall2_in_r _ _ _ RM m' Im') as (f' & If' & Ef'). destruct (FO f' m' If' Ef') as (_ & _ & FO3').
  destruct (FO3' _ EL') as (_ & TS' & _).
  destruct CD as (X & -> & _).
  { rewrite T', TS'. now apply NF. }
  exists (Cand (N := numR) best (tr_ts tr) (c_peaks c) X). split; [|split; reflexivity].
  apply (Permutation_in _ (Permutation_sym PO)). unfold somes. apply in_flat_map. eexists. split; [exact Io|]. now left.
Qed.
End Run.
Print Assumptions process_finds_pulses.

(** ** A run: one file with the pulses of the example of rseek *)
Definition pd_series : series numR :=
  Series (N := numR) train_data (1/1000) [("dm", MFloat (N := numR) 0)]%string.
Definition pd_read_meta (f : string) : res (meta numR) :=
  Ok (Meta (N := numR) f 0 10 (1/1000) 0 30 (Some (1000, 5, 100%Z))).
Definition pd_load (f : string) : res (series numR) := Ok pd_series.
Definition pd_fit (_ _ : list R) (_ : Z) : res (R -> R) := Ok (fun _ => 6).
Definition pd_range : range numR :=
  Rg (N := numR) (Search_kw (N := numR) 1 2 8 240 260 (3/10) (3/2)) (Peaks_kw (N := numR) 7 5 6 10 2 (Some (1/10))) 64 16.
Definition pd_config : config numR :=
  Config (N := numR) 2 None None (Some 8) None None None 4 (PInt 101) [pd_range]
    (1/10) (Hflags (N := numR) 100 1 3 3) (Filters (N := numR) None None None None) false.

Definition pd_process := process numR ln pow (fun n => repeat 0 n) (fun n => repeat 0%Z n) pd_fit argsort_R ex_fraction (fun _ => 1/2)
    pd_read_meta pd_load
    (fun _ => "p"%string) (fun _ => "k"%string) (fun _ => "c"%string) (fun _ => Ok "{}"%string) (fun _ => Ok ""%string) (fun s => [s]).

Example process_finds_pulses_used :
  (exists pr s', pd_process False pd_config ["a.inf"%string] "/out" (fun _ => None) (Ok pr) s') /\
  forall pr s', pd_process False pd_config ["a.inf"%string] "/out" (fun _ => None) (Ok pr) s' ->
    exists c p, In c (pr_clusters pr) /\ first_brightest (c_peaks c) p /\ 9 < p_snr p.
Proof.
  set (ma := Meta (N := numR) "a.inf" 0 10 (1/1000) 0 30 (Some (1000, 5, 100%Z))).
  destruct train_fits as (WO & RF & SF).
  assert (EN : environment_ok (fun n => repeat 0 n) (fun n => repeat 0%Z n) pd_fit argsort_R).
  { split; [intros k; apply repeat_length|]. split; [intros k; apply repeat_length|]. split; [exact argsort_R_sorts|]. intros; split; discriminate. }
  assert (CO : config_ok pd_config).
  { split; [discriminate|]. split; [reflexivity|]. split; [|intros n E; discriminate].
    constructor; [|constructor]. unfold range_fine. cbn [pd_range r_search sk_pmin sk_bmin r_cbins r_csubints].
    split; [lra|]. repeat split; lia. }
  assert (FO : files_ok pd_read_meta pd_load pd_config ["a.inf"%string]).
  { intros f m _ E. injection E as <-. cbn [m_dm m_fname m_tsamp]. split; [lra|].
    split; [split; discriminate|]. intros ts E. injection E as <-. split; [reflexivity|]. split; [reflexivity|].
    constructor; [|constructor]. cbn [pd_series se_data se_tsamp pd_range r_search]. numR_ty. rewrite train_length. apply RF. }
  assert (BK : band_known pd_read_meta pd_config ["a.inf"%string]).
  { intros metas f0 f1 nc F B.
    assert (metas = [ma]) as ->.
    { inversion F as [|? ? ? ? E1 F1]; subst. inversion F1; subst. injection E1 as <-. reflexivity. }
    destruct B as [B|(_ & B & _)]; [|discriminate].
    destruct (B ma (or_introl eq_refl)) as (fb & cb & E & G). injection E as <- <- <-.
    revert G. rewrite Rmin_left, Rmax_right by lra. intros [-> ->]. split; [lra|lia]. }
  assert (RM : Forall2 (fun f m => pd_read_meta f = Ok m) ["a.inf"%string] [ma]) by (repeat constructor).
  split.
  - destruct (process_total (fun n => repeat 0 n) (fun n => repeat 0%Z n) pd_fit argsort_R ex_fraction (fun _ => 1/2)
      pd_read_meta pd_load (fun _ => "p"%string) (fun _ => "k"%string) (fun _ => "c"%string) (fun _ => Ok "{}"%string)
      (fun _ => Ok ""%string) (fun s => [s]) pd_config ["a.inf"%string] "/out"%string (fun _ => None) [ma] 1000 1500 100%Z 0 0)
      as (H & _); auto.
    + intros s. cbn. induction s as [|a s IH]; cbn; [reflexivity|now rewrite IH].
    + intros x y [<-|[]] [<-|[]]; cbn; auto.
    + left. intros x [<-|[]]; exists 1000, 5; (split; [reflexivity|]); rewrite Rmin_left, Rmax_right by lra; lra.
    + split; [split; [intros x [<-|[]]; cbn; lra|exists ma; split; [now left|reflexivity]]|].
      exists 0. split; [split; [intros x [<-|[]]; cbn; lra|exists ma; split; [now left|reflexivity]]|].
      exists ma, 30. split; [now left|]. split; [reflexivity|]. rewrite Req_bool_false by lra. rewrite Rmin_left by lra. reflexivity.
    + exists ma. split; [now left|cbn; lra].
    + discriminate.
    + exact I.
    + intros m r [<-|[]] [<-|[]]; cbn [pd_range r_search r_cbins sk_bmin sk_pmin m_tsamp ma].
      replace (INR 240) with 240 by (rewrite INR_IZR_INZ; reflexivity). lra.
    + intros m Hm. split; [destruct Hm as [<-|[]]; cbn; lra|].
      exists pd_series. split; [reflexivity|]. split.
      { cbn. rewrite Rle_bool_true by lra; reflexivity. }
      cbn [pd_series se_data se_tsamp]. numR_ty. rewrite train_length.
      split; [lra|]. split; [exact WO|]. constructor; [|constructor]. split; [exact RF|].
      split; [split; [discriminate|intros fc sc _; unfold pd_fit; eauto]|exact SF].
    + cbn. lia.
    + intros x Hx. exists (Zfloor x), 1%Z. split; [reflexivity|]. assert (1 <= Zfloor x)%Z by (apply Zfloor_lub; exact Hx).
      split; [lia|apply Z.gcd_1_r].
    + intros c. split; eauto.
  - intros pr s' H.
    destruct (process_finds_pulses _ _ _ _ _ _ _ _ _ _ _ _ _ _ _ _ _ _ _ _ _ EN CO FO BK H)
      as (metas & f0 & f1 & nc & dms & RM' & SEL & DET).
    assert (metas = [ma]) as ->.
    { inversion RM' as [|? ? ? ? E1 F1]; subst. inversion F1; subst. injection E1 as <-. reflexivity. }
    (* DM 0 was searched *)
    assert (I0 : In 0 dms).
    { destruct SEL as (_ & w & start & stop & LW & RG & IN & CV).
      destruct RG as ((S1 & m1 & Hm1 & ->) & e & (S2 & m2 & Hm2 & ->) & m3 & gb & Hm3 & -> & ST).
      assert (stop = 0).
      { revert ST. rewrite Req_bool_false by lra. intros ->. destruct Hm2 as [<-|[]]. cbn. rewrite Rmin_left by lra. reflexivity. }
      subst stop. destruct (CV m1 (m_dm m1) Hm1) as (k & Ik & _).
      { split; [lra|]. destruct Hm1 as [<-|[]]. cbn. lra. }
      { unfold tolerable, delay at 1. rewrite Rminus_diag_eq by reflexivity. rewrite Rabs_R0.
        destruct LW as [LW _]. cbn [bin_widths pd_config cf_ranges map pd_range r_search sk_pmin sk_bmin] in LW. destruct LW as [<-|[]].
        eapply Rle_trans; [|apply Rmax_l]. unfold Rdiv at 1. rewrite !Rmult_0_l.
        apply Rmult_le_pos; [lra|]. left. apply Rinv_0_lt_compat. apply (lt_INR 0). lia. }
      destruct (IN k Ik) as [L1 L2]. destruct Hm1 as [<-|[]]. cbn in L1. replace 0 with k by lra. exact Ik. }
    destruct (DET 0 ma pd_series pd_range 1 (1 / 2) (1 / 50) 0 train_on I0)
      as (widths & periods & bins & snrs & thr & t & b & rows & f & clrad & _ & G1 & G2 & G3 & GR & _ & G4 & G5);
      cbn [pd_series se_data se_tsamp pd_range r_search r_peaks sk_pmin sk_pmax sk_bmin sk_bmax sk_ducy sk_wtsp] in *; rewrite ?train_length.
    + exists [], []. split; [reflexivity|]. split; [reflexivity|]. intros m' [].
    + reflexivity.
    + lra.
    + now left.
    + exact RF.
    + lra.
    + lra.
    + exact train_pulses.
    + assert (R4 : ZnearestE (4 / (1 / 1000)) = 4000%Z).
      { apply round_IZR. lra. }
      change (cf_rmed_width pd_config) with 4. numR_ty. rewrite R4.
      change (groups_of 4000 (cf_rmed_minpts pd_config)) with (Z.to_nat (4000 / 101), Z.to_nat 101). exact train_blind.
    + numR_ty. rewrite train_length in G2, G5.
      destruct train_widths as (ws & EW & W1 & W2). change (Z.of_nat 240) with 240%Z in G1. rewrite EW in G1. injection G1 as <-.
      specialize (G4 6%nat W1). specialize (G5 6%nat W1). rewrite W2 in G5. change (Z.to_nat 13) with 13%nat in G5.
      destruct (train_sure _ _ _ _ _ _ G2 ltac:(lia) GR) as [WI SU].
      destruct G5 as (c & p & best & Ic & _ & _ & _ & _ & Bc & Sb & _).
      * exact WI.
      * cbn [pk_smin]. lra.
      * cbn [pk_smin pk_minseg] in G4. destruct G4 as (fc & smed & sstd & _ & G4). destruct (10 <=? _)%Z.
        -- injection G4 as G4. rewrite <- G4. lra.
        -- rewrite G4. lra.
      * exists c, best. split; [exact Ic|]. split; [exact Bc|]. lra.
Qed.
