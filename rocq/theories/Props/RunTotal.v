(** C137, C138: when a run of the pipeline returns, in floating point; the selection of DMs in any arithmetic. *)
From Coq Require Import String List Arith ZArith Bool Lia Reals Lra Psatz Permutation.
From Flocq Require Import Core.
From Verif Require Import Base.Result Base.Buf Base.Num Model.FastRmed Model.Transforms Model.Downsample Model.Libffa Model.Periodogram Model.Metadata
  Model.TimeSeries Model.Search Model.Cluster Model.Peaks Model.Pipeline Model.Ranges Model.Worker
  Spec.Sums Spec.Overlap Spec.Noise Spec.Pulse Spec.Libm
  Proof.Downsample Proof.Cluster Proof.ClusterFloat Proof.TimeSeries Proof.PeaksFloat Proof.Pipeline Proof.SearchFloat Proof.CoverageFloat
  Props.Downsample Props.Snr Props.TimeSeries Props.Peaks Props.PeaksFloat Props.PeriodogramFloat Props.SnrFloat Props.DownsampleFloat
  Props.Detect Props.DetectFloat Props.Worker Props.Deredden Props.DereddenIeee Props.DereddenError Props.DereddenDetect Props.EndToEndFloat
  Props.WorkerFloat Props.WorkerReturns Proof.Harmonic
  Model.Harmonic Model.Folding Model.DmIter Model.Pool Model.Writer Model.Process Props.Harmonic Props.Pool Proof.RunKeeps Proof.RunTotal
  Props.FoldFloat Props.RunKeeps Props.RunFloat.
Import ListNotations.
Local Open Scope R_scope.

(** ** the selection of DMs *)
(** C138. Whatever the arithmetic, select_dms() returns: an error if no trial DM lies between the limits, otherwise some of
    those that do, and at least one. *)
Theorem select_dms_total :
  forall (N : num) (trial_dms : list N) (dm_start dm_end fmin fmax : N) (nchans : Z) (wmin : N),
  let inside x := n_leb dm_start x = true /\ n_leb x dm_end = true in
  ((forall x, In x trial_dms -> ~ inside x) /\ select_dms N trial_dms dm_start dm_end fmin fmax nchans wmin = Err ValueError) \/
  ((exists x, In x trial_dms /\ inside x) /\
   exists sel, select_dms N trial_dms dm_start dm_end fmin fmax nchans wmin = Ok sel /\ sel <> [] /\
     forall x, In x sel -> In x trial_dms /\ inside x).
Proof.
  intros N trial_dms dm_start dm_end fmin fmax nchans wmin inside.
  destruct (select_dms_ok N trial_dms dm_start dm_end fmin fmax nchans wmin) as [S1 S2].
  set (avail := filter _ trial_dms) in *.
  assert (AV : forall x, In x avail <-> In x trial_dms /\ inside x).
  { intros x. unfold avail, inside. rewrite filter_In, andb_true_iff. tauto. }
  destruct avail as [|a l] eqn:E.
  - left. split; [|now apply S1]. intros x Hx Hi. exact (proj2 (AV x) (conj Hx Hi)).
  - right. split; [exists a; apply AV; now left|]. destruct S2 as (sel & ES & NE & IN); [discriminate|]. exists sel.
    split; [exact ES|]. split; [exact NE|]. intros x Hx. apply AV. now apply IN.
Qed.
Print Assumptions select_dms_total.

(** ** folding *)
Lemma downsample_safe bld (alloc : nat -> list R) (x : list R) (f : R) : allocates alloc -> (Z.of_nat (length x) <= 33554432)%Z ->
  double f -> Forall single x ->
  py_downsample (numF bld) alloc x f <> UB /\ py_downsample (numF bld) alloc x f <> Loop /\
  forall out, py_downsample (numF bld) alloc x f = Ok out -> (length out <= length x)%nat.
Proof.
  intros Ha HN Ff HF. destruct (valid_factor (numF bld) (length x) f) eqn:V.
  - unfold valid_factor in V. apply andb_true_iff in V as [V1 V2]. cbn [numF opsF n_dbl o_ofZ n_ltb n_leb] in V1, V2.
    rewrite (rnd64_id 1) in V1 by (apply (F64_int 1); lia). rewrite rnd64_id in V2 by (apply F64_int; lia).
    assert (L1 : 1 < f) by (revert V1; case Rlt_bool_spec; [auto|discriminate]).
    assert (L2 : f <= INR (length x)) by (rewrite INR_IZR_INZ; revert V2; case Rle_bool_spec; [auto|discriminate]).
    destruct (exists_bound x) as (X & HX).
    destruct (downsample_rounding bld alloc x f X Ha HN Ff (conj L1 L2) HF HX) as (out & n & E & LO & _ & Ln & _).
    change (n_T (numF bld)) with R in *. rewrite E. split; [discriminate|]. split; [discriminate|]. intros o H. injection H as <-. lia.
  - unfold py_downsample. change (n_T (numF bld)) with R in *. rewrite V. cbn [guard bind].
    split; [discriminate|]. split; [discriminate|]. intros o H. discriminate.
Qed.

Lemma mapM_safe {A B} (f : A -> res B) l : (forall a, In a l -> f a <> UB /\ f a <> Loop) -> mapM f l <> UB /\ mapM f l <> Loop.
Proof.
  induction l as [|a l IH]; intros H; [cbn; split; discriminate|]. cbn [mapM]. destruct (H a (or_introl eq_refl)) as [H1 H2].
  destruct (f a) eqn:Ea; try congruence; cbn [bind]; [|split; discriminate].
  destruct IH as [I1 I2]; [intros; apply H; now right|]. destruct (mapM f l) eqn:El; try congruence; cbn [bind]; split; discriminate.
Qed.

Lemma single_0 : single 0.
Proof. unfold single. apply generic_format_0. Qed.

Lemma fold_float_safe bld (alloc : nat -> list R) (data : list R) (tsamp period : R) bins subints : allocates alloc ->
  (Z.of_nat (length data) <= 33554432)%Z -> Forall single data ->
  fold (numF bld) alloc data tsamp period bins subints <> UB /\ fold (numF bld) alloc data tsamp period bins subints <> Loop.
Proof.
  intros Ha HN HF. unfold fold. destruct (n_ltb _ _); [split; discriminate|]. destruct (bins =? 0)%nat; [split; discriminate|].
  match goal with |- context [guard ?b _] => destruct b end; cbn [guard bind]; [|split; discriminate].
  match goal with |- bind ?g _ <> _ /\ _ => assert (G : g = Ok tt \/ exists e, g = Err e) end.
  { destruct subints as [s|]; [|now left]. destruct (1 <=? s)%Z; cbn [guard bind]; [|eauto]. destruct (negb _); cbn [guard]; eauto. }
  destruct G as [->|(e & ->)]; cbn [bind]; [|split; discriminate].
  match goal with |- context [py_downsample _ _ _ ?g] => set (f := g) end.
  assert (Ff : double f) by (unfold f; cbn [numF opsF n_dbl o_div]; apply rnd64_F).
  destruct (downsample_safe bld alloc data f Ha HN Ff HF) as (D1 & D2 & D3).
  change (n_T (numF bld)) with R in *. destruct (py_downsample (numF bld) alloc data f) as [down| | |] eqn:ED;
    [|cbn [bind]; split; discriminate|destruct (D1 eq_refl)|destruct (D2 eq_refl)]. cbn [bind].
  specialize (D3 down eq_refl). cbn zeta. change (n_T (numF bld)) with R in *. set (m := (length down / bins)%nat) in *.
  assert (Hm : (m <= length data)%nat).
  { apply Nat.le_trans with (2 := D3). unfold m. destruct bins as [|b]; [cbn; lia|]. apply Nat.div_le_upper_bound; [lia|]. rewrite Nat.mul_succ_l. apply Nat.le_add_l. }
  destruct (n_eqb _ _); [split; discriminate|]. cbn zeta.
  destruct subints as [s|]; [|destruct (m =? 1)%nat; split; discriminate].
  destruct (_ || _); [split; discriminate|]. destruct (s =? Z.of_nat m)%Z; [split; discriminate|].
  match goal with |- context [downsample_vertical _ _ ?a ?b] => set (X := a); set (v := b) end.
  assert (DV : downsample_vertical (numF bld) alloc X v <> UB /\ downsample_vertical (numF bld) alloc X v <> Loop).
  { unfold downsample_vertical. destruct (n_ltb _ _); cbn [guard bind]; [|split; discriminate].
    destruct (n_ltb _ _); cbn [guard bind]; [|split; discriminate].
    match goal with |- bind ?b _ <> _ /\ _ => assert (MS : b <> UB /\ b <> Loop) end.
    { apply mapM_safe. intros c _. destruct (downsample_safe bld alloc (column (numF bld) X c) v) as (V1 & V2 & _); auto.
      - unfold column. rewrite map_length, seq_length. cbn [X a_rows]. lia.
      - unfold v. cbn [numF opsF n_dbl o_div]. apply rnd64_F.
      - apply Forall_forall. intros x Hx. unfold column in Hx. apply in_map_iff in Hx as (r & <- & _).
        match goal with |- single (nth ?i ?l ?d) => destruct (nth_in_or_default i l d) as [I|E] end.
        + cbn [X a_data] in I. apply in_map_iff in I as (y & E & _). refine (eq_ind _ single _ _ E). cbn [numF opsF n_sgl o_mul].
          unfold single, rnd32. apply generic_format_round; [now apply FLT_exp_valid|apply valid_rnd_N].
        + eapply eq_ind_r with (P := single) (2 := E). cbn [numF opsF n_dbl o_ofZ]. rewrite rnd64_0. exact single_0. }
    match goal with |- bind ?b _ <> _ /\ _ => revert MS; generalize b end. intros [o| | |] [M1 M2]; try congruence; cbn [bind]; split; discriminate. }
  match goal with |- bind ?b _ <> _ /\ _ => revert DV; generalize b end. intros [o| | |] [M1 M2]; try congruence; cbn [bind]; split; discriminate.
Qed.

(** ** the harmonic test *)
Lemma pow_m2_F bld (x : R) : x <> 0 -> exists y, pow_m2 (numF bld) x = Ok y.
Proof.
  intros H. unfold pow_m2. cbn [numF opsF n_dbl o_ofZ n_eqb]. rewrite rnd64_0. rewrite Req_bool_false by exact H. eauto.
Qed.

Lemma htest_float bld as_fraction (F H : peak (numF bld)) (tobs fmin fmax : R) (denom_max : Z) (phase_max dm_max snr_max : R) :
  0 < p_freq F -> 0 < p_freq H -> 0 < tobs -> 0 < fmin < fmax -> (1 <= denom_max)%Z ->
  p_dm F <> None -> p_dm H <> None ->
  (forall x, double x -> 1 <= x -> exists n d, as_fraction x = Ok (n, d) /\ (0 < d <= n)%Z /\ Z.gcd n d = 1%Z) ->
  exists r, htest (numF bld) as_fraction F H tobs fmin fmax denom_max phase_max dm_max snr_max = Ok r.
Proof.
  intros PF PH PT PB PD DF DH EX. unfold htest, hdiag. cbn [numF opsF n_dbl o_ofZ o_div n_ltb]. rewrite rnd64_0.
  rewrite !Rlt_bool_true by lra. cbn [guard bind].
  set (sf := if Rlt_bool (p_freq H) (p_freq F) then (H, F) else (F, H)).
  assert (S1 : 0 < p_freq (fst sf) /\ p_freq (fst sf) <= p_freq (snd sf)).
  { unfold sf. destruct (Rlt_bool_spec (p_freq H) (p_freq F)); cbn [fst snd]; lra. }
  destruct sf as [slow fast]. cbn [fst snd] in S1. change (n_T (numF bld)) with R in *.
  destruct (EX (rnd64 (p_freq fast / p_freq slow))) as (n & d & E & (D1 & D2) & G).
  { apply rnd64_F. }
  { rewrite <- (rnd64_id 1) by (apply (F64_int 1); lia). apply rnd64_le.
    apply Rmult_le_reg_r with (p_freq slow); [lra|]. unfold Rdiv. rewrite Rmult_assoc, Rinv_l by lra. lra. }
  change (n_T (numF bld)) with R in *. rewrite E. cbn [bind].
  destruct (limit_denominator_best n d denom_max D1 G PD) as (a & b & EL & BA). rewrite EL. cbn [bind].
  assert (GE : 1 <= IZR n / IZR d).
  { apply Rmult_le_reg_r with (IZR d); [apply IZR_lt; lia|]. unfold Rdiv. rewrite Rmult_assoc, Rinv_l by (apply not_0_IZR; lia).
    rewrite Rmult_1_l, Rmult_1_r. apply IZR_le. lia. }
  assert (AP := best_positive _ _ _ _ GE PD BA).
  destruct (pow_m2_F bld fmin) as (lo & E1); [lra|]. destruct (pow_m2_F bld fmax) as (hi & E2); [lra|].
  match goal with |- context [if peak_eqb ?n ?x ?y then ?u else ?v] => assert (FI : exists fr, (if peak_eqb n x y then u else v) = Ok fr) end.
  { destruct (peak_eqb _ H slow); [|eauto]. unfold frac_inv. cbn [fst]. destruct (Z.eqb_spec a 0); [lia|eauto]. }
  destruct FI as (fr & EF). rewrite EF. cbn [bind].
  destruct (p_dm F); [|easy]. destruct (p_dm H); [|easy]. change (n_T (numF bld)) with R in *. rewrite E1. cbn [bind]. rewrite E2. cbn [bind]. eauto.
Qed.

Lemma nmedian_pos bld (l : list R) (z : Z) : (-1000 <= z <= 1000)%Z -> l <> [] -> Forall (fun x => bpow radix2 z <= x) l ->
  bpow radix2 z <= nmedian (numF bld) l.
Proof.
  intros Hz NE H. unfold nmedian. set (s := nsort (numF bld) l).
  assert (PM : Permutation l s) by apply sorted_asc_any. change (n_T (numF bld)) with R in *.
  assert (LS : length s = length l) by now apply Permutation_length, Permutation_sym.
  assert (N0 : (0 < length l)%nat) by (destruct l; [contradiction|cbn; lia]).
  assert (A : forall i, (i < length l)%nat -> bpow radix2 z <= nth i s (rnd64 0)).
  { intros i Hi. rewrite Forall_forall in H. apply H. apply (Permutation_in _ (Permutation_sym PM)). apply nth_In. lia. }
  assert (FB : F64 (bpow radix2 z)) by (apply generic_format_bpow; unfold FLT_exp; lia).
  assert (FB1 : F64 (2 * bpow radix2 z)).
  { replace (2 * bpow radix2 z) with (bpow radix2 (z + 1)) by (rewrite bpow_plus; cbn; lra). apply generic_format_bpow; unfold FLT_exp; lia. }
  cbn [numF opsF n_dbl o_ofZ o_add o_div]. destruct (Nat.odd (length l)) eqn:EO.
  - apply A. apply Nat.div_lt; lia.
  - assert (2 <= length l)%nat. { destruct l as [|? [|? ?]]; cbn in *; try lia; discriminate. }
    assert (H2 : (length l / 2 < length l)%nat) by (apply Nat.div_lt; lia).
    rewrite (rnd64_id 2) by (apply (F64_int 2); lia). rewrite <- (rnd64_id _ FB). apply rnd64_le.
    pose proof (A _ H2) as A1. pose proof (A (length l / 2 - 1)%nat ltac:(lia)) as A2.
    assert (2 * bpow radix2 z <= rnd64 (nth (length l / 2 - 1) s (rnd64 0) + nth (length l / 2) s (rnd64 0))).
    { rewrite <- (rnd64_id _ FB1). apply rnd64_le. lra. }
    change (n_T (numF bld)) with R in *. lra.
Qed.

(** ** a run, in any arithmetic *)
Section Any.
Context (N : num) (flog : N -> N) (fpow : N -> nat -> N) (alloc : nat -> list N) (allocz : nat -> list Z)
  (fit : list N -> list N -> Z -> res (N -> N)) (argsort : list N -> list nat) (as_fraction : N -> res fraction) (abs_sin : N -> N)
  (read_meta : string -> res (meta N)) (load : string -> res (series N)).
Context (peaks_csv : list (peak N) -> string) (clusters_csv : list (row N) -> string)
  (candidates_csv : list (peak N) -> string) (to_json png : candidate N (series N) -> res string)
  (pieces : string -> list string).
Local Notation process := (process N flog fpow alloc allocz fit argsort as_fraction abs_sin read_meta load peaks_csv clusters_csv
  candidates_csv to_json png pieces).
Local Notation worker := (worker N flog fpow alloc allocz fit argsort load).
Local Notation prepare := (prepare N abs_sin read_meta).

(** every execution of a run whose parts return, returns the same; and there is one *)
Lemma run_always cf files outdir s d chunks lists cs cands rows :
  cf_processes cf <> 0%nat -> prepare cf files = Ok d -> iterate_filenames N d (cf_processes cf) = Ok chunks ->
  Forall2 (fun name l => worker cf name = Ok l) (concat chunks) lists ->
  let peaks := sorted_asc (fun p q => n_ltb (p_period p) (p_period q)) (concat lists) in
  analyse N alloc argsort as_fraction load cf d peaks = Ok (cs, cands) -> cluster_table N cs = Ok rows ->
  (forall c, In c cands -> (exists t, to_json c = Ok t) /\ (cf_plot cf = true -> exists t, png c = Ok t)) ->
  (exists s', process False cf files outdir s (Ok (Products peaks cs cands)) s') /\
  forall r s', process False cf files outdir s r s' -> r = Ok (Products peaks cs cands).
Proof.
  intros HP EP EC FL peaks EA ET WR. split; [eapply run_returns; eauto|].
  assert (OKW : forall x, In x (concat chunks) -> exists l, worker cf x = Ok l).
  { clear - FL. induction FL as [|x l c l1 E _ I]; intros y [<-|Hy] || intros y []; eauto. }
  assert (SF : forall r, search_files N flog fpow alloc allocz fit argsort load False cf d r -> r = Ok peaks).
  { intros r Hs. unfold search_files in Hs. rewrite EC in Hs. inversion Hs as [r0 SL EQ]. apply search_loop_spec in SL; [|exact HP].
    destruct r0 as [out|e| |]; try contradiction.
    - destruct SL as (ls & F2 & ->). cbn [bind app]. f_equal. unfold peaks. f_equal. f_equal.
      clear - F2 FL. revert ls F2. induction FL as [|x l c l1 E _ I]; intros ls F2; inversion F2; subst; [reflexivity|]. f_equal; [congruence|auto].
    - destruct SL as (x & Hx & E). destruct (OKW x Hx). congruence. }
  intros r s' H. inversion H as [e E1|d' e E1 E2|d' pk e E1 E2 E3|d' pk cs' cands' r0 s1 E1 E2 E3 E4]; subst; rewrite EP in E1; try discriminate;
    injection E1 as <-; apply SF in E2; try discriminate; injection E2 as ->.
  { rewrite EA in E3. discriminate. }
  rewrite EA in E3. injection E3 as <- <-.
  inversion E4 as [e NE TE|rows' r1 s2 TE SV]; subst.
  { cbn [pr_clusters] in TE. congruence. }
  inversion SV as [NP|r2 s3 NP csv PM]; subst; [reflexivity|]. cbn [pr_candidates] in PM.
  apply pool_map_correct in PM; [|exact HP|].
  - destruct r2 as [v|e| |]; try contradiction; [reflexivity|]. exfalso. destruct PM as [([i c] & Hx & E)|([] & _)].
    unfold writer_result in E. cbn [snd] in E. apply in_combine_r in Hx. destruct (WR c Hx) as [[t Et] Q]. rewrite Et in E. cbn [bind] in E.
    destruct (cf_plot cf); [|discriminate]. destruct (Q eq_refl) as [t' Et']. rewrite Et' in E. discriminate.
  - intros [i c] Hx. unfold writer_result. cbn [snd]. apply in_combine_r in Hx. destruct (WR c Hx) as [[t ->] Q]. cbn [bind].
    destruct (cf_plot cf); [|split; discriminate]. destruct (Q eq_refl) as [t' ->]. split; discriminate.
Qed.
End Any.

Lemma chunks_ok (N : num) (d : dmiter N) size : forall dms chunk, (forall x, In x dms -> exists m, dict_get N x (di_dict d) = Ok m) ->
  exists chunks, chunks_from N d size dms chunk = Ok chunks.
Proof.
  induction dms as [|x dms IH]; intros chunk H; cbn [chunks_from]; [eauto|]. destruct (H x (or_introl eq_refl)) as (m & ->). cbn [bind]. cbn zeta.
  assert (H' : forall y, In y dms -> exists m, dict_get N y (di_dict d) = Ok m) by (intros; apply H; now right).
  destruct (_ =? size)%nat; [|now apply IH]. destruct (IH [] H') as (l & ->). cbn [bind]. eauto.
Qed.

(** ** a run, in floating point *)
Section Run.
Context (bld : build).
Local Notation NF := (numF bld).
Context (flog : R -> R) (fpow : R -> nat -> R) (alloc : nat -> list R) (allocz : nat -> list Z)
  (fit : list R -> list R -> Z -> res (R -> R)) (argsort : list R -> list nat) (as_fraction : R -> res fraction) (abs_sin : R -> R)
  (read_meta : string -> res (meta NF)) (load : string -> res (series NF)).
Context (peaks_csv : list (peak NF) -> string) (clusters_csv : list (row NF) -> string)
  (candidates_csv : list (peak NF) -> string) (to_json png : candidate NF (series NF) -> res string)
  (pieces : string -> list string).
Local Notation process := (process NF flog fpow alloc allocz fit argsort as_fraction abs_sin read_meta load peaks_csv clusters_csv
  candidates_csv to_json png pieces).
Local Notation prepare := (prepare NF abs_sin read_meta).

(** a worker can search the file of [m], with this configuration *)
Definition searchable_rounded (cf : config NF) (minpts : Z) (m : meta NF) : Prop :=
  exists ts : series NF, load (m_fname m) = Ok ts /\ md_get "dm" (se_md ts) = Some (MFloat (N := NF) (m_dm m)) /\
  forallb (item_valid NF) (se_md ts) = true /\
  let data : list R := se_data ts in let tsamp : R := se_tsamp ts in let size := length data in let rw : R := cf_rmed_width cf in
  Forall single data /\ (Z.of_nat size <= 33554432)%Z /\ / 2 ^ 1000 <= tsamp /\ rw / tsamp <= 2 ^ 51 /\
  window_fits (ZnearestE (rnd64 (rw / tsamp))) minpts (Z.of_nat size) /\
  forall r, In r (cf_ranges cf) -> let k := r_search r in let q := r_peaks r in
    float_search flog fpow size [1%nat] tsamp (sk_pmin k) (sk_pmax k) (sk_bmin k) (sk_bmax k) /\
    segments_fit_rounded (INR size * tsamp) (sk_pmin k) (sk_pmax k) (sk_bmin k) (pk_segwidth q).

(** C137. In floating point: a run whose files and configuration pass Pipeline.prepare(), whose files the workers can
    search, with a band of positive frequencies and candidates that can be written, returns.  Every execution without
    failures of the system does, and with the same peaks, clusters and candidates, whatever the schedule of the
    workers. *)
Theorem run_float_total :
  forall (cf : config NF) files outdir s d metas (minpts : Z),
  allocates alloc -> allocates allocz -> sorts argsort ->
  (forall x, double x -> 1 <= x -> exists n d, as_fraction x = Ok (n, d) /\ (0 < d <= n)%Z /\ Z.gcd n d = 1%Z) ->
  (forall c, (exists t, to_json c = Ok t) /\ (cf_plot cf = true -> exists t, png c = Ok t)) ->
  (* the configuration *)
  cf_processes cf <> 0%nat -> 0 <= cf_rmed_width cf -> cf_rmed_minpts cf = PInt minpts -> (0 < minpts <= 2 ^ 52)%Z -> Z.odd minpts = true ->
  (1 <= hf_denom_max (cf_harmonics cf))%Z ->
  (forall r, In r (cf_ranges cf) -> double (sk_ducy (r_search r)) /\ sk_ducy (r_search r) < 1 /\
     fit_works_rounded bld fit (r_peaks r) /\ forall c, pk_clrad (r_peaks r) = Some c -> 0 <= c) ->
  (* the files *)
  prepare cf files = Ok d -> 0 < di_fmin d < di_fmax d ->
  Forall2 (fun f m => read_meta f = Ok m) files metas ->
  (forall m, In m metas -> / 2 ^ 1000 <= m_tobs m /\ searchable_rounded cf minpts m) ->
  exists pr, (exists s', process False cf files outdir s (Ok pr) s') /\
    forall r s', process False cf files outdir s r s' -> r = Ok pr.
Proof.
  intros cf files outdir s d metas minpts Ha Hz HS AF WR PR R0 MP M0 MO DM CR EP BP RM SE.
  assert (PI : di_list d = metas /\ di_dict d = dict_of NF metas /\ metas <> [] /\ incl (di_selected d) (map fst (di_dict d))).
  { pose proof EP as H. unfold prepare in H. apply bind_ok in H as (w & _ & H). apply bind_ok in H as (l & EL & H). apply bind_ok in H as (d' & ED & H).
    apply bind_ok in H as (u & _ & H). injection H as <-. apply mapM_inv in EL.
    assert (l = metas).
    { clear - EL RM. revert metas RM. induction EL as [|f m fs ms E _ IH]; intros l' RM; inversion RM; subst; auto. f_equal; [congruence|auto]. }
    subst l. unfold dm_iterator in ED. destruct metas as [|m0 ms]; [discriminate|].
    apply bind_ok in ED as ([gl gb] & _ & ED). apply bind_ok in ED as ([[f0 f1] nc] & _ & ED). apply bind_ok in ED as (sel & ES & ED).
    injection ED as <-. cbn [di_list di_dict di_selected]. split; [reflexivity|]. split; [reflexivity|]. split; [discriminate|].
    match type of ES with select_dms _ ?a ?b ?c ?e ?f ?g ?h = _ => destruct (select_dms_total NF a b c e f g h) as [[_ E]|[_ (sel' & E & _ & I)]] end;
      rewrite E in ES; [discriminate|]. injection ES as <-. intros x Hx. now apply I. }
  destruct PI as (DL & DD & MN & SI).
  assert (DG : forall x, In x (map fst (di_dict d)) -> exists m, dict_get NF x (di_dict d) = Ok m).
  { intros x. clear. induction (di_dict d) as [|[k v] l IH]; [intros []|]. cbn [map fst dict_get].
    change (@n_eqb NF x k) with (Req_bool x k). destruct (Req_bool_spec x k) as [->|Ne]; [eauto|]. intros [E|H]; [congruence|auto]. }
  assert (SEL : forall x, In x (di_selected d) -> exists m, dict_get NF x (di_dict d) = Ok m /\ In m metas /\ m_dm m = x).
  { intros x Hx. destruct (DG x (SI x Hx)) as (m & E). exists m. split; [exact E|]. rewrite DD in E. apply dict_of_float in E as (l1 & l2 & -> & E & _).
    split; [apply in_app_iff; right; now left|exact E]. }
  destruct (chunks_ok NF d (cf_processes cf) (di_selected d) []) as (chunks & EC).
  { intros x Hx. destruct (SEL x Hx) as (m & E & _). eauto. }
  destruct (chunks_from_names NF d _ _ _ _ EC) as (names & FN & CN). cbn [List.app] in CN.
  (* the workers *)
  assert (WK : forall name, In name names -> exists m ts ts2 peaks, m_fname m = name /\ get_filename NF d (m_dm m) = Ok name /\ load name = Ok ts /\
    prepare_ts NF alloc (cf_rmed_width cf) (cf_rmed_minpts cf) ts = Ok ts2 /\ (Z.of_nat (length (se_data ts2)) <= 33554432)%Z /\ Forall single (se_data ts2) /\
    worker NF flog fpow alloc allocz fit argsort load cf name = Ok peaks /\ forall p, In p peaks -> p_dm p = Some (m_dm m) /\ 0 < p_freq p).
  { intros name Hn. assert (X : exists x, In x (di_selected d) /\ get_filename NF d x = Ok name).
    { clear - FN Hn. induction FN as [|x y l l' E _ IH]; [destruct Hn|]. destruct Hn as [<-|Hn]; [exists x; split; [now left|exact E]|].
      destruct (IH Hn) as (z & Hz & Ez). exists z. split; [now right|exact Ez]. }
    destruct X as (x & Hx & Gx). destruct (SEL x Hx) as (m & Em & Im & Dm).
    assert (m_fname m = name) by (unfold get_filename in Gx; rewrite Em in Gx; cbn [bind] in Gx; now injection Gx).
    destruct (SE m Im) as (_ & ts & L1 & L2 & L3 & L4 & L5 & L6 & L7 & L8 & L9). rewrite H in L1.
    destruct (worker_ok_float bld flog fpow alloc allocz fit argsort load (cf_rmed_width cf) minpts (search_confs cf) name ts (m_dm m)
      Ha Hz L1 L2 L3 L4 L5 L6 R0 L7 M0 MO L8) as (peaks & E1 & E2 & ts2 & E3 & E4 & E5).
    { apply Forall_forall. intros c Hc. unfold search_confs in Hc. apply in_map_iff in Hc as (r & <- & Hr). cbn [fst snd].
      destruct (CR r Hr) as (C1 & C2 & C3 & _). destruct (L9 r Hr) as [C4 C5]. auto. }
    exists m, ts, ts2, peaks. split; [exact H|]. split; [rewrite Dm; exact Gx|]. split; [exact L1|]. rewrite MP. split; [exact E3|].
    split; [change (n_T NF) with R in *; rewrite E4; exact L5|]. split; [exact E5|]. split; [unfold worker; rewrite MP; exact E1|].
    apply E2; [exact HS|]. apply Forall_forall. intros c Hc. unfold search_confs in Hc. apply in_map_iff in Hc as (r & <- & Hr). cbn [snd].
    now destruct (CR r Hr) as (_ & _ & _ & ?). }
  assert (LS : exists lists, Forall2 (fun name l => worker NF flog fpow alloc allocz fit argsort load cf name = Ok l) names lists).
  { clear - WK. induction names as [|x l IH]; [exists []; constructor|]. destruct (WK x (or_introl eq_refl)) as (m & ts & ts2 & pk & _ & _ & _ & _ & _ & _ & E & _).
    destruct IH as (ls & F); [intros; apply WK; now right|]. exists (pk :: ls). now constructor. }
  destruct LS as (lists & FL).
  set (peaks := sorted_asc (fun p q : peak NF => n_ltb (p_period p) (p_period q)) (concat lists)).
  assert (PK : forall p, In p peaks -> exists m ts ts2, p_dm p = Some (m_dm m) /\ 0 < p_freq p /\ get_filename NF d (m_dm m) = Ok (m_fname m) /\
    load (m_fname m) = Ok ts /\ prepare_ts NF alloc (cf_rmed_width cf) (cf_rmed_minpts cf) ts = Ok ts2 /\
    (Z.of_nat (length (se_data ts2)) <= 33554432)%Z /\ Forall single (se_data ts2)).
  { intros p Hp. assert (PM : Permutation (concat lists) peaks) by apply sorted_asc_any.
    apply (Permutation_in _ (Permutation_sym PM)) in Hp. apply in_concat in Hp as (l & Hl & Hp).
    assert (X : exists name, In name names /\ worker NF flog fpow alloc allocz fit argsort load cf name = Ok l).
    { clear - FL Hl. induction FL as [|x y k k' E _ IH]; [destruct Hl|]. destruct Hl as [<-|Hl]; [exists x; split; [now left|exact E]|].
      destruct (IH Hl) as (z & Hz & Ez). exists z. split; [now right|exact Ez]. }
    destruct X as (name & Hn & EW). destruct (WK name Hn) as (m & ts & ts2 & pk & <- & G & L & P & Z & Sg & W & Q). rewrite W in EW. injection EW as ->.
    exists m, ts, ts2. destruct (Q p Hp). auto 10. }
  assert (TM : 0 < tobs_median NF d).
  { unfold tobs_median. apply Rlt_le_trans with (bpow radix2 (-1000)); [apply bpow_gt_0|]. apply nmedian_pos; [lia| |].
    - rewrite DL. intros E. apply map_eq_nil in E. contradiction.
    - rewrite DL, bpow_1000. apply Forall_forall. intros x Hx. apply in_map_iff in Hx as (m & <- & Hm). now apply SE. }
  destruct (analyse_ok NF alloc argsort as_fraction load cf d peaks) as (cs & cands & rows & EA & ET).
  { intros p q Hp Hq. destruct (PK p Hp) as (m1 & _ & _ & D1 & F1 & _). destruct (PK q Hq) as (m2 & _ & _ & D2 & F2 & _).
    unfold harmonic_test. apply htest_float; auto; congruence. }
  { intros p Hp. destruct (PK p Hp) as (m & ts & ts2 & D1 & _ & G & L & P & Z & Sg). exists (m_dm m), (m_fname m), ts, ts2.
    repeat (split; [assumption|]). intros per bins sub. unfold series_fold. now apply fold_float_safe. }
  exists (Products peaks cs cands).
  eapply (run_always NF flog fpow alloc allocz fit argsort as_fraction abs_sin read_meta load peaks_csv clusters_csv candidates_csv
    to_json png pieces); eauto.
  rewrite CN. exact FL.
Qed.
End Run.
Print Assumptions run_float_total.

(** a run on the file of C129 *)
Definition blips_meta bld (f : string) : res (meta (numF bld)) :=
  Ok (Meta (N := numF bld) f 10 (10000 / 1024) (/ 1024) 0 30 (Some (1000, 5, 100%Z))).
Example run_float_total_ex : forall bld outdir s, exists pr,
  let run := process (numF bld) ln pow (fun n => repeat 0 n) (fun n => repeat 0%Z n) (fun _ _ _ => Ok (fun _ => 6)) Cluster.argsort_R
    (fun x => Ok (Zfloor x, 1%Z)) (fun _ => / 2) (blips_meta bld) (fun _ => Ok (blips_file bld)) (fun _ => "p"%string) (fun _ => "k"%string)
    (fun _ => "c"%string) (fun _ => Ok "{}"%string) (fun _ => Ok ""%string) (fun s => [s])
    False (blips_config bld) ["a.inf"%string] outdir s in
  (exists s', run (Ok pr) s') /\ forall r s', run r s' -> r = Ok pr.
Proof.
  intros bld outdir s. set (N := numF bld).
  destruct (process_fname_float_total_ex bld) as (H1 & H2 & H3 & H4 & H5 & H6 & H7 & H8 & H9 & H10 & H11 & H12 & H13 & H14 & H15).
  set (m := Meta (N := N) "a.inf" 10 (10000 / 1024) (/ 1024) 0 30 (Some (1000, 5, 100%Z))).
  assert (I : forall z, (Z.abs z < 2 ^ 53)%Z -> rnd64 (IZR z) = IZR z) by (intros; now apply rnd64_id, F64_int).
  assert (EP : exists d, prepare N (fun _ => / 2) (blips_meta bld) (blips_config bld) ["a.inf"%string] = Ok d /\ di_fmin d = 1000 /\ di_fmax d = 1500).
  { assert (EG : get_galactic N [m] = Ok (0, 30)).
    { cbn [get_galactic forallb m_gl m_gb m]. unfold N. cbn [numF n_eqb]. now rewrite !Req_bool_true by reflexivity. }
    assert (EB : infer_band_params N [m] = Ok (1000, 1500, 100%Z)).
    { assert (GB : get_band_params N m = Ok (1000, 1500, 100%Z)).
      { unfold get_band_params, DmIter.nmin2, N, m. cbn [m_band numF opsF n_dbl o_ofZ o_add o_mul n_ltb]. rewrite (I 100%Z) by lia.
        replace (100 * 5) with (IZR 500) by lra. rewrite (I 500%Z) by lia. replace (1000 + 500) with (IZR 1500) by lra. rewrite (I 1500%Z) by lia.
        rewrite Rlt_bool_false by lra. rewrite Rlt_bool_true by lra. reflexivity. }
      unfold infer_band_params. cbn [mapM]. rewrite GB. cbn [bind forallb]. unfold band_eqb, N. cbn [numF n_eqb].
      now rewrite !Req_bool_true by reflexivity. }
    destruct (select_dms_total N [10] 10 10 1000 1500 100 (rnd64 (/ 16 / rnd64 (IZR 40)))) as [[A _]|[_ (sel & ES & _)]].
    { exfalso. apply (A 10); [now left|]. unfold N. cbn [numF n_leb]. rewrite Rle_bool_true by lra. auto. }
    exists (DMI (N := N) [m] [(10, m)] sel 1000 1500 100). split; [|split; reflexivity].
    unfold prepare. cbn [ranges_of blips_config cf_ranges map].
    match goal with |- bind ?w _ = _ => change w with (Ok (rnd64 (/ 16 / rnd64 (IZR 40))) : res N) end. cbn [bind mapM].
    change (blips_meta bld "a.inf"%string) with (Ok m : res (meta N)). cbn [bind cf_dm_min cf_dm_max cf_dmsinb_max cf_fmin cf_fmax cf_nchans].
    unfold dm_iterator. rewrite EG. cbn [bind]. rewrite EB. cbn [bind fold_left m_dm m dict_of dict_set map fst]. fold m.
    match goal with |- context [select_dms ?a ?b ?c ?e ?f ?g ?h ?k] =>
      change (select_dms a b c e f g h k) with (select_dms N [10] 10 10 1000 1500 100 (rnd64 (/ 16 / rnd64 (IZR 40)))) end.
    rewrite ES. cbn [bind].
    unfold tsamp_max. cbn [di_list map m_tsamp m fold_left]. unfold validate_ranges, validate_range. cbn [foreach].
    unfold N. cbn [range_conf_of blips_range r_search r_cbins blips_kw sk_pmin sk_bmin rg_pmin rg_bmin rg_cbins numF opsF n_dbl o_ofZ o_mul n_ltb].
    change (Z.of_nat 40) with 40%Z. rewrite (I 40%Z), (I 16%Z) by lia.
    assert (L : forall z, (0 <= z <= 64)%Z -> rnd64 (IZR z * / 1024) <= / 16).
    { intros z Hz. assert (D : F64 (/ 16)) by (replace (/ 16) with (bpow radix2 (-4)) by (cbn; lra); apply generic_format_bpow; unfold FLT_exp; lia).
      rewrite <- (rnd64_id _ D). apply rnd64_le. assert (IZR z <= 64) by (apply IZR_le; lia). lra. }
    rewrite !Rlt_bool_false by (apply L; lia). cbn. reflexivity. }
  destruct EP as (d & EP & F0 & F1).
  destruct (run_float_total bld ln pow (fun n => repeat 0 n) (fun n => repeat 0%Z n) (fun _ _ _ => Ok (fun _ => 6)) Cluster.argsort_R
    (fun x => Ok (Zfloor x, 1%Z)) (fun _ => / 2) (blips_meta bld) (fun _ => Ok (blips_file bld)) (fun _ => "p"%string) (fun _ => "k"%string)
    (fun _ => "c"%string) (fun _ => Ok "{}"%string) (fun _ => Ok ""%string) (fun s => [s])
    (blips_config bld) ["a.inf"%string] outdir s d [m] 31%Z) as (pr & PR); auto.
  all: try (cbn; lia). all: try exact H6.
  - intros n. apply repeat_length.
  - intros n. apply repeat_length.
  - exact Cluster.argsort_R_sorts.
  - intros x _ Hx. exists (Zfloor x), 1%Z. split; [reflexivity|]. assert (1 <= Zfloor x)%Z by (apply Zfloor_lub; exact Hx).
    split; [lia|apply Z.gcd_1_r].
  - intros c. split; eauto.
  - intros r [<-|[]]. split; [exact H12|]. split; [exact H13|]. split; [exact H14|]. cbn. intros c E. injection E as <-. lra.
  - unfold N in F0, F1. change (n_T (numF bld)) with R in *. rewrite F0, F1. lra.
  - intros x [<-|[]]. split.
    { cbn [m m_tobs]. apply Rle_trans with 1; [|lra]. rewrite <- Rinv_1. apply Rinv_le_contravar; [lra|]. apply pow_R1_Rle. lra. }
    exists (blips_file bld). split; [reflexivity|]. split; [exact H1|]. split; [exact H2|]. split; [exact H3|]. split; [exact H4|]. split; [exact H5|].
    split; [exact H7|]. split; [exact H10|]. intros r [<-|[]]. split; [exact H11|exact H15].
  - exists pr. exact PR.
Qed.
