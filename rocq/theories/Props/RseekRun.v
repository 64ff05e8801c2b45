(** C83, C84: a complete run of rseek. *)
From Coq Require Import String List Arith ZArith Bool Lia Reals Lra Psatz Permutation Sorted.
From Flocq Require Import Core.
From Verif Require Import Base.Result Base.Buf Base.Num Model.FastRmed Model.Transforms Model.Libffa Model.Periodogram
  Model.Metadata Model.TimeSeries Model.Cluster Model.Peaks Model.Pipeline Model.Ranges Model.Sigproc Model.Presto Model.Worker
  Model.Process Model.Rseek Spec.Friends Proof.Cluster Proof.TimeSeries Props.Downsample Props.FastRmed Props.Cluster
  Props.Periodogram Props.Search Props.Peaks Props.Sigproc Props.Presto Props.Worker Props.Process Props.Rseek Props.Loaders.
Import ListNotations.
Local Open Scope R_scope.

Lemma deredden_safe alloc (ts : series numR) (rw : R) m : allocates alloc -> minpts_positive m ->
  safe (se_deredden numR alloc ts rw m).
Proof.
  intros Ha Hm. unfold se_deredden. apply safe_bind; [|intros; apply safe_bind; [apply safe_guard|intros; apply new_series_safe]].
  destruct (deredden_accepts alloc (se_data ts) (se_tsamp ts) rw m Ha Hm) as [K1 K2].
  set (w := ZnearestE (rw / se_tsamp ts)) in *. rsimp. rewrite py_round_R. fold w. numR_ty.
  destruct (Classical_Prop.classic (window_py_ok (length (se_data ts)) w m)) as [D|D].
  - destruct (K1 D) as (r & -> & _). apply safe_ok.
  - destruct (K2 D) as [-> | ->]; apply safe_err.
Qed.

(** a series always has an entry for the DM *)
Lemma new_series_dm (x : list R) tsamp md (s : series numR) : new_series (N := numR) x tsamp md = Ok s ->
  md_get "dm" (se_md s) <> None.
Proof.
  unfold new_series, metadata_new. intros H. apply bind_ok in H as (m & H & E). injection E as <-.
  apply bind_ok in H as (u & _ & H). injection H as <-. cbn [se_md]. rewrite md_get_set_other by discriminate.
  assert (DG : forall ks (m : metadata numR), md_get "dm" m <> None ->
    md_get "dm" (fold_left (fun m k => md_default k MNone m) ks m) <> None).
  { induction ks as [|k1 ks IH]; intros m G; cbn [fold_left]; [exact G|]. apply IH.
    unfold md_default. destruct (md_get k1 m) eqn:G1; [exact G|]. clear IH G1.
    induction m as [|[k2 v2] m IH]; [now destruct G|]. cbn [md_get app] in *. destruct (String.eqb "dm" k2); [discriminate|apply IH; exact G]. }
  assert (DI : forall ks (m : metadata numR), In "dm"%string ks ->
    md_get "dm" (fold_left (fun m k => md_default k MNone m) ks m) <> None).
  { induction ks as [|k1 ks IH]; intros m I; [destruct I|]. cbn [fold_left].
    destruct (String.string_dec k1 "dm") as [->|N1]; [|apply IH; destruct I; [contradiction|assumption]].
    apply DG. unfold md_default. destruct (md_get "dm" m) eqn:G; [congruence|]. clear - G.
    induction m as [|[k2 v2] m IH]; [cbn; discriminate|]. cbn [md_get app] in *.
    destruct (String.eqb "dm" k2); [discriminate|apply IH; exact G]. }
  apply (DI reserved). cbn. tauto.
Qed.

(** the arguments of the search *)
Definition rseek_kw (a : args numR) : search_kw numR :=
  Search_kw (N := numR) (ra_pmin a) (ra_pmax a) 1 (Z.to_nat (ra_bmin a)) (Z.to_nat (ra_bmax a)) (3 / 10) (ra_wtsp a).
Definition rseek_pk (a : args numR) : peaks_kw numR := Peaks_kw (N := numR) (ra_smin a) 5 6 10 2 (Some (ra_clrad a)).

(** a search which is not refused for the types of its arguments *)
Lemma search_py alloc allocz (ts : series numR) (a : args numR) : allocates alloc ->
  (forall ts' pg, ffa_search_py numR ln pow alloc allocz ts (ra_pmin a) (ra_pmax a) (ra_bmin a) (ra_bmax a) (3 / 10) (ra_wtsp a)
     (ra_rmed_width a) (ra_rmed_minpts a) = Ok (ts', pg) ->
   (0 <= ra_bmin a)%Z /\ (0 <= ra_bmax a)%Z /\
   prepare_ts numR alloc (ra_rmed_width a) (ra_rmed_minpts a) ts = Ok ts' /\
   ffa_search_ts numR ln pow alloc allocz ts' (rseek_kw a) false 0 (PInt 0) true = Ok (ts', pg)).
Proof.
  intros Ha ts' pg H. unfold ffa_search_py in H.
  apply bind_ok in H as (t1 & E1 & H). apply bind_ok in H as (t2 & E2 & H). apply bind_ok in H as (ws & E3 & H).
  apply bind_ok in H as (u & E4 & H). apply guard_ok in E4. apply andb_true_iff in E4 as [B1 B2].
  unfold size_t in B1, B2. apply andb_true_iff in B1 as [B1 _], B2 as [B2 _]. apply Z.leb_le in B1, B2.
  apply bind_ok in H as ([[P B] S] & E5 & H). injection H as <- <-.
  split; [exact B1|]. split; [exact B2|].
  split; [unfold prepare_ts; rewrite E1; exact E2|].
  unfold ffa_search_ts. cbn [bind rseek_kw sk_pmin sk_pmax sk_bmin sk_bmax sk_ducy sk_wtsp].
  rewrite Z2Nat.id by exact B1. change (@o_div numR n_dbl (@o_ofZ numR n_dbl 3) (@o_ofZ numR n_dbl 10)) with (3 / 10) in E3.
  numR_ty. rewrite E3. cbn [bind]. numR_ty. rewrite E5. reflexivity.
Qed.

Section Run.
Context (alloc : nat -> list R) (allocz : nat -> list Z).
Context (fit : list R -> list R -> Z -> res (R -> R)) (argsort : list R -> list nat).
Context (ob ob32 : Z -> R) (realpath : string -> string) (contents : string -> res file).
Context (skycoord : R -> R -> res nat).
Context (py_float : text -> res R) (skycoord_str : string -> string -> res nat) (other : ival numR -> nat).
Local Notation load := (loaders numR ob ob32 realpath contents skycoord py_float skycoord_str other).
Local Notation run := (run_program numR ln pow alloc allocz fit argsort load).

Lemma loaders_new f fname ts : load f fname = Ok ts -> exists x tsamp md, new_series (N := numR) x tsamp md = Ok ts.
Proof.
  destruct f; cbn [loaders]; unfold load_presto, load_sigproc; intros H; apply bind_ok in H as (? & _ & H).
  - apply bind_ok in H as ([[[? ?] ?] ?] & _ & H). eauto.
  - apply bind_ok in H as ([[? ?] ?] & _ & H). eauto.
Qed.

Lemma loaders_safe f fname : library_safe contents skycoord py_float skycoord_str -> safe (load f fname).
Proof. destruct f; [apply load_presto_safe|apply load_sigproc_safe]. Qed.

(** [out] are the brightest of each group of [peaks], the brightest first; the groups are groups
    of positions in the list of peaks, two of them in the same one exactly if a chain of peaks
    whose frequencies differ by at most [radius] links them *)
Definition reported (radius : R) (peaks out : list (peak numR)) : Prop :=
  exists (groups : list (list nat)) (best : list (peak numR)),
    Permutation (concat groups) (seq 0 (length peaks)) /\
    (forall i j, (i < length peaks)%nat -> (j < length peaks)%nat ->
       (together groups i j <-> friends (fun k => (k < length peaks)%nat)
          (fun k => nth k (map p_freq peaks) 0) radius i j)) /\
    Forall2 (fun g p => (exists i, In i g /\ nth_error peaks i = Some p) /\
       forall j q, In j g -> nth_error peaks j = Some q -> p_snr q <= p_snr p) groups best /\
    Permutation out best /\
    StronglySorted (fun p q : peak numR => p_snr q <= p_snr p) out.

(** C83: what rseek reports *)
Theorem rseek_correct :
  forall (a : args numR) r, allocates alloc -> allocates allocz -> sorts argsort ->
  (forall ts, load (ra_format a) (ra_fname a) = Ok ts -> worker_fits (length (se_data ts)) (se_tsamp ts) (rseek_kw a)) ->
  run a = Ok r ->
  exists ts dm ts' peaks,
    load (ra_format a) (ra_fname a) = Ok ts /\ md_dm (se_md ts) = Ok dm /\
    prepared (ra_rmed_width a) (ra_rmed_minpts a) ts ts' /\
    (0 <= ra_bmin a)%Z /\ (0 <= ra_bmax a)%Z /\
    range_peaks fit (se_data ts') (se_tsamp ts) dm (rseek_kw a, rseek_pk a) peaks /\
    match r with
    | None => peaks = []
    | Some out => peaks <> [] /\ reported (ra_clrad a / (INR (length (se_data ts)) * se_tsamp ts)) peaks out
    end.
Proof.
  intros a r Ha Hz HS HF H. unfold run_program in H. apply bind_ok in H as (ts & EL & H). specialize (HF ts EL).
  apply bind_ok in H as (peaks & ES & H). unfold rseek_search in ES. apply bind_ok in ES as ([t pg] & ES & EF).
  destruct (search_py alloc allocz ts a Ha t pg ES) as (B1 & B2 & M2 & M3).
  destruct (loaders_new _ _ _ EL) as (x & tsamp & md & EN). pose proof (new_series_dm _ _ _ _ EN) as DM.
  destruct (prepare_ts_spec alloc _ _ ts t Ha DM M2) as (PR & TO). pose proof PR as (T1 & L1 & D1 & _).
  assert (EF' := EF). unfold find_peaks_pg in EF'. apply bind_ok in EF' as (T & _ & EF'). apply bind_ok in EF' as (dm & ED & _).
  assert (EM : pg_md pg = se_md t).
  { unfold ffa_search_ts in M3. cbn [bind] in M3. apply bind_ok in M3 as (ws & _ & M3).
    apply bind_ok in M3 as ([[? ?] ?] & _ & M3). injection M3 as <-. reflexivity. }
  rewrite EM in ED. exists ts, dm, t, peaks. split; [exact EL|].
  split; [unfold md_dm in *; numR_ty; rewrite D1 in ED; exact ED|]. split; [exact PR|]. split; [exact B1|]. split; [exact B2|].
  split.
  - rewrite <- T1. eapply range_peaks_ok; eauto.
    + rewrite L1, T1. exact HF.
    + now apply prepare_ts_nonempty in M2.
    + rewrite TO, L1, T1. reflexivity.
  - destruct peaks as [|p ps]; [cbn in H; now injection H as <-|].
    destruct (rseek_report_correct argsort (ra_clrad a) (se_length ts) (p :: ps) HS) as (groups & best & out & E & K); [discriminate|].
    rewrite E in H. injection H as <-. split; [discriminate|]. exists groups, best.
    assert (EL' : se_length ts = INR (length (se_data ts)) * se_tsamp ts).
    { unfold se_length. rsimp. now rewrite <- INR_IZR_INZ. }
    rewrite EL' in K. exact K.
Qed.

(** C83: rseek returns or raises an exception *)
Theorem rseek_safe :
  forall (a : args numR), allocates alloc -> allocates allocz -> library_safe contents skycoord py_float skycoord_str ->
  (forall fc sc k, safe (fit fc sc k)) -> sorts argsort ->
  minpts_positive (ra_rmed_minpts a) ->
  (forall ts, load (ra_format a) (ra_fname a) = Ok ts -> worker_fits (length (se_data ts)) (se_tsamp ts) (rseek_kw a)) ->
  run a <> UB /\ run a <> Loop.
Proof.
  intros a Ha Hz HL HF HS Hm HW. change (safe (run a)). unfold run_program.
  apply safe_bind; [now apply loaders_safe|]. intros ts EL. specialize (HW ts EL).
  apply safe_bind.
  2:{ intros peaks _. destruct peaks as [|p ps]; [apply safe_ok|].
    destruct (rseek_report_correct argsort (ra_clrad a) (se_length ts) (p :: ps) HS) as (? & ? & out & E & _); [discriminate|].
    rewrite E. apply safe_ok. }
  unfold rseek_search.
  enough (SS : forall t1, se_deredden numR alloc ts (ra_rmed_width a) (ra_rmed_minpts a) = Ok t1 ->
    forall t2, se_normalise numR t1 = Ok t2 -> (0 <= ra_bmin a)%Z ->
    safe ('(_, pg) <- ffa_search_ts numR ln pow alloc allocz t2 (rseek_kw a) false 0 (PInt 0) true ;; find_peaks_pg numR fit argsort pg (rseek_pk a))).
  { unfold ffa_search_py.
    pose proof (deredden_safe alloc ts (ra_rmed_width a) (ra_rmed_minpts a) Ha Hm) as [D1 D2].
    destruct (se_deredden _ _ _ _ _) as [t1|e| |] eqn:E1; [|apply safe_err|now destruct D1|now destruct D2]. cbn [bind].
    destruct (new_series_safe (normalised numR (se_data t1)) (se_tsamp t1) (se_md t1)) as [N1 N2].
    unfold se_normalise at 1. destruct (new_series _ _ _) as [t2|e| |] eqn:E2; [|apply safe_err|now destruct N1|now destruct N2]. cbn [bind].
    destruct (Props.Libffa.width_trials (ra_bmin a) (3 / 10) (ra_wtsp a)) as (ws & EW & _).
    change (@o_div numR n_dbl (@o_ofZ numR n_dbl 3) (@o_ofZ numR n_dbl 10)) with (3 / 10).
    numR_ty. rewrite EW. cbn [bind]. destruct (size_t (ra_bmin a) && size_t (ra_bmax a)) eqn:EB; cbn [guard bind]; [|apply safe_err].
    apply andb_true_iff in EB as [B1 _]. unfold size_t in B1. apply andb_true_iff in B1 as [B1 _]. apply Z.leb_le in B1.
    specialize (SS t1 eq_refl t2 E2 B1). unfold ffa_search_ts in SS.
    cbn [bind rseek_kw sk_pmin sk_pmax sk_bmin sk_bmax sk_ducy sk_wtsp] in SS. rewrite Z2Nat.id in SS by exact B1.
    numR_ty. rewrite EW in SS. cbn [bind] in SS. numR_ty.
    destruct (py_periodogram _ _ _ _ _ _ _ _ _ _ _ _) as [[[P B] S]|e| |]; cbn [bind] in SS |- *; exact SS. }
  intros t1 E1 t2 E2 B1.
  assert (EP : prepare_ts numR alloc (ra_rmed_width a) (ra_rmed_minpts a) ts = Ok t2) by (unfold prepare_ts; rewrite E1; exact E2).
  destruct (loaders_new _ _ _ EL) as (x & tsamp & md & EN). pose proof (new_series_dm _ _ _ _ EN) as DM.
  destruct (prepare_ts_spec alloc _ _ ts t2 Ha DM EP) as ((T1 & L1 & _) & _).
  apply search_safe; auto.
  - rewrite L1, T1. exact HW.
  - now apply prepare_ts_nonempty in EP.
Qed.

(** C83: rseek returns if the window of the running median suits the data and the range of
    periods is well within the data, spans more than one trial and has no more segments than
    trials *)
Theorem rseek_total :
  forall (a : args numR) ts, allocates alloc -> allocates allocz -> sorts argsort ->
  load (ra_format a) (ra_fname a) = Ok ts -> 0 < se_tsamp ts ->
  window_py_ok (length (se_data ts)) (ZnearestE (ra_rmed_width a / se_tsamp ts)) (ra_rmed_minpts a) ->
  (0 <= ra_bmin a < 2 ^ 64)%Z -> (0 <= ra_bmax a < 2 ^ 64)%Z ->
  (md_get "dm" (se_md ts) = Some MNone \/ exists dm : R, md_get "dm" (se_md ts) = Some (MFloat (N := numR) dm)) ->
  range_fits (length (se_data ts)) (se_tsamp ts) (rseek_kw a) -> fit_works fit (rseek_pk a) ->
  segments_fit (INR (length (se_data ts)) * se_tsamp ts) (rseek_kw a) (rseek_pk a) ->
  exists r, run a = Ok r.
Proof.
  intros a ts Ha Hz HS EL T0 HW B1 B2 HD RF FW SF. unfold run_program. rewrite EL. cbn [bind].
  destruct (loaders_new _ _ _ EL) as (x & tsamp & md & EN). pose proof (new_series_checks _ _ _ _ EN) as V.
  pose proof (new_series_inv _ _ _ _ EN) as (X1 & X2 & _).
  assert (Size : (0 < length (se_data ts))%nat).
  { destruct RF as ((A1 & A2 & A3 & A4 & A5 & A6) & R2 & _). destruct (length (se_data ts)); [exfalso|lia].
    rewrite Rmult_0_r in R2. assert (2 <= INR (sk_bmin (rseek_kw a))) by (apply (le_INR 2); lia).
    numR_ty. assert (0 < se_tsamp ts * INR (sk_bmin (rseek_kw a))) by (apply Rmult_lt_0_compat; lra). lra. }
  assert (IV : forallb (item_valid numR) (se_md ts) = true).
  { destruct (new_series_valid x tsamp md) as (s & E & W); auto.
    - rewrite <- X1, <- X2. apply Rmult_lt_0_compat; [now apply (lt_INR 0)|exact T0].
    - numR_ty. rewrite EN in E. injection E as <-. exact W. }
  assert (PT : exists t1 t2, se_deredden numR alloc ts (ra_rmed_width a) (ra_rmed_minpts a) = Ok t1 /\
    se_normalise numR t1 = Ok t2 /\
    se_tsamp t2 = se_tsamp ts /\ length (se_data t2) = length (se_data ts) /\
    (forall v, md_get "dm" (se_md ts) = Some v -> md_get "dm" (se_md t2) = Some v) /\
    md_tobs (se_md t2) = Ok (INR (length (se_data ts)) * se_tsamp ts)).
  { assert (MD : exists v, md_get "dm" (se_md ts) = Some v) by (destruct HD as [->|[dm ->]]; eauto). destruct MD as [v MD].
    destruct (prepare_ts_total alloc (ra_rmed_width a) (ra_rmed_minpts a) ts v Ha T0 MD IV HW) as (t2 & EP & P1 & P2 & P3 & P4).
    unfold prepare_ts in EP. apply bind_ok in EP as (t1 & E1 & E2).
    exists t1, t2. repeat (split; [assumption|]). split; [|exact P4]. intros v' Ev. congruence. }
  destruct PT as (t1 & t2 & E1 & E2 & P1 & P2 & P3 & P4).
  assert (PD : exists dm, md_dm (se_md t2) = Ok dm).
  { unfold md_dm. destruct HD as [HD|[dm HD]]; rewrite (P3 _ HD); eauto. }
  destruct PD as [dm PD].
  destruct (range_ok alloc allocz fit argsort t2 (rseek_kw a) (rseek_pk a) dm 0 (PInt 0)) as (pg & l & G1 & G2); auto.
  { rewrite P1, P2. exact RF. } { rewrite P1, P2. exact P4. } { rewrite P1, P2. exact SF. }
  assert (ES : rseek_search numR ln pow alloc allocz fit argsort a ts = Ok l).
  { unfold rseek_search, ffa_search_py. rewrite E1. cbn [bind]. rewrite E2. cbn [bind].
    unfold ffa_search_ts in G1. cbn [bind rseek_kw sk_pmin sk_pmax sk_bmin sk_bmax sk_ducy sk_wtsp] in G1.
    rewrite Z2Nat.id in G1 by lia. apply bind_ok in G1 as (ws & EW & G1). apply bind_ok in G1 as ([[P B] S] & EP & G1).
    injection G1 as G1. change (@o_div numR n_dbl (@o_ofZ numR n_dbl 3) (@o_ofZ numR n_dbl 10)) with (3 / 10).
    numR_ty. rewrite EW. cbn [bind].
    assert (SZ : forall z, (0 <= z < 2 ^ 64)%Z -> size_t z = true).
    { intros z Z1. unfold size_t. apply andb_true_iff. split; [apply Z.leb_le|apply Z.ltb_lt]; lia. }
    rewrite !SZ by auto. cbn [andb guard bind]. numR_ty. rewrite EP. cbn [bind]. rewrite G1. exact G2. }
  rewrite ES. cbn [bind]. destruct l as [|p ps]; [cbn; eauto|].
  destruct (rseek_report_correct argsort (ra_clrad a) (se_length ts) (p :: ps) HS) as (? & ? & out & E & _); [discriminate|eauto].
Qed.

(** C84: a value of --rmed_minpts on the command line makes the search fail, whatever the data,
    if the window is at least twice as long *)
Theorem rseek_minpts_refuted :
  forall f fname (o : options numR) ts (x : R),
  load f fname = Ok ts -> op_rmed_minpts o = Some x -> 0 < x -> (forall k, x <> 2 * IZR k) ->
  let a := parse_args numR f fname o in
  2 * x <= IZR (ZnearestE (ra_rmed_width a / se_tsamp ts)) -> run a = Err TypeError.
Proof.
  intros f fname o ts x EL EO X0 NE a LW. unfold run_program. change (ra_format a) with f. change (ra_fname a) with fname.
  rewrite EL. cbn [bind]. unfold rseek_search, ffa_search_py, se_deredden.
  assert (EA : ra_rmed_minpts a = PFloat (N := numR) x) by (unfold a, parse_args; cbn [ra_rmed_minpts]; now rewrite EO).
  rewrite EA. unfold fast_running_median_py.
  destruct (even_float numR x) eqn:EV; [apply even_float_R in EV as [k E]; now destruct (NE k)|].
  change (@o_div numR n_dbl (ra_rmed_width a) (se_tsamp ts)) with (ra_rmed_width a / se_tsamp ts).
  rewrite py_round_R. set (w := ZnearestE (ra_rmed_width a / se_tsamp ts)) in *.
  assert (W0 : (0 <= w)%Z) by (apply le_IZR; lra).
  pose proof (float_factor w x ltac:(lra) W0) as FF. rsimp. cbv zeta. numR_ty.
  destruct (_ =? 1)%Z; [|reflexivity]. exfalso. destruct (proj1 FF eq_refl) as [|]; lra.
Qed.
End Run.
Print Assumptions rseek_correct.
Print Assumptions rseek_safe.
Print Assumptions rseek_total.
Print Assumptions rseek_minpts_refuted.

(** ** An example: a file with 10 s of data sampled at 1 ms, holding one impulse, and no DM *)
Definition one_header : list (string * aval) :=
  [("nchans", AInt 1); ("nbits", AInt 8); ("signed", ABool false); ("tsamp", AFloat 7); ("src_raj", AFloat 0);
   ("src_dej", AFloat 0)]%string.
Definition one_bits (b : Z) : R := if (b =? 7)%Z then 1 / 1000 else 0.
Definition one_payload (n : nat) : file := Ascii.ascii_of_nat 1 :: repeat (Ascii.ascii_of_nat 0) n.
Definition one_file (n : nat) : file := (SigprocFmt.enc_header one_header ++ one_payload n)%list.
Local Notation one_loaders n := (loaders numR one_bits IZR (fun s => s) (fun _ => Ok (one_file n)) (fun _ _ => Ok 0%nat)
  (fun _ => Ok 1) (fun _ _ => Ok 0%nat) (fun _ => 0%nat)).

Lemma one_loaded n : exists ts, one_loaders n Sigproc "x.tim"%string = Ok ts /\ se_data ts = 1 :: repeat 0 n /\
  se_tsamp ts = 1 / 1000 /\ md_get "dm" (se_md ts) = Some MNone.
Proof.
  cbn [loaders]. unfold load_sigproc. cbn [bind]. unfold from_sigproc.
  destruct (sigproc_header_roundtrip [] one_header (one_payload n)) as (a & E & _ & U).
  { repeat constructor; try (apply text_ascii; reflexivity); try discriminate; cbn [fst snd];
      [exists TInt|exists TInt|exists TBool|exists TFloat|exists TFloat|exists TFloat]; cbn; (split; [reflexivity|]); exact I || lia. }
  unfold one_file. rewrite E, U; [|repeat constructor; cbn; intuition discriminate]. clear E U a.
  set (h := SigprocFmt.enc_header one_header). set (h' := Datatypes.length h).
  assert (LF : length (h ++ one_payload n) = (h' + S n)%nat).
  { rewrite app_length. unfold h', one_payload. cbn [length]. rewrite repeat_length. reflexivity. }
  assert (PD : int8s numR false (skipn h' (h ++ one_payload n)) = 1 :: repeat 0 n).
  { unfold h'. rewrite skipn_pre. unfold one_payload, int8s. cbn [map]. rsimp. f_equal.
    induction n as [|m IH]; [reflexivity|]. cbn [repeat map]. f_equal; auto. }
  clearbody h'.
  cbn [bind]. unfold metadata_from_sigproc. change (get_int one_header "nchans") with (@Ok Z 1%Z). cbn [bind].
  change (1 <? 1)%Z with false. cbn [negb guard bind].
  change (get_int one_header "nbits") with (@Ok Z 8%Z). cbn [bind]. change (8 =? 8)%Z with true. cbn [orb andb guard bind].
  change (lookup "signed" one_header) with (Some (ABool false)). cbn [negb guard bind].
  change (get_float numR one_bits one_header "src_raj") with (@Ok R 0).
  change (get_float numR one_bits one_header "src_dej") with (@Ok R 0). cbn [bind].
  unfold tobs, nsamp, bytes_per_sample. change (get_int one_header "nchans") with (@Ok Z 1%Z).
  change (get_int one_header "nbits") with (@Ok Z 8%Z).
  change (get_float numR one_bits one_header "tsamp") with (@Ok R (1 / 1000)). cbn [bind].
  replace (floordiv (1 * 8) 8) with (@Ok Z 1%Z) by reflexivity. cbn [bind]. rewrite LF.
  replace (floordiv _ 1) with (@Ok Z (Z.of_nat (S n)))
    by (unfold floordiv; cbn [Z.eqb]; f_equal; rewrite Z.div_1_r, Nat2Z.inj_add; lia). cbn [bind].
  assert (TP : 0 < IZR (Z.of_nat (S n)) * (1 / 1000)).
  { rewrite <- INR_IZR_INZ. apply Rmult_lt_0_compat; [apply (lt_INR 0); lia|lra]. }
  rsimp. set (T := IZR (Z.of_nat (S n)) * (1 / 1000)) in *.
  assert (V : forall md, (forall kv, In kv md -> item_valid numR kv = true) ->
    metadata_new (N := numR) md = Ok (fold_left (fun m k => md_default k MNone m) reserved md)).
  { intros md K. unfold metadata_new. rewrite (proj2 (forallb_forall _ _) K). reflexivity. }
  rewrite V.
  2:{ clearbody T. intros kv I. unfold md_or_none in I. cbn in I.
    repeat (destruct I as [<-|I]; [cbn; rsimp; rewrite ?Rlt_bool_true, ?Rle_bool_true by (exact TP || unfold one_bits; cbn; lra); reflexivity|]). destruct I. }
  cbn [bind]. numR_ty. rewrite PD.
  set (md := fold_left _ reserved _).
  assert (DM : md_get "dm" md = Some MNone).
  { unfold md. clear. unfold reserved. cbn [fold_left]. do 6 apply md_get_default. rewrite !md_get_set. reflexivity. }
  assert (NV : forallb (item_valid numR) md = true).
  { unfold md, md_or_none. clearbody T. cbn. rsimp. rewrite ?Rlt_bool_true, ?Rle_bool_true by (exact TP || unfold one_bits; cbn; lra). reflexivity. }
  clearbody md.
  destruct (new_series_valid (1 :: repeat 0 n) (1 / 1000) md) as (s & E & _); auto.
  { apply Rmult_lt_0_compat; [|lra]. apply (lt_INR 0). cbn [length]. lia. }
  exists s. split; [exact E|]. apply new_series_inv in E as (E1 & E2 & _ & E3). split; [exact E1|]. split; [exact E2|]. now apply E3; [discriminate|].
Qed.

Definition one_options (minpts : option R) : options numR :=
  Options (N := numR) None (Some 2) (Some 20%Z) (Some 22%Z) None None None minpts None.
Local Notation one_run m := (run_program numR ln pow (fun n => repeat 0 n) (fun n => repeat 0%Z n)
  (fun _ _ _ => Ok (fun _ => 6)) argsort_R (one_loaders (99 * 100 + 99)) (parse_args numR Sigproc "x.tim" (one_options m))).

Example rseek_used :
  (exists ts, one_loaders (99 * 100 + 99) Sigproc "x.tim"%string = Ok ts /\
     worker_fits (length (se_data ts)) (se_tsamp ts) (rseek_kw (parse_args numR Sigproc "x.tim" (one_options None)))) /\
  (exists r, one_run None = Ok r) /\
  one_run (Some 101) = Err TypeError.
Proof.
  destruct (one_loaded (99 * 100 + 99)) as (ts & EL & ED & ET & EM).
  change (1 :: repeat 0 (99 * 100 + 99)) with impulse in ED.
  set (n := (99 * 100 + 99)%nat) in *.
  destruct impulse_fits as (WO & RF & SF). destruct RF as (RA & R2 & (RS & _)).
  set (a := parse_args numR Sigproc "x.tim" (one_options None)).
  assert (WF : worker_fits (length (se_data ts)) (se_tsamp ts) (rseek_kw a)).
  { rewrite ED, ET. split; [exact RS|cbn [rseek_kw sk_ducy]; lra]. }
  split; [exists ts; split; [exact EL|exact WF]|]. split.
  - apply (rseek_total (fun n => repeat 0 n) (fun n => repeat 0%Z n)) with (ts := ts).
    + intros k. apply repeat_length.
    + intros k. apply repeat_length.
    + exact argsort_R_sorts.
    + exact EL.
    + rewrite ET. lra.
    + cbn [a parse_args ra_rmed_minpts ra_rmed_width one_options op_rmed_minpts op_rmed_width or window_py_ok].
      rewrite ED, ET. exact WO.
    + cbn. lia.
    + cbn. lia.
    + left. exact EM.
    + split; [rewrite ET; exact RA|]. split; [rewrite ED, ET; exact R2|exact WF].
    + split; [discriminate|intros fc sc _; eauto].
    + rewrite ED, ET. exact (SF (rseek_pk a) eq_refl).
  - eapply rseek_minpts_refuted; [exact EL|reflexivity|lra| |].
    + intros k E. assert (K : (101 = 2 * k)%Z) by (apply eq_IZR; rewrite mult_IZR; exact E). lia.
    + rewrite ET. cbn [parse_args ra_rmed_width one_options op_rmed_width or].
      assert (R4 : ZnearestE (4 / (1 / 1000)) = 4000%Z).
      { apply round_IZR. lra. }
      rsimp. change (IZR 4) with 4. numR_ty. rewrite R4. lra.
Qed.

(** C109.  The arguments of rseek: what is given is used, the rest has the documented default.
    The default of [rmed_minpts] is an int while a given value is a float. *)
Theorem rseek_arguments :
  forall (f : format) (fname : string) (o : options numR),
  let a := parse_args numR f fname o in
  let chosen {A : Type} (given : option A) (value default : A) :=
    (given = None -> value = default) /\ (forall x, given = Some x -> value = x) in
  ra_format a = f /\ ra_fname a = fname /\
  chosen (op_pmin o) (ra_pmin a) 1 /\ chosen (op_pmax o) (ra_pmax a) 10 /\
  chosen (op_bmin o) (ra_bmin a) 240%Z /\ chosen (op_bmax o) (ra_bmax a) 260%Z /\
  chosen (op_smin o) (ra_smin a) 7 /\ chosen (op_wtsp o) (ra_wtsp a) (3 / 2) /\
  chosen (op_rmed_width o) (ra_rmed_width a) 4 /\ chosen (op_clrad o) (ra_clrad a) (1 / 5) /\
  (op_rmed_minpts o = None -> ra_rmed_minpts a = PInt 101) /\
  (forall x, op_rmed_minpts o = Some x -> ra_rmed_minpts a = PFloat (N := numR) x).
Proof.
  intros f fname o a chosen.
  assert (H : forall (A : Type) (d d' : A) (g : option A), d = d' -> chosen A g (or d g) d').
  { intros A d d' g <-. split; intros; subst; rewrite ?H; reflexivity. }
  split; [reflexivity|]. split; [reflexivity|].
  repeat (split; [unfold a, parse_args; cbn [ra_pmin ra_pmax ra_bmin ra_bmax ra_smin ra_wtsp ra_rmed_width ra_clrad];
    apply H; rsimp; auto; lra|]).
  unfold a, parse_args. cbn [ra_rmed_minpts]. split; [intros ->|intros x ->]; reflexivity.
Qed.
Print Assumptions rseek_arguments.

(** two options given *)
Example rseek_arguments_used :
  let a := parse_args numR Presto "x.inf" (Options (N := numR) (Some 2) None (Some 480%Z) None None None None (Some 51) None) in
  ra_pmin a = 2 /\ ra_pmax a = 10 /\ ra_bmin a = 480%Z /\ ra_rmed_minpts a = PFloat (N := numR) 51.
Proof. cbv zeta. rsimp. repeat split. Qed.
