(** C82: the metadata with which the pipeline plans a run, and the series it loads later, both come
    from the same header entries. *)
From Coq Require Import String List Arith ZArith Bool Lia Reals Lra Psatz.
From Flocq Require Import Core.
From Verif Require Import Base.Result Base.Buf Base.Num Model.Metadata Model.TimeSeries Model.Sigproc Model.Presto
  Model.DmIter Model.Worker Model.Process Proof.TimeSeries Props.Sigproc Props.Presto Props.Worker Props.Process.
Import ListNotations.
Local Open Scope R_scope.

Lemma safe_match {A} (r : res A) : (exists a, r = Ok a) \/ (exists e, r = Err e) -> safe r.
Proof. intros [(a & ->)|(e & ->)]; [apply safe_ok|apply safe_err]. Qed.

Section Loaders.
Context (ob ob32 : Z -> R) (realpath : string -> string) (galactic : nat -> R * R) (contents : string -> res file).
Context (skycoord : R -> R -> res nat).
Context (py_float : text -> res R) (skycoord_str : string -> string -> res nat) (other : ival numR -> nat).

(** a file reached through a symbolic link is the same file *)
Definition links_resolved : Prop :=
  (forall f, realpath (realpath f) = realpath f) /\ forall f, contents (realpath f) = contents f.

Local Notation read_sigproc := (read_meta_sigproc numR ob realpath galactic contents skycoord).
Local Notation load_sigproc := (load_sigproc numR ob ob32 realpath contents skycoord).
Local Notation read_presto := (read_meta_presto numR realpath galactic contents py_float skycoord_str other).
Local Notation load_presto := (load_presto numR ob32 realpath contents py_float skycoord_str other).

Lemma md_float_ok k (md : metadata numR) x : md_float numR k md = Ok x -> md_get k md = Some (MFloat (N := numR) x).
Proof. unfold md_float. destruct (md_get k md) as [[| | | | |]|]; congruence. Qed.

Lemma meta_of_ok presto (md : metadata numR) m : meta_of numR galactic presto md = Ok m ->
  md_get "fname" md = Some (MStr (N := numR) (m_fname m)) /\
  md_get "dm" md = Some (MFloat (N := numR) (m_dm m)) /\
  md_get "tobs" md = Some (MFloat (N := numR) (m_tobs m)) /\
  md_get "tsamp" md = Some (MFloat (N := numR) (m_tsamp m)) /\
  (exists c, md_get "skycoord" md = Some (MCoord (N := numR) c) /\ galactic c = (m_gl m, m_gb m)) /\
  (if presto then exists (fbot cbw : R) nchan, md_get "fbot" md = Some (MFloat (N := numR) fbot) /\
     md_get "cbw" md = Some (MFloat (N := numR) cbw) /\ md_get "nchan" md = Some (MInt nchan) /\
     m_band m = Some (fbot, cbw, nchan)
   else m_band m = None).
Proof.
  unfold meta_of. intros H.
  apply bind_ok in H as (fname & E1 & H). apply bind_ok in H as (dm & E2 & H). apply bind_ok in H as (t & E3 & H).
  apply bind_ok in H as (ts & E4 & H). apply bind_ok in H as (c & E5 & H). apply bind_ok in H as (band & E6 & H).
  injection H as <-. cbn [m_fname m_dm m_tobs m_tsamp m_gl m_gb m_band].
  apply md_float_ok in E2, E3, E4.
  split; [destruct (md_get "fname" md) as [[| | | | |]|]; congruence|]. do 3 (split; [assumption|]). split.
  - exists c. split; [destruct (md_get "skycoord" md) as [[| | | | |]|]; congruence|]. now destruct (galactic c).
  - destruct presto; [|congruence].
    apply bind_ok in E6 as (fbot & F1 & E6). apply bind_ok in E6 as (cbw & F2 & E6). apply bind_ok in E6 as (nc & F3 & E6).
    injection E6 as <-. exists fbot, cbw, nc. apply md_float_ok in F1, F2. do 2 (split; [assumption|]). split; [|reflexivity].
    destruct (md_get "nchan" md) as [[| | | | |]|]; congruence.
Qed.

Lemma dm_nonneg items (md : metadata numR) (x : R) : metadata_new items = Ok md ->
  md_get "dm" items = Some (MFloat (N := numR) x) -> 0 <= x.
Proof.
  intros H G. destruct (metadata_new_get "dm" (MFloat (N := numR) x) _ _ H G) as [_ V].
  cbn [item_valid String.eqb Ascii.eqb Bool.eqb orb] in V. revert V. rsimp.
  destruct (Rle_bool_spec 0 x); [auto|discriminate].
Qed.

(** entries of the metadata of a SIGPROC file *)
Lemma sigproc_entries fname a n size md :
  metadata_from_sigproc numR ob skycoord realpath fname a n size = Ok md ->
  md_get "fname" md = Some (MStr (N := numR) (realpath fname)) /\
  md_get "dm" md = Some (match lookup "refdm" a with Some v => md_of numR ob v | None => MNone end) /\
  (exists ra dec c, lookup "src_raj" a = Some (AFloat ra) /\ lookup "src_dej" a = Some (AFloat dec) /\
     skycoord (parse_float_coord numR (ob ra)) (parse_float_coord numR (ob dec)) = Ok c /\
     md_get "skycoord" md = Some (MCoord (N := numR) c)) /\
  (exists nc nb t, lookup "nchans" a = Some (AInt nc) /\ lookup "nbits" a = Some (AInt nb) /\
     lookup "tsamp" a = Some (AFloat t) /\ md_get "tsamp" md = Some (MFloat (N := numR) (ob t)) /\
     md_get "tobs" md = Some (MFloat (N := numR) (IZR ((Z.of_nat size - Z.of_nat n) / (nc * nb / 8)) * ob t))) /\
  (forall b, lookup "refdm" a = Some (AFloat b) -> 0 <= ob b).
Proof.
  intros MD. unfold metadata_from_sigproc in MD.
  apply bind_ok in MD as (nc & NC & MD). apply bind_ok in MD as (u & _ & MD). clear u.
  apply bind_ok in MD as (nb & NB & MD). apply bind_ok in MD as (u & _ & MD). clear u.
  apply bind_ok in MD as (u & _ & MD). clear u. cbv zeta in MD.
  apply bind_ok in MD as (ra & RA & MD). apply bind_ok in MD as (dec & DE & MD).
  apply bind_ok in MD as (c & SC & MD). apply bind_ok in MD as (t & TO & MD).
  unfold tobs, nsamp, bytes_per_sample in TO. rewrite NC, NB in TO. cbn [bind] in TO.
  change (floordiv (nc * nb) 8) with (Ok (nc * nb / 8)%Z) in TO. cbn [bind] in TO. unfold floordiv in TO.
  destruct (Z.eqb_spec (nc * nb / 8) 0) as [|Z0]; cbn [bind] in TO; [discriminate|].
  apply bind_ok in TO as (ts & TS & TO). injection TO as <-.
  unfold get_int in NC, NB. unfold get_float in RA, DE, TS.
  destruct (lookup "nchans" a) as [[]|] eqn:LC; try discriminate. injection NC as ->.
  destruct (lookup "nbits" a) as [[]|] eqn:LB; try discriminate. injection NB as ->.
  destruct (lookup "src_raj" a) as [[]|] eqn:LR; try discriminate. injection RA as <-.
  destruct (lookup "src_dej" a) as [[]|] eqn:LD; try discriminate. injection DE as <-.
  destruct (lookup "tsamp" a) as [[]|] eqn:LT; try discriminate. injection TS as <-.
  assert (DM : md_get "dm" md = Some (match lookup "refdm" a with Some v => md_of numR ob v | None => MNone end) /\
    forall b, lookup "refdm" a = Some (AFloat b) -> 0 <= ob b).
  { assert (G : forall m0, m0 = md_or_none numR "refdm" (map (fun kv => (fst kv, md_of numR ob (snd kv))) a) ->
      m0 = match lookup "refdm" a with Some v => md_of numR ob v | None => MNone end).
    { intros m0 ->. unfold md_or_none. rewrite md_get_attrs. now destruct (lookup "refdm" a). }
    split.
    - eapply metadata_new_get; [exact MD|]. rewrite !md_get_set. cbn [String.eqb Ascii.eqb Bool.eqb].
      f_equal. now apply G.
    - intros b Lb. eapply dm_nonneg; [exact MD|]. rewrite !md_get_set. cbn [String.eqb Ascii.eqb Bool.eqb].
      f_equal. rewrite (G _ eq_refl), Lb. reflexivity. }
  destruct DM as [DM DN].
  split. { eapply metadata_new_get; [exact MD|]. now rewrite !md_get_set. }
  split; [exact DM|]. split.
  { exists bits, bits0, c. do 3 (split; [assumption || reflexivity|]).
    eapply metadata_new_get; [exact MD|]. now rewrite !md_get_set. }
  split; [|exact DN].
  exists nc, nb, bits1. do 3 (split; [assumption || reflexivity|]). split.
  - eapply metadata_new_get; [exact MD|]. rewrite !md_get_set. cbn [String.eqb Ascii.eqb Bool.eqb].
    rewrite md_get_attrs, LT. reflexivity.
  - eapply metadata_new_get; [exact MD|]. rewrite md_get_set. reflexivity.
Qed.

(** C82: what the planning of a run uses of a SIGPROC file *)
Theorem sigproc_metadata fname m : read_sigproc fname = Ok m ->
  exists f a n dm t ra dec c nc nb,
    contents fname = Ok f /\ read_sigproc_header f [] = Ok (a, n) /\
    m_fname m = realpath fname /\
    lookup "refdm" a = Some (AFloat dm) /\ m_dm m = ob dm /\ 0 <= m_dm m /\
    lookup "tsamp" a = Some (AFloat t) /\ m_tsamp m = ob t /\
    lookup "nchans" a = Some (AInt nc) /\ lookup "nbits" a = Some (AInt nb) /\
    m_tobs m = IZR ((Z.of_nat (length f) - Z.of_nat n) / (nc * nb / 8)) * m_tsamp m /\
    lookup "src_raj" a = Some (AFloat ra) /\ lookup "src_dej" a = Some (AFloat dec) /\
    skycoord (parse_float_coord numR (ob ra)) (parse_float_coord numR (ob dec)) = Ok c /\
    galactic c = (m_gl m, m_gb m) /\
    m_band m = None.
Proof.
  unfold read_meta_sigproc. intros H. apply bind_ok in H as (f & E1 & H). apply bind_ok in H as ([a n] & E2 & H).
  apply bind_ok in H as (md & E3 & H).
  apply meta_of_ok in H as (M1 & M2 & M3 & M4 & (c' & M5 & M6) & M7).
  apply sigproc_entries in E3 as (S1 & S2 & (ra & dec & c & S3 & S4 & S5 & S6) & (nc & nb & t & S7 & S8 & S9 & S10 & S11) & S12).
  rewrite M1 in S1. injection S1 as S1. rewrite M2 in S2. injection S2 as S2.
  rewrite M4 in S10. injection S10 as S10. rewrite M3 in S11. injection S11 as S11. rewrite M5 in S6. injection S6 as ->.
  destruct (lookup "refdm" a) as [[| |dm|]|] eqn:LR; try discriminate. injection S2 as S2.
  exists f, a, n, dm, t, ra, dec, c, nc, nb. rewrite S2, S10.
  repeat (split; [solve [assumption|auto]|]). exact M7.
Qed.

(** entries of the metadata of a PRESTO file *)
Lemma presto_entries fname items md :
  metadata_from_presto numR skycoord_str realpath other fname items = Ok md ->
  md_get "fname" md = Some (MStr (N := numR) (realpath fname)) /\
  (exists raj decj c, lookup "raj" items = Some (IStr raj) /\ lookup "decj" items = Some (IStr decj) /\
     skycoord_str raj decj = Ok c /\ md_get "skycoord" md = Some (MCoord (N := numR) c)) /\
  (exists (t : R) ns, lookup "tsamp" items = Some (@IFloat numR t) /\ lookup "nsamp" items = Some (IInt ns) /\
     md_get "tobs" md = Some (MFloat (N := numR) (t * IZR ns))) /\
  (forall k, ~ In k ["skycoord"; "fname"; "tobs"]%string ->
     ~ In k reserved -> md_get k md = option_map (md_of_inf numR other) (lookup k items)) /\
  (forall k v, ~ In k ["skycoord"; "fname"; "tobs"]%string -> lookup k items = Some v ->
     md_get k md = Some (md_of_inf numR other v)) /\
  (lookup "dm" items = None -> md_get "dm" md = Some MNone) /\
  (forall x : R, lookup "dm" items = Some (@IFloat numR x) -> 0 <= x).
Proof.
  intros MD. unfold metadata_from_presto, istr in MD.
  destruct (lookup "raj" items) as [[raj| | | |]|] eqn:L1; cbn [bind] in MD; try discriminate.
  destruct (lookup "decj" items) as [[decj| | | |]|] eqn:L2; cbn [bind] in MD; try discriminate.
  apply bind_ok in MD as (c & SC & MD).
  destruct (lookup "tsamp" items) as [[| x | | |]|] eqn:LT; cbn [bind] in MD; try discriminate.
  destruct (lookup "nsamp" items) as [[| |ns| |]|] eqn:LN; cbn [bind] in MD; try discriminate.
  assert (GA : forall k, @md_get numR k (map (fun kv => (fst kv, md_of_inf numR other (snd kv))) items) =
    option_map (md_of_inf numR other) (lookup k items)).
  { intros k. clear. induction items as [|(k1, v1) a IH]; cbn; [reflexivity|]. now destruct (String.eqb k k1). }
  assert (GB : forall k v, ~ In k ["skycoord"; "fname"; "tobs"]%string -> lookup k items = Some v ->
     md_get k md = Some (md_of_inf numR other v)).
  { intros k v Hin Hk. eapply metadata_new_get; [exact MD|]. rewrite !md_get_set.
    destruct (String.eqb_spec k "tobs") as [->|]; [exfalso; apply Hin; cbn; auto|].
    destruct (String.eqb_spec k "fname") as [->|]; [exfalso; apply Hin; cbn; auto|].
    destruct (String.eqb_spec k "skycoord") as [->|]; [exfalso; apply Hin; cbn; auto|]. now rewrite GA, Hk. }
  split. { eapply metadata_new_get; [exact MD|]. now rewrite !md_get_set. }
  split. { exists raj, decj, c. do 3 (split; [assumption || reflexivity|]). eapply metadata_new_get; [exact MD|]. now rewrite !md_get_set. }
  split. { exists x, ns. do 2 (split; [assumption || reflexivity|]). eapply metadata_new_get; [exact MD|]. rewrite md_get_set. reflexivity. }
  set (m0 := map _ items) in *.
  assert (GN : forall k, ~ In k ["skycoord"; "fname"; "tobs"]%string -> lookup k items = None ->
     md_get k md = if existsb (String.eqb k) reserved then Some MNone else None).
  { intros k Hin Hk. set (mm := md_set "tobs" _ _) in MD.
    assert (GM : md_get k mm = None).
    { unfold mm. rewrite !md_get_set.
      destruct (String.eqb_spec k "tobs") as [->|]; [exfalso; apply Hin; cbn; auto|].
      destruct (String.eqb_spec k "fname") as [->|]; [exfalso; apply Hin; cbn; auto|].
      destruct (String.eqb_spec k "skycoord") as [->|]; [exfalso; apply Hin; cbn; auto|]. unfold m0. now rewrite GA, Hk. }
    unfold metadata_new in MD. apply bind_ok in MD as (u & _ & MD). injection MD as <-.
    assert (DF : forall ks (m : metadata numR), md_get k m = None ->
      md_get k (fold_left (fun m k => md_default k MNone m) ks m) = if existsb (String.eqb k) ks then Some MNone else None).
    { assert (DG : forall ks (m : metadata numR) v, md_get k m = Some v ->
        md_get k (fold_left (fun m k => md_default k MNone m) ks m) = Some v).
      { induction ks as [|k1 ks IH]; intros m v G; cbn [fold_left]; [exact G|]. apply IH.
        unfold md_default. destruct (md_get k1 m) eqn:G1; [exact G|]. clear IH G1.
        induction m as [|[k2 v2] m IH]; [discriminate|]. cbn in *. destruct (String.eqb k k2); auto. }
      induction ks as [|k1 ks IH]; intros m G; cbn [fold_left existsb]; [exact G|].
      assert (GE : md_get k (md_default k1 MNone m) = if String.eqb k k1 then Some MNone else None).
      { unfold md_default. destruct (md_get k1 m) eqn:G1.
        - destruct (String.eqb_spec k k1) as [->|]; [congruence|exact G].
        - clear IH G1. induction m as [|[k2 v2] m IH]; cbn in *; [reflexivity|].
          destruct (String.eqb k k2); [discriminate|auto]. }
      destruct (String.eqb k k1); cbn [orb]; [now apply DG|now apply IH]. }
    exact (DF reserved mm GM). }
  split.
  { intros k Hin Hr. destruct (lookup k items) as [v|] eqn:Lk; cbn [option_map]; [now apply GB|].
    rewrite (GN k Hin Lk). destruct (existsb (String.eqb k) reserved) eqn:EX; [|reflexivity].
    apply existsb_exists in EX as (k' & I & E). apply String.eqb_eq in E as <-. contradiction. }
  split; [exact GB|]. split.
  { intros Lk. rewrite GN; [reflexivity| |exact Lk]. cbn. intros [E|[E|[E|[]]]]; discriminate. }
  intros y Ly. eapply dm_nonneg; [exact MD|]. rewrite !md_get_set. cbn [String.eqb Ascii.eqb Bool.eqb].
  unfold m0. rewrite GA, Ly. reflexivity.
Qed.

(** C82: what the planning of a run uses of a PRESTO file *)
Theorem presto_metadata fname m : read_presto fname = Ok m ->
  exists t items (fbot cbw : R) nchan nsamp raj decj c,
    contents fname = Ok t /\ inf2dict numR py_float t = Ok items /\
    m_fname m = realpath (realpath fname) /\
    lookup "dm" items = Some (@IFloat numR (m_dm m)) /\ 0 <= m_dm m /\
    lookup "tsamp" items = Some (@IFloat numR (m_tsamp m)) /\
    lookup "nsamp" items = Some (IInt nsamp) /\ m_tobs m = m_tsamp m * IZR nsamp /\
    lookup "raj" items = Some (IStr raj) /\ lookup "decj" items = Some (IStr decj) /\
    skycoord_str raj decj = Ok c /\ galactic c = (m_gl m, m_gb m) /\
    lookup "fbot" items = Some (@IFloat numR fbot) /\ lookup "cbw" items = Some (@IFloat numR cbw) /\
    lookup "nchan" items = Some (IInt nchan) /\ m_band m = Some (fbot, cbw, nchan).
Proof.
  unfold read_meta_presto. intros H. apply bind_ok in H as (t & E1 & H). apply bind_ok in H as (items & E2 & H).
  apply bind_ok in H as (md & E3 & H).
  apply meta_of_ok in H as (M1 & M2 & M3 & M4 & (c' & M5 & M6) & (fbot & cbw & nchan & M7 & M8 & M9 & M10)).
  apply presto_entries in E3 as (S1 & (raj & decj & c & S2 & S3 & S4 & S5) & (ts & ns & S6 & S7 & S8) & S9 & S10 & S11 & S12).
  rewrite M1 in S1. injection S1 as S1. rewrite M5 in S5. injection S5 as ->. rewrite M3 in S8. injection S8 as S8.
  assert (NI : forall k, ~ In k ["skycoord"; "fname"; "tobs"]%string -> ~ In k reserved -> forall x,
    md_get k md = Some x -> exists v, lookup k items = Some v /\ md_of_inf numR other v = x).
  { intros k H1 H2 x G. rewrite S9 in G by auto. destruct (lookup k items) as [v|]; [|discriminate].
    injection G as G. eauto. }
  assert (FL : forall (v : ival numR) (x : R), md_of_inf numR other v = MFloat (N := numR) x -> v = @IFloat numR x).
  { intros [] y E; cbn in E; congruence. }
  destruct (NI "tsamp"%string ltac:(cbn; intuition discriminate) ltac:(cbn; intuition discriminate) _ M4) as (v & L1 & F1).
  apply FL in F1 as ->. rewrite S6 in L1. injection L1 as ->.
  destruct (NI "fbot"%string ltac:(cbn; intuition discriminate) ltac:(cbn; intuition discriminate) _ M7) as (v & L2 & F2).
  apply FL in F2 as ->.
  destruct (NI "cbw"%string ltac:(cbn; intuition discriminate) ltac:(cbn; intuition discriminate) _ M8) as (v & L3 & F3).
  apply FL in F3 as ->.
  destruct (NI "nchan"%string ltac:(cbn; intuition discriminate) ltac:(cbn; intuition discriminate) _ M9) as (v & L4 & F4).
  assert (v = IInt nchan) as -> by (destruct v; cbn in F4; congruence).
  assert (LD : lookup "dm" items = Some (@IFloat numR (m_dm m))).
  { destruct (lookup "dm" items) as [v|] eqn:L5.
    - rewrite (S10 "dm"%string v ltac:(cbn; intuition discriminate) L5) in M2. injection M2 as M2. apply FL in M2 as ->. reflexivity.
    - rewrite (S11 eq_refl) in M2. discriminate. }
  exists t, items, fbot, cbw, nchan, ns, raj, decj, c.
  repeat (split; [solve [assumption|auto]|]). exact M10.
Qed.

(** the library functions called by the loaders return or raise *)
Definition library_safe : Prop :=
  (forall f, safe (contents f)) /\ (forall a b, safe (skycoord a b)) /\
  (forall t, safe (py_float t)) /\ (forall a b, safe (skycoord_str a b)).

Lemma new_series_safe (x : list R) (t : R) md : safe (new_series (N := numR) x t md).
Proof.
  unfold new_series, metadata_new. apply safe_bind; [|intros; apply safe_ok].
  apply safe_bind; [apply safe_guard|]. intros; apply safe_ok.
Qed.

Lemma get_int_safe a k : safe (get_int a k).
Proof. unfold get_int. destruct (lookup k a) as [[]|]; apply safe_ok || apply safe_err. Qed.
Lemma get_float_safe a k : safe (get_float numR ob a k).
Proof. unfold get_float. destruct (lookup k a) as [[]|]; apply safe_ok || apply safe_err. Qed.
Lemma floordiv_safe a b : safe (floordiv a b).
Proof. unfold floordiv. destruct (b =? 0)%Z; apply safe_ok || apply safe_err. Qed.

Lemma load_sigproc_safe f : library_safe -> safe (load_sigproc f).
Proof.
  intros (L1 & L2 & _). unfold load_sigproc. apply safe_bind; [apply L1|]. intros b _.
  apply safe_bind; [|intros [[? ?] ?] _; apply new_series_safe]. unfold from_sigproc.
  apply safe_bind; [apply safe_match, sigproc_header_terminates|]. intros [a n] _.
  apply safe_bind.
  { unfold metadata_from_sigproc, metadata_new, tobs, nsamp, bytes_per_sample. repeat first
      [apply get_int_safe|apply get_float_safe|apply floordiv_safe|apply safe_ok|apply safe_guard|apply L2
      |apply safe_bind; [|intros ? _; cbv zeta]]. }
  intros md _. apply safe_bind; [apply get_int_safe|]. intros nb _. cbv zeta.
  apply safe_bind; [apply get_float_safe|]. intros; apply safe_ok.
Qed.

Lemma py_int_safe l : safe (py_int l).
Proof.
  unfold py_int. repeat (match goal with |- context [match ?x with _ => _ end] => destruct x end);
    try apply safe_ok; apply safe_err.
Qed.

Definition safe_type (v : text -> res (ival numR)) : Prop := forall l, safe (v l).

Lemma p_safe lines n vtype : safe_type vtype -> safe (p numR lines n vtype).
Proof.
  intros H. unfold p. destruct (nth_error lines n); [|apply safe_err]. apply safe_bind; [|intros; apply H].
  unfold raw_inf_value. destruct (nth_error _ 40); [|apply safe_err]. destruct (is_char _ _); apply safe_ok || apply safe_err.
Qed.
Lemma p_all_safe lines l : Forall (fun kv => safe_type (snd kv)) l -> forall n, safe (p_all numR lines n l).
Proof.
  induction 1 as [|[k v] l H F IH]; intros n; cbn [p_all]; [apply safe_ok|].
  apply safe_bind; [now apply p_safe|]. intros x _. apply safe_bind; [apply IH|]. intros; apply safe_ok.
Qed.

Lemma inf2dict_safe t : (forall s, safe (py_float s)) -> safe (inf2dict numR py_float t).
Proof.
  intros HF.
  assert (T1 : safe_type (to_str numR)) by (intros l; apply safe_ok).
  assert (T2 : safe_type (to_int numR)) by (intros l; apply safe_bind; [apply py_int_safe|intros; apply safe_ok]).
  assert (T3 : safe_type (to_bool numR)) by (intros l; apply safe_bind; [apply py_int_safe|intros; apply safe_ok]).
  assert (T4 : safe_type (to_float numR py_float)) by (intros l; apply safe_bind; [apply HF|intros; apply safe_ok]).
  unfold inf2dict. cbv zeta.
  apply safe_bind; [now apply p_safe|]. intros b _. apply safe_bind; [now apply p_safe|]. intros tel _.
  apply safe_bind; [apply safe_guard|]. intros _ _.
  apply safe_bind; [apply p_all_safe; repeat (apply Forall_cons; [assumption|]); apply Forall_nil|]. intros items _.
  apply safe_bind; [now apply p_safe|]. intros em _.
  destruct (String.eqb _ "Radio").
  - apply safe_bind; [apply p_all_safe; repeat (apply Forall_cons; [assumption|]); apply Forall_nil|]. intros; apply safe_ok.
  - destruct (String.eqb _ "X-ray" || String.eqb _ "Gamma"); [|apply safe_err].
    apply safe_bind; [apply p_all_safe; repeat (apply Forall_cons; [assumption|]); apply Forall_nil|]. intros; apply safe_ok.
Qed.

Lemma load_presto_safe f : library_safe -> safe (load_presto f).
Proof.
  intros (L1 & _ & L3 & L4). unfold load_presto. apply safe_bind; [apply L1|]. intros t _.
  apply safe_bind; [|intros [[[? ?] ?] ?] _; apply new_series_safe]. unfold from_presto_inf.
  apply safe_bind; [now apply inf2dict_safe|]. intros items _.
  assert (IS : forall k, safe (istr numR k items)).
  { intros k. unfold istr. destruct (lookup k items) as [[]|]; apply safe_ok || apply safe_err. }
  apply safe_bind.
  { unfold metadata_from_presto, metadata_new. repeat first
      [apply IS|apply L4|apply safe_ok|apply safe_guard|apply safe_bind; [|intros ? _; cbv zeta]].
    - destruct (lookup "tsamp" items) as [[]|]; apply safe_ok || apply safe_err.
    - destruct (lookup "nsamp" items) as [[]|]; apply safe_ok || apply safe_err. }
  intros md _. apply safe_bind; [apply L1|]. intros d _. apply safe_bind.
  { destruct (lookup "tsamp" items) as [[]|]; apply safe_ok || apply safe_err. }
  intros ts _. apply safe_bind; [apply IS|]. intros; apply safe_ok.
Qed.

(** what is left to require of the files: the data loaded suit the search *)
Definition data_suit (read : string -> res (meta numR)) (load : string -> res (series numR)) (cf : config numR)
    (files : list string) : Prop :=
  forall f m ts, In f files -> read f = Ok m -> load (m_fname m) = Ok ts ->
    Forall (fun r => worker_fits (length (se_data ts)) (se_tsamp ts) (r_search r)) (cf_ranges cf).

(** C82: metadata and data of a SIGPROC file agree *)
Theorem sigproc_files_agree cf files : links_resolved -> library_safe ->
  data_suit read_sigproc load_sigproc cf files -> files_ok read_sigproc load_sigproc cf files.
Proof.
  intros (R1 & R2) L D f m If E.
  destruct (sigproc_metadata f m E) as (b & a & n & dm & t & ra & dec & c & nc & nb & C & HD & M1 & M2 & M3 & M4 & M5 & M6 & _).
  split; [exact M4|]. split; [now apply load_sigproc_safe|]. intros ts EL.
  assert (DS := D f m ts If E EL). split; [|split; [|exact DS]].
  - unfold load_sigproc in EL. apply bind_ok in EL as (b' & C' & EL). rewrite M1, R2, C in C'. injection C' as <-.
    apply bind_ok in EL as ([[data tsamp] md] & FS & EL). unfold from_sigproc in FS. rewrite HD in FS. cbn [bind] in FS.
    apply bind_ok in FS as (md' & MD & FS). apply bind_ok in FS as (nb' & _ & FS). cbv zeta in FS.
    apply bind_ok in FS as (ts' & _ & FS). injection FS as _ _ ->.
    apply sigproc_entries in MD as (_ & G & _). rewrite M2 in G. cbn [md_of] in G.
    apply new_series_inv in EL as (_ & _ & _ & K). rewrite M3. now apply K; [discriminate|].
  - unfold load_sigproc in EL. apply bind_ok in EL as (b' & C' & EL). rewrite M1, R2, C in C'. injection C' as <-.
    apply bind_ok in EL as ([[data tsamp] md] & FS & EL). unfold from_sigproc in FS. rewrite HD in FS. cbn [bind] in FS.
    apply bind_ok in FS as (md' & MD & FS). apply bind_ok in FS as (nb' & _ & FS). cbv zeta in FS.
    apply bind_ok in FS as (ts' & TS & FS). injection FS as _ <- _.
    unfold get_float in TS. rewrite M5 in TS. injection TS as <-.
    apply new_series_inv in EL as (_ & K & _). rewrite K, M6. reflexivity.
Qed.

(** C82: metadata and data of a PRESTO file agree *)
Theorem presto_files_agree cf files : links_resolved -> library_safe ->
  data_suit read_presto load_presto cf files -> files_ok read_presto load_presto cf files.
Proof.
  intros (R1 & R2) L D f m If E.
  destruct (presto_metadata f m E) as (t & items & fbot & cbw & nchan & ns & raj & decj & c & C & HD & M1 & M2 & M3 & M4 & _).
  split; [exact M3|]. split; [now apply load_presto_safe|]. intros ts EL.
  assert (DS := D f m ts If E EL). rewrite R1 in M1.
  unfold load_presto in EL. apply bind_ok in EL as (t' & C' & EL). rewrite M1, R2, C in C'. injection C' as <-.
  apply bind_ok in EL as ([[[data tsamp] md] w] & FS & EL). unfold from_presto_inf in FS. rewrite HD in FS. cbn [bind] in FS.
  apply bind_ok in FS as (md' & MD & FS). apply bind_ok in FS as (d & _ & FS).
  apply bind_ok in FS as (ts' & TS & FS). rewrite M4 in TS. injection TS as <-.
  apply bind_ok in FS as (band & _ & FS). injection FS as _ <- -> _.
  apply presto_entries in MD as (_ & _ & _ & _ & G & _).
  specialize (G "dm"%string _ ltac:(cbn; intuition discriminate) M2). cbn [md_of_inf] in G.
  apply new_series_inv in EL as (_ & K1 & _ & K2). split; [now apply K2; [discriminate|]|]. split; [exact K1|exact DS].
Qed.
End Loaders.
Print Assumptions sigproc_metadata.
Print Assumptions presto_metadata.
Print Assumptions sigproc_files_agree.
Print Assumptions presto_files_agree.

(** two files, each reached through the link "l" *)
Definition ex_real (target s : string) : string := if String.eqb s "l" then target else s.
Definition ex_disk (target : string) (f : file) (s : string) : res file :=
  if String.eqb (ex_real target s) target then Ok f else Err OSError.
Lemma ex_links target f : String.eqb target "l" = false -> links_resolved (ex_real target) (ex_disk target f).
Proof.
  intros E. assert (I : forall s, ex_real target (ex_real target s) = ex_real target s).
  { intros s. unfold ex_real. destruct (String.eqb s "l") eqn:F; [now rewrite E|now rewrite F]. }
  split; [exact I|]. intros s. unfold ex_disk. now rewrite I.
Qed.
Lemma ex_library target f : library_safe (ex_disk target f) (fun _ _ => Ok 0%nat) (fun _ => Ok 1) (fun _ _ => Ok 0%nat).
Proof.
  split; [|split; [|split]]; intros; try apply safe_ok. unfold ex_disk. destruct (String.eqb _ _); [apply safe_ok|apply safe_err].
Qed.

Example sigproc_metadata_ex :
  let disk := ex_disk "f" (ex_sig 1 7) in
  links_resolved (ex_real "f") disk /\ library_safe disk (fun _ _ => Ok 0%nat) (fun _ => Ok 1) (fun _ _ => Ok 0%nat) /\
  read_meta_sigproc numR ex_bits (ex_real "f") (fun _ => (10, 20)) disk (fun _ _ => Ok 0%nat) "l" =
    Ok (Meta (N := numR) "f" 3 (2 * 7) 7 10 20 None).
Proof.
  intros disk. split; [now apply ex_links|]. split; [apply ex_library|].
  unfold read_meta_sigproc. change (disk "l"%string) with (@Ok file (ex_sig 1 7)). cbn [bind].
  replace (read_sigproc_header (ex_sig 1 7) []) with
    (@Ok (list (string * aval) * nat) (ex_header 1 7, List.length (SigprocFmt.enc_header (ex_header 1 7)))) by (vm_compute; reflexivity).
  cbn [bind]. unfold metadata_from_sigproc. change (get_int (ex_header 1 7) "nchans") with (@Ok Z 1%Z). cbn [bind].
  change (1 <? 1)%Z with false. cbn [negb guard bind].
  change (get_int (ex_header 1 7) "nbits") with (@Ok Z 8%Z). cbn [bind]. change (8 =? 8)%Z with true. cbn [orb andb guard bind].
  change (lookup "signed" (ex_header 1 7)) with (Some (ABool true)). cbn [negb guard bind].
  change (get_float numR ex_bits (ex_header 1 7) "src_raj") with (@Ok R 0).
  change (get_float numR ex_bits (ex_header 1 7) "src_dej") with (@Ok R 0). cbn [bind].
  unfold tobs, nsamp, bytes_per_sample. change (get_int (ex_header 1 7) "nchans") with (@Ok Z 1%Z).
  change (get_int (ex_header 1 7) "nbits") with (@Ok Z 8%Z).
  change (get_float numR ex_bits (ex_header 1 7) "tsamp") with (@Ok R 7). cbn [bind].
  replace (floordiv (1 * 8) 8) with (@Ok Z 1%Z) by reflexivity. cbn [bind].
  replace (floordiv _ 1) with (@Ok Z 2%Z) by (vm_compute; reflexivity). cbn [bind].
  unfold metadata_new. match goal with |- context [guard (forallb ?p ?l)] => replace (forallb p l) with true end.
  - cbn [guard bind]. reflexivity.
  - symmetry. apply forallb_forall. intros kv I. unfold md_or_none in I. cbn in I.
    repeat (destruct I as [<-|I]; [cbn; rsimp; rewrite ?Rlt_bool_true, ?Rle_bool_true by (unfold ex_bits; cbn; lra); reflexivity|]). destruct I.
Qed.

Example presto_metadata_ex :
  let disk := ex_disk "o.inf" ex_text in
  links_resolved (ex_real "o.inf") disk /\ library_safe disk (fun _ _ => Ok 0%nat) (fun _ => Ok 1) (fun _ _ => Ok 0%nat) /\
  read_meta_presto numR (ex_real "o.inf") (fun _ => (10, 20)) disk (fun _ => Ok 1) (fun _ _ => Ok 0%nat) (fun _ => 0%nat) "l" =
    Ok (Meta (N := numR) "o.inf" 1 (1 * 1024) 1 10 20 (Some (1, 1, 1024%Z))).
Proof.
  intros disk. split; [now apply ex_links|]. split; [apply ex_library|].
  unfold read_meta_presto. change (disk "l"%string) with (@Ok file ex_text). cbn [bind].
  destruct (inf2dict_radio_hypotheses numR 1) as (F1 & F2 & F3 & LO).
  rewrite (inf2dict_radio numR (fun _ => Ok 1) _ _ _ _ _ _ _ _ _ _ _ _ _ _ _ _ _ _ _ _ _ _ _ _ F1 F2 ltac:(discriminate) F3 ltac:(discriminate) LO).
  cbn [bind]. unfold metadata_from_presto, istr. cbn [lookup String.eqb Ascii.eqb Bool.eqb bind].
  unfold metadata_new. match goal with |- context [guard (forallb ?p ?l)] => replace (forallb p l) with true end.
  - cbn [guard bind]. reflexivity.
  - symmetry. apply forallb_forall. intros kv I. cbn in I.
    repeat (destruct I as [<-|I]; [cbn; rsimp; rewrite ?Rlt_bool_true, ?Rle_bool_true by lra; reflexivity|]). destruct I.
Qed.
