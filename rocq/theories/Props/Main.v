(** C89-C93: the program from the configuration file to the files written. *)
From Coq Require Import String List Arith ZArith Bool Lia Reals Lra Permutation Sorted.
From Flocq Require Import Core.
From Verif Require Import Base.Result Base.Buf Base.Num Model.Metadata Model.TimeSeries Model.Cluster
  Model.Peaks Model.Harmonic Model.Folding Model.DmIter Model.Pipeline Model.Ranges Model.Writer Model.FastRmed Model.Search
  Model.Sigproc Model.Presto Model.Worker Model.Process Model.Config Model.Rseek Model.Plot Model.Main
  Spec.ConfigSpec Spec.MainSpec Spec.SigprocFmt
  Proof.TimeSeries Props.Config Props.Sigproc Props.Periodogram Props.Peaks Props.Cluster Spec.Smearing Props.DmIter Props.Ranges Props.Build Props.Writer Props.Worker Props.Process Props.Run Props.Plot Props.Loaders.
Import ListNotations.
Local Open Scope string_scope.

(** ** C89: every accepted configuration is read, and each parameter is what its item stands for *)
Section Read.
Context (N : num) (pyfloat : string -> option N).
Notation yval := (yval N).
Notation lit z := (o_ofZ (@n_dbl N) z).
Notation fields_t := (list (string * (bool * (yval -> yval -> Prop)))).

Lemma yfind_item k (l : list (string * yval)) : item N [k] (YDict l) = yfind k l.
Proof.
  cbn. induction l as [|(k', x) l IH]; [reflexivity|]. cbn. rewrite String.eqb_sym. destruct (k =? k'); [reflexivity|exact IH].
Qed.
Lemma yfind_some {A} k (l : list (string * A)) x : yfind k l = Some x -> In (k, x) l.
Proof.
  induction l as [|(k', y) l IH]; [discriminate|]. cbn. destruct (String.eqb_spec k k') as [->|]; [intros [= ->]; now left|right; auto].
Qed.
Lemma field_unique (fields : fields_t) k a b : NoDup (map fst fields) -> In (k, a) fields -> In (k, b) fields -> a = b.
Proof.
  induction fields as [|(k', f) fields IH]; [contradiction|]. intros D. inversion D as [|? ? D1 D2]; subst. intros [I|I] [J|J].
  - congruence.
  - injection I as -> ->. exfalso. apply D1. change k with (fst (k, b)). now apply in_map.
  - injection J as -> ->. exfalso. apply D1. change k with (fst (k, a)). now apply in_map.
  - auto.
Qed.
Lemma paired (fields : fields_t) k q R d d' : NoDup (map fst fields) -> In (k, (q, R)) fields ->
  Forall2 (fun a b : string * yval => fst a = fst b /\ exists q R, In (fst a, (q, R)) fields /\ R (snd a) (snd b)) d d' ->
  match yfind k d, yfind k d' with
  | Some x, Some y => R x y
  | None, None => True
  | _, _ => False
  end.
Proof.
  intros D I F. induction F as [|(k1, x1) (k2, x2) d d' (E & q' & R' & I' & H) F IH]; [exact Logic.I|]. cbn in *. subst k2.
  destruct (String.eqb_spec k k1) as [<-|]; [|exact IH].
  injection (field_unique fields k _ _ D I I') as _ ->. exact H.
Qed.
Lemma required (fields : fields_t) v w k R : dictionary N fields v w -> NoDup (map fst fields) ->
  yfind k fields = Some (true, R) -> exists x y, item N [k] v = Some x /\ entry N k w = Ok y /\ R x y.
Proof.
  intros (d & d' & -> & -> & F & Q) D E. apply yfind_some in E. pose proof (paired fields k true R d d' D E F) as P.
  apply Q in E. rewrite yfind_item. cbn [entry]. destruct (yfind k d) as [x|] eqn:E1.
  - destruct (yfind k d') as [y|]; [|contradiction]. eauto.
  - exfalso. apply (yfind_in N pyfloat) in E1. auto.
Qed.
Lemma optional (fields : fields_t) v w k R : dictionary N fields v w -> NoDup (map fst fields) ->
  yfind k fields = Some (false, R) ->
  (exists x y, item N [k] v = Some x /\ R x y /\ forall A (f : yval -> res A) d, kwarg N k f d w = f y) \/
  (item N [k] v = None /\ forall A (f : yval -> res A) d, kwarg N k f d w = Ok d).
Proof.
  intros (d & d' & -> & -> & F & Q) D E. apply yfind_some in E. pose proof (paired fields k false R d d' D E F) as P.
  rewrite yfind_item. unfold kwarg. destruct (yfind k d) as [x|], (yfind k d') as [y|]; try contradiction; [left|right]; eauto.
Qed.

Lemma field_given {A} (fields : fields_t) v w k R (f : yval -> res A) P :
  dictionary N fields v w -> NoDup (map fst fields) -> yfind k fields = Some (true, R) ->
  (forall x y, R x y -> exists a, f y = Ok a /\ P x a) ->
  exists a, field N k f w = Ok a /\ given N v [k] P a.
Proof.
  intros H D E K. destruct (required fields v w k R H D E) as (x & y & E1 & E2 & Rxy). destruct (K x y Rxy) as (a & Ea & Pa).
  exists a. unfold field. rewrite E2. cbn [bind]. split; [exact Ea|]. exists x. auto.
Qed.
Lemma kwarg_given {A} (fields : fields_t) v w k R (f : yval -> res A) P d :
  dictionary N fields v w -> NoDup (map fst fields) -> yfind k fields = Some (false, R) ->
  (forall x y, R x y -> exists a, f y = Ok a /\ P x a) ->
  exists a, kwarg N k f d w = Ok a /\ given_or N v [k] P d a.
Proof.
  intros H D E K. destruct (optional fields v w k R H D E) as [(x & y & E1 & Rxy & E2)|[E1 E2]].
  - destruct (K x y Rxy) as (a & Ea & Pa). exists a. rewrite E2. split; [exact Ea|]. left. exists x. auto.
  - exists d. rewrite E2. split; [reflexivity|]. right. auto.
Qed.
Lemma item_under k path v x : item N [k] v = Some x -> item N (k :: path) v = item N path x.
Proof.
  cbn. destruct v; try discriminate. destruct (find _ l); [|discriminate]. intros [= <-]. reflexivity.
Qed.
Lemma given_under {A} k path v x (P : yval -> A -> Prop) a : item N [k] v = Some x -> given N x path P a -> given N v (k :: path) P a.
Proof. intros E (y & E1 & H). exists y. rewrite (item_under _ _ _ _ E). auto. Qed.
Lemma given_or_under {A} k path v x (P : yval -> A -> Prop) d a : item N [k] v = Some x -> given_or N x path P d a -> given_or N v (k :: path) P d a.
Proof.
  intros E [G|[G ->]]; [left; eapply given_under; eauto|]. right. rewrite (item_under _ _ _ _ E). auto.
Qed.

(** readers of the validated values *)
Lemma read_int v w : positive_int N v w -> exists z, as_int N w = Ok z /\ positive_integer N v z.
Proof.
  intros [-> [(z & -> & Hz)| ->]]; [exists z|exists 1%Z]; cbn; (split; [reflexivity|]); split; auto. lia.
Qed.
Lemma read_above z v w : number_above N pyfloat z v w -> exists x, as_number N w = Ok x /\ greater N pyfloat z v x.
Proof. intros (x & Hx & L & ->). exists x. split; [reflexivity|split; auto]. Qed.
Lemma read_any v w : any_number N pyfloat v w -> exists x, as_number N w = Ok x /\ ConfigSpec.number N pyfloat v x.
Proof. intros (x & Hx & ->). exists x. split; [reflexivity|exact Hx]. Qed.
Lemma read_plain v w : positive N v w -> exists x, as_number N w = Ok x /\ plain_positive N v x.
Proof.
  intros [-> [(z & -> & Hz)|[(x & -> & L)| ->]]].
  - exists (lit z). split; [reflexivity|]. right. exists z. split; [split; auto|reflexivity].
  - exists x. split; [reflexivity|]. now left.
  - exists (lit 1). split; [reflexivity|]. right. exists 1%Z. split; [split; [lia|auto]|reflexivity].
Qed.
Lemma read_points v w : positive N v w -> exists m, as_pynum N w = Ok m /\ points N v m.
Proof.
  intros [-> [(z & -> & Hz)|[(x & -> & L)| ->]]].
  - exists (PInt z). split; [reflexivity|]. left. exists z. split; [split; auto|reflexivity].
  - exists (PFloat x). split; [reflexivity|]. right. exists x. auto.
  - exists (PInt 1). split; [reflexivity|]. left. exists 1%Z. split; [split; [lia|auto]|reflexivity].
Qed.
Lemma read_fraction v w : fraction N v w -> exists x, as_number N w = Ok x /\ between_0_and_1 N v x.
Proof. intros [-> (x & -> & L1 & L2)]. exists x. split; [reflexivity|]. split; auto. Qed.
Lemma read_degree v w : number_above N pyfloat 0 v w -> exists z, as_degree N w = Ok z /\ degree N pyfloat v z.
Proof. intros (x & Hx & L & ->). exists (n_trunc x). split; [reflexivity|]. exists x. split; [split; auto|reflexivity]. Qed.
Lemma read_bool v w : boolean N v w -> exists b, as_bool N w = Ok b /\ truth N v b.
Proof. intros [-> [b ->]]. exists b. split; reflexivity. Qed.
Lemma read_null {A} (R : yval -> yval -> Prop) (f : yval -> res A) (P : yval -> A -> Prop) :
  (forall v w, R v w -> exists a, f w = Ok a /\ P v a) -> f YNone = Err TypeError ->
  forall v w, or_null N R v w -> exists o, nullable N f w = Ok o /\ null_or N P v o.
Proof.
  intros K E v w [H|[-> ->]].
  - destruct (K v w H) as (a & Ea & Pa). exists (Some a). split; [|right; eauto]. destruct w; cbn; rewrite ?Ea; auto. congruence.
  - exists None. split; [reflexivity|]. now left.
Qed.
Lemma read_fmt v w : format N v w -> exists f, read_format N w = Ok f /\ format_means N v f.
Proof. intros [-> [->| ->]]; [exists Presto|exists Sigproc]; (split; [reflexivity|]); unfold format_means; auto. Qed.

Lemma count_of v z : positive_integer N v z -> positive_count N v (Z.to_nat z).
Proof. intros H. unfold positive_count. rewrite Z2Nat.id; [exact H|]. destruct H; lia. Qed.

Lemma given_impl {A B} v path (P : yval -> A -> Prop) (Q : yval -> B -> Prop) a b :
  (forall x, P x a -> Q x b) -> given N v path P a -> given N v path Q b.
Proof. intros H (x & E & Px). exists x. auto. Qed.

Tactic Notation "fld" constr(H) constr(k) constr(f) constr(P) uconstr(L) ident(a) ident(E) ident(G) :=
  destruct (field_given _ _ _ k _ f P H ltac:(nodup) eq_refl L) as (a & E & G).
Tactic Notation "kw" constr(H) constr(k) constr(f) constr(P) constr(d) uconstr(L) ident(a) ident(E) ident(G) :=
  destruct (kwarg_given _ _ _ k _ f P d H ltac:(nodup) eq_refl L) as (a & E & G).
Tactic Notation "sub" constr(H) constr(k) ident(x) ident(y) ident(E1) ident(E2) ident(Rxy) :=
  destruct (required _ _ _ k _ H ltac:(nodup) eq_refl) as (x & y & E1 & E2 & Rxy).

Lemma read_range_ok v w : ConfigSpec.range_ok N pyfloat v w -> exists r, read_full_range N w = Ok r /\ range_means N pyfloat v r.
Proof.
  intros H. unfold ConfigSpec.range_ok in H.
  sub H "ffa_search" x1 y1 I1 E1 H1. sub H "find_peaks" x2 y2 I2 E2 H2. sub H "candidates" x3 y3 I3 E3 H3.
  unfold read_full_range. unfold field at 1. rewrite E1. cbn [bind]. unfold read_search.
  fld H1 "period_min" (as_number N) (greater N pyfloat 0) (read_above 0) pmin F1 G1. rewrite F1. cbn [bind].
  fld H1 "period_max" (as_number N) (greater N pyfloat 0) (read_above 0) pmax F2 G2. rewrite F2. cbn [bind].
  kw H1 "fpmin" (as_int N) (positive_integer N) 8%Z read_int fpmin F3 G3. rewrite F3. cbn [bind].
  fld H1 "bins_min" (as_int N) (positive_integer N) read_int bmin F4 G4. rewrite F4. cbn [bind].
  fld H1 "bins_max" (as_int N) (positive_integer N) read_int bmax F5 G5. rewrite F5. cbn [bind].
  kw H1 "ducy_max" (as_number N) (between_0_and_1 N) (o_div (@n_dbl N) (lit 1) (lit 5)) read_fraction ducy F6 G6. rewrite F6. cbn [bind].
  kw H1 "wtsp" (as_number N) (greater N pyfloat 1) (o_div (@n_dbl N) (lit 3) (lit 2)) (read_above 1) wtsp F7 G7. rewrite F7. cbn [bind].
  unfold field at 1. rewrite E2. cbn [bind]. unfold read_peaks.
  kw H2 "smin" (as_number N) (greater N pyfloat 0) (lit 6) (read_above 0) smin F8 G8. rewrite F8. cbn [bind].
  kw H2 "segwidth" (as_number N) (greater N pyfloat 0) (lit 5) (read_above 0) segw F9 G9. rewrite F9. cbn [bind].
  kw H2 "nstd" (as_number N) (greater N pyfloat 0) (lit 6) (read_above 0) nstd F10 G10. rewrite F10. cbn [bind].
  kw H2 "minseg" (as_int N) (positive_integer N) 10%Z read_int minseg F11 G11. rewrite F11. cbn [bind].
  kw H2 "polydeg" (as_degree N) (degree N pyfloat) 2%Z read_degree polydeg F12 G12. rewrite F12. cbn [bind].
  kw H2 "clrad" (nullable N (as_number N)) (null_or N (greater N pyfloat 0)) (Some (o_div (@n_dbl N) (lit 1) (lit 10)))
    (read_null _ _ _ (read_above 0) eq_refl) clrad F13 G13. rewrite F13. cbn [bind].
  rewrite E3. cbn [bind].
  fld H3 "bins" (as_int N) (positive_integer N) read_int bins F14 G14. rewrite F14. cbn [bind].
  fld H3 "subints" (as_int N) (positive_integer N) read_int subints F15 G15. rewrite F15. cbn [bind].
  eexists. split; [reflexivity|]. unfold range_means. cbn [r_search r_peaks r_cbins r_csubints sk_pmin sk_pmax sk_bmin sk_bmax
    sk_fpmin sk_wtsp sk_ducy pk_smin pk_segwidth pk_nstd pk_minseg pk_polydeg pk_clrad].
  apply (given_impl _ _ _ (positive_count N) _ (Z.to_nat bmin)) in G4; [|intros; now apply count_of].
  apply (given_impl _ _ _ (positive_count N) _ (Z.to_nat bmax)) in G5; [|intros; now apply count_of].
  repeat match goal with |- _ /\ _ => split end; first [eapply given_under; [eassumption|assumption]|eapply given_or_under; [eassumption|assumption]].
Qed.
Lemma read_ranges_ok v w : listing N (ConfigSpec.range_ok N pyfloat) v w ->
  exists l, match w with YList l => mapM (read_full_range N) l | _ => Err TypeError end = Ok l /\ ranges_mean N pyfloat v l.
Proof.
  intros (l & l' & -> & -> & F).
  assert (K : exists rs, mapM (read_full_range N) l' = Ok rs /\ Forall2 (range_means N pyfloat) l rs).
  { induction F as [|x y l l' H F (rs & E & G)]; [exists []; split; [reflexivity|constructor]|].
    destruct (read_range_ok x y H) as (r & Er & Hr). exists (r :: rs). cbn [mapM]. rewrite Er. cbn [bind]. rewrite E. cbn [bind].
    split; [reflexivity|constructor; auto]. }
  destruct K as (rs & E & G). exists rs. split; [exact E|]. exists l. auto.
Qed.

Theorem config_read conf c : validate_pipeline_config N pyfloat conf = Ok c ->
  exists f cf, read_config N c = Ok (f, cf) /\ config_means N pyfloat conf f cf.
Proof.
  intros H. apply config_validation_exact in H. unfold ConfigSpec.config_ok in H.
  set (num := greater N pyfloat 0). set (int := positive_integer N).
  sub H "data" x1 y1 I1 E1 H1. sub H "dmselect" x2 y2 I2 E2 H2. sub H "dereddening" x3 y3 I3 E3 H3.
  sub H "clustering" x4 y4 I4 E4 H4. sub H "harmonic_flagging" x5 y5 I5 E5 H5. sub H "candidate_filters" x6 y6 I6 E6 H6.
  unfold read_config.
  fld H "processes" (as_int N) int read_int procs F1 G1. rewrite F1. cbn [bind].
  rewrite E1. cbn [bind].
  fld H1 "format" (read_format N) (format_means N) read_fmt fmt F2 G2. rewrite F2. cbn [bind].
  fld H1 "fmin" (nullable N (as_number N)) (null_or N num) (read_null _ _ _ (read_above 0) eq_refl) fmin F3 G3. rewrite F3. cbn [bind].
  fld H1 "fmax" (nullable N (as_number N)) (null_or N num) (read_null _ _ _ (read_above 0) eq_refl) fmax F4 G4. rewrite F4. cbn [bind].
  fld H1 "nchans" (nullable N (as_int N)) (null_or N int) (read_null _ _ _ read_int eq_refl) nch F5 G5. rewrite F5. cbn [bind].
  rewrite E2. cbn [bind].
  fld H2 "min" (nullable N (as_number N)) (null_or N (ConfigSpec.number N pyfloat)) (read_null _ _ _ read_any eq_refl) dmin F6 G6. rewrite F6. cbn [bind].
  fld H2 "max" (nullable N (as_number N)) (null_or N (ConfigSpec.number N pyfloat)) (read_null _ _ _ read_any eq_refl) dmax F7 G7. rewrite F7. cbn [bind].
  fld H2 "dmsinb_max" (nullable N (as_number N)) (null_or N (plain_positive N)) (read_null _ _ _ read_plain eq_refl) dsinb F8 G8. rewrite F8. cbn [bind].
  rewrite E3. cbn [bind].
  fld H3 "rmed_width" (as_number N) (plain_positive N) read_plain rw F9 G9. rewrite F9. cbn [bind].
  fld H3 "rmed_minpts" (as_pynum N) (points N) read_points mp F10 G10. rewrite F10. cbn [bind].
  fld H "ranges" (fun r => match r with YList l => mapM (read_full_range N) l | _ => Err TypeError end) (ranges_mean N pyfloat)
    read_ranges_ok rs F11 G11. rewrite F11. cbn [bind].
  rewrite E4. cbn [bind].
  fld H4 "radius" (as_number N) (plain_positive N) read_plain rad F12 G12. rewrite F12. cbn [bind].
  rewrite E5. cbn [bind].
  fld H5 "denom_max" (as_int N) int read_int den F13 G13. rewrite F13. cbn [bind].
  fld H5 "phase_distance_max" (as_number N) num (read_above 0) ph F14 G14. rewrite F14. cbn [bind].
  fld H5 "dm_distance_max" (as_number N) num (read_above 0) dd F15 G15. rewrite F15. cbn [bind].
  fld H5 "snr_distance_max" (as_number N) num (read_above 0) sd F16 G16. rewrite F16. cbn [bind].
  rewrite E6. cbn [bind].
  fld H6 "dm_min" (nullable N (as_number N)) (null_or N (ConfigSpec.number N pyfloat)) (read_null _ _ _ read_any eq_refl) fdm F17 G17. rewrite F17. cbn [bind].
  fld H6 "snr_min" (nullable N (as_number N)) (null_or N (ConfigSpec.number N pyfloat)) (read_null _ _ _ read_any eq_refl) fsn F18 G18. rewrite F18. cbn [bind].
  fld H6 "remove_harmonics" (nullable N (as_bool N)) (null_or N (truth N)) (read_null _ _ _ read_bool eq_refl) frh F19 G19. rewrite F19. cbn [bind].
  fld H6 "max_number" (nullable N (as_int N)) (null_or N int) (read_null _ _ _ read_int eq_refl) fmx F20 G20. rewrite F20. cbn [bind].
  fld H "plot_candidates" (as_bool N) (truth N) read_bool plot F21 G21. rewrite F21. cbn [bind].
  eexists _, _. split; [reflexivity|]. unfold config_means. cbn [cf_processes cf_dm_min cf_dm_max cf_dmsinb_max cf_fmin cf_fmax cf_nchans
    cf_rmed_width cf_rmed_minpts cf_ranges cf_radius cf_harmonics cf_filters cf_plot hf_denom_max hf_phase_max hf_dm_max hf_snr_max
    fl_dm_min fl_snr_min fl_remove_harmonics fl_max_number].
  apply (given_impl _ _ _ (positive_count N) _ (Z.to_nat procs)) in G1; [|intros; now apply count_of].
  repeat match goal with |- _ /\ _ => split end; first [assumption|eapply given_under; [eassumption|assumption]].
Qed.
End Read.
Print Assumptions config_read.

(** The items determine the parameters. *)
Section Unique.
Context (N : num) (pyfloat : string -> option N).
Notation yval := (yval N).

Definition functional {A} (P : yval -> A -> Prop) : Prop := forall v a b, P v a -> P v b -> a = b.
Lemma given_fun {A} (P : yval -> A -> Prop) v path a b : functional P -> given N v path P a -> given N v path P b -> a = b.
Proof. intros F (x & E & H) (y & E' & H'). rewrite E in E'. injection E' as <-. eapply F; eauto. Qed.
Lemma given_or_fun {A} (P : yval -> A -> Prop) v path d a b : functional P -> given_or N v path P d a -> given_or N v path P d b -> a = b.
Proof.
  intros F [G|[G ->]] [G'|[G' ->]]; auto.
  - eapply given_fun; eauto.
  - destruct G as (x & E & _). congruence.
  - destruct G' as (x & E & _). congruence.
Qed.
Lemma number_fun : functional (ConfigSpec.number N pyfloat).
Proof. intros v a b H H'. inversion H; subst; inversion H'; subst; congruence. Qed.
Lemma integer_fun : functional (positive_integer N).
Proof. intros v a b (_ & [-> |[-> ->]]) (_ & [E|[E ->]]); congruence. Qed.
Lemma count_fun : functional (positive_count N).
Proof. intros v a b H H'. apply Nat2Z.inj. eapply integer_fun; eauto. Qed.
Lemma greater_fun z : functional (greater N pyfloat z).
Proof. intros v a b (H & _) (H' & _). eapply number_fun; eauto. Qed.
Lemma plain_fun : functional (plain_positive N).
Proof.
  intros v a b [[-> _]|(z & Hz & ->)] [[E _]|(z' & Hz' & ->)].
  - congruence.
  - destruct Hz' as (_ & [?|[? _]]); discriminate.
  - subst v. destruct Hz as (_ & [?|[? _]]); discriminate.
  - f_equal. eapply integer_fun; eauto.
Qed.
Lemma null_fun {A} (P : yval -> A -> Prop) : (forall a, ~ P YNone a) -> functional P -> functional (null_or N P).
Proof.
  intros NN F v a b [[-> ->]|(x & Hx & ->)] [[E ->]|(y & Hy & ->)]; auto.
  - now apply NN in Hy.
  - subst v. now apply NN in Hx.
  - f_equal. eapply F; eauto.
Qed.
Lemma between_fun : functional (between_0_and_1 N).
Proof. intros v a b (-> & _) (E & _). congruence. Qed.
Lemma degree_fun : functional (degree N pyfloat).
Proof. intros v a b (x & Hx & ->) (y & Hy & ->). f_equal. eapply greater_fun; eauto. Qed.
Lemma points_fun : functional (points N).
Proof.
  intros v a b [(z & Hz & ->)|(x & -> & _ & ->)] [(z' & Hz' & ->)|(x' & E & _ & ->)].
  - f_equal. eapply integer_fun; eauto.
  - subst v. destruct Hz as (_ & [?|[? _]]); discriminate.
  - destruct Hz' as (_ & [?|[? _]]); discriminate.
  - congruence.
Qed.
Lemma truth_fun : functional (truth N).
Proof. intros v a b -> E. unfold truth in E. congruence. Qed.
Lemma format_fun : functional (format_means N).
Proof. intros v a b [[-> ->]|[-> ->]] [[E ->]|[E ->]]; congruence. Qed.
Lemma not_null_number a : ~ ConfigSpec.number N pyfloat YNone a. Proof. intros H. inversion H. Qed.
Lemma not_null_greater z a : ~ greater N pyfloat z YNone a. Proof. intros (H & _). inversion H. Qed.
Lemma not_null_integer a : ~ positive_integer N YNone a. Proof. intros (_ & [?|[? _]]); discriminate. Qed.
Lemma not_null_plain a : ~ plain_positive N YNone a. Proof. intros [[? _]|(z & H & _)]; [discriminate|now apply not_null_integer in H]. Qed.
Lemma not_null_truth a : ~ truth N YNone a. Proof. discriminate. Qed.

Ltac fn := solve [exact number_fun|exact integer_fun|exact count_fun|apply greater_fun|exact plain_fun|exact between_fun|exact degree_fun
  |exact points_fun|exact truth_fun|exact format_fun
  |apply null_fun; [first [exact not_null_number|apply not_null_greater|exact not_null_integer|exact not_null_plain|exact not_null_truth]
                   |first [exact number_fun|apply greater_fun|exact integer_fun|exact plain_fun|exact truth_fun]]].
Ltac fns := repeat match goal with
  | H : given _ ?v ?p ?P ?a, H' : given _ ?v ?p ?P ?b |- _ =>
      let E := fresh in assert (E : a = b) by (refine (given_fun P v p a b _ H H'); fn); clear H H'
  | H : given_or _ ?v ?p ?P ?d ?a, H' : given_or _ ?v ?p ?P ?d ?b |- _ =>
      let E := fresh in assert (E : a = b) by (refine (given_or_fun P v p d a b _ H H'); fn); clear H H'
  end.

Lemma range_fun : functional (range_means N pyfloat).
Proof.
  intros v [k q b s] [k' q' b' s'] H H'. unfold range_means in *. cbn [r_search r_peaks r_cbins r_csubints] in *.
  repeat match goal with H : _ /\ _ |- _ => destruct H end. fns.
  destruct k, k', q, q'. cbn in *. congruence.
Qed.
Lemma ranges_fun : functional (ranges_mean N pyfloat).
Proof.
  intros v a b (l & -> & F) (l' & E & F'). injection E as <-. revert b F'.
  induction F as [|x r l rs H F IH]; intros b F'; inversion F'; subst; [reflexivity|]. f_equal; [|auto].
  eapply range_fun; eauto.
Qed.
Theorem config_means_unique conf f f' cf cf' :
  config_means N pyfloat conf f cf -> config_means N pyfloat conf f' cf' -> f = f' /\ cf = cf'.
Proof.
  intros H H'. unfold config_means in *. repeat match goal with H : _ /\ _ |- _ => destruct H end.
  assert (ER : cf_ranges cf = cf_ranges cf').
  { match goal with H : given _ _ ["ranges"] _ _, H' : given _ _ ["ranges"] _ (cf_ranges cf') |- _ =>
      refine (given_fun _ _ _ _ _ ranges_fun H H') end. }
  repeat match goal with H : given _ _ ["ranges"] _ _ |- _ => clear H end.
  fns. destruct cf as [p a1 a2 a3 a4 a5 a6 a7 a8 rs ra [h1 h2 h3 h4] [g1 g2 g3 g4] pl], cf' as [p' a1' a2' a3' a4' a5' a6' a7' a8' rs' ra' [h1' h2' h3' h4'] [g1' g2' g3' g4'] pl'].
  cbn in *. split; congruence.
Qed.
End Unique.
Print Assumptions config_means_unique.

Local Open Scope R_scope.
(** an accepted configuration makes sense *)
Lemma means_config_ok pyfloat conf f cf : config_means numR pyfloat conf f cf -> config_ok cf.
Proof.
  intros H. unfold config_means in H.
  destruct H as (G1 & _ & _ & _ & _ & _ & _ & _ & _ & G10 & G11 & _ & _ & _ & _ & _ & _ & _ & _ & G20 & _).
  split; [destruct G1 as (x & _ & L & _); lia|]. split; [|split].
  - destruct G10 as (x & _ & [(z & (L & _) & ->)|(y & _ & _ & ->)]); [exact L|exact I].
  - destruct G11 as (x & _ & l & -> & F). induction F as [|v r l rs H F IH]; constructor; auto.
    unfold range_means in H. destruct H as (K1 & _ & K3 & _ & _ & _ & _ & _ & _ & _ & _ & _ & _ & K14 & K15).
    split; [|split; [|split]].
    + destruct K1 as (y & _ & _ & L). revert L. rsimp. destruct (Rlt_bool_spec 0 (sk_pmin (r_search r))) as [L|]; [auto|discriminate].
    + destruct K3 as (y & _ & L & _). lia.
    + destruct K14 as (y & _ & L & _). lia.
    + destruct K15 as (y & _ & L & _). lia.
  - intros n E. destruct G20 as (x & _ & [[_ E']|(z & (L & _) & E')]); [congruence|]. rewrite E' in E. injection E as <-. exact L.
Qed.
Lemma means_ducy pyfloat conf f cf : config_means numR pyfloat conf f cf -> Forall (fun r : Process.range numR => 0 < sk_ducy (r_search r) < 1) (cf_ranges cf).
Proof.
  intros H. unfold config_means in H. destruct H as (_ & _ & _ & _ & _ & _ & _ & _ & _ & _ & G11 & _).
  destruct G11 as (x & _ & l & -> & F). induction F as [|v r l rs H F IH]; constructor; auto.
  unfold range_means in H. destruct H as (_ & _ & _ & _ & _ & _ & [(y & _ & _ & L & L')|[_ E]] & _).
  - revert L L'. rsimp. destruct (Rlt_bool_spec 0 (sk_ducy (r_search r))), (Rlt_bool_spec (sk_ducy (r_search r)) 1); auto; discriminate.
  - rewrite E. rsimp. lra.
Qed.

Section Program.
Context (alloc : nat -> list R) (allocz : nat -> list Z) (fit : list R -> list R -> Z -> res (R -> R))
  (argsort : list R -> list nat) (as_fraction : R -> res Model.Harmonic.fraction) (abs_sin : R -> R)
  (pyfloat : string -> option R) (safe_load : file -> res (yval numR))
  (of_bits of_bits32 : Z -> R) (realpath : string -> string) (galactic : nat -> R * R)
  (contents : string -> res file) (skycoord : R -> R -> res nat) (py_float : Presto.text -> res R)
  (skycoord_str : string -> string -> res nat) (other : ival numR -> nat)
  (peaks_csv : list (peak numR) -> string) (clusters_csv : list (row numR) -> string)
  (candidates_csv : list (peak numR) -> string) (to_json : candidate numR (series numR) -> res string)
  (render : figure numR -> res string) (pieces : string -> list string).
Local Notation readers := (readers numR of_bits realpath galactic contents skycoord py_float skycoord_str other).
Local Notation loaders := (loaders numR of_bits of_bits32 realpath contents skycoord py_float skycoord_str other).
Local Notation process_with := (process_with numR ln pow alloc allocz fit argsort as_fraction abs_sin of_bits of_bits32 realpath galactic
  contents skycoord py_float skycoord_str other peaks_csv clusters_csv candidates_csv to_json render pieces).
Local Notation main := (main numR ln pow alloc allocz fit argsort as_fraction abs_sin pyfloat safe_load of_bits of_bits32 realpath galactic
  contents skycoord py_float skycoord_str other peaks_csv clusters_csv candidates_csv to_json render pieces).
Local Notation accepted := (ConfigSpec.config_ok numR pyfloat).

(** the file is a configuration that is accepted, and stands for these parameters *)
Definition configured (config_file : string) (f : Rseek.format) (cf : Process.config numR) : Prop :=
  exists text conf c, contents config_file = Ok text /\ safe_load text = Ok conf /\ accepted conf c /\
    config_means numR pyfloat conf f cf.

(** C90: the program runs the pipeline with the parameters that the configuration file stands
    for; with another configuration it raises and writes nothing *)
Theorem main_configuration :
  forall faults config_file files outdir s,
  (forall f cf, configured config_file f cf -> forall r s',
     main faults config_file files outdir s r s' <-> process_with f faults cf files outdir s r s') /\
  (forall text conf, contents config_file = Ok text -> safe_load text = Ok conf ->
     ((exists c, accepted conf c) -> exists f cf, configured config_file f cf) /\
     ((forall c, ~ accepted conf c) -> forall r s',
        main faults config_file files outdir s r s' <-> r = Err InvalidPipelineConfig /\ s' = s)) /\
  (forall e, (text <- contents config_file ;; safe_load text) = Err e -> forall r s',
     main faults config_file files outdir s r s' <-> r = Err e /\ s' = s).
Proof.
  intros faults config_file files outdir s. split; [|split].
  - intros f cf (text & conf & c & E1 & E2 & AC & M) r s'.
    pose proof (proj2 (proj1 (config_validation_exact numR pyfloat conf) c) AC) as EV. destruct (config_read numR pyfloat conf c EV) as (f1 & cf1 & ER & M1).
    destruct (config_means_unique numR pyfloat conf _ _ _ _ M M1) as [<- <-].
    assert (EF : from_yaml_config numR pyfloat safe_load contents config_file = Ok c)
      by (unfold from_yaml_config; rewrite E1; cbn [bind]; rewrite E2; cbn [bind]; exact EV).
    split.
    + intros H. inversion H; subst; try congruence.
    + intros H. eapply Main_process; eauto.
  - intros text conf E1 E2. split.
    + intros (c & AC). pose proof (proj2 (proj1 (config_validation_exact numR pyfloat conf) c) AC) as EV. destruct (config_read numR pyfloat conf c EV) as (f & cf & _ & M).
      exists f, cf, text, conf, c. auto.
    + intros NA r s'.
      assert (EF : from_yaml_config numR pyfloat safe_load contents config_file = Err InvalidPipelineConfig).
      { unfold from_yaml_config. rewrite E1. cbn [bind]. rewrite E2. cbn [bind].
        now apply (config_validation_exact numR pyfloat conf). }
      split; [intros H; inversion H; subst; try congruence; split; congruence|]. intros [-> ->]. now apply Main_config.
  - intros e E r s'.
    assert (EF : from_yaml_config numR pyfloat safe_load contents config_file = Err e).
    { unfold from_yaml_config. destruct (contents config_file) as [t|? | |]; cbn [bind] in *; try congruence. now rewrite E. }
    split; [intros H; inversion H; subst; try congruence; split; congruence|]. intros [-> ->]. now apply Main_config.
Qed.

(** sizes fit in the C types *)
Definition sizes_fit (f : Rseek.format) (cf : Process.config numR) (files : list string) : Prop :=
  forall fname m ts, In fname files -> readers f fname = Ok m -> loaders f (m_fname m) = Ok ts ->
    Forall (fun r : Process.range numR => search_fits (length (se_data ts)) (se_tsamp ts) (sk_pmin (r_search r)) (sk_pmax (r_search r))
      (sk_bmin (r_search r)) (sk_bmax (r_search r))) (cf_ranges cf).

Local Notation environment_ok := (environment_ok alloc allocz fit argsort).
Local Notation links_resolved := (links_resolved realpath contents).
Local Notation library_safe := (library_safe contents skycoord py_float skycoord_str).

Lemma configured_ok config_file f cf files : configured config_file f cf -> links_resolved -> library_safe -> sizes_fit f cf files ->
  config_ok cf /\ files_ok (readers f) (loaders f) cf files.
Proof.
  intros (text & conf & c & _ & _ & _ & M) LR LS SF. split; [eapply means_config_ok; eauto|].
  assert (DS : data_suit (readers f) (loaders f) cf files).
  { intros fname m ts If Em El. specialize (SF fname m ts If Em El). apply means_ducy in M. rewrite Forall_forall in *.
    intros r Hr. split; [now apply SF|]. now apply M. }
  destruct f; [eapply presto_files_agree|eapply sigproc_files_agree]; eauto.
Qed.

(** C91: what a run of the program that returns has found *)
Theorem main_correct :
  forall faults config_file files outdir s pr s' f cf,
  configured config_file f cf -> environment_ok -> links_resolved -> library_safe -> sizes_fit f cf files ->
  band_known (readers f) cf files ->
  main faults config_file files outdir s (Ok pr) s' ->
  exists metas f0 f1 nc trials tmed kept outs,
    Forall2 (fun fname m => readers f fname = Ok m) files metas /\
    band_of metas (cf_fmin cf) (cf_fmax cf) (cf_nchans cf) f0 f1 nc /\
    selection abs_sin cf metas f0 f1 nc (map tr_dm trials) /\
    Forall (trial_of fit (loaders f) cf metas) trials /\
    Permutation (pr_peaks pr) (concat (map found trials)) /\
    StronglySorted (fun p q : peak numR => p_period p <= p_period q) (pr_peaks pr) /\
    is_quantile (1 / 2) (map m_tobs metas) tmed /\
    clustered (cf_radius cf / tmed) (pr_peaks pr) (pr_clusters pr) /\
    flagged (fun F H : peak numR => htest numR as_fraction F H tmed f0 f1 (hf_denom_max (cf_harmonics cf))
               (hf_phase_max (cf_harmonics cf)) (hf_dm_max (cf_harmonics cf)) (hf_snr_max (cf_harmonics cf)))
      (pr_clusters pr) /\
    filtered (cf_filters cf) (pr_clusters pr) kept /\
    Forall2 (candidate_of cf trials (pr_clusters pr)) kept outs /\
    Permutation (pr_candidates pr) (somes outs) /\
    StronglySorted (fun a b : candidate numR (series numR) => p_snr (cd_params b) <= p_snr (cd_params a)) (pr_candidates pr).
Proof.
  intros faults config_file files outdir s pr s' f cf C EN LR LS SF BK H.
  apply (proj1 (main_configuration faults config_file files outdir s) f cf C) in H.
  destruct (configured_ok _ _ _ files C LR LS SF) as [CO FO].
  exact (process_correct _ _ _ _ _ _ _ _ _ _ _ _ _ _ _ _ _ _ _ _ _ EN CO FO BK H).
Qed.

(** C92: the files that such a run leaves *)
Theorem main_files :
  forall faults config_file files outdir s pr s' f cf,
  configured config_file f cf -> environment_ok -> links_resolved -> library_safe -> sizes_fit f cf files ->
  band_known (readers f) cf files -> splits pieces -> (forall c, safe (to_json c)) -> (forall fig, safe (render fig)) ->
  main faults config_file files outdir s (Ok pr) s' ->
  (pr_peaks pr = [] -> s' = s) /\
  (pr_peaks pr <> [] ->
   exists rows, length rows = length (pr_clusters pr) /\ (forall k r, nth_error rows k = Some r -> row_of (pr_clusters pr) k r) /\
   s' (path_join outdir "peaks.csv") = Some (peaks_csv (pr_peaks pr)) /\
   s' (path_join outdir "clusters.csv") = Some (clusters_csv rows) /\
   s' (path_join outdir "candidates.csv") =
     (if Nat.eqb (length (pr_candidates pr)) 0 then s (path_join outdir "candidates.csv")
      else Some (candidates_csv (map cd_params (pr_candidates pr)))) /\
   (forall rank c, nth_error (pr_candidates pr) rank = Some c ->
      (exists t, to_json c = Ok t /\ s' (candidate_fname outdir rank ".json") = Some t) /\
      (if cf_plot cf then plottable c /\ exists fig t, shows c fig /\ render fig = Ok t /\
                            s' (candidate_fname outdir rank ".png") = Some t
       else s' (candidate_fname outdir rank ".png") = s (candidate_fname outdir rank ".png"))) /\
   forall g, (forall rank ext, (rank < length (pr_candidates pr))%nat -> In ext [".json"; ".png"]%string ->
                g <> candidate_fname outdir rank ext) ->
     ~ In g (map (path_join outdir) ["peaks.csv"; "clusters.csv"; "candidates.csv"]%string) -> s' g = s g).
Proof.
  intros faults config_file files outdir s pr s' f cf C EN LR LS SF BK SP SJ SR H.
  apply (proj1 (main_configuration faults config_file files outdir s) f cf C) in H.
  destruct (configured_ok _ _ _ files C LR LS SF) as [CO FO].
  destruct (process_files _ _ _ _ _ _ _ _ _ _ _ _ _ _ _ _ _ _ _ _ _ EN CO FO BK SP (savefig_writable to_json render SJ SR) H) as [K1 K2].
  split; [exact K1|]. intros NE. destruct (K2 NE) as (rows & L1 & L2 & L3 & L4 & L5 & L6 & L7).
  exists rows. split; auto. split; auto. split; auto. split; auto. split; auto. split; auto.
  intros rank c Hc. destruct (L6 rank c Hc) as [J P]. split; [exact J|]. destruct (cf_plot cf) eqn:EP; [|exact P].
  exact (process_plots _ _ _ _ _ _ _ _ _ _ _ _ _ _ _ _ _ _ _ _ _ EN CO FO BK SP SJ SR EP H rank c Hc).
Qed.

Lemma configured_denom config_file f cf : configured config_file f cf -> (1 <= hf_denom_max (cf_harmonics cf))%Z.
Proof.
  intros (text & conf & c & _ & _ & _ & M). unfold config_means in M.
  destruct M as (_ & _ & _ & _ & _ & _ & _ & _ & _ & _ & _ & _ & (x & _ & L & _) & _). lia.
Qed.

(** C91: when a run of the program returns *)
Theorem main_total :
  forall config_file files outdir s f cf metas f0 f1 nc start stop,
  configured config_file f cf -> environment_ok -> links_resolved -> library_safe -> band_known (readers f) cf files -> splits pieces ->
  Forall2 (fun fname m => readers f fname = Ok m) files metas ->
  one_position metas -> band_of metas (cf_fmin cf) (cf_fmax cf) (cf_nchans cf) f0 f1 nc ->
  range_of abs_sin metas (cf_dm_min cf) (cf_dm_max cf) (cf_dmsinb_max cf) start stop ->
  (exists m, In m metas /\ start <= m_dm m <= stop) ->
  cf_ranges cf <> [] -> contiguous (ranges_of cf) ->
  (forall m (r : Process.range numR), In m metas -> In r (cf_ranges cf) ->
     INR (sk_bmin (r_search r)) * m_tsamp m <= sk_pmin (r_search r) /\ IZR (r_cbins r) * m_tsamp m <= sk_pmin (r_search r)) ->
  (forall m, In m metas -> 0 < m_tobs m /\ searchable fit (loaders f) cf m) ->
  (forall x, 1 <= x -> exists n d, as_fraction x = Ok (n, d) /\ (0 < d <= n)%Z /\ Z.gcd n d = 1%Z) ->
  (forall c, exists t, to_json c = Ok t) -> (forall fig, exists t, render fig = Ok t) ->
  (cf_plot cf = true -> forall m ts, In m metas -> loaders f (m_fname m) = Ok ts ->
     (exists k, md_get "skycoord" (se_md ts) = Some (MCoord k)) /\
     (exists x, md_get "mjd" (se_md ts) = Some (MFloat x)) /\
     (exists n, md_get "source_name" (se_md ts) = Some (MStr n)) /\
     forall r : Process.range numR, In r (cf_ranges cf) -> (2 <= r_csubints r)%Z /\
       2 * sk_pmax (r_search r) <= INR (length (se_data ts)) * se_tsamp ts) ->
  (exists pr s', main False config_file files outdir s (Ok pr) s') /\
  forall r s', main False config_file files outdir s r s' -> exists pr, r = Ok pr.
Proof.
  intros config_file files outdir s f cf metas f0 f1 nc start stop C EN LR LS BK SP RM OP BO RG EX NR CT BN SE AF JS RE MD.
  assert (SF : sizes_fit f cf files).
  { intros fname m ts If Em El. destruct (Forall2_in_l _ _ _ RM fname If) as (m' & Im & Em'). rewrite Em in Em'. injection Em' as <-.
    destruct (SE m Im) as (_ & ts' & El' & _ & _ & _ & F). rewrite El in El'. injection El' as <-.
    eapply Forall_impl; [|exact F]. intros r ((_ & _ & S & _) & _). exact S. }
  destruct (configured_ok _ _ _ files C LR LS SF) as [CO FO]. pose proof (configured_denom _ _ _ C) as DM.
  assert (K : (exists pr s', process_with f False cf files outdir s (Ok pr) s') /\
    forall r s', process_with f False cf files outdir s r s' -> exists pr, r = Ok pr).
  { destruct (cf_plot cf) eqn:EP.
    - eapply process_plots_total; eauto.
    - eapply process_returns; eauto.
      + apply savefig_writable; [intros c; destruct (JS c) as [t ->]; apply safe_ok|intros c; destruct (RE c) as [t ->]; apply safe_ok].
      + intros. split; [auto|]. congruence. }
  destruct K as [(pr & s' & K1) K2]. pose proof (proj1 (main_configuration False config_file files outdir s) f cf C) as MC.
  split; [exists pr, s'; now apply MC|]. intros r s1 H. apply MC in H. eauto.
Qed.

(** two runs give the same results, unless writing a file fails *)
Theorem main_determined :
  forall faults faults' config_file files outdir s f cf r1 s1 r2 s2,
  configured config_file f cf -> environment_ok -> links_resolved -> library_safe -> sizes_fit f cf files ->
  band_known (readers f) cf files -> splits pieces -> (forall c, safe (to_json c)) -> (forall fig, safe (render fig)) ->
  main faults config_file files outdir s r1 s1 -> main faults' config_file files outdir s r2 s2 ->
  (exists pr, r1 = Ok pr /\ r2 = Ok pr /\ forall f, s1 f = s2 f) \/
  (exists e e', r1 = Err e /\ r2 = Err e') \/
  (faults' /\ (exists pr, r1 = Ok pr) /\ exists e, r2 = Err e) \/
  (faults /\ (exists pr, r2 = Ok pr) /\ exists e, r1 = Err e).
Proof.
  intros faults faults' config_file files outdir s f cf r1 s1 r2 s2 C EN LR LS SF BK SP SJ SR H1 H2.
  apply (proj1 (main_configuration faults config_file files outdir s) f cf C) in H1.
  apply (proj1 (main_configuration faults' config_file files outdir s) f cf C) in H2.
  destruct (configured_ok _ _ _ files C LR LS SF) as [CO FO].
  assert (E : with_processes (cf_processes cf) cf = cf) by (now destruct cf).
  assert (P : cf_processes cf <> 0%nat) by (now destruct CO).
  rewrite <- E in H1, H2. eapply process_determined; [..|exact H1|exact H2]; eauto. now apply savefig_writable.
Qed.

(** ** C93: accepted configurations with which no file can be searched *)
Lemma main_raises :
  forall faults config_file files outdir s r s' f cf metas,
  configured config_file f cf -> environment_ok -> links_resolved -> library_safe -> sizes_fit f cf files ->
  band_known (readers f) cf files ->
  Forall2 (fun fname m => readers f fname = Ok m) files metas ->
  (forall start stop, range_of abs_sin metas (cf_dm_min cf) (cf_dm_max cf) (cf_dmsinb_max cf) start stop ->
     exists m, In m metas /\ start <= m_dm m <= stop) ->
  (forall t, ~ trial_of fit (loaders f) cf metas t) ->
  main faults config_file files outdir s r s' -> (exists e, r = Err e) /\ s' = s.
Proof.
  intros faults config_file files outdir s r s' f cf metas C EN LR LS SF BK RM RG NT H.
  apply (proj1 (main_configuration faults config_file files outdir s) f cf C) in H.
  destruct (configured_ok _ _ _ files C LR LS SF) as [CO FO].
  enough (NS : forall d peaks, prepare numR abs_sin (readers f) cf files = Ok d ->
    ~ search_files numR ln pow alloc allocz fit argsort (loaders f) faults cf d (Ok peaks)).
  { inversion H; subst; try (split; [eauto|reflexivity]); exfalso; eapply NS; eauto. }
  intros d peaks EP ES.
  destruct (prepare_inv _ _ _ cf files d CO FO BK EP) as (metas' & w & RM' & NE & LD & DD & LW & W0 & VR & POS & DI).
  assert (metas' = metas) as ->.
  { clear - RM RM'. revert metas' RM'. induction RM as [|a b l l' E F IH]; intros m' R; inversion R; subst; [reflexivity|].
    f_equal; [congruence|auto]. }
  destruct (dm_iterator_correct abs_sin metas _ _ _ w _ _ _ d POS W0 DI (band_prepared _ _ cf files d BK EP)) as (SS & (start' & stop' & RG' & R1 & R2) & _).
  destruct (search_trials _ _ _ _ _ _ _ faults cf files d peaks EN CO FO BK EP ES) as (trials & TD & FT & _).
  destruct trials as [|t trials].
  - destruct (RG _ _ RG') as (m & Im & Hm). destruct (R2 m (m_dm m) Im Hm) as (k & Hk & _); [|rewrite <- TD in Hk; destruct Hk].
    unfold tolerable, delay at 1. rewrite Rminus_diag_eq by reflexivity. rewrite Rabs_R0.
    eapply Rle_trans; [|apply Rmax_l]. unfold Rdiv at 1. rewrite !Rmult_0_l. lra.
  - inversion FT as [|? ? [TO _] _]; subst. exact (NT t TO).
Qed.

(** with [clrad: null] in a range, which the validation accepts *)
Theorem clrad_null_refuted :
  forall faults config_file files outdir s r s' f cf metas,
  configured config_file f cf -> environment_ok -> links_resolved -> library_safe -> sizes_fit f cf files ->
  band_known (readers f) cf files ->
  Forall2 (fun fname m => readers f fname = Ok m) files metas ->
  (forall start stop, range_of abs_sin metas (cf_dm_min cf) (cf_dm_max cf) (cf_dmsinb_max cf) start stop ->
     exists m, In m metas /\ start <= m_dm m <= stop) ->
  (exists rg : Process.range numR, In rg (cf_ranges cf) /\ pk_clrad (r_peaks rg) = None) ->
  main faults config_file files outdir s r s' -> (exists e, r = Err e) /\ s' = s.
Proof.
  intros faults config_file files outdir s r s' f cf metas C EN LR LS SF BK RM RG (rg & Ir & Er) H.
  eapply main_raises; eauto. intros t (m & _ & _ & _ & F2). destruct (Forall2_in_l _ _ _ F2 rg Ir) as (l & _ & RP).
  destruct RP as (_ & _ & _ & _ & _ & clrad & E & _). cbn [snd] in E. congruence.
Qed.

(** with a float for [rmed_minpts], which the validation accepts, and enough samples in the window *)
Theorem minpts_float_refuted :
  forall faults config_file files outdir s r s' f cf metas (x : R),
  configured config_file f cf -> environment_ok -> links_resolved -> library_safe -> sizes_fit f cf files ->
  band_known (readers f) cf files ->
  Forall2 (fun fname m => readers f fname = Ok m) files metas ->
  (forall start stop, range_of abs_sin metas (cf_dm_min cf) (cf_dm_max cf) (cf_dmsinb_max cf) start stop ->
     exists m, In m metas /\ start <= m_dm m <= stop) ->
  cf_rmed_minpts cf = PFloat (N := numR) x ->
  (forall m, In m metas -> 2 * x <= IZR (ZnearestE (cf_rmed_width cf / m_tsamp m))) ->
  main faults config_file files outdir s r s' -> (exists e, r = Err e) /\ s' = s.
Proof.
  intros faults config_file files outdir s r s' f cf metas x C EN LR LS SF BK RM RG EX LW H.
  destruct (configured_ok _ _ _ files C LR LS SF) as [CO FO].
  assert (X0 : 0 < x).
  { destruct C as (text & conf & c & _ & _ & _ & M). unfold config_means in M.
    destruct M as (_ & _ & _ & _ & _ & _ & _ & _ & _ & (v & _ & P) & _). rewrite EX in P.
    destruct P as [(z & _ & E)|(y & _ & L & E)]; [discriminate|]. injection E as <-. revert L. rsimp.
    destruct (Rlt_bool_spec 0 x); [auto|discriminate]. }
  eapply main_raises; eauto. intros t (m & LW' & EL & (_ & _ & _ & _ & _ & rm & (_ & MP) & _) & _).
  rewrite EX in MP. destruct MP as (_ & MP & _). apply last_with_in in LW' as [Im _].
  destruct (Forall2_in_r _ _ _ RM m Im) as (fname & If & Em). destruct (FO fname m If Em) as (_ & _ & K).
  destruct (K _ EL) as (_ & ET & _). rewrite ET in MP. specialize (LW m Im). lra.
Qed.
End Program.
Print Assumptions main_configuration.
Print Assumptions main_correct.
Print Assumptions main_files.
Print Assumptions main_total.
Print Assumptions main_determined.
Print Assumptions clrad_null_refuted.
Print Assumptions minpts_float_refuted.

(** ** A run of the program: one SIGPROC file with 10 s of data, searched from 1 to 2 s *)
Definition tim_header : list (string * aval) :=
  [("source_name", AStr "J"); ("nchans", AInt 1); ("nbits", AInt 8); ("signed", ABool false); ("tsamp", AFloat 7); ("tstart", AFloat 5);
   ("refdm", AFloat 3); ("src_raj", AFloat 0); ("src_dej", AFloat 0)]%string.
Definition tim_bits (b : Z) : R := if (b =? 7)%Z then 1 / 1000 else if (b =? 5)%Z then 50000 else if (b =? 3)%Z then 10 else 0.
Definition tim_payload (n : nat) : file := Ascii.ascii_of_nat 1 :: repeat (Ascii.ascii_of_nat 0) n.
Definition tim_file (n : nat) : file := (SigprocFmt.enc_header tim_header ++ tim_payload n)%list.
Definition yaml_float (x : R) : yval numR := YFloat (N := numR) x.
Definition run_yaml (minpts clrad : yval numR) : yval numR :=
  YDict [
    ("processes", YInt 2);
    ("data", YDict [("format", YStr "sigproc"); ("fmin", yaml_float 1000); ("fmax", yaml_float 1500); ("nchans", YInt 100)]);
    ("dmselect", YDict [("min", YInt 0); ("max", yaml_float 1000); ("dmsinb_max", YNone)]);
    ("dereddening", YDict [("rmed_width", yaml_float 4); ("rmed_minpts", minpts)]);
    ("ranges", YList [YDict [
       ("name", YStr "slow");
       ("ffa_search", YDict [("period_min", yaml_float 1); ("period_max", yaml_float 2); ("bins_min", YInt 20); ("bins_max", YInt 22)]);
       ("find_peaks", YDict [("smin", YInt 7); ("clrad", clrad)]);
       ("candidates", YDict [("bins", YInt 64); ("subints", YInt 8)])]]);
    ("clustering", YDict [("radius", yaml_float (1 / 5))]);
    ("harmonic_flagging", YDict [("denom_max", YInt 100); ("phase_distance_max", YInt 1);
       ("dm_distance_max", YInt 3); ("snr_distance_max", YInt 3)]);
    ("candidate_filters", YDict [("dm_min", YNone); ("snr_min", YInt 7); ("remove_harmonics", YBool true); ("max_number", YNone)]);
    ("plot_candidates", YBool true)].
Definition run_config (minpts : pynum numR) (clrad : option R) : Process.config numR :=
  Config (N := numR) 2 (Some 0) (Some 1000) None (Some 1000) (Some 1500) (Some 100%Z) 4 minpts
    [Rg (N := numR) (Search_kw (N := numR) 1 2 8 20 22 (1/5) (3/2)) (Peaks_kw (N := numR) 7 5 6 10 2 clrad) 64 8]
    (1/5) (Hflags (N := numR) 100 1 3 3) (Filters (N := numR) None (Some 7) (Some true) None) true.

Ltac rpos := rsimp; rewrite ?Rlt_bool_true by lra; reflexivity.
Lemma run_means minpts clrad m c : points numR minpts m -> null_or numR (greater numR (fun _ => None) 0) clrad c ->
  config_means numR (fun _ => None) (run_yaml minpts clrad) Sigproc (run_config m c).
Proof.
  intros P C. unfold config_means.
  cbn [run_config cf_processes cf_fmin cf_fmax cf_nchans cf_dm_min cf_dm_max cf_dmsinb_max cf_rmed_width cf_rmed_minpts cf_ranges
    cf_radius cf_harmonics cf_filters cf_plot hf_denom_max hf_phase_max hf_dm_max hf_snr_max fl_dm_min fl_snr_min fl_remove_harmonics fl_max_number].
  assert (NI : forall z, ConfigSpec.number numR (fun _ => None) (YInt z) (IZR z)) by (intros; constructor).
  assert (NF : forall x, ConfigSpec.number numR (fun _ => None) (yaml_float x) x) by (intros; constructor).
  assert (PI : forall z, (0 < z)%Z -> positive_integer numR (YInt z) z) by (intros; split; auto).
  assert (GF : forall x, 0 < x -> greater numR (fun _ => None) 0 (yaml_float x) x) by (intros; split; [auto|rpos]).
  assert (GI : forall z, 0 < IZR z -> greater numR (fun _ => None) 0 (YInt z) (IZR z)) by (intros; split; [auto|rpos]).
  assert (PF : forall x, 0 < x -> plain_positive numR (yaml_float x) x) by (intros; left; split; [auto|rpos]).
  assert (JN : forall A (Q : yval numR -> A -> Prop) v a, Q v a -> null_or numR Q v (Some a)) by (intros; right; eauto).
  assert (NN : forall A (Q : yval numR -> A -> Prop), null_or numR Q YNone None) by (intros; left; auto).
  Ltac gv := eexists; split; [reflexivity|].
  repeat match goal with |- _ /\ _ => split end; try gv; auto;
    try solve [apply PI; lia|apply GF; lra|apply (GI 1%Z); lra|apply (GI 3%Z); lra|apply PF; lra|apply JN; auto; apply GF; lra|right; auto|apply JN, PI; lia|apply JN, (NI 7%Z)|apply JN, (NI 0%Z)|apply JN; reflexivity].
  - eexists. split; [reflexivity|]. constructor; [|constructor]. unfold range_means.
    cbn [r_search r_peaks r_cbins r_csubints sk_pmin sk_pmax sk_bmin sk_bmax sk_fpmin sk_wtsp sk_ducy pk_smin pk_segwidth pk_nstd pk_minseg pk_polydeg pk_clrad].
    repeat match goal with |- _ /\ _ => split end; try (gv; solve [apply PI; lia|apply GF; lra]);
      try (right; split; [reflexivity|]; rsimp; lra || reflexivity).
    + left. gv. apply (GI 7%Z). lra.
    + left. gv. exact C.
  - reflexivity.
Qed.

Lemma run_accepted minpts clrad minpts' clrad' : ConfigSpec.positive numR minpts minpts' ->
  or_null numR (number_above numR (fun _ => None) 0) clrad clrad' ->
  exists c, ConfigSpec.config_ok numR (fun _ => None) (run_yaml minpts clrad) c.
Proof.
  intros P C.
  assert (NI : forall z, ConfigSpec.number numR (fun _ => None) (YInt z) (IZR z)) by (intros; constructor).
  assert (NF : forall x, ConfigSpec.number numR (fun _ => None) (yaml_float x) x) by (intros; constructor).
  assert (PI : forall z, (0 < z)%Z -> positive_int numR (YInt z) (YInt z)) by (intros; split; eauto).
  assert (GF : forall x, 0 < x -> number_above numR (fun _ => None) 0 (yaml_float x) (yaml_float x))
    by (intros; exists x; split; [auto|split; [rpos|reflexivity]]).
  assert (GI : forall z, 0 < IZR z -> number_above numR (fun _ => None) 0 (YInt z) (yaml_float (IZR z)))
    by (intros; exists (IZR z); split; [auto|split; [rpos|reflexivity]]).
  assert (PF : forall x, 0 < x -> ConfigSpec.positive numR (yaml_float x) (yaml_float x))
    by (intros; split; [reflexivity|]; right; left; exists x; split; [auto|rpos]).
  assert (NN : forall Q, or_null numR Q YNone YNone) by (right; auto).
  Ltac dict := eexists; eexists; split; [reflexivity|]; split; [reflexivity|]; split;
    [repeat (match goal with |- Forall2 _ ((?k, ?v) :: _) _ => refine (Forall2_cons (k, v) (k, _) _ _) end; [split; [cbn [fst]; reflexivity|]; eexists; eexists; split;
       [cbn [fst In]; first [left; reflexivity|right; left; reflexivity|do 2 right; left; reflexivity|do 3 right; left; reflexivity
         |do 4 right; left; reflexivity|do 5 right; left; reflexivity|do 6 right; left; reflexivity|do 7 right; left; reflexivity|do 8 right; left; reflexivity]
       |cbn [snd]]|]); try apply Forall2_nil
    |intros k Rk Ik; cbn [In] in Ik; repeat (destruct Ik as [Ik|Ik]; [try discriminate Ik; injection Ik as <- _; cbn; tauto|]); contradiction].
  Ltac lf := solve [eassumption|match goal with H : _ |- _ => apply H; (lia || lra) end|left; match goal with H : _ |- _ => apply H; (lia || lra) end
    |match goal with H : _ |- _ => apply H end|split; [reflexivity|eauto]|left; eexists; split; [match goal with H : _ |- _ => apply H end|reflexivity]|left; split; [reflexivity|eauto]].
  eexists. unfold ConfigSpec.config_ok, run_yaml. dict; try lf; try (dict; lf).
  eexists. eexists. split; [reflexivity|]. split; [reflexivity|]. apply Forall2_cons; [|apply Forall2_nil].
  unfold ConfigSpec.range_ok. dict; try lf; dict; lf.
Qed.

Definition run_disk (n : nat) (f : string) : res file := if f =? "run.yaml" then Ok [] else Ok (tim_file n).
Local Notation tim_read n := (readers numR tim_bits (fun s => s) (fun _ => (10, 20)) (run_disk n) (fun _ _ => Ok 0%nat)
  (fun _ => Ok 1) (fun _ _ => Ok 0%nat) (fun _ => 0%nat) Sigproc).
Local Notation tim_load n := (loaders numR tim_bits IZR (fun s => s) (run_disk n) (fun _ _ => Ok 0%nat)
  (fun _ => Ok 1) (fun _ _ => Ok 0%nat) (fun _ => 0%nat) Sigproc).

Lemma tim_loaded n : let T := IZR (Z.of_nat (S n)) * (1 / 1000) in
  tim_read n "x.tim" = Ok (Meta (N := numR) "x.tim" 10 T (1 / 1000) 10 20 None) /\
  exists ts, tim_load n "x.tim" = Ok ts /\ se_data ts = 1 :: repeat 0 n /\
  se_tsamp ts = 1 / 1000 /\ forallb (item_valid numR) (se_md ts) = true /\
  md_get "skycoord" (se_md ts) = Some (MCoord 0%nat) /\ md_get "mjd" (se_md ts) = Some (MFloat (N := numR) 50000) /\
  md_get "source_name" (se_md ts) = Some (MStr "J").
Proof.
  intros T. cbn [readers loaders]. unfold load_sigproc, read_meta_sigproc. change (run_disk n "x.tim") with (@Ok file (tim_file n)). cbn [bind]. unfold from_sigproc.
  destruct (sigproc_header_roundtrip [] tim_header (tim_payload n)) as (a & E & _ & U).
  { repeat constructor; try (apply text_ascii; reflexivity); try discriminate; cbn [fst snd];
      [exists TStr|exists TInt|exists TInt|exists TBool|exists TFloat|exists TFloat|exists TFloat|exists TFloat|exists TFloat]; cbn; (split; [reflexivity|]); try exact I; try lia; apply text_ascii; reflexivity. }
  unfold tim_file. rewrite E, U; [|repeat constructor; cbn; intuition discriminate]. clear E U a.
  set (h := SigprocFmt.enc_header tim_header). set (h' := Datatypes.length h).
  assert (LF : Datatypes.length (h ++ tim_payload n) = (h' + S n)%nat).
  { rewrite app_length. unfold h', tim_payload. cbn [Datatypes.length]. rewrite repeat_length. reflexivity. }
  assert (PD : int8s numR false (skipn h' (h ++ tim_payload n)) = 1 :: repeat 0 n).
  { unfold h'. rewrite skipn_pre. unfold tim_payload, int8s. cbn [map]. rsimp. f_equal.
    induction n as [|m IH]; [reflexivity|]. cbn [repeat map]. f_equal; auto. }
  clearbody h'.
  cbn [bind]. unfold metadata_from_sigproc. change (get_int tim_header "nchans") with (@Ok Z 1%Z). cbn [bind].
  change (1 <? 1)%Z with false. cbn [negb guard bind].
  change (get_int tim_header "nbits") with (@Ok Z 8%Z). cbn [bind]. change (8 =? 8)%Z with true. cbn [orb andb guard bind].
  change (lookup "signed" tim_header) with (Some (ABool false)). cbn [negb guard bind].
  change (get_float numR tim_bits tim_header "src_raj") with (@Ok R 0).
  change (get_float numR tim_bits tim_header "src_dej") with (@Ok R 0). cbn [bind].
  unfold tobs, nsamp, bytes_per_sample. change (get_int tim_header "nchans") with (@Ok Z 1%Z).
  change (get_int tim_header "nbits") with (@Ok Z 8%Z).
  change (get_float numR tim_bits tim_header "tsamp") with (@Ok R (1 / 1000)). cbn [bind].
  replace (floordiv (1 * 8) 8) with (@Ok Z 1%Z) by reflexivity. cbn [bind]. rewrite LF.
  replace (floordiv _ 1) with (@Ok Z (Z.of_nat (S n)))
    by (unfold floordiv; cbn [Z.eqb]; f_equal; rewrite Z.div_1_r, Nat2Z.inj_add; lia). cbn [bind].
  assert (TP : 0 < IZR (Z.of_nat (S n)) * (1 / 1000)).
  { rewrite <- INR_IZR_INZ. apply Rmult_lt_0_compat; [apply (lt_INR 0); lia|lra]. }
  rsimp. fold T. fold T in TP. clearbody T.
  assert (V : forall md, (forall kv, In kv md -> item_valid numR kv = true) ->
    metadata_new (N := numR) md = Ok (fold_left (fun m k => md_default k MNone m) reserved md)).
  { intros md K. unfold metadata_new. rewrite (proj2 (forallb_forall _ _) K). reflexivity. }
  rewrite V.
  2:{ intros kv I. unfold md_or_none in I. cbn in I.
    repeat (destruct I as [<-|I]; [cbn; rsimp; rewrite ?Rlt_bool_true, ?Rle_bool_true by (exact TP || unfold tim_bits; cbn; lra); reflexivity|]). destruct I. }
  cbn [bind]. numR_ty. rewrite PD.
  set (md := fold_left _ reserved _).
  assert (NV : forallb (item_valid numR) md = true).
  { unfold md, md_or_none. cbn. rsimp. rewrite ?Rlt_bool_true, ?Rle_bool_true by (exact TP || unfold tim_bits; cbn; lra). reflexivity. }
  assert (G : forall k, In k ["skycoord"; "mjd"; "source_name"] -> md_get k md = match k with "skycoord" => Some (MCoord 0%nat) | "mjd" => Some (MFloat (N := numR) 50000) | _ => Some (MStr "J") end).
  { intros k [<-|[<-|[<-|[]]]]; reflexivity. }
  split; [reflexivity|].
  clearbody md.
  destruct (new_series_valid (1 :: repeat 0 n) (1 / 1000) md) as (s & E & IV); auto.
  { apply Rmult_lt_0_compat; [|lra]. apply (lt_INR 0). cbn [Datatypes.length]. lia. }
  exists s. split; [exact E|]. apply new_series_inv in E as (E1 & E2 & _ & E3). split; [exact E1|]. split; [exact E2|]. split; [exact IV|].
  split; [apply E3; [discriminate|apply (G "skycoord"); cbn; auto]|].
  split; [apply E3; [discriminate|apply (G "mjd"); cbn; auto]|apply E3; [discriminate|apply (G "source_name"); cbn; auto]].
Qed.

Local Notation size := (99 * 100 + 99)%nat.
Definition run_fit (_ _ : list R) (_ : Z) : res (R -> R) := Ok (fun _ => 6).
Definition run_fraction (x : R) : res Model.Harmonic.fraction := Ok (Zfloor x, 1%Z).
Local Notation run_main minpts clrad := (main numR ln pow (fun n => repeat 0 n) (fun n => repeat 0%Z n) run_fit argsort_R
  run_fraction (fun _ => 1 / 2) (fun _ => None) (fun _ => Ok (run_yaml minpts clrad)) tim_bits IZR (fun s => s) (fun _ => (10, 20))
  (run_disk size) (fun _ _ => Ok 0%nat) (fun _ => Ok 1) (fun _ _ => Ok 0%nat) (fun _ => 0%nat)
  (fun _ => "p") (fun _ => "k") (fun _ => "c") (fun _ => Ok "{}") (fun _ => Ok "png") (fun s => [s])).
Local Notation run_configured minpts clrad := (configured (fun _ => None) (fun _ => Ok (run_yaml minpts clrad)) (run_disk size)).

(** the hypotheses of the theorems hold, whatever the clustering radius and the number of points *)
Lemma run_ok minpts clrad m c : points numR minpts m -> ConfigSpec.positive numR minpts minpts ->
  null_or numR (greater numR (fun _ => None) 0) clrad c -> (exists w, or_null numR (number_above numR (fun _ => None) 0) clrad w) ->
  run_configured minpts clrad "run.yaml" Sigproc (run_config m c) /\
  environment_ok (fun n => repeat 0 n) (fun n => repeat 0%Z n) run_fit argsort_R /\
  links_resolved (fun s => s) (run_disk size) /\
  library_safe (run_disk size) (fun _ _ => Ok 0%nat) (fun _ => Ok 1) (fun _ _ => Ok 0%nat) /\
  sizes_fit tim_bits IZR (fun s => s) (fun _ => (10, 20)) (run_disk size) (fun _ _ => Ok 0%nat) (fun _ => Ok 1)
    (fun _ _ => Ok 0%nat) (fun _ => 0%nat) Sigproc (run_config m c) ["x.tim"] /\
  band_known (tim_read size) (run_config m c) ["x.tim"] /\
  (forall start stop, range_of (fun _ => 1 / 2) [Meta (N := numR) "x.tim" 10 (IZR (Z.of_nat (S size)) * (1 / 1000)) (1 / 1000) 10 20 None]
     (Some 0) (Some 1000) None start stop -> start <= 10 <= stop).
Proof.
  intros P PV C (w & CV). destruct (tim_loaded size) as (EM & ts & EL & ED & ET & _). set (n := size) in *.
  set (T := IZR (Z.of_nat (S n)) * (1 / 1000)) in *.
  change (1 :: repeat 0 n) with impulse in ED. clearbody T n.
  split.
  { destruct (run_accepted minpts clrad minpts w PV CV) as (v & A).
    exists [], (run_yaml minpts clrad), v. split; [reflexivity|]. split; [reflexivity|]. split; [exact A|]. now apply run_means. }
  split.
  { split; [intros k; apply repeat_length|]. split; [intros k; apply repeat_length|]. split; [exact argsort_R_sorts|]. intros; split; discriminate. }
  split; [split; reflexivity|].
  split. { split; [intros f; unfold run_disk; destruct (f =? "run.yaml"); apply safe_ok|]. split; [|split]; intros; apply safe_ok. }
  split.
  { intros fname m' ts' [<-|[]] EM' EL'. pose proof (eq_trans (eq_sym EM) EM') as Q. injection Q as <-. cbn [m_fname] in EL'.
    pose proof (eq_trans (eq_sym EL) EL') as Q. injection Q as <-.
    rewrite ED, ET. destruct impulse_fits as (_ & (_ & _ & (S & _)) & _). constructor; [exact S|constructor]. }
  split.
  { intros metas f0 f1 nc F [B|(_ & B1 & B2 & B3)].
    - exfalso. inversion F as [|? x ? ? E F']; subst. destruct (B x (or_introl eq_refl)) as (fb & cb & G & _). pose proof (eq_trans (eq_sym EM) E) as Q. injection Q as <-. discriminate.
    - injection B1 as <-. injection B2 as <-. injection B3 as <-. split; [lra|lia]. }
  intros start stop (-> & e & -> & ->). lra.
Qed.

(** the program returns *)
Example main_used :
  (exists pr s', run_main (YInt 101) (yaml_float (1 / 10)) False "run.yaml" ["x.tim"] "/out" (fun _ => None) (Ok pr) s').
Proof.
  destruct (run_ok (YInt 101) (yaml_float (1 / 10)) (PInt 101) (Some (1 / 10))) as (C & EN & LR & LS & SF & BK & RG).
  { left. exists 101%Z. split; [split; [lia|auto]|reflexivity]. }
  { split; [reflexivity|]. left. exists 101%Z. split; [reflexivity|lia]. }
  { right. exists (1 / 10). split; [split; [constructor|rpos]|reflexivity]. }
  { exists (yaml_float (1 / 10)). left. exists (1 / 10). split; [constructor|]. split; [rpos|reflexivity]. }
  destruct (tim_loaded size) as (EM & ts & EL & ED & ET & IV & M1 & M2 & M3). set (n := size) in *.
  destruct impulse_fits as (WO & WF & SG).
  change (1 :: repeat 0 n) with impulse in ED.
  assert (TP : 0 < IZR (Z.of_nat (S n)) * (1 / 1000)) by (apply Rmult_lt_0_compat; [apply IZR_lt; lia|lra]).
  set (T := IZR (Z.of_nat (S n)) * (1 / 1000)) in *. clearbody T n.
  eapply main_total with (f := Sigproc) (cf := run_config (PInt 101) (Some (1 / 10)))
    (f0 := 1000) (f1 := 1500) (nc := 100%Z) (start := 0) (stop := 1000); eauto.
  - intros s. cbn. induction s as [|a s IH]; cbn; [reflexivity|now rewrite IH].
  - intros x y [<-|[]] [<-|[]]; auto.
  - right. split; [|auto]. intros (g0 & g1 & k & B). destruct (B _ (or_introl eq_refl)) as (fb & cb & G & _). discriminate.
  - split; [reflexivity|]. exists 1000. split; reflexivity.
  - eexists. split; [now left|]. cbn. lra.
  - discriminate.
  - exact I.
  - intros m r [<-|[]] [<-|[]]; cbn [r_search r_cbins sk_bmin sk_pmin m_tsamp]; cbn [INR]; lra.
  - intros m [<-|[]]. split; [exact TP|]. exists ts. split; [exact EL|]. split; [exact IV|]. rewrite ET, ED. split; [lra|]. split; [exact WO|].
    constructor; [|constructor]. split; [exact WF|]. split; [split; [discriminate|intros fc sc _; unfold run_fit; eauto]|now apply SG].
  - intros x Hx. exists (Zfloor x), 1%Z. split; [reflexivity|]. assert (1 <= Zfloor x)%Z by (apply Zfloor_lub; exact Hx).
    split; [lia|apply Z.gcd_1_r].
  - intros _ m ts' [<-|[]] EL'. cbn [m_fname] in EL'. pose proof (eq_trans (eq_sym EL) EL') as Q. injection Q as <-.
    split; [eauto|]. split; [eauto|]. split; [eauto|]. intros r [<-|[]]. cbn [r_csubints r_search sk_pmax]. split; [lia|].
    rewrite ED, ET. destruct WF as (_ & W2 & _). cbn [sk_pmax] in W2. revert W2. set (L := INR _). clearbody L. lra.
Qed.

(** it raises with [clrad: null] and with [rmed_minpts: 101.0] *)
Example main_raises_used :
  forall faults r s',
  (run_main (YInt 101) YNone faults "run.yaml" ["x.tim"] "/out" (fun _ => None) r s' -> (exists e, r = Err e) /\ s' = fun _ => None) /\
  (run_main (yaml_float 101) (yaml_float (1 / 10)) faults "run.yaml" ["x.tim"] "/out" (fun _ => None) r s' ->
     (exists e, r = Err e) /\ s' = fun _ => None).
Proof.
  intros faults r s'. split; intros H.
  - destruct (run_ok (YInt 101) YNone (PInt 101) None) as (C & EN & LR & LS & SF & BK & RG).
    { left. exists 101%Z. split; [split; [lia|auto]|reflexivity]. }
    { split; [reflexivity|]. left. exists 101%Z. split; [reflexivity|lia]. }
    { left. auto. }
    { exists YNone. right. auto. }
    destruct (tim_loaded size) as (EM & _).
    eapply clrad_null_refuted; try exact H; eauto.
    + intros start stop R1. apply RG in R1. eexists. split; [now left|]. exact R1.
    + eexists. split; [now left|reflexivity].
  - destruct (run_ok (yaml_float 101) (yaml_float (1 / 10)) (PFloat (N := numR) 101) (Some (1 / 10))) as (C & EN & LR & LS & SF & BK & RG).
    { right. exists 101. split; [reflexivity|]. split; [rpos|reflexivity]. }
    { split; [reflexivity|]. right. left. exists 101. split; [reflexivity|rpos]. }
    { right. exists (1 / 10). split; [split; [constructor|rpos]|reflexivity]. }
    { exists (yaml_float (1 / 10)). left. exists (1 / 10). split; [constructor|]. split; [rpos|reflexivity]. }
    destruct (tim_loaded size) as (EM & _).
    eapply minpts_float_refuted; try exact H; eauto.
    + intros start stop R1. apply RG in R1. eexists. split; [now left|]. exact R1.
    + reflexivity.
    + intros m [<-|[]]. cbn [m_tsamp run_config cf_rmed_width].
      replace (ZnearestE (4 / (1 / 1000))) with 4000%Z; [lra|]. symmetry. apply round_IZR. lra.
Qed.
