(** C58: validation of the pipeline configuration. *)
From Coq Require Import String List ZArith Bool Lia SpecFloat.
From Verif Require Import Base.Result Base.Num Model.Cluster Model.Peaks Model.Pipeline Model.Ranges Model.FastRmed
  Model.Periodogram Model.Config Spec.ConfigSpec.
Import ListNotations.
Local Open Scope string_scope.

Ltac nodup := repeat (apply NoDup_cons; [cbn; intuition discriminate|]); apply NoDup_nil.
Section Exact.
Context (N : num) (pyfloat : string -> option N).
Notation yval := (yval N).
Notation val := (validate N pyfloat).
Definition decides (s : schema) (R : yval -> yval -> Prop) : Prop :=
  forall v, (val s v = Err SchemaError \/ exists w, val s v = Ok w) /\ forall w, val s v = Ok w <-> R v w.

Lemma decides_test s (t : yval -> bool) R : (forall v, val s v = if t v then Ok v else Err SchemaError) ->
  (forall v w, R v w <-> w = v /\ t v = true) -> decides s R.
Proof.
  intros E H v. rewrite E. destruct (t v) eqn:T.
  - split; [right; eauto|]. intros w. rewrite H, T. split; [intros [= ->]; auto|intros [-> _]; reflexivity].
  - split; [now left|]. intros w. rewrite H, T. split; [discriminate|intros [_ ?]; discriminate].
Qed.
Lemma pos_test v : is_true (above N 0 v) = true <->
  ((exists z, v = YInt z /\ (0 < z)%Z) \/ (exists x, v = YFloat x /\ n_ltb (o_ofZ n_dbl 0) x = true) \/ v = YBool true).
Proof.
  destruct v as [|[]|z|x|s|l|l]; cbn; split; intros H; try discriminate; auto;
    try (destruct H as [(? & [= ?] & ?)|[(? & [= ?] & ?)|[= ?]]]); subst; auto.
  - left. exists z. split; [reflexivity|]. now apply Z.ltb_lt.
  - now apply Z.ltb_lt.
  - right. left. eauto.
Qed.
Lemma decides_pos : decides SPos (positive N).
Proof. apply (decides_test _ (fun v => is_true (above N 0 v))); [reflexivity|]. intros v w. rewrite pos_test. reflexivity. Qed.
Lemma decides_str : decides SStr (text N).
Proof.
  apply (decides_test _ (is_str N)); [reflexivity|]. intros v w. unfold text. split; intros [-> H]; (split; [reflexivity|]).
  - destruct H as [s ->]. reflexivity.
  - destruct v; try discriminate. eauto.
Qed.
Lemma decides_bool : decides SBool (boolean N).
Proof.
  apply (decides_test _ (is_bool N)); [reflexivity|]. intros v w. unfold boolean. split; intros [-> H]; (split; [reflexivity|]).
  - destruct H as [s ->]. reflexivity.
  - destruct v; try discriminate. eauto.
Qed.
Lemma decides_format : decides SFormat (format N).
Proof.
  apply (decides_test _ (is_format N)); [reflexivity|]. intros v w. unfold format. split; intros [-> H]; (split; [reflexivity|]).
  - destruct H as [->| ->]; reflexivity.
  - destruct v; try discriminate. cbn in H. apply orb_true_iff in H as [H|H]; apply String.eqb_eq in H as ->; auto.
Qed.
Lemma decides_pos_int : decides pos_int (positive_int N).
Proof.
  apply (decides_test _ (fun v => is_int N v && is_true (above N 0 v))).
  - intros v. cbn. destruct (is_int N v); cbn; [|reflexivity]. destruct (is_true (above N 0 v)); reflexivity.
  - intros v w. rewrite andb_true_iff, pos_test. unfold positive_int. split; intros [-> H]; (split; [reflexivity|]).
    + destruct H as [(z & -> & Hz)| ->]; split; auto. left. eauto.
    + destruct H as [I [H|[(x & -> & _)|H]]]; [auto|discriminate|auto].
Qed.
Lemma decides_fraction : decides (SAnd [SFloat; SOpen01]) (fraction N).
Proof.
  apply (decides_test _ (fun v => is_float N v && (is_true (above N 0 v) && is_true (below1 N v)))).
  - intros v. cbn. destruct (is_float N v); cbn; [|reflexivity]. destruct (is_true (above N 0 v) && is_true (below1 N v)); reflexivity.
  - intros v w. rewrite !andb_true_iff. unfold fraction. split; intros [-> H]; (split; [reflexivity|]).
    + destruct H as (x & -> & H1 & H2). cbn. auto.
    + destruct v; cbn in H; try (destruct H; discriminate). destruct H as (_ & H1 & H2). eauto.
Qed.
Lemma number_to_float v x : number N pyfloat v x <-> to_float N pyfloat v = Some (YFloat x).
Proof.
  split.
  - intros []; cbn; try reflexivity. rewrite H. reflexivity.
  - destruct v as [|[]|z|y|s|l|l]; cbn; intros H; try discriminate; try (injection H as <-; constructor).
    destruct (pyfloat s) eqn:E; [|discriminate]. injection H as <-. now constructor.
Qed.
Lemma to_float_shape v w : to_float N pyfloat v = Some w -> exists x, w = YFloat x.
Proof. destruct v; cbn; intros H; try discriminate; try (injection H as <-; eauto). destruct (pyfloat s); [injection H as <-; eauto|discriminate]. Qed.
Lemma decides_use : decides SUse (any_number N pyfloat).
Proof.
  intros v. cbn. unfold any_number. destruct (to_float N pyfloat v) as [y|] eqn:E.
  - destruct (to_float_shape v y E) as [x ->]. split; [right; eauto|]. intros w. split.
    + intros [= <-]. exists x. split; [now apply number_to_float|reflexivity].
    + intros (x' & Hx & ->). apply number_to_float in Hx. congruence.
  - split; [now left|]. intros w. split; [discriminate|]. intros (x' & Hx & ->). apply number_to_float in Hx. congruence.
Qed.
Lemma decides_use_above z s : (forall v, val s v = if is_true (above N z v) then Ok v else Err SchemaError) ->
  decides (SAnd [SUse; s]) (number_above N pyfloat z).
Proof.
  intros S v. unfold number_above. cbn [validate]. destruct (to_float N pyfloat v) as [y|] eqn:E; cbn [bind].
  - destruct (to_float_shape v y E) as [x ->]. rewrite S. cbn [above is_true]. destruct (n_ltb _ x) eqn:L; cbn [bind].
    + split; [right; eauto|]. intros w. split.
      * intros [= <-]. exists x. split; [now apply number_to_float|]. auto.
      * intros (x' & Hx & _ & ->). apply number_to_float in Hx. congruence.
    + split; [now left|]. intros w. split; [discriminate|]. intros (x' & Hx & L' & ->). apply number_to_float in Hx. congruence.
  - split; [now left|]. intros w. split; [discriminate|]. intros (x' & Hx & _ & ->). apply number_to_float in Hx. congruence.
Qed.
Lemma decides_pos_num : decides pos_num (number_above N pyfloat 0).
Proof. now apply decides_use_above. Qed.
Lemma decides_wtsp : decides (SAnd [SUse; SGt1]) (number_above N pyfloat 1).
Proof. now apply decides_use_above. Qed.
Lemma decides_or_none s R : (forall w, ~ R YNone w) -> decides s R -> decides (or_none s) (or_null N R).
Proof.
  intros HN H v. destruct (H v) as [T W]. unfold or_none, or_null. cbn [validate]. destruct T as [T|[w0 T]]; rewrite T.
  - destruct v; cbn; (split; [solve [now left|right; eauto]|]); intros w; (split; [intros E; try discriminate|intros [E|[E1 E2]]; try discriminate]);
      try (apply W in E; congruence).
    + injection E as <-. right. auto.
    + subst. reflexivity.
  - split; [right; eauto|]. intros w. split.
    + intros E. left. apply W. congruence.
    + intros [E|[-> ->]]; [apply W in E; congruence|]. apply W in T. now apply HN in T.
Qed.
Lemma decides_list s R : decides s R -> decides (SList s) (listing N R).
Proof.
  intros H v. unfold listing. destruct v; cbn [validate];
    try (split; [now left|]; intros w; split; [discriminate|intros (? & ? & ? & _); discriminate]).
  match goal with |- context [bind (?go l) _] => set (f := go) end.
  assert (G : (f l = Err SchemaError \/ exists r, f l = Ok r) /\ forall r, f l = Ok r <-> Forall2 R l r).
  { induction l as [|x l [IH1 IH2]].
    - split; [right; exists []; reflexivity|]. intros r. cbn. split; [intros [= <-]; constructor|]. intros F. inversion F. reflexivity.
    - destruct (H x) as [T W]. change (f (x :: l)) with (w <- val s x ;; r <- f l ;; Ok (w :: r)).
      destruct T as [T|[w0 T]]; rewrite T; cbn [bind].
      + split; [now left|]. intros r. split; [discriminate|]. intros F. inversion F; subst.
        match goal with F : R x _ |- _ => apply W in F end. congruence.
      + destruct IH1 as [IH1|[r0 IH1]]; rewrite IH1; cbn [bind].
        * split; [now left|]. intros r. split; [discriminate|]. intros F. inversion F; subst.
          match goal with F : Forall2 R l _ |- _ => apply IH2 in F end. congruence.
        * split; [right; eauto|]. intros r. split.
          -- intros [= <-]. constructor; [now apply W|now apply IH2].
          -- intros F. inversion F; subst.
             match goal with F : Forall2 R l _ |- _ => apply IH2 in F end.
             match goal with F : R x _ |- _ => apply W in F end. congruence. }
  destruct G as [G1 G2]. destruct G1 as [G1|[r G1]]; rewrite G1; cbn [bind].
  - split; [now left|]. intros w. split; [discriminate|]. intros (? & l' & [= <-] & -> & F). apply G2 in F. congruence.
  - split; [right; eauto|]. intros w. split.
    + intros [= <-]. exists l, r. split; [reflexivity|]. split; [reflexivity|]. now apply G2.
    + intros (? & l' & [= <-] & -> & F). apply G2 in F. congruence.
Qed.

(** fields of the schema and of the specification side by side *)
Definition same_field (a : string * (bool * schema)) (b : string * (bool * (yval -> yval -> Prop))) : Prop :=
  fst a = fst b /\ fst (snd a) = fst (snd b) /\ decides (snd (snd a)) (snd (snd b)).
Lemma yfind_in {A} k (l : list (string * A)) : yfind k l = None <-> ~ In k (map fst l).
Proof.
  induction l as [|(k', v) l IH]; cbn; [tauto|]. destruct (String.eqb_spec k k') as [->|Nk]; [split; [discriminate|tauto]|].
  rewrite IH. split; [intros H [?|?]; [congruence|auto]|tauto].
Qed.
Lemma decides_dict fs Rs : NoDup (map fst fs) -> Forall2 same_field fs Rs -> decides (SDict fs) (dictionary N Rs).
Proof.
  intros D F v. unfold dictionary. destruct v as [| | | | | |items]; cbn [validate];
    try (split; [now left|]; intros w; split; [discriminate|intros (? & ? & ? & _); discriminate]).
  set (find := fun k x => (fix find (fs : list (string * (bool * schema))) : res yval :=
                        match fs with
                        | [] => Err SchemaError
                        | (k', (_, s')) :: fs' => if k =? k' then validate N pyfloat s' x else find fs'
                        end) fs).
  match goal with |- context [bind (?go items) _] => set (f := go) end.
  assert (FD : forall k x, (find k x = Err SchemaError \/ exists w, find k x = Ok w) /\
      forall w, find k x = Ok w <-> exists q R, In (k, (q, R)) Rs /\ R x w).
  { intros k x. unfold find. clear f find. revert D. induction F as [|(k', (q, s)) (k2, (q2, R)) fs' Rs' (E1 & E2 & E3) F IH]; intros D.
    - split; [now left|]. intros w. split; [discriminate|]. intros (? & ? & [] & _).
    - cbn in E1, E2, E3. subst k2 q2. inversion D as [|? ? D1 D2]; subst. destruct (String.eqb_spec k k') as [->|Nk].
      + destruct (E3 x) as [T W]. split; [exact T|]. intros w. rewrite W. split.
        * intros H. exists q, R. split; [now left|exact H].
        * intros (q' & R' & [E|I] & H); [assert (R' = R) by congruence; now subst|]. exfalso. apply D1. clear - F I.
          induction F as [|a b fs' Rs' (E1 & _) F IH]; [contradiction|]. destruct I as [->|I]; [left; exact E1|right; auto].
      + destruct (IH D2) as [T W]. split; [exact T|]. intros w. rewrite W. split; intros (q' & R' & I & H); exists q', R'; (split; [|exact H]).
        * now right.
        * destruct I as [E|I]; [congruence|exact I]. }
  set (item := fun a b : string * yval => fst a = fst b /\ exists q R, In (fst a, (q, R)) Rs /\ R (snd a) (snd b)).
  assert (G : (f items = Err SchemaError \/ exists r, f items = Ok r) /\ forall r, f items = Ok r <-> Forall2 item items r).
  { induction items as [|(k, x) l [IH1 IH2]].
    - split; [right; exists []; reflexivity|]. intros r. cbn. split; [intros [= <-]; constructor|]. intros G. inversion G. reflexivity.
    - destruct (FD k x) as [T W]. change (f ((k, x) :: l)) with (w <- find k x ;; r <- f l ;; Ok ((k, w) :: r)).
      destruct T as [T|[w0 T]]; rewrite T; cbn [bind].
      + split; [now left|]. intros r. split; [discriminate|]. intros G. inversion G as [|? [k1 x1] ? ? [E1 E2] G']; subst. cbn in *.
        apply W in E2. congruence.
      + destruct IH1 as [IH1|[r0 IH1]]; rewrite IH1; cbn [bind].
        * split; [now left|]. intros r. split; [discriminate|]. intros G. inversion G as [|? [k1 x1] ? ? [E1 E2] G']; subst.
          apply IH2 in G'. congruence.
        * split; [right; eauto|]. intros r. split.
          -- intros [= <-]. constructor; [split; [reflexivity|now apply W]|now apply IH2].
          -- intros G. inversion G as [|? [k1 x1] ? ? [E1 E2] G']; subst. cbn in *. apply IH2 in G'. apply W in E2. subst. congruence. }
  assert (RQ : forallb (fun f => match yfind (fst f) items with Some _ => true | None => negb (fst (snd f)) end) fs = true <->
      forall k R, In (k, (true, R)) Rs -> In k (map fst items)).
  { clear - F. induction F as [|(k', (q, s)) (k2, (q2, R)) fs' Rs' (E1 & E2 & E3) F IH]; [cbn; intuition|].
    cbn in E1, E2. subst k2 q2. cbn [forallb fst snd]. rewrite andb_true_iff, IH.
    assert (X : match yfind k' items with Some _ => true | None => negb q end = true <-> (q = true -> In k' (map fst items))).
    { destruct (yfind k' items) eqn:E.
      - split; [|reflexivity]. intros _ _. destruct (in_dec string_dec k' (map fst items)) as [I|I]; [exact I|]. apply yfind_in in I. congruence.
      - apply yfind_in in E. destruct q; cbn; intuition congruence. }
    rewrite X. split.
    - intros [H1 H2] k R0 [E|I]; [injection E as <- -> _; auto|eauto].
    - intros H. split; [intros ->; eapply H; now left|]. intros k R0 I. eapply H. right. exact I. }
  destruct G as [G1 G2]. destruct G1 as [G1|[r G1]]; rewrite G1; cbn [bind].
  - split; [now left|]. intros w. split; [discriminate|]. intros (? & l' & [= <-] & -> & FF & _). apply G2 in FF. congruence.
  - destruct (forallb _ fs) eqn:Q; cbn [guard bind].
    + split; [right; eauto|]. intros w. split.
      * intros [= <-]. exists items, r. split; [reflexivity|]. split; [reflexivity|]. split; [now apply G2|now apply RQ].
      * intros (? & l' & [= <-] & -> & FF & _). apply G2 in FF. congruence.
    + split; [now left|]. intros w. split; [discriminate|]. intros (? & l' & [= <-] & -> & _ & FF). apply RQ in FF. congruence.
Qed.

Lemma not_above_none z w : ~ number_above N pyfloat z YNone w.
Proof. intros (x & H & _). inversion H. Qed.
Lemma not_any_none w : ~ any_number N pyfloat YNone w.
Proof. intros (x & H & _). inversion H. Qed.
Ltac leaf := first
  [ apply decides_pos_int | apply decides_pos_num | apply decides_wtsp | apply decides_fraction | apply decides_pos
  | apply decides_str | apply decides_bool | apply decides_format
  | apply decides_or_none; [solve [apply not_above_none | apply not_any_none
      | intros ? [_ [(? & ? & ?)|?]]; discriminate | intros ? [_ [(? & ? & ?)|[(? & ? & ?)|?]]]; discriminate
      | intros ? [_ [? ?]]; discriminate]|leaf]
  | apply decides_use ].

Ltac dict tac := apply decides_dict; [nodup|]; repeat (apply Forall2_cons; [split; [reflexivity|split; [reflexivity|cbn [snd fst req opt]; first [leaf | tac]]]|]); apply Forall2_nil.
Lemma decides_range : decides search_range_schema (range_ok N pyfloat).
Proof. dict ltac:(dict ltac:(idtac)). Qed.
Lemma decides_config : decides pipeline_config_schema (config_ok N pyfloat).
Proof. dict ltac:(first [apply decides_list, decides_range | dict ltac:(idtac)]). Qed.
End Exact.

(** C58: the validation accepts exactly the documented dictionaries and returns them with numbers
    converted to float where stated; anything else raises InvalidPipelineConfig *)
Theorem config_validation_exact N pyfloat conf :
  (forall c, validate_pipeline_config N pyfloat conf = Ok c <-> config_ok N pyfloat conf c) /\
  ((forall c, ~ config_ok N pyfloat conf c) -> validate_pipeline_config N pyfloat conf = Err InvalidPipelineConfig).
Proof.
  unfold validate_pipeline_config. destruct (decides_config N pyfloat conf) as [[T|[w T]] W]; rewrite T in *.
  - split; [|reflexivity]. intros c. rewrite <- W. split; discriminate.
  - split; [exact W|]. intros H. exfalso. apply (H w). now apply W.
Qed.
Print Assumptions config_validation_exact.

(** C58: validating a validated configuration changes nothing *)
Section Settled.
Context (N : num) (pyfloat : string -> option N).
Notation yval := (yval N).
Definition settled (R : yval -> yval -> Prop) : Prop := forall v w, R v w -> R w w.
Lemma settled_same (P : yval -> Prop) : settled (fun v w => w = v /\ P v).
Proof. intros v w [-> H]. auto. Qed.
Lemma settled_above z : settled (number_above N pyfloat z).
Proof. intros v w (x & H1 & H2 & ->). exists x. repeat split; [constructor|exact H2]. Qed.
Lemma settled_any : settled (any_number N pyfloat).
Proof. intros v w (x & H1 & ->). exists x. repeat split. constructor. Qed.
Lemma settled_null R : settled R -> settled (or_null N R).
Proof. intros H v w [E|[-> ->]]; [left; eauto|right; auto]. Qed.
Lemma settled_list R : settled R -> settled (listing N R).
Proof.
  intros H v w (l & l' & -> & -> & F). exists l', l'. repeat split. induction F; constructor; eauto.
Qed.
Lemma settled_dict fields : Forall (fun f => settled (snd (snd f))) fields -> settled (dictionary N fields).
Proof.
  intros H v w (d & d' & -> & -> & F & Q). exists d', d'. repeat split.
  - clear Q. induction F as [|a b d d' (E & q & R & I & Rab) F IH]; constructor; [|exact IH]. split; [reflexivity|].
    exists q, R. rewrite E in I. split; [exact I|]. rewrite Forall_forall in H. apply (H _ I) in Rab. exact Rab.
  - intros k R I. apply Q in I. replace (map fst d') with (map fst d); [exact I|]. clear -F.
    induction F as [|a b d d' (E & _) F IH]; [reflexivity|]. cbn. now rewrite E, IH.
Qed.
Ltac sleaf := first [apply settled_above | apply settled_any | apply settled_null; sleaf | apply settled_same].
Ltac sdict tac := apply settled_dict; repeat (apply Forall_cons; [cbn [snd]; first [sleaf | tac]|]); apply Forall_nil.
Lemma settled_range : settled (range_ok N pyfloat).
Proof. sdict ltac:(sdict ltac:(idtac)). Qed.
Lemma settled_config : settled (config_ok N pyfloat).
Proof. sdict ltac:(first [apply settled_list, settled_range | sdict ltac:(idtac)]). Qed.

(** what a required entry of a validated dictionary holds *)
Lemma dictionary_entry fields v w : dictionary N fields v w -> NoDup (map fst fields) -> forall k R, yfind k fields = Some (true, R) ->
  exists x y, entry N k w = Ok y /\ R x y.
Proof.
  intros H D k R E0. assert (I : In (k, (true, R)) fields).
  { clear -E0. induction fields as [|(k', f) l IH]; [discriminate|]. cbn in E0.
    destruct (String.eqb_spec k k') as [->|]; [injection E0 as ->; now left|right; auto]. }
  clear E0. revert H. intros (d & d' & -> & -> & F & Q). apply Q in I as K. cbn [entry].
  destruct (yfind k d') as [y|] eqn:E.
  - assert (J : exists x, In (k, x) d /\ exists q R', In (k, (q, R')) fields /\ R' x y).
    { clear -F E. induction F as [|(k1, x1) (k2, x2) d d' (E1 & q & R' & I & Rab) F IH]; [discriminate|]. cbn in *. subst k2.
      destruct (String.eqb_spec k k1) as [<-|].
      - injection E as ->. exists x1. split; [now left|]. eauto.
      - destruct (IH E) as (x & J & J'). exists x. split; [now right|exact J']. }
    destruct J as (x & _ & q & R' & I' & H). exists x, y. split; [reflexivity|].
    assert (U : (true, R) = (q, R')).
    { clear -D I I'. induction fields as [|(k', f) fields IH]; [contradiction|]. inversion D; subst. destruct I as [I|I], I' as [I'|I'].
      - congruence.
      - injection I as -> ->. exfalso. apply H1. change k with (fst (k, (q, R'))). now apply in_map.
      - injection I' as -> ->. exfalso. apply H1. change k with (fst (k, (true, R))). now apply in_map.
      - auto. }
    congruence.
  - exfalso. apply (yfind_in N pyfloat) in E. apply E. clear -F K. revert K. induction F as [|a b d d' (E1 & _) F IH]; [auto|]. cbn. rewrite E1. intros [?|?]; auto.
Qed.
End Settled.

Theorem config_validation_idempotent N pyfloat conf c :
  validate_pipeline_config N pyfloat conf = Ok c -> validate_pipeline_config N pyfloat c = Ok c.
Proof.
  intros H. apply (proj1 (config_validation_exact N pyfloat conf)) in H.
  apply (proj1 (config_validation_exact N pyfloat c)). now apply settled_config in H.
Qed.
Print Assumptions config_validation_idempotent.

(** C58: every search range of a validated configuration can be read, and its periods, numbers of
    bins and of sub-integrations are positive *)
Theorem config_ranges_readable N pyfloat conf c : validate_pipeline_config N pyfloat conf = Ok c ->
  exists ranges, read_ranges N c = Ok ranges /\
    Forall (fun r : range_conf N => n_ltb (o_ofZ n_dbl 0) (rg_pmin r) = true /\ n_ltb (o_ofZ n_dbl 0) (rg_pmax r) = true /\
      (0 < rg_bmin r)%Z /\ (0 < rg_cbins r)%Z /\ (0 < rg_csubints r)%Z) ranges.
Proof.
  intros H. apply (proj1 (config_validation_exact N pyfloat conf)) in H. unfold config_ok in H.
  destruct (dictionary_entry N pyfloat _ _ _ H ltac:(nodup) "ranges" _ eq_refl) as (x & y & E & L).
  destruct L as (l & l' & -> & -> & F). unfold read_ranges. rewrite E. cbn [bind]. clear E.
  assert (P : forall a b, range_ok N pyfloat a b -> exists r, read_range N b = Ok r /\
     n_ltb (o_ofZ n_dbl 0) (rg_pmin r) = true /\ n_ltb (o_ofZ n_dbl 0) (rg_pmax r) = true /\
      (0 < rg_bmin r)%Z /\ (0 < rg_cbins r)%Z /\ (0 < rg_csubints r)%Z).
  { clear. intros a b H. unfold range_ok in H.
    destruct (dictionary_entry N pyfloat _ _ _ H ltac:(nodup) "ffa_search" _ eq_refl) as (x1 & f & E1 & D1).
    destruct (dictionary_entry N pyfloat _ _ _ H ltac:(nodup) "candidates" _ eq_refl) as (x2 & g & E2 & D2).
    destruct (dictionary_entry N pyfloat _ _ _ D1 ltac:(nodup) "period_min" _ eq_refl) as (x3 & p1 & E3 & (p & _ & Hp & ->)).
    destruct (dictionary_entry N pyfloat _ _ _ D1 ltac:(nodup) "period_max" _ eq_refl) as (x4 & p2 & E4 & (q & _ & Hq & ->)).
    destruct (dictionary_entry N pyfloat _ _ _ D1 ltac:(nodup) "bins_min" _ eq_refl) as (x5 & b1 & E5 & B1).
    destruct (dictionary_entry N pyfloat _ _ _ D2 ltac:(nodup) "bins" _ eq_refl) as (x6 & b2 & E6 & B2).
    destruct (dictionary_entry N pyfloat _ _ _ D2 ltac:(nodup) "subints" _ eq_refl) as (x7 & b3 & E7 & B3).
    assert (I : forall v w, positive_int N v w -> exists z, as_int N w = Ok z /\ (0 < z)%Z).
    { intros v w [-> [(z & -> & Hz)| ->]]; [exists z; auto|exists 1%Z; split; [reflexivity|lia]]. }
    destruct (I _ _ B1) as (z1 & Z1 & P1). destruct (I _ _ B2) as (z2 & Z2 & P2). destruct (I _ _ B3) as (z3 & Z3 & P3).
    exists (Range p q z1 z2 z3). unfold read_range. rewrite E1. cbn [bind]. rewrite E2. cbn [bind]. rewrite E3. cbn [bind as_float].
    rewrite E4. cbn [bind as_float]. rewrite E5. cbn [bind]. rewrite Z1. cbn [bind]. rewrite E6. cbn [bind]. rewrite Z2. cbn [bind].
    rewrite E7. cbn [bind]. rewrite Z3. cbn. repeat split; assumption. }
  induction F as [|a b l l' Hab F (rs & IH1 & IH2)]; [exists []; split; [reflexivity|constructor]|].
  destruct (P a b Hab) as (r & R1 & R2). exists (r :: rs). cbn [mapM]. rewrite R1. cbn [bind]. rewrite IH1. split; [reflexivity|]. now constructor.
Qed.
Print Assumptions config_ranges_readable.

(** The example configuration file of riptide (pipeline/config/example.yaml), with some entries as
    parameters, in IEEE arithmetic. *)
Definition sf (n d : Z) : numSF := o_div n_dbl (o_ofZ n_dbl n) (o_ofZ n_dbl d).
Definition no_float (s : string) : option numSF := None.
Definition range (pmin pmax : numSF) (bmin bmax : Z) (peaks : yval numSF) (bins : Z) (subints : yval numSF) : yval numSF :=
  YDict [
    ("name", YStr "short");
    ("ffa_search", YDict [("period_min", YFloat pmin); ("period_max", YFloat pmax); ("bins_min", YInt bmin); ("bins_max", YInt bmax);
       ("fpmin", YInt 8); ("wtsp", YFloat (sf 3 2))]);
    ("find_peaks", peaks);
    ("candidates", YDict [("bins", YInt bins); ("subints", subints)])].
Definition peaks6 : yval numSF := YDict [("smin", YInt 6)].
Definition range1 := range (sf 1 5) (sf 1 2) 240 260 peaks6 256 (YInt 32).
Definition range2 := range (sf 1 2) (sf 2 1) 480 520 peaks6 512 (YInt 32).
Definition config (processes minpts : yval numSF) (ranges : list (yval numSF)) : yval numSF :=
  YDict [
    ("processes", processes);
    ("data", YDict [("format", YStr "presto"); ("fmin", YNone); ("fmax", YNone); ("nchans", YNone)]);
    ("dmselect", YDict [("min", YInt 0); ("max", YFloat (sf 1000 1)); ("dmsinb_max", YFloat (sf 45 1))]);
    ("dereddening", YDict [("rmed_width", YFloat (sf 5 1)); ("rmed_minpts", minpts)]);
    ("ranges", YList ranges);
    ("clustering", YDict [("radius", YFloat (sf 1 5))]);
    ("harmonic_flagging", YDict [("denom_max", YInt 100); ("phase_distance_max", YFloat (sf 1 1));
       ("dm_distance_max", YFloat (sf 3 1)); ("snr_distance_max", YFloat (sf 3 1))]);
    ("candidate_filters", YDict [("dm_min", YNone); ("snr_min", YInt 7); ("remove_harmonics", YBool true); ("max_number", YNone)]);
    ("plot_candidates", YBool false)].
Notation checked := (validate_pipeline_config numSF no_float).

Definition fails (r : res (yval numSF)) : bool := match r with Err InvalidPipelineConfig => true | _ => false end.
Definition works (r : res (yval numSF)) (test : yval numSF -> bool) : bool := match r with Ok c => test c | _ => false end.
Lemma fails_spec r : fails r = true -> r = Err InvalidPipelineConfig.
Proof. destruct r as [|[]| |]; now cbn. Qed.
Lemma works_spec r test : works r test = true -> exists c, r = Ok c /\ test c = true.
Proof. destruct r; cbn; intros; [eauto|discriminate..]. Qed.

(** it is accepted; snr_min becomes a float *)
Example config_ex : exists c, checked (config (YInt 4) (YInt 101) [range1; range2]) = Ok c /\
  exists x, (f <- entry numSF "candidate_filters" c ;; entry numSF "snr_min" f) = Ok (YFloat x) /\ n_eqb x (sf 7 1) = true.
Proof.
  destruct (works_spec (checked (config (YInt 4) (YInt 101) [range1; range2]))
    (fun c => match (f <- entry numSF "candidate_filters" c ;; entry numSF "snr_min" f) with Ok (YFloat x) => n_eqb x (sf 7 1) | _ => false end))
    as (c & E & T); [vm_compute; reflexivity|].
  exists c. split; [exact E|]. destruct (f <- entry numSF "candidate_filters" c ;; entry numSF "snr_min" f) as [[]| | |]; try discriminate. eauto.
Qed.
(** a mistyped key is rejected *)
Example config_wrong_key_ex :
  checked (config (YInt 4) (YInt 101) [range (sf 1 5) (sf 1 2) 240 260 (YDict [("s_min", YInt 6)]) 256 (YInt 32)]) = Err InvalidPipelineConfig.
Proof. apply fails_spec. vm_compute. reflexivity. Qed.

(** "subints = null is allowed" (example.yaml): it is rejected, whatever the rest *)
Theorem config_subints_null_refuted N pyfloat conf c l rg d d' :
  entry N "ranges" conf = Ok (YList l) -> In rg l -> entry N "candidates" rg = Ok (YDict (d ++ ("subints", YNone) :: d')) ->
  validate_pipeline_config N pyfloat conf <> Ok c.
Proof.
  intros E I E2 H. apply (proj1 (config_validation_exact N pyfloat conf)) in H.
  destruct H as (k & k' & -> & -> & F & _). cbn [entry] in E. destruct (yfind "ranges" k) as [r|] eqn:Er; [|discriminate].
  injection E as ->.
  assert (J : exists w, listing N (range_ok N pyfloat) (YList l) w).
  { clear -F Er. induction F as [|(k1, x1) (k2, x2) k k' (E1 & q & R & I & HR) F IH]; [discriminate|]. cbn [yfind] in Er.
    destruct (String.eqb_spec "ranges" k1) as [<-|]; [|auto]. injection Er as ->. cbn in I, HR.
    repeat (destruct I as [I|I]; [try discriminate; injection I as <- <-; eauto|]). contradiction. }
  destruct J as (w & l0 & l' & [= <-] & -> & F2).
  assert (J : exists w, range_ok N pyfloat rg w).
  { clear -F2 I. induction F2; [contradiction|]. destruct I as [->|I]; eauto. }
  destruct J as (w & J). destruct J as (f & f' & -> & -> & F3 & _). cbn [entry] in E2.
  destruct (yfind "candidates" f) as [cd|] eqn:Ec; [|discriminate]. injection E2 as ->.
  clear -F3 Ec. induction F3 as [|(k1, x1) (k2, x2) k k' (E1 & q & R & I & HR) F IH]; [discriminate|]. cbn [yfind] in Ec.
  destruct (String.eqb_spec "candidates" k1) as [<-|]; [|auto]. injection Ec as ->. cbn in I, HR.
  repeat (destruct I as [I|I]; [try discriminate|]); try contradiction. injection I as <- <-.
  destruct HR as (g & g' & [= <-] & _ & F4 & _). apply Forall2_app_inv_l in F4 as (g1 & g2 & _ & F4 & _).
  inversion F4 as [|? b ? ? (_ & q1 & R1 & I1 & H1) _]; subst. cbn in I1, H1.
  repeat (destruct I1 as [I1|I1]; [try discriminate|]); try contradiction. injection I1 as <- <-.
  destruct H1 as [_ [(z & E & _)|E]]; discriminate.
Qed.
Print Assumptions config_subints_null_refuted.
Example config_subints_null_ex :
  checked (config (YInt 4) (YInt 101) [range (sf 1 5) (sf 1 2) 240 260 peaks6 256 YNone]) = Err InvalidPipelineConfig.
Proof. apply fails_spec. vm_compute. reflexivity. Qed.

(** "It is in fact possible to leave this section empty" (example.yaml, find_peaks): a blank section
    is null, and it is rejected *)
Theorem config_blank_find_peaks_refuted :
  checked (config (YInt 4) (YInt 101) [range (sf 1 5) (sf 1 2) 240 260 YNone 256 (YInt 32)]) = Err InvalidPipelineConfig.
Proof. apply fails_spec. vm_compute. reflexivity. Qed.
Print Assumptions config_blank_find_peaks_refuted.

(** "an arbitrary number (at least one) of period ranges" (example.yaml): none is accepted, and then
    computing the minimum width fails *)
Theorem config_no_ranges_refuted :
  (exists c, checked (config (YInt 4) (YInt 101) []) = Ok c /\ read_ranges numSF c = Ok []) /\
  wmin numSF [] = Err ValueError.
Proof.
  split; [|reflexivity]. destruct (works_spec (checked (config (YInt 4) (YInt 101) []))
    (fun c => match read_ranges numSF c with Ok [] => true | _ => false end)) as (c & E & T); [vm_compute; reflexivity|].
  exists c. split; [exact E|]. destruct (read_ranges numSF c) as [[]| | |]; now try discriminate.
Qed.
Print Assumptions config_no_ranges_refuted.

(** "processes must be an int > 0": True is accepted *)
Theorem config_bool_int_refuted :
  exists c, checked (config (YBool true) (YInt 101) [range1]) = Ok c /\ entry numSF "processes" c = Ok (YBool true).
Proof.
  destruct (works_spec (checked (config (YBool true) (YInt 101) [range1]))
    (fun c => match entry numSF "processes" c with Ok (YBool true) => true | _ => false end)) as (c & E & T); [vm_compute; reflexivity|].
  exists c. split; [exact E|]. destruct (entry numSF "processes" c) as [[|[]| | | | |]| | |]; now try discriminate.
Qed.
Print Assumptions config_bool_int_refuted.

(** an even number of points for the running median is accepted, and makes every dereddening fail *)
Theorem config_even_minpts_refuted :
  (exists c, checked (config (YInt 4) (YInt 100) [range1]) = Ok c) /\
  forall N alloc x width, fast_running_median N alloc x width 100 = Err ValueError.
Proof.
  split; [|reflexivity]. destruct (works_spec (checked (config (YInt 4) (YInt 100) [range1])) (fun _ => true)) as (c & E & _);
    [vm_compute; reflexivity|eauto].
Qed.
Print Assumptions config_even_minpts_refuted.

(** a range that ends before it starts, or with bins_max < bins_min, passes both validations and is
    refused only by the search itself *)
Theorem config_inverted_range_refuted :
  let bad := range (sf 1 2) (sf 1 5) 240 200 peaks6 256 (YInt 32) in
  exists c r, checked (config (YInt 4) (YInt 101) [bad]) = Ok c /\ read_ranges numSF c = Ok [r] /\
    validate_ranges numSF [r] (sf 1 1000) = Ok tt /\
    check_arguments numSF (sf 1 1000) (rg_pmin r) (rg_pmax r) 240 200 = Err ValueError.
Proof.
  cbv zeta. set (bad := range (sf 1 2) (sf 1 5) 240 200 peaks6 256 (YInt 32)).
  destruct (works_spec (checked (config (YInt 4) (YInt 101) [bad]))
    (fun c => match read_ranges numSF c with
              | Ok [r] => match validate_ranges numSF [r] (sf 1 1000), check_arguments numSF (sf 1 1000) (rg_pmin r) (rg_pmax r) 240 200 with
                          | Ok tt, Err ValueError => true | _, _ => false end
              | _ => false end)) as (c & E & T); [vm_compute; reflexivity|].
  destruct (read_ranges numSF c) as [[|r []]| | |] eqn:R; try discriminate. exists c, r. split; [exact E|]. split; [exact R|].
  destruct (validate_ranges numSF [r] (sf 1 1000)) as [[]| | |]; try discriminate. split; [reflexivity|].
  destruct (check_arguments numSF (sf 1 1000) (rg_pmin r) (rg_pmax r) 240 200) as [|[]| |]; now try discriminate.
Qed.
Print Assumptions config_inverted_range_refuted.

(** an infinite period_max is accepted *)
Theorem config_infinite_period_refuted :
  exists c r, checked (config (YInt 4) (YInt 101) [range (sf 1 2) (S754_infinity false) 240 260 peaks6 256 (YInt 32)]) = Ok c /\
    read_ranges numSF c = Ok [r] /\ rg_pmax r = S754_infinity false.
Proof.
  destruct (works_spec (checked (config (YInt 4) (YInt 101) [range (sf 1 2) (S754_infinity false) 240 260 peaks6 256 (YInt 32)]))
    (fun c => match read_ranges numSF c with Ok [r] => match rg_pmax r with S754_infinity false => true | _ => false end | _ => false end))
    as (c & E & T); [vm_compute; reflexivity|].
  destruct (read_ranges numSF c) as [[|r []]| | |] eqn:R; try discriminate. exists c, r. split; [exact E|]. split; [exact R|].
  destruct (rg_pmax r) as [|[]| |]; now try discriminate.
Qed.
Print Assumptions config_infinite_period_refuted.
