(** C33 - C35: TimeSeries objects. *)
From Coq Require Import String List Arith ZArith Bool Lia Reals Lra Psatz.
From Flocq Require Import Core.
From Verif Require Import Base.Result Base.Buf Base.Num Model.Downsample Model.FastRmed
  Model.Folding Model.Metadata Model.TimeSeries Spec.Sums Spec.Overlap
  Proof.SumOrder Proof.Downsample Proof.TimeSeries Props.Downsample.
Import ListNotations.

Local Arguments buf {N} _ _ : simpl never.

(** ** Vocabulary *)

(** what a program can see of object number [j] *)
Definition view {N : num} (h : heap N) (j : nat) : option (list N * N * metadata N) :=
  option_map (fun t => (buf h (t_buf t), t_tsamp t, t_md t)) (nth_error (h_ts h) j).

(** the calls documented to return a new object *)
Definition returns_new {N : num} (c : call N) : bool :=
  match c with
  | CCopy _ | CNormalise _ false | CDeredden _ _ _ false | CDownsample _ _ false
  | CNew _ _ _ true => true
  | _ => false
  end.

Definition is_fold {N : num} (c : call N) : bool := match c with CFold _ _ _ _ => true | _ => false end.

(** [c] uses object [j] or its array [b] in a way that may change [j], now or later *)
Definition touches {N : num} (j b : nat) (c : call N) : bool :=
  match c with
  | CNormalise i true | CDeredden i _ _ true | CDownsample i _ true => i =? j
  | CWrite b' _ _ | CNew b' _ _ false => b' =? b
  | _ => false
  end.

(** C34.  After any history: a call that returns a new object changes no array and no
    existing object, and the new object has an array of its own. *)
Theorem timeseries_not_inplace :
  forall (N : num) (alloc : nat -> list N) (history : list (call N)) (c : call N) (h' : heap N),
  let h := run N alloc history (empty N) in
  step N alloc c h = Ok h' ->
  (returns_new c || is_fold c = true ->
     (forall b, b < length (h_bufs h) -> nth_error (h_bufs h') b = nth_error (h_bufs h) b) /\
     (forall j, j < length (h_ts h) -> view h' j = view h j)) /\
  (returns_new c = true -> exists t,
     length (h_ts h') = S (length (h_ts h)) /\ nth_error (h_ts h') (length (h_ts h)) = Some t /\
     t_buf t = length (h_bufs h) /\ t_buf t < length (h_bufs h')) /\
  (is_fold c = true -> h' = h).
Proof.
  intros N alloc history c h' h H.
  assert (W : wf N h) by (apply run_wf, empty_wf). clearbody h.
  assert (Add : forall x ts md, adds N h h' x ts md ->
    ((forall b, b < length (h_bufs h) -> nth_error (h_bufs h') b = nth_error (h_bufs h) b) /\
     (forall j, j < length (h_ts h) -> view h' j = view h j)) /\
    exists t, length (h_ts h') = S (length (h_ts h)) /\
     nth_error (h_ts h') (length (h_ts h)) = Some t /\
     t_buf t = length (h_bufs h) /\ t_buf t < length (h_bufs h')).
  { intros x ts md [E1 E2]. destruct h' as [bs os]. cbn in *. subst bs os. split.
    - split; intros; [now rewrite nth_error_app1|].
      unfold view. cbn. rewrite nth_error_app1 by auto.
      destruct (nth_error (h_ts h) j) eqn:Ej; cbn; auto. do 3 f_equal.
      apply W in Ej. now apply buf_snoc.
    - eexists. rewrite nth_snoc_new, !app_length. cbn [length].
      split; [lia|]. split; [reflexivity|]. cbn. lia. }
  destruct c as [x|b k v|b ts md cp|i|i ip|i w mp ip|i f ip|i p bi su]; cbn [step] in H;
    cbn [returns_new is_fold orb]; try (split; [discriminate|split; discriminate]).
  - destruct cp; [|split; [discriminate|split; discriminate]].
    apply bind_ok in H as (x & Hx & H). apply rd_inv in Hx. unfold ts_new in H.
    apply bind_ok in H as (m & Hm & H).
    edestruct Add as [A B]; [|split; [auto|split; [auto|discriminate]]].
    inversion H. split; reflexivity.
  - apply bind_ok in H as (t & Ht & H).
    edestruct Add as [A B]; [|split; [auto|split; [auto|discriminate]]].
    inversion H. split; reflexivity.
  - destruct ip; [split; [discriminate|split; discriminate]|].
    apply bind_ok in H as (t & Ht & H). apply ts_fresh_ok in H as (m & _ & H).
    apply Add in H as [A B]. split; [auto|split; [auto|discriminate]].
  - destruct ip; [split; [discriminate|split; discriminate]|].
    apply bind_ok in H as (t & Ht & H). apply bind_ok in H as (r & Hr & H).
    apply bind_ok in H as (u & Hu & H). apply ts_fresh_ok in H as (m & _ & H).
    apply Add in H as [A B]. split; [auto|split; [auto|discriminate]].
  - destruct ip; [split; [discriminate|split; discriminate]|].
    apply bind_ok in H as (t & Ht & H). apply bind_ok in H as (x & Hx & H).
    apply ts_fresh_ok in H as (m & _ & H).
    apply Add in H as [A B]. split; [auto|split; [auto|discriminate]].
  - apply bind_ok in H as (t & Ht & H). apply bind_ok in H as (m & Hm & H).
    apply bind_ok in H as (y & Hy & H). inversion H. subst h'.
    split; [auto|]. split; [discriminate|auto].
Qed.
Print Assumptions timeseries_not_inplace.

(** C34.  In-place calls: normalise and downsample change the receiver only; deredden also
    the objects that share its array (made with copy=False), and nothing else. *)
Theorem timeseries_inplace :
  forall (N : num) (alloc : nat -> list N) (history : list (call N)) (c : call N) (h' : heap N)
    (i : nat) (t : tseries N),
  let h := run N alloc history (empty N) in
  step N alloc c h = Ok h' -> nth_error (h_ts h) i = Some t ->
  (c = CNormalise i true \/ (exists f, c = CDownsample i f true) ->
     forall j, j <> i -> view h' j = view h j) /\
  ((exists w m, c = CDeredden i w m true) ->
     h_ts h' = h_ts h /\
     forall j t', nth_error (h_ts h) j = Some t' -> t_buf t' <> t_buf t -> view h' j = view h j).
Proof.
  intros N alloc history c h' i t h H Hi.
  assert (W : wf N h) by (apply run_wf, empty_wf). clearbody h.
  split.
  - assert (G : forall x ts, h' = set_ts N (Heap (h_bufs h ++ [x]) (h_ts h)) i
        (TS (length (h_bufs h)) ts (t_md t)) -> forall j, j <> i -> view h' j = view h j).
    { intros x ts -> j Hj. unfold view, set_ts. cbn [h_ts]. rewrite upd_other by auto.
      destruct (nth_error (h_ts h) j) eqn:Ej; cbn [option_map]; auto. do 3 f_equal.
      cbn. apply W in Ej. now apply buf_snoc. }
    intros [->|(f & ->)]; cbn [step] in H; apply bind_ok in H as (t0 & Ht & H);
      apply rd_inv in Ht; rewrite Hi in Ht; inversion Ht; subst t0.
    + injection H as H. eapply G. symmetry; exact H.
    + apply bind_ok in H as (x & Hx & H). injection H as H. eapply G. symmetry; exact H.
  - intros (w & m & ->). cbn [step] in H. apply bind_ok in H as (t0 & Ht & H).
    apply rd_inv in Ht. rewrite Hi in Ht; inversion Ht; subst t0.
    apply bind_ok in H as (r & Hr & H). apply bind_ok in H as (u & Hu & H). inversion H.
    split; auto. intros j t' Hj Hne. unfold view. cbn [h_ts]. rewrite Hj. cbn [option_map].
    do 3 f_equal. unfold buf. cbn. now rewrite !nth_nth_error, upd_other by auto.
Qed.
Print Assumptions timeseries_inplace.

Definition sole_owner {N : num} (h : heap N) (j b : nat) : Prop :=
  forall k t, nth_error (h_ts h) k = Some t -> t_buf t = b -> k = j.

Lemma untouched_step (N : num) alloc (c : call N) (h h' : heap N) j t :
  wf N h -> nth_error (h_ts h) j = Some t -> sole_owner h j (t_buf t) ->
  touches j (t_buf t) c = false -> step N alloc c h = Ok h' ->
  view h' j = view h j /\ nth_error (h_ts h') j = Some t /\ sole_owner h' j (t_buf t).
Proof.
  intros W Hj HS HT H.
  assert (Hb := W _ _ Hj).
  assert (Lj : j < length (h_ts h)) by (apply nth_error_Some; congruence).
  assert (G : nth_error (h_ts h') j = Some t -> buf h' (t_buf t) = buf h (t_buf t) ->
      sole_owner h' j (t_buf t) ->
    view h' j = view h j /\ nth_error (h_ts h') j = Some t /\ sole_owner h' j (t_buf t)).
  { intros A B C. split; auto. unfold view. rewrite A, Hj. cbn. now rewrite B. }
  assert (Add : forall x ts md, adds N h h' x ts md ->
    view h' j = view h j /\ nth_error (h_ts h') j = Some t /\ sole_owner h' j (t_buf t)).
  { intros x ts md [E1 E2]. destruct h' as [bs os]. cbn in E1, E2. subst bs os. apply G.
    - cbn. now rewrite nth_error_app1.
    - now apply buf_snoc.
    - intros k t' Hk Ek. cbn in Hk. apply nth_snoc in Hk as [[_ Hk]|[_ ->]]; [eauto|cbn in Ek; lia]. }
  assert (Rebind : forall x i ts md, i <> j ->
    h' = set_ts N (Heap (h_bufs h ++ [x]) (h_ts h)) i (TS (length (h_bufs h)) ts md) ->
    view h' j = view h j /\ nth_error (h_ts h') j = Some t /\ sole_owner h' j (t_buf t)).
  { intros x i ts md Hi E. subst h'. apply G.
    - cbn. now rewrite upd_other by auto.
    - cbn. now apply buf_snoc.
    - intros k t' Hk Ek. cbn in Hk. apply upd_nth_error in Hk as [[_ Hk]|[_ ->]]; [eauto|].
      cbn in Ek. lia. }
  destruct c as [x|b k v|b ts md cp|i|i ip|i w mp ip|i f ip|i p bi su]; cbn [step] in H;
    cbn [touches] in HT.
  - inversion H. subst h'. apply G; auto. now apply buf_snoc.
  - apply Nat.eqb_neq in HT. apply bind_ok in H as (x & Hx & H). apply bind_ok in H as (x' & Hx' & H).
    inversion H. subst h'. apply G; auto. unfold buf. cbn. now rewrite !nth_nth_error, upd_other by auto.
  - apply bind_ok in H as (x & Hx & H). apply rd_inv in Hx. unfold ts_new in H.
    apply bind_ok in H as (m & Hm & H). destruct cp.
    + eapply Add. inversion H. split; reflexivity.
    + apply Nat.eqb_neq in HT. inversion H. subst h'. apply G.
      * cbn. now rewrite nth_error_app1.
      * reflexivity.
      * intros k t' Hk Ek. cbn in Hk. apply nth_snoc in Hk as [[_ Hk]|[_ ->]]; [eauto|cbn in Ek; lia].
  - apply bind_ok in H as (t0 & Ht & H). eapply Add. inversion H. split; reflexivity.
  - apply bind_ok in H as (t0 & Ht & H). destruct ip.
    + apply Nat.eqb_neq in HT. injection H as H. eapply Rebind; eauto.
    + apply ts_fresh_ok in H as (m & _ & H). eauto.
  - apply bind_ok in H as (t0 & Ht & H). apply bind_ok in H as (r & Hr & H).
    apply bind_ok in H as (u & Hu & H). apply rd_inv in Ht. destruct ip.
    + apply Nat.eqb_neq in HT. inversion H. subst h'. apply G; auto.
      unfold buf. cbn. rewrite !nth_nth_error, upd_other; auto.
      intros E. apply HT. apply (HS i t0); auto.
    + apply ts_fresh_ok in H as (m & _ & H). eauto.
  - apply bind_ok in H as (t0 & Ht & H). apply bind_ok in H as (x & Hx & H). destruct ip.
    + apply Nat.eqb_neq in HT. injection H as H. eapply Rebind; eauto.
    + apply ts_fresh_ok in H as (m & _ & H). eauto.
  - apply bind_ok in H as (t0 & Ht & H). apply bind_ok in H as (m & Hm & H).
    apply bind_ok in H as (y & Hy & H). inversion H. subst h'. apply G; auto.
Qed.

Lemma untouched_run (N : num) alloc cs : forall (h : heap N) j t,
  wf N h -> nth_error (h_ts h) j = Some t -> sole_owner h j (t_buf t) ->
  forallb (fun c => negb (touches j (t_buf t) c)) cs = true ->
  view (run N alloc cs h) j = view h j.
Proof.
  induction cs as [|c cs IH]; intros h j t W Hj HS HT; cbn [run]; auto.
  cbn [forallb] in HT. apply andb_prop in HT as [HT1 HT2]. apply negb_true_iff in HT1.
  destruct (step N alloc c h) as [h'|e| |] eqn:E; try (now apply IH with (t := t)).
  destruct (untouched_step N alloc c h h' j t W Hj HS HT1 E) as (V & Hj' & HS').
  rewrite <- V. apply IH with (t := t); auto. eapply step_wf; eauto.
Qed.

(** C34, isolation: an object whose array is not shared is unaffected by every history of
    calls on other objects. *)
Theorem timeseries_isolated :
  forall (N : num) (alloc : nat -> list N) (history later : list (call N)) (j : nat) (t : tseries N),
  let h := run N alloc history (empty N) in
  nth_error (h_ts h) j = Some t ->
  (forall k t', nth_error (h_ts h) k = Some t' -> t_buf t' = t_buf t -> k = j) ->
  (forall c, In c later -> touches j (t_buf t) c = false) ->
  view (run N alloc later h) j = view h j.
Proof.
  intros N alloc history later j t h Hj HS HT. apply untouched_run with (t := t); auto.
  - apply run_wf, empty_wf.
  - apply forallb_forall. intros c Hc. now rewrite HT.
Qed.
Print Assumptions timeseries_isolated.

(** C34, copies: copy() gives an object equal to the original and independent of it: nothing
    done to other objects changes the copy, and (if the original has its array for itself)
    nothing done to the copy changes the original. *)
Theorem timeseries_copy_independent :
  forall (N : num) (alloc : nat -> list N) (history later : list (call N)) (i : nat) (t : tseries N),
  let h := run N alloc history (empty N) in
  nth_error (h_ts h) i = Some t ->
  exists h1, step N alloc (CCopy i) h = Ok h1 /\
    let j := length (h_ts h) in
    i <> j /\ view h1 j = view h i /\ view h1 i = view h i /\
    ((forall c, In c later -> touches j (length (h_bufs h)) c = false) ->
       view (run N alloc later h1) j = view h i) /\
    ((forall k t', nth_error (h_ts h) k = Some t' -> t_buf t' = t_buf t -> k = i) ->
     (forall c, In c later -> touches i (t_buf t) c = false) ->
       view (run N alloc later h1) i = view h i).
Proof.
  intros N alloc history later i t h Hi.
  assert (W : wf N h) by (apply run_wf, empty_wf). clearbody h.
  assert (E : step N alloc (CCopy i) h =
     Ok (Heap (h_bufs h ++ [buf h (t_buf t)])
              (h_ts h ++ [TS (length (h_bufs h)) (t_tsamp t) (t_md t)]))).
  { cbn [step]. unfold rd. rewrite Hi. reflexivity. }
  eexists. split; [exact E|]. cbv zeta.
  set (h1 := Heap _ _) in *.
  assert (W1 : wf N h1) by (eapply step_wf; eauto).
  assert (Li : i < length (h_ts h)) by (apply nth_error_Some; congruence).
  assert (Hb := W _ _ Hi).
  assert (Hj : nth_error (h_ts h1) (length (h_ts h)) = Some (TS (length (h_bufs h)) (t_tsamp t) (t_md t)))
    by apply nth_snoc_new.
  assert (V1 : view h1 (length (h_ts h)) = view h i).
  { unfold view. rewrite Hj, Hi. cbn [option_map t_buf t_tsamp t_md]. do 3 f_equal. apply buf_new. }
  assert (Hi1 : nth_error (h_ts h1) i = Some t) by (cbn; now rewrite nth_error_app1).
  assert (V2 : view h1 i = view h i).
  { unfold view. rewrite Hi1, Hi. cbn [option_map]. do 3 f_equal. now apply buf_snoc. }
  split; [lia|]. split; auto. split; auto. split.
  - intros HT. rewrite <- V1. eapply untouched_run; eauto.
    + intros k t' Hk Ek. cbn in Hk, Ek. apply nth_snoc in Hk as [[_ Hk]|[-> _]]; auto.
      apply W in Hk. lia.
    + apply forallb_forall. intros c Hc. cbn. now rewrite HT.
  - intros HS HT. rewrite <- V2. eapply untouched_run; eauto.
    + intros k t' Hk Ek. cbn in Hk. apply nth_snoc in Hk as [[_ Hk]|[_ ->]]; eauto.
      cbn in Ek. lia.
    + apply forallb_forall. intros c Hc. now rewrite HT.
Qed.
Print Assumptions timeseries_copy_independent.

(** C35.  Without downsample(inplace=True), the tobs item is always the length of the data. *)
Theorem timeseries_tobs :
  forall (N : num) (alloc : nat -> list N) (history : list (call N)) (j : nat) (t : tseries N),
  (forall i f, ~ In (CDownsample i f true) history) ->
  let h := run N alloc history (empty N) in
  nth_error (h_ts h) j = Some t ->
  md_get "tobs" (t_md t)
  = Some (MFloat (o_mul n_dbl (o_ofZ n_dbl (Z.of_nat (length (buf h (t_buf t))))) (t_tsamp t))).
Proof.
  intros N alloc history j t Hn h. revert j t.
  set (inv := fun h : heap N => forall j t, nth_error (h_ts h) j = Some t ->
    md_get "tobs" (t_md t)
    = Some (MFloat (o_mul n_dbl (o_ofZ n_dbl (Z.of_nat (length (buf h (t_buf t))))) (t_tsamp t)))).
  assert (G : forall cs h0, (forall i f, ~ In (CDownsample i f true) cs) -> wf N h0 -> inv h0 ->
    inv (run N alloc cs h0)).
  2:{ apply (G history (empty N)); auto. apply empty_wf. intros j t H. now destruct j. }
  clear. induction cs as [|c cs IH]; intros h Hn W I; cbn [run]; auto.
  assert (Hn' : forall i f, ~ In (CDownsample i f true) cs) by (intros i f Hin; apply (Hn i f); now right).
  destruct (step N alloc c h) as [h'|e| |] eqn:H; try (exact (IH h Hn' W I)).
  assert (W' : wf N h') by (eapply step_wf; eauto). refine (IH h' Hn' W' _). clear IH.
  assert (Add : forall x ts md, adds N h h' x ts md ->
    md_get "tobs" md = Some (MFloat (o_mul n_dbl (o_ofZ n_dbl (Z.of_nat (length x))) ts)) -> inv h').
  { intros x ts md [E1 E2] Hm j t Hj. destruct h' as [bs os]. cbn in E1, E2. subst bs os.
    cbn in Hj. apply nth_snoc in Hj as [[Lj Hj]|[_ ->]].
    - rewrite buf_snoc by (eapply W; eauto). exact (I _ _ Hj).
    - cbn [t_buf t_md t_tsamp]. now rewrite buf_new. }
  assert (Len : forall b x', length x' = length (buf h b) -> h' = Heap (upd (h_bufs h) b x') (h_ts h) -> inv h').
  { intros b x' Lx -> j t Hj. cbn in Hj. rewrite (I _ _ Hj). do 4 f_equal. f_equal.
    destruct (Nat.eq_dec (t_buf t) b) as [Eb|Nb].
    - rewrite Eb. unfold buf at 2. cbn. rewrite nth_nth_error, upd_same; auto.
      rewrite <- Eb. eapply W; eauto.
    - unfold buf. cbn. now rewrite !nth_nth_error, upd_other by auto. }
  destruct c as [x|b k v|b ts md cp|i|i ip|i w mp ip|i f ip|i p bi su]; cbn [step] in H.
  - inversion H. intros j t Hj. cbn in Hj. rewrite buf_snoc by (eapply W; eauto). exact (I _ _ Hj).
  - apply bind_ok in H as (x & Hx & H). apply bind_ok in H as (x' & Hx' & H).
    apply rd_inv in Hx. apply wr_inv in Hx' as [Lk ->]. injection H as H. eapply Len; [|symmetry; eassumption].
    rewrite upd_length. unfold buf. now rewrite (nth_error_nth _ _ _ Hx).
  - apply bind_ok in H as (x & Hx & H). apply rd_inv in Hx. unfold ts_new in H.
    apply bind_ok in H as (m & Hm & H). destruct cp.
    + injection H as H. eapply Add; [subst; split; reflexivity|]. apply md_get_set.
    + inversion H. subst h'. intros j t Hj. cbn in Hj. apply nth_snoc in Hj as [[Lj Hj]|[_ ->]].
      * apply I in Hj. exact Hj.
      * cbn [t_md t_buf t_tsamp]. apply md_get_set.
  - apply bind_ok in H as (t0 & Ht & H). apply rd_inv in Ht. injection H as H.
    eapply Add; [subst; split; reflexivity|]. now apply I in Ht.
  - apply bind_ok in H as (t0 & Ht & H). apply rd_inv in Ht. destruct ip.
    + inversion H. intros j t Hj. cbn in Hj. apply upd_nth_error in Hj as [[_ Hj]|[_ ->]].
      * unfold set_ts. cbn [h_bufs h_ts]. rewrite buf_snoc by (eapply W; eauto). exact (I _ _ Hj).
      * unfold set_ts. cbn [h_bufs h_ts t_buf t_md t_tsamp]. rewrite buf_new. unfold normalised64. rewrite map_length. now apply I in Ht.
    + apply ts_fresh_ok in H as (m & _ & H). eapply Add; eauto. apply md_get_set.
  - apply bind_ok in H as (t0 & Ht & H). apply bind_ok in H as (r & Hr & H).
    apply bind_ok in H as (u & Hu & H). apply rd_inv in Ht. destruct ip.
    + injection H as H. eapply Len; [|symmetry; eassumption]. unfold minus.
      apply guard_ok, Nat.eqb_eq in Hu. rewrite map_length, combine_length. lia.
    + apply ts_fresh_ok in H as (m & _ & H). eapply Add; eauto. apply md_get_set.
  - apply bind_ok in H as (t0 & Ht & H). apply bind_ok in H as (x & Hx & H). destruct ip.
    + exfalso. apply (Hn i f). now left.
    + apply ts_fresh_ok in H as (m & _ & H). eapply Add; eauto. apply md_get_set.
  - apply bind_ok in H as (t0 & Ht & H). apply bind_ok in H as (m & Hm & H).
    apply bind_ok in H as (y & Hy & H). inversion H. now subst.
Qed.
Print Assumptions timeseries_tobs.

Local Open Scope R_scope.

(** C35 is false of downsample(inplace=True): tobs keeps the old length, wrong for every
    factor that does not divide the number of samples. *)
Theorem timeseries_tobs_refuted :
  forall (alloc : nat -> list R) (history : list (call numR)) (i : nat) (t : tseries numR) (f : R),
  allocates alloc ->
  (forall i f, ~ In (CDownsample i f true) history) ->
  let h := run numR alloc history (empty numR) in
  nth_error (h_ts h) i = Some t -> 0 < t_tsamp t ->
  let n := length (buf h (t_buf t)) in
  1 < f <= INR n -> (forall k, INR n <> INR k * f) ->
  exists h' t', step numR alloc (@CDownsample numR i f true) h = Ok h' /\
    nth_error (h_ts h') i = Some t' /\
    md_get "tobs" (t_md t') = Some (@MFloat numR (INR n * t_tsamp t)) /\
    INR (length (buf h' (t_buf t'))) * t_tsamp t' < INR n * t_tsamp t.
Proof.
  intros alloc history i t f Ha Hn h Hi Ht n Hf Hk.
  pose proof (timeseries_tobs numR alloc history i t Hn Hi) as HM. fold h n in HM.
  destruct (proj2 (downsample_integrates alloc (buf h (t_buf t)) f Ha) Hf)
    as (x & k & Ex & Lx & Bx & _).
  assert (W : wf numR h) by (apply run_wf, empty_wf).
  eexists. exists (TS (length (h_bufs h)) (o_mul n_dbl (t_tsamp t) f : numR) (t_md t)). split.
  { cbn [step]. unfold rd. numR_ty. rewrite Hi. cbn [bind]. rewrite Ex. cbn [bind]. reflexivity. }
  split. { cbn [set_ts h_ts]. rewrite upd_same; auto. apply nth_error_Some. congruence. }
  cbn [t_md t_tsamp t_buf]. split. { rewrite HM. rsimp. now rewrite <- INR_IZR_INZ. }
  match goal with |- INR (length ?b) * _ < _ => assert (EB : b = x) by apply buf_new end.
  rewrite EB. numR_ty. rewrite Lx. rsimp. rewrite <- Rmult_assoc, (Rmult_comm (INR k)), Rmult_assoc.
  rewrite (Rmult_comm (INR n)). apply Rmult_lt_compat_l; auto.
  destruct Bx as [B1 B2]. assert (INR k * f <= INR n).
  { apply Rmult_le_compat_r with (r := f) in B1; [|lra]. unfold n.
    unfold Rdiv in B1. rewrite Rmult_assoc, Rinv_l in B1 by lra. lra. }
  specialize (Hk k). lra.
Qed.
Print Assumptions timeseries_tobs_refuted.

(** three samples of 1 s downsampled by 2 *)
Example timeseries_tobs_refuted_ex :
  let cs : list (call numR) := [@CArray numR [1; 2; 3]; @CNew numR 0 1 None false] in
  let h := run numR (repeat 0) cs (empty numR) in
  exists t, nth_error (h_ts h) 0 = Some t /\ 0 < t_tsamp t /\ length (buf h (t_buf t)) = 3%nat /\
    1 < 2 <= INR 3 /\ (forall k, INR 3 <> INR k * 2) /\
    (forall i f, ~ In (CDownsample i f true) cs).
Proof.
  cbv zeta. eexists. split; [reflexivity|]. split; [cbn; lra|]. split; [reflexivity|].
  split; [cbn; lra|]. split.
  - intros k. change 2 with (INR 2). rewrite <- mult_INR. intros H. apply INR_eq in H. lia.
  - intros i f [H|[H|[]]]; discriminate.
Qed.

(** ** C33: normalise *)
Definition rmean (x : list R) : R := rsum (length x) (fun i => nth i x 0) / INR (length x).
Definition rvar (x : list R) : R :=
  rsum (length x) (fun i => (nth i x 0 - rmean x) ^ 2) / INR (length x).

Lemma nsum_R k (x : list R) : nsum numR k x = rsum (length x) (fun i => nth i x 0).
Proof. exact (exact_sum_list x). Qed.

Lemma nmean_R k (x : list R) : nmean numR k x = rmean x.
Proof. unfold nmean, rmean. rewrite nsum_R. rsimp. now rewrite <- INR_IZR_INZ. Qed.

Lemma mean_R (x : list R) : mean numR x = rmean x.
Proof. apply nmean_R. Qed.

Lemma var_R (x : list R) : var numR x = rvar x.
Proof.
  unfold var, rvar. rewrite nmean_R. unfold rmean at 1. numR_ty. rewrite !map_length.
  f_equal. apply rsum_ext. intros i Hi. rewrite mean_R. rsimp.
  rewrite nth_indep with (d' := (fun v => (v - rmean x) * (v - rmean x)) 0) by now rewrite map_length.
  rewrite (map_nth (fun v => (v - rmean x) * (v - rmean x)) x 0 i). ring.
Qed.

Lemma normalised_R (x : list R) :
  normalised numR x = map (fun v => (v - rmean x) / sqrt (rvar x)) x.
Proof. unfold normalised, normalised64. rewrite map_map, mean_R, var_R. reflexivity. Qed.

Lemma rmean_affine (x : list R) a b : x <> [] ->
  rmean (map (fun v => a * v + b) x) = a * rmean x + b.
Proof.
  intros Hx. unfold rmean. rewrite map_length.
  assert (0 < INR (length x)) by (apply (lt_INR 0); destruct x; [easy|cbn; lia]).
  rewrite (rsum_ext _ _ (fun i => a * nth i x 0 + b)).
  - rewrite rsum_plus, rsum_scal, rsum_const. field. lra.
  - intros i Hi. rewrite nth_indep with (d' := a * 0 + b) by now rewrite map_length.
    now rewrite (map_nth (fun v => a * v + b)).
Qed.

Lemma rvar_affine (x : list R) a b : x <> [] ->
  rvar (map (fun v => a * v + b) x) = a ^ 2 * rvar x.
Proof.
  intros Hx. unfold rvar. rewrite rmean_affine by auto. rewrite map_length.
  rewrite (rsum_ext _ _ (fun i => a ^ 2 * (nth i x 0 - rmean x) ^ 2)).
  - rewrite rsum_scal. unfold Rdiv. ring.
  - intros i Hi. rewrite nth_indep with (d' := a * 0 + b) by now rewrite map_length.
    rewrite (map_nth (fun v => a * v + b)). ring.
Qed.

Lemma rvar_nonneg x : 0 <= rvar x.
Proof.
  unfold rvar. destruct (length x) eqn:E; [cbn; unfold Rdiv; rewrite Rmult_0_l; lra|].
  rewrite <- E. apply Rmult_le_pos.
  - apply rsum_nonneg. intros. apply pow2_ge_0.
  - left. apply Rinv_0_lt_compat. apply (lt_INR 0). lia.
Qed.

Lemma rvar_pos x u v : In u x -> In v x -> u <> v -> 0 < rvar x.
Proof.
  intros Hu Hv Hne. destruct (Rle_lt_or_eq_dec 0 (rvar x) (rvar_nonneg x)) as [H|H]; auto.
  exfalso. apply Hne.
  assert (L : 0 < INR (length x)) by (apply (lt_INR 0); destruct x; [easy|cbn; lia]).
  assert (Z : rsum (length x) (fun i => (nth i x 0 - rmean x) ^ 2) = 0).
  { unfold rvar in H. apply Rmult_eq_reg_r with (/ INR (length x)).
    - unfold Rdiv in H. lra.
    - apply Rinv_neq_0_compat. lra. }
  assert (G : forall n f, (forall i, 0 <= f i) -> rsum n f = 0 -> forall i, (i < n)%nat -> f i = 0).
  { clear. induction n as [|n IH]; intros f Hf Hs i Hi; [lia|]. cbn in Hs.
    pose proof (rsum_nonneg n f (fun i _ => Hf i)). pose proof (Hf n).
    destruct (Nat.eq_dec i n) as [->|]; [lra|]. apply IH; auto; [lra|lia]. }
  assert (M : forall w, In w x -> w = rmean x).
  { intros w Hw. apply In_nth with (d := 0) in Hw as (i & Hi & <-).
    pose proof (G _ _ (fun i => pow2_ge_0 (nth i x 0 - rmean x)) Z i Hi) as E. cbv beta in E.
    assert (nth i x 0 - rmean x = 0) by nra. lra. }
  rewrite (M u Hu), (M v Hv). reflexivity.
Qed.

(** C33.  After any history, normalise() of a data set that is not constant gives zero mean
    and unit variance; applied again it changes nothing; scaling (by a positive factor) and
    shifting the data beforehand makes no difference. *)
Theorem normalise_standard :
  forall (alloc : nat -> list R) (history : list (call numR)) (i : nat) (h' : heap numR)
    (t : tseries numR) (u v : R),
  let h := run numR alloc history (empty numR) in
  let x := buf h (t_buf t) in
  nth_error (h_ts h) i = Some t -> In u x -> In v x -> u <> v ->
  step numR alloc (CNormalise i false) h = Ok h' ->
  exists t', nth_error (h_ts h') (length (h_ts h)) = Some t' /\
    let y := buf h' (t_buf t') in
    t_tsamp t' = t_tsamp t /\ length y = length x /\
    rmean y = 0 /\ rvar y = 1 /\ normalised numR y = y /\
    (exists a b, 0 < a /\ y = map (fun z => a * z + b) x) /\
    forall a b, 0 < a -> normalised numR (map (fun z => a * z + b) x) = y.
Proof.
  intros alloc history i h' t u v h x Hi Hu Hv Hne H. clearbody h.
  cbn [step] in H. unfold rd in H. numR_ty. rewrite Hi in H. cbn [bind] in H.
  apply ts_fresh_ok in H as (m & _ & [E1 E2]). fold x in E1, E2.
  destruct h' as [bs os]. cbn [h_bufs h_ts] in E1, E2. subst bs os. numR_ty.
  eexists. cbn [h_ts]. split; [apply nth_snoc_new|]. cbn [t_buf t_tsamp]. rewrite buf_new.
  cbv zeta. split; auto.
  assert (Hx : x <> []) by (intros E; now rewrite E in Hu).
  pose proof (rvar_pos x u v Hu Hv Hne) as HV.
  pose proof (sqrt_lt_R0 _ HV) as HS. rewrite !normalised_R.
  set (s := sqrt (rvar x)) in *.
  assert (Hss : s * s = rvar x) by (apply sqrt_sqrt; lra).
  set (y := map (fun v => (v - rmean x) / s) x).
  assert (EY : y = map (fun z => / s * z + - (rmean x / s)) x).
  { apply map_ext. intros z. field. lra. }
  assert (My : rmean y = 0).
  { rewrite EY, rmean_affine by auto. field. lra. }
  assert (Vy : rvar y = 1).
  { rewrite EY, rvar_affine by auto. rewrite <- Hss. field. lra. }
  split; [unfold y; apply map_length|]. split; auto. split; auto. split.
  { rewrite My, Vy, sqrt_1. rewrite <- (map_id y) at 2. apply map_ext. intros z. field. }
  split.
  { exists (/ s), (- (rmean x / s)). split; auto. now apply Rinv_0_lt_compat. }
  intros a b Hapos. rewrite normalised_R, map_map, rmean_affine, rvar_affine by auto.
  apply map_ext. intros z. rewrite sqrt_mult_alt by apply pow2_ge_0.
  rewrite sqrt_pow2 by lra. fold s. field. lra.
Qed.
Print Assumptions normalise_standard.

Example normalise_standard_ex :
  let cs : list (call numR) := [@CArray numR [1; 2; 3]; @CNew numR 0 1 None false] in
  let h := run numR (repeat 0) cs (empty numR) in
  exists t h', nth_error (h_ts h) 0 = Some t /\ In 1 (buf h (t_buf t)) /\ In 2 (buf h (t_buf t)) /\
    step numR (repeat 0) (CNormalise 0 false) h = Ok h'.
Proof.
  cbv zeta. eexists. eexists. split; [reflexivity|]. split; [unfold buf; cbn; tauto|]. split; [unfold buf; cbn; tauto|].
  cbn [step run]. unfold rd. cbn [nth_error h_ts]. cbn -[normalised].
  unfold ts_fresh, ts_new, metadata_new. cbn -[normalised].
  rewrite Rlt_bool_true by (unfold buf; cbn; lra). cbn -[normalised]. reflexivity.
Qed.

(** two objects on one array, a third with its own: the hypotheses of the theorems above *)
Example timeseries_history_ex :
  let cs := [@CArray numR [1; 2; 3]; @CNew numR 0 1 None false; @CNew numR 0 1 None false;
             @CNew numR 0 1 None true] in
  let h := run numR (repeat 0) cs (empty numR) in
  let later := [@CNormalise numR 0 true; @CDeredden numR 1 3 1 true; @CCopy numR 2;
                @CDownsample numR 1 2 true] in
  map t_buf (h_ts h) = [0; 0; 1]%nat /\
  (exists h', step numR (repeat 0) (@CCopy numR 1) h = Ok h') /\
  (exists h', step numR (repeat 0) (@CNormalise numR 1 true) h = Ok h') /\
  (forall k t', nth_error (h_ts h) k = Some t' -> t_buf t' = 1%nat -> k = 2%nat) /\
  (forall c, In c later -> touches 2 1 c = false).
Proof.
  cbv zeta. split; [reflexivity|]. split; [eexists; reflexivity|]. split; [eexists; reflexivity|].
  split.
  - intros k t' Hk Ht. destruct k as [|[|[|k]]]; cbn in Hk; try (injection Hk as <-; cbn in Ht); try lia.
    now destruct k.
  - intros c [<-|[<-|[<-|[<-|[]]]]]; reflexivity.
Qed.
