(** The steps of Pipeline.process after the search, in any arithmetic: what they keep. *)
From Coq Require Import String List Arith ZArith Bool Lia Permutation.
From Verif Require Import Base.Result Base.Buf Base.Num Model.Cluster Model.Peaks Model.Harmonic
  Model.Folding Model.DmIter Model.Pipeline Proof.Cluster Proof.TimeSeries Proof.Pipeline Props.Peaks Props.Pipeline.
Import ListNotations.

(** ** loops *)
Lemma foreach_keeps {X S} (Inv : S -> Prop) (body : X -> S -> res S) l :
  (forall x s s', In x l -> Inv s -> body x s = Ok s' -> Inv s') -> forall s s', Inv s -> foreach l body s = Ok s' -> Inv s'.
Proof.
  induction l as [|x l IH]; intros H s s' I E; cbn in E; [injection E as <-; exact I|].
  apply bind_ok in E as (s1 & E1 & E). apply (IH (fun y s s' Hy => H y s s' (or_intror Hy)) s1 s'); [|exact E].
  apply (H x s s1); [now left|exact I|exact E1].
Qed.

Lemma foreach_visits {X A} (body : X -> list A -> res (list A)) l :
  (forall x s s', In x l -> body x s = Ok s' -> incl s s') -> forall s s' x, In x l -> foreach l body s = Ok s' ->
  exists s1 s2, body x s1 = Ok s2 /\ incl s2 s'.
Proof.
  induction l as [|y l IH]; intros H s s' x Hx E; [destruct Hx|]. cbn in E. apply bind_ok in E as (s1 & E1 & E).
  destruct Hx as [->|Hx].
  - exists s, s1. split; [exact E1|].
    apply (foreach_keeps (fun t => incl s1 t) body l) with (s := s1); [|apply incl_refl|exact E].
    intros z t t' Hz I E'. eapply incl_tran; [exact I|]. apply (H z t t'); [now right|exact E'].
  - apply (IH (fun y s s' Hy => H y s s' (or_intror Hy)) s1 s' x Hx E).
Qed.

(** ** sorting with any comparison *)
Section Sorts.
Context {A : Type} (lt : A -> A -> bool).

Lemma insert_desc_any a l : Permutation (a :: l) (insert_desc lt a l).
Proof. induction l as [|b l IH]; cbn; auto. destruct (lt a b); auto. rewrite perm_swap. now constructor. Qed.
Lemma sorted_desc_any l : Permutation l (sorted_desc lt l).
Proof. induction l as [|a l IH]; cbn; auto. rewrite <- insert_desc_any. now constructor. Qed.
Lemma insert_asc_any a l : Permutation (a :: l) (insert_asc lt a l).
Proof. induction l as [|b l IH]; cbn; auto. destruct (lt b a); auto. rewrite perm_swap. now constructor. Qed.
Lemma sorted_asc_any l : Permutation l (sorted_asc lt l).
Proof. induction l as [|a l IH]; cbn; auto. rewrite <- insert_asc_any. now constructor. Qed.

Lemma first_max_any a l : In (first_max lt a l) (a :: l).
Proof.
  unfold first_max. revert a. induction l as [|b l IH]; intros a; [now left|]. cbn [fold_left].
  destruct (lt a b); [right; apply IH|]. destruct (IH a) as [E|E]; [left; exact E|right; now right].
Qed.
End Sorts.

(** ** the groups of positions of cluster1d() on sorted values *)
Lemma skipn_more {A} n m (l : list A) : skipn n (skipn m l) = skipn (m + n) l.
Proof. revert l. induction m as [|m IH]; intros [|a l]; cbn; auto; now rewrite ?skipn_nil. Qed.

Lemma slices_concat {A} (l : list A) : forall bounds s, Sorted.StronglySorted lt (s :: bounds) -> bounds <> [] ->
  last bounds 0 = length l -> concat (slices l (s :: bounds)) = skipn s l.
Proof.
  induction bounds as [|e bounds IH]; intros s SS NE LE; [contradiction|].
  inversion SS as [|? ? S1 F1]; subst. inversion F1 as [|? ? L1 _]; subst.
  change (slices l (s :: e :: bounds)) with (firstn (e - s) (skipn s l) :: slices l (e :: bounds)). cbn [concat].
  destruct bounds as [|e' bounds].
  - cbn [slices concat]. rewrite app_nil_r. cbn in LE. subst e. apply firstn_all2. rewrite skipn_length. lia.
  - rewrite (IH e S1); [|discriminate|exact LE].
    rewrite <- (firstn_skipn (e - s) (skipn s l)) at 2. f_equal. rewrite skipn_more. f_equal. lia.
Qed.

Section Any.
Context (N : num).

Lemma cluster1d_seq argsort (x : list N) r : concat (cluster1d N argsort x r true) = seq 0 (length x).
Proof.
  unfold cluster1d. destruct (Nat.eqb_spec (length x) 0) as [E|E]; [rewrite E; reflexivity|]. cbn zeta.
  set (P := fun k => n_ltb r _). set (n := length x) in *.
  assert (SF : Sorted.StronglySorted lt (filter P (seq 0 (n - 1)))).
  { apply filter_sorted. clear. generalize (n - 1). intros k. generalize 0. induction k as [|k IH]; intros o; cbn; constructor; auto.
    apply Forall_forall. intros j Hj. apply in_seq in Hj. lia. }
  assert (BD : forall k, In k (filter P (seq 0 (n - 1))) -> k < n - 1).
  { intros k Hk. apply filter_In in Hk as [Hk _]. apply in_seq in Hk. lia. }
  destruct (filter P (seq 0 (n - 1))) as [|b bs] eqn:EB; [cbn; apply app_nil_r|].
  cbn [length Nat.eqb]. rewrite slices_concat; [reflexivity| | |].
  - assert (G : forall l o, Sorted.StronglySorted lt l -> (forall k, In k l -> o <= k < n - 1) ->
      Sorted.StronglySorted lt (map S l ++ [n]) /\ Forall (fun k => o < k) (map S l ++ [n]) \/ n <= o).
    { induction l as [|a l IH]; intros o S0 B0; cbn.
      - destruct (le_lt_dec n o); [now right|left]. split; repeat constructor. assumption.
      - left. inversion S0 as [|? ? S1 F1]; subst. pose proof (B0 a (or_introl eq_refl)) as Ba.
        destruct (IH (S a) S1) as [[I1 I2]|I]; [|split|lia].
        { intros k Hk. rewrite Forall_forall in F1. specialize (F1 k Hk). pose proof (B0 k (or_intror Hk)). lia. }
        + constructor; [exact I1|exact I2].
        + constructor; [lia|]. eapply Forall_impl; [|exact I2]. cbn. intros. lia. }
    destruct (G (b :: bs) 0 SF) as [[G1 G2]|G1]; [intros k Hk; specialize (BD k Hk); lia|constructor; assumption|lia].
  - destruct (map S (b :: bs)); discriminate.
  - rewrite seq_length. rewrite last_last. reflexivity.
Qed.

(** ** clusters *)
Lemma cluster_peaks_keeps argsort radius tmed (peaks : list (peak N)) cs :
  cluster_peaks N argsort radius tmed peaks = Ok cs -> concat (map c_peaks cs) = peaks.
Proof.
  unfold cluster_peaks. intros H. apply mapM_inv in H.
  pose proof (cluster1d_seq argsort (map p_freq peaks) (o_div n_dbl radius tmed)) as C. rewrite map_length in C.
  set (groups := cluster1d _ _ _ _ _) in *. clearbody groups.
  assert (FF : Forall2 (fun i p => nth_error peaks i = Some p) (concat groups) (concat (map c_peaks cs))).
  { clear - H. induction H as [|g c gs cs E _ IH]; [constructor|]. cbn. apply Forall2_app; [|exact IH].
    apply bind_ok in E as (ps & E & E'). injection E' as <-. cbn. apply mapM_inv in E. clear - E.
    induction E as [|i p g ps H _ IH]; constructor; auto. now apply rd_inv. }
  rewrite C in FF. clear - FF.
  assert (G : forall (l pre : list (peak N)) o, pre ++ l = peaks -> length pre = o -> forall out,
    Forall2 (fun i p => nth_error peaks i = Some p) (seq o (length l)) out -> out = l).
  { induction l as [|p l IH]; intros pre o EQ EL out H; cbn in H; inversion H as [|? q ? out' Hq Ho]; subst; auto.
    rewrite nth_error_app2, Nat.sub_diag in Hq by lia. cbn in Hq. injection Hq as <-.
    f_equal. apply (IH (pre ++ [p]) (S (length pre))); auto.
    - now rewrite <- app_assoc.
    - rewrite app_length. cbn. lia. }
  exact (G peaks [] 0 eq_refl eq_refl _ FF).
Qed.

Lemma map_upd {A B} (g : A -> B) (l : list A) i a v : nth_error l i = Some a -> g v = g a -> map g (upd l i v) = map g l.
Proof.
  revert i. induction l as [|b l IH]; intros [|i] E G; cbn in *; try discriminate; auto.
  - injection E as ->. now rewrite G.
  - now rewrite (IH i E G).
Qed.

Lemma flag_harmonics_keeps test (cs cs' : list (cluster N)) : flag_harmonics N test cs = Ok cs' ->
  map c_peaks cs' = map c_peaks cs.
Proof.
  unfold flag_harmonics. intros H. apply bind_ok in H as (order & _ & H). cbn zeta in H. apply bind_ok in H as (cs1 & E1 & H).
  assert (K1 : map c_peaks cs1 = map c_peaks cs).
  { unfold assign_ranks in E1. revert E1.
    apply (foreach_keeps (fun t : list (cluster N) => map c_peaks t = map c_peaks cs)); [|reflexivity].
    intros [rank i] s s' _ I E. apply bind_ok in E as (c & R & W). apply rd_inv in R. apply wr_inv in W as [_ ->].
    rewrite <- I. eapply map_upd; eauto. }
  revert H. apply (foreach_keeps (fun t : list (cluster N) => map c_peaks t = map c_peaks cs)); [|exact K1].
  intros [[f pf] [h ph]] s s' _ I E. unfold flag_pair in E. apply bind_ok in E as (F & _ & E). apply bind_ok in E as (Hh & R & E).
  destruct (is_harmonic F || is_harmonic Hh)%bool; [injection E as <-; exact I|]. apply bind_ok in E as ([rel fr] & _ & E).
  destruct rel; [|injection E as <-; exact I]. apply rd_inv in R. apply wr_inv in E as [_ ->]. rewrite <- I. eapply map_upd; eauto.
Qed.

Lemma centre_in (c : cluster N) p : centre c = Ok p -> In p (c_peaks c).
Proof. unfold centre. destruct (c_peaks c) as [|q ps]; [discriminate|]. intros H. injection H as <-. apply first_max_any. Qed.

(** ** filters *)
Definition passes_any (fl : filters N) (c : cluster N) (p : peak N) : Prop :=
  (forall d, fl_dm_min fl = Some d -> exists v, p_dm p = Some v /\ n_leb d v = true) /\
  (forall s, fl_snr_min fl = Some s -> n_leb s (p_snr p) = true) /\
  (fl_remove_harmonics fl = Some true -> c_parent c = None).

Lemma in_firstn {A} (a : A) n l : In a (firstn n l) -> In a l.
Proof. intros H. rewrite <- (firstn_skipn n l). apply in_app_iff. now left. Qed.

Lemma by_snr_perm {A} (get : A -> cluster N) l s : by_snr N get l = Ok s -> Permutation (map fst s) l /\
  forall a p, In (a, p) s -> centre (get a) = Ok p.
Proof.
  unfold by_snr. intros H. apply bind_ok in H as (ks & E & H). injection H as <-. apply mapM_inv in E.
  assert (K : map fst ks = l /\ forall a p, In (a, p) ks -> centre (get a) = Ok p).
  { induction E as [|a x l ks Ea E IH]; [split; [reflexivity|easy]|].
    apply bind_ok in Ea as (p & Ec & Ea). injection Ea as <-.
    destruct IH as [IH1 IH2]. split; [cbn; now rewrite IH1|].
    intros b q [Hb|Hb]; [injection Hb as <- <-; exact Ec|now apply IH2]. }
  destruct K as [K1 K2]. split.
  - rewrite <- K1. apply Permutation_map. symmetry. apply sorted_desc_any.
  - intros a p H. apply K2. eapply Permutation_in; [symmetry; apply sorted_desc_any|exact H].
Qed.

Lemma filters_keep (fl : filters N) (cs : list (cluster N)) kept : apply_candidate_filters N fl cs = Ok kept ->
  (forall i, In i kept -> exists c, nth_error cs i = Some c /\ forall p, centre c = Ok p -> passes_any fl c p) /\
  (fl_max_number fl = None \/ fl_max_number fl = Some 0%Z ->
   forall i c p, nth_error cs i = Some c -> centre c = Ok p -> passes_any fl c p -> In i kept).
Proof.
  unfold apply_candidate_filters. intros H. set (ids := combine (seq 0 (length cs)) cs) in *.
  assert (I0 : forall i c, In (i, c) ids <-> nth_error cs i = Some c).
  { intros i c. unfold ids. rewrite combine_seq_in, Nat.sub_0_r. split; [tauto|]. split; [lia|auto]. }
  apply bind_ok in H as (ids1 & E1 & H). apply bind_ok in H as (ids2 & E2 & H).
  assert (I1 : (forall x, In x ids1 -> In x ids) /\ forall i c p, centre c = Ok p ->
    (In (i, c) ids1 <-> In (i, c) ids /\ forall d, fl_dm_min fl = Some d -> exists v, p_dm p = Some v /\ n_leb d v = true)).
  { destruct (fl_dm_min fl) as [d|].
    - apply filterM_spec in E1 as (b & B1 & ->). split; [intros x Hx; now apply filter_In in Hx|].
      intros i c p Hp. rewrite filter_In. apply and_iff_compat_l'.
      intros Hin. specialize (B1 _ Hin). cbn in B1. rewrite Hp in B1. cbn [bind] in B1.
      destruct (p_dm p) as [v|]; [|discriminate]. injection B1 as <-. cbn. split.
      + intros L d' E. injection E as <-. eauto.
      + intros G. destruct (G d eq_refl) as (v' & E & L). injection E as <-. exact L.
    - injection E1 as <-. split; auto. intros i c p _. split; [intros; split; [auto|intros ? [=]]|tauto]. }
  destruct I1 as (U1 & I1). clear E1.
  assert (I2 : (forall x, In x ids2 -> In x ids1) /\ forall i c p, centre c = Ok p ->
    (In (i, c) ids2 <-> In (i, c) ids1 /\ forall s, fl_snr_min fl = Some s -> n_leb s (p_snr p) = true)).
  { destruct (fl_snr_min fl) as [d|].
    - apply filterM_spec in E2 as (b & B1 & ->). split; [intros x Hx; now apply filter_In in Hx|].
      intros i c p Hp. rewrite filter_In. apply and_iff_compat_l'.
      intros Hin. specialize (B1 _ Hin). cbn in B1. rewrite Hp in B1. cbn [bind] in B1. injection B1 as <-. split.
      + intros L d' E. injection E as <-. exact L.
      + intros G. now apply G.
    - injection E2 as <-. split; auto. intros i c p _. split; [intros; split; [auto|intros ? [=]]|tauto]. }
  destruct I2 as (U2 & I2). clear E2.
  set (ids3 := match fl_remove_harmonics fl with Some true => filter (fun x => negb (is_harmonic (snd x))) ids2 | _ => ids2 end) in H.
  assert (I3 : forall i c, In (i, c) ids3 <-> In (i, c) ids2 /\ (fl_remove_harmonics fl = Some true -> c_parent c = None)).
  { unfold ids3. destruct (fl_remove_harmonics fl) as [[|]|]; intros i c.
    - rewrite filter_In. cbn. apply and_iff_compat_l.
      unfold is_harmonic. destruct (c_parent c); cbn; split; auto; try discriminate. intros G. specialize (G eq_refl). discriminate.
    - split; [intros; split; [auto|intros [=]]|tauto].
    - split; [intros; split; [auto|intros [=]]|tauto]. }
  clearbody ids3.
  assert (GD : forall i c p, centre c = Ok p -> (In (i, c) ids3 <-> nth_error cs i = Some c /\ passes_any fl c p)).
  { intros i c p Hp. rewrite I3, (I2 i c p Hp), (I1 i c p Hp), I0. unfold passes_any. tauto. }
  apply bind_ok in H as (ids4 & E4 & H). injection H as <-. split.
  - assert (U4 : forall x, In x ids4 -> In x ids3).
    { destruct (fl_max_number fl) as [n|]; [|injection E4 as <-; auto]. destruct (n =? 0)%Z; [injection E4 as <-; auto|].
      apply bind_ok in E4 as (s & ES & E4). injection E4 as <-. intros x Hx. apply in_firstn in Hx.
      apply by_snr_perm in ES as [PM _]. now rewrite PM in Hx. }
    intros i Hi. apply in_map_iff in Hi as ([i' c] & <- & Hc). apply U4 in Hc. exists c. split.
    + apply I0. apply U1, U2. apply I3 in Hc. tauto.
    + intros p Hp. exact (proj2 (proj1 (GD i' c p Hp) Hc)).
  - intros MX i c p Ec Hp PA. assert (ids4 = ids3) as ->.
    { destruct MX as [MX|MX]; rewrite MX in E4; [|cbn in E4]; now injection E4. }
    change i with (fst (i, c)). apply in_map. now apply (GD i c p Hp).
Qed.

(** ** candidates *)
Section Build.
Context (T : Type) (ts_length : T -> N) (ts_fold : T -> N -> Z -> option Z -> res (folded N)).
Context (get_filename : N -> res string) (load : string -> res T) (prep : T -> res T) (ranges : list (range_conf N)).

(** what is made of a cluster with the time series [ts] *)
Definition candidate_from (ts : T) (c : cluster N) : res (candidate N T) :=
  p <- centre c ;;
  rng <- get_search_range N ranges (p_period p) ;;
  match rng with
  | None => Err TypeError
  | Some r => from_pipeline_output N T ts_length ts_fold ts c (rg_cbins r) (Some (rg_csubints r))
  end.

(** the time series loaded again for a DM *)
Definition reloaded (dm : option N) (ts : T) : Prop :=
  exists d fname ts0, dm = Some d /\ get_filename d = Ok fname /\ load fname = Ok ts0 /\ prep ts0 = Ok ts.

Lemma try_candidate_keeps ts c cands out :
  try_candidate N T ts_length ts_fold ranges ts c cands = Ok out ->
  incl cands out /\ (forall cd, candidate_from ts c = Ok cd -> In cd out) /\
  forall cd, In cd out -> In cd cands \/ candidate_from ts c = Ok cd.
Proof.
  unfold try_candidate. fold (candidate_from ts c). destruct (candidate_from ts c) as [cd|e| |]; intros H; try discriminate; injection H as <-.
  - split; [apply incl_appl, incl_refl|]. split.
    + intros cd' E. injection E as <-. apply in_app_iff. right. now left.
    + intros cd' I. apply in_app_iff in I as [I|[<-|[]]]; auto.
  - split; [apply incl_refl|]. split; [discriminate|auto].
Qed.

Lemma group_add_keeps {A} dm (a : A) g :
  (forall k l, In (k, l) g -> exists l', In (k, l') (group_add N dm a g) /\ incl l l') /\
  (exists k l, In (k, l) (group_add N dm a g) /\ In a l /\ (k = dm \/ dm_eqb N dm k = true)) /\
  forall k l b, In (k, l) (group_add N dm a g) -> In b l -> b = a \/ exists l', In (k, l') g /\ In b l'.
Proof.
  induction g as [|[e m] g (I1 & I2 & I3)]; cbn [group_add].
  - split; [intros k l []|]. split; [exists dm, [a]; split; [now left|split; [now left|now left]]|].
    intros k l b [E|[]] Hb. injection E as <- <-. destruct Hb as [<-|[]]. now left.
  - destruct (dm_eqb N dm e) eqn:E.
    + split; [|split].
      * intros k l [H|H].
        -- injection H as <- <-. eexists. split; [now left|]. apply incl_appl, incl_refl.
        -- exists l. split; [now right|apply incl_refl].
      * exists e, (m ++ [a]). split; [now left|]. split; [apply in_app_iff; right; now left|now right].
      * intros k l b [H|H] Hb.
        -- injection H as <- <-. apply in_app_iff in Hb as [Hb|[<-|[]]]; [|now left]. right. exists m. split; [now left|exact Hb].
        -- right. exists l. split; [now right|exact Hb].
    + split; [|split].
      * intros k l [H|H].
        -- injection H as <- <-. exists m. split; [now left|apply incl_refl].
        -- destruct (I1 k l H) as (l' & H' & L). exists l'. split; [now right|exact L].
      * destruct I2 as (k & l & H & R). exists k, l. split; [now right|exact R].
      * intros k l b [H|H] Hb.
        -- injection H as <- <-. right. exists m. split; [now left|exact Hb].
        -- destruct (I3 k l b H Hb) as [->|(l' & H' & B')]; [now left|]. right. exists l'. split; [now right|exact B'].
Qed.

(** Every cluster whose candidate can be made becomes one, and there are no other candidates. *)
Lemma build_candidates_keeps filtered out :
  build_candidates N T ts_length ts_fold get_filename load prep ranges filtered [] = Ok out ->
  (forall c, In c filtered -> exists p k ts, centre c = Ok p /\ (k = p_dm p \/ dm_eqb N (p_dm p) k = true) /\ reloaded k ts /\
     forall cd, candidate_from ts c = Ok cd -> In cd out) /\
  (forall cd, In cd out -> exists c k ts, In c filtered /\ reloaded k ts /\ candidate_from ts c = Ok cd).
Proof.
  unfold build_candidates. intros H. apply bind_ok in H as (s & ES & H). apply by_snr_perm in ES as [PM CT].
  destruct (Nat.eqb_spec (length s) 0) as [L0|L0].
  { injection H as <-. split; [|intros cd []]. intros c Hc. rewrite <- PM in Hc. destruct s; [destruct Hc|discriminate]. }
  cbn zeta in H. set (groups := fold_left _ s []) in H. apply bind_ok in H as (cands & FE & H). injection H as <-.
  assert (GR : (forall c p, In (c, p) s -> exists k l, In (k, l) groups /\ In c l /\ (k = p_dm p \/ dm_eqb N (p_dm p) k = true)) /\
    forall k l c, In (k, l) groups -> In c l -> In c filtered).
  { assert (G : forall (s : list (cluster N * peak N)) g, 
      let g' := fold_left (fun g x => group_add N (p_dm (snd x)) (fst x) g) s g in
      (forall k l, In (k, l) g -> exists l', In (k, l') g' /\ incl l l') /\
      (forall c p, In (c, p) s -> exists k l, In (k, l) g' /\ In c l /\ (k = p_dm p \/ dm_eqb N (p_dm p) k = true)) /\
      (forall k l c, In (k, l) g' -> In c l -> In c (map fst s) \/ exists l', In (k, l') g /\ In c l')).
    { clear. induction s as [|[a p] s IH]; intros g; cbn [fold_left]; cbn zeta.
      - split; [intros k l Hk; exists l; split; [exact Hk|apply incl_refl]|]. split; [intros c p []|]. eauto.
      - destruct (group_add_keeps (p_dm p) a g) as (A1 & (k0 & l0 & A2 & A3 & A4) & A5).
        cbn [fst snd]. destruct (IH (group_add N (p_dm p) a g)) as (B1 & B2 & B3). split; [|split].
        + intros k l Hk. destruct (A1 k l Hk) as (l1 & H1 & L1). destruct (B1 k l1 H1) as (l2 & H2 & L2).
          exists l2. split; [exact H2|]. eapply incl_tran; eauto.
        + intros c q [E|Hc]; [|now apply B2]. injection E as <- <-. destruct (B1 k0 l0 A2) as (l1 & H1 & L1).
          exists k0, l1. split; [exact H1|]. split; [now apply L1|exact A4].
        + intros k l c Hk Hc. destruct (B3 k l c Hk Hc) as [I|(l1 & H1 & C1)]; [left; now right|].
          destruct (A5 k l1 c H1 C1) as [->|R]; [left; now left|now right]. }
    destruct (G s []) as (_ & G2 & G3). split; [exact G2|].
    intros k l c Hk Hc. destruct (G3 k l c Hk Hc) as [I|(l' & [] & _)]. now rewrite PM in I. }
  destruct GR as [G1 G2]. clearbody groups.
  match type of FE with foreach _ ?b _ = _ => set (body := b) in FE end.
  assert (BD : forall x t t', body x t = Ok t' -> exists ts, reloaded (fst x) ts /\
     foreach (snd x) (try_candidate N T ts_length ts_fold ranges ts) t = Ok t').
  { intros [dm cls] t t' E. unfold body in E. apply bind_ok in E as (fname & E1 & E). apply bind_ok in E as (ts0 & E2 & E).
    apply bind_ok in E as (ts & E3 & E). exists ts. split; [|exact E]. destruct dm as [d|]; [|discriminate]. exists d, fname, ts0. auto. }
  assert (INC : forall x t t', body x t = Ok t' -> incl t t').
  { intros x t t' E. destruct (BD x t t' E) as (ts & _ & E'). revert E'.
    apply (foreach_keeps (fun u => incl t u)); [|apply incl_refl].
    intros c u u' _ I E'. eapply incl_tran; [exact I|]. apply try_candidate_keeps in E'. tauto. }
  split.
  - intros c Hc. rewrite <- PM in Hc. apply in_map_iff in Hc as ([c' p] & E & Hc). cbn in E. subst c'.
    destruct (G1 c p Hc) as (k & l & Ik & Ic & KD).
    destruct (foreach_visits body groups (fun x t t' _ => INC x t t') [] cands (k, l) Ik FE) as (t1 & t2 & E1 & L2).
    destruct (BD _ _ _ E1) as (ts & RL & E2). cbn [fst snd] in RL, E2.
    exists p, k, ts. split; [exact (CT c p Hc)|]. split; [exact KD|]. split; [exact RL|].
    intros cd EC. eapply Permutation_in; [apply sorted_desc_any|]. apply L2.
    destruct (foreach_visits (try_candidate N T ts_length ts_fold ranges ts) l
      (fun x t t' _ E => proj1 (try_candidate_keeps ts x t t' E)) t1 t2 c Ic E2) as (u1 & u2 & E3 & L3).
    apply L3. apply try_candidate_keeps in E3 as (_ & E3 & _). now apply E3.
  - intros cd Hcd. apply (Permutation_in _ (Permutation_sym (sorted_desc_any _ _))) in Hcd. revert cd Hcd.
    revert FE. apply (foreach_keeps (fun t => forall cd, In cd t -> exists c k ts, In c filtered /\ reloaded k ts /\ candidate_from ts c = Ok cd));
      [|intros cd []].
    intros [k l] t t' Ix It E. destruct (BD _ _ _ E) as (ts & RL & E2). cbn [fst snd] in *. revert E2.
    apply (foreach_keeps (fun t => forall cd, In cd t -> exists c k ts, In c filtered /\ reloaded k ts /\ candidate_from ts c = Ok cd)); [|exact It].
    intros c u u' Ic Iu E3 cd Icd. apply try_candidate_keeps in E3 as (_ & _ & E3). destruct (E3 cd Icd) as [I|I]; [now apply Iu|].
    exists c, k, ts. split; [eapply G2; eauto|]. auto.
Qed.
End Build.

(** ** files *)
Lemma chunks_from_names (d : dmiter N) size : forall dms chunk chunks, chunks_from N d size dms chunk = Ok chunks ->
  exists names, Forall2 (fun x s => get_filename N d x = Ok s) dms names /\ concat chunks = chunk ++ names.
Proof.
  induction dms as [|x dms IH]; intros chunk chunks E; cbn [chunks_from] in E.
  - injection E as <-. exists []. split; [constructor|]. rewrite app_nil_r. destruct chunk; cbn; rewrite ?app_nil_r; auto.
  - apply bind_ok in E as (m & Em & E). assert (GF : get_filename N d x = Ok (m_fname m)) by (unfold get_filename; now rewrite Em).
    cbn zeta in E. destruct (_ =? size).
    + apply bind_ok in E as (l & El & E). injection E as <-. destruct (IH _ _ El) as (names & F & C).
      exists (m_fname m :: names). split; [now constructor|]. cbn [concat]. rewrite C. cbn. now rewrite <- app_assoc.
    + destruct (IH _ _ E) as (names & F & C). exists (m_fname m :: names). split; [now constructor|]. rewrite C. now rewrite <- app_assoc.
Qed.
End Any.
