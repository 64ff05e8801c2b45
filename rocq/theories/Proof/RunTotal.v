(** When the parts of the pipeline return, whatever the arithmetic. *)
From Coq Require Import String List Arith ZArith Bool Lia Permutation.
From Verif Require Import Base.Result Base.Buf Base.Num Model.Cluster Model.Peaks Model.Harmonic
  Model.Folding Model.DmIter Model.Pipeline Model.Ranges Model.Worker Model.Process
  Proof.Cluster Proof.TimeSeries Proof.Pipeline Props.Peaks Props.Pipeline Proof.RunKeeps.
Import ListNotations.

Lemma rd_ok {A} (l : list A) i : i < length l -> exists a, rd l i = Ok a /\ nth_error l i = Some a.
Proof.
  intros H. destruct (nth_error l i) as [a|] eqn:E; [|apply nth_error_None in E; lia].
  exists a. unfold rd. now rewrite E.
Qed.

Lemma wr_ok {A} (l : list A) i v : i < length l -> wr l i v = Ok (upd l i v).
Proof. intros H. unfold wr. destruct (Nat.ltb_spec i (length l)); [reflexivity|lia]. Qed.

Lemma upd_len {A} (l : list A) i v : length (upd l i v) = length l.
Proof. revert i. induction l as [|a l IH]; intros [|i]; cbn; auto. Qed.

Lemma in_upd {A} (l : list A) i v x : In x (upd l i v) -> x = v \/ In x l.
Proof.
  revert i. induction l as [|a l IH]; intros [|i]; cbn; auto.
  - intros [<-|H]; auto.
  - intros [<-|H]; auto. destruct (IH i H); auto.
Qed.

Lemma foreach_total {X S} (Inv : S -> Prop) (body : X -> S -> res S) l :
  (forall x s, In x l -> Inv s -> exists s', body x s = Ok s' /\ Inv s') -> forall s, Inv s -> exists s', foreach l body s = Ok s' /\ Inv s'.
Proof.
  induction l as [|x l IH]; intros H s I; cbn [foreach]; [eauto|].
  destruct (H x s (or_introl eq_refl) I) as (s1 & -> & I1). cbn [bind]. apply IH; auto. intros y t Hy. apply H. now right.
Qed.

Lemma mapM_total_in {A B} (f : A -> res B) l : (forall a, In a l -> exists b, f a = Ok b) -> exists o, mapM f l = Ok o.
Proof.
  induction l as [|a l IH]; intros H; [cbn; eauto|]. cbn [mapM]. destruct (H a (or_introl eq_refl)) as (b & ->). cbn [bind].
  destruct IH as (o & ->); [intros; apply H; now right|]. cbn [bind]. eauto.
Qed.

Section Any.
Context (N : num).

Lemma centre_ok (c : cluster N) : c_peaks c <> [] -> exists p, centre c = Ok p.
Proof. unfold centre. destruct (c_peaks c); [easy|eauto]. Qed.

Lemma by_snr_ok {A} (get : A -> cluster N) l : (forall a, In a l -> c_peaks (get a) <> []) -> exists s, by_snr N get l = Ok s.
Proof.
  intros H. unfold by_snr. destruct (mapM_total_in (fun a => p <- centre (get a) ;; Ok (a, p)) l) as (ks & ->); [|cbn [bind]; eauto].
  intros a Ha. destruct (centre_ok _ (H a Ha)) as (p & ->). cbn [bind]. eauto.
Qed.

(** ** clusters *)
Lemma slices_nonempty {A} (l : list A) : forall bounds s, Sorted.StronglySorted lt (s :: bounds) ->
  (forall e, In e (s :: bounds) -> e <= length l) -> forall g, In g (slices l (s :: bounds)) -> g <> [].
Proof.
  induction bounds as [|e bounds IH]; intros s SS LE g Hg; [destruct Hg|].
  inversion SS as [|? ? S1 F1]; subst. inversion F1 as [|? ? L1 _]; subst.
  change (slices l (s :: e :: bounds)) with (firstn (e - s) (skipn s l) :: slices l (e :: bounds)) in Hg. destruct Hg as [<-|Hg].
  - pose proof (LE e (or_intror (or_introl eq_refl))). intros E. apply (f_equal (@length A)) in E.
    rewrite firstn_length, skipn_length in E. cbn in E. lia.
  - apply (IH e S1); [|exact Hg]. intros x Hx. apply LE. now right.
Qed.

Lemma cluster1d_nonempty argsort (x : list N) r : forall g, In g (cluster1d N argsort x r true) -> g <> [].
Proof.
  unfold cluster1d. destruct (Nat.eqb_spec (length x) 0) as [E|E]; [intros g []|]. cbn zeta.
  set (P := fun k => n_ltb r _). set (n := length x) in *.
  assert (SF : Sorted.StronglySorted lt (filter P (seq 0 (n - 1)))).
  { apply filter_sorted. clear. generalize (n - 1). intros k. generalize 0. induction k as [|k IH]; intros o; cbn; constructor; auto.
    apply Forall_forall. intros j Hj. apply in_seq in Hj. lia. }
  assert (BD : forall k, In k (filter P (seq 0 (n - 1))) -> k < n - 1).
  { intros k Hk. apply filter_In in Hk as [Hk _]. apply in_seq in Hk. lia. }
  destruct (filter P (seq 0 (n - 1))) as [|b bs] eqn:EB.
  { cbn. intros g [<-|[]]. destruct n; [lia|discriminate]. }
  cbn [length Nat.eqb]. apply slices_nonempty.
  - assert (G : forall l o, Sorted.StronglySorted lt l -> (forall k, In k l -> o <= k < n - 1) ->
      Sorted.StronglySorted lt (map S l ++ [n]) /\ Forall (fun k => o < k) (map S l ++ [n]) \/ n <= o).
    { induction l as [|a l IH]; intros o S0 B0; cbn.
      - destruct (le_lt_dec n o); [now right|left]. split; repeat constructor. assumption.
      - left. inversion S0 as [|? ? S1 F1]; subst. pose proof (B0 a (or_introl eq_refl)) as Ba.
        destruct (IH (S a) S1) as [[I1 I2]|I]; [|split|lia].
        { intros k Hk. rewrite Forall_forall in F1. specialize (F1 k Hk). pose proof (B0 k (or_intror Hk)). lia. }
        + constructor; [exact I1|exact I2].
        + constructor; [lia|]. eapply Forall_impl; [|exact I2]. cbn. intros. lia. }
    destruct (G (b :: bs) 0 SF) as [[G1 G2]|G1]; [intros k Hk; specialize (BD k Hk); lia|constructor; assumption|lia].
  - rewrite seq_length. intros e [<-|He]; [lia|]. apply in_app_iff in He as [He|[<-|[]]]; [|lia].
    apply in_map_iff in He as (k & <- & Hk). specialize (BD k Hk). lia.
Qed.

(** a cluster with peaks; a harmonic has a parent in the list and a fraction *)
Definition sound (n : nat) (c : cluster N) : Prop :=
  c_peaks c <> [] /\ match c_parent c with None => True | Some i => i < n /\ c_hfrac c <> None end.

Lemma cluster_peaks_ok argsort radius tmed (peaks : list (peak N)) :
  exists cs, cluster_peaks N argsort radius tmed peaks = Ok cs /\ forall n, Forall (sound n) cs.
Proof.
  unfold cluster_peaks. set (groups := cluster1d _ _ _ _ _).
  assert (C : concat groups = seq 0 (length peaks)) by (unfold groups; rewrite cluster1d_seq; now rewrite map_length).
  assert (NE : forall g, In g groups -> g <> []) by (apply cluster1d_nonempty).
  clearbody groups.
  assert (RG : forall g i, In g groups -> In i g -> i < length peaks).
  { intros g i Hg Hi. assert (I : In i (concat groups)) by (apply in_concat; eauto). rewrite C in I. apply in_seq in I. lia. }
  clear C. induction groups as [|g groups IH]; [exists []; split; [reflexivity|intros n; constructor]|]. cbn [mapM].
  destruct (mapM_total_in (rd peaks) g) as (ps & EP).
  { intros i Hi. destruct (rd_ok peaks i) as (a & E & _); [apply (RG g); auto; now left|]. eauto. }
  destruct IH as (cs & E & S0).
  { intros g' Hg'. apply NE. now right. }
  { intros g' i Hg'. apply RG. now right. }
  rewrite EP. cbn [bind]. rewrite E. cbn [bind]. eexists. split; [reflexivity|].
  intros n. constructor; [|apply S0]. split; [|exact I]. cbn [c_peaks]. apply mapM_inv in EP.
  specialize (NE g (or_introl eq_refl)). intros ->. inversion EP. subst g. now apply NE.
Qed.

(** ** harmonics *)
Lemma combinations2_in {A} (l : list A) a b : In (a, b) (combinations2 l) -> In a l /\ In b l.
Proof.
  induction l as [|x l IH]; cbn; [tauto|]. intros H. apply in_app_iff in H as [H|H].
  - apply in_map_iff in H as (y & E & Hy). injection E as <- <-. auto.
  - destruct (IH H). auto.
Qed.

Lemma flag_harmonics_ok (test : peak N -> peak N -> res (bool * fraction)) (cs : list (cluster N)) :
  Forall (sound (length cs)) cs ->
  (forall c c' p p', In c cs -> In c' cs -> In p (c_peaks c) -> In p' (c_peaks c') -> exists r, test p p' = Ok r) ->
  exists cs', flag_harmonics N test cs = Ok cs' /\ length cs' = length cs /\ Forall (sound (length cs')) cs'.
Proof.
  intros S0 HT. set (n := length cs) in *. unfold flag_harmonics. rewrite Forall_forall in S0.
  destruct (by_snr_ok snd (combine (seq 0 n) cs)) as (order & EO).
  { intros [i c] H. apply in_combine_r in H. now apply S0. }
  fold n. rewrite EO. cbn [bind]. cbn zeta.
  destruct (by_snr_perm N snd _ _ EO) as [PM CT].
  assert (OI : forall x, In x order -> fst (fst x) < n /\ exists c, In c cs /\ In (snd x) (c_peaks c)).
  { intros [[i c] p] H. assert (I : In (i, c) (combine (seq 0 n) cs)).
    { apply (Permutation_in _ PM). apply in_map_iff. exists (i, c, p). auto. }
    split; [apply in_combine_l, in_seq in I; cbn; lia|]. exists c. split; [now apply in_combine_r in I|]. apply CT in H. now apply centre_in. }
  set (ord := map (fun x => (fst (fst x), snd x)) order).
  assert (OJ : forall i p, In (i, p) ord -> i < n /\ exists c, In c cs /\ In p (c_peaks c)).
  { intros i p H. apply in_map_iff in H as (x & E & Hx). injection E as <- <-. now apply OI. }
  clearbody ord.
  set (Inv := fun l : list (cluster N) => length l = n /\ Forall (sound n) l).
  destruct (foreach_total Inv (fun '(rank, i) cs => c <- rd cs i ;; wr cs i (Cl (c_peaks c) (Some rank) (c_parent c) (c_hfrac c)))
    (combine (seq 0 (length (map fst ord))) (map fst ord))) with (s := cs) as (cs1 & E1 & L1 & S1).
  { intros [rank i] l Hx [Ll Sl]. apply in_combine_r, in_map_iff in Hx as ([i' p] & E & Hx). cbn in E. subst i'. destruct (OJ i p Hx) as [Hi _].
    destruct (rd_ok l i) as (c & E & Ec); [lia|]. rewrite E. cbn [bind]. rewrite wr_ok by lia. eexists. split; [reflexivity|].
    split; [now rewrite upd_len|]. apply Forall_forall. rewrite Forall_forall in Sl. intros x Hx'. apply in_upd in Hx' as [->|Hx']; [|now apply Sl].
    apply nth_error_In in Ec. exact (Sl c Ec). }
  { split; [reflexivity|]. now apply Forall_forall. }
  unfold assign_ranks. rewrite E1. cbn [bind].
  destruct (foreach_total Inv (flag_pair N test) (combinations2 ord)) with (s := cs1) as (cs2 & E2 & L2 & S2).
  { intros [[f pf] [h ph]] l Hx [Ll Sl]. apply combinations2_in in Hx as [If Ih].
    destruct (OJ f pf If) as [Hf (c1 & Ic1 & Ip1)]. destruct (OJ h ph Ih) as [Hh (c2 & Ic2 & Ip2)].
    unfold flag_pair. destruct (rd_ok l f) as (F & E & _); [lia|]. destruct (rd_ok l h) as (H & E' & EH); [lia|].
    rewrite E, E'. cbn [bind]. destruct (_ || _); [exists l; split; [reflexivity|now split]|].
    destruct (HT c1 c2 pf ph Ic1 Ic2 Ip1 Ip2) as ([rel fr] & ->). cbn [bind].
    destruct rel; [|exists l; split; [reflexivity|now split]]. rewrite wr_ok by lia. eexists. split; [reflexivity|].
    split; [now rewrite upd_len|]. apply Forall_forall. rewrite Forall_forall in Sl. intros x Hx'. apply in_upd in Hx' as [->|Hx']; [|now apply Sl].
    apply nth_error_In in EH. split; [exact (proj1 (Sl H EH))|]. cbn [c_parent c_hfrac]. split; [exact Hf|discriminate]. }
  { split; assumption. }
  exists cs2. split; [exact E2|]. split; [exact L2|]. now rewrite L2.
Qed.

(** ** filters *)
Lemma filterM_ok {A} (f : A -> res bool) l : (forall x, In x l -> exists b, f x = Ok b) ->
  exists r, filterM f l = Ok r /\ incl r l.
Proof.
  induction l as [|x l IH]; intros Hf; [exists []; split; [reflexivity|apply incl_refl]|]. cbn.
  destruct (Hf x (or_introl eq_refl)) as [b ->]. cbn. destruct IH as (r & -> & Hr); [intros; apply Hf; now right|].
  cbn. eexists. split; [reflexivity|]. intros y. destruct b; [intros [<-|Hy]|intros Hy]; [now left|right; auto|right; auto].
Qed.

Lemma filters_ok (fl : filters N) (cs : list (cluster N)) :
  (forall c, In c cs -> c_peaks c <> [] /\ forall p, In p (c_peaks c) -> p_dm p <> None) ->
  exists kept, apply_candidate_filters N fl cs = Ok kept /\ forall i, In i kept -> i < length cs.
Proof.
  intros H. unfold apply_candidate_filters. set (ids := combine _ cs).
  assert (I0 : forall x, In x ids -> In (snd x) cs /\ fst x < length cs).
  { intros [i c] Hx. split; [now apply in_combine_r in Hx|apply in_combine_l, in_seq in Hx; cbn; lia]. }
  clearbody ids.
  match goal with |- exists k, bind ?b _ = _ /\ _ => assert (E1 : exists r, b = Ok r /\ incl r ids) end.
  { destruct (fl_dm_min fl) as [d|]; [|exists ids; split; [reflexivity|apply incl_refl]]. apply filterM_ok.
    intros x Hx. destruct (H _ (proj1 (I0 x Hx))) as [A B]. destruct (centre_ok _ A) as (p & E). rewrite E. cbn [bind].
    apply centre_in in E. specialize (B p E). destruct (p_dm p); [eauto|easy]. }
  destruct E1 as (ids1 & -> & I1). cbn [bind].
  match goal with |- exists k, bind ?b _ = _ /\ _ => assert (E2 : exists r, b = Ok r /\ incl r ids) end.
  { destruct (fl_snr_min fl) as [d|]; [|exists ids1; split; [reflexivity|exact I1]].
    destruct (filterM_ok (fun x => p <- centre (snd x) ;; Ok (n_leb d (p_snr p))) ids1) as (r & E & Ir).
    - intros x Hx. destruct (H _ (proj1 (I0 x (I1 x Hx)))) as [A _]. destruct (centre_ok _ A) as (p & ->). cbn [bind]. eauto.
    - exists r. split; [exact E|]. eapply incl_tran; eauto. }
  destruct E2 as (ids2 & -> & I2). cbn [bind]. cbn zeta.
  set (ids3 := match fl_remove_harmonics fl with Some true => _ | _ => _ end).
  assert (I3 : incl ids3 ids).
  { unfold ids3. destruct (fl_remove_harmonics fl) as [[|]|]; auto. intros x Hx. apply filter_In in Hx as [Hx _]. now apply I2. }
  clearbody ids3.
  match goal with |- exists k, bind ?b _ = _ /\ _ => assert (E4 : exists r, b = Ok r /\ incl r ids) end.
  { destruct (fl_max_number fl) as [m|]; [|eauto]. destruct (m =? 0)%Z; [eauto|].
    destruct (by_snr_ok snd ids3) as (s & E). { intros x Hx. exact (proj1 (H _ (proj1 (I0 x (I3 x Hx))))). }
    destruct (by_snr_perm N snd _ _ E) as [PM _]. rewrite E. cbn [bind]. eexists. split; [reflexivity|].
    intros x Hx. apply in_firstn in Hx. apply I3. now apply (Permutation_in _ PM). }
  destruct E4 as (ids4 & -> & I4). cbn [bind]. eexists. split; [reflexivity|].
  intros i Hi. apply in_map_iff in Hi as (x & <- & Hx). apply I0. now apply I4.
Qed.

(** ** candidates *)
Section Build.
Context (T : Type) (ts_length : T -> N) (ts_fold : T -> N -> Z -> option Z -> res (folded N)).
Context (get_filename : N -> res string) (load : string -> res T) (prep : T -> res T).

Lemma group_keys (s : list (cluster N * peak N)) : forall g k l,
  In (k, l) (fold_left (fun g x => group_add N (p_dm (snd x)) (fst x) g) s g) ->
  (exists l', In (k, l') g) \/ exists x, In x s /\ k = p_dm (snd x).
Proof.
  induction s as [|x s IH]; intros g k l H; cbn [fold_left] in H; [eauto|].
  destruct (IH _ _ _ H) as [(l' & Hl)|(y & Hy & E)]; [|right; exists y; split; [now right|exact E]].
  assert (GA : forall (g : list (option N * list (cluster N))) dm (a : cluster N), In (k, l') (group_add N dm a g) ->
    (exists l, In (k, l) g) \/ k = dm).
  { clear. induction g as [|[e m] g IH]; intros dm a H; cbn [group_add] in H.
    - destruct H as [H|[]]. injection H as <- _. now right.
    - destruct (dm_eqb N dm e).
      + destruct H as [H|H]; [injection H as <- _; left; exists m; now left|left; exists l'; now right].
      + destruct H as [H|H]; [injection H as <- <-; left; exists m; now left|].
        destruct (IH dm a H) as [(l & Hl)|E]; [left; exists l; now right|now right]. }
  destruct (GA _ _ _ Hl) as [R|E]; [now left|]. right. exists x. split; [now left|exact E].
Qed.

Lemma build_candidates_ok ranges (filtered : list (cluster N)) :
  (forall c, In c filtered -> c_peaks c <> [] /\ forall p, In p (c_peaks c) -> exists dm fname ts0 ts,
     p_dm p = Some dm /\ get_filename dm = Ok fname /\ load fname = Ok ts0 /\ prep ts0 = Ok ts /\
     forall P bins sub, ts_fold ts P bins sub <> UB /\ ts_fold ts P bins sub <> Loop) ->
  exists out, build_candidates N T ts_length ts_fold get_filename load prep ranges filtered [] = Ok out.
Proof.
  intros H. unfold build_candidates. destruct (by_snr_ok (fun c => c) filtered) as (s & ES); [intros c Hc; now apply H|].
  rewrite ES. cbn [bind]. destruct (by_snr_perm N _ _ _ ES) as [PM CT]. destruct (length s =? 0); [eauto|]. cbn zeta.
  set (groups := fold_left _ s []).
  assert (GK : forall k l, In (k, l) groups -> exists c p, In c filtered /\ In p (c_peaks c) /\ k = p_dm p).
  { intros k l Hk. destruct (group_keys s [] k l Hk) as [(l' & [])|([c p] & Hx & E)]. exists c, p.
    split; [apply (Permutation_in _ PM); apply in_map_iff; exists (c, p); auto|]. split; [apply CT in Hx; now apply centre_in|exact E]. }
  clearbody groups.
  match goal with |- context [foreach groups ?b []] => set (body := b) end.
  destruct (foreach_total (fun _ => True) body groups) with (s := @nil (candidate N T)) as (out & -> & _); [|exact I|cbn [bind]; eauto].
  intros [k cls] cands Hk _. destruct (GK k cls Hk) as (c & p & Ic & Ip & ->). destruct (H c Ic) as [_ H2].
  destruct (H2 p Ip) as (dm & fname & ts0 & ts & E1 & E2 & E3 & E4 & E5).
  unfold body. rewrite E1, E2. cbn [bind]. rewrite E3. cbn [bind]. rewrite E4. cbn [bind].
  apply foreach_total; [|exact I]. intros c' cs' _ _. unfold try_candidate, from_pipeline_output.
  destruct (centre c') as [p'| | |] eqn:Ec; try (unfold centre in Ec; destruct (c_peaks c'); discriminate).
  2:{ cbn [bind]. eauto. }
  cbn [bind]. unfold get_search_range, min_of, max_of, fold1. destruct (map rg_pmin _) as [|a la]; [cbn [bind]; eauto|].
  cbn [bind]. destruct (map rg_pmax _) as [|b lb]; [cbn [bind]; eauto|]. cbn [bind].
  match goal with |- context [bind ?o _] => assert (EO : exists rg, o = Ok rg) by (destruct (n_ltb _ _); [eauto|]; destruct (negb _); eauto) end.
  destruct EO as (rg & ->). cbn [bind]. destruct rg as [r|]; [|eauto].
  match goal with |- context [ts_fold ts ?a ?b ?c] => destruct (E5 a b c) as [U L]; destruct (ts_fold ts a b c); try congruence end; cbn [bind]; eauto.
Qed.
End Build.

Lemma cluster_table_ok (cs : list (cluster N)) : Forall (sound (length cs)) cs -> exists rows, cluster_table N cs = Ok rows.
Proof.
  intros S0. rewrite Forall_forall in S0. unfold cluster_table. destruct (by_snr_ok (fun c => c) cs) as (s & ES); [intros c Hc; now apply S0|].
  rewrite ES. cbn [bind]. destruct (by_snr_perm N _ _ _ ES) as [PM CT]. apply mapM_total_in. intros [c p] Hc.
  assert (Ic : In c cs) by (apply (Permutation_in _ PM); apply in_map_iff; exists (c, p); auto).
  destruct (S0 c Ic) as [NE PA]. unfold cluster_row. cbn [fst]. destruct (centre_ok c NE) as (b & ->). cbn [bind].
  destruct (c_parent c) as [i|]; [|eauto]. destruct PA as [Hi HF]. destruct (rd_ok cs i Hi) as (F & -> & _). cbn [bind].
  destruct (c_hfrac c) as [[a d]|]; [eauto|easy].
Qed.

(** ** the analysis of the peaks *)
Lemma analyse_ok (alloc : nat -> list N) argsort as_fraction load (cf : config N) (d : dmiter N) (peaks : list (peak N)) :
  (forall p q, In p peaks -> In q peaks -> exists r, harmonic_test N as_fraction cf d p q = Ok r) ->
  (forall p, In p peaks -> exists dm fname ts0 ts,
     p_dm p = Some dm /\ get_filename N d dm = Ok fname /\ load fname = Ok ts0 /\
     prepare_ts N alloc (cf_rmed_width cf) (cf_rmed_minpts cf) ts0 = Ok ts /\
     forall P bins sub, series_fold N alloc ts P bins sub <> UB /\ series_fold N alloc ts P bins sub <> Loop) ->
  exists cs cands rows, analyse N alloc argsort as_fraction load cf d peaks = Ok (cs, cands) /\ cluster_table N cs = Ok rows.
Proof.
  intros HT HP. unfold analyse.
  assert (C0 : exists cs, (if length peaks =? 0 then Ok [] else cluster_peaks N argsort (cf_radius cf) (tobs_median N d) peaks) = Ok cs /\
    Forall (sound (length cs)) cs /\ concat (map c_peaks cs) = peaks).
  { destruct (Nat.eqb_spec (length peaks) 0) as [L|L].
    - exists []. split; [reflexivity|]. split; [constructor|]. destruct peaks; [reflexivity|discriminate].
    - destruct (cluster_peaks_ok argsort (cf_radius cf) (tobs_median N d) peaks) as (cs & E & S0). exists cs.
      split; [exact E|]. split; [apply S0|]. now apply cluster_peaks_keeps in E. }
  destruct C0 as (cs0 & -> & S0 & K0). cbn [bind].
  assert (IN : forall c p, In c cs0 -> In p (c_peaks c) -> In p peaks).
  { intros c p Hc Hp. rewrite <- K0. apply in_concat. exists (c_peaks c). split; [now apply in_map|exact Hp]. }
  assert (C1 : exists cs, (if length cs0 =? 0 then Ok cs0 else flag_harmonics N (harmonic_test N as_fraction cf d) cs0) = Ok cs /\
    Forall (sound (length cs)) cs /\ map c_peaks cs = map c_peaks cs0).
  { destruct (length cs0 =? 0); [eauto|].
    destruct (flag_harmonics_ok (harmonic_test N as_fraction cf d) cs0 S0) as (cs & E & _ & S1); [eauto|].
    exists cs. split; [exact E|]. split; [exact S1|]. now apply flag_harmonics_keeps in E. }
  destruct C1 as (cs & -> & S1 & K1). cbn [bind].
  assert (IN1 : forall c p, In c cs -> In p (c_peaks c) -> In p peaks).
  { intros c p Hc Hp. rewrite <- K0, <- K1. apply in_concat. exists (c_peaks c). split; [now apply in_map|exact Hp]. }
  pose proof S1 as S1'. rewrite Forall_forall in S1'.
  destruct (filters_ok (cf_filters cf) cs) as (kept & -> & KI).
  { intros c Hc. split; [now apply S1'|]. intros p Hp. destruct (HP p (IN1 c p Hc Hp)) as (dm & ? & ? & ? & -> & _). discriminate. }
  cbn [bind]. destruct (mapM_total_in (rd cs) kept) as (fl & EF).
  { intros i Hi. destruct (rd_ok cs i (KI i Hi)) as (a & E & _). eauto. }
  rewrite EF. cbn [bind].
  assert (IF : forall c, In c fl -> In c cs).
  { apply mapM_inv in EF. clear - EF. induction EF as [|i x kept fl E _ IH]; [intros c []|]. intros c [<-|Hc]; [|auto].
    apply rd_inv in E. eapply nth_error_In; eauto. }
  destruct (build_candidates_ok (series N) se_length (series_fold N alloc) (get_filename N d) load
    (prepare_ts N alloc (cf_rmed_width cf) (cf_rmed_minpts cf)) (ranges_of cf) fl) as (cands & ->).
  { intros c Hc. split; [now apply S1', IF|]. intros p Hp. apply HP. eauto. }
  cbn [bind]. destruct (cluster_table_ok cs S1) as (rows & ER). eauto 6.
Qed.

(** ** the DMs *)
Lemma select_loop_ok (dms radii : list N) : forall fuel i, length dms <= i + fuel -> 1 <= fuel ->
  exists l, select_loop N dms radii fuel i = Ok l /\ incl l dms.
Proof.
  assert (LF : forall i n j, i + 1 <= largest_from N dms radii i n j).
  { intros i n. induction n as [|n IH]; intros j; cbn; [lia|]. destruct (n_ltb _ _); [lia|apply IH]. }
  induction fuel as [|fuel IH]; intros i Hl H1; [lia|]. cbn [select_loop]. set (j := largest_in_range N dms radii i).
  assert (Hj : i + 1 <= j) by apply LF.
  destruct (Nat.leb_spec (length dms) j); [exists []; split; [reflexivity|intros x []]|].
  destruct (IH j) as (l & -> & I); [lia|lia|]. cbn [bind]. eexists. split; [reflexivity|].
  intros x [<-|Hx]; [now apply nth_In|auto].
Qed.

Lemma select_dms_ok (trial_dms : list N) start stop fmin fmax nchans wmin :
  let avail := filter (fun x => n_leb start x && n_leb x stop) trial_dms in
  (avail = [] -> select_dms N trial_dms start stop fmin fmax nchans wmin = Err ValueError) /\
  (avail <> [] -> exists sel, select_dms N trial_dms start stop fmin fmax nchans wmin = Ok sel /\ sel <> [] /\ incl sel avail).
Proof.
  intros avail. unfold select_dms. fold avail. pose proof (sorted_asc_any n_ltb avail) as PM.
  split; intros H.
  - rewrite H in *. cbn. reflexivity.
  - destruct (sorted_asc n_ltb avail) as [|d0 ds] eqn:E; [apply Permutation_sym, Permutation_nil in PM; contradiction|].
    destruct (select_loop_ok (d0 :: ds) (map (dm_radius N fmin fmax nchans wmin) (d0 :: ds)) (S (length (d0 :: ds))) 0) as (l & EL & I);
      [lia|lia|]. cbn zeta. rewrite EL. cbn [bind]. eexists. split; [reflexivity|]. split; [discriminate|].
    intros x Hx. apply (Permutation_in _ (Permutation_sym PM)). destruct Hx as [<-|Hx]; [now left|auto].
Qed.
End Any.
