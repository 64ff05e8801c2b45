(** C45, C47, C59: clustering, harmonic flagging and filtering in the pipeline. *)
From Coq Require Import String List Arith ZArith Bool Lia Reals Lra Permutation Sorted.
From Flocq Require Import Core.
From Verif Require Import Base.Result Base.Buf Base.Num Model.Cluster Model.Peaks Model.Harmonic
  Model.Folding Model.DmIter Model.Pipeline Spec.Friends Proof.Cluster Proof.Pipeline
  Props.Cluster Props.Peaks.
Import ListNotations.
Local Open Scope R_scope.

(** ** C59 *)
Lemma mapM_ok {A B} (f : A -> res B) (g : A -> B) l : (forall a, In a l -> f a = Ok (g a)) -> mapM f l = Ok (map g l).
Proof.
  induction l as [|a l IH]; intros H; [reflexivity|]. cbn. rewrite H by now left. cbn [bind].
  rewrite IH by (intros; apply H; now right). reflexivity.
Qed.

(** peaks as find_peaks makes them *)
Definition wave (p : peak numR) : Prop := 0 < p_freq p /\ p_period p = 1 / p_freq p.

Lemma periods_decreasing (ps : list (peak numR)) : Forall wave ps ->
  StronglySorted (fun p q : peak numR => p_period p <= p_period q) ps -> decreasing (map p_freq ps).
Proof.
  intros W S. induction S as [|p ps S IH F]; [constructor|]. inversion W as [|? ? W1 W2]; subst.
  cbn. constructor; [now apply IH|]. apply Forall_map. rewrite Forall_forall in *. intros q Hq.
  specialize (F q Hq). specialize (W2 q Hq). destruct W1 as [A1 B1], W2 as [A2 B2]. rewrite B1, B2 in F.
  unfold Rdiv in F. rewrite !Rmult_1_l in F. apply Rle_ge. destruct (Rle_or_lt (p_freq q) (p_freq p)) as [|L]; auto.
  apply Rinv_lt_contravar in L; [|nra]. lra.
Qed.

(** The clusters are groups of positions in the list of peaks.  Two peaks share a cluster
    exactly if a chain of peaks links them, each within [radius / tmed] of the next in frequency. *)
Theorem cluster_peaks_correct :
  forall argsort (radius tmed : R) (peaks : list (peak numR)),
  Forall wave peaks -> StronglySorted (fun p q : peak numR => p_period p <= p_period q) peaks ->
  exists (groups : list (list nat)) (cs : list (cluster numR)),
    cluster_peaks numR argsort radius tmed peaks = Ok cs /\
    concat groups = seq 0 (length peaks) /\ (forall g, In g groups -> g <> []) /\
    (forall i j, (i < length peaks)%nat -> (j < length peaks)%nat ->
       (together groups i j <-> friends (fun k => (k < length peaks)%nat)
          (fun k => nth k (map p_freq peaks) 0) (radius / tmed) i j)) /\
    Forall2 (fun g c => Forall2 (fun i p => nth_error peaks i = Some p) g (c_peaks c) /\
       c_rank c = None /\ c_parent c = None /\ c_hfrac c = None) groups cs /\
    concat (map c_peaks cs) = peaks.
Proof.
  intros argsort radius tmed peaks W S. unfold cluster_peaks.
  destruct (cluster1d_friends argsort_R (map p_freq peaks) (radius / tmed) true argsort_R_sorts)
    as (_ & NE & FR & SQ & _); [intros _; right; now apply periods_decreasing|].
  change (cluster1d numR argsort (map p_freq peaks) (@o_div numR n_dbl radius tmed) true)
    with (cluster1d numR argsort_R (map p_freq peaks) (radius / tmed) true).
  specialize (SQ eq_refl). set (groups := cluster1d _ _ _ _ _) in *. clearbody groups.
  rewrite !map_length in *.
  assert (RD : exists cs, mapM (fun g => ps <- mapM (rd peaks) g ;; Ok (Cl ps None None None)) groups = Ok cs /\
    Forall2 (fun g c => Forall2 (fun i p => nth_error peaks i = Some p) g (c_peaks c) /\
       c_rank c = None /\ c_parent c = None /\ c_hfrac c = None) groups cs).
  { assert (IN : forall i, In i (concat groups) -> (i < length peaks)%nat) by (intros i; rewrite SQ, in_seq; lia).
    clear - IN. induction groups as [|g gs IH]; [exists []; split; [reflexivity|constructor]|].
    destruct IH as (cs & E & F). { intros i Hi. apply IN. cbn. apply in_app_iff. now right. }
    assert (G : exists ps, mapM (rd peaks) g = Ok ps /\ Forall2 (fun i p => nth_error peaks i = Some p) g ps).
    { assert (IG : forall i, In i g -> (i < length peaks)%nat) by (intros i Hi; apply IN; cbn; apply in_app_iff; now left).
      clear - IG. induction g as [|i g IH]; [exists []; split; [reflexivity|constructor]|].
      destruct IH as (ps & E & F); [intros j Hj; apply IG; now right|].
      destruct (rd_ok peaks i) as (p & E1 & E2); [apply IG; now left|].
      exists (p :: ps). cbn. rewrite E1. cbn [bind]. rewrite E. split; [reflexivity|]. now constructor. }
    destruct G as (ps & E1 & F1). exists (Cl ps None None None :: cs). cbn [mapM]. rewrite E1. cbn [bind]. rewrite E.
    split; [reflexivity|]. constructor; auto. }
  destruct RD as (cs & E & F). exists groups, cs. split; [exact E|]. split; [exact SQ|]. split; [exact NE|].
  split; [exact FR|]. split; [exact F|].
  assert (FF : Forall2 (fun i p => nth_error peaks i = Some p) (concat groups) (concat (map c_peaks cs))).
  { clear - F. induction F as [|g c gs cs [H _] F IH]; [constructor|]. cbn. now apply Forall2_app. }
  rewrite SQ in FF. clear - FF.
  assert (G : forall (l pre : list (peak numR)) o, pre ++ l = peaks -> length pre = o -> forall out,
    Forall2 (fun i p => nth_error peaks i = Some p) (seq o (length l)) out -> out = l).
  { induction l as [|p l IH]; intros pre o EQ EL out H; cbn in H; inversion H as [|? q ? out' Hq Ho]; subst; auto.
    rewrite nth_error_app2, Nat.sub_diag in Hq by lia. cbn in Hq. injection Hq as <-.
    f_equal. apply (IH (pre ++ [p]) (S (length pre))); auto.
    - now rewrite <- app_assoc.
    - rewrite app_length. cbn. lia. }
  exact (G peaks [] 0%nat eq_refl eq_refl _ FF).
Qed.
Print Assumptions cluster_peaks_correct.

Definition pk (f s d : R) : peak numR := Peak (N := numR) (1 / f) f 1 (1 / 10) 0 0 s (Some d).

(** three peaks, the first two linked *)
Example cluster_peaks_correct_used :
  let peaks := [pk 4 9 0; pk 3 8 0; pk 1 10 0] in
  Forall wave peaks /\ StronglySorted (fun p q : peak numR => p_period p <= p_period q) peaks.
Proof.
  intros peaks. split.
  - repeat constructor; cbn; lra.
  - repeat constructor; cbn; lra.
Qed.

(** ** C45 *)
Definition fresh (c : cluster numR) : Prop := c_peaks c <> [] /\ c_parent c = None /\ c_hfrac c = None.

Lemma combine_seq_sorted {A} (l : list A) o :
  StronglySorted (fun x y => (fst x < fst y)%nat) (combine (seq o (length l)) l).
Proof.
  revert o. induction l as [|a l IH]; intros o; cbn; [constructor|]. constructor; [apply IH|].
  apply Forall_forall. intros [i b] H. apply in_combine_l, in_seq in H. cbn. lia.
Qed.

Lemma combine_seq_in {A} (l : list A) o i a : In (i, a) (combine (seq o (length l)) l) <->
  (o <= i)%nat /\ nth_error l (i - o) = Some a.
Proof.
  revert o. induction l as [|b l IH]; intros o; cbn.
  - split; [easy|]. intros [_ H]. now destruct (i - o)%nat.
  - rewrite IH. split.
    + intros [E|[H1 H2]].
      * injection E as <- <-. split; auto. now rewrite Nat.sub_diag.
      * split; [lia|]. replace (i - o)%nat with (S (i - S o)) by lia. exact H2.
    + intros [H1 H2]. destruct (Nat.eq_dec i o) as [->|N].
      * left. rewrite Nat.sub_diag in H2. cbn in H2. congruence.
      * right. split; [lia|]. replace (i - o)%nat with (S (i - S o)) in H2 by lia. exact H2.
Qed.

Lemma combine_seq_fst {A} (l : list A) o : map fst (combine (seq o (length l)) l) = seq o (length l).
Proof. revert o. induction l as [|a l IH]; intros o; cbn; [reflexivity|]. now rewrite IH. Qed.

Lemma assign_ranks_spec (order : list nat) (cs : list (cluster numR)) :
  NoDup order -> (forall i, In i order -> (i < length cs)%nat) ->
  exists cs', assign_ranks numR order cs = Ok cs' /\ length cs' = length cs /\
    (forall i c, nth_error cs i = Some c -> exists c', nth_error cs' i = Some c' /\
       c_peaks c' = c_peaks c /\ c_parent c' = c_parent c /\ c_hfrac c' = c_hfrac c /\
       forall k, nth_error order k = Some i -> c_rank c' = Some k).
Proof.
  intros ND IN. unfold assign_ranks.
  assert (G : forall l o (cs : list (cluster numR)), NoDup l -> (forall i, In i l -> (i < length cs)%nat) ->
    exists cs', foreach (combine (seq o (length l)) l)
      (fun '(rank, i) (cs : list (cluster numR)) => c <- rd cs i ;; wr cs i (Cl (c_peaks c) (Some rank) (c_parent c) (c_hfrac c))) cs = Ok cs' /\
      length cs' = length cs /\
      (forall i c, nth_error cs i = Some c -> exists c', nth_error cs' i = Some c' /\
       c_peaks c' = c_peaks c /\ c_parent c' = c_parent c /\ c_hfrac c' = c_hfrac c /\
       (~ In i l -> c_rank c' = c_rank c) /\
       forall k, nth_error l k = Some i -> c_rank c' = Some (o + k)%nat)).
  { clear. induction l as [|i l IH]; intros o cs ND IN.
    - exists cs. split; [reflexivity|]. split; [reflexivity|]. intros i c Hc. exists c. repeat split; auto.
      intros k Hk. now destruct k.
    - inversion ND as [|? ? N1 N2]; subst. cbn [length seq combine foreach].
      assert (Li : (i < length cs)%nat) by (apply IN; now left).
      destruct (rd_ok cs i Li) as (c & E1 & E2). rewrite E1. cbn [bind]. rewrite wr_ok by exact Li. cbn [bind].
      set (c1 := Cl _ _ _ _). destruct (IH (S o) (upd cs i c1) N2) as (cs' & E & L & H).
      { intros j Hj. rewrite upd_length. apply IN. now right. }
      exists cs'. split; [exact E|]. split; [now rewrite L, upd_length|].
      intros j d Hd. destruct (Nat.eq_dec j i) as [->|NJ].
      + destruct (H i c1) as (c' & H1 & H2 & H3 & H4 & H5 & H6); [now apply upd_same|].
        exists c'. replace d with c by congruence. repeat split; auto.
        * intros C. exfalso. apply C. now left.
        * intros k Hk. destruct k as [|k].
          -- rewrite H5 by exact N1. cbn. now rewrite Nat.add_0_r.
          -- exfalso. apply N1. cbn in Hk. now apply nth_error_In in Hk.
      + destruct (H j d) as (c' & H1 & H2 & H3 & H4 & H5 & H6); [now rewrite upd_other by auto|].
        exists c'. repeat split; auto.
        * intros C. apply H5. intros C'. apply C. now right.
        * intros k Hk. destruct k as [|k]; [cbn in Hk; congruence|]. rewrite (H6 k Hk). f_equal. lia. }
  destruct (G order 0%nat cs ND IN) as (cs' & E & L & H). exists cs'. split; [exact E|]. split; [exact L|].
  intros i c Hc. destruct (H i c Hc) as (c' & H1 & H2 & H3 & H4 & _ & H6). exists c'. repeat split; auto.
Qed.

(** The cluster of rank [k] is at position [order k]; ranks follow decreasing S/N of the
    brightest member, ties in the order of the list.  A cluster is flagged exactly if a cluster
    of smaller rank that is itself not flagged is related to it, and then its parent is the
    first such. *)
Theorem flag_harmonics_correct :
  forall (test : peak numR -> peak numR -> res (bool * fraction)) (cs cs' : list (cluster numR)),
  Forall fresh cs ->
  flag_harmonics numR test cs = Ok cs' ->
  length cs' = length cs /\
  exists order : list nat,
    Permutation order (seq 0 (length cs)) /\
    let ranked k i c p := nth_error order k = Some i /\ nth_error cs' i = Some c /\ first_brightest (c_peaks c) p in
    let unrelated p q := exists fr, test p q = Ok (false, fr) in
    (forall k i, nth_error order k = Some i -> exists c c' p, nth_error cs i = Some c /\ ranked k i c' p /\
       c_peaks c' = c_peaks c /\ c_rank c' = Some k) /\
    (forall k l i j c d p q, ranked k i c p -> ranked l j d q -> (k < l)%nat ->
       p_snr q < p_snr p \/ p_snr p = p_snr q /\ (i < j)%nat) /\
    (forall k i c p, ranked k i c p ->
       match c_parent c with
       | Some f => exists l d q fr, (l < k)%nat /\ ranked l f d q /\ c_parent d = None /\
           test q p = Ok (true, fr) /\ c_hfrac c = Some fr /\
           forall l' f' d' q', (l' < l)%nat -> ranked l' f' d' q' -> c_parent d' = None -> unrelated q' p
       | None => c_hfrac c = None /\
           forall l f d q, (l < k)%nat -> ranked l f d q -> c_parent d = None -> unrelated q p
       end).
Proof.
  intros test cs cs' FR H. unfold flag_harmonics in H.
  destruct (by_snr numR snd (combine (seq 0 (length cs)) cs)) as [s| | |] eqn:ES; try discriminate. cbn [bind] in H.
  destruct (by_snr_spec snd _ _ _ (combine_seq_sorted cs 0) ES) as (PM & SS & CT).
  set (ord := map (fun x => (fst (fst x), snd x)) s) in *.
  assert (FO : map fst ord = map fst (map fst s)) by (unfold ord; rewrite !map_map; reflexivity).
  assert (PO : Permutation (map fst ord) (seq 0 (length cs))).
  { rewrite FO, PM, combine_seq_fst. reflexivity. }
  assert (NDO : NoDup (map fst ord)) by (rewrite PO; apply seq_NoDup).
  assert (INO : forall i, In i (map fst ord) -> (i < length cs)%nat).
  { intros i Hi. rewrite PO in Hi. apply in_seq in Hi. lia. }
  destruct (assign_ranks_spec (map fst ord) cs NDO INO) as (cs1 & E1 & L1 & R1). rewrite E1 in H. cbn [bind] in H.
  assert (SO : forall k i p, nth_error ord k = Some (i, p) -> exists c, nth_error cs i = Some c /\ first_brightest (c_peaks c) p).
  { intros k i p Hk. apply nth_error_In in Hk. unfold ord in Hk. apply in_map_iff in Hk as ([[i' c] p'] & E & Hin).
    cbn in E. injection E as <- <-. exists c. split.
    - assert (In (i', c) (map fst s)) by (change (i', c) with (fst ((i', c), p')); now apply in_map).
      rewrite PM in H0. apply combine_seq_in in H0 as [_ H0]. now rewrite Nat.sub_0_r in H0.
    - apply centre_spec. exact (CT _ _ Hin). }
  assert (SD : StronglySorted (fun x y : nat * peak numR => p_snr (snd y) < p_snr (snd x) \/ p_snr (snd x) = p_snr (snd y) /\ (fst x < fst y)%nat) ord).
  { unfold ord. clear - SS. induction SS as [|x s S IH F]; cbn; constructor; auto. apply Forall_map. exact F. }
  assert (I0 : Inv test ord cs1 cs1 0 1).
  { split; [reflexivity|]. split; [intros i c Hc; exists c; auto|]. split.
    - intros k Hk. rewrite L1. apply INO. apply in_map. now apply nth_In.
    - intros k Hk. unfold status.
      assert (NP : par ord cs1 k = None /\ hf ord cs1 k = None).
      { unfold par, hf. set (i := fst (nth k ord nowhere)).
        assert (Li : (i < length cs)%nat) by (apply INO; unfold i; apply in_map; now apply nth_In).
        destruct (rd_ok cs i Li) as (c & _ & Ec). destruct (R1 i c Ec) as (c' & -> & _ & -> & -> & _).
        rewrite Forall_forall in FR. apply nth_error_In in Ec. destruct (FR c Ec) as (_ & ? & ?). auto. }
      destruct NP as [-> ->]. split; auto. intros i Hi. exfalso. revert Hi. unfold lim.
      destruct (Nat.leb_spec k 0); [lia|]. destruct (Nat.ltb_spec k 1); lia. }
  change ord with (skipn 0 ord) in H.
  apply (flag_outer test ord NDO cs1 (length ord) 0 cs1 cs' eq_refl I0) in H.
  destruct H as (L2 & P2 & _ & ST). split; [congruence|]. exists (map fst ord). split; [exact PO|]. intros ranked unrelated.
  assert (NM : forall k i, nth_error (map fst ord) k = Some i -> exists p, nth_error ord k = Some (i, p)).
  { intros k i Hk. destruct (nth_error ord k) as [[i' p]|] eqn:E.
    - rewrite (map_nth_error fst k ord E) in Hk. injection Hk as <-. eauto.
    - apply nth_error_None in E. assert (nth_error (map fst ord) k <> None) by congruence.
      apply nth_error_Some in H. rewrite map_length in H. lia. }
  assert (K : forall k i, nth_error (map fst ord) k = Some i -> exists c c' p,
    nth_error cs i = Some c /\ ranked k i c' p /\ c_peaks c' = c_peaks c /\ c_rank c' = Some k /\
    nth_error ord k = Some (i, p)).
  { intros k i Hk. destruct (NM k i Hk) as (p & Ep). destruct (SO k i p Ep) as (c & Ec & Bc).
    destruct (R1 i c Ec) as (c1 & Ec1 & Q1 & _ & _ & Rk). destruct (P2 i c1 Ec1) as (c2 & Ec2 & Q2 & Q3).
    exists c, c2, p. repeat split; auto; try congruence.
    - rewrite Q3. now apply Rk. }
  assert (RK : forall k i c p, ranked k i c p -> nth_error ord k = Some (i, p) /\ (k < length ord)%nat /\
     fst (nth k ord nowhere) = i /\ snd (nth k ord nowhere) = p /\ par ord cs' k = c_parent c /\ hf ord cs' k = c_hfrac c).
  { intros k i c p (H1 & H2 & H3). destruct (K k i H1) as (c0 & c' & p' & _ & (_ & H2' & H3') & _ & _ & HO).
    replace c' with c in * by congruence. assert (p' = p) by (eapply first_brightest_fun; eauto). subst p'.
    assert (LK : (k < length ord)%nat) by (apply nth_error_Some; congruence).
    assert (EN : nth k ord nowhere = (i, p)) by (now apply nth_error_nth).
    unfold par, hf. rewrite EN. cbn [fst snd]. rewrite H2. repeat split; auto. }
  assert (KR : forall l, (l < length ord)%nat -> exists c, ranked l (fst (nth l ord nowhere)) c (snd (nth l ord nowhere))).
  { intros l Hl. destruct (K l (fst (nth l ord nowhere))) as (c & c' & p & _ & Rk & _ & _ & HO).
    - apply map_nth_error with (d := nth l ord nowhere). now apply nth_error_nth'.
    - exists c'. apply (nth_error_nth ord l nowhere) in HO. rewrite HO in *. exact Rk. }
  split; [|split].
  - intros k i Hk. destruct (K k i Hk) as (c & c' & p & H1 & H2 & H3 & H4 & _). exists c, c', p. auto.
  - intros k l i j c d p q Hk Hl HL. apply RK in Hk as (Hk & _). apply RK in Hl as (Hl & _).
    clearbody ord. clear - SD Hk Hl HL. revert k l Hk Hl HL. induction SD as [|x s S IH F]; intros k l Hk Hl HL; [now destruct k|].
    destruct l as [|l]; [lia|]. cbn in Hl. destruct k as [|k].
    + cbn in Hk. injection Hk as ->. apply nth_error_In in Hl. rewrite Forall_forall in F. exact (F _ Hl).
    + cbn in Hk. apply (IH k l); auto. lia.
  - intros k i c p Hr. destruct (RK _ _ _ _ Hr) as (Ho & Lk & Fi & Sp & Pc & Hc).
    specialize (ST k Lk). unfold status in ST. rewrite Pc, Hc, Sp in ST.
    assert (LM : lim (length ord) (S (length ord)) k = k).
    { unfold lim. destruct (Nat.leb_spec k (length ord)); lia. }
    rewrite LM in ST. destruct (c_parent c) as [f|].
    + destruct ST as (l & fr & H1 & H2 & H3 & H4 & H5 & H6). destruct (KR l ltac:(lia)) as (d & Rl).
      exists l, d, (snd (nth l ord nowhere)), fr. split; [exact H1|]. split; [rewrite H2; exact Rl|].
      destruct (RK _ _ _ _ Rl) as (_ & _ & _ & _ & Pd & _). split; [congruence|]. split; [exact H5|]. split; [exact H4|].
      intros l' f' d' q' Hl' Rl' Pd'. destruct (RK _ _ _ _ Rl') as (_ & _ & _ & <- & P3 & _).
      apply H6; auto. congruence.
    + destruct ST as [H1 H2]. split; [exact H1|]. intros l f d q Hl Rl Pd.
      destruct (RK _ _ _ _ Rl) as (_ & _ & _ & <- & P3 & _). apply H2; auto. congruence.
Qed.
Print Assumptions flag_harmonics_correct.

(** It returns whenever the tests of the brightest peaks do. *)
Theorem flag_harmonics_total :
  forall (test : peak numR -> peak numR -> res (bool * fraction)) (cs : list (cluster numR)),
  Forall fresh cs ->
  (forall c d p q, In c cs -> In d cs -> first_brightest (c_peaks c) p -> first_brightest (c_peaks d) q ->
     exists r, test p q = Ok r) ->
  exists cs', flag_harmonics numR test cs = Ok cs'.
Proof.
  intros test cs FR HT. unfold flag_harmonics.
  destruct (by_snr_total snd (combine (seq 0 (length cs)) cs)) as [s ES].
  { intros [i c] Hin. apply in_combine_r in Hin. rewrite Forall_forall in FR. now destruct (FR c Hin). }
  destruct (by_snr_spec snd _ _ _ (combine_seq_sorted cs 0) ES) as (PM & _ & CT).
  rewrite ES. cbn [bind]. set (ord := map (fun x => (fst (fst x), snd x)) s).
  assert (PO : Permutation (map fst ord) (seq 0 (length cs))).
  { unfold ord. rewrite map_map. cbn. rewrite <- (map_map fst fst), PM, combine_seq_fst. reflexivity. }
  destruct (assign_ranks_spec (map fst ord) cs) as (cs1 & E1 & L1 & _).
  { rewrite PO. apply seq_NoDup. }
  { intros i Hi. rewrite PO in Hi. apply in_seq in Hi. lia. }
  rewrite E1. cbn [bind].
  assert (OT : forall x y, In x ord -> In y ord -> exists r, test (snd x) (snd y) = Ok r).
  { assert (K : forall x, In x ord -> exists c, In c cs /\ first_brightest (c_peaks c) (snd x)).
    { intros x Hx. unfold ord in Hx. apply in_map_iff in Hx as ([[i c] p] & <- & Hx). cbn [snd]. exists c. split.
      - apply (in_map fst) in Hx. apply (Permutation_in _ PM) in Hx. now apply in_combine_r in Hx.
      - apply centre_spec. exact (CT (i, c) p Hx). }
    intros x y Hx Hy. destruct (K x Hx) as (c & Hc & Bc). destruct (K y Hy) as (d & Hd & Bd).
    exact (HT c d _ _ Hc Hd Bc Bd). }
  assert (G : forall l cs, (forall x, In x l -> (fst (fst x) < length cs)%nat /\ (fst (snd x) < length cs)%nat /\
      exists r, test (snd (fst x)) (snd (snd x)) = Ok r) ->
    exists cs', foreach l (flag_pair numR test) cs = Ok cs').
  { clear. induction l as [|[[f pf] [h ph]] l IH]; intros cs IN; [eexists; reflexivity|]. cbn [foreach].
    assert (exists cs1, flag_pair numR test (f, pf, (h, ph)) cs = Ok cs1 /\ length cs1 = length cs) as (cs1 & -> & L).
    { destruct (IN _ (or_introl eq_refl)) as (Lf & Lh & r & Er). cbn in Lf, Lh, Er. unfold flag_pair.
      destruct (rd_ok cs f Lf) as (F & -> & _). destruct (rd_ok cs h Lh) as (H & -> & _). cbn [bind].
      destruct (_ || _); [eauto|]. rewrite Er. destruct r as [[|] fr]; cbn [bind]; [|eauto].
      rewrite wr_ok by exact Lh. eexists. split; [reflexivity|]. apply upd_length. }
    cbn [bind]. apply IH. intros x Hx. rewrite L. apply IN. now right. }
  apply G. rewrite L1. intros [x y] Hx.
  assert (CI : forall (A : Type) (l : list A) a b, In (a, b) (combinations2 l) -> In a l /\ In b l).
  { clear. induction l as [|c l IH]; intros a b H; [destruct H|]. cbn in H. apply in_app_iff in H as [H|H].
    - apply in_map_iff in H as (d & E & Hd). injection E as <- <-. split; [now left|now right].
    - destruct (IH a b H). split; now right. }
  apply CI in Hx as [Hx Hy]. cbn [fst snd]. split; [|split; [|now apply OT]].
  - apply (in_map fst) in Hx. rewrite PO in Hx. apply in_seq in Hx. lia.
  - apply (in_map fst) in Hy. rewrite PO in Hy. apply in_seq in Hy. lia.
Qed.
Print Assumptions flag_harmonics_total.

(** consequences named in C45: the brightest cluster is never flagged and a parent is never
    itself flagged *)
Corollary flag_harmonics_depth :
  forall test cs cs', Forall fresh cs -> flag_harmonics numR test cs = Ok cs' ->
  forall c, In c cs' ->
    (c_rank c = Some 0%nat -> c_parent c = None) /\
    forall f, c_parent c = Some f -> exists d, nth_error cs' f = Some d /\ c_parent d = None /\
      match c_rank d, c_rank c with Some a, Some b => (a < b)%nat | _, _ => False end.
Proof.
  intros test cs cs' FR H c Hc. destruct (flag_harmonics_correct test cs cs' FR H) as (L & order & PO & K & _ & ST).
  apply In_nth_error in Hc as [i Hi].
  assert (Hi' : (i < length cs)%nat) by (rewrite <- L; apply nth_error_Some; congruence).
  assert (exists k, nth_error order k = Some i) as [k Hk].
  { apply In_nth_error. rewrite PO. apply in_seq. lia. }
  destruct (K k i Hk) as (c0 & c' & p & _ & RK & _ & E2). destruct RK as (R1 & R2 & R3).
  rewrite Hi in R2. injection R2 as <-. specialize (ST k i c p (conj R1 (conj Hi R3))). rewrite E2. split.
  - intros E. injection E as ->. destruct (c_parent c); auto. destruct ST as (l & d & q & fr & Hl & _). lia.
  - intros f Ef. rewrite Ef in ST. destruct ST as (l & d & q & fr & Hl & (D1 & D2 & D3) & Pd & _).
    exists d. split; [exact D2|]. split; [exact Pd|]. destruct (K l f D1) as (d0 & d' & q' & _ & (_ & D2' & _) & _ & E3).
    replace d' with d in * by congruence. rewrite E3. exact Hl.
Qed.
Print Assumptions flag_harmonics_depth.

(** three clusters; the second and third brightest are harmonics of the brightest, and the third is
    also related to the second *)
Definition ex_clusters : list (cluster numR) :=
  [Cl [pk 3 6 0] None None None; Cl [pk 1 10 0; pk 1 9 0] None None None; Cl [pk 6 4 0] None None None].
Example flag_harmonics_correct_used :
  Forall fresh ex_clusters /\ exists cs', flag_harmonics numR (fun _ _ => Ok (true, (1, 1)%Z)) ex_clusters = Ok cs'.
Proof.
  assert (FR : Forall fresh ex_clusters) by (repeat constructor; discriminate).
  split; [exact FR|]. apply flag_harmonics_total; auto. intros; eauto.
Qed.

(** ** C47 *)
Lemma and_iff_compat_l' (A B C : Prop) : (A -> (B <-> C)) -> (A /\ B <-> A /\ C).
Proof. tauto. Qed.

Definition passes (fl : filters numR) (c : cluster numR) (p : peak numR) : Prop :=
  (forall d, fl_dm_min fl = Some d -> exists v, p_dm p = Some v /\ d <= v) /\
  (forall s, fl_snr_min fl = Some s -> s <= p_snr p) /\
  (fl_remove_harmonics fl = Some true -> c_parent c = None).

Lemma filterM_spec {A} (f : A -> res bool) l r : filterM f l = Ok r ->
  exists b : A -> bool, (forall a, In a l -> f a = Ok (b a)) /\ r = filter b l.
Proof.
  intros H.
  exists (fun a => match f a with Ok b => b | _ => false end). revert r H.
  induction l as [|a l IH]; cbn; intros r H; [injection H as <-; split; [easy|reflexivity]|].
  destruct (f a) as [b| | |] eqn:E; try discriminate. cbn in H.
  destruct (filterM f l) as [r'| | |]; try discriminate. cbn in H. injection H as <-.
  destruct (IH r' eq_refl) as [I1 I2]. split.
  - intros c [<-|Hc]; [now rewrite E|now apply I1].
  - rewrite I2. reflexivity.
Qed.

Lemma filter_sorted {A} (Q : A -> A -> Prop) f l : StronglySorted Q l -> StronglySorted Q (filter f l).
Proof.
  induction 1 as [|a l S IH F]; cbn; [constructor|]. destruct (f a); auto. constructor; auto.
  apply Forall_forall. intros b Hb. apply filter_In in Hb as [Hb _]. rewrite Forall_forall in F. auto.
Qed.

Lemma firstn_sorted {A} (Q : A -> A -> Prop) n (l : list A) : StronglySorted Q l ->
  StronglySorted Q (firstn n l) /\ forall a b, In a (firstn n l) -> In b (skipn n l) -> Q a b.
Proof.
  intros S. revert n. induction S as [|a l S IH F]; intros n.
  - rewrite firstn_nil, skipn_nil. split; [constructor|easy].
  - destruct n as [|n]; [cbn; split; [constructor|easy]|]. cbn [firstn skipn].
    destruct (IH n) as [I1 I2]. rewrite Forall_forall in F. split.
    + constructor; auto. apply Forall_forall. intros b Hb. apply F. rewrite <- (firstn_skipn n l).
      apply in_app_iff. now left.
    + intros b c [<-|Hb] Hc; [|now apply I2]. apply F. rewrite <- (firstn_skipn n l). apply in_app_iff. now right.
Qed.

(** [kept] are positions.  Without a cap: all clusters that pass, in their order; with one: the
    brightest ones that pass, brightest first, ties in their order. *)
Theorem candidate_filters_correct :
  forall (fl : filters numR) (cs : list (cluster numR)) (kept : list nat),
  (forall n, fl_max_number fl = Some n -> (0 < n)%Z) ->
  Forall (fun c => c_peaks c <> []) cs ->
  apply_candidate_filters numR fl cs = Ok kept ->
  let good i p := exists c, nth_error cs i = Some c /\ first_brightest (c_peaks c) p /\ passes fl c p in
  let before i j := forall p q, good i p -> good j q -> p_snr q < p_snr p \/ p_snr p = p_snr q /\ (i < j)%nat in
  (forall i, In i kept -> exists p, good i p) /\
  match fl_max_number fl with
  | None => StronglySorted lt kept /\ forall i p, good i p -> In i kept
  | Some n => StronglySorted before kept /\ NoDup kept /\ (Z.of_nat (length kept) <= n)%Z /\
      forall j q, good j q -> ~ In j kept -> Z.of_nat (length kept) = n /\ forall i, In i kept -> before i j
  end.
Proof.
  intros fl cs kept HN NE H good before. unfold apply_candidate_filters in H.
  set (ids := combine (seq 0 (length cs)) cs) in *.
  assert (S0 : StronglySorted (fun x y : nat * cluster numR => (fst x < fst y)%nat) ids) by apply combine_seq_sorted.
  assert (I0 : forall i c, In (i, c) ids <-> nth_error cs i = Some c).
  { intros i c. unfold ids. rewrite combine_seq_in, Nat.sub_0_r. split; [tauto|]. split; [lia|auto]. }
  assert (CE : forall i c, In (i, c) ids -> exists p, centre c = Ok p).
  { intros i c Hc. apply centre_total. rewrite Forall_forall in NE. apply NE. apply I0 in Hc. now apply nth_error_In in Hc. }
  match type of H with bind ?b _ = _ => destruct b as [ids1| | |] eqn:E1; try discriminate end. cbn [bind] in H.
  assert (I1 : StronglySorted (fun x y : nat * cluster numR => (fst x < fst y)%nat) ids1 /\ (forall x, In x ids1 -> In x ids) /\
    forall i c p, centre c = Ok p -> (In (i, c) ids1 <-> In (i, c) ids /\ forall d, fl_dm_min fl = Some d -> exists v, p_dm p = Some v /\ d <= v)).
  { destruct (fl_dm_min fl) as [d|].
    - apply filterM_spec in E1 as (b & B1 & ->). split; [now apply filter_sorted|]. split; [intros x Hx; now apply filter_In in Hx|].
      intros i c p Hp. rewrite filter_In. apply and_iff_compat_l'.
      intros Hin. specialize (B1 _ Hin). cbn in B1. rewrite Hp in B1. cbn [bind] in B1.
      destruct (p_dm p) as [v|]; [|discriminate]. injection B1 as <-. cbn. split.
      + intros L d' E. injection E as <-. exists v. split; auto. now destruct (Rle_bool_spec d v).
      + intros G. destruct (G d eq_refl) as (v' & E & L). injection E as <-. now apply Rle_bool_true.
    - injection E1 as <-. split; auto. split; auto. intros i c p _. split; [intros; split; [auto|intros ? [=]]|tauto]. }
  destruct I1 as (S1 & U1 & I1). clear E1.
  match type of H with bind ?b _ = _ => destruct b as [ids2| | |] eqn:E2; try discriminate end. cbn [bind] in H.
  assert (I2 : StronglySorted (fun x y : nat * cluster numR => (fst x < fst y)%nat) ids2 /\ (forall x, In x ids2 -> In x ids1) /\
    forall i c p, centre c = Ok p -> (In (i, c) ids2 <-> In (i, c) ids1 /\ forall s, fl_snr_min fl = Some s -> s <= p_snr p)).
  { destruct (fl_snr_min fl) as [d|].
    - apply filterM_spec in E2 as (b & B1 & ->). split; [now apply filter_sorted|]. split; [intros x Hx; now apply filter_In in Hx|].
      intros i c p Hp. rewrite filter_In. apply and_iff_compat_l'.
      intros Hin. specialize (B1 _ Hin). cbn in B1. rewrite Hp in B1. cbn [bind] in B1. injection B1 as <-. split.
      + intros L d' E. injection E as <-. now destruct (Rle_bool_spec d (p_snr p)).
      + intros G. apply Rle_bool_true. now apply G.
    - injection E2 as <-. split; auto. split; auto. intros i c p _. split; [intros; split; [auto|intros ? [=]]|tauto]. }
  destruct I2 as (S2 & U2 & I2). clear E2.
  set (ids3 := match fl_remove_harmonics fl with Some true => filter (fun x => negb (is_harmonic (snd x))) ids2 | _ => ids2 end) in H.
  assert (I3 : StronglySorted (fun x y : nat * cluster numR => (fst x < fst y)%nat) ids3 /\
    forall i c, In (i, c) ids3 <-> In (i, c) ids2 /\ (fl_remove_harmonics fl = Some true -> c_parent c = None)).
  { unfold ids3. destruct (fl_remove_harmonics fl) as [[|]|].
    - split; [now apply filter_sorted|]. intros i c. rewrite filter_In. cbn. apply and_iff_compat_l.
      unfold is_harmonic. destruct (c_parent c); cbn; split; auto; try discriminate. intros G. specialize (G eq_refl). discriminate.
    - split; auto. intros i c. split; [intros; split; [auto|intros [=]]|tauto].
    - split; auto. intros i c. split; [intros; split; [auto|intros [=]]|tauto]. }
  destruct I3 as [S3 I3]. clearbody ids3.
  assert (GD : forall i c p, centre c = Ok p -> (In (i, c) ids3 <-> nth_error cs i = Some c /\ passes fl c p)).
  { intros i c p Hp. rewrite I3, (I2 i c p Hp), (I1 i c p Hp), I0. unfold passes. tauto. }
  assert (GI : forall i, (exists c, In (i, c) ids3) <-> exists p, good i p).
  { intros i. split.
    - intros (c & Hc). destruct (CE i c) as (p & Hp). { apply I3 in Hc as [Hc _]. auto. }
      destruct (proj1 (GD i c p Hp) Hc) as [Hc1 Hc2]. exists p, c. split; auto. split; auto. now apply centre_spec.
    - intros (p & c & Hc & Hp & Pa). exists c. apply centre_spec in Hp. apply (GD i c p Hp). auto. }
  destruct (fl_max_number fl) as [n|] eqn:EN.
  - specialize (HN n eq_refl). rewrite (proj2 (Z.eqb_neq n 0)) in H by lia.
    destruct (by_snr numR snd ids3) as [s| | |] eqn:ES; try discriminate. cbn [bind] in H. injection H as <-.
    rewrite (proj2 (Z.ltb_ge n 0)) by lia.
    destruct (by_snr_spec snd _ _ _ S3 ES) as (PM & SS & CT).
    set (L := map (fun x => fst (fst x)) s).
    replace (map fst (firstn (Z.to_nat n) (map fst s))) with (firstn (Z.to_nat n) L)
      by (unfold L; rewrite <- (map_map fst fst), firstn_map; reflexivity).
    assert (IL : forall i, In i L <-> exists p, good i p).
    { intros i. rewrite <- GI. unfold L. rewrite <- (map_map fst fst). split.
      - intros Hi. apply in_map_iff in Hi as ([i' c] & <- & Hc). exists c. rewrite PM in Hc. exact Hc.
      - intros (c & Hc). rewrite <- PM in Hc. change i with (fst (i, c)). now apply in_map. }
    assert (ND : NoDup L).
    { unfold L. rewrite <- (map_map fst fst). apply Permutation_map with (f := fst) in PM. rewrite PM.
      clear - S3. induction S3 as [|x l S IH F]; cbn; constructor; auto.
      intros Hin. apply in_map_iff in Hin as (y & E & Hy). rewrite Forall_forall in F. specialize (F y Hy). lia. }
    assert (SB : StronglySorted before L).
    { assert (CS : forall i c p0 p, In ((i, c), p0) s -> good i p -> p = p0).
      { intros i c p0 p Hin (c' & Hc' & Hp & _). pose proof (CT _ _ Hin) as C. cbn in C.
        assert (In (i, c) ids3) as Hc. { rewrite <- PM. change (i, c) with (fst (i, c, p0)). now apply in_map. }
        apply (GD i c p0 C) in Hc as [Hc _]. replace c' with c in * by congruence.
        apply centre_spec in C. eapply first_brightest_fun; eauto. }
      unfold L. clear - SS CS. induction SS as [|[[i c] p0] s S IH F]; cbn; constructor.
      - apply IH. intros i' c' p' q' Hin. exact (CS i' c' p' q' (or_intror Hin)).
      - apply Forall_map. rewrite Forall_forall in *. intros [[j d] q0] Hy p q Gp Gq. specialize (F _ Hy). cbn in F.
        rewrite (CS i c p0 p (or_introl eq_refl) Gp), (CS j d q0 q (or_intror Hy) Gq). exact F. }
    destruct (firstn_sorted before (Z.to_nat n) L SB) as [F1 F2].
    split; [|split; [exact F1|split; [|split]]].
    + intros i Hi. apply IL. rewrite <- (firstn_skipn (Z.to_nat n) L). apply in_app_iff. now left.
    + rewrite <- (firstn_skipn (Z.to_nat n) L) in ND. clear - ND.
      induction (firstn (Z.to_nat n) L) as [|a l IH]; [constructor|]. cbn in ND. inversion ND as [|? ? N1 N2]; subst.
      constructor; auto. intros Ha. apply N1. apply in_app_iff. now left.
    + rewrite firstn_length. lia.
    + intros j q Gq Hj.
      assert (Hs : In j (skipn (Z.to_nat n) L)).
      { assert (In j L) as Hin by (apply IL; eauto). rewrite <- (firstn_skipn (Z.to_nat n) L) in Hin.
        apply in_app_iff in Hin as [|]; tauto. }
      split; [|intros i Hi; now apply F2].
      assert (length (skipn (Z.to_nat n) L) <> 0)%nat by (now destruct (skipn (Z.to_nat n) L)).
      rewrite skipn_length in H. rewrite firstn_length. lia.
  - injection H as <-. split.
    + intros i Hi. apply in_map_iff in Hi as ([i' c] & <- & Hc). apply GI. exists c. exact Hc.
    + split.
      * clear - S3. induction S3 as [|x l S IH F]; cbn; constructor; auto. apply Forall_map. exact F.
      * intros i p Hg. assert (exists p, good i p) as G by eauto. apply GI in G as (c & Hc).
        change i with (fst (i, c)). now apply in_map.
Qed.
Print Assumptions candidate_filters_correct.

(** It fails only by comparing an unknown DM. *)
Theorem candidate_filters_total :
  forall (fl : filters numR) (cs : list (cluster numR)),
  Forall (fun c => c_peaks c <> []) cs ->
  (fl_dm_min fl <> None -> forall c p, In c cs -> first_brightest (c_peaks c) p -> p_dm p <> None) ->
  exists kept, apply_candidate_filters numR fl cs = Ok kept.
Proof.
  intros fl cs NE HD. unfold apply_candidate_filters. set (ids := combine _ cs).
  assert (I0 : forall x, In x ids -> In (snd x) cs) by (intros [i c] Hx; apply in_combine_r in Hx; exact Hx).
  clearbody ids. rewrite Forall_forall in NE.
  assert (FT : forall (f : nat * cluster numR -> res bool) l, (forall x, In x l -> exists b, f x = Ok b) ->
    exists r, filterM f l = Ok r /\ forall x, In x r -> In x l).
  { clear. induction l as [|x l IH]; intros Hf; [exists []; split; [reflexivity|auto]|]. cbn.
    destruct (Hf x (or_introl eq_refl)) as [b ->]. cbn. destruct IH as (r & -> & Hr); [intros; apply Hf; now right|].
    cbn. eexists. split; [reflexivity|]. intros y. destruct b; [intros [<-|Hy]; auto|auto]. }
  match goal with |- exists k, bind ?b _ = _ => assert (E1 : exists r, b = Ok r /\ forall x, In x r -> In (snd x) cs) end.
  { destruct (fl_dm_min fl) as [d|]; [|eauto].
    destruct (FT (fun x => p <- centre (snd x) ;; match p_dm p with Some v => Ok (n_leb d v) | None => Err TypeError end) ids)
      as (r & E & Hr); [|exists r; split; [exact E|auto]].
    intros x Hx. destruct (centre_total (snd x)) as [p Hp]; [auto|]. rewrite Hp. cbn [bind].
    apply centre_spec in Hp. specialize (HD ltac:(discriminate) _ p (I0 x Hx) Hp). destruct (p_dm p); [eauto|easy]. }
  destruct E1 as (ids1 & -> & I1). cbn [bind].
  match goal with |- exists k, bind ?b _ = _ => assert (E2 : exists r, b = Ok r /\ forall x, In x r -> In (snd x) cs) end.
  { destruct (fl_snr_min fl) as [d|]; [|eauto].
    destruct (FT (fun x => p <- centre (snd x) ;; Ok (n_leb d (p_snr p))) ids1)
      as (r & E & Hr); [|exists r; split; [exact E|auto]].
    intros x Hx. destruct (centre_total (snd x)) as [p Hp]; [auto|]. rewrite Hp. cbn [bind]. eauto. }
  destruct E2 as (ids2 & -> & I2). cbn [bind]. clear ids ids1 I0 I1.
  set (ids3 := match fl_remove_harmonics fl with Some true => _ | _ => _ end).
  assert (I3 : forall x, In x ids3 -> In (snd x) cs).
  { intros x Hx. apply I2. unfold ids3 in Hx. destruct (fl_remove_harmonics fl) as [[|]|]; auto. now apply filter_In in Hx. }
  clearbody ids3. destruct (fl_max_number fl) as [n|]; [|eexists; reflexivity].
  destruct (n =? 0)%Z; [eexists; reflexivity|].
  destruct (by_snr_total snd ids3) as [s ->]; [auto|]. eexists. reflexivity.
Qed.
Print Assumptions candidate_filters_total.

Example candidate_filters_correct_used :
  let fl := Filters (N := numR) (Some (-1)) (Some 5) (Some true) (Some 1%Z) in
  (forall n, fl_max_number fl = Some n -> (0 < n)%Z) /\ Forall (fun c => c_peaks c <> []) ex_clusters /\
  exists kept, apply_candidate_filters numR fl ex_clusters = Ok kept.
Proof.
  intros fl. split; [intros n E; injection E as <-; lia|].
  assert (NE : Forall (fun c => c_peaks c <> []) ex_clusters) by (repeat constructor; discriminate).
  split; [exact NE|]. apply candidate_filters_total; auto.
  intros _ c p Hc (l1 & l2 & E & _).
  assert (In p (c_peaks c)) as Hp by (rewrite E; apply in_app_iff; right; now left). clear E.
  cbn in Hc. destruct Hc as [<-|[<-|[<-|[]]]]; cbn in Hp; repeat (destruct Hp as [<-|Hp]; [discriminate|]); destruct Hp.
Qed.

(** nothing configured keeps everything *)
Theorem candidate_filters_none : forall cs : list (cluster numR),
  apply_candidate_filters numR (Filters (N := numR) None None None None) cs = Ok (seq 0 (length cs)).
Proof. intros cs. cbn. now rewrite combine_seq_fst. Qed.
Print Assumptions candidate_filters_none.
