From Coq Require Import String List Arith ZArith Bool Lia Reals Lra Permutation Sorted.
From Flocq Require Import Core.
From Verif Require Import Base.Result Base.Buf Base.Num Model.Cluster Model.Peaks Model.Harmonic
  Model.Folding Model.DmIter Model.Pipeline Proof.Cluster Props.Peaks.
Import ListNotations.
Local Open Scope R_scope.

(** the first of the brightest peaks *)
Definition first_brightest (ps : list (peak numR)) (p : peak numR) : Prop :=
  exists l1 l2, ps = l1 ++ p :: l2 /\ (forall q, In q l1 -> p_snr q < p_snr p) /\
    forall q, In q l2 -> p_snr q <= p_snr p.

Lemma first_brightest_fun ps p q : first_brightest ps p -> first_brightest ps q -> p = q.
Proof.
  intros (l1 & l2 & -> & A & B) (m1 & m2 & E & C & D).
  revert m1 E C. induction l1 as [|a l1 IH]; intros m1 E C; destruct m1 as [|b m1]; cbn in E.
  - now injection E.
  - injection E as <- ->. specialize (C p (or_introl eq_refl)).
    specialize (B q). rewrite in_app_iff in B. specialize (B (or_intror (or_introl eq_refl))). lra.
  - injection E as -> <-. specialize (A q (or_introl eq_refl)).
    specialize (D p). rewrite in_app_iff in D. specialize (D (or_intror (or_introl eq_refl))). lra.
  - injection E as -> E. apply (IH (fun q Hq => A q (or_intror Hq)) m1 E). intros r Hr. apply C. now right.
Qed.

Lemma first_max_first {A} (key : A -> R) a l : exists l1 l2,
  a :: l = l1 ++ first_max (fun x y => Rlt_bool (key x) (key y)) a l :: l2 /\
  (forall q, In q l1 -> key q < key (first_max (fun x y => Rlt_bool (key x) (key y)) a l)) /\
  forall q, In q l2 -> key q <= key (first_max (fun x y => Rlt_bool (key x) (key y)) a l).
Proof.
  unfold first_max. revert a. induction l as [|b l IH]; intros a.
  - exists [], []. cbn. repeat split; easy.
  - cbn [fold_left]. destruct (Rlt_bool_spec (key a) (key b)) as [L|L].
    + destruct (IH b) as (l1 & l2 & E & A1 & A2). set (m := fold_left _ l b) in *.
      exists (a :: l1), l2. split; [cbn; now f_equal|]. split; [|exact A2].
      intros q [<-|Hq]; [|now apply A1]. assert (key b <= key m); [|lra].
      assert (In b (l1 ++ m :: l2)) as H by (rewrite <- E; now left). apply in_app_iff in H as [H|[H|H]].
      * left. now apply A1.
      * rewrite H. lra.
      * now apply A2.
    + destruct (IH a) as (l1 & l2 & E & A1 & A2). set (m := fold_left _ l a) in *.
      destruct l1 as [|c l1]; cbn in E; injection E as E1 E2.
      * exists [], (b :: l2). rewrite <- E1 in *. split; [cbn; now rewrite E2|]. split; [easy|].
        intros q [<-|Hq]; [exact L|now apply A2].
      * subst c. exists (a :: b :: l1), l2. split; [cbn; now rewrite E2|]. split; [|exact A2].
        assert (key a < key m) by (apply A1; now left).
        intros q [<-|[<-|Hq]]; [auto|lra|apply A1; now right].
Qed.

Lemma centre_spec (c : cluster numR) p : centre c = Ok p <-> first_brightest (c_peaks c) p.
Proof.
  assert (G : forall q, centre c = Ok q -> first_brightest (c_peaks c) q).
  { unfold centre. intros q. destruct (c_peaks c) as [|q0 ps] eqn:E; intros H; [discriminate|]. injection H as <-.
    unfold snr_lt. exact (first_max_first (fun q : peak numR => p_snr q) q0 ps). }
  split; auto. intros H. unfold centre. destruct (c_peaks c) as [|q ps] eqn:E.
  - destruct H as (l1 & l2 & H & _). now destruct l1.
  - f_equal. eapply first_brightest_fun; [|exact H]. apply G. unfold centre. now rewrite E.
Qed.

Lemma sorted_desc_stable {A} (key : A -> R) (B : A -> A -> Prop) l : StronglySorted B l ->
  StronglySorted (fun x y => key y < key x \/ key x = key y /\ B x y)
    (sorted_desc (fun x y => Rlt_bool (key x) (key y)) l).
Proof.
  induction 1 as [|a l S IH F]; [constructor|]. cbn [sorted_desc fold_right].
  change (fold_right _ [] l) with (sorted_desc (fun x y => Rlt_bool (key x) (key y)) l).
  pose proof (sorted_desc_perm key l) as P. set (s := sorted_desc _ l) in *. clearbody s.
  assert (F' : Forall (B a) s) by (rewrite <- P; exact F). clear F P S l.
  induction IH as [|b s S IH G]; cbn; [repeat constructor|].
  inversion F' as [|? ? B1 B2]; subst.
  destruct (Rlt_bool_spec (key a) (key b)) as [L|L].
  - constructor; [now apply IH|]. rewrite <- (insert_desc_perm key a s). constructor; [now left|exact G].
  - constructor; [now constructor|]. constructor.
    + destruct L; [now left|right; auto].
    + rewrite Forall_forall in G, B2 |- *. intros c Hc. specialize (G c Hc). specialize (B2 c Hc).
      destruct L as [L|L], G as [G|[G _]]; try (left; lra). right. split; [lra|auto].
Qed.

Lemma centre_total (c : cluster numR) : c_peaks c <> [] -> exists p, centre c = Ok p.
Proof. unfold centre. destruct (c_peaks c); [easy|eauto]. Qed.

Section BySnr.
Context {A : Type} (get : A -> cluster numR).

Lemma by_snr_spec (B : A -> A -> Prop) l s : StronglySorted B l -> by_snr numR get l = Ok s ->
  Permutation (map fst s) l /\
  StronglySorted (fun x y : A * peak numR => p_snr (snd y) < p_snr (snd x) \/
     p_snr (snd x) = p_snr (snd y) /\ B (fst x) (fst y)) s /\
  forall a p, In (a, p) s -> centre (get a) = Ok p.
Proof.
  intros SB. unfold by_snr. destruct (mapM _ l) as [ks| | |] eqn:E; try discriminate. cbn [bind]. intros H. injection H as <-.
  apply mapM_inv in E.
  assert (K : map fst ks = l /\ forall a p, In (a, p) ks -> centre (get a) = Ok p).
  { clear SB. induction E as [|a x l ks Ea E IH]; [split; [reflexivity|easy]|].
    destruct (centre (get a)) as [p| | |] eqn:Ec; try discriminate. cbn in Ea. injection Ea as <-.
    destruct IH as [IH1 IH2]. split; [cbn; now rewrite IH1|].
    intros b q [Hb|Hb]; [injection Hb as <- <-; exact Ec|now apply IH2]. }
  destruct K as [K1 K2]. unfold snr_lt.
  pose proof (sorted_desc_perm (fun x : A * peak numR => p_snr (snd x)) ks) as P.
  assert (SK : StronglySorted (fun x y => B (fst x) (fst y)) ks).
  { rewrite <- K1 in SB. clear - SB. induction ks as [|k ks IH]; [constructor|]. cbn in SB.
    inversion SB as [|? ? S1 S2]; subst. constructor; [now apply IH|]. rewrite Forall_map in S2. exact S2. }
  pose proof (sorted_desc_stable (fun x : A * peak numR => p_snr (snd x)) _ ks SK) as S.
  split; [|split].
  - rewrite <- K1. apply Permutation_map. symmetry. exact P.
  - exact S.
  - intros a p H. apply K2. eapply Permutation_in; [symmetry; exact P|exact H].
Qed.

Lemma by_snr_total l : (forall a, In a l -> c_peaks (get a) <> []) -> exists s, by_snr numR get l = Ok s.
Proof.
  intros H. unfold by_snr.
  assert (exists ks, mapM (fun a => p <- centre (get a) ;; Ok (a, p)) l = Ok ks) as [ks ->].
  { induction l as [|a l IH]; [eexists; reflexivity|].
    destruct (centre_total (get a)) as [p Ep]; [apply H; now left|]. destruct IH as [ks E].
    - intros b Hb. apply H. now right.
    - cbn. rewrite Ep. cbn [bind]. rewrite E. eexists. reflexivity. }
  eexists. reflexivity.
Qed.
End BySnr.

Lemma foreach_app {X S} (l1 l2 : list X) (body : X -> S -> res S) s :
  foreach (l1 ++ l2) body s = (s' <- foreach l1 body s ;; foreach l2 body s').
Proof.
  revert s. induction l1 as [|x l1 IH]; intros s; [reflexivity|]. cbn.
  destruct (body x s); cbn; auto.
Qed.

(** ** flagging harmonics *)
Definition nowhere : nat * peak numR := (0%nat, Peak (N := numR) 0 0 0%Z 0 0 0 0 None).

Section Flag.
Context (test : peak numR -> peak numR -> res (bool * fraction)).
Context (order : list (nat * peak numR)).
Hypothesis ND : NoDup (map fst order).
Notation o k := (fst (nth k order nowhere)).
Notation pk k := (snd (nth k order nowhere)).
Notation n := (length order).

Definition par (cs : list (cluster numR)) (k : nat) : option nat :=
  match nth_error cs (o k) with Some c => c_parent c | None => None end.
Definition hf (cs : list (cluster numR)) (k : nat) : option fraction :=
  match nth_error cs (o k) with Some c => c_hfrac c | None => None end.

(** what the clusters ranked before [b] say about the cluster of rank [k] *)
Definition status (cs : list (cluster numR)) (b k : nat) : Prop :=
  match par cs k with
  | Some f => exists i fr, (i < b)%nat /\ f = o i /\ par cs i = None /\ hf cs k = Some fr /\
      test (pk i) (pk k) = Ok (true, fr) /\
      forall i', (i' < i)%nat -> par cs i' = None -> exists fr', test (pk i') (pk k) = Ok (false, fr')
  | None => hf cs k = None /\ forall i, (i < b)%nat -> par cs i = None -> exists fr', test (pk i) (pk k) = Ok (false, fr')
  end.
Definition lim (m j k : nat) : nat := if (k <=? m)%nat then k else if (k <? j)%nat then S m else m.

Definition Inv (cs0 cs : list (cluster numR)) (m j : nat) : Prop :=
  length cs = length cs0 /\
  (forall i c, nth_error cs0 i = Some c -> exists c', nth_error cs i = Some c' /\
     c_peaks c' = c_peaks c /\ c_rank c' = c_rank c) /\
  (forall k, (k < n)%nat -> (o k < length cs)%nat) /\
  forall k, (k < n)%nat -> status cs (lim m j k) k.

Lemma o_inj i k : (i < n)%nat -> (k < n)%nat -> o i = o k -> i = k.
Proof.
  intros Hi Hk E. eapply NoDup_nth with (l := map fst order) (d := 0%nat); eauto;
    try (rewrite map_length; assumption).
  rewrite <- !(map_nth fst) in E. exact E.
Qed.

Lemma flag_step cs0 cs cs' m j : (m < j)%nat -> (j < n)%nat ->
  Inv cs0 cs m j -> flag_pair numR test (nth m order nowhere,
                                         nth j order nowhere) cs = Ok cs' ->
  Inv cs0 cs' m (S j).
Proof.
  intros Hm Hj (L & P & IN & ST) H. unfold flag_pair in H.
  destruct (nth m order _) as [f pf] eqn:Em. destruct (nth j order _) as [h ph] eqn:Ej.
  assert (Of : o m = f) by now rewrite Em. assert (Oh : o j = h) by now rewrite Ej.
  assert (Pf : pk m = pf) by now rewrite Em. assert (Ph : pk j = ph) by now rewrite Ej.
  pose proof (IN m ltac:(lia)) as Lf. pose proof (IN j ltac:(lia)) as Lh. rewrite Of in Lf. rewrite Oh in Lh.
  destruct (rd_ok cs f Lf) as (F & RF & NF). destruct (rd_ok cs h Lh) as (H' & RH & NH).
  rewrite RF, RH in H. cbn [bind] in H.
  assert (PF : par cs m = c_parent F) by (unfold par; now rewrite Of, NF).
  assert (PH : par cs j = c_parent H') by (unfold par; now rewrite Oh, NH).
  assert (HH : hf cs j = c_hfrac H') by (unfold hf; now rewrite Oh, NH).
  assert (LJ : lim m j j = m) by (unfold lim; rewrite (proj2 (Nat.leb_gt j m)) by lia; now rewrite Nat.ltb_irrefl).
  assert (LJ' : lim m (S j) j = S m) by (unfold lim; rewrite (proj2 (Nat.leb_gt j m)) by lia;
     rewrite (proj2 (Nat.ltb_lt j (S j))) by lia; reflexivity).
  assert (LO : forall k, k <> j -> lim m (S j) k = lim m j k).
  { intros k Hk. unfold lim. destruct (Nat.leb_spec k m); auto.
    destruct (Nat.ltb_spec k (S j)), (Nat.ltb_spec k j); auto; lia. }
  destruct (is_harmonic F || is_harmonic H') eqn:EH.
  - injection H as <-. split; [exact L|]. split; [exact P|]. split; [exact IN|].
    intros k Hk. destruct (Nat.eq_dec k j) as [->|NK]; [|rewrite LO by assumption; now apply ST].
    specialize (ST j Hj). rewrite LJ in ST. rewrite LJ'. unfold status in *.
    destruct (par cs j) as [f'|] eqn:Ep.
    + destruct ST as (i & fr & H1 & H2). exists i, fr. split; [lia|auto].
    + destruct ST as [S1 ST]. split; auto. intros i Hi Pi. destruct (Nat.eq_dec i m) as [->|]; [|apply ST; auto; lia].
      exfalso. unfold is_harmonic in EH. rewrite <- PF, <- PH, Pi in EH. discriminate.
  - apply orb_false_iff in EH as [E1 E2].
    assert (PF0 : par cs m = None) by (rewrite PF; unfold is_harmonic in E1; now destruct (c_parent F)).
    assert (PH0 : par cs j = None) by (rewrite PH; unfold is_harmonic in E2; now destruct (c_parent H')).
    destruct (test pf ph) as [[rel fr]| | |] eqn:ET; try discriminate. cbn [bind] in H.
    pose proof (ST j Hj) as STj. rewrite LJ in STj. unfold status in STj. rewrite PH0 in STj. destruct STj as [HN STj].
    destruct rel.
    + rewrite wr_ok in H by exact Lh. injection H as <-.
      set (cs' := upd cs h _).
      assert (N1 : nth_error cs' h = Some (Cl (c_peaks H') (c_rank H') (Some f) (Some fr))) by (now apply upd_same).
      assert (NO : forall i, i <> h -> nth_error cs' i = nth_error cs i) by (intros i Hi; apply upd_other; auto).
      assert (PO : forall k, (k < n)%nat -> k <> j -> par cs' k = par cs k /\ hf cs' k = hf cs k).
      { intros k Hk NK. unfold par, hf. rewrite NO; auto. rewrite <- Oh. intros C. apply NK. now apply o_inj. }
      split; [unfold cs'; rewrite upd_length; exact L|].
      split; [|split].
      * intros i c Hc. destruct (P i c Hc) as (c' & H1 & H2 & H3). destruct (Nat.eq_dec i h) as [->|NI].
        -- rewrite N1. eexists. split; [reflexivity|]. cbn. rewrite H1 in NH. injection NH as ->. auto.
        -- rewrite NO by auto. eauto.
      * intros k Hk. unfold cs'. rewrite upd_length. now apply IN.
      * intros k Hk. destruct (Nat.eq_dec k j) as [->|NK].
        -- rewrite LJ'. unfold status.
           replace (par cs' j) with (Some f) by (unfold par; now rewrite Oh, N1).
           exists m, fr. split; [lia|]. split; [auto|]. split; [rewrite (proj1 (PO m ltac:(lia) ltac:(lia))); exact PF0|].
           split; [unfold hf; now rewrite Oh, N1|]. split; [now rewrite Pf, Ph|].
           intros i' Hi' Pi'. rewrite (proj1 (PO i' ltac:(lia) ltac:(lia))) in Pi'. now apply STj.
        -- rewrite LO by assumption. specialize (ST k Hk). unfold status in *.
           destruct (PO k Hk NK) as [-> ->].
           assert (LK : forall i, (i < lim m j k)%nat -> (i <= m)%nat).
           { intros i. unfold lim. destruct (Nat.leb_spec k m); [lia|]. destruct (k <? j)%nat; lia. }
           destruct (par cs k) as [f'|].
           ++ destruct ST as (i & fr' & H1 & H2 & H3 & H4 & H5 & H6). exists i, fr'. specialize (LK i H1).
              repeat split; auto; [rewrite (proj1 (PO i ltac:(lia) ltac:(lia))); auto|].
              intros i' Hi' Pi'. apply H6; auto. rewrite (proj1 (PO i' ltac:(lia) ltac:(lia))) in Pi'. exact Pi'.
           ++ destruct ST as [S1 ST]. split; auto. intros i Hi Pi. specialize (LK i Hi). apply ST; auto.
              rewrite (proj1 (PO i ltac:(lia) ltac:(lia))) in Pi. exact Pi.
    + injection H as <-. split; [exact L|]. split; [exact P|]. split; [exact IN|].
      intros k Hk. destruct (Nat.eq_dec k j) as [->|NK]; [|rewrite LO by assumption; now apply ST].
      rewrite LJ'. unfold status. rewrite PH0. split; auto. intros i Hi Pi.
      destruct (Nat.eq_dec i m) as [->|]; [|apply STj; auto; lia].
      exists fr. now rewrite Pf, Ph.
Qed.

Lemma skipn_nth {A} (l : list A) j d : (j < length l)%nat -> skipn j l = nth j l d :: skipn (S j) l.
Proof.
  revert j. induction l as [|a l IH]; intros j Hj; [cbn in Hj; lia|]. destruct j; [reflexivity|].
  cbn in Hj. cbn [skipn nth]. rewrite (IH j) by lia. reflexivity.
Qed.

Lemma flag_inner cs0 m : (m < n)%nat -> forall d j cs cs', (j + d = n)%nat -> (m < j)%nat ->
  Inv cs0 cs m j ->
  foreach (map (pair (nth m order nowhere)) (skipn j order))
    (flag_pair numR test) cs = Ok cs' -> Inv cs0 cs' m n.
Proof.
  intros Hm. induction d as [|d IH]; intros j cs cs' E L I H.
  - replace (skipn j order) with (@nil (nat * peak numR)) in H by (rewrite skipn_all2; [reflexivity|lia]).
    cbn in H. injection H as <-. replace n with j by lia. exact I.
  - rewrite (skipn_nth order j nowhere) in H by lia.
    cbn [map foreach] in H.
    match type of H with bind ?b _ = _ => destruct b as [cs1| | |] eqn:E1; try discriminate end. cbn [bind] in H.
    apply (IH (S j) cs1 cs'); auto; try lia. eapply flag_step; eauto; lia.
Qed.

Lemma lim_next m k : (k < n)%nat -> lim m n k = lim (S m) (S (S m)) k.
Proof.
  intros Hk. unfold lim. destruct (Nat.leb_spec k m), (Nat.leb_spec k (S m)); try lia.
  - destruct (Nat.ltb_spec k n); lia.
  - destruct (Nat.ltb_spec k n), (Nat.ltb_spec k (S (S m))); lia.
Qed.

Lemma flag_outer cs0 : forall d m cs cs', (m + d = n)%nat ->
  Inv cs0 cs m (S m) -> foreach (combinations2 (skipn m order)) (flag_pair numR test) cs = Ok cs' ->
  Inv cs0 cs' n (S n).
Proof.
  induction d as [|d IH]; intros m cs cs' E I H.
  - replace (skipn m order) with (@nil (nat * peak numR)) in H by (rewrite skipn_all2; [reflexivity|lia]).
    cbn in H. injection H as <-. replace n with m by lia. exact I.
  - rewrite (skipn_nth order m nowhere) in H by lia.
    cbn [combinations2] in H. rewrite foreach_app in H.
    match type of H with bind ?b _ = _ => destruct b as [cs1| | |] eqn:E1; try discriminate end. cbn [bind] in H.
    apply (IH (S m) cs1 cs'); auto; try lia.
    assert (I1 : Inv cs0 cs1 m n) by (eapply (flag_inner cs0 m ltac:(lia) d (S m)); eauto; lia).
    destruct I1 as (L & P & IN & ST). split; [exact L|]. split; [exact P|]. split; [exact IN|].
    intros k Hk. rewrite <- lim_next by exact Hk. now apply ST.
Qed.
End Flag.
