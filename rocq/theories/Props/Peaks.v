(** C40, C64: peak detection. *)
From Coq Require Import List Arith ZArith Bool Lia Reals Lra Psatz Permutation Sorted Relations.
From Flocq Require Import Core.
From Verif Require Import Base.Result Base.Buf Base.Num Model.Transforms Model.Cluster Model.Peaks
  Spec.Order Spec.Friends Proof.Cluster Props.RunMed Props.Cluster.
Import ListNotations.
Local Open Scope R_scope.

(** ** friends through a numbering of the items *)
Lemma friends_map {A B} (g : A -> B) (P : A -> Prop) (Q : B -> Prop) v w r a b :
  (forall c, P c -> Q (g c)) -> (forall c, w (g c) = v c) ->
  friends P v r a b -> friends Q w r (g a) (g b).
Proof.
  intros HP HV F. induction F as [c d (H1 & H2 & H3)|c|c d e _ IH1 _ IH2].
  - apply rt_step. split; auto. split; auto. now rewrite !HV.
  - apply rt_refl.
  - eapply rt_trans; eauto.
Qed.

Lemma friends_unmap {A B} (g : A -> B) (P : A -> Prop) (Q : B -> Prop) v w r a c :
  (forall d, Q d -> exists b, P b /\ g b = d) ->
  (forall b b', P b -> P b' -> g b = g b' -> b = b') -> (forall c, w (g c) = v c) ->
  P a -> friends Q w r (g a) c -> exists b, P b /\ g b = c /\ friends P v r a b.
Proof.
  intros HS HI HV Pa F. apply clos_rt_rtn1 in F. induction F as [|c d (Qc & Qd & Hr) F IH].
  - exists a. split; auto. split; auto. apply rt_refl.
  - destruct IH as (b & Pb & Eb & Fb). destruct (HS d Qd) as (b' & Pb' & Eb').
    exists b'. split; auto. split; auto. eapply rt_trans; [exact Fb|]. apply rt_step.
    split; auto. split; auto. subst c d. now rewrite <- !HV.
Qed.

Lemma mapM_inv {A B} (g : A -> res B) l o : mapM g l = Ok o -> Forall2 (fun a b => g a = Ok b) l o.
Proof.
  revert o. induction l as [|a l IH]; cbn; intros o H; [injection H as <-; constructor|].
  destruct (g a) as [b| | |] eqn:E; try discriminate. cbn in H.
  destruct (mapM g l) as [bs| | |]; try discriminate. cbn in H. injection H as <-.
  constructor; auto.
Qed.

(** brightest friends: one index for each group of selected trials *)
Definition group_maxima (sel : nat -> Prop) (f s : nat -> R) (r : R) (idx : list nat) : Prop :=
  NoDup idx /\
  (forall p, In p idx -> sel p /\ forall i, friends sel f r p i -> s i <= s p) /\
  (forall i, sel i -> exists p, In p idx /\ friends sel f r i p) /\
  (forall p q, In p idx -> In q idx -> friends sel f r p q -> p = q).

Lemma friends_sym {A} (P : A -> Prop) v r a b : friends P v r a b -> friends P v r b a.
Proof.
  intros F. induction F as [c d (H1 & H2 & H3)|c|c d e _ IH1 _ IH2].
  - apply rt_step. split; auto. split; auto. now rewrite Rabs_minus_sym.
  - apply rt_refl.
  - eapply rt_trans; eauto.
Qed.

Lemma NoDup_map_groups {A B} (h : A -> B) (l : list A) (K : A -> A -> Prop) :
  ForallOrdPairs K l -> (forall a b, K a b -> h a <> h b) -> NoDup (map h l).
Proof.
  intros H HK. induction H as [|a l F H IH]; cbn; constructor; auto.
  intros Hin. apply in_map_iff in Hin as (b & E & Hb). rewrite Forall_forall in F.
  apply (HK a b); auto.
Qed.

Lemma ordpairs_concat (gs : list (list nat)) : NoDup (concat gs) ->
  ForallOrdPairs (fun g h => forall i, In i g -> ~ In i h) gs.
Proof.
  induction gs as [|g gs IH]; intros H; constructor.
  - apply Forall_forall. intros h Hh i Hi Hi'. cbn in H.
    assert (D : forall (u w : list nat), NoDup (u ++ w) -> In i u -> ~ In i w).
    { clear. induction u as [|a u IH]; intros w ND Hu Hw; [easy|]. cbn in ND.
      inversion ND as [|? ? N1 N2]; subst. destruct Hu as [->|Hu].
      - apply N1. apply in_app_iff. now right.
      - now apply (IH w). }
    apply (D _ _ H Hi). apply in_concat. eauto.
  - apply IH. cbn in H. clear IH. induction g as [|a g IHg]; auto. cbn in H. inversion H; auto.
Qed.

Section Single.
Context (argsort : list R -> list nat) (HA : sorts argsort).
Context (f s : list R) (r : R) (mask : nat -> bool).
Let n := length f.
Let indices := filter mask (seq 0 n).
Let sel i := (i < n)%nat /\ mask i = true.
Let fsel := map (fun i => nth i f 0) indices.
Let clusters := cluster1d numR argsort fsel r false.
Let best cl := match map (fun k => nth k indices 0%nat) cl with
  | [] => 0%nat
  | i :: ix => first_max (fun a b => Rlt_bool (nth a s 0) (nth b s 0)) i ix
  end.

Lemma sel_indices i : sel i <-> In i indices.
Proof. unfold sel, indices. rewrite filter_In, in_seq. split; intros [? ?]; split; auto; lia. Qed.

Lemma nodup_indices : NoDup indices.
Proof. apply NoDup_filter, seq_NoDup. Qed.

Lemma best_spec cl : In cl clusters -> In (best cl) (map (fun k => nth k indices 0%nat) cl) /\
  forall i, In i (map (fun k => nth k indices 0%nat) cl) -> nth i s 0 <= nth (best cl) s 0.
Proof.
  intros Hcl. destruct (cluster1d_friends argsort fsel r false HA ltac:(discriminate)) as (_ & NE & _).
  specialize (NE cl Hcl). unfold best.
  destruct (map (fun k => nth k indices 0%nat) cl) as [|i ix] eqn:E.
  { destruct cl; [congruence|discriminate]. }
  apply (first_max_spec (fun a => nth a s 0)).
Qed.

Lemma single_maxima :
  group_maxima sel (fun i => nth i f 0) (fun i => nth i s 0) r (map best clusters).
Proof.
  destruct (cluster1d_friends argsort fsel r false HA ltac:(discriminate)) as (PERM & NE & FR & _).
  fold clusters in PERM, NE, FR.
  assert (LF : length fsel = length indices) by (unfold fsel; apply map_length).
  rewrite LF in *.
  set (g := fun k => nth k indices 0%nat) in *.
  assert (GI : forall k, (k < length indices)%nat -> sel (g k)).
  { intros k Hk. apply sel_indices. now apply nth_In. }
  assert (GS : forall i, sel i -> exists k, (k < length indices)%nat /\ g k = i).
  { intros i Hi. apply sel_indices in Hi. apply (In_nth _ _ 0%nat) in Hi as (k & ? & ?). eauto. }
  assert (GJ : forall k k', (k < length indices)%nat -> (k' < length indices)%nat -> g k = g k' -> k = k').
  { intros k k' Hk Hk' E. eapply NoDup_nth; eauto. apply nodup_indices. }
  assert (GV : forall k, (k < length indices)%nat -> nth k fsel 0 = nth (g k) f 0).
  { intros k Hk. unfold fsel, g. rewrite nth_indep with (d' := (fun i => nth i f 0) 0%nat) by now rewrite map_length.
    now rewrite (map_nth (fun i => nth i f 0)). }
  set (Pk := fun k => (k < length indices)%nat) in *.
  set (v := fun k => nth (g k) f 0).
  assert (FR2 : forall i j, Pk i -> Pk j -> (together clusters i j <-> friends Pk v r i j)).
  { intros i j Hi Hj. rewrite FR by auto. unfold friends.
    split; intros F; induction F as [a b (A1 & A2 & A3)|a|a b c K1 IH1 K2 IH2]; try apply rt_refl.
    - apply rt_step. split; auto. split; auto. unfold v. rewrite <- !GV by auto. exact A3.
    - apply rt_trans with b.
      + apply clos_rt_rtn1 in K1. destruct (Nat.eq_dec a b) as [->|NEQ]; [apply rt_refl|].
        apply IH1; auto. inversion K1 as [|? ? (? & ? & ?)]; subst; congruence || auto.
      + destruct (Nat.eq_dec b c) as [->|NEQ]; [apply rt_refl|].
        apply IH2; auto. apply clos_rt_rt1n in K2. inversion K2 as [|? ? (? & ? & ?)]; subst; congruence || auto.
    - apply rt_step. split; auto. split; auto. unfold v in A3. rewrite !GV by auto. exact A3.
    - apply rt_trans with b.
      + apply clos_rt_rtn1 in K1. destruct (Nat.eq_dec a b) as [->|NEQ]; [apply rt_refl|].
        apply IH1; auto. inversion K1 as [|? ? (? & ? & ?)]; subst; congruence || auto.
      + destruct (Nat.eq_dec b c) as [->|NEQ]; [apply rt_refl|].
        apply IH2; auto. apply clos_rt_rt1n in K2. inversion K2 as [|? ? (? & ? & ?)]; subst; congruence || auto. }
  assert (INB : forall cl k, In cl clusters -> In k cl -> Pk k).
  { intros cl k Hc Hk. assert (In k (concat clusters)) by (apply in_concat; eauto).
    apply (Permutation_in _ PERM), in_seq in H. unfold Pk. lia. }
  assert (BK : forall cl, In cl clusters -> exists k, In k cl /\ Pk k /\ best cl = g k /\
     forall k', In k' cl -> nth (g k') s 0 <= nth (g k) s 0).
  { intros cl Hc. destruct (best_spec cl Hc) as [I M]. apply in_map_iff in I as (k & Ek & Hk).
    exists k. fold (g k) in Ek. split; auto. split; [now apply (INB cl)|]. split; auto.
    intros k' Hk'. rewrite Ek. apply M. apply in_map_iff. exists k'. auto. }
  assert (ND : NoDup (concat clusters)).
  { eapply Permutation_NoDup; [symmetry; exact PERM|apply seq_NoDup]. }
  assert (UNI : forall c1 c2 k, In c1 clusters -> In c2 clusters -> In k c1 -> In k c2 -> c1 = c2).
  { pose proof (ordpairs_concat _ ND) as OP. clear - OP.
    induction OP as [|g gs F OP IH]; intros c1 c2 k H1 H2 K1 K2; [easy|].
    rewrite Forall_forall in F. destruct H1 as [<-|H1], H2 as [<-|H2]; auto.
    - destruct (F c2 H2 k); auto.
    - destruct (F c1 H1 k); auto.
    - now apply (IH c1 c2 k). }
  assert (HN : forall c, nth (g c) f 0 = v c) by reflexivity.
  split; [|split; [|split]].
  - apply (NoDup_map_groups best clusters (fun c d => In c clusters /\ In d clusters /\ forall i, In i c -> ~ In i d)).
    + pose proof (ordpairs_concat _ ND) as OP.
      assert (G : forall l, (forall c, In c l -> In c clusters) ->
         ForallOrdPairs (fun c d => forall i, In i c -> ~ In i d) l ->
         ForallOrdPairs (fun c d => In c clusters /\ In d clusters /\ forall i, In i c -> ~ In i d) l).
      { clear. intros l HL OP. induction OP as [|c l F OP IH]; constructor.
        - rewrite Forall_forall in *. intros d Hd. split; [apply HL; now left|].
          split; [apply HL; now right|]. auto.
        - apply IH. intros; apply HL; now right. }
      now apply G.
    + intros c d (Hc & Hd & DJ) E.
      destruct (BK c Hc) as (k & Kc & Pc & Ec & _). destruct (BK d Hd) as (k' & Kd & Pd & Ed & _).
      assert (k = k') by (apply GJ; auto; congruence). subst k'. exact (DJ k Kc Kd).
  - intros p Hp. apply in_map_iff in Hp as (cl & <- & Hc).
    destruct (BK cl Hc) as (k & Kc & Pc & Ec & M). rewrite Ec. split; [now apply GI|].
    intros i F. destruct (friends_unmap g Pk sel v (fun i => nth i f 0) r k i GS GJ HN Pc F) as (b & Pb & <- & Fb).
    apply FR2 in Fb; auto. destruct Fb as (cl' & Hc' & Kc' & Kb).
    assert (cl' = cl) by now apply (UNI cl' cl k). subst cl'. now apply M.
  - intros i Hi. destruct (GS i Hi) as (k & Pk0 & <-).
    assert (IK : In k (concat clusters)).
    { apply (Permutation_in _ (Permutation_sym PERM)), in_seq. unfold Pk in Pk0. lia. }
    apply in_concat in IK as (cl & Hc & Kc).
    destruct (BK cl Hc) as (k' & Kc' & Pc' & Ec & _).
    exists (best cl). split; [now apply in_map|]. rewrite Ec.
    apply (friends_map g Pk sel v (fun i => nth i f 0)); auto.
    apply FR2; auto. exists cl. auto.
  - intros p q Hp Hq F. apply in_map_iff in Hp as (c & <- & Hc). apply in_map_iff in Hq as (d & <- & Hd).
    destruct (BK c Hc) as (k & Kc & Pc & Ec & _). destruct (BK d Hd) as (k' & Kd & Pd & Ed & _).
    rewrite Ec in F. destruct (friends_unmap g Pk sel v (fun i => nth i f 0) r k _ GS GJ HN Pc F) as (b & Pb & Eb & Fb).
    rewrite Ed in Eb. assert (b = k') by (apply GJ; auto). subst b.
    apply FR2 in Fb; auto. destruct Fb as (e & He & Ke & Ke').
    assert (e = c) by now apply (UNI e c k). assert (e = d) by now apply (UNI e d k'). congruence.
Qed.
End Single.

(** column [iw] of the S/N array *)
Definition trials (snrs : arr2 R) (iw : nat) : list R :=
  map (fun i => at2 0 snrs i iw) (seq 0 (a_rows snrs)).

(** [thr] is the dynamic threshold for one width: the fit through (median frequency, median S/N
    + nstd * deviation) of the segments, or [smin] if there are fewer than [minseg] *)
Definition is_threshold (fit : list R -> list R -> Z -> res (R -> R)) (f s : list R)
    (T smin segwidth nstd : R) (minseg polydeg : Z) (thr : R -> R) : Prop :=
  exists fc smed sstd, segment_stats numR f s T segwidth = Ok (fc, smed, sstd) /\
    if (minseg <=? Z.of_nat (length fc))%Z
    then fit fc (map (fun p => fst p + nstd * snd p) (combine smed sstd)) polydeg = Ok thr
    else thr = fun _ => smin.

(** trial [i] exceeds both thresholds *)
Definition selected (f s : list R) (thr : R -> R) (smin : R) (i : nat) : Prop :=
  (i < length f)%nat /\ thr (nth i f 0) < nth i s 0 /\ smin < nth i s 0.

Lemma find_single_spec fit argsort (f s : list R) T smin segwidth nstd minseg polydeg clrad idx :
  sorts argsort ->
  find_peaks_single numR fit argsort f s T smin segwidth nstd minseg polydeg clrad = Ok idx ->
  exists thr, is_threshold fit f s T smin segwidth nstd minseg polydeg thr /\
    group_maxima (selected f s thr smin) (fun i => nth i f 0) (fun i => nth i s 0) (clrad / T) idx.
Proof.
  intros HA H. unfold find_peaks_single in H.
  destruct (segment_stats numR f s T segwidth) as [[[fc smed] sstd]| | |] eqn:ES; try discriminate.
  cbn [bind] in H.
  match type of H with bind ?b _ = _ => destruct b as [thr| | |] eqn:ET; try discriminate end.
  cbn [bind] in H. injection H as <-. exists thr. split.
  { exists fc, smed, sstd. split; auto. numR_ty.
    destruct (minseg <=? Z.of_nat (length fc))%Z; [exact ET|now injection ET as <-]. }
  rsimp. change (IZR 0) with 0.
  set (mask := fun i => (Rlt_bool (thr (nth i f 0)) (nth i s 0) && Rlt_bool smin (nth i s 0))%bool).
  pose proof (single_maxima argsort HA f s (clrad / T) mask) as G. cbv zeta in G.
  assert (SE : forall i, ((i < length f)%nat /\ mask i = true) <-> selected f s thr smin i).
  { intros i. unfold selected, mask. rewrite andb_true_iff.
    destruct (Rlt_bool_spec (thr (nth i f 0)) (nth i s 0)), (Rlt_bool_spec smin (nth i s 0));
      split; intros (A & B & C) || intros (A & B); repeat split; auto; try lra; try discriminate;
      destruct B; discriminate. }
  assert (FE : forall a b,
    friends (fun i => (i < length f)%nat /\ mask i = true) (fun i => nth i f 0) (clrad / T) a b <->
    friends (selected f s thr smin) (fun i => nth i f 0) (clrad / T) a b).
  { intros a b. split; intros F;
      [apply (friends_map (fun x => x) (fun i => (i < length f)%nat /\ mask i = true) (selected f s thr smin)
              (fun i => nth i f 0)); auto
      |apply (friends_map (fun x => x) (selected f s thr smin) (fun i => (i < length f)%nat /\ mask i = true)
              (fun i => nth i f 0)); auto]; intros c Hc; now apply SE. }
  destruct G as (G1 & G2 & G3 & G4). split; [exact G1|]. split; [|split].
  - intros p Hp. destruct (G2 p Hp) as [A B]. split; [now apply SE|]. intros i Hi. apply B. now apply FE.
  - intros i Hi. destruct (G3 i) as (p & Hp & F); [now apply SE|]. exists p. split; auto. now apply FE.
  - intros p q Hp Hq F. apply G4; auto. now apply FE.
Qed.

(** C40.  [near] within one width: trials above both thresholds at most [clrad / T] apart. *)
Theorem find_peaks_correct :
  forall fit argsort (f : list R) (foldbins widths : list Z) (snrs : arr2 R) (T : R) (dm : option R)
    (smin segwidth nstd : R) (minseg polydeg : Z) (clrad : R) (peaks : list (peak numR)),
  sorts argsort -> a_rows snrs = length f ->
  find_peaks numR fit argsort f foldbins widths snrs T dm smin segwidth nstd minseg polydeg clrad
    = Ok peaks ->
  StronglySorted (fun p q : peak numR => p_snr q <= p_snr p) peaks /\
  NoDup (map (fun p : peak numR => (p_iw p, p_ip p)) peaks) /\
  exists thr : nat -> R -> R,
    (forall iw, (iw < length widths)%nat ->
       is_threshold fit f (trials snrs iw) T smin segwidth nstd minseg polydeg (thr iw)) /\
    let sel iw := selected f (trials snrs iw) (thr iw) smin in
    let linked iw := friends (sel iw) (fun i => nth i f 0) (clrad / T) in
    (forall p, In p peaks ->
       let iw := p_iw p in let i := p_ip p in
       (iw < length widths)%nat /\ sel iw i /\
       p_snr p = at2 0 snrs i iw /\ p_freq p = nth i f 0 /\ p_period p = 1 / nth i f 0 /\
       p_width p = nth iw widths 0%Z /\
       p_ducy p = IZR (nth iw widths 0%Z) / IZR (nth i foldbins 0%Z) /\ p_dm p = dm /\
       forall j, linked iw i j -> at2 0 snrs j iw <= p_snr p) /\
    (forall iw i, (iw < length widths)%nat -> sel iw i ->
       exists p, In p peaks /\ p_iw p = iw /\ linked iw i (p_ip p)) /\
    (forall p q, In p peaks -> In q peaks -> p_iw p = p_iw q -> linked (p_iw p) (p_ip p) (p_ip q) ->
       p_ip p = p_ip q).
Proof.
  intros fit argsort f foldbins widths snrs T dm smin segwidth nstd minseg polydeg clrad peaks HA HR H.
  unfold find_peaks in H.
  match type of H with bind ?b _ = _ => destruct b as [per| | |] eqn:EM; try discriminate end.
  cbn [bind] in H. injection H as <-. apply mapM_inv in EM.
  change (IZR 0) with 0 in *.
  set (mk := fun iw ip => Peak (N := numR) (1 / nth ip f 0) (nth ip f 0) (nth iw widths 0%Z)
     (IZR (nth iw widths 0%Z) / IZR (nth ip foldbins 0%Z)) iw ip (nth ip (trials snrs iw) 0) dm).
  assert (EX : exists (idx : nat -> list nat) (thr : nat -> R -> R),
    concat per = flat_map (fun iw => map (mk iw) (idx iw)) (seq 0 (length widths)) /\
    forall iw, (iw < length widths)%nat ->
      is_threshold fit f (trials snrs iw) T smin segwidth nstd minseg polydeg (thr iw) /\
      group_maxima (selected f (trials snrs iw) (thr iw) smin) (fun i => nth i f 0)
        (fun i => nth i (trials snrs iw) 0) (clrad / T) (idx iw)).
  { assert (G : forall l per, Forall2 (fun iw cur =>
        (let width := nth iw widths 0%Z in
         let s := trials snrs iw in
         cur <- find_peaks_single numR fit argsort f s T smin segwidth nstd minseg polydeg clrad ;;
         Ok (map (mk iw) cur)) = Ok cur) l per -> NoDup l ->
      exists (idx : nat -> list nat) (thr : nat -> R -> R),
        concat per = flat_map (fun iw => map (mk iw) (idx iw)) l /\
        forall iw, In iw l ->
          is_threshold fit f (trials snrs iw) T smin segwidth nstd minseg polydeg (thr iw) /\
          group_maxima (selected f (trials snrs iw) (thr iw) smin) (fun i => nth i f 0)
            (fun i => nth i (trials snrs iw) 0) (clrad / T) (idx iw)).
    { clear EM per. intros l per F. induction F as [|iw cur l per E F IH]; intros ND.
      - exists (fun _ => []), (fun _ _ => 0). split; [reflexivity|]. intros ? [].
      - inversion ND as [|? ? N1 N2]; subst. destruct (IH N2) as (idx & thr & E1 & E2). cbv zeta in E.
        destruct (find_peaks_single numR fit argsort f (trials snrs iw) T smin segwidth nstd minseg polydeg clrad)
          as [c| | |] eqn:ES; try discriminate.
        cbn [bind] in E. injection E as <-.
        destruct (find_single_spec _ _ _ _ _ _ _ _ _ _ _ _ HA ES) as (t & T1 & T2).
        exists (fun k => if k =? iw then c else idx k)%nat, (fun k => if k =? iw then t else thr k)%nat.
        split.
        + cbn [concat flat_map]. rewrite Nat.eqb_refl. f_equal. rewrite E1.
          clear - N1. induction l as [|a l IHl]; [reflexivity|]. cbn [flat_map].
          rewrite IHl by (intros ?; apply N1; now right).
          destruct (Nat.eqb_spec a iw) as [->|]; [destruct N1; now left|reflexivity].
        + intros k [<-|Hk].
          * rewrite Nat.eqb_refl. auto.
          * destruct (Nat.eqb_spec k iw) as [->|]; [contradiction|]. now apply E2. }
    destruct (G (seq 0 (length widths)) per) as (idx & thr & E1 & E2); [exact EM|apply seq_NoDup|].
    exists idx, thr. split; auto. intros iw Hiw. apply E2, in_seq. lia. }
  destruct EX as (idx & thr & EC & HT). numR_ty.
  assert (EC' : @concat (peak numR) per = flat_map (fun iw => map (mk iw) (idx iw)) (seq 0 (length widths))) by exact EC.
  rewrite EC'. clear EC EC' EM per.
  set (all := flat_map (fun iw => map (mk iw) (idx iw)) (seq 0 (length widths))).
  pose proof (sorted_desc_perm (fun p : peak numR => (p_snr p : R)) all) as PM.
  pose proof (sorted_desc_sorted (fun p : peak numR => (p_snr p : R)) all) as SS.
  split; [exact SS|]. rsimp.
  assert (INA : forall p, In p (sorted_desc (fun a b : peak numR => Rlt_bool (p_snr a) (p_snr b)) all) <->
     exists iw i, (iw < length widths)%nat /\ In i (idx iw) /\ p = mk iw i).
  { intros p. split; intros Hp.
    - apply (Permutation_in _ (Permutation_sym PM)) in Hp. apply in_flat_map in Hp as (iw & Hw & Hp).
      apply in_map_iff in Hp as (i & <- & Hi). apply in_seq in Hw. exists iw, i. repeat split; auto; lia.
    - destruct Hp as (iw & i & Hw & Hi & ->). apply (Permutation_in _ PM). apply in_flat_map.
      exists iw. split; [apply in_seq; lia|]. now apply in_map. }
  assert (TN : forall iw i, (i < length f)%nat -> nth i (trials snrs iw) 0 = at2 0 snrs i iw).
  { intros iw i Hi. unfold trials. rewrite HR.
    rewrite nth_indep with (d' := (fun i => at2 0 snrs i iw) 0%nat) by now rewrite map_length, seq_length.
    rewrite (map_nth (fun i => at2 0 snrs i iw)). now rewrite seq_nth. }
  split.
  { eapply Permutation_NoDup; [apply Permutation_map; exact PM|]. unfold all.
    assert (G : forall l, NoDup l -> (forall iw, In iw l -> (iw < length widths)%nat) ->
      NoDup (map (fun p : peak numR => (p_iw p, p_ip p)) (flat_map (fun iw => map (mk iw) (idx iw)) l))).
    { induction l as [|iw l IH]; intros ND HL; cbn; [constructor|]. rewrite map_app, map_map.
      inversion ND as [|? ? N1 N2]; subst.
      assert (NA : forall (u w : list (nat * nat)), NoDup u -> NoDup w -> (forall x, In x u -> ~ In x w) -> NoDup (u ++ w)).
      { clear. induction u as [|a u IH]; intros w N1 N2 DJ; auto. cbn. inversion N1; subst. constructor.
        - rewrite in_app_iff. intros [?|?]; [auto|]. apply (DJ a); auto; now left.
        - apply IH; auto. intros x Hx. apply DJ. now right. }
      apply NA.
      - cbn [mk p_iw p_ip]. destruct (HT iw) as (_ & (N & _)); [apply HL; now left|].
        apply FinFun.Injective_map_NoDup; auto. intros a b E. now injection E.
      - apply IH; auto. intros; apply HL; now right.
      - intros [a b] Ha Hb. apply in_map_iff in Ha as (i & E & _). injection E as -> ->.
        apply in_map_iff in Hb as (q & E & Hq). apply in_flat_map in Hq as (iw' & Hw' & Hq).
        apply in_map_iff in Hq as (j & <- & _). injection E as -> _. contradiction. }
    apply G; [apply seq_NoDup|]. intros iw Hw. apply in_seq in Hw. lia. }
  exists thr. split; [intros iw Hw; now apply HT|]. cbv zeta. split; [|split].
  - intros p Hp. apply INA in Hp as (iw & i & Hw & Hi & ->). cbn [mk p_iw p_ip p_snr p_freq p_period p_width p_ducy p_dm].
    destruct (HT iw Hw) as (_ & (_ & G2 & _)). destruct (G2 i Hi) as [S1 S2].
    split; auto. split; auto. split; [apply TN; apply S1|]. do 5 (split; [reflexivity|]).
    intros j Hj. specialize (S2 j Hj).
    assert (Lj : (j < length f)%nat).
    { apply clos_rt_rtn1 in Hj. inversion Hj as [|a b (_ & (Q & _) & _) _]; subst; [apply S1|exact Q]. }
    now rewrite TN in S2 by auto.
  - intros iw i Hw Hi. destruct (HT iw Hw) as (_ & (_ & _ & G3 & _)). destruct (G3 i Hi) as (q & Hq & F).
    exists (mk iw q). split; [apply INA; exists iw, q; auto|]. split; auto.
  - intros p q Hp Hq E F. apply INA in Hp as (iw & i & Hw & Hi & ->). apply INA in Hq as (iw' & j & Hw' & Hj & ->).
    cbn [mk p_iw p_ip] in *. subst iw'. destruct (HT iw Hw) as (_ & (_ & _ & _ & G4)). now apply G4.
Qed.
Print Assumptions find_peaks_correct.

(** ** the segment statistics *)
(** [v] is the [q]-quantile of [l], interpolated linearly between order statistics *)
Definition is_quantile (q : R) (l : list R) (v : R) : Prop :=
  exists k a b, INR k <= q * (INR (length l) - 1) < INR k + 1 /\
    order_stat Rlt_bool k l a /\ order_stat Rlt_bool (Nat.min (S k) (length l - 1)) l b /\
    v = a + (b - a) * (q * (INR (length l) - 1) - INR k).

Lemma sorted_order_stat (l s : list R) k : Permutation l s -> StronglySorted Rle s -> (k < length l)%nat ->
  order_stat Rlt_bool k l (nth k s 0).
Proof.
  intros P S Hk. apply order_stat_perm with s; [now symmetry|].
  rewrite (Permutation_length P) in Hk. clear P l.
  set (v := nth k s 0). split; [now apply nth_In|].
  assert (E : s = firstn k s ++ v :: skipn (Datatypes.S k) s).
  { unfold v. clear - Hk. revert k Hk. induction s as [|a s IH]; intros k Hk; [cbn in Hk; lia|].
    destruct k; [reflexivity|]. cbn. f_equal. apply IH. cbn in Hk. lia. }
  assert (SO : forall u w, StronglySorted Rle (u ++ v :: w) ->
     (forall x, In x u -> x <= v) /\ (forall x, In x w -> v <= x)).
  { clear. induction u as [|a u IH]; intros w H; cbn in H; inversion H as [|? ? H1 H2]; subst.
    - split; [easy|]. rewrite Forall_forall in H2. auto.
    - destruct (IH w H1) as [I1 I2]. split; auto. intros x [<-|Hx]; auto.
      rewrite Forall_forall in H2. apply H2. apply in_app_iff. right. now left. }
  rewrite E in S. destruct (SO _ _ S) as [U W]. clear S.
  rewrite E. rewrite !count_app.
  assert (LF : length (firstn k s) = k) by (apply firstn_length_le; lia).
  split.
  - rewrite (count_none _ (v :: skipn (Datatypes.S k) s)).
    + rewrite Nat.add_0_r. rewrite <- LF at 2. apply count_le.
    + intros x [<-|Hx]; apply Rlt_bool_false; [lra|auto].
  - rewrite (count_all _ (firstn k s)).
    + rewrite LF. unfold count. cbn [filter]. rewrite (Rlt_bool_false v v) by lra. cbn. lia.
    + intros x Hx. rewrite Rlt_bool_false; auto.
Qed.

Lemma nsort_R (l : list R) : Permutation l (nsort numR l) /\ StronglySorted Rle (nsort numR l).
Proof.
  split; [apply (sorted_asc_perm (fun x : R => x))|apply (sorted_asc_sorted (fun x : R => x))].
Qed.

Lemma percentile_R (q : Z) (l : list R) : (0 <= q <= 100)%Z -> l <> [] ->
  is_quantile (IZR q / 100) l (percentile numR q l).
Proof.
  intros Hq Hl. unfold percentile. rsimp. numR_ty. rewrite <- !INR_IZR_INZ.
  assert (L1 : (1 <= length l)%nat) by (destruct l; [easy|cbn; lia]).
  rewrite minus_INR by lia. change (INR 1) with 1. change (IZR 0) with 0.
  set (v := IZR q / 100 * (INR (length l) - 1)).
  assert (Q : 0 <= IZR q / 100 <= 1).
  { assert (0 <= IZR q <= 100) by (split; apply IZR_le; lia). lra. }
  assert (1 <= INR (length l)) by (apply (le_INR 1); lia).
  assert (V : 0 <= v <= INR (length l) - 1) by (unfold v; nra).
  set (k := Z.to_nat (Zfloor v)).
  assert (K0 : (0 <= Zfloor v)%Z) by (apply Zfloor_lub; lra).
  assert (K : INR k <= v < INR k + 1).
  { unfold k. rewrite INR_IZR_INZ, Z2Nat.id by auto. split; [apply Zfloor_lb|apply Zfloor_ub]. }
  assert (KL : (k < length l)%nat) by (apply INR_lt; lra).
  destruct (nsort_R l) as [P S].
  exists k, (nth k (nsort numR l) 0), (nth (Nat.min (Datatypes.S k) (length l - 1)) (nsort numR l) 0).
  split; [exact K|]. split; [now apply sorted_order_stat|].
  split; [apply sorted_order_stat; auto; lia|]. fold v k.
  match goal with |- (if ?c then _ else _) = _ => destruct c end; numR_ty; rsimp; ring.
Qed.

Lemma nmedian_R (l : list R) : l <> [] -> is_quantile (1 / 2) l (nmedian numR l).
Proof.
  intros Hl. unfold nmedian. rsimp. numR_ty. change (IZR 0) with 0.
  assert (L1 : (1 <= length l)%nat) by (destruct l; [easy|cbn; lia]).
  destruct (nsort_R l) as [P S]. set (n := length l) in *.
  destruct (Nat.odd n) eqn:O.
  - apply Nat.odd_spec in O as [h Hh]. replace (n / 2)%nat with h by (rewrite Hh, Nat.mul_comm, Nat.div_add_l by lia; cbn; lia).
    assert (E : 1 / 2 * (INR n - 1) = INR h).
    { rewrite Hh, plus_INR, mult_INR. cbn [INR]. lra. }
    exists h, (nth h (nsort numR l) 0), (nth (Nat.min (Datatypes.S h) (n - 1)) (nsort numR l) 0).
    fold n. rewrite E. split; [lra|]. split; [apply sorted_order_stat; auto; fold n; lia|].
    split; [apply sorted_order_stat; auto; fold n; lia|]. numR_ty. rsimp. ring.
  - rewrite <- Nat.negb_even in O. apply negb_false_iff, Nat.even_spec in O as [h Hh].
    replace (n / 2)%nat with h by (rewrite Hh, Nat.mul_comm, Nat.div_mul by lia; reflexivity).
    assert (E : 1 / 2 * (INR n - 1) = INR (h - 1) + 1 / 2).
    { rewrite Hh, mult_INR, minus_INR by lia. cbn [INR]. lra. }
    exists (h - 1)%nat, (nth (h - 1) (nsort numR l) 0), (nth h (nsort numR l) 0).
    fold n. rewrite E. split; [lra|]. split; [apply sorted_order_stat; auto; fold n; lia|].
    replace (Nat.min (Datatypes.S (h - 1)) (n - 1)) with h by lia.
    split; [apply sorted_order_stat; auto; fold n; lia|]. numR_ty. rsimp. field.
Qed.

(** consecutive trials [i p .. i p + p - 1] *)
Definition segment (x : list R) (p i : nat) : list R := map (fun k => nth (i * p + k) x 0) (seq 0 p).

(** C64: exactly when the statistics are computed, how the trials are cut, and what is computed.
    A periodogram whose trials all have one frequency, in particular a single trial, is a
    division by zero. *)
Theorem segment_stats_correct :
  forall (f s : list R) (T segwidth : R), 0 < T -> 0 < segwidth -> length s = length f ->
  let n := length f in
  let span := Rabs (last f 0 - nth 0 f 0) in
  (n = 0%nat -> segment_stats numR f s T segwidth = Err IndexError) /\
  (n <> 0%nat -> span = 0 -> segment_stats numR f s T segwidth = Err ZeroDivisionError) /\
  (forall m, n <> 0%nat -> (1 <= m)%nat -> INR m - 1 < span * T / segwidth <= INR m ->
    ((n < m)%nat -> segment_stats numR f s T segwidth = Err IndexError) /\
    ((m <= n)%nat -> exists fc smed sstd : list R,
       segment_stats numR f s T segwidth = Ok (fc, smed, sstd) /\
       length fc = m /\ length smed = m /\ length sstd = m /\
       forall i, (i < m)%nat ->
         let p := (n / m)%nat in
         is_quantile (1 / 2) (segment f p i) (nth i fc 0) /\
         is_quantile (50 / 100) (segment s p i) (nth i smed 0) /\
         exists q1 q3, is_quantile (25 / 100) (segment s p i) q1 /\
           is_quantile (75 / 100) (segment s p i) q3 /\ nth i sstd 0 = (q3 - q1) / (1349 / 1000))).
Proof.
  intros f s T segwidth HT HW HL n span.
  assert (NA : nabs numR (last f 0 - nth 0 f 0) = span) by apply nabs_R.
  split; [|split].
  - intros H. unfold segment_stats. numR_ty. fold n. rewrite H. reflexivity.
  - intros H HS. unfold segment_stats. numR_ty. fold n.
    destruct (Nat.eqb_spec n 0); [contradiction|]. rsimp. change (IZR 0) with 0. rewrite NA, HS.
    replace (0 / (segwidth / T)) with (IZR 0) by (unfold Rdiv; cbn; ring).
    rewrite Zceil_IZR. reflexivity.
  - intros m H Hm HB.
    assert (EC : Zceil (span / (segwidth / T)) = Z.of_nat m).
    { replace (span / (segwidth / T)) with (span * T / segwidth) by (field; lra).
      apply Zceil_imp. rewrite minus_IZR, <- INR_IZR_INZ. lra. }
    assert (HD : segment_stats numR f s T segwidth =
       (let p := (n / m)%nat in
        if (p =? 0)%nat then Err IndexError else
        let seg (x : list R) i := firstn p (skipn (i * p) x) in
        let stat (st : list R -> R) x := map (fun i => st (seg x i)) (seq 0 m) in
        Ok (stat (nmedian numR) f, stat (percentile numR 50) s,
          stat (fun c => (percentile numR 75 c - percentile numR 25 c) / (1349 / 1000)) s))).
    { unfold segment_stats. numR_ty. fold n.
      destruct (Nat.eqb_spec n 0); [contradiction|]. rsimp. change (IZR 0) with 0. rewrite NA, EC.
      destruct (Z.eqb_spec (Z.of_nat m) 0); [lia|]. destruct (Z.ltb_spec (Z.of_nat m) 0); [lia|].
      rewrite Nat2Z.id. reflexivity. }
    rewrite HD. cbv zeta. split.
    + intros Hlt. rewrite Nat.div_small by auto. reflexivity.
    + intros Hle. assert (P1 : (1 <= n / m)%nat) by (apply Nat.div_le_lower_bound; lia).
      destruct (Nat.eqb_spec (n / m) 0); [lia|]. set (p := (n / m)%nat) in *.
      assert (PM : (m * p <= n)%nat) by (apply Nat.mul_div_le; lia).
      assert (SG : forall x, length x = n -> forall i, (i < m)%nat -> firstn p (skipn (i * p) x) = segment x p i).
      { intros x Lx i Hi. assert (HI : (i * p + p <= n)%nat) by nia. unfold segment.
        apply nth_ext with 0 0.
        - rewrite firstn_length, skipn_length, map_length, seq_length. lia.
        - intros k Hk. rewrite firstn_length, skipn_length in Hk.
          rewrite nth_indep with (d' := (fun k => nth (i * p + k) x 0) 0%nat) (n := k)
            (l := map (fun k => nth (i * p + k) x 0) (seq 0 p)) by (rewrite map_length, seq_length; lia).
          rewrite (map_nth (fun k => nth (i * p + k) x 0)), seq_nth by lia. cbn [Nat.add].
          rewrite Buf.nth_firstn_skipn by lia. reflexivity. }
      assert (NEs : forall x i, segment x p i <> []).
      { intros x i E. apply (f_equal (@length R)) in E. unfold segment in E. rewrite map_length, seq_length in E. cbn in E. lia. }
      eexists _, _, _. split; [reflexivity|]. rewrite !map_length, !seq_length. do 3 (split; [reflexivity|]).
      intros i Hi.
      assert (NM : forall g : nat -> R, nth i (map g (seq 0 m)) 0 = g i).
      { intros g. rewrite nth_indep with (d' := g 0%nat) by now rewrite map_length, seq_length.
        rewrite (map_nth g), seq_nth by auto. reflexivity. }
      rewrite !NM. rewrite !SG by auto. split; [now apply nmedian_R|].
      split; [apply (percentile_R 50); auto; lia|].
      exists (percentile numR 25 (segment s p i)), (percentile numR 75 (segment s p i)).
      split; [apply (percentile_R 25); auto; lia|]. split; [apply (percentile_R 75); auto; lia|]. reflexivity.
Qed.
Print Assumptions segment_stats_correct.

(** hence a search with a single period trial cannot be searched for peaks *)
Theorem find_peaks_one_trial_refuted :
  forall fit argsort (fr : R) (foldbins widths : list Z) (snrs : arr2 R) (T : R) (dm : option R)
    (smin segwidth nstd : R) (minseg polydeg : Z) (clrad : R),
  0 < T -> 0 < segwidth -> a_rows snrs = 1%nat -> widths <> [] ->
  find_peaks numR fit argsort [fr] foldbins widths snrs T dm smin segwidth nstd minseg polydeg clrad
    = Err ZeroDivisionError.
Proof.
  intros fit argsort fr foldbins widths snrs T dm smin segwidth nstd minseg polydeg clrad HT HW HR Hw.
  unfold find_peaks. destruct widths as [|w ws]; [easy|]. cbn [length seq mapM].
  unfold find_peaks_single. rsimp. rewrite HR.
  destruct (segment_stats_correct [fr] [at2 0 snrs 0 0] T segwidth HT HW eq_refl) as (_ & H & _).
  cbn [seq map]. change (IZR 0) with 0.
  numR_ty. rewrite H; [reflexivity|discriminate|]. cbn. rewrite Rminus_diag_eq by reflexivity. apply Rabs_R0.
Qed.
Print Assumptions find_peaks_one_trial_refuted.

(** concrete data: three trials 1, 2, 3 Hz of S/N 5, 9, 8 at one width, two segments *)
Definition ex_f : list R := [1; 2; 3].
Definition ex_snrs : arr2 R := Arr2 3 1 [5; 9; 8].

Example segment_stats_correct_used :
  exists m, (1 <= m <= length ex_f)%nat /\
    INR m - 1 < Rabs (last ex_f 0 - nth 0 ex_f 0) * 1 / 1 <= INR m.
Proof. exists 2%nat. cbn. split; [lia|]. rewrite Rabs_pos_eq; lra. Qed.

Example find_peaks_correct_used : forall fit argsort, sorts argsort ->
  exists peaks, a_rows ex_snrs = length ex_f /\
    find_peaks numR fit argsort ex_f [10; 10; 10]%Z [2%Z] ex_snrs 1 None 6 1 5 10 2 (1 / 2) = Ok peaks /\
    (exists p : peak numR, In p peaks /\ p_snr p = 9) /\ (exists p : peak numR, In p peaks /\ p_snr p = 8).
Proof.
  intros fit argsort HA.
  destruct (segment_stats_correct ex_f [5; 9; 8] 1 1) as (_ & _ & H); try lra; [reflexivity|].
  destruct segment_stats_correct_used as (m & Hm & HB).
  destruct (H m) as (_ & K); [discriminate|lia|exact HB|].
  destruct (K (proj2 Hm)) as (fc & smed & sstd & ES & L1 & _). clear H K.
  assert (M : m = 2%nat).
  { cbn in HB. rewrite Rabs_pos_eq in HB by lra. destruct HB as [B1 B2].
    assert (INR m < INR 3) by (cbn; lra). assert (INR 1 < INR m) by (cbn; lra).
    apply INR_lt in H, H0. lia. }
  rewrite M in L1. clear m M Hm HB.
  assert (OKP : exists peaks, find_peaks numR fit argsort ex_f [10; 10; 10]%Z [2%Z] ex_snrs 1 None 6 1 5 10 2 (1 / 2) = Ok peaks).
  { unfold find_peaks. cbn [length seq mapM]. unfold find_peaks_single. rsimp.
    change (map (fun i => at2 (IZR 0) ex_snrs i 0) (seq 0 (a_rows ex_snrs))) with [5; 9; 8].
    numR_ty. rewrite ES. cbn [bind]. numR_ty. rewrite L1. cbn [bind Z.leb Z.of_nat Z.compare].
    eexists. reflexivity. }
  destruct OKP as (peaks & OKP). exists peaks. split; [reflexivity|]. split; [exact OKP|].
  destruct (find_peaks_correct fit argsort ex_f [10; 10; 10]%Z [2%Z] ex_snrs 1 None 6 1 5 10 2 (1 / 2) peaks HA eq_refl OKP)
    as (SS & ND & thr & TH & A & B & C).
  cbn [length] in *.
  assert (THR : thr 0%nat = fun _ => 6).
  { destruct (TH 0%nat) as (fc' & sm & sd & E & X); [lia|].
    change (trials ex_snrs 0) with [5; 9; 8] in E. rewrite ES in E. injection E as <- <- <-.
    numR_ty. change (@length (n_T numR)) with (@length R) in X. rewrite L1 in X. exact X. }
  assert (SELS : forall i, selected ex_f (trials ex_snrs 0) (thr 0%nat) 6 i <-> (i = 1 \/ i = 2)%nat).
  { intros i. rewrite THR. change (trials ex_snrs 0) with [5; 9; 8]. unfold selected, ex_f. cbn [length]. split.
    - intros (L & H1 & _). destruct i as [|[|[|i]]]; cbn in H1; try lia; lra.
    - intros [-> | ->]; cbn; (split; [lia|]); lra. }
  set (sel := selected ex_f (trials ex_snrs 0) (thr 0%nat) 6) in *.
  assert (NL : ~ friends sel (fun i => nth i ex_f 0) (1 / 2 / 1) 1%nat 2%nat).
  { assert (G : forall a b, friends sel (fun i => nth i ex_f 0) (1 / 2 / 1) a b -> a = 1%nat -> b = 1%nat).
    { intros a b F. induction F as [a b (Sa & Sb & D)|a Sa|a b c F1 IH1 F2 IH2]; intros E; subst; auto.
      - apply SELS in Sb. destruct Sb as [-> | ->]; auto. cbn in D. rewrite Rabs_left in D; lra. }
    intros F. specialize (G _ _ F eq_refl). discriminate. }
  assert (G : forall i, (i = 1 \/ i = 2)%nat -> exists p : peak numR, In p peaks /\ p_snr p = nth i [5; 9; 8] 0).
  { intros i Hi. destruct (B 0%nat i) as (p & Hp & I & F); [lia|now apply SELS|]. exists p. split; auto.
    assert (E : p_ip p = i).
    { destruct (A p Hp) as (_ & S & _). rewrite I in S. apply SELS in S.
      destruct Hi as [-> | ->], S as [E|E]; auto; exfalso; apply NL; rewrite E in F; auto. now apply friends_sym. }
    destruct (A p Hp) as (_ & _ & -> & _). rewrite I, E. unfold at2, ex_snrs. cbn [a_cols a_data].
    f_equal. lia. }
  split; [apply (G 1%nat)|apply (G 2%nat)]; auto.
Qed.
