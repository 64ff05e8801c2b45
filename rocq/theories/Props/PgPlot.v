(** C98: the attributes and the plot of a Periodogram. *)
From Coq Require Import List Arith ZArith Bool Lia Reals Lra Sorted.
From Flocq Require Import Core.
From Verif Require Import Base.Result Base.Buf Base.Num Model.Transforms Model.Metadata Model.Worker Model.PgPlot
  Proof.TimeSeries.
Import ListNotations.
Local Open Scope R_scope.

(** what ffa_search returns (C62, C28) *)
Definition searched (pg : pgram numR) : Prop :=
  arr2_wf (pg_snrs pg) /\ a_rows (pg_snrs pg) = length (pg_periods pg) /\ a_cols (pg_snrs pg) = length (pg_widths pg) /\
  (0 < length (pg_periods pg))%nat /\ (0 < length (pg_widths pg))%nat /\ 0 < nth 0 (pg_periods pg) 0 /\
  forall t t', (t < t' < length (pg_periods pg))%nat -> nth t (pg_periods pg) 0 < nth t' (pg_periods pg) 0.

Lemma np_max_R (x : list R) : x <> [] -> exists m, np_max numR x = Ok m /\ In m x /\ forall y, In y x -> y <= m.
Proof.
  induction x as [|a x IH]; [easy|]. intros _. destruct x as [|b x].
  - exists a. cbn. split; auto. split; auto. intros y [<-|[]]; lra.
  - destruct IH as (m & E & I & L); [discriminate|].
    change (np_max numR (a :: b :: x)) with (m <- np_max numR (b :: x) ;; Ok (if Rlt_bool a m then m else a)).
    rewrite E. cbn [bind]. destruct (Rlt_bool_spec a m) as [G|G].
    + exists m. split; auto. split; [now right|]. intros y [<-|H]; [lra|auto].
    + exists a. split; auto. split; [now left|]. intros y [<-|H]; [lra|]. apply L in H. lra.
Qed.

Lemma np_min_R (x : list R) : x <> [] -> exists m, np_min numR x = Ok m /\ In m x /\ forall y, In y x -> m <= y.
Proof.
  induction x as [|a x IH]; [easy|]. intros _. destruct x as [|b x].
  - exists a. cbn. split; auto. split; auto. intros y [<-|[]]; lra.
  - destruct IH as (m & E & I & L); [discriminate|].
    change (np_min numR (a :: b :: x)) with (m <- np_min numR (b :: x) ;; Ok (if Rlt_bool m a then m else a)).
    rewrite E. cbn [bind]. destruct (Rlt_bool_spec m a) as [G|G].
    + exists m. split; auto. split; [now right|]. intros y [<-|H]; [lra|auto].
    + exists a. split; auto. split; [now left|]. intros y [<-|H]; [lra|]. apply L in H. lra.
Qed.

Lemma sorted_limits (x : list R) : (0 < length x)%nat ->
  (forall t t', (t < t' < length x)%nat -> nth t x 0 < nth t' x 0) ->
  np_min numR x = Ok (nth 0 x 0) /\ np_max numR x = Ok (nth (length x - 1) x 0).
Proof.
  intros L S. assert (NE : x <> []) by (destruct x; [cbn in L; lia|discriminate]).
  assert (Le : forall t t', (t <= t' < length x)%nat -> nth t x 0 <= nth t' x 0).
  { intros t t' H. destruct (Nat.eq_dec t t') as [->|]; [lra|]. apply Rlt_le, S. lia. }
  destruct (np_min_R x NE) as (lo & E & I & M). destruct (np_max_R x NE) as (hi & E' & I' & M').
  split; [rewrite E|rewrite E']; f_equal; apply Rle_antisym.
  - apply M, nth_In; auto.
  - apply (In_nth _ _ 0) in I as (i & Hi & <-). apply Le. lia.
  - apply (In_nth _ _ 0) in I' as (i & Hi & <-). apply Le. lia.
  - apply M', nth_In; lia.
Qed.

Lemma mapM_ok {A B} (f : A -> res B) (P : A -> B -> Prop) l : (forall a, In a l -> exists b, f a = Ok b /\ P a b) ->
  exists l', mapM f l = Ok l' /\ Forall2 P l l'.
Proof.
  induction l as [|a l IH]; intros H; [exists []; split; [reflexivity|constructor]|].
  destruct (H a) as (b & E & Pb); [now left|]. destruct IH as (l' & E' & F); [intros; apply H; now right|].
  exists (b :: l'). cbn [mapM]. rewrite E, E'. split; [reflexivity|]. now constructor.
Qed.

Lemma Forall2_len {A B} (P : A -> B -> Prop) l l' : Forall2 P l l' -> length l = length l'.
Proof. induction 1; cbn; congruence. Qed.

(** the frequencies are in decreasing order *)
Theorem pgram_freqs : forall pg, searched pg ->
  length (pg_freqs numR pg) = length (pg_periods pg) /\
  (forall t, (t < length (pg_periods pg))%nat -> nth t (pg_freqs numR pg) 0 * nth t (pg_periods pg) 0 = 1) /\
  (forall t t', (t < t' < length (pg_periods pg))%nat -> nth t' (pg_freqs numR pg) 0 < nth t (pg_freqs numR pg) 0).
Proof.
  intros pg (_ & _ & _ & L & _ & P0 & S). unfold pg_freqs. rsimp. rewrite map_length. split; [reflexivity|].
  assert (Pos : forall t, (t < length (pg_periods pg))%nat -> 0 < nth t (pg_periods pg) 0).
  { intros [|t] Ht; auto. apply Rlt_trans with (1 := P0). apply S. lia. }
  assert (F : forall t, (t < length (pg_periods pg))%nat ->
    nth t (map (fun p => 1 / p) (pg_periods pg)) 0 = / nth t (pg_periods pg) 0).
  { intros t Ht. rewrite (nth_indep _ 0 (1 / 0)) by (now rewrite map_length).
    rewrite (map_nth (fun p => 1 / p)). unfold Rdiv. now rewrite Rmult_1_l. }
  split.
  - intros t Ht. numR_ty. rewrite F by auto. apply Rinv_l. apply Rgt_not_eq, Pos, Ht.
  - intros t t' Ht. numR_ty. rewrite !F by lia. apply Rinv_lt_contravar; [|now apply S].
    apply Rmult_lt_0_compat; apply Pos; lia.
Qed.
Print Assumptions pgram_freqs.

(** the value plotted at trial [t]: the best of all widths, or that of one width *)
Definition plotted (pg : pgram numR) (t : nat) (iwidth : option nat) (y : R) : Prop :=
  let s j := at2 0 (pg_snrs pg) t j in
  match iwidth with
  | None => (exists j, (j < length (pg_widths pg))%nat /\ y = s j) /\
            forall j, (j < length (pg_widths pg))%nat -> s j <= y
  | Some j => y = s j
  end.

Theorem pgram_plot : forall pg (iwidth : option Z) (j : option nat), searched pg ->
  match iwidth, j with
  | None, None => True
  | Some k, Some j => (j < length (pg_widths pg))%nat /\
      (k = Z.of_nat j \/ k = Z.of_nat j - Z.of_nat (length (pg_widths pg)))%Z
  | _, _ => False
  end ->
  exists points title, pg_plot numR pg iwidth
    = Ok (points, (nth 0 (pg_periods pg) 0, nth (length (pg_periods pg) - 1) (pg_periods pg) 0), title) /\
    length points = length (pg_periods pg) /\
    (forall t, (t < length (pg_periods pg))%nat ->
       exists y, nth t points (0, 0) = (nth t (pg_periods pg) 0, y) /\ plotted pg t j y) /\
    title = match j with None => None | Some j => Some (nth j (pg_widths pg) 0%Z) end.
Proof.
  intros pg iwidth j (_ & RS & CS & L & LW & P0 & S) HJ.
  destruct (sorted_limits _ L S) as [Lo Hi]. unfold pg_plot.
  set (n := length (pg_periods pg)) in *.
  assert (Fin : forall snr : list R, length snr = n ->
    (forall t, (t < n)%nat -> plotted pg t j (nth t snr 0)) ->
    length (combine (pg_periods pg) snr) = n /\
    (forall t, (t < n)%nat -> exists y, nth t (combine (pg_periods pg) snr) (0, 0) = (nth t (pg_periods pg) 0, y) /\ plotted pg t j y)).
  { intros snr Ls V. split; [rewrite combine_length; fold n; numR_ty; lia|].
    intros t Ht. exists (nth t snr 0). split; [|auto]. rewrite combine_nth by (fold n; auto). reflexivity. }
  destruct iwidth as [k|], j as [j|]; try easy.
  - destruct HJ as [Hj HK]. rewrite CS.
    assert (EI : np_index (length (pg_widths pg)) k = Ok j).
    { unfold np_index. destruct HK as [-> | ->].
      - rewrite (proj2 (Z.leb_le 0 _)), (proj2 (Z.ltb_lt _ _)) by lia. cbn [andb]. now rewrite Nat2Z.id.
      - rewrite (proj2 (Z.leb_gt 0 _)) by lia. cbn [andb].
        rewrite (proj2 (Z.leb_le _ _)), (proj2 (Z.ltb_lt _ _)) by lia. cbn [andb]. f_equal. lia. }
    rewrite EI. cbn [bind]. rewrite RS. fold n. numR_ty. rewrite map_length, seq_length, Nat.eqb_refl. cbn [guard bind].
    rewrite Lo. cbn [bind]. rewrite Hi. cbn [bind].
    destruct (Fin (map (fun i => at2 0 (pg_snrs pg) i j) (seq 0 n))) as [R1 R2].
    + now rewrite map_length, seq_length.
    + intros t Ht. unfold plotted. rewrite (nth_indep _ 0 (at2 0 (pg_snrs pg) 0 j)) by (now rewrite map_length, seq_length).
      rewrite (map_nth (fun i => at2 0 (pg_snrs pg) i j)). now rewrite seq_nth.
    + do 2 eexists. split; [reflexivity|]. split; [exact R1|]. split; [exact R2|reflexivity].
  - rewrite CS, (proj2 (Nat.ltb_lt 0 _)) by exact LW. cbn [guard bind].
    destruct (mapM_ok (fun i => np_max numR (pg_row numR pg i)) (fun i y => plotted pg i None y) (seq 0 (a_rows (pg_snrs pg))))
      as (snr & EM & F).
    { intros i _. destruct (np_max_R (pg_row numR pg i)) as (m & E & I & M).
      - unfold pg_row. rewrite CS. destruct (length (pg_widths pg)); [lia|discriminate].
      - exists m. split; [exact E|]. unfold pg_row in *. rewrite CS in *. revert I M. rsimp. intros I M. split.
        + apply in_map_iff in I as (q & <- & Hq). apply in_seq in Hq. exists q. split; [lia|reflexivity].
        + intros q Hq. apply M. apply in_map_iff. exists q. split; [reflexivity|]. apply in_seq. lia. }
    rewrite EM. cbn [bind]. pose proof (Forall2_len _ _ _ F) as LS. rewrite seq_length, RS in LS. fold n in LS.
    numR_ty. rewrite <- LS, Nat.eqb_refl. cbn [guard bind]. rewrite Lo. cbn [bind]. rewrite Hi. cbn [bind].
    destruct (Fin snr) as [R1 R2].
    + auto.
    + intros t Ht. rewrite RS in F. fold n in F. clear - F Ht.
      assert (G : forall l l', Forall2 (fun i y => plotted pg i None y) l l' -> forall t, (t < length l)%nat -> plotted pg (nth t l 0%nat) None (nth t l' 0)).
      { induction 1; intros [|u] Hu; cbn in *; try lia; auto. apply IHForall2. lia. }
      specialize (G _ _ F t). rewrite seq_length, seq_nth in G by auto. now apply G.
    + do 2 eexists. split; [reflexivity|]. split; [exact R1|]. split; [exact R2|reflexivity].
Qed.
Print Assumptions pgram_plot.

(** an index out of range *)
Theorem pgram_plot_index : forall pg (k : Z), searched pg ->
  (k < - Z.of_nat (length (pg_widths pg)) \/ Z.of_nat (length (pg_widths pg)) <= k)%Z ->
  pg_plot numR pg (Some k) = Err IndexError.
Proof.
  intros pg k (_ & RS & CS & L & LW & P0 & S) H. unfold pg_plot, np_index. rewrite CS.
  replace ((0 <=? k) && (k <? Z.of_nat (length (pg_widths pg))))%Z with false
    by (symmetry; apply andb_false_iff; destruct (Z.leb_spec 0 k), (Z.ltb_spec k (Z.of_nat (length (pg_widths pg)))); auto; lia).
  replace ((- Z.of_nat (length (pg_widths pg)) <=? k) && (k <? 0))%Z with false
    by (symmetry; apply andb_false_iff; destruct (Z.leb_spec (- Z.of_nat (length (pg_widths pg))) k), (Z.ltb_spec k 0); auto; lia).
  reflexivity.
Qed.
Print Assumptions pgram_plot_index.

Example searched_ex : searched (Pgram (N := numR) [1; 2]%Z [1; 2; 4] [20; 20; 20]%Z (Arr2 3 2 [1; 2; 4; 3; 5; 6]) []).
Proof.
  unfold searched. cbn. repeat split; try lia; try lra.
  intros [|[|[|t]]] [|[|[|t']]] H; try lia; lra.
Qed.
