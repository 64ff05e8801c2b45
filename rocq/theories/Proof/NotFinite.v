(** Infinities and NaNs in the data of normalise(), deredden() and find_peaks(). *)
From Coq Require Import List Arith ZArith Bool Lia Reals SpecFloat Permutation.
From Flocq Require Import Core BinarySingleNaN.
From Verif Require Import Base.Result Base.Buf Base.Num Model.RunMed Model.FastRmed Model.TimeSeries Model.Cluster Model.Peaks
  Model.Transforms Spec.Ieee Proof.Ieee Proof.SumOrder.
Import ListNotations.

Section NotFinite.
Context (bld : build).
Notation NI := (numI bld).
Notation nan := S754_nan.

Lemma nf_cases x : not_finite x -> x = nan \/ exists s, x = S754_infinity s.
Proof. destruct x; cbn; intros H; try discriminate; eauto. Qed.

Ltac nf H := apply nf_cases in H as [->|(? & ->)].

Lemma nf_round p e x : not_finite x -> sf_round p e x = x.
Proof. intros H. nf H; reflexivity. Qed.

Lemma nf_add_l p e x y : not_finite x -> not_finite (SFadd p e x y).
Proof. intros H. nf H; destruct y as [?|?| |? ? ?]; cbn; try reflexivity. destruct (Bool.eqb _ _); reflexivity. Qed.
Lemma nf_add_r p e x y : not_finite y -> not_finite (SFadd p e x y).
Proof. intros H. nf H; destruct x as [?|?| |? ? ?]; cbn; try reflexivity. destruct (Bool.eqb _ _); reflexivity. Qed.
Lemma nf_sub_l p e x y : not_finite x -> not_finite (SFsub p e x y).
Proof. intros H. nf H; destruct y as [?|?| |? ? ?]; cbn; try reflexivity. destruct (Bool.eqb _ _); reflexivity. Qed.
Lemma nf_sub_r p e x y : not_finite y -> not_finite (SFsub p e x y).
Proof. intros H. nf H; destruct x as [?|?| |? ? ?]; cbn; try reflexivity. destruct (Bool.eqb _ _); reflexivity. Qed.
Lemma nf_mul p e x : not_finite x -> not_finite (SFmul p e x x).
Proof. intros H. nf H; reflexivity. Qed.
Lemma nf_div_l p e x y : not_finite x -> not_finite (SFdiv p e x y).
Proof. intros H. nf H; destruct y as [?|?| |? ? ?]; reflexivity. Qed.
Lemma nf_div_nan p e x y : not_finite x -> not_finite y -> SFdiv p e x y = nan.
Proof. intros H H'. nf H; nf H'; reflexivity. Qed.
Lemma nf_sqrt p e x : not_finite x -> not_finite (SFsqrt p e x).
Proof. intros H. nf H; [reflexivity|]. destruct x0; reflexivity. Qed.
Lemma nf_up p e x : not_finite x -> not_finite (sf_round p e x).
Proof. intros H. now rewrite nf_round. Qed.

(** ** the operations *)
Lemma d_add_l (x y : spec_float) : not_finite x -> not_finite (o_add (@n_dbl NI) x y).
Proof. intros H. cbn. apply nf_up, nf_add_l, nf_up, H. Qed.
Lemma d_add_r (x y : spec_float) : not_finite y -> not_finite (o_add (@n_dbl NI) x y).
Proof. intros H. cbn. apply nf_up, nf_add_r, nf_up, H. Qed.
Lemma d_sub_l (x y : spec_float) : not_finite x -> not_finite (o_sub (@n_dbl NI) x y).
Proof. intros H. cbn. apply nf_up, nf_sub_l, nf_up, H. Qed.
Lemma d_sub_r (x y : spec_float) : not_finite y -> not_finite (o_sub (@n_dbl NI) x y).
Proof. intros H. cbn. apply nf_up, nf_sub_r, nf_up, H. Qed.
Lemma d_sqr (x : spec_float) : not_finite x -> not_finite (o_mul (@n_dbl NI) x x).
Proof. intros H. cbn. apply nf_up, nf_mul, nf_up, H. Qed.
Lemma d_div_l (x y : spec_float) : not_finite x -> not_finite (o_div (@n_dbl NI) x y).
Proof. intros H. cbn. apply nf_up, nf_div_l, nf_up, H. Qed.
Lemma d_div_nan (x y : spec_float) : not_finite x -> not_finite y -> o_div (@n_dbl NI) x y = nan.
Proof. intros H H'. cbn. rewrite nf_div_nan; auto using nf_up. Qed.
Lemma d_sqrt (x : spec_float) : not_finite x -> not_finite (o_sqrt (@n_dbl NI) x).
Proof. intros H. cbn. apply nf_up, nf_sqrt, nf_up, H. Qed.
Lemma narrow_nf (x : spec_float) : not_finite x -> not_finite (@n_narrow NI x).
Proof. intros H. cbn. apply nf_up, nf_up, H. Qed.

(** a sum with such a term, in any order *)
Lemma nsum_nf k (l : list spec_float) v : In v l -> not_finite v -> not_finite (nsum NI k l).
Proof.
  intros Hv Hn. unfold nsum. assert (Hl : l <> []) by (destruct l; [destruct Hv|discriminate]).
  assert (Hx : exists v, In v l /\ not_finite v) by eauto. clear v Hv Hn. revert Hx.
  apply (sum_vals_ind (T := spec_float)) with (bld := bld)
    (P := fun l s => (exists v, In v l /\ not_finite v) -> not_finite s); auto.
  - intros x (v & [<-|[]] & H). exact H.
  - clear l k Hl. intros l x y r v HP IH (w & Hw & Hn). apply IH. rewrite HP in Hw. destruct Hw as [<-|[<-|Hw]].
    + eexists. split; [left; reflexivity|]. now apply (d_add_l x y).
    + eexists. split; [left; reflexivity|]. now apply (d_add_r x y).
    + exists w. split; auto. now right.
Qed.

Lemma nmean_nf k (l : list spec_float) v : In v l -> not_finite v -> not_finite (nmean NI k l).
Proof. intros H1 H2. unfold nmean. apply d_div_l. now apply nsum_nf with v. Qed.

Lemma normalised_nf (x : list spec_float) v : In v x -> not_finite v ->
  normalised NI x = repeat nan (length x).
Proof.
  intros Hv Hn. unfold normalised, normalised64. rewrite map_map.
  assert (M : not_finite (mean NI x)) by now apply nmean_nf with v.
  assert (V : not_finite (var NI x)).
  { unfold var. eapply nmean_nf; [apply (in_map (fun v => o_mul (@n_dbl NI) (o_sub (@n_dbl NI) v (mean NI x)) (o_sub (@n_dbl NI) v (mean NI x)))); exact Hv|].
    now apply d_sqr, d_sub_r. }
  change (n_T NI) with spec_float. clear Hv Hn.
  assert (G : forall l, map (fun v : spec_float => @n_narrow NI (o_div (@n_dbl NI) (o_sub (@n_dbl NI) v (mean NI x)) (o_sqrt (@n_dbl NI) (var NI x)))) l
    = repeat nan (length l)); [|apply G].
  induction l as [|a l IH]; [reflexivity|]. cbn [map length repeat]. rewrite IH. f_equal.
  rewrite d_div_nan; [reflexivity| |].
  - now apply d_sub_r.
  - now apply d_sqrt.
Qed.

Lemma minus_nf (x r : list spec_float) v : length r = length x -> In v x -> not_finite v ->
  exists w, In w (minus NI x r) /\ not_finite w.
Proof.
  revert r. induction x as [|a x IH]; intros [|b r] HL Hv Hn; try discriminate; [destruct Hv|].
  cbn in HL. unfold minus. cbn [combine map fst snd]. destruct Hv as [<-|Hv].
  - eexists. split; [left; reflexivity|]. apply narrow_nf. now apply d_sub_l.
  - destruct (IH r ltac:(lia) Hv Hn) as (w & Hw & H). exists w. split; auto. now right.
Qed.

(** ** find_peaks() on NaNs *)
Lemma insert_nan a l : (forall v, In v (a :: l) -> v = nan) -> insert_asc (@n_ltb NI) a l = a :: l.
Proof.
  intros H. destruct l as [|b l]; [reflexivity|]. cbn [insert_asc].
  rewrite (H b) by (right; now left). reflexivity.
Qed.

Lemma sort_nan l : (forall v : spec_float, In v l -> v = nan) -> nsort NI l = l.
Proof.
  intros H. unfold nsort, sorted_asc. change (n_T NI) with spec_float in *. induction l as [|a l IH]; [reflexivity|]. cbn [fold_right].
  rewrite IH by (intros; apply H; now right). now apply insert_nan.
Qed.

Lemma d_sub_nan (x : spec_float) : o_sub (@n_dbl NI) x nan = nan.
Proof. cbn. now destruct (sf_round 53 1024 x). Qed.
Lemma d_mul_nan_l (x : spec_float) : o_mul (@n_dbl NI) nan x = nan.
Proof. cbn. reflexivity. Qed.
Lemma d_mul_nan (x : spec_float) : o_mul (@n_dbl NI) x nan = nan.
Proof. cbn. now destruct (sf_round 53 1024 x). Qed.
Lemma d_add_nan (x : spec_float) : o_add (@n_dbl NI) x nan = nan.
Proof. cbn. now destruct (sf_round 53 1024 x). Qed.
Lemma d_sub_nan_l (x : spec_float) : o_sub (@n_dbl NI) nan x = nan.
Proof. reflexivity. Qed.
Lemma d_div_nan_l (x : spec_float) : o_div (@n_dbl NI) nan x = nan.
Proof. reflexivity. Qed.

Lemma percentile_nan q l : l <> [] -> (forall v : spec_float, In v l -> v = nan) -> percentile NI q l = nan.
Proof.
  intros Hl H. unfold percentile. rewrite (sort_nan l H). cbv zeta. change (n_T NI) with spec_float in *.
  match goal with |- context [nth (Nat.min ?k ?m) l ?z] => assert (B : nth (Nat.min k m) l z = nan) end.
  { apply H, nth_In. assert (length l <> 0)%nat by (destruct l; [congruence|discriminate]). lia. }
  rewrite B, !d_sub_nan_l, !d_mul_nan_l, d_add_nan. now destruct (n_ltb _ _).
Qed.

Lemma seg_nan n m p i : (i < m)%nat -> (0 < p)%nat -> (m * p <= n)%nat ->
  firstn p (skipn (i * p) (repeat nan n)) <> [] /\
  forall v, In v (firstn p (skipn (i * p) (repeat nan n))) -> v = nan.
Proof.
  intros Hi Hp Hm. split.
  - assert (S i * p <= m * p)%nat by (apply Nat.mul_le_mono_r; lia). cbn [Nat.mul] in *.
    assert (L : (0 < length (firstn p (skipn (i * p) (repeat nan n))))%nat).
    { rewrite firstn_length, skipn_length, repeat_length. lia. }
    intros E. rewrite E in L. cbn in L. lia.
  - intros v Hv. apply (repeat_spec n).
    rewrite <- (firstn_skipn (i * p) (repeat nan n)). apply in_or_app. right.
    rewrite <- (firstn_skipn p (skipn (i * p) (repeat nan n))). apply in_or_app. now left.
Qed.

Lemma map_const {A B} (f : A -> B) c l : (forall a, In a l -> f a = c) -> map f l = repeat c (length l).
Proof. induction l as [|a l IH]; intros H; [reflexivity|]. cbn. rewrite H by now left. f_equal. apply IH. intros; apply H; now right. Qed.

(** the statistics of NaNs are NaN, for as many segments as of any other values *)
Lemma segment_stats_nan (f s : list spec_float) T segwidth :
  length s = length f ->
  segment_stats NI f (repeat nan (length f)) T segwidth
  = bind (segment_stats NI f s T segwidth) (fun '(fc, _, _) => Ok (fc, repeat nan (length fc), repeat nan (length fc))).
Proof.
  intros HS. unfold segment_stats. cbv zeta. change (n_T NI) with spec_float in *.
  destruct (length f =? 0)%nat; [reflexivity|].
  match goal with |- context [(?q =? 0)%Z] => generalize q; intros z end.
  destruct (Z.eqb_spec z 0) as [|H0]; [reflexivity|]. destruct (Z.ltb_spec z 0) as [|H1]; [reflexivity|].
  set (m := Z.to_nat z) in *. assert (Hm : (0 < m)%nat) by (unfold m; lia).
  destruct (Nat.eqb_spec (length f / m) 0) as [|Hp]; [reflexivity|]. cbn [bind].
  set (p := (length f / m)%nat) in *.
  assert (HM : (m * p <= length f)%nat) by (unfold p; apply Nat.mul_div_le; lia).
  rewrite (map_length _ (seq 0 m)), seq_length.
  assert (G : forall q i, (i < m)%nat -> percentile NI q (firstn p (skipn (i * p) (repeat nan (length f)))) = nan).
  { intros q i Hi. destruct (seg_nan (length f) m p i Hi ltac:(lia) HM). now apply percentile_nan. }
  do 2 f_equal.
  - f_equal. rewrite (map_const _ nan); [now rewrite seq_length|]. intros i Hi. apply in_seq in Hi. apply G. lia.
  - rewrite (map_const _ nan); [now rewrite seq_length|]. intros i Hi. apply in_seq in Hi. rewrite !G by lia. reflexivity.
Qed.

Lemma find_single_nan fit argsort (f s : list spec_float) T smin segwidth nstd minseg polydeg clrad :
  length s = length f ->
  find_peaks_single NI fit argsort f (repeat nan (length f)) T smin segwidth nstd minseg polydeg clrad
  = bind (segment_stats NI f s T segwidth) (fun '(fc, _, _) =>
      if (minseg <=? Z.of_nat (length fc))%Z then bind (fit fc (repeat nan (length fc)) polydeg) (fun _ => Ok []) else Ok []).
Proof.
  intros HS. unfold find_peaks_single. rewrite (segment_stats_nan f s) by auto.
  destruct (segment_stats NI f s T segwidth) as [[[fc sm] sd]| | |]; cbn [bind]; try reflexivity.
  change (n_T NI) with spec_float in *.
  assert (SC : map (fun p : spec_float * spec_float => o_add (@n_dbl NI) (fst p) (o_mul (@n_dbl NI) nstd (snd p)))
      (combine (repeat nan (length fc)) (repeat nan (length fc))) = repeat nan (length fc)).
  { generalize (length fc). induction n as [|n IH]; [reflexivity|]. cbn [repeat combine map fst snd]. rewrite IH. reflexivity. }
  change (n_T NI) with spec_float in *. rewrite SC.
  assert (MASK : forall thr : spec_float -> spec_float, filter (fun i => @n_ltb NI (thr (nth i f (o_ofZ (@n_dbl NI) 0))) (nth i (repeat nan (length f)) (o_ofZ (@n_dbl NI) 0))
      && @n_ltb NI smin (nth i (repeat nan (length f)) (o_ofZ (@n_dbl NI) 0))) (seq 0 (length f)) = []).
  { intros thr. assert (K : forall l, (forall i, In i l -> (i < length f)%nat) -> filter (fun i => @n_ltb NI (thr (nth i f (o_ofZ (@n_dbl NI) 0))) (nth i (repeat nan (length f)) (o_ofZ (@n_dbl NI) 0))
      && @n_ltb NI smin (nth i (repeat nan (length f)) (o_ofZ (@n_dbl NI) 0))) l = []).
    { induction l as [|i l IH]; intros Hl; [reflexivity|]. cbn [filter].
      assert (N1 : nth i (repeat nan (length f)) (o_ofZ (@n_dbl NI) 0) = nan).
      { apply (repeat_spec (length f)). apply nth_In. rewrite repeat_length. apply Hl. now left. }
      rewrite N1.
      assert (N2 : forall x : spec_float, @n_ltb NI x nan = false) by (intros x; cbn; unfold SFltb; now destruct x).
      rewrite N2. cbn [andb]. apply IH. intros; apply Hl; now right. }
    apply K. intros i Hi. apply in_seq in Hi. lia. }
  change (n_T NI) with spec_float in *.
  destruct (minseg <=? Z.of_nat (length fc))%Z; cbn [bind].
  - destruct (fit fc (repeat nan (length fc)) polydeg) as [thr| | |]; cbn [bind]; try reflexivity.
    match goal with |- context [filter ?g ?l] => replace (filter g l) with (@nil nat) by (symmetry; exact (MASK thr)) end. reflexivity.
  - match goal with |- context [filter ?g ?l] => replace (filter g l) with (@nil nat) by (symmetry; exact (MASK (fun _ => smin))) end. reflexivity.
Qed.
End NotFinite.
