(** C36 - C38, C61: folding. *)
From Coq Require Import List Arith ZArith Bool Lia Reals Lra Psatz SpecFloat.
From Flocq Require Import Core Relative.
From Verif Require Import Base.Result Base.Buf Base.Num Model.Transforms Model.Downsample
  Model.Folding Spec.Sums Spec.Overlap Proof.SumOrder Proof.Downsample Props.Downsample.
Import ListNotations.
Local Open Scope R_scope.

(** the documented reasons to refuse, for data of [len] seconds *)
Definition fold_refused (len tsamp period : R) (bins : nat) (subints : option Z) : Prop :=
  len < period \/ period / INR bins <= tsamp \/
  match subints with None => False | Some s => (s < 1)%Z \/ len / period < IZR s end.

(** sample [k] of the data downsampled to one sample per phase bin *)
Definition binned (data : list R) (f : R) (k : nat) : R :=
  rsum (length data) (fun i => nth i data 0 * weight i (INR k * f) ((INR k + 1) * f)).

Lemma mapM_ok {A B} (f : A -> res B) (g : A -> B) l :
  (forall a, In a l -> f a = Ok (g a)) -> mapM f l = Ok (map g l).
Proof.
  induction l as [|a l IH]; cbn; intros H; auto.
  rewrite (H a) by now left. cbn. rewrite IH; auto.
Qed.

Lemma nth_flat_map_rows {A} (g : nat -> list A) n b r c d :
  (forall r, length (g r) = b) -> (r < n)%nat -> (c < b)%nat ->
  nth (r * b + c) (flat_map g (seq 0 n)) d = nth c (g r) d.
Proof.
  intros Hg. assert (G : forall n o r, (r < n)%nat -> (c < b)%nat ->
    nth (r * b + c) (flat_map g (seq o n)) d = nth c (g (o + r)%nat) d).
  { clear n r. induction n as [|n IH]; intros o r Hr Hc; [lia|].
    cbn [seq flat_map]. destruct r as [|r].
    - cbn [Nat.mul Nat.add]. rewrite app_nth1 by (rewrite Hg; lia). now rewrite Nat.add_0_r.
    - rewrite app_nth2 by (rewrite Hg; nia). rewrite Hg.
      replace (S r * b + c - b)%nat with (r * b + c)%nat by nia.
      rewrite IH by lia. f_equal. f_equal. lia. }
  intros Hr Hc. now rewrite (G n 0%nat r Hr Hc).
Qed.

Lemma length_flat_map_rows {A} (g : nat -> list A) n b :
  (forall r, length (g r) = b) -> length (flat_map g (seq 0 n)) = (n * b)%nat.
Proof.
  intros Hg. generalize 0%nat. induction n as [|n IH]; intros o; cbn; auto.
  rewrite app_length, Hg, IH. lia.
Qed.

Lemma nth_map_in {A B} (f : A -> B) l i d d' : (i < length l)%nat -> nth i (map f l) d = f (nth i l d').
Proof.
  intros H. rewrite nth_indep with (d' := f d') by now rewrite map_length. apply map_nth.
Qed.

Lemma nth_seq_map {B} (f : nat -> B) n i d : (i < n)%nat -> nth i (map f (seq 0 n)) d = f i.
Proof.
  intros H. rewrite nth_map_in with (d' := 0%nat) by now rewrite seq_length. now rewrite seq_nth.
Qed.

Lemma nth_firstn_lt {A} (l : list A) n i d : (i < n)%nat -> nth i (firstn n l) d = nth i l d.
Proof.
  revert l i. induction n as [|n IH]; intros l i Hi; [lia|].
  destruct l as [|a l]; cbn; [now destruct i|]. destruct i; auto. apply IH. lia.
Qed.

Lemma column_sums_R (X : arr2 R) c : (c < a_cols X)%nat ->
  nth c (column_sums numR X) 0 = rsum (a_rows X) (fun r => at2 0 X r c).
Proof.
  intros Hc. unfold column_sums. numR_ty. rewrite nth_seq_map by auto.
  etransitivity; [exact (exact_sum_list (column numR X c))|].
  unfold column. numR_ty. rewrite map_length, seq_length.
  apply rsum_ext. intros r Hr. rewrite nth_seq_map by auto. reflexivity.
Qed.

Section Exact.
Context (alloc : nat -> list R) (Ha : allocates alloc).
Context (data : list R) (tsamp period : R) (bins : nat).
Let n := length data.
Let len := INR n * tsamp.
Let f := period / INR bins / tsamp.
Context (Ht : 0 < tsamp) (Hb : (1 <= bins)%nat).
Context (H1 : period <= len) (H2 : tsamp < period / INR bins).

Lemma fold_facts : 0 < INR bins /\ 0 < period /\ 1 < f <= INR n /\
  INR n / f = INR bins * (len / period) /\ 1 <= len / period.
Proof.
  assert (B : 1 <= INR bins) by (apply (le_INR 1); lia).
  assert (P : 0 < period).
  { apply Rmult_lt_reg_r with (/ INR bins); [apply Rinv_0_lt_compat; lra|]. unfold Rdiv in H2. lra. }
  assert (F : 1 < f).
  { unfold f. apply Rmult_lt_reg_r with tsamp; auto. unfold Rdiv at 1.
    rewrite Rmult_assoc, Rinv_l by lra. lra. }
  assert (L : 1 <= len / period).
  { apply Rmult_le_reg_r with period; auto. unfold Rdiv. rewrite Rmult_assoc, Rinv_l by lra. lra. }
  assert (FN : f <= INR n).
  { unfold f. apply Rmult_le_reg_r with tsamp; auto. unfold Rdiv at 1.
    rewrite Rmult_assoc, Rinv_l by lra. rewrite Rmult_1_r. fold len.
    apply Rle_trans with period; auto. apply Rmult_le_reg_r with (INR bins); [lra|].
    unfold Rdiv. rewrite Rmult_assoc, Rinv_l by lra. nra. }
  split; [lra|]. split; auto. split; auto. split; auto.
  unfold f, len. field. repeat split; lra.
Qed.

Lemma fold_down : exists (down : list R) (m : nat),
  py_downsample numR alloc data f = Ok down /\ m = (length down / bins)%nat /\
  INR m <= len / period < INR m + 1 /\ (1 <= m)%nat /\ (m * bins <= length down)%nat /\
  forall k, (k < length down)%nat -> nth k down 0 = binned data f k.
Proof.
  destruct fold_facts as (B & P & F & E & L).
  destruct (proj2 (downsample_integrates alloc data f Ha) F) as (down & k & Ed & Lk & Bk & V).
  exists down, (length down / bins)%nat. split; auto. split; auto.
  pose proof (Nat.div_mod (length down) bins ltac:(lia)) as D.
  pose proof (Nat.mod_upper_bound (length down) bins ltac:(lia)) as M.
  set (m := (length down / bins)%nat) in *. fold n in Bk. rewrite E in Bk. rewrite <- Lk in Bk, V.
  assert (Q1 : INR m * INR bins <= INR (length down)).
  { rewrite <- mult_INR. apply le_INR. lia. }
  assert (Q2 : INR (length down) + 1 <= (INR m + 1) * INR bins).
  { rewrite <- !S_INR, <- mult_INR. apply le_INR. lia. }
  assert (R1 : INR m <= len / period < INR m + 1) by (split; nra).
  split; auto. split.
  - apply INR_le. assert (INR m < INR m + 1) by lra.
    assert (Q : 1 < INR m + 1) by lra. rewrite <- S_INR in Q. apply (INR_lt 1) in Q.
    apply le_INR. lia.
  - split; [lia|]. exact V.
Qed.
End Exact.

Lemma Rlt_bool_t a b : a < b -> Rlt_bool a b = true.
Proof. intros. now apply Rlt_bool_true. Qed.
Lemma Rlt_bool_f a b : b <= a -> Rlt_bool a b = false.
Proof. intros. now apply Rlt_bool_false. Qed.

(** what follows the checks, for the matrix of scaled cells *)
Lemma fold_rest (alloc : nat -> list R) data tsamp period bins subints (down : list R) :
  (1 <= bins)%nat ->
  ~ fold_refused (INR (length data) * tsamp) tsamp period bins subints ->
  py_downsample numR alloc data (period / INR bins / tsamp) = Ok down ->
  let m := (length down / bins)%nat in
  INR m * (period / INR bins / tsamp) <> 0 ->
  let X : arr2 R := Arr2 m bins (map (fun v : R => v * (1 / sqrt (INR m * (period / INR bins / tsamp))))
      (firstn (m * bins) down)) in
  fold numR alloc data tsamp period bins subints =
  match subints with
  | None => if (m =? 1)%nat then Ok (Prof (column_sums numR X)) else Ok (Subs X)
  | Some s =>
    if ((s =? 1)%Z || (m =? 1)%nat)%bool then Ok (Prof (column_sums numR X))
    else if (s =? Z.of_nat m)%Z then Ok (Subs X)
    else Y <- downsample_vertical numR alloc X (INR m / IZR s) ;; Ok (Subs Y)
  end.
Proof.
  intros Hb HR Ed m Hm X. unfold fold. rsimp. rewrite <- !INR_IZR_INZ. numR_ty.
  unfold fold_refused in HR.
  assert (E0 : (bins =? 0)%nat = false) by (apply Nat.eqb_neq; lia). rewrite E0.
  rewrite Rlt_bool_f by (apply Rnot_lt_le; tauto).
  rewrite Rlt_bool_t by (apply Rnot_le_lt; tauto). cbn [guard bind].
  match goal with |- bind ?g _ = _ => assert (EG : g = Ok tt) end.
  { destruct subints as [s|]; [|reflexivity].
    destruct (Z.leb_spec 1 s); [|exfalso; tauto]. cbn [guard bind].
    rewrite Rlt_bool_f by (apply Rnot_lt_le; tauto). reflexivity. }
  rewrite EG. cbn [bind]. rewrite Ed. cbn [bind]. fold m. rewrite <- !INR_IZR_INZ.
  rewrite Req_bool_false by exact Hm. reflexivity.
Qed.

(** downsample_vertical by [m / s] *)
Lemma vertical_R (alloc : nat -> list R) (X : arr2 R) s : allocates alloc ->
  (2 <= s < a_rows X)%nat ->
  exists Y : arr2 R, downsample_vertical numR alloc X (INR (a_rows X) / INR s) = Ok Y /\
    a_rows Y = s /\ a_cols Y = a_cols X /\ arr2_wf Y /\
    forall q c, (q < s)%nat -> (c < a_cols X)%nat ->
      at2 0 Y q c = rsum (a_rows X) (fun r => at2 0 X r c *
         weight r (INR q * (INR (a_rows X) / INR s)) ((INR q + 1) * (INR (a_rows X) / INR s))).
Proof.
  intros Ha Hs. set (m := a_rows X) in *. set (vf := INR m / INR s).
  assert (S2 : 2 <= INR s) by (apply (le_INR 2); lia).
  assert (SM : INR s + 1 <= INR m) by (rewrite <- S_INR; apply le_INR; lia).
  assert (EV : INR m / vf = INR s) by (unfold vf; field; lra).
  assert (VB : 1 < vf < INR m).
  { split.
    - apply Rmult_lt_reg_r with (INR s); [lra|]. unfold vf, Rdiv. rewrite Rmult_assoc, Rinv_l; lra.
    - apply Rmult_lt_reg_r with (INR s); [lra|]. unfold vf, Rdiv. rewrite Rmult_assoc, Rinv_l; nra. }
  assert (DS : downsampled_size numR m vf = s).
  { destruct (downsampled_size_R m vf ltac:(lra)) as [A B].
    assert (EM : INR m = INR s * vf) by (unfold vf; field; lra).
    set (k := downsampled_size numR m vf) in *.
    assert (INR k <= INR s) by (apply Rmult_le_reg_r with vf; lra).
    assert (INR s < INR k + 1) by (apply Rmult_lt_reg_r with vf; lra).
    apply INR_le in H. rewrite <- S_INR in H0. apply INR_lt in H0. lia. }
  set (dn := fun c => match py_downsample numR alloc (column numR X c) vf with Ok o => o | _ => nil end).
  assert (DN : forall c, (c < a_cols X)%nat ->
    py_downsample numR alloc (column numR X c) vf = Ok (dn c) /\ length (dn c) = s /\
    forall q, (q < s)%nat -> nth q (dn c) 0 = rsum m (fun r => at2 0 X r c *
         weight r (INR q * vf) ((INR q + 1) * vf))).
  { intros c Hc.
    assert (LC : @length R (column numR X c) = m) by (unfold column; now rewrite map_length, seq_length).
    destruct (proj2 (downsample_integrates alloc (column numR X c) vf Ha)) as (o & k & Eo & Lo & Bo & Vo).
    { rewrite LC. lra. }
    unfold dn. numR_ty. rewrite Eo. split; auto. rewrite LC, EV in Bo. rewrite LC in Vo.
    assert (k = s).
    { destruct Bo as [B1 B2]. apply INR_le in B1. rewrite <- S_INR in B2. apply INR_lt in B2. lia. }
    subst k. rewrite H in Vo. split; [lia|]. intros q Hq. rewrite Vo by auto.
    apply rsum_ext. intros r Hr. f_equal. unfold column. numR_ty. rewrite nth_seq_map by auto. reflexivity. }
  exists (from_columns numR s (map dn (seq 0 (a_cols X)))). split.
  { unfold downsample_vertical. rsimp. fold m. rewrite <- INR_IZR_INZ.
    rewrite Rlt_bool_t by lra. rewrite Rlt_bool_t by lra. cbn [guard bind].
    rewrite (mapM_ok _ dn).
    - cbn [bind]. numR_ty. now rewrite DS.
    - intros c Hc. apply in_seq in Hc. apply DN. lia. }
  assert (LR : forall r, length (map (fun c : list R => nth r c 0) (map dn (seq 0 (a_cols X)))) = a_cols X).
  { intros. now rewrite !map_length, seq_length. }
  unfold from_columns. rsimp. cbn [a_rows a_cols]. rewrite map_length, seq_length.
  split; auto. split; auto. split.
  { unfold arr2_wf. cbn [a_rows a_cols a_data]. now apply length_flat_map_rows. }
  intros q c Hq Hc. unfold at2 at 1. cbn [a_rows a_cols a_data].
  rewrite (nth_flat_map_rows _ s (a_cols X)) by auto.
  rewrite nth_map_in with (d' := nil) by now rewrite map_length, seq_length.
  rewrite nth_seq_map by auto. now apply DN.
Qed.

(** C36, C37 (exact arithmetic): when fold() refuses, the shape of what it returns and every
    value.  [m] is the number of whole periods, [f] the number of samples per bin. *)
Theorem fold_correct :
  forall (alloc : nat -> list R) (data : list R) (tsamp period : R) (bins : nat) (subints : option Z),
  allocates alloc -> 0 < tsamp -> (1 <= bins)%nat ->
  let len := INR (length data) * tsamp in
  let f := period / INR bins / tsamp in
  (fold_refused len tsamp period bins subints ->
     fold numR alloc data tsamp period bins subints = Err ValueError) /\
  (~ fold_refused len tsamp period bins subints ->
   exists m, (1 <= m)%nat /\ INR m <= len / period < INR m + 1 /\
     let cell r c := binned data f (r * bins + c) / sqrt (INR m * f) in
     if match subints with None => m =? 1 | Some s => (s =? 1)%Z end then
       exists p : list R, fold numR alloc data tsamp period bins subints = Ok (Prof p) /\
         length p = bins /\
         forall c, (c < bins)%nat -> nth c p 0 = rsum m (fun r => cell r c)
     else
       let s := match subints with None => m | Some s => Z.to_nat s end in
       exists Y : arr2 R, fold numR alloc data tsamp period bins subints = Ok (Subs Y) /\
         (2 <= s <= m)%nat /\ a_rows Y = s /\ a_cols Y = bins /\ arr2_wf Y /\
         (forall q c, (q < s)%nat -> (c < bins)%nat ->
           at2 0 Y q c = rsum m (fun r =>
             cell r c * weight r (INR q * (INR m / INR s)) ((INR q + 1) * (INR m / INR s)))) /\
         (forall c, (c < bins)%nat ->
           rsum s (fun q => at2 0 Y q c) = rsum m (fun r => cell r c))).
Proof.
  intros alloc data tsamp period bins subints Ha Ht Hb len f.
  assert (HB : 0 < INR bins) by (apply (lt_INR 0); lia).
  split.
  - intros HR. unfold fold. rsimp. rewrite <- !INR_IZR_INZ. fold len.
    assert (E0 : (bins =? 0)%nat = false) by (apply Nat.eqb_neq; lia).
    unfold fold_refused in HR. case Rlt_bool_spec; intros HL; [reflexivity|].
    rewrite E0. case Rlt_bool_spec; intros HT; [|reflexivity].
    destruct HR as [?|[?|HR]]; [lra|lra|]. cbn [guard bind].
    destruct subints as [s|]; [|contradiction].
    destruct (Z.leb_spec 1 s); [|reflexivity]. destruct HR as [?|HR]; [lia|]. cbn [guard bind].
    rewrite Rlt_bool_t by auto. reflexivity.
  - intros HR. pose proof HR as HR0. unfold fold_refused in HR.
    assert (HL : period <= len) by (apply Rnot_lt_le; tauto).
    assert (HT : tsamp < period / INR bins) by (apply Rnot_le_lt; tauto).
    destruct (fold_facts data tsamp period bins Ht Hb HL HT) as (_ & P & F & E & L).
    destruct (fold_down alloc Ha data tsamp period bins Ht Hb HL HT)
      as (down & m & Ed & Em & Bm & M1 & Lm & V).
    fold len in E, L, Bm. fold f in F, E, Ed, V.
    exists m. split; auto. split; auto. cbv zeta.
    set (sc := sqrt (INR m * f)).
    assert (HM : 1 <= INR m) by (apply (le_INR 1); lia).
    assert (Hsc : 0 < sc) by (apply sqrt_lt_R0; nra).
    pose proof (fold_rest alloc data tsamp period bins subints down Hb HR0 Ed) as FR.
    cbv zeta in FR. rewrite <- Em in FR. fold f in FR. fold sc in FR.
    specialize (FR ltac:(nra)). numR_ty. rewrite FR. clear FR.
    set (X := Arr2 m bins (map (fun v : R => v * (1 / sc)) (firstn (m * bins) down))).
    assert (LX : arr2_wf X).
    { unfold arr2_wf. cbn. rewrite map_length, firstn_length. lia. }
    assert (VX : forall r c, (r < m)%nat -> (c < bins)%nat ->
        at2 0 X r c = binned data f (r * bins + c) / sc).
    { intros r c Hr Hc. unfold at2. cbn [X a_data a_cols].
      rewrite nth_map_in with (d' := 0) by (rewrite firstn_length; nia).
      rewrite nth_firstn_lt by nia. rewrite V by nia. field. lra. }
    assert (CX : forall c, (c < bins)%nat ->
       nth c (column_sums numR X) 0 = rsum m (fun r => binned data f (r * bins + c) / sc)).
    { intros c Hc. rewrite column_sums_R by exact Hc. apply rsum_ext. intros r Hr. now apply VX. }
    assert (LC : @length R (column_sums numR X) = bins).
    { unfold column_sums. now rewrite map_length, seq_length. }
    assert (W1 : forall q r, weight r (INR q * (INR m / INR m)) ((INR q + 1) * (INR m / INR m))
       = if (r =? q)%nat then 1 else 0).
    { intros q r. replace (INR m / INR m) with 1 by (field; lra). rewrite !Rmult_1_r.
      destruct (Nat.eqb_spec r q) as [->|NE]; [minmax|].
      destruct (Nat.lt_ge_cases r q) as [LT|GE].
      - assert (INR r + 1 <= INR q) by (rewrite <- S_INR; apply le_INR; lia). minmax.
      - assert (INR q + 1 <= INR r) by (rewrite <- S_INR; apply le_INR; lia). minmax. }
    assert (DELTA : forall (g : nat -> R) q k, (q < k)%nat ->
       rsum k (fun r => g r * (if (r =? q)%nat then 1 else 0)) = g q).
    { intros g q k. induction k as [|k IH]; intros Hq; [lia|]. cbn [rsum].
      destruct (Nat.eq_dec q k) as [->|NE].
      - rewrite Nat.eqb_refl. rewrite (rsum_ext k _ (fun _ => 0)).
        + rewrite rsum_0. lra.
        + intros r Hr. replace (r =? k)%nat with false by (symmetry; apply Nat.eqb_neq; lia). lra.
      - rewrite IH by lia. replace (k =? q)%nat with false by (symmetry; apply Nat.eqb_neq; lia). lra. }
    assert (FULL : (2 <= m)%nat -> exists Y : arr2 R, Ok (Subs X) = Ok (Subs Y) /\
      (2 <= m <= m)%nat /\ a_rows Y = m /\ a_cols Y = bins /\ arr2_wf Y /\
      (forall q c, (q < m)%nat -> (c < bins)%nat -> at2 0 Y q c = rsum m (fun r =>
         binned data f (r * bins + c) / sc *
         weight r (INR q * (INR m / INR m)) ((INR q + 1) * (INR m / INR m)))) /\
      (forall c, (c < bins)%nat ->
         rsum m (fun q => at2 0 Y q c) = rsum m (fun r => binned data f (r * bins + c) / sc))).
    { intros M2. exists X. split; auto. split; [lia|]. split; auto. split; auto. split; auto. split.
      - intros q c Hq Hc. rewrite (rsum_ext m _ (fun r => binned data f (r * bins + c) / sc *
          (if (r =? q)%nat then 1 else 0))) by (intros; now rewrite W1).
        rewrite DELTA by auto. now apply VX.
      - intros c Hc. apply rsum_ext. intros r Hr. now apply VX. }
    destruct subints as [s|].
    2:{ destruct (Nat.eqb_spec m 1) as [M|M]; [|apply FULL; lia]. 
        exists (column_sums numR X). auto. }
    assert (S1 : (1 <= s)%Z) by lia.
    assert (SL : IZR s <= len / period) by (apply Rnot_lt_le; tauto).
    destruct (Z.eqb_spec s 1) as [S|S]; cbn [orb].
    { exists (column_sums numR X). auto. }
    assert (SM : (Z.to_nat s <= m)%nat).
    { assert (Q : IZR s < INR m + 1) by lra.
      rewrite INR_IZR_INZ, <- plus_IZR in Q. apply lt_IZR in Q. lia. }
    destruct (Nat.eqb_spec m 1) as [M|M]; [lia|].
    destruct (Z.eqb_spec s (Z.of_nat m)) as [T|T].
    { subst s. rewrite Nat2Z.id. apply FULL. lia. }
    replace (IZR s) with (INR (Z.to_nat s)) by (rewrite INR_IZR_INZ; f_equal; lia).
    set (k := Z.to_nat s) in *.
    destruct (vertical_R alloc X k Ha) as (Y & EY & RY & CY & WY & VY); [cbn; lia|].
    cbn [X a_rows a_cols] in EY, VY, CY. fold X in EY, VY, CY. numR_ty. rewrite EY. cbn [bind].
    exists Y. split; auto. split; [lia|]. split; auto. split; auto. split; auto.
    assert (VV : forall q c, (q < k)%nat -> (c < bins)%nat -> at2 0 Y q c = rsum m (fun r =>
      binned data f (r * bins + c) / sc *
      weight r (INR q * (INR m / INR k)) ((INR q + 1) * (INR m / INR k)))).
    { intros q c Hq Hc. rewrite VY by auto. apply rsum_ext. intros r Hr. now rewrite VX. }
    split; auto. intros c Hc.
    rewrite (rsum_ext k _ (fun q => rsum m (fun r => binned data f (r * bins + c) / sc *
      weight r (INR q * (INR m / INR k)) ((INR q + 1) * (INR m / INR k))))) by (intros; auto).
    rewrite rsum_swap. apply rsum_ext. intros r Hr. rewrite rsum_scal.
    assert (K2 : 2 <= INR k) by (apply (le_INR 2); lia).
    rewrite weight_steps by (apply Rlt_le, Rdiv_lt_0_compat; lra).
    replace (INR k * (INR m / INR k)) with (INR m) by (field; lra).
    assert (INR r + 1 <= INR m) by (rewrite <- S_INR; apply le_INR; lia).
    pose proof (pos_INR r).
    replace (weight r 0 (INR m)) with 1 by minmax. ring.
Qed.
Print Assumptions fold_correct.

Example fold_correct_ex : 0 < 1 /\ (1 <= 2)%nat /\
  ~ fold_refused (INR (length [1; 2; 3; 4; 5; 6; 7]) * 1) 1 (5 / 2) 2 (Some 2%Z).
Proof. split; [lra|]. split; [lia|]. unfold fold_refused. cbn. intros [?|[?|[?|?]]]; try lra; lia. Qed.

(** C37: folding with [subints = 1] gives the column sums of any other fold. *)
Theorem fold_profile_sums :
  forall (alloc : nat -> list R) (data : list R) (tsamp period : R) (bins : nat) (subints : option Z)
    (Y : arr2 R),
  allocates alloc -> 0 < tsamp -> (1 <= bins)%nat ->
  fold numR alloc data tsamp period bins subints = Ok (Subs Y) ->
  exists p : list R, fold numR alloc data tsamp period bins (Some 1%Z) = Ok (Prof p) /\
    length p = bins /\
    forall c, (c < bins)%nat -> nth c p 0 = rsum (a_rows Y) (fun q => at2 0 Y q c).
Proof.
  intros alloc data tsamp period bins subints Y Ha Ht Hb HY.
  destruct (fold_correct alloc data tsamp period bins subints Ha Ht Hb) as [R1 O1].
  destruct (fold_correct alloc data tsamp period bins (Some 1%Z) Ha Ht Hb) as [R2 O2].
  set (len := INR (length data) * tsamp) in *.
  assert (HR : ~ fold_refused len tsamp period bins subints).
  { intros H. rewrite (R1 H) in HY. discriminate. }
  destruct (O1 HR) as (m & M1 & Bm & H). cbv zeta in H.
  assert (HR' : ~ fold_refused len tsamp period bins (Some 1%Z)).
  { intros [?|[?|[?|A]]]; [apply HR; now left|apply HR; right; now left|lia|].
    assert (1 <= INR m) by (apply (le_INR 1); lia). lra. }
  destruct (O2 HR') as (m' & M1' & Bm' & H'). cbv zeta in H'. cbn [Z.eqb Pos.eqb] in H'.
  assert (m' = m).
  { assert (A : INR m' < INR m + 1) by lra. assert (B : INR m < INR m' + 1) by lra.
    rewrite <- S_INR in A, B. apply INR_lt in A. apply INR_lt in B. lia. }
  subst m'. destruct H' as (p & Ep & Lp & Vp). exists p. split; auto. split; auto.
  intros c Hc. rewrite Vp by auto.
  destruct (match subints with None => _ | Some _ => _ end).
  - destruct H as (p' & E & _). rewrite E in HY. discriminate.
  - destruct H as (Y' & E & _ & RY & _ & _ & _ & SY). rewrite E in HY. injection HY as <-.
    rewrite RY. symmetry. now apply SY.
Qed.
Print Assumptions fold_profile_sums.

(** C38, C61: IEEE arithmetic.  Data of ones, [tsamp] = 1 s. *)
Definition sf (z : Z) : numSF := o_ofZ (@n_dbl numSF) z.
Definition ones (n : nat) : list numSF := repeat (o_ofZ (@n_sgl numSF) 1) n.
Definition zeros (n : nat) : list numSF := repeat (o_ofZ (@n_sgl numSF) 0) n.

Theorem fold_rows_refuted :
  exists Y, fold numSF zeros (ones 18) (sf 1) (sf 2) 1 (Some 7%Z) = Ok (Subs Y) /\ a_rows Y = 6%nat.
Proof. eexists. split; [vm_compute; reflexivity|reflexivity]. Qed.
Print Assumptions fold_rows_refuted.

Theorem fold_whole_length_refuted :
  fold numSF zeros (ones 9) (sf 1) (sf 9) 7 None = Err ZeroDivisionError /\
  fold numSF zeros (ones 9) (sf 1) (sf 9) 7 (Some 1%Z) = Err ZeroDivisionError.
Proof. split; vm_compute; reflexivity. Qed.
Print Assumptions fold_whole_length_refuted.

(** C38, what holds in binary64: at most one row is lost. *)
Lemma rnd64_rel x : 1 <= x -> x * (1 - u64) <= rnd64 x <= x * (1 + u64).
Proof.
  intros Hx. split; [|now apply rnd64_rel_up].
  pose proof (relative_error_N_FLT radix2 (-1074) 53 eq_refl (fun z => negb (Z.even z)) x) as H.
  rewrite (Rabs_pos_eq x) in H by lra.
  assert (Hb : bpow radix2 (-1074 + 53 - 1) <= x).
  { apply Rle_trans with (bpow radix2 0); [apply bpow_le; lia|]. cbn; lra. }
  specialize (H Hb). change (round radix2 _ (Znearest _) x) with (rnd64 x) in H.
  apply Rabs_le_inv in H.
  replace (/ 2 * bpow radix2 (- (53) + 1) * x) with (u64 * x) in H by (cbn; unfold u64; lra).
  lra.
Qed.

Lemma rows_float bld (m s : nat) : (Z.of_nat m <= 2 ^ 50)%Z -> (1 <= s < m)%nat ->
  let k := downsampled_size (numF bld) m (rnd64 (INR m / INR s)) in (s - 1 <= k <= s)%nat.
Proof.
  intros Hm Hs k.
  assert (S1 : 1 <= INR s) by (apply (le_INR 1); lia).
  assert (SM : INR s + 1 <= INR m) by (rewrite <- S_INR; apply le_INR; lia).
  assert (MB : INR m <= 1125899906842624).
  { rewrite INR_IZR_INZ. apply (IZR_le _ 1125899906842624). lia. }
  assert (FM : F64 (INR m)) by (rewrite INR_IZR_INZ; apply F64_int; lia).
  set (v := INR m / INR s). assert (EV : v * INR s = INR m) by (unfold v; field; lra).
  assert (V1 : 1 <= v) by (apply Rmult_le_reg_r with (INR s); lra).
  destruct (rnd64_rel v V1) as [A B]. set (vf := rnd64 v) in *.
  assert (VF : 0 < vf) by (unfold u64 in A; nra).
  assert (Q1 : INR s - / 4 <= INR m / vf).
  { apply Rmult_le_reg_r with vf; auto. replace (INR m / vf * vf) with (INR m) by (field; lra).
    apply Rle_trans with ((INR s - / 4) * (v * (1 + u64))).
    - apply Rmult_le_compat_l; lra.
    - rewrite <- EV. assert (U : INR s * u64 <= / 8) by (unfold u64; lra).
      assert (0 < u64) by (unfold u64; lra).
      replace ((INR s - / 4) * (v * (1 + u64))) with (v * (INR s + INR s * u64 - / 4 - / 4 * u64)) by ring.
      apply Rmult_le_compat_l; lra. }
  assert (Q2 : INR m / vf <= INR s + / 2).
  { apply Rmult_le_reg_r with vf; auto. replace (INR m / vf * vf) with (INR m) by (field; lra).
    apply Rle_trans with ((INR s + / 2) * (v * (1 - u64))).
    - rewrite <- EV. assert (U : INR s * u64 <= / 8) by (unfold u64; lra).
      assert (u64 <= / 8) by (unfold u64; lra).
      replace ((INR s + / 2) * (v * (1 - u64))) with (v * (INR s - INR s * u64 + / 2 - / 2 * u64)) by ring.
      apply Rmult_le_compat_l; lra.
    - apply Rmult_le_compat_l; lra. }
  unfold k, downsampled_size. cbn [numF opsF n_floor n_dbl o_div o_ofZ].
  rewrite <- INR_IZR_INZ, (rnd64_id (INR m)) by auto.
  assert (L1 : INR (s - 1) <= rnd64 (INR m / vf)).
  { rewrite <- (rnd64_id (INR (s - 1))).
    - apply rnd64_le. rewrite minus_INR by lia. cbn [INR]. lra.
    - rewrite INR_IZR_INZ. apply F64_int. lia. }
  assert (L2 : rnd64 (INR m / vf) <= INR s + / 2).
  { replace (INR s + / 2) with (IZR (2 * Z.of_nat s + 1) * / 2).
    - rewrite <- (rnd64_id (IZR (2 * Z.of_nat s + 1) * / 2)).
      + apply rnd64_le. rewrite plus_IZR, mult_IZR, <- INR_IZR_INZ. lra.
      + apply F64_half. lia.
    - rewrite plus_IZR, mult_IZR, <- INR_IZR_INZ. lra. }
  assert (0 <= rnd64 (INR m / vf)) by (pose proof (pos_INR (s - 1)); lra).
  destruct (to_nat_floor_bounds (rnd64 (INR m / vf))) as [C D]; auto.
  set (k' := Z.to_nat (Zfloor (rnd64 (INR m / vf)))) in *.
  assert (K1 : INR k' < INR (S s)) by (rewrite S_INR; lra). apply INR_lt in K1.
  assert (K2 : INR (s - 1) < INR (S k')) by (rewrite S_INR; lra). apply INR_lt in K2.
  change (s - 1 <= k' <= s)%nat. lia.
Qed.

Lemma for_length {A} (body : nat -> list A -> res (list A)) :
  (forall i o o', body i o = Ok o' -> length o' = length o) ->
  forall n lo o o', for_ n lo body o = Ok o' -> length o' = length o.
Proof.
  intros HB. induction n as [|n IH]; intros lo o o' H; cbn in H; [now injection H as <-|].
  destruct (body lo o) as [o1| | |] eqn:E; try discriminate.
  cbn in H. rewrite (IH _ _ _ H). eauto.
Qed.

Lemma wr_length {A} (o : list A) i v o' : wr o i v = Ok o' -> length o' = length o.
Proof.
  unfold wr. destruct (i <? length o) eqn:E; [|discriminate]. intros H. injection H as <-. apply upd_length.
Qed.

Lemma py_downsample_length N alloc x f out : allocates alloc ->
  py_downsample N alloc x f = Ok out -> length out = downsampled_size N (length x) f.
Proof.
  intros Ha. unfold py_downsample, downsample.
  destruct (valid_factor N (length x) f); [|discriminate]. cbn [guard bind]. intros H.
  apply for_length in H; [now rewrite H|].
  intros i o o' E. cbn in E.
  repeat match type of E with bind ?b _ = _ => destruct b; try discriminate; cbn [bind] in E end.
  now apply wr_length in E.
Qed.

Theorem fold_rows_float_partial :
  forall bld (alloc : nat -> list R) (data : list R) (tsamp period : R) (bins : nat) (s : Z) (Y : arr2 R),
  allocates alloc -> (Z.of_nat (length data) <= 2 ^ 50)%Z ->
  fold (numF bld) alloc data tsamp period bins (Some s) = Ok (Subs Y) ->
  a_cols Y = bins /\ (s - 1 <= Z.of_nat (a_rows Y) <= s)%Z.
Proof.
  intros bld alloc data tsamp period bins s Y Ha Hn H. unfold fold in H.
  match type of H with (if ?b then _ else _) = _ => destruct b; [discriminate|] end.
  destruct (Nat.eqb_spec bins 0) as [|B0]; [discriminate|].
  match type of H with bind (guard ?b _) _ = _ => destruct b; [|discriminate] end.
  cbn [guard bind] in H.
  destruct (Z.leb_spec 1 s) as [S1|]; [|discriminate]. cbn [guard bind] in H.
  match type of H with bind (guard ?b _) _ = _ => destruct b; [|discriminate] end.
  cbn [guard bind] in H.
  match type of H with bind ?d _ = _ => destruct d as [down| | |] eqn:Ed; try discriminate end.
  cbn [bind] in H. pose proof (py_downsample_length (numF bld) alloc data _ down Ha Ed) as LD.
  match type of Ed with py_downsample _ _ _ ?x = _ => set (f := x) in * end.
  assert (LD2 : (length down <= length data)%nat).
  { unfold py_downsample in Ed.
    match type of Ed with bind (guard ?b _) _ = _ => destruct b eqn:EV; [|discriminate] end.
    unfold valid_factor in EV. apply andb_prop in EV as [V1 V2].
    cbn [numF opsF n_ltb n_leb n_dbl o_ofZ] in V1, V2.
    rewrite (rnd64_id 1) in V1 by (apply (F64_int 1); lia).
    assert (F1 : 1 < f) by (destruct (Rlt_bool_spec 1 f); [auto|discriminate]).
    rewrite LD. unfold downsampled_size. cbn [numF opsF n_floor n_dbl o_div o_ofZ n_T].
    rewrite <- INR_IZR_INZ.
    assert (FN : F64 (INR (length data))) by (rewrite INR_IZR_INZ; apply F64_int; lia).
    numR_ty. change (n_T (numF bld)) with R in *. rewrite (rnd64_id (INR (length data))) by auto.
    pose proof (pos_INR (length data)) as P0.
    assert (Q0 : 0 <= INR (length data) / f).
    { apply Rmult_le_pos; auto. apply Rlt_le, Rinv_0_lt_compat. lra. }
    assert (Q1 : INR (length data) / f <= INR (length data)).
    { apply Rmult_le_reg_r with f; [lra|]. unfold Rdiv. rewrite Rmult_assoc, Rinv_l by lra. nra. }
    apply rnd64_le in Q0, Q1. rewrite (rnd64_id 0) in Q0 by apply generic_format_0.
    rewrite (rnd64_id (INR (length data))) in Q1 by auto.
    destruct (to_nat_floor_bounds _ Q0) as [A _].
    apply INR_le. lra. }
  set (m := (length down / bins)%nat) in *.
  assert (HM : (m <= length down)%nat) by (apply Nat.div_le_upper_bound; nia).
  match type of H with (if ?b then _ else _) = _ => destruct b; [discriminate|] end.
  match type of H with context [column_sums _ ?x] => set (X := x) in * end.
  destruct ((s =? 1)%Z || (m =? 1)%nat)%bool eqn:E1; [discriminate|].
  apply orb_false_iff in E1 as [E1 E2]. apply Z.eqb_neq in E1. apply Nat.eqb_neq in E2.
  destruct (Z.eqb_spec s (Z.of_nat m)) as [EM|EM].
  { injection H as <-. cbn. split; auto. lia. }
  match type of H with bind ?d _ = _ => destruct d as [Y'| | |] eqn:EY; try discriminate end.
  cbn [bind] in H. injection H as <-.
  unfold downsample_vertical in EY. cbn [a_rows a_cols X] in EY.
  cbn [numF opsF n_ltb n_dbl o_div o_ofZ n_T] in EY.
  rewrite (rnd64_id 1) in EY by (apply (F64_int 1); lia).
  destruct (Rlt_bool_spec 1 (rnd64 (rnd64 (IZR (Z.of_nat m)) / rnd64 (IZR s)))) as [V1|]; [|discriminate].
  cbn [guard bind] in EY.
  match type of EY with bind ?d _ = _ => destruct d as [| | |] eqn:EG; try discriminate end.
  cbn [bind] in EY. 
  match type of EY with bind ?d _ = _ => destruct d as [cols| | |] eqn:EC; try discriminate end.
  cbn [bind] in EY. injection EY as <-.
  rewrite (rnd64_id (IZR (Z.of_nat m))) in V1 |- * by (apply F64_int; lia).
  assert (SM : (s < Z.of_nat m)%Z).
  { destruct (Z.lt_ge_cases s (Z.of_nat m)) as [|GE]; auto. exfalso.
    assert (IZR (Z.of_nat m) / rnd64 (IZR s) <= 1).
    { assert (M1 : IZR (Z.of_nat m) <= rnd64 (IZR s)).
      { rewrite <- (rnd64_id (IZR (Z.of_nat m))) by (apply F64_int; lia). apply rnd64_le, IZR_le. lia. }
      assert (M2 : 1 <= rnd64 (IZR s)).
      { rewrite <- (rnd64_id 1) by (apply (F64_int 1); lia). apply rnd64_le, IZR_le. lia. }
      apply Rmult_le_reg_r with (rnd64 (IZR s)); [lra|]. unfold Rdiv. rewrite Rmult_assoc, Rinv_l; lra. }
    apply rnd64_le in H. rewrite (rnd64_id 1) in H by (apply (F64_int 1); lia). lra. }
  rewrite (rnd64_id (IZR s)) by (apply F64_int; lia).
  pose proof (rows_float bld m (Z.to_nat s) ltac:(lia) ltac:(lia)) as RF. cbv zeta in RF.
  rewrite !INR_IZR_INZ, Z2Nat.id in RF by lia.
  cbn [from_columns a_rows a_cols]. split.
  - assert (LM : forall (g : nat -> res (list R)) l o, mapM g l = Ok o -> length o = length l).
    { clear. intros g. induction l as [|a l IH]; cbn; intros o Ho; [now injection Ho as <-|].
      destruct (g a); try discriminate. cbn in Ho. destruct (mapM g l) as [ys| | |]; try discriminate.
      cbn in Ho. injection Ho as <-. cbn. now rewrite (IH ys). }
    apply LM in EC. now rewrite seq_length in EC.
  - lia.
Qed.
Print Assumptions fold_rows_float_partial.

(** 9 periods of 2 samples in 7 rows *)
Example fold_rows_float_partial_ex :
  (Z.of_nat 18 <= 2 ^ 50)%Z /\ (1 <= 7 < 9)%nat.
Proof. split; lia. Qed.
