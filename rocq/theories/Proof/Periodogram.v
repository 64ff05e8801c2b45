(** Lemmas on the periodogram: one run of the search described cell by cell, for any
    arithmetic. *)
From Coq Require Import List Arith ZArith Bool Lia.
From Verif Require Import Base.Result Base.Buf Base.Num Model.Kernels Model.Transforms
  Model.Downsample Model.Snr Model.Periodogram Spec.FfaSpec Proof.Transforms.
Import ListNotations.

(** sum of naturals *)
Fixpoint nsum (n : nat) (g : nat -> nat) : nat :=
  match n with O => 0 | S n' => nsum n' g + g n' end.

Lemma nsum_mono n n' g : n <= n' -> nsum n g <= nsum n' g.
Proof. induction 1; cbn; lia. Qed.

Lemma nsum_ext n g g' : (forall i, i < n -> g i = g' i) -> nsum n g = nsum n g'.
Proof. induction n; cbn; auto. intros H. rewrite IHn, H; auto. Qed.

Lemma nsum_lt n n' g : n < n' -> nsum n g + g n <= nsum n' g.
Proof. intros H. change (nsum (S n) g <= nsum n' g). apply nsum_mono. lia. Qed.

(** loop whose bodies either preserve an invariant or raise *)
Lemma for_inv_err {S} (P : nat -> S -> Prop) (ok : nat -> bool) e body :
  forall n lo s,
    P lo s ->
    (forall i s, lo <= i < lo + n -> P i s ->
       if ok i then exists s', body i s = Ok s' /\ P (Datatypes.S i) s' else body i s = Err e) ->
    if forallb ok (seq lo n) then exists s', for_ n lo body s = Ok s' /\ P (lo + n) s'
    else for_ n lo body s = Err e.
Proof.
  induction n as [|n IH]; intros lo s H0 Hs; cbn [seq forallb for_].
  - exists s; split; auto. now rewrite Nat.add_0_r.
  - pose proof (Hs lo s ltac:(lia) H0) as Hb. destruct (ok lo); cbn [andb].
    + destruct Hb as (s1 & E & P1). rewrite E. cbn [bind].
      specialize (IH (Datatypes.S lo) s1 P1).
      rewrite Nat.add_succ_r. apply IH. intros i s' Hi HP. apply Hs; [lia|auto].
    + now rewrite Hb.
Qed.

Lemma to_size_ok z : (0 <= z < 2 ^ 64)%Z -> to_size z = Ok (Z.to_nat z).
Proof.
  intros H. unfold to_size.
  destruct (Z.ltb_spec z 0); [lia|]. destruct (Z.leb_spec (2 ^ 64) z); [lia|]. reflexivity.
Qed.

Lemma to_size_inv z n : to_size z = Ok n -> (0 <= z < 2 ^ 64)%Z /\ n = Z.to_nat z.
Proof.
  unfold to_size.
  destruct (Z.ltb_spec z 0); [discriminate|]. destruct (Z.leb_spec (2 ^ 64) z); [discriminate|].
  cbn [orb]. intros [= <-]. split; auto.
Qed.

Section Plan.
Context (N : num) (flog : N -> N) (fpow : N -> nat -> N).
Context (size : nat) (tsamp pmin pmax : N) (bmin bmax : nat).

Notation ofnat k := (o_ofZ (@n_dbl N) (Z.of_nat k)).
Notation lit z := (o_ofZ (@n_dbl N) z).
Notation add_ := (o_add (@n_dbl N)).
Notation sub_ := (o_sub (@n_dbl N)).
Notation mul_ := (o_mul (@n_dbl N)).
Notation div_ := (o_div (@n_dbl N)).

(** ** the plan of the search *)
Definition pl_ini : N := div_ pmin (mul_ tsamp (ofnat bmin)).
Definition pl_geo : N := div_ (add_ (ofnat bmax) (lit 1)) (ofnat bmin).
Definition pl_cyc : Z := n_ceil (div_ (flog (div_ pmax pmin)) (flog pl_geo)).
Definition pl_f (ids : nat) : N := mul_ pl_ini (fpow pl_geo ids).
Definition pl_tau (ids : nat) : N := mul_ (pl_f ids) tsamp.
Definition pl_pms (ids : nat) : N := div_ pmax (pl_tau ids).
Definition pl_n (ids : nat) : nat := downsampled_size N size (pl_f ids).
Definition pl_bstop (ids : nat) : nat :=
  Nat.min bmax (Nat.min (pl_n ids) (Z.to_nat (n_trunc (pl_pms ids)))).
Definition pl_nb (ids : nat) : nat := pl_bstop ids + 1 - bmin.
Definition pl_rows (ids b : nat) : nat := pl_n ids / b.
Definition pl_ceil (ids b : nat) : N := min_dbl N (pl_pms ids) (add_ (ofnat b) (lit 1)).
Definition pl_shift (ids b : nat) : Z :=
  n_ceil (mul_ (mul_ (ofnat b) (sub_ (ofnat (pl_rows ids b)) (lit 1)))
               (sub_ (lit 1) (div_ (ofnat b) (pl_ceil ids b)))).
Definition pl_eval (ids b : nat) : nat := Nat.min (pl_rows ids b) (Z.to_nat (pl_shift ids b)).
Definition pl_sd (ids b : nat) : N :=
  n_narrow (o_sqrt n_dbl (mul_ (ofnat (pl_rows ids b)) (downsampled_variance N size (pl_f ids)))).
Definition pl_period (ids b s : nat) : N :=
  div_ (mul_ (mul_ (pl_tau ids) (ofnat b)) (ofnat b))
       (sub_ (ofnat b) (div_ (ofnat s) (sub_ (ofnat (pl_rows ids b)) (lit 1)))).

(** trials before cycle [ids]; trials of cycle [ids] in its first [k] transforms *)
Definition pl_off2 (ids k : nat) : nat := nsum k (fun j => pl_eval ids (bmin + j)).
Definition pl_off (ids : nat) : nat := nsum ids (fun i => pl_off2 i (pl_nb i)).

(** the conversions to size_t are defined *)
Definition pl_conv : Prop :=
  (0 <= pl_cyc < 2 ^ 64)%Z /\
  forall ids, ids < Z.to_nat pl_cyc ->
    (0 <= n_trunc (pl_pms ids) < 2 ^ 64)%Z /\
    forall b, bmin <= b <= pl_bstop ids -> (0 <= pl_shift ids b < 2 ^ 64)%Z.

Definition pl_total : nat := pl_off (Z.to_nat pl_cyc).

Lemma length_spec :
  check_arguments N tsamp pmin pmax bmin bmax = Ok tt -> pl_conv ->
  periodogram_length N flog fpow size tsamp pmin pmax bmin bmax = Ok pl_total.
Proof.
  intros HC [Hcyc Hconv]. unfold periodogram_length. rewrite HC. cbn [bind].
  fold pl_ini pl_geo. fold pl_cyc. rewrite to_size_ok by auto. cbn [bind].
  match goal with |- for_ ?n 0 ?bd 0 = _ =>
    destruct (for_inv (fun i len => len = pl_off i) bd n 0 0) as (len & E & ->) end.
  - reflexivity.
  - intros i len Hi ->. destruct (Hconv i ltac:(lia)) as [Hp Hs].
    fold (pl_f i). fold (pl_tau i). fold (pl_pms i). fold (pl_n i).
    rewrite to_size_ok by auto. cbn [bind]. fold (pl_bstop i). fold (pl_nb i).
    match goal with |- context [for_ ?n ?lo ?bd ?s] =>
      destruct (for_inv (fun b len => bmin <= b <= bmin + pl_nb i /\
         len = pl_off i + pl_off2 i (b - bmin)) bd n lo s) as (len & E & Hb & ->) end.
    + rewrite Nat.sub_diag. cbn. lia.
    + intros b len Hb (Hb' & ->). fold (pl_rows i b). fold (pl_ceil i b). unfold ceilshift.
      fold (pl_shift i b). unfold pl_nb in Hb. rewrite to_size_ok by (apply Hs; lia).
      cbn [bind]. fold (pl_eval i b). eexists; split; [reflexivity|]. split; [unfold pl_nb; lia|].
      replace (S b - bmin) with (S (b - bmin)) by lia. unfold pl_off2. cbn [nsum].
      replace (bmin + (b - bmin)) with b by lia. lia.
    + eexists; split; [exact E|]. replace (bmin + pl_nb i - bmin) with (pl_nb i) by lia.
      reflexivity.
  - exact E.
Qed.

Definition pl_cycles : nat := Z.to_nat pl_cyc.
Definition pl_buf : nat := downsampled_size N size pl_ini.
Definition pl_valid (ids : nat) : bool :=
  n_eqb (pl_f ids) (lit 1) || valid_factor N size (pl_f ids).

(** cells written before transform [k] of cycle [ids] *)
Definition pl_before (ids k i j : nat) : Prop := i < ids /\ j < pl_nb i \/ i = ids /\ j < k.

Lemma off_before ids k i j s :
  pl_before ids k i j -> s < pl_eval i (bmin + j) ->
  pl_off i + pl_off2 i j + s < pl_off ids + pl_off2 ids k.
Proof.
  intros [[H1 H2]|[-> H2]] Hs.
  - pose proof (nsum_lt i ids (fun i => pl_off2 i (pl_nb i)) H1) as A. cbn beta in A.
    fold (pl_off i) (pl_off ids) in A.
    pose proof (nsum_lt j (pl_nb i) (fun j => pl_eval i (bmin + j)) H2) as B. cbn beta in B.
    fold (pl_off2 i j) (pl_off2 i (pl_nb i)) in B. lia.
  - pose proof (nsum_lt j k (fun j => pl_eval ids (bmin + j)) H2) as B. cbn beta in B.
    fold (pl_off2 ids j) (pl_off2 ids k) in B. lia.
Qed.

Lemma off_total ids k : ids < pl_cycles -> k < pl_nb ids ->
  pl_off ids + pl_off2 ids k + pl_eval ids (bmin + k) <= pl_total.
Proof.
  intros H1 H2.
  pose proof (nsum_lt ids pl_cycles (fun i => pl_off2 i (pl_nb i)) H1) as A. cbn beta in A.
  fold (pl_off ids) (pl_off pl_cycles) in A. fold pl_total in A.
  pose proof (nsum_lt k (pl_nb ids) (fun j => pl_eval ids (bmin + j)) H2) as B. cbn beta in B.
  fold (pl_off2 ids k) (pl_off2 ids (pl_nb ids)) in B.
  unfold pl_total. fold pl_cycles. lia.
Qed.

Lemma nsum_decode g : forall n t, t < nsum n g -> exists i, i < n /\ nsum i g <= t < nsum i g + g i.
Proof.
  induction n as [|n IH]; cbn; intros t Ht; [lia|].
  destruct (lt_dec t (nsum n g)) as [H|H].
  - destruct (IH t H) as (i & Hi & Hb). exists i. split; [lia|auto].
  - exists n. lia.
Qed.

(** every trial number belongs to one trial *)
Lemma off_decode t : t < pl_total ->
  exists i j s, i < pl_cycles /\ j < pl_nb i /\ s < pl_eval i (bmin + j) /\
    t = pl_off i + pl_off2 i j + s.
Proof.
  intros Ht. destruct (nsum_decode _ _ _ Ht) as (i & Hi & H1). cbv beta in H1.
  destruct (nsum_decode (fun j => pl_eval i (bmin + j)) (pl_nb i) (t - pl_off i))
    as (j & Hj & H2).
  { fold (pl_off2 i (pl_nb i)). unfold pl_off at 1. lia. }
  fold (pl_off2 i j) in H2. cbv beta in H2. fold (pl_off i) in H1.
  exists i, j, (t - pl_off i - pl_off2 i j). fold pl_cycles in Hi. repeat split; auto; lia.
Qed.

(** ** one run *)
Context (alloc : nat -> list N) (data : list N) (ws : list nat) (d : N).
Context (periods0 : list N) (bins0 : list Z) (snr0 : list N).
(** [DS ids x]: [x] starts with the data downsampled for cycle [ids];
    [SN p k sd v]: [v] is the S/N of profile [p] for width number [k] and noise [sd] *)
Context (DS : nat -> list N -> Prop) (SN : list N -> nat -> N -> N -> Prop).

Context (Halloc : forall n, length (alloc n) = n).
Context (Hdata : length data = size).
Context (Hcheck : check_arguments N tsamp pmin pmax bmin bmax = Ok tt) (Hconv : pl_conv).
Context (Hbmin : 0 < bmin).
Context (Hws : ws <> []).
Context (Hper : length periods0 = pl_total) (Hfb : length bins0 = pl_total)
        (Hsn : length snr0 = pl_total * length ws).
Context (Hbuf : forall ids, ids < pl_cycles -> pl_n ids <= pl_buf).
Context (Hone : forall ids, ids < pl_cycles -> n_eqb (pl_f ids) (lit 1) = true ->
  pl_n ids <= size /\ DS ids data).
Context (Hds : forall ids (out : list N), ids < pl_cycles -> n_eqb (pl_f ids) (lit 1) = false ->
  valid_factor N size (pl_f ids) = true -> length out = pl_buf ->
  exists out', downsample N data size (pl_f ids) out = Ok out' /\ length out' = length out /\
    DS ids out').
Context (Hidx : forall ids b m, ids < pl_cycles -> bmin <= b <= pl_bstop ids ->
  3 <= m <= pl_rows ids b -> good_index (merge_index N) m).
Context (Hrows : forall ids b, ids < pl_cycles -> bmin <= b <= pl_bstop ids ->
  (Z.of_nat (pl_rows ids b) <= 2 ^ 64)%Z).
Context (Hsnr : forall ids b (blk : list N) (out : list N) oo,
  ids < pl_cycles -> bmin <= b <= pl_bstop ids ->
  pl_eval ids b * b <= length blk -> oo + pl_eval ids b * length ws <= length out ->
  exists out', snr2 N alloc blk 0 (pl_eval ids b) b ws (pl_sd ids b) out oo = Ok out' /\
    frame out out' oo (pl_eval ids b * length ws) /\
    forall i k, i < pl_eval ids b -> k < length ws ->
      exists v, nth_error out' (oo + i * length ws + k) = Some v /\
        SN (firstn b (skipn (i * b) blk)) k (pl_sd ids b) v).

(** folded profile number [s] of [x] *)
Definition pl_profile (ids b s : nat) (x : list N) : list N :=
  map (fun c => teval (o_add n_sgl)
        (fun r => nth (r * b + (c + path (merge_index N) (S (pl_rows ids b)) (pl_rows ids b) s r) mod b) x d)
        (mtree (S (pl_rows ids b)) 0 (pl_rows ids b))) (seq 0 b).

(** trial [s] of transform [b = bmin + k] of cycle [ids] has been written *)
Definition pl_cell (st : pstate N) (ids k s : nat) : Prop :=
  let t := pl_off ids + pl_off2 ids k + s in
  nth_error (p_periods st) t = Some (pl_period ids (bmin + k) s) /\
  nth_error (p_bins st) t = Some (Z.of_nat (bmin + k) mod 2 ^ 32)%Z /\
  exists x, DS ids x /\
    forall j, j < length ws -> exists v, nth_error (p_snr st) (t * length ws + j) = Some v /\
      SN (pl_profile ids (bmin + k) s x) j (pl_sd ids (bmin + k)) v.

Definition pl_inv (t : nat) (st : pstate N) : Prop :=
  length (p_in st) = pl_buf /\ length (p_buf st) = pl_buf /\ length (p_out st) = pl_buf /\
  length (p_periods st) = pl_total /\ length (p_bins st) = pl_total /\
  length (p_snr st) = pl_total * length ws /\
  p_po st = t /\ p_fo st = t /\ p_so st = t * length ws.

Definition pl_cells (st : pstate N) (ids k : nat) : Prop :=
  forall i j s, pl_before ids k i j -> s < pl_eval i (bmin + j) -> pl_cell st i j s.

Lemma for_pair (per : list N) (fb : list Z) po fo n (g : nat -> N) (h : nat -> Z) :
  po + n <= length per -> fo + n <= length fb ->
  exists per' fb',
    for_ n 0 (fun s pf => let '(per, fb) := pf in
      per' <- wr per (po + s) (g s) ;; fb' <- wr fb (fo + s) (h s) ;; Ok (per', fb')) (per, fb)
    = Ok (per', fb') /\ written per per' po n g /\ written fb fb' fo n h.
Proof.
  intros Hp Hf.
  match goal with |- context [for_ n 0 ?bd ?s] =>
    destruct (for_inv (fun i pf => i <= n /\ written per (fst pf) po i g /\ written fb (snd pf) fo i h)
      bd n 0 s) as ([per' fb'] & E & _ & W1 & W2) end.
  - split; [lia|]. split; repeat split; auto; intros; lia.
  - intros i [p f] Hi (_ & (L1 & W1 & F1) & (L2 & W2 & F2)). cbn [fst snd] in *.
    rewrite wr_ok by lia. cbn [bind]. rewrite wr_ok by lia. cbn [bind].
    eexists; split; [reflexivity|]. split; [lia|]. cbn [fst snd]. split.
    + split; [now rewrite upd_length|]. split.
      * intros j Hj. destruct (Nat.eq_dec j i) as [->|Hne]; [apply upd_same; lia|].
        rewrite upd_other by lia. apply W1. lia.
      * intros j Hj. rewrite upd_other by lia. apply F1. lia.
    + split; [now rewrite upd_length|]. split.
      * intros j Hj. destruct (Nat.eq_dec j i) as [->|Hne]; [apply upd_same; lia|].
        rewrite upd_other by lia. apply W2. lia.
      * intros j Hj. rewrite upd_other by lia. apply F2. lia.
  - exists per', fb'. auto.
Qed.

Lemma profile_row ids b s x (blk : list N) :
  0 < b -> s < pl_rows ids b -> pl_rows ids b * b <= length blk ->
  (forall s c, s < pl_rows ids b -> c < b ->
     nth_error blk (0 + s * b + c)
     = Some (teval (o_add n_sgl)
        (fun r => nth (0 + r * b + (c + path (merge_index N) (S (pl_rows ids b)) (pl_rows ids b) s r) mod b) x d)
        (mtree (S (pl_rows ids b)) 0 (pl_rows ids b)))) ->
  firstn b (skipn (s * b) blk) = pl_profile ids b s x.
Proof.
  intros Hb Hs HL H.
  assert (L : length (firstn b (skipn (s * b) blk)) = b).
  { rewrite firstn_length, skipn_length. nia. }
  apply nth_ext with (d := d) (d' := d).
  - rewrite L. unfold pl_profile. now rewrite map_length, seq_length.
  - intros c Hc. rewrite L in Hc.
    unfold pl_profile. rewrite nth_map_seq by lia. cbn [Nat.add].
    specialize (H s c Hs Hc). cbn [Nat.add] in H.
    rewrite <- (nth_error_nth _ _ d H).
    rewrite nth_firstn_skipn; auto.
Qed.

Lemma cell_keep st st' i j s t :
  pl_off i + pl_off2 i j + s < t ->
  (forall n, n < t -> nth_error (p_periods st') n = nth_error (p_periods st) n) ->
  (forall n, n < t -> nth_error (p_bins st') n = nth_error (p_bins st) n) ->
  (forall n, n < t * length ws -> nth_error (p_snr st') n = nth_error (p_snr st) n) ->
  pl_cell st i j s -> pl_cell st' i j s.
Proof.
  intros Ht H1 H2 H3 (A & B & x & Hx & C). unfold pl_cell. cbv zeta in *.
  split; [now rewrite H1|]. split; [now rewrite H2|].
  exists x. split; auto. intros w Hw. destruct (C w Hw) as (v & Ev & Hv).
  exists v. split; auto. rewrite H3; auto. nia.
Qed.

Lemma transform_step ids b (x : list N) st :
  ids < pl_cycles -> bmin <= b <= pl_bstop ids -> pl_n ids <= length x -> DS ids x ->
  pl_inv (pl_off ids + pl_off2 ids (b - bmin)) st ->
  pl_cells st ids (b - bmin) ->
  exists st',
    (let rows := pl_n ids / b in
      cs <- ceilshift N rows b (pl_ceil ids b) ;;
      let rows_eval := Nat.min rows cs in
      '(ffabuf, ffaout) <-
        transform_ptr (o_add n_sgl) (merge_index N) x 0 rows b (p_buf st) (p_out st) ;;
      snr' <- snr2 N alloc ffaout 0 rows_eval b ws (pl_sd ids b) (p_snr st) (p_so st) ;;
      '(periods', foldbins') <-
        for_ rows_eval 0 (fun s pf =>
          let '(per, fb) := pf in
          per' <- wr per (p_po st + s) (pl_period ids b s) ;;
          fb' <- wr fb (p_fo st + s) (Z.of_nat b mod 2 ^ 32)%Z ;;
          Ok (per', fb')) (p_periods st, p_bins st) ;;
      Ok (PS (p_in st) ffabuf ffaout periods' foldbins' snr'
             (p_po st + rows_eval) (p_fo st + rows_eval) (p_so st + rows_eval * length ws)))
    = Ok st' /\
    pl_inv (pl_off ids + pl_off2 ids (S b - bmin)) st' /\ pl_cells st' ids (S b - bmin).
Proof.
  intros Hids Hb Hx HDS (I1 & I2 & I3 & I4 & I5 & I6 & I7 & I8 & I9) HC.
  destruct Hconv as [Hcyc Hcv]. destruct (Hcv ids Hids) as [_ Hs].
  cbv zeta. fold (pl_rows ids b). unfold ceilshift. fold (pl_shift ids b).
  rewrite to_size_ok by (now apply Hs). cbn [bind]. fold (pl_eval ids b).
  set (k := b - bmin) in *. assert (Ebk : b = bmin + k) by (unfold k; lia).
  assert (Hk : k < pl_nb ids) by (unfold pl_nb; lia).
  assert (Hbn : b <= pl_n ids) by (unfold pl_bstop in Hb; lia).
  assert (Hr1 : 1 <= pl_rows ids b).
  { unfold pl_rows. apply Nat.div_le_lower_bound; lia. }
  assert (Hrb : pl_rows ids b * b <= pl_n ids).
  { unfold pl_rows. rewrite Nat.mul_comm. apply Nat.mul_div_le. lia. }
  pose proof (Hbuf ids Hids) as HB.
  pose proof (off_total ids k Hids Hk) as HT. rewrite <- Ebk in HT.
  destruct (transform_spec (merge_index N) (o_add n_sgl) d (S (pl_rows ids b)) (pl_rows ids b) b
              0 0 0 x (p_buf st) (p_out st)) as (tmp' & out' & E & [F1 _] & [F2 _] & V);
    try lia; [now apply Hrows|intros; now apply (Hidx ids b)|].
  unfold transform_ptr. rewrite E. cbn [bind].
  assert (He : pl_eval ids b <= pl_rows ids b) by (unfold pl_eval; lia).
  destruct (Hsnr ids b out' (p_snr st) (p_so st)) as (snr' & Es & [FS1 FS2] & VS); auto.
  { rewrite F2. nia. }
  { rewrite I9, I6. nia. }
  rewrite Es. cbn [bind].
  destruct (for_pair (p_periods st) (p_bins st) (p_po st) (p_fo st) (pl_eval ids b)
             (pl_period ids b) (fun _ => (Z.of_nat b mod 2 ^ 32)%Z))
    as (per' & fb' & Ep & (WP1 & WP2 & WP3) & (WF1 & WF2 & WF3)); [lia|lia|].
  rewrite Ep. cbn [bind]. eexists; split; [reflexivity|].
  assert (Eoff : pl_off2 ids (S b - bmin) = pl_off2 ids k + pl_eval ids b).
  { replace (S b - bmin) with (S k) by lia. unfold pl_off2. cbn [nsum]. now rewrite <- Ebk. }
  split.
  { unfold pl_inv. cbn [p_in p_buf p_out p_periods p_bins p_snr p_po p_fo p_so].
    rewrite Eoff. repeat split; try congruence; lia. }
  intros i j s Hbef Hs'.
  destruct (Nat.eq_dec i ids) as [->|Hne];
    [destruct (Nat.eq_dec j k) as [->|Hne']|].
  - (* the new cells *)
    unfold pl_cell. cbv zeta. cbn [p_periods p_bins p_snr]. rewrite <- Ebk in *.
    split; [rewrite <- I7; now apply WP2|]. split; [rewrite <- I8; now apply (WF2 s)|].
    exists x. split; auto. intros w Hw.
    destruct (VS s w Hs' Hw) as (v & Ev & Hv). exists v. split.
    + rewrite <- Ev. f_equal. rewrite I9. lia.
    + rewrite (profile_row ids b s x out') in Hv; auto; try lia.
  - apply cell_keep with (st := st) (t := pl_off ids + pl_off2 ids k).
    + apply off_before; auto. right. destruct Hbef as [[? ?]|[_ ?]]; lia.
    + intros n Hn. cbn [p_periods]. apply WP3. lia.
    + intros n Hn. cbn [p_bins]. apply WF3. lia.
    + intros n Hn. cbn [p_snr]. apply FS2. lia.
    + apply HC; auto. right. destruct Hbef as [[? ?]|[_ ?]]; lia.
  - destruct Hbef as [[Hi Hj]|[? _]]; [|lia].
    apply cell_keep with (st := st) (t := pl_off ids + pl_off2 ids k).
    + apply off_before; auto. now left.
    + intros n Hn. cbn [p_periods]. apply WP3. lia.
    + intros n Hn. cbn [p_bins]. apply WF3. lia.
    + intros n Hn. cbn [p_snr]. apply FS2. lia.
    + apply HC; auto. now left.
Qed.

Lemma periodogram_spec :
  let run := periodogram N flog fpow alloc data size tsamp ws pmin pmax bmin bmax
               periods0 bins0 snr0 in
  if forallb pl_valid (seq 0 pl_cycles) then
    exists st, run = Ok st /\ pl_inv pl_total st /\
      forall i j s, i < pl_cycles -> j < pl_nb i -> s < pl_eval i (bmin + j) -> pl_cell st i j s
  else run = Err ValueError.
Proof.
  cbv zeta. unfold periodogram. rewrite Hcheck. cbn [bind]. fold pl_ini pl_geo. fold pl_cyc.
  destruct Hconv as [Hcyc Hcv]. rewrite to_size_ok by auto. cbn [bind]. fold pl_cycles. fold pl_buf.
  match goal with |- context [for_ pl_cycles 0 ?bd ?s] =>
    pose proof (for_inv_err (fun ids st => pl_inv (pl_off ids) st /\ pl_cells st ids 0)
      pl_valid ValueError bd pl_cycles 0 s) as HI end.
  match type of HI with ?A -> ?B -> ?C => assert (HR : C) end.
  2:{ destruct (forallb pl_valid (seq 0 pl_cycles)); [|exact HR].
      destruct HR as (st & E & (HI' & HC)). exists st. split; [exact E|]. split; [exact HI'|].
      intros i j s Hi Hj Hs. apply HC; auto. now left. }
  apply HI; clear HI.
  - split.
    + unfold pl_inv. cbn. rewrite !Halloc. repeat split; auto.
    + intros i j s [[? _]|[_ ?]]; lia.
  - intros ids st Hids (HIv & HC). cbn [Nat.add] in Hids.
    assert (Hids' : ids < pl_cycles) by lia.
    fold (pl_f ids). fold (pl_tau ids). fold (pl_pms ids). fold (pl_n ids).
    unfold pl_valid.
    destruct (Hcv ids Hids') as [Hp Hs].
    assert (HIv' := HIv). destruct HIv as (I1 & I2 & I3 & I4 & I5 & I6 & I7 & I8 & I9).
    (* the inner loop *)
    assert (Loop : forall x st, pl_n ids <= length x -> DS ids x ->
      pl_inv (pl_off ids) st -> pl_cells st ids 0 ->
      exists st', for_ (pl_bstop ids + 1 - bmin) bmin (fun b st =>
        (let rows := pl_n ids / b in
          cs <- ceilshift N rows b (pl_ceil ids b) ;;
          let rows_eval := Nat.min rows cs in
          '(ffabuf, ffaout) <-
            transform_ptr (o_add n_sgl) (merge_index N) x 0 rows b (p_buf st) (p_out st) ;;
          snr' <- snr2 N alloc ffaout 0 rows_eval b ws (pl_sd ids b) (p_snr st) (p_so st) ;;
          '(periods', foldbins') <-
            for_ rows_eval 0 (fun s pf =>
              let '(per, fb) := pf in
              per' <- wr per (p_po st + s) (pl_period ids b s) ;;
              fb' <- wr fb (p_fo st + s) (Z.of_nat b mod 2 ^ 32)%Z ;;
              Ok (per', fb')) (p_periods st, p_bins st) ;;
          Ok (PS (p_in st) ffabuf ffaout periods' foldbins' snr'
             (p_po st + rows_eval) (p_fo st + rows_eval) (p_so st + rows_eval * length ws)))) st
        = Ok st' /\ pl_inv (pl_off (S ids)) st' /\ pl_cells st' (S ids) 0).
    { clear st HC HIv' I1 I2 I3 I4 I5 I6 I7 I8 I9. intros x st Hx HD HIv HC.
      match goal with |- context [for_ ?n ?lo ?bd ?s] =>
        destruct (for_inv (fun b st => pl_inv (pl_off ids + pl_off2 ids (b - bmin)) st /\
          pl_cells st ids (b - bmin)) bd n lo s) as (st' & E & HI & HC') end.
      - rewrite Nat.sub_diag. cbn [pl_off2 nsum]. rewrite Nat.add_0_r. split; auto.
      - intros b st1 Hb (H1 & H2). apply transform_step; auto. lia.
      - exists st'. split; [exact E|]. fold (pl_nb ids) in HI, HC'.
        replace (bmin + pl_nb ids - bmin) with (pl_nb ids) in * by lia.
        split; [exact HI|].
        intros i j s [[Hi Hj]|[-> Hj]] Hs'; [|lia]. apply HC'; auto.
        destruct (Nat.eq_dec i ids) as [->|Hne]; [right; auto|left; split; [lia|auto]]. }
    destruct (n_eqb (pl_f ids) (lit 1)) eqn:E1; cbn [orb bind].
    + rewrite to_size_ok by auto. cbn [bind]. fold (pl_bstop ids).
      destruct (Hone ids Hids' E1) as [Hn HD].
      apply (Loop data); [lia|auto| |exact HC].
      unfold pl_inv. cbn. repeat split; auto.
    + destruct (valid_factor N size (pl_f ids)) eqn:E2.
      * destruct (Hds ids (p_in st) Hids' E1 E2 I1) as (im & Ei & Li & HD).
        rewrite Ei. cbn [bind]. rewrite to_size_ok by auto. cbn [bind]. fold (pl_bstop ids).
        apply (Loop im); [rewrite Li, I1; now apply Hbuf|auto| |exact HC].
        unfold pl_inv. cbn. repeat split; auto. congruence.
      * unfold downsample. rewrite E2. reflexivity.
Qed.
End Plan.
