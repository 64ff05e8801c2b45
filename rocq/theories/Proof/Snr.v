From Coq Require Import List Arith ZArith Bool Lia Reals Lra Psatz.
From Flocq Require Import Core.
From Verif Require Import Base.Result Base.Buf Base.Num Model.Kernels Model.Snr
  Spec.Sums Spec.Boxcar Proof.Kernels.
Import ListNotations.
Local Open Scope R_scope.

(** ** windows *)
Lemma in_window_rot n phi w i : (phi < n)%nat -> (i < n)%nat ->
  in_window n phi w ((i + phi) mod n) = (i <? w)%nat.
Proof.
  intros Hp Hi. unfold in_window. rewrite Nat.add_mod_idemp_l by lia.
  replace (i + phi + (n - phi))%nat with (i + 1 * n)%nat by lia.
  rewrite Nat.mod_add, Nat.mod_small by lia. reflexivity.
Qed.

Lemma rsum_prefix n w g : (w <= n)%nat ->
  rsum n (fun i => if (i <? w)%nat then g i else 0) = rsum w g.
Proof.
  intros Hw. replace n with (w + (n - w))%nat by lia. rewrite rsum_split.
  rewrite (rsum_ext w _ g). 2:{ intros i Hi. destruct (Nat.ltb_spec i w); [reflexivity|lia]. }
  rewrite (rsum_ext (n - w) _ (fun _ => 0)), rsum_0; [ring|].
  intros i Hi. destruct (Nat.ltb_spec (w + i) w); [lia|reflexivity].
Qed.

Definition window_sum (n phi w : nat) (g : nat -> R) : R :=
  rsum w (fun k => g ((k + phi) mod n)%nat).

Lemma rsum_window n phi w g : (phi < n)%nat -> (w <= n)%nat ->
  rsum n (fun i => if in_window n phi w i then g i else 0) = window_sum n phi w g.
Proof.
  intros Hp Hw. rewrite <- (rsum_rot n phi) by lia.
  rewrite (rsum_ext n _ (fun i => if (i <? w)%nat then g ((i + phi) mod n)%nat else 0)).
  - now apply rsum_prefix.
  - intros i Hi. now rewrite in_window_rot.
Qed.

Lemma rsum_two n phi w (t g : nat -> R) hi lo : (phi < n)%nat -> (w <= n)%nat ->
  (forall i, (i < n)%nat -> t i = if in_window n phi w i then hi else lo) ->
  rsum n (fun i => g i * t i) = hi * window_sum n phi w g + lo * (rsum n g - window_sum n phi w g).
Proof.
  intros Hp Hw Ht. rewrite <- (rsum_window n phi w g) by auto.
  rewrite <- rsum_minus, <- !rsum_scal, <- rsum_plus. apply rsum_ext.
  intros i Hi. rewrite Ht by auto. destruct (in_window n phi w i); ring.
Qed.

Lemma window_one n phi w : window_sum n phi w (fun _ => 1) = INR w.
Proof. unfold window_sum. rewrite rsum_const. ring. Qed.

(** ** the template is unique *)
Definition bh (n w : nat) : R := R_sqrt.sqrt (INR (n - w) / INR (n * w)).
Definition bb (n w : nat) : R := INR w / INR (n - w) * bh n w.

Lemma bh_facts n w : (0 < w < n)%nat ->
  0 < bh n w /\ 0 < bb n w /\ INR w * bh n w = INR (n - w) * bb n w /\
  INR w * bh n w ^ 2 + INR (n - w) * bb n w ^ 2 = 1 /\ INR n = INR w + INR (n - w) /\
  0 < INR w /\ 0 < INR (n - w).
Proof.
  intros H.
  assert (Hn : INR n = INR w + INR (n - w)) by (rewrite <- plus_INR; f_equal; lia).
  assert (Hw : 0 < INR w) by (apply (lt_INR 0); lia).
  assert (Hd : 0 < INR (n - w)) by (apply (lt_INR 0); lia).
  assert (Hq : 0 < INR (n - w) / INR (n * w)).
  { rewrite mult_INR. apply Rdiv_lt_0_compat; auto. apply Rmult_lt_0_compat; lra. }
  assert (Hb : 0 < bh n w) by (apply sqrt_lt_R0; auto).
  assert (Hs : bh n w ^ 2 = INR (n - w) / INR (n * w)).
  { unfold bh. cbn [pow]. rewrite Rmult_1_r. apply sqrt_sqrt. lra. }
  split; auto. split. { unfold bb. apply Rmult_lt_0_compat; auto. apply Rdiv_lt_0_compat; auto. }
  split. { unfold bb. field. lra. }
  split; [|auto].
  unfold bb. rewrite Rpow_mult_distr, Hs, mult_INR, Hn. field. lra.
Qed.

Lemma template_unique n w phi t hi lo : (phi < n)%nat -> (0 < w < n)%nat -> 0 < hi ->
  (forall i, (i < n)%nat -> t i = if in_window n phi w i then hi else lo) ->
  rsum n t = 0 -> rsum n (fun i => t i ^ 2) = 1 -> hi = bh n w /\ lo = - bb n w.
Proof.
  intros Hp Hw Hhi Ht H0 H1.
  destruct (bh_facts n w Hw) as (B1 & B2 & B3 & B4 & Hn & W1 & W2).
  assert (E0 : hi * INR w + lo * INR (n - w) = 0).
  { rewrite <- H0. rewrite (rsum_ext n t (fun i => 1 * t i)) by (intros; ring).
    rewrite (rsum_two n phi w t (fun _ => 1) hi lo) by (auto; lia).
    rewrite window_one, rsum_const, Hn. ring. }
  assert (E1 : hi ^ 2 * INR w + lo ^ 2 * INR (n - w) = 1).
  { rewrite <- H1. rewrite (rsum_ext n (fun i => t i ^ 2) (fun i => 1 * (fun i => t i ^ 2) i))
      by (intros; ring).
    rewrite (rsum_two n phi w (fun i => t i ^ 2) (fun _ => 1) (hi ^ 2) (lo ^ 2)); auto; try lia.
    - rewrite window_one, rsum_const, Hn. ring.
    - intros i Hi. rewrite Ht by auto. destruct (in_window n phi w i); reflexivity. }
  assert (L : lo = - (INR w / INR (n - w) * hi)) by (apply Rmult_eq_reg_r with (INR (n - w)); [|lra];
    field_simplify; lra).
  assert (bhi : hi ^ 2 = bh n w ^ 2).
  { assert (Hk : 0 < INR w + (INR w / INR (n - w)) ^ 2 * INR (n - w)).
    { assert (0 < (INR w / INR (n - w)) ^ 2 * INR (n - w)); [|lra].
      apply Rmult_lt_0_compat; auto. apply pow_lt. apply Rdiv_lt_0_compat; auto. }
    apply Rmult_eq_reg_r with (INR w + (INR w / INR (n - w)) ^ 2 * INR (n - w)); [|lra].
    rewrite L in E1. unfold bb in B4. rewrite Rpow_mult_distr in B4.
    replace ((- (INR w / INR (n - w) * hi)) ^ 2) with ((INR w / INR (n - w)) ^ 2 * hi ^ 2) in E1 by ring.
    lra. }
  assert (hi = bh n w) by nra.
  split; auto. rewrite L. unfold bb. now rewrite H.
Qed.

Lemma template_exists n w phi : (phi < n)%nat -> (0 < w < n)%nat ->
  boxcar_template n w phi (fun i => if in_window n phi w i then bh n w else - bb n w).
Proof.
  intros Hp Hw. destruct (bh_facts n w Hw) as (B1 & B2 & B3 & B4 & Hn & W1 & W2).
  exists (bh n w), (- bb n w). split; auto. split; auto. split.
  - rewrite (rsum_ext n _ (fun i => 1 * (fun i => if in_window n phi w i then bh n w else - bb n w) i))
      by (intros; ring).
    rewrite (rsum_two n phi w _ (fun _ => 1) (bh n w) (- bb n w)) by (auto; lia).
    rewrite window_one, rsum_const. rewrite Hn. lra.
  - rewrite (rsum_ext n _ (fun i => 1 * (fun i => if in_window n phi w i then bh n w ^ 2 else bb n w ^ 2) i)).
    2:{ intros i Hi. cbv beta. destruct (in_window n phi w i); ring. }
    rewrite (rsum_two n phi w _ (fun _ => 1) (bh n w ^ 2) (bb n w ^ 2)) by (auto; lia).
    rewrite window_one, rsum_const. rewrite Hn. lra.
Qed.

Lemma inner_template n w phi t x : (phi < n)%nat -> (0 < w < n)%nat -> boxcar_template n w phi t ->
  inner n x t = (bh n w + bb n w) * window_sum n phi w x - bb n w * rsum n x.
Proof.
  intros Hp Hw (hi & lo & H0 & Ht & Hs & Hq).
  destruct (template_unique n w phi t hi lo) as [-> ->]; auto.
  unfold inner. rewrite (rsum_two n phi w t x (bh n w) (- bb n w)) by (auto; lia). ring.
Qed.

(** ** the code *)
Lemma size_sub_le a b : (b <= a)%nat -> (Z.of_nat a < 2 ^ 64)%Z ->
  size_sub a b = Z.of_nat (a - b).
Proof. intros H1 H2. unfold size_sub. rewrite Z.mod_small; lia. Qed.

Lemma max_width_spec ws m : max_width ws = Ok m -> In m ws /\ forall w, In w ws -> (w <= m)%nat.
Proof.
  destruct ws as [|w ws]; [discriminate|]. cbn. intros [= <-].
  assert (G : forall ws w, (fold_left Nat.max ws w = w \/ In (fold_left Nat.max ws w) ws) /\
     (w <= fold_left Nat.max ws w)%nat /\ (forall v, In v ws -> (v <= fold_left Nat.max ws w)%nat)).
  { clear. induction ws as [|v ws IH]; intros w; cbn.
    - repeat split; auto. contradiction.
    - destruct (IH (Nat.max w v)) as (A & B & C). split.
      + destruct A as [A|A]; auto. rewrite A. destruct (Nat.max_spec w v) as [[_ ->]|[_ ->]]; auto.
      + split; [lia|]. intros u [->|Hu]; [lia|auto]. }
  destruct (G ws w) as (A & B & C). split.
  - destruct A; [left; auto|right; auto].
  - intros v [->|Hv]; auto.
Qed.

Lemma max_width_ok ws : ws <> [] -> exists m, max_width ws = Ok m.
Proof. destruct ws; [congruence|]. eexists; reflexivity. Qed.

(** diff_max in exact arithmetic *)
Lemma diff_max_spec (b : list R) xo yo size : (0 < size)%nat ->
  (xo + size <= length b)%nat -> (yo + size <= length b)%nat ->
  exists v : R, diff_max numR b xo yo size = Ok v /\
    (exists i, (i < size)%nat /\ v = nth (xo + i) b 0 - nth (yo + i) b 0) /\
    forall i, (i < size)%nat -> nth (xo + i) b 0 - nth (yo + i) b 0 <= v.
Proof.
  intros Hs Hx Hy. unfold diff_max. numR_ty.
  rewrite (rd_nth b xo 0), (rd_nth b yo 0) by lia. cbn [bind]. rsimp.
  set (dd := fun i => nth (xo + i) b 0 - nth (yo + i) b 0).
  match goal with |- context [for_ (size - 1) 1 ?bd ?s] =>
    destruct (for_inv (fun i (v : R) => (exists k, (k < i)%nat /\ v = dd k) /\
        forall k, (k < i)%nat -> dd k <= v) bd (size - 1) 1 s) as (v & E & (k & Hk & Ek) & M)
  end.
  - split.
    + exists 0%nat. split; [lia|]. unfold dd. now rewrite !Nat.add_0_r.
    + intros k Hk. replace k with 0%nat by lia. unfold dd. rewrite !Nat.add_0_r. lra.
  - intros i v Hi ((k & Hk & Ek) & M).
    rewrite (rd_nth b (xo + i) 0), (rd_nth b (yo + i) 0) by lia. cbn [bind].
    fold (dd i). destruct (Rlt_bool_spec v (dd i)) as [Hl|Hl]; eexists; (split; [reflexivity|]).
    + split; [exists i; split; auto|]. intros j Hj. destruct (Nat.eq_dec j i) as [->|]; [lra|].
      assert (dd j <= v) by (apply M; lia). lra.
    + split; [exists k; split; auto|]. intros j Hj. destruct (Nat.eq_dec j i) as [->|]; [lra|].
      apply M; lia.
  - exists v. split; auto. split; [exists k; split; auto; lia|].
    intros i Hi. apply M. lia.
Qed.

(** difference of circular prefix sums *)
Lemma cps_diff x ao n w i : (0 < n)%nat -> (i < n)%nat ->
  cps x ao n (w + i) - cps x ao n i
  = window_sum n (S i mod n) w (fun j => nth (ao + j) x 0).
Proof.
  intros Hn Hi. unfold cps, window_sum.
  replace (S (w + i)) with (S i + w)%nat by lia. rewrite rsum_split.
  rewrite (rsum_ext w (fun k => nth (ao + (k + S i mod n) mod n) x 0)
    (fun k => nth (ao + (S i + k) mod n) x 0)); [ring|].
  intros k Hk. rewrite Nat.add_mod_idemp_r by lia. do 2 f_equal. now rewrite Nat.add_comm.
Qed.

(** [resp x ao n w] : the response maximised over phases *)
Definition is_resp (x : list R) (ao n w : nat) (v : R) : Prop :=
  let g := fun j => nth (ao + j) x 0 in
  let r := fun phi => (bh n w + bb n w) * window_sum n phi w g - bb n w * rsum n g in
  (exists phi, (phi < n)%nat /\ v = r phi) /\ forall phi, (phi < n)%nat -> r phi <= v.

Lemma snr1_spec (alloc : nat -> list R) (arr : list R) ao size ws sd (out : list R) oo :
  (forall n, length (alloc n) = n) -> ws <> [] ->
  (forall w, In w ws -> (0 < w < size)%nat) -> (Z.of_nat size < 2 ^ 64)%Z -> 0 < sd ->
  (ao + size <= length arr)%nat -> (oo + length ws <= length out)%nat ->
  exists out' g, snr1 numR alloc arr ao size ws sd out oo = Ok out' /\
    written out out' oo (length ws) g /\
    forall k, (k < length ws)%nat -> is_resp arr ao size (nth k ws 0%nat) (g k * sd).
Proof.
  intros Ha Hws Hw Hsz Hsd Hl Ho.
  destruct (max_width_ok ws Hws) as [wmax Em]. pose proof (max_width_spec ws wmax Em) as [Min Mmax].
  unfold snr1. rewrite Em. cbn [bind].
  assert (0 < wmax < size)%nat by auto.
  destruct (circular_prefix_sum_spec arr ao size (size + wmax) (alloc (size + wmax)%nat))
    as (c & Ec & Lc & Wc & _); [lia|auto|rewrite Ha; lia|].
  numR_ty. rewrite Ec. cbn [bind]. rewrite Ha in Lc.
  destruct (Nat.eqb_spec size 0); [lia|].
  assert (Nc : forall j, (j < size + wmax)%nat -> nth j c 0 = cps arr ao size j).
  { intros j Hj. apply nth_error_nth. now apply (Wc j). }
  rewrite (rd_nth c (size - 1) 0) by lia. cbn [bind].
  rewrite Nc by lia. rewrite cps_full by lia.
  set (tot := rsum size (fun k => nth (ao + k) arr 0)).
  set (val := fun w => match diff_max numR c w 0 size with
     | Ok dmax => ((bh size w + bb size w) * dmax - bb size w * tot) / sd | _ => 0 end).
  match goal with |- context [for_ (length ws) 0 ?bd out] =>
    destruct (for_written bd (fun k => val (nth k ws 0%nat)) (length ws) 0 out oo) as (out' & E & W)
  end.
  - lia.
  - intros k b' Hk _ HF. rewrite Nat.sub_0_r.
    rewrite (rd_nth ws k 0%nat) by lia. cbn [bind].
    set (w := nth k ws 0%nat).
    assert (Hin : In w ws) by (apply nth_In; lia).
    pose proof (Hw w Hin) as Hww. pose proof (Mmax w Hin).
    destruct (diff_max_spec c w 0 size) as (v & Ev & _); [lia|lia|lia|].
    unfold val. rewrite Ev. cbn [bind]. 
    assert (Eh : boxcar_height numR size w = bh size w).
    { unfold boxcar_height, bh. rsimp. rewrite size_sub_le by lia. now rewrite <- !INR_IZR_INZ. }
    assert (Eb : boxcar_base numR size w (boxcar_height numR size w) = bb size w).
    { rewrite Eh. unfold boxcar_base, bb. rsimp. rewrite size_sub_le by lia.
      now rewrite <- !INR_IZR_INZ. }
    rewrite Eb, Eh. rsimp. do 2 f_equal. unfold Rdiv. ring.
  - exists out', (fun k => val (nth k ws 0%nat)). split; auto. split; auto.
    intros k Hk. set (w := nth k ws 0%nat).
    assert (Hin : In w ws) by (apply nth_In; lia).
    pose proof (Hw w Hin) as Hww. pose proof (Mmax w Hin).
    destruct (diff_max_spec c w 0 size) as (v & Ev & (i & Hi & Evi) & Mv); [lia|lia|lia|].
    unfold val. rewrite Ev.
    replace (((bh size w + bb size w) * v - bb size w * tot) / sd * sd)
      with ((bh size w + bb size w) * v - bb size w * tot) by (field; lra).
    destruct (bh_facts size w Hww) as (B1 & B2 & _).
    split.
    + exists (S i mod size)%nat. split; [apply Nat.mod_upper_bound; lia|].
      rewrite Evi, !Nc by lia. cbn [Nat.add]. rewrite cps_diff by lia. reflexivity.
    + intros phi Hphi.
      assert (exists j, (j < size)%nat /\ S j mod size = phi)%nat as (j & Hj & <-).
      { destruct phi as [|p].
        - exists (size - 1)%nat. split; [lia|]. replace (S (size - 1)) with size by lia.
          apply Nat.mod_same; lia.
        - exists p. split; [lia|]. apply Nat.mod_small; auto. }
      apply Rplus_le_compat_r. apply Rmult_le_compat_l; [lra|].
      specialize (Mv j Hj). rewrite !Nc in Mv by lia. cbn [Nat.add] in Mv.
      rewrite cps_diff in Mv by lia. exact Mv.
Qed.

Lemma snr2_spec (alloc : nat -> list R) (blk : list R) bo rows cols ws sd (out : list R) oo :
  (forall n, length (alloc n) = n) -> ws <> [] ->
  (forall w, In w ws -> (0 < w < cols)%nat) -> (Z.of_nat cols < 2 ^ 64)%Z -> 0 < sd ->
  (bo + rows * cols <= length blk)%nat -> (oo + rows * length ws <= length out)%nat ->
  exists out' : list R, snr2 numR alloc blk bo rows cols ws sd out oo = Ok out' /\
    length out' = length out /\
    (forall j, (j < oo)%nat \/ (oo + rows * length ws <= j)%nat -> nth_error out' j = nth_error out j) /\
    forall i k, (i < rows)%nat -> (k < length ws)%nat ->
      is_resp blk (bo + i * cols) cols (nth k ws 0%nat)
        (nth (oo + i * length ws + k) out' 0 * sd).
Proof.
  intros Ha Hws Hw Hsz Hsd Hl Ho. unfold snr2. numR_ty. set (nw := length ws) in *.
  match goal with |- context [for_ rows 0 ?bd out] =>
    destruct (for_inv (fun r (o : list R) => length o = length out /\
       (forall j, (j < oo)%nat \/ (oo + r * nw <= j)%nat -> nth_error o j = nth_error out j) /\
       forall i k, (i < r)%nat -> (k < nw)%nat ->
         is_resp blk (bo + i * cols) cols (nth k ws 0%nat) (nth (oo + i * nw + k) o 0 * sd))
      bd rows 0 out) as (out' & E & L & F & V)
  end.
  - repeat split; auto; intros; lia.
  - intros r o Hr (L & F & V).
    destruct (snr1_spec alloc blk (bo + r * cols) cols ws sd o (oo + r * nw)%nat)
      as (o' & g & E & (L' & W & F') & V'); auto; [nia|fold nw; nia|].
    exists o'. split; auto. split; [congruence|]. split.
    + intros j Hj. rewrite F' by (fold nw; nia). apply F. nia.
    + intros i k Hi Hk. destruct (Nat.eq_dec i r) as [->|].
      * specialize (W k Hk). rewrite (nth_error_nth _ _ 0 W). apply V'; auto.
      * assert (EQ : nth (oo + i * nw + k) o' 0 = nth (oo + i * nw + k) o 0)
          by (apply nth_error_eq_nth; apply F'; nia).
        numR_ty. rewrite EQ. apply V; auto; lia.
  - exists out'. auto.
Qed.

(** ** memory safety for every arithmetic *)
Section Safe.
Context (N : num).

Lemma add_scalar_any (out : list N) size a oo : (size <= oo)%nat -> (oo + size <= length out)%nat ->
  exists out', add_scalar N out 0 size a oo = Ok out' /\ length out' = length out.
Proof.
  intros H1 H2. unfold add_scalar.
  replace (0 + size <=? oo)%nat with true by (symmetry; apply Nat.leb_le; lia). cbn [orb].
  match goal with |- context [for_ size 0 ?bd out] =>
    destruct (for_inv (fun _ (o : list N) => length o = length out) bd size 0 out) as (o & E & L); auto
  end.
  - intros i o Hi L. destruct (rd_ok o (0 + i)) as (v & -> & _); [lia|]. cbn [bind].
    rewrite wr_ok by lia. eexists; split; [reflexivity|]. now rewrite upd_length.
  - eauto.
Qed.

Lemma circular_prefix_sum_any (x : list N) xo size nsum (out : list N) :
  (0 < size)%nat -> (xo + size <= length x)%nat -> (nsum <= length out)%nat ->
  exists out', circular_prefix_sum N x xo size nsum out = Ok out' /\ length out' = length out.
Proof.
  intros Hs Hx Ho. unfold circular_prefix_sum. set (jmax := Nat.min size nsum).
  match goal with |- context [for_ jmax 0 ?bd ?s] =>
    destruct (for_inv (fun _ (st : N * list N) => length (snd st) = length out) bd jmax 0 s)
      as ([acc o1] & E & L1); auto
  end.
  - intros i [acc o] Hi L. cbn in L. destruct (rd_ok x (xo + i)) as (v & -> & _); [lia|]. cbn [bind].
    rewrite wr_ok by lia. cbn [bind]. eexists; split; [reflexivity|]. cbn. now rewrite upd_length.
  - rewrite E. cbn [bind]. cbn in L1. destruct (Nat.leb_spec nsum size); [eauto|].
    destruct (Nat.eqb_spec size 0); [lia|].
    pose proof (Nat.div_mod nsum size ltac:(lia)) as Hd.
    pose proof (Nat.mod_upper_bound nsum size ltac:(lia)) as Hm.
    set (q := (nsum / size)%nat) in *. set (r := (nsum mod size)%nat) in *.
    match goal with |- context [for_ (q - 1) 1 ?bd o1] =>
      destruct (for_inv (fun _ (o : list N) => length o = length out) bd (q - 1) 1 o1)
        as (o2 & E2 & L2); auto
    end.
    + intros i o Hi L.
      destruct (add_scalar_any o size (o_mul n_sgl (o_ofZ n_sgl (Z.of_nat i)) (n_narrow acc)) (i * size))
        as (o' & E' & L'); [nia|nia|]. exists o'. split; auto. congruence.
    + rewrite E2. cbn [bind].
      assert (1 <= q)%nat by nia.
      destruct (add_scalar_any o2 r (o_mul n_sgl (o_ofZ n_sgl (Z.of_nat q)) (n_narrow acc)) (q * size))
        as (o' & E' & L'); [nia|nia|]. exists o'. split; auto. congruence.
Qed.

Lemma diff_max_any (b : list N) xo yo size : (0 < size)%nat ->
  (xo + size <= length b)%nat -> (yo + size <= length b)%nat ->
  exists v, diff_max N b xo yo size = Ok v.
Proof.
  intros Hs Hx Hy. unfold diff_max.
  destruct (rd_ok b xo) as (x0 & -> & _); [lia|]. destruct (rd_ok b yo) as (y0 & -> & _); [lia|].
  cbn [bind].
  match goal with |- context [for_ (size - 1) 1 ?bd ?s] =>
    destruct (for_inv (fun _ (v : N) => True) bd (size - 1) 1 s) as (v & E & _); auto
  end.
  - intros i v Hi _. destruct (rd_ok b (xo + i)) as (x1 & -> & _); [lia|].
    destruct (rd_ok b (yo + i)) as (y1 & -> & _); [lia|]. cbn [bind]. eauto.
  - eauto.
Qed.

Lemma snr1_any (alloc : nat -> list N) (arr : list N) ao size ws sd (out : list N) oo :
  (forall n, length (alloc n) = n) -> ws <> [] ->
  (forall w, In w ws -> (0 < w < size)%nat) ->
  (ao + size <= length arr)%nat -> (oo + length ws <= length out)%nat ->
  exists out', snr1 N alloc arr ao size ws sd out oo = Ok out' /\ length out' = length out.
Proof.
  intros Ha Hws Hw Hl Ho.
  destruct (max_width_ok ws Hws) as [wmax Em]. pose proof (max_width_spec ws wmax Em) as [Min Mmax].
  unfold snr1. rewrite Em. cbn [bind].
  assert (0 < wmax < size)%nat by auto.
  destruct (circular_prefix_sum_any arr ao size (size + wmax) (alloc (size + wmax)%nat))
    as (c & Ec & Lc); [lia|auto|rewrite Ha; lia|].
  rewrite Ec. cbn [bind]. rewrite Ha in Lc.
  destruct (Nat.eqb_spec size 0); [lia|].
  destruct (rd_ok c (size - 1)) as (tot & -> & _); [lia|]. cbn [bind].
  match goal with |- context [for_ (length ws) 0 ?bd out] =>
    destruct (for_inv (fun _ (o : list N) => length o = length out) bd (length ws) 0 out)
      as (o & E & L); auto
  end.
  - intros i o Hi L. rewrite (rd_nth ws i 0%nat) by lia. cbn [bind].
    assert (Hin : In (nth i ws 0%nat) ws) by (apply nth_In; lia).
    pose proof (Hw _ Hin). pose proof (Mmax _ Hin).
    destruct (diff_max_any c (nth i ws 0%nat) 0 size) as (v & ->); [lia|lia|lia|]. cbn [bind].
    rewrite wr_ok by lia. eexists; split; [reflexivity|]. now rewrite upd_length.
  - eauto.
Qed.

Lemma snr2_any (alloc : nat -> list N) (blk : list N) bo rows cols ws sd (out : list N) oo :
  (forall n, length (alloc n) = n) -> ws <> [] ->
  (forall w, In w ws -> (0 < w < cols)%nat) ->
  (bo + rows * cols <= length blk)%nat -> (oo + rows * length ws <= length out)%nat ->
  exists out', snr2 N alloc blk bo rows cols ws sd out oo = Ok out' /\ length out' = length out.
Proof.
  intros Ha Hws Hw Hl Ho. unfold snr2.
  match goal with |- context [for_ rows 0 ?bd out] =>
    destruct (for_inv (fun _ (o : list N) => length o = length out) bd rows 0 out)
      as (o & E & L); auto
  end.
  - intros i o Hi L.
    destruct (snr1_any alloc blk (bo + i * cols) cols ws sd o (oo + i * length ws))
      as (o' & E & L'); auto; [nia|nia|]. exists o'. split; auto. congruence.
  - eauto.
Qed.

(** the S/N values do not depend on where they are stored *)
Lemma snr1_val (alloc : nat -> list N) (arr : list N) ao size ws sd :
  (forall n, length (alloc n) = n) -> ws <> [] ->
  (forall w, In w ws -> (0 < w < size)%nat) -> (ao + size <= length arr)%nat ->
  exists g, forall (out : list N) oo, (oo + length ws <= length out)%nat ->
    exists out', snr1 N alloc arr ao size ws sd out oo = Ok out' /\
      written out out' oo (length ws) g.
Proof.
  intros Ha Hws Hw Hl.
  destruct (max_width_ok ws Hws) as [wmax Em]. pose proof (max_width_spec ws wmax Em) as [Min Mmax].
  assert (0 < wmax < size)%nat by auto.
  destruct (circular_prefix_sum_any arr ao size (size + wmax) (alloc (size + wmax)%nat))
    as (c & Ec & Lc); [lia|auto|rewrite Ha; lia|].
  rewrite Ha in Lc.
  destruct (rd_ok c (size - 1)) as (tot & Et & _); [lia|].
  set (g := fun k => let w := nth k ws 0%nat in
    match diff_max N c w 0 size with
    | Ok dmax => o_div n_sgl
        (o_mad n_sgl (o_add n_sgl (boxcar_height N size w)
           (boxcar_base N size w (boxcar_height N size w))) dmax
           (o_sub n_sgl (o_ofZ n_sgl 0)
             (o_mul n_sgl (boxcar_base N size w (boxcar_height N size w)) tot))) sd
    | _ => tot end).
  exists g. intros out oo Ho. unfold snr1. rewrite Em. cbn [bind]. rewrite Ec. cbn [bind].
  destruct (Nat.eqb_spec size 0); [lia|]. rewrite Et. cbn [bind].
  match goal with |- context [for_ (length ws) 0 ?bd out] =>
    destruct (for_written bd g (length ws) 0 out oo) as (o & E & W); auto
  end.
  - intros i o Hi L _. rewrite (rd_nth ws i 0%nat) by lia. cbn [bind].
    assert (Hin : In (nth i ws 0%nat) ws) by (apply nth_In; lia).
    pose proof (Hw _ Hin). pose proof (Mmax _ Hin).
    rewrite Nat.sub_0_r.
    destruct (diff_max_any c (nth i ws 0%nat) 0 size) as (v & Ev); [lia|lia|lia|].
    unfold g. rewrite Ev. reflexivity.
  - eauto.
Qed.

(** only the profile itself is read *)
Lemma snr1_slice (alloc : nat -> list N) (arr : list N) ao size ws sd (out : list N) oo :
  (ao + size <= length arr)%nat ->
  snr1 N alloc arr ao size ws sd out oo
  = snr1 N alloc (firstn size (skipn ao arr)) 0 size ws sd out oo.
Proof.
  intros Hl. unfold snr1. destruct (max_width ws) as [wmax| | |]; auto. cbn [bind].
  assert (E : circular_prefix_sum N arr ao size (size + wmax) (alloc (size + wmax)%nat)
    = circular_prefix_sum N (firstn size (skipn ao arr)) 0 size (size + wmax) (alloc (size + wmax)%nat)).
  { unfold circular_prefix_sum. f_equal. apply for_ext. intros i [acc o] Hi.
    cbn [Nat.add] in *.
    assert (Hd : exists d : N, True).
    { destruct arr as [|a arr]; [cbn in Hl; lia|]. now exists a. }
    destruct Hd as [d _].
    rewrite (rd_nth arr (ao + i) d) by lia.
    rewrite (rd_nth _ i d) by (rewrite firstn_length, skipn_length; lia).
    rewrite nth_firstn_skipn by lia. reflexivity. }
  now rewrite E.
Qed.

Lemma snr2_val (alloc : nat -> list N) (blk : list N) rows cols ws sd (out : list N) oo :
  (forall n, length (alloc n) = n) -> ws <> [] ->
  (forall w, In w ws -> (0 < w < cols)%nat) ->
  (rows * cols <= length blk)%nat -> (oo + rows * length ws <= length out)%nat ->
  exists out', snr2 N alloc blk 0 rows cols ws sd out oo = Ok out' /\
    frame out out' oo (rows * length ws) /\
    forall i k, (i < rows)%nat -> (k < length ws)%nat ->
      exists v, nth_error out' (oo + i * length ws + k) = Some v /\
        exists s, snr1 N alloc (firstn cols (skipn (i * cols) blk)) 0 cols ws sd
                    (alloc (length ws)) 0 = Ok s /\ nth_error s k = Some v.
Proof.
  intros Ha Hws Hw Hl Ho. unfold snr2. set (nw := length ws) in *.
  match goal with |- context [for_ rows 0 ?bd out] =>
    destruct (for_inv (fun r (o : list N) => frame out o oo (r * nw) /\
      forall i k, (i < r)%nat -> (k < nw)%nat ->
        exists v, nth_error o (oo + i * nw + k) = Some v /\
        exists s, snr1 N alloc (firstn cols (skipn (i * cols) blk)) 0 cols ws sd
                    (alloc (length ws)) 0 = Ok s /\ nth_error s k = Some v) bd rows 0 out)
      as (o & E & F & V)
  end.
  - split; [apply frame_refl|]. intros; lia.
  - intros r o Hr ([L F] & V). cbn [Nat.add] in *.
    destruct (snr1_val alloc blk (r * cols) cols ws sd) as (g & Hg); auto; [nia|].
    destruct (Hg o (oo + r * nw)%nat) as (o' & E & (L' & W & F')); [fold nw; nia|].
    destruct (Hg (alloc nw) 0%nat) as (s & Es & (_ & Ws & _)); [fold nw; rewrite Ha; lia|].
    exists o'. split; [exact E|]. split.
    + split; [congruence|]. intros j Hj. rewrite F' by (fold nw; lia). apply F. lia.
    + intros i k Hi Hk. destruct (Nat.eq_dec i r) as [->|Hne].
      * exists (g k). split; [now apply W|]. exists s. split.
        -- rewrite <- snr1_slice by nia. exact Es.
        -- now apply Ws.
      * destruct (V i k ltac:(lia) Hk) as (v & Ev & Hs). exists v. split; auto.
        rewrite F'; auto. left. nia.
  - exists o. split; [exact E|]. split; auto.
Qed.
End Safe.

(** ** Cauchy-Schwarz *)
Lemma cauchy_schwarz n (f g : nat -> R) :
  rsum n (fun i => f i * g i) ^ 2 <= rsum n (fun i => f i ^ 2) * rsum n (fun i => g i ^ 2).
Proof.
  set (a := rsum n (fun i => f i ^ 2)). set (b := rsum n (fun i => g i ^ 2)).
  set (c := rsum n (fun i => f i * g i)).
  assert (Q : forall s, 0 <= a - 2 * s * c + s ^ 2 * b).
  { intros s. assert (0 <= rsum n (fun i => (f i - s * g i) ^ 2)).
    { apply rsum_nonneg. intros. apply pow2_ge_0. }
    replace (a - 2 * s * c + s ^ 2 * b) with (rsum n (fun i => (f i - s * g i) ^ 2)); auto.
    unfold a, b, c. rewrite <- !rsum_scal, <- rsum_minus, <- rsum_plus.
    apply rsum_ext. intros. ring. }
  assert (0 <= b). { apply rsum_nonneg. intros. apply pow2_ge_0. }
  destruct (Req_dec b 0) as [Hb|Hb].
  - assert (c = 0).
    { destruct (Req_dec c 0) as [|Hc]; auto. exfalso.
      specialize (Q ((a + 1) / (2 * c))). rewrite Hb in Q.
      replace (a - 2 * ((a + 1) / (2 * c)) * c + ((a + 1) / (2 * c)) ^ 2 * 0) with (-1) in Q
        by (field; lra). lra. }
    rewrite Hb, H0. lra.
  - specialize (Q (c / b)).
    replace (a - 2 * (c / b) * c + (c / b) ^ 2 * b) with (a - c ^ 2 / b) in Q by (field; lra).
    apply Rmult_le_reg_r with (/ b). { apply Rinv_0_lt_compat. lra. }
    replace (a * b * / b) with a by (field; lra). unfold Rdiv in Q. lra.
Qed.

Lemma is_resp_best (x : list R) w v : (0 < w < length x)%nat ->
  is_resp x 0 (length x) w v <-> best_response x w v.
Proof.
  intros Hw. set (n := length x).
  assert (I : forall phi t, (phi < n)%nat -> boxcar_template n w phi t ->
    inner n (fun i => nth i x 0) t
    = (bh n w + bb n w) * window_sum n phi w (fun j => nth (0 + j) x 0) - bb n w * rsum n (fun j => nth (0 + j) x 0)).
  { intros phi t Hp Ht. rewrite (inner_template n w phi t) by auto. reflexivity. }
  split.
  - intros [(phi & Hp & E) M]. split.
    + exists phi, (fun i => if in_window n phi w i then bh n w else - bb n w).
      pose proof (template_exists n w phi Hp Hw) as HT. split; auto. split; auto.
      fold n. rewrite (I phi) by auto. symmetry. exact E.
    + intros phi' t Hp' Ht. fold n in Hp', Ht |- *. rewrite I with (phi := phi') by auto. apply M. auto.
  - intros [(phi & t & Hp & Ht & E) M]. split.
    + exists phi. split; auto. fold n. rewrite <- E. apply I; auto.
    + intros phi' Hp'. fold n. fold n in Hp'. rewrite <- I with (t := fun i => if in_window n phi' w i then bh n w else - bb n w); auto.
      * apply (M phi'); auto. now apply template_exists.
      * now apply template_exists.
Qed.

Lemma best_response_unique x w v v' : best_response x w v -> best_response x w v' -> v = v'.
Proof.
  intros [(p & t & Hp & Ht & E) M] [(p' & t' & Hp' & Ht' & E') M'].
  apply Rle_antisym; [rewrite <- E; apply M' with p|rewrite <- E'; apply M with p']; auto.
Qed.
