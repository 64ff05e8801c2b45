From Coq Require Import List Arith ZArith Bool Lia Reals Lra.
From Flocq Require Import Core.
From Verif Require Import Base.Result Base.Buf Base.Num Model.Kernels Spec.Sums.
Import ListNotations.

Lemma list_eq_nth_error {A} (l l' : list A) :
  (forall i, nth_error l i = nth_error l' i) -> l = l'.
Proof.
  revert l'; induction l as [|a l IH]; intros [|b l'] H; auto.
  - specialize (H 0); discriminate.
  - specialize (H 0); discriminate.
  - pose proof (H 0) as H0; cbn in H0; injection H0 as ->.
    f_equal. apply IH. intros i. apply (H (S i)).
Qed.

Section Elementwise.
Context {A : Type} (plus : A -> A -> A) (d : A).

Lemma add_spec x xo y yo size z zo :
  xo + size <= length x -> yo + size <= length y -> zo + size <= length z ->
  exists z', add plus x xo y yo size z zo = Ok z' /\
    written z z' zo size (fun i => plus (nth (xo + i) x d) (nth (yo + i) y d)).
Proof.
  intros Hx Hy Hz. unfold add.
  apply (for_written _ (fun i => plus (nth (xo + i) x d) (nth (yo + i) y d))); auto.
  intros i b' Hi _ _. rewrite (rd_nth x (xo + i) d), (rd_nth y (yo + i) d) by lia. cbn.
  rewrite Nat.sub_0_r. reflexivity.
Qed.

Lemma memcpy_spec out oo x xo n :
  xo + n <= length x -> oo + n <= length out ->
  exists out', memcpy out oo x xo n = Ok out' /\
    written out out' oo n (fun i => nth (xo + i) x d).
Proof.
  intros Hx Ho. unfold memcpy.
  apply (for_written _ (fun i => nth (xo + i) x d)); auto.
  intros i b' Hi _ _. rewrite (rd_nth x (xo + i) d) by lia. cbn.
  rewrite Nat.sub_0_r. reflexivity.
Qed.

Lemma written_split b b1 b2 o p q g1 g2 g :
  written b b1 o q g1 -> written b1 b2 (o + q) p g2 ->
  (forall i, i < q -> g i = g1 i) -> (forall i, i < p -> g (q + i) = g2 i) ->
  @written A b b2 o (q + p) g.
Proof.
  intros (L1 & W1 & F1) (L2 & W2 & F2) H1 H2. split; [congruence|]. split.
  - intros j Hj. destruct (lt_dec j q).
    + rewrite F2 by lia. rewrite W1 by lia. f_equal; symmetry; auto.
    + replace (o + j) with (o + q + (j - q)) by lia. rewrite W2 by lia.
      rewrite <- H2 by lia. do 2 f_equal; lia.
  - intros j Hj. rewrite F2 by lia. apply F1; lia.
Qed.

Lemma roll_low i shift size : 0 < size -> i < size - shift mod size ->
  (i + shift) mod size = shift mod size + i.
Proof.
  intros Hs Hi. rewrite <- Nat.add_mod_idemp_r by lia. rewrite Nat.mod_small; lia.
Qed.

Lemma roll_high i shift size : 0 < size -> i < shift mod size ->
  (size - shift mod size + i + shift) mod size = i.
Proof.
  intros Hs Hi. rewrite <- Nat.add_mod_idemp_r by lia.
  pose proof (Nat.mod_upper_bound shift size ltac:(lia)).
  replace (size - shift mod size + i + shift mod size) with (i + 1 * size) by lia.
  rewrite Nat.mod_add by lia. apply Nat.mod_small; lia.
Qed.

Lemma fused_rollback_add_spec x xo y yo size shift z zo :
  0 < size ->
  xo + size <= length x -> yo + size <= length y -> zo + size <= length z ->
  exists z', fused_rollback_add plus x xo y yo size shift z zo = Ok z' /\
    written z z' zo size
      (fun i => plus (nth (xo + i) x d) (nth (yo + (i + shift) mod size) y d)).
Proof.
  intros Hs Hx Hy Hz. unfold fused_rollback_add.
  destruct (Nat.eqb_spec size 0); [lia|].
  pose proof (Nat.mod_upper_bound shift size ltac:(lia)) as Hp.
  set (p := shift mod size) in *.
  destruct (add_spec x xo y (yo + p) (size - p) z zo) as (z1 & E1 & W1); try lia.
  rewrite E1; cbn.
  pose proof W1 as (L1 & _).
  destruct (add_spec x (xo + (size - p)) y yo p z1 (zo + (size - p))) as (z2 & E2 & W2);
    try lia.
  exists z2; split; auto.
  replace size with (size - p + p) at 1 by lia.
  eapply written_split; eauto; intros i Hi; cbn.
  - rewrite roll_low by (auto; lia). do 2 f_equal. fold p. lia.
  - unfold p at 2. rewrite roll_high by auto. do 2 f_equal. lia.
Qed.

Lemma rollback_spec x size shift out :
  0 < size -> size <= length x -> size <= length out ->
  exists out', rollback x size shift out = Ok out' /\
    written out out' 0 size (fun i => nth ((i + shift) mod size) x d).
Proof.
  intros Hs Hx Ho. unfold rollback.
  destruct (Nat.eqb_spec size 0); [lia|].
  pose proof (Nat.mod_upper_bound shift size ltac:(lia)) as Hp.
  set (p := shift mod size) in *.
  destruct (memcpy_spec out 0 x p (size - p)) as (z1 & E1 & W1); try lia.
  rewrite E1; cbn.
  pose proof W1 as (L1 & _).
  destruct (memcpy_spec z1 (size - p) x 0 p) as (z2 & E2 & W2); try lia.
  exists z2; split; auto.
  replace size with (size - p + p) at 1 by lia.
  eapply written_split with (q := size - p); eauto; intros i Hi; cbn.
  - rewrite roll_low by (auto; lia). reflexivity.
  - unfold p at 1. rewrite roll_high by auto. reflexivity.
Qed.
End Elementwise.

(** ** Circular prefix sum, exact arithmetic *)
Section Prefix.
Local Open Scope R_scope.

Definition cps (x : list R) (xo size j : nat) : R :=
  rsum (S j) (fun k => nth (xo + k mod size) x 0).

Arguments cps : simpl never.

Lemma rsum_wraps x xo size i : (0 < size)%nat ->
  rsum (i * size) (fun k => nth (xo + k mod size) x 0)
  = INR i * rsum size (fun k => nth (xo + k) x 0).
Proof.
  intros Hs. induction i; [cbn; lra|].
  replace (S i * size)%nat with (i * size + size)%nat by lia.
  rewrite rsum_split, IHi, S_INR.
  rewrite (rsum_ext size (fun i0 => nth (xo + (i * size + i0) mod size) x 0)
             (fun k => nth (xo + k) x 0)); [lra|].
  intros k Hk. do 2 f_equal. rewrite Nat.add_comm, Nat.mod_add by lia.
  apply Nat.mod_small; lia.
Qed.

Lemma cps_wrap x xo size i j : (0 < size)%nat -> (j < size)%nat ->
  cps x xo size (i * size + j)
  = cps x xo size j + INR i * rsum size (fun k => nth (xo + k) x 0).
Proof.
  intros Hs Hj. unfold cps.
  replace (S (i * size + j)) with (i * size + S j)%nat by lia.
  rewrite rsum_split, rsum_wraps by auto.
  rewrite (rsum_ext (S j) (fun i0 => nth (xo + (i * size + i0) mod size) x 0)
             (fun k => nth (xo + k mod size) x 0)); [lra|].
  intros k Hk. do 2 f_equal. rewrite Nat.add_comm, Nat.mod_add by lia. reflexivity.
Qed.

Lemma cps_full x xo size : (0 < size)%nat ->
  cps x xo size (size - 1) = rsum size (fun k => nth (xo + k) x 0).
Proof.
  intros Hs. unfold cps. replace (S (size - 1)) with size by lia.
  apply rsum_ext. intros k Hk. rewrite Nat.mod_small; auto.
Qed.

Lemma nth_error_nth_eq (l : list R) i v : nth_error l i = Some v -> (i < length l)%nat.
Proof. intros H. apply nth_error_Some. congruence. Qed.

Lemma add_scalar_spec (out : list R) xo size a oo :
  (xo + size <= oo)%nat -> (oo + size <= length out)%nat ->
  exists out', add_scalar numR out xo size a oo = Ok out' /\
    written out out' oo size (fun i => nth (xo + i) out 0 + a).
Proof.
  intros Hd Ho. unfold add_scalar. rsimp.
  replace (xo + size <=? oo)%nat with true by (symmetry; apply Nat.leb_le; lia). cbn [orb].
  apply (for_written _ (fun i => nth (xo + i) out 0 + a)); auto.
  intros i b' Hi HL HF. rewrite Nat.sub_0_r.
  replace (rd b' (xo + i)) with (rd out (xo + i)).
  2:{ unfold rd. rewrite HF by lia. reflexivity. }
  rewrite (rd_nth out (xo + i) 0) by lia. reflexivity.
Qed.

Lemma circular_prefix_sum_spec (x : list R) xo size nsum (out : list R) :
  (0 < size)%nat -> (xo + size <= length x)%nat -> (nsum <= length out)%nat ->
  exists out', circular_prefix_sum numR x xo size nsum out = Ok out' /\
    written out out' 0 nsum (cps x xo size).
Proof.
  intros Hs Hx Ho. unfold circular_prefix_sum. rsimp.
  set (jmax := Nat.min size nsum).
  match goal with |- context [for_ jmax 0 ?b ?s] =>
    destruct (for_inv (fun i (st : R * list R) =>
       fst st = rsum i (fun k => nth (xo + k mod size) x 0) /\
       written out (snd st) 0 i (cps x xo size)) b jmax 0 s) as ([acc out1] & E & Hacc & W)
  end.
  { split; [reflexivity|]. repeat split; auto; intros; lia. }
  { intros i [acc o] Hi [Hacc (L & W1 & W2)]. cbn [fst snd] in *.
    assert (i < size)%nat by (unfold jmax in Hi; lia).
    assert (i < nsum)%nat by (unfold jmax in Hi; lia).
    rewrite (rd_nth x (xo + i) 0) by lia. cbn.
    rewrite wr_ok by lia. cbn. eexists; split; [reflexivity|].
    assert (Hv : acc + nth (xo + i) x 0 = rsum (S i) (fun k => nth (xo + k mod size) x 0)).
    { cbn [rsum]. rewrite Hacc, (Nat.mod_small i) by auto. reflexivity. }
    cbn [fst snd]. split; [exact Hv|]. split; [now rewrite upd_length|]. split.
    - intros j Hj. cbn. destruct (Nat.eq_dec j i) as [->|].
      + rewrite upd_same by lia. f_equal. exact Hv.
      + rewrite upd_other by lia. apply (W1 j); lia.
    - intros j Hj. rewrite upd_other by lia. apply W2; lia. }
  rewrite E. cbn [bind]. cbn [fst snd] in *. rewrite Nat.add_0_l in *.
  destruct (Nat.leb_spec nsum size).
  { exists out1. split; auto. replace nsum with jmax at 1 by (unfold jmax; lia). exact W. }
  assert (Hj : jmax = size) by (unfold jmax; lia). rewrite Hj in *. clear jmax Hj.
  destruct (Nat.eqb_spec size 0); [lia|].
  assert (Hsum : acc = rsum size (fun k => nth (xo + k) x 0)).
  { rewrite Hacc. apply rsum_ext. intros k Hk. rewrite Nat.mod_small; auto. }
  pose proof (Nat.div_mod nsum size ltac:(lia)) as Hdm.
  pose proof (Nat.mod_upper_bound nsum size ltac:(lia)) as Hr.
  set (q := (nsum / size)%nat) in *. set (r := (nsum mod size)%nat) in *.
  assert (Hq : (1 <= q)%nat). { destruct q; lia. }
  match goal with |- context [for_ (q - 1) 1 ?b ?s] =>
    destruct (for_inv (fun i o => (1 <= i <= q)%nat /\ written out o 0 (i * size) (cps x xo size))
                b (q - 1)%nat 1%nat s) as (out2 & E2 & _ & W2)
  end.
  { split; [lia|]. replace (1 * size)%nat with size by lia. exact W. }
  { intros i o Hi (_ & L & Wi & Fi).
    destruct (add_scalar_spec o 0 size (IZR (Z.of_nat i) * acc) (i * size)) as (o' & Eo & L' & W' & F').
    { nia. }
    { rewrite L. nia. }
    cbn in *. rewrite Eo. eexists; split; [reflexivity|]. split; [lia|].
    split; [congruence|]. split.
    - intros j Hj. cbn. destruct (lt_dec j (i * size)).
      + rewrite F' by lia. apply Wi; lia.
      + replace j with (i * size + (j - i * size))%nat by lia.
        rewrite W' by nia. rewrite cps_wrap by nia. f_equal.
        rewrite (nth_error_nth o (j - i * size) 0 (Wi (j - i * size)%nat ltac:(nia))).
        rewrite <- INR_IZR_INZ. rewrite Hsum. reflexivity.
    - intros j Hj. rewrite F' by nia. apply Fi; nia. }
  change (@add_scalar numR) with (add_scalar numR) in *. cbn [n_narrow numR] in E2 |- *.
  rewrite E2. cbn [bind].
  replace (1 + (q - 1))%nat with q in W2 by lia.
  destruct W2 as (L2 & Wi & Fi).
  destruct (add_scalar_spec out2 0 r (IZR (Z.of_nat q) * acc) (q * size)) as (o' & Eo & L' & W' & F').
  { nia. }
  { rewrite L2. nia. }
  exists o'. cbn in *. rewrite Eo. split; [reflexivity|].
  split; [congruence|]. split.
  - intros j Hj. cbn. destruct (lt_dec j (q * size)).
    + rewrite F' by lia. apply Wi; lia.
    + replace j with (q * size + (j - q * size))%nat by lia.
      rewrite W' by nia. rewrite cps_wrap by nia. f_equal.
      rewrite (nth_error_nth out2 (j - q * size) 0 (Wi (j - q * size)%nat ltac:(nia))).
      rewrite <- INR_IZR_INZ. rewrite Hsum. reflexivity.
  - intros j Hj. rewrite F' by nia. apply Fi; nia.
Qed.
End Prefix.

(** ** The binding's allocation is too small when [nsum > len(x)], in any arithmetic *)
Section Overflow.
Context (N : num).

Lemma add_scalar_oob (out : list N) size a oo :
  0 < size -> size <= length out -> length out <= oo ->
  add_scalar N out 0 size a oo = UB.
Proof.
  intros Hs Hl Ho. unfold add_scalar.
  replace (0 + size <=? oo) with true by (symmetry; apply Nat.leb_le; lia). cbn [orb].
  destruct size; [lia|]. cbn [for_].
  destruct (rd_ok out (0 + 0)) as (v & -> & _); [lia|]. cbn [bind].
  unfold wr. replace (oo + 0 <? length out) with false; auto.
  symmetry; apply Nat.ltb_ge; lia.
Qed.

Lemma cps_first_loop (x : list N) xo (out : list N) n :
  xo + n <= length x -> n <= length out ->
  exists acc out1,
    for_ n 0 (fun j '(acc, out) =>
      v <- rd x (xo + j) ;;
      let acc' := o_add n_dbl acc v in
      out' <- wr out j (n_narrow acc') ;;
      Ok (acc', out')) (o_ofZ n_dbl 0, out) = Ok (acc, out1) /\ length out1 = length out.
Proof.
  intros Hx Ho.
  match goal with |- context [for_ n 0 ?b ?s] =>
    destruct (for_inv (fun i (st : N * list N) => length (snd st) = length out) b n 0 s)
      as ([acc o1] & E & H)
  end; auto.
  - intros i [acc o] Hi HL. cbn [snd] in HL.
    destruct (rd_ok x (xo + i)) as (v & -> & _); [lia|]. cbn [bind].
    rewrite wr_ok by lia. cbn. eexists; split; eauto. cbn. now rewrite upd_length.
  - exists acc, o1; split; auto.
Qed.

Lemma py_circular_prefix_sum_overflow (junk x : list N) nsum :
  length junk = length x -> 0 < length x < nsum ->
  py_circular_prefix_sum N junk x nsum = UB.
Proof.
  intros HJ [H0 Hn]. unfold py_circular_prefix_sum, circular_prefix_sum.
  rewrite Nat.min_l by lia.
  destruct (cps_first_loop x 0 junk (length x)) as (acc & out1 & E1 & HL); try lia.
  match type of E1 with ?l = _ => match goal with |- context [for_ (length x) 0 ?b ?s] =>
    change (for_ (length x) 0 b s) with l end end.
  rewrite E1. cbn [bind].
  destruct (Nat.leb_spec nsum (length x)); [lia|].
  destruct (Nat.eqb_spec (length x) 0); [lia|].
  pose proof (Nat.div_mod nsum (length x) ltac:(lia)) as Hdm.
  pose proof (Nat.mod_upper_bound nsum (length x) ltac:(lia)) as Hr.
  set (q := nsum / length x) in *. set (r := nsum mod length x) in *.
  destruct (Nat.eq_dec q 1) as [Hq|Hq].
  - rewrite Hq. cbn [Nat.sub for_ bind]. apply add_scalar_oob; lia.
  - destruct q as [|[|q']]; [lia|lia|].
    replace (S (S q') - 1) with (S q') by lia. cbn [for_].
    rewrite add_scalar_oob by lia. reflexivity.
Qed.
End Overflow.
