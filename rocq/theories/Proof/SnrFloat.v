(** Rounding errors of the prefix sums and of the S/N. *)
From Coq Require Import List Arith ZArith Bool Lia Reals Lra Psatz.
From Flocq Require Import Core.
From Verif Require Import Base.Result Base.Buf Base.Num Model.Kernels Model.Snr
  Spec.Sums Spec.Boxcar Proof.Index Proof.Ffa Proof.Kernels Proof.Downsample Proof.Snr Proof.Rounding.
Import ListNotations.
Local Open Scope R_scope.

(** ** the values computed, in any arithmetic *)
Section Values.
Context (N : num) (d : N).

Fixpoint pacc (x : list N) (xo n : nat) : N :=
  match n with
  | O => o_ofZ n_dbl 0
  | S m => o_add n_dbl (pacc x xo m) (nth (xo + m) x d)
  end.

Definition pval (x : list N) (xo size j : nat) : N :=
  if (j <? size)%nat then n_narrow (pacc x xo (S j))
  else o_add n_sgl (n_narrow (pacc x xo (S (j mod size))))
         (o_mul n_sgl (o_ofZ n_sgl (Z.of_nat (j / size))) (n_narrow (pacc x xo size))).

Lemma add_scalar_val (out : list N) xo size a oo :
  (xo + size <= oo)%nat -> (oo + size <= length out)%nat ->
  exists out', add_scalar N out xo size a oo = Ok out' /\
    written out out' oo size (fun i => o_add n_sgl (nth (xo + i) out d) a).
Proof.
  intros Hd Ho. unfold add_scalar.
  replace (xo + size <=? oo)%nat with true by (symmetry; apply Nat.leb_le; lia). cbn [orb].
  apply (for_written _ (fun i => o_add n_sgl (nth (xo + i) out d) a)); auto.
  intros i b' Hi HL HF. rewrite Nat.sub_0_r.
  replace (rd b' (xo + i)) with (rd out (xo + i)).
  2:{ unfold rd. rewrite HF by lia. reflexivity. }
  rewrite (rd_nth out (xo + i) d) by lia. reflexivity.
Qed.

Lemma pval_wrap x xo size i j : (0 < size)%nat -> (j < size)%nat -> (1 <= i)%nat ->
  pval x xo size (i * size + j) = o_add n_sgl (pval x xo size j)
    (o_mul n_sgl (o_ofZ n_sgl (Z.of_nat i)) (n_narrow (pacc x xo size))).
Proof.
  intros Hs Hj Hi. unfold pval. destruct (Nat.ltb_spec (i * size + j) size); [nia|].
  destruct (Nat.ltb_spec j size); [|lia].
  rewrite (Nat.add_comm (i * size)), Nat.mod_add, Nat.div_add, Nat.mod_small, Nat.div_small by lia.
  reflexivity.
Qed.

Lemma circular_prefix_sum_val (x : list N) xo size nsum (out : list N) :
  (0 < size)%nat -> (xo + size <= length x)%nat -> (nsum <= length out)%nat ->
  exists out', circular_prefix_sum N x xo size nsum out = Ok out' /\
    written out out' 0 nsum (pval x xo size).
Proof.
  intros Hs Hx Ho. unfold circular_prefix_sum.
  set (jmax := Nat.min size nsum).
  match goal with |- context [for_ jmax 0 ?b ?s] =>
    destruct (for_inv (fun i (st : N * list N) =>
       fst st = pacc x xo i /\
       written out (snd st) 0 i (pval x xo size)) b jmax 0 s) as ([acc out1] & E & Hacc & W)
  end.
  { split; [reflexivity|]. repeat split; auto; intros; lia. }
  { intros i [acc o] Hi [Hacc (L & W1 & W2)]. cbn [fst snd] in *.
    assert (i < size)%nat by (unfold jmax in Hi; lia).
    assert (i < nsum)%nat by (unfold jmax in Hi; lia).
    rewrite (rd_nth x (xo + i) d) by lia. cbn [bind].
    rewrite wr_ok by lia. cbn [bind]. eexists; split; [reflexivity|].
    assert (Hv : o_add n_dbl acc (nth (xo + i) x d) = pacc x xo (S i)) by (cbn [pacc]; now rewrite Hacc).
    cbn [fst snd]. split; [exact Hv|]. split; [now rewrite upd_length|]. split.
    - intros j Hj. cbn [Nat.add]. destruct (Nat.eq_dec j i) as [->|].
      + rewrite upd_same by lia. rewrite Hv. unfold pval. destruct (Nat.ltb_spec i size); [reflexivity|lia].
      + rewrite upd_other by lia. apply (W1 j); lia.
    - intros j Hj. rewrite upd_other by lia. apply W2; lia. }
  rewrite E. cbn [bind]. cbn [fst snd] in *. rewrite Nat.add_0_l in *.
  destruct (Nat.leb_spec nsum size).
  { exists out1. split; auto. replace nsum with jmax at 1 by (unfold jmax; lia). exact W. }
  assert (Hj : jmax = size) by (unfold jmax; lia). rewrite Hj in *. clear jmax Hj.
  destruct (Nat.eqb_spec size 0); [lia|].
  pose proof (Nat.div_mod nsum size ltac:(lia)) as Hdm.
  pose proof (Nat.mod_upper_bound nsum size ltac:(lia)) as Hr.
  set (q := (nsum / size)%nat) in *. set (r := (nsum mod size)%nat) in *.
  assert (Hq : (1 <= q)%nat). { destruct q; lia. }
  assert (Step : forall i n (o : list N), (1 <= i)%nat -> (n <= size)%nat -> (i * size + n <= length out)%nat ->
    written out o 0 (i * size) (pval x xo size) ->
    exists o', add_scalar N o 0 n (o_mul n_sgl (o_ofZ n_sgl (Z.of_nat i)) (n_narrow acc)) (i * size) = Ok o' /\
      written out o' 0 (i * size + n) (pval x xo size)).
  { intros i n1 o Hi Hn Hl (L & Wi & Fi).
    destruct (add_scalar_val o 0 n1 (o_mul n_sgl (o_ofZ n_sgl (Z.of_nat i)) (n_narrow acc)) (i * size))
      as (o' & Eo & L' & W' & F').
    { nia. }
    { rewrite L. nia. }
    cbn [Nat.add] in *. exists o'. split; [exact Eo|].
    split; [congruence|]. split.
    - intros j Hj. cbn [Nat.add]. destruct (lt_dec j (i * size)).
      + rewrite F' by lia. apply Wi; lia.
      + replace j with (i * size + (j - i * size))%nat by lia.
        rewrite W' by nia. rewrite pval_wrap by nia. do 2 f_equal.
        * apply nth_error_nth. apply (Wi (j - i * size)%nat). nia.
        * now rewrite Hacc.
    - intros j Hj. rewrite F' by nia. apply Fi; nia. }
  match goal with |- context [for_ (q - 1) 1 ?b ?s] =>
    destruct (for_inv (fun i o => (1 <= i <= q)%nat /\ written out o 0 (i * size) (pval x xo size))
                b (q - 1)%nat 1%nat s) as (out2 & E2 & _ & W2)
  end.
  { split; [lia|]. replace (1 * size)%nat with size by lia. exact W. }
  { intros i o Hi (_ & Wo). destruct (Step i size o) as (o' & Eo & W'); auto; [lia|nia|].
    exists o'. split; [exact Eo|]. split; [lia|]. replace (S i * size)%nat with (i * size + size)%nat by lia.
    exact W'. }
  rewrite E2. cbn [bind].
  replace (1 + (q - 1))%nat with q in W2 by lia.
  destruct (Step q r out2) as (o' & Eo & W'); auto; [lia|nia|].
  exists o'. split; [exact Eo|]. replace nsum with (q * size + r)%nat by lia. exact W'.
Qed.

(** S/N number [k] *)
Definition snr_value (arr : list N) (size : nat) (sd : N) (w : nat) (dmax : N) : N :=
  let h := boxcar_height N size w in
  let b := boxcar_base N size w h in
  o_div n_sgl (o_mad n_sgl (o_add n_sgl h b) dmax
    (o_sub n_sgl (o_ofZ n_sgl 0) (o_mul n_sgl b (pval arr 0 size (size - 1))))) sd.

Lemma snr1_value (alloc : nat -> list N) (arr : list N) size ws sd (out : list N) oo :
  (forall n, length (alloc n) = n) -> ws <> [] ->
  (forall w, In w ws -> (0 < w < size)%nat) -> (size <= length arr)%nat ->
  (oo + length ws <= length out)%nat ->
  exists out' c, snr1 N alloc arr 0 size ws sd out oo = Ok out' /\
    (forall w, In w ws -> (w + size <= length c)%nat /\
       forall j, (j < w + size)%nat -> nth j c d = pval arr 0 size j) /\
    forall k, (k < length ws)%nat -> exists dmax,
      diff_max N c (nth k ws 0%nat) 0 size = Ok dmax /\
      nth_error out' (oo + k) = Some (snr_value arr size sd (nth k ws 0%nat) dmax).
Proof.
  intros Ha Hws Hw Hl Ho.
  destruct (max_width_ok ws Hws) as [wmax Em]. pose proof (max_width_spec ws wmax Em) as [Min Mmax].
  assert (0 < wmax < size)%nat by auto.
  destruct (circular_prefix_sum_val arr 0 size (size + wmax) (alloc (size + wmax)%nat))
    as (c & Ec & Lc & Wc & _); [lia|auto|rewrite Ha; lia|].
  rewrite Ha in Lc.
  assert (Nc : forall j, (j < size + wmax)%nat -> nth j c d = pval arr 0 size j).
  { intros j Hj. apply nth_error_nth. now apply (Wc j). }
  set (g := fun k => let w := nth k ws 0%nat in
    match diff_max N c w 0 size with
    | Ok dmax => snr_value arr size sd w dmax
    | _ => d end).
  unfold snr1. rewrite Em. cbn [bind]. rewrite Ec. cbn [bind].
  destruct (Nat.eqb_spec size 0); [lia|].
  rewrite (rd_nth c (size - 1) d) by lia. cbn [bind]. rewrite Nc by lia.
  match goal with |- context [for_ (length ws) 0 ?bd out] =>
    destruct (for_written bd g (length ws) 0 out oo) as (o & E & _ & W & _); auto
  end.
  - intros i o Hi L _. rewrite (rd_nth ws i 0%nat) by lia. cbn [bind].
    assert (Hin : In (nth i ws 0%nat) ws) by (apply nth_In; lia).
    pose proof (Hw _ Hin). pose proof (Mmax _ Hin).
    rewrite Nat.sub_0_r.
    destruct (diff_max_any N c (nth i ws 0%nat) 0 size) as (v & Ev); [lia|lia|lia|].
    unfold g. rewrite Ev. reflexivity.
  - exists o, c. split; [exact E|]. split.
    + intros w Hin. pose proof (Mmax w Hin). split; [lia|]. intros j Hj. apply Nc. lia.
    + intros k Hk. assert (Hin : In (nth k ws 0%nat) ws) by (apply nth_In; lia).
      pose proof (Hw _ Hin). pose proof (Mmax _ Hin).
      destruct (diff_max_any N c (nth k ws 0%nat) 0 size) as (v & Ev); [lia|lia|lia|].
      exists v. split; auto. rewrite (W k Hk). unfold g. now rewrite Ev.
Qed.
End Values.

(** ** rounding errors *)
Section Errors.
Context (bld : build).
Notation NF := (numF bld).

Definition l1 (x : list R) : R := rsum (length x) (fun i => Rabs (nth i x 0)).

Lemma pacc_error (x : list R) n : (forall i, (i < n)%nat -> F32 (nth i x 0)) ->
  F64 (pacc NF 0 x 0 n) /\ grid (pacc NF 0 x 0 n) /\
  Rabs (pacc NF 0 x 0 n - rsum n (fun i => nth i x 0))
    <= ((1 + u64) ^ n - 1) * rsum n (fun i => Rabs (nth i x 0)) /\
  Rabs (rsum n (fun i => nth i x 0)) <= rsum n (fun i => Rabs (nth i x 0)).
Proof.
  assert (U : 0 <= u64) by (unfold u64; lra).
  induction n as [|n IH]; intros HF.
  - cbn [pacc rsum pow]. cbn [numF opsF n_dbl o_ofZ]. rewrite (rnd64_id 0) by apply generic_format_0.
    repeat split; try apply generic_format_0; rewrite ?Rminus_0_r, Rabs_R0; lra.
  - destruct IH as (F & G & E & S1); [intros; apply HF; lia|].
    assert (Fx : F32 (nth n x 0)) by (apply HF; lia).
    cbn [pacc rsum Nat.add]. cbn [numF opsF n_T n_dbl o_add].
    set (a := pacc NF 0 x 0 n) in *. set (v := nth n x 0) in *.
    set (s := rsum n (fun i => nth i x 0)) in *. set (t := rsum n (fun i => Rabs (nth i x 0))) in *.
    destruct (rnd64_plus_error a v F (F32_F64 v Fx)) as [F' E'].
    split; [exact F'|]. split; [apply grid_rnd64, grid_plus; auto; now apply grid_F32|].
    split; [|eapply Rle_trans; [apply Rabs_triang|]; lra].
    replace (rnd64 (a + v) - (s + v)) with ((rnd64 (a + v) - (a + v)) + (a - s)) by ring.
    eapply Rle_trans; [apply Rabs_triang|]. cbn [pow]. set (k := (1 + u64) ^ n) in *.
    assert (K : 1 <= k) by (apply pow_R1_Rle; lra). pose proof (Rabs_pos v).
    assert (Hav : Rabs (a + v) <= k * t + Rabs v).
    { replace (a + v) with ((a - s) + (s + v)) by ring. eapply Rle_trans; [apply Rabs_triang|].
      pose proof (Rabs_triang s v). lra. }
    assert (u64 * Rabs (a + v) <= u64 * (k * t + Rabs v)) by (apply Rmult_le_compat_l; auto).
    assert (Hkv : Rabs v <= k * Rabs v) by nra.
    assert (Huk : u64 * Rabs v <= u64 * (k * Rabs v)) by (apply Rmult_le_compat_l; auto). lra.
Qed.

Lemma rsum_mono (g : nat -> R) n m : (forall i, 0 <= g i) -> (n <= m)%nat -> rsum n g <= rsum m g.
Proof.
  intros Hg H. replace m with (n + (m - n))%nat by lia. rewrite rsum_split.
  assert (0 <= rsum (m - n) (fun i => g (n + i)%nat)); [|lra].
  rewrite <- (rsum_0 (m - n)). apply rsum_le. intros. apply Hg.
Qed.

Context (x : list R).
Notation n := (length x).
Context (HF : forall i, (i < n)%nat -> F32 (nth i x 0)) (Hn : (Z.of_nat n <= 4194304)%Z).

Lemma pval_low j : (j < n)%nat -> F32 (pval NF 0 x 0 n j) /\
  app (6 / 5) (l1 x) 0 (pval NF 0 x 0 n j) (cps x 0 n j).
Proof.
  intros Hj. unfold pval. destruct (Nat.ltb_spec j n); [|lia].
  destruct (pacc_error x (S j)) as (F & G & E & S1); [intros; apply HF; lia|].
  assert (EC : cps x 0 n j = rsum (S j) (fun i => nth i x 0)).
  { unfold cps. apply rsum_ext. intros k Hk. now rewrite Nat.mod_small by lia. }
  rewrite EC. cbn [numF n_narrow n_T]. split; [apply F32_rnd|].
  set (a := pacc NF 0 x 0 (S j)) in *.
  assert (LE : rsum (S j) (fun i => Rabs (nth i x 0)) <= l1 x).
  { apply rsum_mono; [intros; apply Rabs_pos|lia]. }
  assert (P0 : 0 <= rsum (S j) (fun i => Rabs (nth i x 0))) by (pose proof (Rabs_pos (rsum (S j) (fun i => nth i x 0))); lra).
  assert (K : (1 + u64) ^ (S j) - 1 <= / 64 * u32).
  { assert (B : INR (S j) <= 4194304).
    { rewrite INR_IZR_INZ. apply IZR_le. lia. }
    pose proof (pos_INR (S j)).
    pose proof (pow_bound u64 (S j) ltac:(unfold u64; lra) ltac:(unfold u64; lra)) as H1.
    unfold u64 at 2 in H1. unfold u32. lra. }
  apply (app_weaken (/ 64 + 1 + / 10) _ _ 0 0); [lra|lra|].
  apply app_rnd_grid; [lra|exact G|]. split; [lra|]. rewrite Rplus_0_r.
  eapply Rle_trans; [exact E|].
  assert (0 <= (1 + u64) ^ S j - 1) by (pose proof (pow_R1_Rle (1 + u64) (S j) ltac:(unfold u64; lra)); lra).
  apply Rmult_le_compat; auto.
Qed.

Lemma pval_high j : (n <= j < n + n)%nat -> F32 (pval NF 0 x 0 n j) /\
  app (23 / 10) (2 * l1 x) 0 (pval NF 0 x 0 n j) (cps x 0 n j).
Proof.
  intros Hj. destruct (pval_low (j - n)) as [F1 A1]; [lia|].
  destruct (pval_low (n - 1)) as [F2 A2]; [lia|].
  assert (Ew : pval NF 0 x 0 n j = rnd32 (pval NF 0 x 0 n (j - n) + pval NF 0 x 0 n (n - 1))).
  { replace j with (1 * n + (j - n))%nat at 1 by lia. rewrite pval_wrap by lia.
    cbn [numF opsF n_T n_sgl o_add o_mul o_ofZ]. f_equal. f_equal.
    rewrite (rnd32_id (IZR _)) by (apply (F32_int 1); lia).
    unfold pval at 1. destruct (Nat.ltb_spec (n - 1) n); [|lia]. replace (S (n - 1)) with n by lia.
    change (IZR (Z.of_nat 1)) with 1. rewrite Rmult_1_l. rewrite rnd32_id; [reflexivity|].
    apply F32_rnd. }
  assert (Ec : cps x 0 n j = cps x 0 n (j - n) + cps x 0 n (n - 1)).
  { replace j with (1 * n + (j - n))%nat at 1 by lia. rewrite cps_wrap, cps_full by lia. cbn [INR]. lra. }
  rewrite Ew, Ec. split; [apply F32_rnd|].
  apply (app_weaken (6 / 5 + 1 + / 10) _ _ 0 0); [lra|lra|].
  apply app_rnd_grid; [lra|apply grid_plus; now apply grid_F32|].
  replace (2 * l1 x) with (l1 x + l1 x) by ring.
  pose proof (app_add _ _ _ _ _ _ _ _ _ _ A1 A2) as A. rewrite Rmax_left in A by lra.
  now rewrite Rplus_0_r in A.
Qed.

Lemma window_l1 phi w : (phi < n)%nat -> (w <= n)%nat ->
  Rabs (window_sum n phi w (fun j => nth j x 0)) <= l1 x.
Proof.
  intros Hp Hw. eapply Rle_trans; [apply rsum_abs|].
  apply Rle_trans with (window_sum n phi w (fun j => Rabs (nth j x 0))); [right; reflexivity|].
  rewrite <- rsum_window by auto. unfold l1. apply rsum_le. intros i Hi.
  destruct (in_window n phi w i); [lra|apply Rabs_pos].
Qed.

(** one difference of prefix sums *)
Lemma diff_app w i : (0 < w < n)%nat -> (i < n)%nat ->
  let d := rnd32 (pval NF 0 x 0 n (w + i) - pval NF 0 x 0 n i) in
  F32 d /\ app (69 / 10) (l1 x) 0 d (window_sum n (S i mod n) w (fun j => nth j x 0)).
Proof.
  intros Hw Hi d. split; [apply F32_rnd|]. unfold d.
  destruct (pval_low i Hi) as [F1 A1].
  change (fun j => nth j x 0) with (fun j => nth (0 + j) x 0). rewrite <- (cps_diff x 0 n w i) by lia.
  assert (WB : Rabs (cps x 0 n (w + i) - cps x 0 n i) <= l1 x).
  { rewrite cps_diff by lia. apply window_l1; [apply Nat.mod_upper_bound|]; lia. }
  assert (L0 : 0 <= l1 x) by (pose proof (Rabs_pos (cps x 0 n (w + i) - cps x 0 n i)); lra).
  assert (exists c : R, F32 (pval NF 0 x 0 n (w + i)) /\ c <= 46 / 10 /\
    Rabs (pval NF 0 x 0 n (w + i) - cps x 0 n (w + i)) <= c * u32 * l1 x) as (c & F2 & Hc & A2).
  { destruct (Nat.lt_ge_cases (w + i) n) as [L|L].
    - destruct (pval_low (w + i) L) as [F2 [_ A2]]. exists (6 / 5). repeat split; auto; lra.
    - destruct (pval_high (w + i)) as [F2 [_ A2]]; [lia|]. exists (46 / 10). repeat split; auto; lra. }
  apply (app_weaken (58 / 10 + 1 + / 10) _ _ 0 0); [lra|lra|].
  apply app_rnd_grid; [lra| |].
  { replace (pval NF 0 x 0 n (w + i) - pval NF 0 x 0 n i)
      with (pval NF 0 x 0 n (w + i) + - pval NF 0 x 0 n i) by ring.
    apply grid_plus; [now apply grid_F32|]. apply generic_format_opp. now apply grid_F32. }
  split; [exact WB|]. rewrite Rplus_0_r.
  match goal with |- Rabs (?a - ?b - (?p - ?q)) <= _ => replace (a - b - (p - q)) with ((a - p) + - (b - q)) by ring end.
  eapply Rle_trans; [apply Rabs_triang|]. rewrite Rabs_Ropp. destruct A1 as [_ A1].
  assert (c * u32 * l1 x <= 46 / 10 * u32 * l1 x).
  { apply Rmult_le_compat_r; auto. apply Rmult_le_compat_r; auto. unfold u32; lra. }
  lra.
Qed.

(** the largest difference *)
Lemma diff_max_F (b : list R) xo yo size : (0 < size)%nat ->
  (xo + size <= length b)%nat -> (yo + size <= length b)%nat ->
  exists v : R, diff_max NF b xo yo size = Ok v /\
    (exists i, (i < size)%nat /\ v = rnd32 (nth (xo + i) b 0 - nth (yo + i) b 0)) /\
    forall i, (i < size)%nat -> rnd32 (nth (xo + i) b 0 - nth (yo + i) b 0) <= v.
Proof.
  intros Hs Hx Hy. unfold diff_max. change (n_T NF) with R.
  rewrite (rd_nth b xo 0), (rd_nth b yo 0) by lia. cbn [bind]. cbn [numF opsF n_T n_sgl o_sub n_ltb].
  set (dd := fun i => rnd32 (nth (xo + i) b 0 - nth (yo + i) b 0)).
  match goal with |- context [for_ (size - 1) 1 ?bd ?s] =>
    destruct (for_inv (fun i (v : R) => (exists k, (k < i)%nat /\ v = dd k) /\
        forall k, (k < i)%nat -> dd k <= v) bd (size - 1) 1 s) as (v & E & (k & Hk & Ek) & M)
  end.
  - split.
    + exists 0%nat. split; [lia|]. unfold dd. now rewrite !Nat.add_0_r.
    + intros k Hk. replace k with 0%nat by lia. unfold dd. rewrite !Nat.add_0_r. lra.
  - intros i v Hi ((k & Hk & Ek) & M).
    rewrite (rd_nth b (xo + i) 0), (rd_nth b (yo + i) 0) by lia. cbn [bind].
    fold (dd i). destruct (Rlt_bool_spec v (dd i)) as [Hl|Hl]; eexists; (split; [reflexivity|]).
    + split; [exists i; split; auto|]. intros j Hj. destruct (Nat.eq_dec j i) as [->|]; [lra|].
      assert (dd j <= v) by (apply M; lia). lra.
    + split; [exists k; split; auto|]. intros j Hj. destruct (Nat.eq_dec j i) as [->|]; [lra|].
      apply M; lia.
  - exists v. split; auto. split; [exists k; split; auto; lia|].
    intros i Hi. apply M. lia.
Qed.

(** the coefficients of the boxcar *)
Lemma small_nat k : (k <= n)%nat -> F32 (INR k) /\ INR k <= 4194304.
Proof.
  intros Hk. rewrite INR_IZR_INZ. split; [apply F32_int; lia|apply IZR_le; lia].
Qed.

Lemma height_app w : (0 < w < n)%nat ->
  F32 (boxcar_height NF n w) /\ app (35 / 10) (bh n w) 0 (boxcar_height NF n w) (bh n w).
Proof.
  intros Hw. split; [apply F32_rnd|].
  destruct (bh_facts n w Hw) as (B1 & B2 & B3 & B4 & Hn' & W1 & W2).
  unfold boxcar_height. cbn [numF opsF n_T n_sgl o_sqrt o_div o_ofZ]. rewrite size_sub_le by lia.
  rewrite <- !INR_IZR_INZ. destruct (small_nat (n - w)) as [Fd Hd]; [lia|]. rewrite (rnd32_id _ Fd).
  destruct (small_nat w) as [_ Hw4]; [lia|]. destruct (small_nat n) as [_ Hn4]; [lia|].
  assert (P : 1 <= INR (n * w)) by (apply (le_INR 1); nia).
  assert (P2 : INR (n * w) <= 17592186044416).
  { rewrite mult_INR. apply Rle_trans with (4194304 * 4194304); [|lra].
    apply Rmult_le_compat; auto; apply pos_INR. }
  assert (D1 : 1 <= INR (n - w)) by (apply (le_INR 1); lia).
  assert (B120 : forall z, / 17592186044416 <= z -> bpow radix2 (-120) <= z).
  { intros z Hz. eapply Rle_trans; [|exact Hz]. apply Rle_trans with (bpow radix2 (-44)); [apply bpow_le; lia|].
    cbn. lra. }
  assert (A1 : app (11 / 10) (INR (n * w)) 0 (rnd32 (INR (n * w))) (INR (n * w))).
  { apply (app_weaken (0 + 1 + / 10) _ _ 0 0); [lra|lra|]. apply app_rnd_normal; [lra|lra|apply B120; lra|].
    apply app_exact. rewrite Rabs_pos_eq; lra. }
  assert (A2 := A1). apply app_inv in A2; [|lra|lra].
  assert (A3 : app (13 / 10) (INR (n - w) / INR (n * w)) 0 (INR (n - w) / rnd32 (INR (n * w))) (INR (n - w) / INR (n * w))).
  { apply (app_weaken (0 + (11 / 10 + / 10) + / 10) _ _ 0 0); [lra|lra|].
    unfold Rdiv. apply app_mul; [lra|lra| |exact A2]. apply app_exact. rewrite Rabs_pos_eq; lra. }
  assert (Q : / 17592186044416 <= INR (n - w) / INR (n * w)).
  { apply Rle_trans with (/ INR (n * w)); [apply Rinv_le_contravar; lra|].
    unfold Rdiv. rewrite <- (Rmult_1_l (/ INR (n * w))) at 1. apply Rmult_le_compat_r; auto.
    apply Rlt_le, Rinv_0_lt_compat. lra. }
  assert (A4 : app (24 / 10) (INR (n - w) / INR (n * w)) 0 (rnd32 (INR (n - w) / rnd32 (INR (n * w)))) (INR (n - w) / INR (n * w))).
  { apply (app_weaken (13 / 10 + 1 + / 10) _ _ 0 0); [lra|lra|]. apply app_rnd_normal; auto; lra. }
  assert (A5 := A4). apply app_sqrt in A5; [|lra|lra]. fold (bh n w) in A5.
  apply (app_weaken (24 / 10 + 1 + / 10) _ _ 0 0); [lra|lra|]. apply app_rnd_normal; auto; [lra|].
  unfold bh. apply Rle_trans with (R_sqrt.sqrt (/ 17592186044416)); [|apply sqrt_le_1_alt; auto].
  replace (/ 17592186044416) with (/ 4194304 * / 4194304) by lra. rewrite sqrt_square by lra.
  apply B120. lra.
Qed.

Lemma base_app w : (0 < w < n)%nat -> let b := boxcar_base NF n w (boxcar_height NF n w) in
  F32 b /\ app (58 / 10) (bb n w) 0 b (bb n w).
Proof.
  intros Hw b. split; [apply F32_rnd|]. unfold b.
  destruct (height_app w Hw) as [Fh Ah].
  destruct (bh_facts n w Hw) as (B1 & B2 & B3 & B4 & Hn' & W1 & W2).
  unfold boxcar_base. cbn [numF opsF n_T n_sgl o_mul o_div o_ofZ]. rewrite size_sub_le by lia.
  rewrite <- !INR_IZR_INZ. destruct (small_nat (n - w)) as [Fd Hd]; [lia|]. rewrite (rnd32_id _ Fd).
  destruct (small_nat w) as [Fw Hw4]; [lia|]. rewrite (rnd32_id _ Fw).
  assert (D1 : 1 <= INR (n - w)) by (apply (le_INR 1); lia). assert (D2 : 1 <= INR w) by (apply (le_INR 1); lia).
  assert (B120 : forall z, / 17592186044416 <= z -> bpow radix2 (-120) <= z).
  { intros z Hz. eapply Rle_trans; [|exact Hz]. apply Rle_trans with (bpow radix2 (-44)); [apply bpow_le; lia|].
    cbn. lra. }
  assert (Q : / 4194304 <= INR w / INR (n - w)).
  { apply Rle_trans with (/ INR (n - w)); [apply Rinv_le_contravar; lra|].
    unfold Rdiv. rewrite <- (Rmult_1_l (/ INR (n - w))) at 1. apply Rmult_le_compat_r; auto.
    apply Rlt_le, Rinv_0_lt_compat. lra. }
  assert (A1 : app (11 / 10) (INR w / INR (n - w)) 0 (rnd32 (INR w / INR (n - w))) (INR w / INR (n - w))).
  { apply (app_weaken (0 + 1 + / 10) _ _ 0 0); [lra|lra|]. apply app_rnd_normal; [lra|lra|apply B120; lra|].
    apply app_exact. rewrite Rabs_pos_eq; lra. }
  assert (A2 : app (11 / 10 + 35 / 10 + / 10) (INR w / INR (n - w) * bh n w) 0
    (rnd32 (INR w / INR (n - w)) * boxcar_height NF n w) (INR w / INR (n - w) * bh n w)) by (apply app_mul; auto; lra). fold (bb n w) in A2.
  apply (app_weaken (11 / 10 + 35 / 10 + / 10 + 1 + / 10) _ _ 0 0); [lra|lra|].
  apply app_rnd_normal; auto; [lra|].
  unfold bb. apply Rle_trans with (/ 4194304 * / 4194304); [apply B120; lra|].
  apply Rmult_le_compat; [lra|lra|exact Q|].
  unfold bh. apply Rle_trans with (R_sqrt.sqrt (/ 17592186044416)).
  - replace (/ 17592186044416) with (/ 4194304 * / 4194304) by lra. rewrite sqrt_square by lra. lra.
  - apply sqrt_le_1_alt. apply Rle_trans with (/ INR (n * w)).
    + apply Rinv_le_contravar; [apply (lt_INR 0); nia|]. rewrite mult_INR.
      apply Rle_trans with (4194304 * 4194304); [|lra]. destruct (small_nat n) as [_ Hn4]; [lia|].
      apply Rmult_le_compat; auto; apply pos_INR.
    + unfold Rdiv. rewrite <- (Rmult_1_l (/ INR (n * w))) at 1. apply Rmult_le_compat_r; auto.
      apply Rlt_le, Rinv_0_lt_compat. apply (lt_INR 0). nia.
Qed.

Lemma peak_app w c v : (0 < w < n)%nat -> (w + n <= length c)%nat ->
  (forall j, (j < w + n)%nat -> nth j c 0 = pval NF 0 x 0 n j) -> diff_max NF c w 0 n = Ok v ->
  F32 v /\ exists m, app (69 / 10) (l1 x) 0 v m /\
    (exists phi, (phi < n)%nat /\ m = window_sum n phi w (fun j => nth j x 0)) /\
    forall phi, (phi < n)%nat -> window_sum n phi w (fun j => nth j x 0) <= m.
Proof.
  intros Hw Hc V E.
  destruct (diff_max_F c w 0 n) as (v' & E' & (i & Hi & Ei) & M); [lia|lia|lia|].
  change (n_T NF) with R in *. rewrite E in E'. injection E' as <-.
  set (W := fun phi => window_sum n phi w (fun j => nth j x 0)).
  assert (D : forall j, (j < n)%nat -> app (69 / 10) (l1 x) 0 (rnd32 (nth (w + j) c 0 - nth (0 + j) c 0)) (W (S j mod n)%nat)).
  { intros j Hj. cbn [Nat.add]. rewrite !V by lia. apply diff_app; auto. }
  split; [rewrite Ei; apply F32_rnd|].
  assert (exists p, (p < n)%nat /\ forall q, (q < n)%nat -> W q <= W p) as (p & Hp & Mp).
  { assert (Q : (0 < n)%nat) by lia. revert Q. generalize n. intros k Hk. induction k as [|k IH]; [lia|].
    destruct (Nat.eq_dec k 0) as [->|Hk0].
    - exists 0%nat. split; [lia|]. intros q Hq. replace q with 0%nat by lia. lra.
    - destruct IH as (p & Hp & Mp); [lia|]. destruct (Rle_dec (W p) (W k)).
      + exists k. split; [lia|]. intros q Hq. destruct (Nat.eq_dec q k) as [->|]; [lra|].
        specialize (Mp q ltac:(lia)). lra.
      + exists p. split; [lia|]. intros q Hq. destruct (Nat.eq_dec q k) as [->|]; [lra|]. apply Mp. lia. }
  exists (W p). split; [|split; [exists p; auto|exact Mp]].
  assert (exists j, (j < n)%nat /\ S j mod n = p)%nat as (j & Hj & Ej).
  { destruct p as [|p].
    - exists (n - 1)%nat. split; [lia|]. replace (S (n - 1)) with n by lia. apply Nat.mod_same; lia.
    - exists p. split; [lia|]. apply Nat.mod_small; auto. }
  pose proof (D j Hj) as [D1 D2]. rewrite Ej in D1, D2. split; auto.
  destruct (D i Hi) as [_ D3]. cbn [Nat.add] in *. rewrite <- Ei in D3.
  specialize (M j Hj). specialize (Mp (S i mod n)%nat ltac:(apply Nat.mod_upper_bound; lia)).
  apply Rabs_le_inv in D2. apply Rabs_le_inv in D3. apply Rabs_le. lra.
Qed.

Lemma snr_value_app w c v sd : (0 < w < n)%nat -> 0 < sd -> (w + n <= length c)%nat ->
  (forall j, (j < w + n)%nat -> nth j c 0 = pval NF 0 x 0 n j) -> diff_max NF c w 0 n = Ok v ->
  exists r, is_resp x 0 n w r /\
    Rabs (snr_value NF 0 x n sd w v - r / sd)
      <= 28 * u32 * ((bh n w + bb n w) * l1 x / sd) + 10 * eta32 / sd + eta32.
Proof.
  intros Hw Hsd Hc V E. destruct (peak_app w c v Hw Hc V E) as (Fv & m & Av & (phi & Hphi & Em) & Mm).
  destruct (bh_facts n w Hw) as (B1 & B2 & _).
  set (h := bh n w) in *. set (b := bb n w) in *. set (T := rsum n (fun j => nth j x 0)).
  exists ((h + b) * m - b * T). split.
  { split.
    - exists phi. split; auto. cbn [Nat.add]. now rewrite Em.
    - intros phi' Hp'. cbn [Nat.add]. fold h b T. specialize (Mm phi' Hp').
      apply Rplus_le_compat_r, Rmult_le_compat_l; lra. }
  destruct (height_app w Hw) as [Fh Ah]. destruct (base_app w Hw) as [Fb Ab]. cbv zeta in Ab, Fb.
  destruct (pval_low (n - 1)) as [FT AT]; [lia|]. rewrite cps_full in AT by lia. cbn [Nat.add] in AT. fold T in AT.
  unfold snr_value. fold h b in Ah, Ab.
  set (h' := boxcar_height NF n w) in *. set (b' := boxcar_base NF n w h') in *.
  set (T' := pval NF 0 x 0 n (n - 1)) in *.
  cbn [numF opsF n_T n_sgl o_add o_sub o_mul o_div o_mad o_ofZ].
  rewrite (rnd32_id 0) by apply generic_format_0.
  assert (L0 : 0 <= l1 x) by (eapply app_M; exact AT).
  assert (AH : app (69 / 10) (h + b) 0 (rnd32 (h' + b')) (h + b)).
  { apply (app_weaken (58 / 10 + 1 + / 10) _ _ 0 0); [lra|lra|].
    apply app_rnd_grid; [lra|apply grid_plus; now apply grid_F32|].
    pose proof (app_add _ _ _ _ _ _ _ _ _ _ Ah Ab) as A. rewrite Rmax_right in A by lra.
    now rewrite Rplus_0_r in A. }
  assert (AP : app (69 / 10 + 69 / 10 + / 10) ((h + b) * l1 x) 0 (rnd32 (h' + b') * v) ((h + b) * m))
    by (apply app_mul; auto; lra).
  assert (AQ : app (58 / 10 + 6 / 5 + / 10) (b * l1 x) 0 (b' * T') (b * T)) by (apply app_mul; auto; lra).
  apply app_rnd in AQ; [|lra|lra].
  assert (EN : rnd32 (0 - rnd32 (b' * T')) = - rnd32 (b' * T')).
  { rewrite rnd32_id; [ring|]. replace (0 - rnd32 (b' * T')) with (- rnd32 (b' * T')) by ring.
    apply generic_format_opp, F32_rnd. }
  rewrite EN. apply app_opp in AQ.
  set (y := - rnd32 (b' * T')) in *. set (H := rnd32 (h' + b')) in *.
  pose proof eta32_pos as Heta.
  assert (HM : 0 <= (h + b) * l1 x) by (apply Rmult_le_pos; lra).
  assert (HbM : 0 <= b * l1 x <= (h + b) * l1 x).
  { split; [apply Rmult_le_pos; lra|apply Rmult_le_compat_r; lra]. }
  assert (HPQ : forall p, app 15 ((h + b) * l1 x) eta32 p ((h + b) * m) ->
    app (58 / 5) (2 * ((h + b) * l1 x)) (2 * eta32) (p + y) ((h + b) * m - b * T)).
  { intros p [P1 P2]. destruct AQ as [Q1 Q2]. split.
    - unfold Rminus. eapply Rle_trans; [apply Rabs_triang|]. lra.
    - replace (p + y - ((h + b) * m - b * T)) with ((p - (h + b) * m) + (y - - (b * T))) by ring.
      eapply Rle_trans; [apply Rabs_triang|].
      assert ((58 / 10 + 6 / 5 + / 10 + 1 + / 10) * u32 * (b * l1 x) <= 82 / 10 * u32 * ((h + b) * l1 x)).
      { apply Rmult_le_compat; [unfold u32; lra|lra|unfold u32; lra|lra]. }
      lra. }
  assert (AS : app (127 / 10) (2 * ((h + b) * l1 x)) (5 * eta32)
    (if b_fma bld then rnd32 (H * v + y) else rnd32 (rnd32 (H * v) + y)) ((h + b) * m - b * T)).
  { assert (Q : forall p, app 15 ((h + b) * l1 x) eta32 p ((h + b) * m) ->
      app (127 / 10) (2 * ((h + b) * l1 x)) (5 * eta32) (rnd32 (p + y)) ((h + b) * m - b * T)).
    { intros p Hp. apply HPQ in Hp. apply app_rnd in Hp; [|lra|lra].
      apply (app_weaken (58 / 5 + 1 + / 10) _ _ (2 * (2 * eta32) + eta32) _); [lra|lra|exact Hp]. }
    destruct (b_fma bld); apply Q.
    - apply (app_weaken (69 / 10 + 69 / 10 + / 10) _ _ 0 _); [lra|lra|exact AP].
    - apply app_rnd in AP; [|lra|lra].
      apply (app_weaken (69 / 10 + 69 / 10 + / 10 + 1 + / 10) _ _ (2 * 0 + eta32) _); [lra|lra|exact AP]. }
  set (z := if b_fma bld then rnd32 (H * v + y) else rnd32 (rnd32 (H * v) + y)) in *.
  set (r := (h + b) * m - b * T) in *.
  assert (Is : 0 < / sd) by now apply Rinv_0_lt_compat.
  assert (AD : app (127 / 10) (2 * ((h + b) * l1 x) / sd) (5 * eta32 / sd) (z / sd) (r / sd)).
  { destruct AS as [S1 S2]. split.
    - unfold Rdiv. rewrite Rabs_mult, (Rabs_pos_eq (/ sd)) by lra. apply Rmult_le_compat_r; lra.
    - replace (z / sd - r / sd) with ((z - r) / sd) by (field; lra). unfold Rdiv.
      rewrite Rabs_mult, (Rabs_pos_eq (/ sd)) by lra.
      apply Rle_trans with ((127 / 10 * u32 * (2 * ((h + b) * l1 x)) + 5 * eta32) * / sd).
      + apply Rmult_le_compat_r; lra.
      + right. field. lra. }
  apply app_rnd in AD; [|lra|].
  2:{ unfold Rdiv. apply Rmult_le_pos; lra. }
  destruct AD as [_ AD]. eapply Rle_trans; [exact AD|].
  assert (P : 0 <= (h + b) * l1 x / sd) by (unfold Rdiv; apply Rmult_le_pos; lra).
  replace (2 * ((h + b) * l1 x) / sd) with (2 * ((h + b) * l1 x / sd)) by (unfold Rdiv; ring).
  assert (u32 * ((h + b) * l1 x / sd) >= 0) by (apply Rle_ge, Rmult_le_pos; [unfold u32|]; lra).
  unfold Rdiv in *. lra.
Qed.
End Errors.
