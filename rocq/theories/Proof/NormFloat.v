(** Rounding errors of normalise(). *)
From Coq Require Import List Arith ZArith Bool Lia Reals Lra Permutation.
From Flocq Require Import Core.
From Verif Require Import Base.Result Base.Num Model.TimeSeries Spec.Sums Proof.Index Proof.Downsample
  Proof.Rounding Proof.SumOrder Proof.SearchFloat Proof.NormIeee Props.TimeSeries.
Import ListNotations.
Local Open Scope R_scope.

Section Norm.
Context (bld : build).
Notation NF := (numF bld).
Notation e0 := (bpow radix2 (-1075)).

Definition lsum (l : list R) : R := fold_right Rplus 0 l.

Lemma lsum_rsum (l : list R) : lsum l = rsum (length l) (fun i => nth i l 0).
Proof. induction l as [|a l IH]; [reflexivity|]. cbn [length]. rewrite rsum_first. cbn [nth lsum fold_right]. now rewrite <- IH. Qed.

Lemma lsum_map_le (f g : R -> R) l : (forall v, In v l -> f v <= g v) -> lsum (map f l) <= lsum (map g l).
Proof.
  induction l as [|a l IH]; intros H; cbn [map lsum fold_right]; [lra|].
  apply Rplus_le_compat; [apply H; now left|]. apply IH. intros. apply H. now right.
Qed.

Lemma lsum_scal c (f : R -> R) l : lsum (map (fun v => c * f v) l) = c * lsum (map f l).
Proof. induction l as [|a l IH]; cbn [map lsum fold_right]; [ring|]. unfold lsum in IH. rewrite IH. ring. Qed.
Lemma lsum_plus (f g : R -> R) l : lsum (map (fun v => f v + g v) l) = lsum (map f l) + lsum (map g l).
Proof. induction l as [|a l IH]; cbn [map lsum fold_right]; [ring|]. unfold lsum in IH. rewrite IH. ring. Qed.
Lemma lsum_const c (l : list R) : lsum (map (fun _ => c) l) = INR (length l) * c.
Proof. induction l as [|a l IH]; [cbn; ring|]. cbn [map length]. change (lsum (c :: map (fun _ => c) l)) with (c + lsum (map (fun _ => c) l)). rewrite IH, S_INR. ring. Qed.
Lemma lsum_abs (l : list R) : Rabs (lsum l) <= lsum (map Rabs l).
Proof.
  induction l as [|a l IH]; cbn [map lsum fold_right]; [rewrite Rabs_R0; lra|].
  eapply Rle_trans; [apply Rabs_triang|]. unfold lsum in IH. lra.
Qed.
Lemma lsum_diff (f g : R -> R) l : Rabs (lsum (map f l) - lsum (map g l)) <= lsum (map (fun v => Rabs (f v - g v)) l).
Proof.
  induction l as [|a l IH]; cbn [map lsum fold_right]; [rewrite Rminus_0_r, Rabs_R0; lra|].
  unfold lsum in IH. eapply Rle_trans; [|apply Rplus_le_compat_l; exact IH].
  eapply Rle_trans; [|apply Rabs_triang]. right. f_equal. ring.
Qed.

Lemma lsum_perm (l k : list R) : Permutation l k -> lsum l = lsum k.
Proof. unfold lsum. induction 1; cbn [fold_right]; lra. Qed.

(** the sum of [n] numbers, in any order *)
Lemma nsum_err i (l : list R) : (Z.of_nat (length l) <= 33554432)%Z -> (forall v, In v l -> F64 v) ->
  Rabs (nsum NF i l - lsum l) <= / 2 ^ 27 * lsum (map Rabs l).
Proof.
  intros HL HF.
  assert (U : 0 < u64) by (unfold u64; lra).
  assert (P0 : forall l, 0 <= lsum (map Rabs l)).
  { intros k. eapply Rle_trans; [|apply lsum_abs]. apply Rabs_pos. }
  destruct l as [|v l].
  { change (Rabs (rnd64 0 - 0) <= / 2 ^ 27 * 0). rewrite rnd64_id by apply generic_format_0.
    rewrite Rminus_0_r, Rabs_R0, Rmult_0_r. lra. }
  assert (G : Rabs (nsum NF i (v :: l) - lsum (v :: l)) <= ((1 + u64) ^ (length (v :: l) - 1) - 1) * lsum (map Rabs (v :: l))).
  { revert HF. clear HL. unfold nsum.
    apply (sum_vals_ind (rnd64 0) (fun a b => rnd64 (a + b)) (fun a b => rnd64 (a * b)) (fun a b c => rnd64 (a * b + c)) bld
      (fun l s => (forall v, In v l -> F64 v) -> Rabs (s - lsum l) <= ((1 + u64) ^ (length l - 1) - 1) * lsum (map Rabs l))); [| |discriminate].
    - clear. intros x _. cbn. replace (x - (x + 0)) with 0 by ring. rewrite Rabs_R0. lra.
    - clear v l. intros l x y r s HP IH HF.
      assert (Fx : F64 x) by (apply HF; rewrite HP; now left). assert (Fy : F64 y) by (apply HF; rewrite HP; right; now left).
      destruct (rnd64_plus_error x y Fx Fy) as [Fr Er].
      rewrite (lsum_perm _ _ HP), (lsum_perm _ _ (Permutation_map Rabs HP)), (Permutation_length HP).
      cbn [length map] in *. replace (S (S (length r)) - 1)%nat with (S (S (length r) - 1)) by lia.
      assert (H : Rabs (s - lsum (rnd64 (x + y) :: r)) <= ((1 + u64) ^ (S (length r) - 1) - 1) * lsum (Rabs (rnd64 (x + y)) :: map Rabs r)).
      { apply IH. intros v [<-|Hv]; auto. apply HF. rewrite HP. right. now right. }
      assert (G1 : 1 <= (1 + u64) ^ (S (length r) - 1)) by (apply pow_R1_Rle; lra).
      set (g := (1 + u64) ^ (S (length r) - 1)) in *. cbn [pow]. fold g.
      pose proof (P0 r) as HR. cbn [lsum fold_right] in *. change (fold_right Rplus 0 r) with (lsum r) in *.
      change (fold_right Rplus 0 (map Rabs r)) with (lsum (map Rabs r)) in *.
      set (L := lsum (map Rabs r)) in *. set (M := lsum r) in *. clearbody g L M.
      pose proof (Rabs_triang x y) as T.
      assert (B1 : Rabs (rnd64 (x + y)) <= (1 + u64) * (Rabs x + Rabs y)).
      { replace (rnd64 (x + y)) with ((rnd64 (x + y) - (x + y)) + (x + y)) by ring.
        eapply Rle_trans; [apply Rabs_triang|]. assert (u64 * Rabs (x + y) <= u64 * (Rabs x + Rabs y)) by (apply Rmult_le_compat_l; lra). lra. }
      replace (s - (x + (y + M))) with ((s - (rnd64 (x + y) + M)) + (rnd64 (x + y) - (x + y))) by ring.
      eapply Rle_trans; [apply Rabs_triang|].
      apply Rle_trans with ((g - 1) * ((1 + u64) * (Rabs x + Rabs y) + L) + u64 * (Rabs x + Rabs y)).
      { apply Rplus_le_compat.
        - eapply Rle_trans; [exact H|]. apply Rmult_le_compat_l; lra.
        - eapply Rle_trans; [exact Er|]. apply Rmult_le_compat_l; lra. }
      assert (0 <= u64 * (g * L)) by (apply Rmult_le_pos; [lra|apply Rmult_le_pos; lra]).
      assert (0 <= u64 * L) by (apply Rmult_le_pos; lra). nra. }
  eapply Rle_trans; [exact G|]. apply Rmult_le_compat_r; [apply P0|].
  set (n := length (v :: l)) in *.
  assert (HN : INR (n - 1) <= 33554432) by (rewrite INR_IZR_INZ; apply (IZR_le _ 33554432); lia).
  pose proof (pow_bound u64 (n - 1)) as PB.
  assert (2 * INR (n - 1) * u64 <= / 2 ^ 27).
  { unfold u64. replace (2 ^ 27) with 134217728 by ring. lra. }
  assert (/ 2 ^ 27 <= 1) by (replace (2 ^ 27) with 134217728 by ring; lra).
  specialize (PB ltac:(lra) ltac:(lra)). lra.
Qed.

Context (x : list R) (X : R).
Notation n := (length x).
Notation m := (rmean x).
Notation s := (sqrt (rvar x)).
Context (Hn : (1 <= n)%nat) (HL : (Z.of_nat n <= 33554432)%Z) (HF : Forall F32 x).
Context (HX : forall v, In v x -> Rabs v <= X) (HX0 : / 2 ^ 149 <= X) (Hs : 0 < rvar x) (HK : X <= 2 ^ 20 * s).

Lemma n1 : 1 <= INR n. Proof. apply (le_INR 1). exact Hn. Qed.
Lemma Fx v : In v x -> F64 v.
Proof. intros Hv. apply F32_F64. rewrite Forall_forall in HF. auto. Qed.

Lemma e0_small a : / 2 ^ 600 <= a -> e0 <= / 2 ^ 400 * a.
Proof.
  intros Ha. apply Rle_trans with (/ 2 ^ 400 * / 2 ^ 600).
  - replace (/ 2 ^ 400 * / 2 ^ 600) with (bpow radix2 (-1000)).
    + apply bpow_le. lia.
    + change (-1000)%Z with (-400 + -600)%Z. rewrite bpow_plus. f_equal.
      * change (-400)%Z with (- (400))%Z. rewrite bpow_opp. f_equal. rewrite <- (IZR_Zpower radix2) by lia. rewrite pow_IZR. f_equal.
      * change (-600)%Z with (- (600))%Z. rewrite bpow_opp. f_equal. rewrite <- (IZR_Zpower radix2) by lia. rewrite pow_IZR. f_equal.
  - apply Rmult_le_compat_l; [left; apply Rinv_0_lt_compat, pow_lt; lra|exact Ha].
Qed.

Lemma small400 : 0 < / 2 ^ 400 <= / 2 ^ 60.
Proof.
  split; [apply Rinv_0_lt_compat, pow_lt; lra|]. apply Rinv_le_contravar; [apply pow_lt; lra|]. apply Rle_pow; [lra|lia].
Qed.

(** rounding a quotient by the number of samples *)
Lemma div_n a A B : 0 <= B -> / 2 ^ 600 <= B -> Rabs A <= INR n * B -> Rabs (a - A) <= / 2 ^ 27 * (INR n * B) ->
  Rabs (rnd64 (a / INR n) - A / INR n) <= (/ 2 ^ 27 + / 2 ^ 51) * B.
Proof.
  intros B0 B6 HA Ha. pose proof n1 as N1.
  assert (D : forall z w, Rabs z <= w * (INR n * B) -> Rabs (z / INR n) <= w * B).
  { intros z w Hz. unfold Rdiv. rewrite Rabs_mult, (Rabs_pos_eq (/ INR n)) by (left; apply Rinv_0_lt_compat; lra).
    apply Rmult_le_reg_r with (INR n); [lra|]. rewrite Rmult_assoc, Rinv_l by lra. lra. }
  assert (P27 : 0 < / 2 ^ 27 < / 100) by (split; [apply Rinv_0_lt_compat, pow_lt; lra|replace (2 ^ 27) with 134217728 by ring; lra]).
  assert (Q : Rabs (a / INR n - A / INR n) <= / 2 ^ 27 * B).
  { replace (a / INR n - A / INR n) with ((a - A) / INR n) by (unfold Rdiv; ring). now apply D. }
  assert (QA : Rabs (A / INR n) <= B) by (rewrite <- (Rmult_1_l B); apply D; lra).
  assert (Qa : Rabs (a / INR n) <= (1 + / 2 ^ 27) * B).
  { replace (a / INR n) with (A / INR n + (a / INR n - A / INR n)) by ring. eapply Rle_trans; [apply Rabs_triang|]. lra. }
  pose proof (rnd64_err (a / INR n)) as RE. pose proof (e0_small B B6) as E0. pose proof small400 as S4.
  replace (rnd64 (a / INR n) - A / INR n) with ((rnd64 (a / INR n) - a / INR n) + (a / INR n - A / INR n)) by ring.
  eapply Rle_trans; [apply Rabs_triang|].
  assert (U : u64 = / 2 ^ 53) by (unfold u64; f_equal; ring).
  rewrite U in RE.
  assert (E51 : / 2 ^ 51 = 4 * / 2 ^ 53) by (replace (2 ^ 53) with (4 * 2 ^ 51) by ring; field; apply pow_nonzero; lra).
  assert (E60 : / 2 ^ 60 <= / 2 ^ 53) by (apply Rinv_le_contravar; [apply pow_lt; lra|apply Rle_pow; [lra|lia]]).
  assert (P53 : 0 < / 2 ^ 53) by (apply Rinv_0_lt_compat, pow_lt; lra).
  assert (R1 : / 2 ^ 53 * Rabs (a / INR n) <= / 2 ^ 53 * ((1 + / 2 ^ 27) * B)) by (apply Rmult_le_compat_l; lra).
  assert (R2 : / 2 ^ 400 * B <= / 2 ^ 53 * B) by (apply Rmult_le_compat_r; lra).
  set (p := / 2 ^ 53) in *. set (q := / 2 ^ 27) in *. rewrite E51.
  assert (0 <= p * B) by (apply Rmult_le_pos; lra). nra.
Qed.

Lemma pow600 : / 2 ^ 600 <= / 2 ^ 400. Proof. apply Rinv_le_contravar; [apply pow_lt; lra|]. apply Rle_pow; [lra|lia]. Qed.

Lemma mean_err : Rabs (mean NF x - m) <= / 2 ^ 26 * X.
Proof.
  pose proof n1 as N1. unfold mean, nmean. change (o_div (@n_dbl NF) (nsum NF 0 x) (o_ofZ (@n_dbl NF) (Z.of_nat n)))
    with (rnd64 (nsum NF 0 x / (o_ofZ (@n_dbl NF) (Z.of_nat n)))).
  rewrite (proj2 (len_I bld n HL)).
  assert (SA : lsum (map Rabs x) <= INR n * X).
  { rewrite <- lsum_const. apply lsum_map_le. exact HX. }
  unfold rmean. rewrite <- lsum_rsum.
  eapply Rle_trans; [apply (div_n _ _ X)|].
  - eapply Rle_trans; [|exact HX0]. left. apply Rinv_0_lt_compat, pow_lt. lra.
  - eapply Rle_trans; [|exact HX0]. apply Rinv_le_contravar; [apply pow_lt; lra|]. apply Rle_pow; [lra|lia].
  - eapply Rle_trans; [apply lsum_abs|exact SA].
  - eapply Rle_trans; [apply nsum_err; auto; apply Fx|]. apply Rmult_le_compat_l; auto.
    left. apply Rinv_0_lt_compat, pow_lt. lra.
  - apply Rmult_le_compat_r.
    + eapply Rle_trans; [|exact HX0]. left. apply Rinv_0_lt_compat, pow_lt. lra.
    + replace (2 ^ 27) with 134217728 by ring. replace (2 ^ 26) with 67108864 by ring. replace (2 ^ 51) with 2251799813685248 by ring. lra.
Qed.

Notation D := (mean NF x - m).
Notation Q := (rvar x + D * D).

(** the mean square deviation from any value *)
Lemma around (c : R) : lsum (map (fun v => (v - c) * (v - c)) x) = INR n * (rvar x + (c - m) * (c - m)).
Proof.
  pose proof n1 as N1.
  assert (E : rvar x = lsum (map (fun v => (v - m) * (v - m)) x) / INR n).
  { unfold rvar. f_equal. rewrite lsum_rsum, map_length. apply rsum_ext. intros i Hi.
    rewrite (nth_indep (map (fun v => (v - m) * (v - m)) x) 0 ((fun v => (v - m) * (v - m)) 0)) by now rewrite map_length.
    rewrite (map_nth (fun v => (v - m) * (v - m))). ring. }
  rewrite E.
  assert (M : lsum (map (fun v => v - m) x) = 0).
  { rewrite (map_ext _ (fun v => v + - m)) by (intros; ring). rewrite (lsum_plus (fun v => v) (fun _ => - m)).
    rewrite map_id, lsum_const, lsum_rsum. unfold rmean. field. lra. }
  rewrite (map_ext _ (fun v => ((v - m) * (v - m) + (2 * (m - c)) * (v - m)) + (m - c) * (m - c))) by (intros; ring).
  rewrite (lsum_plus (fun v => (v - m) * (v - m) + 2 * (m - c) * (v - m)) (fun _ => (m - c) * (m - c))).
  rewrite (lsum_plus (fun v => (v - m) * (v - m)) (fun v => 2 * (m - c) * (v - m))).
  rewrite lsum_scal, M, lsum_const. field. lra.
Qed.

Lemma q_low : / 2 ^ 400 <= rvar x.
Proof.
  assert (S0 : / 2 ^ 169 <= s).
  { apply Rmult_le_reg_l with (2 ^ 20); [apply pow_lt; lra|].
    apply Rle_trans with (2 := HK). apply Rle_trans with (2 := HX0).
    right. replace (2 ^ 169) with (2 ^ 20 * 2 ^ 149) by (rewrite <- pow_add; reflexivity).
    field. }
  rewrite <- (sqrt_sqrt (rvar x)) by lra.
  apply Rle_trans with (/ 2 ^ 169 * / 2 ^ 169).
  - rewrite <- Rinv_mult. rewrite <- pow_add. apply Rinv_le_contravar; [apply pow_lt; lra|]. apply Rle_pow; [lra|lia].
  - assert (0 < / 2 ^ 169) by (apply Rinv_0_lt_compat, pow_lt; lra). apply Rmult_le_compat; lra.
Qed.

Lemma dev_err v : In v x -> Rabs (rnd64 (v - mean NF x) - (v - mean NF x)) <= u64 * Rabs (v - mean NF x).
Proof.
  intros Hv. assert (Fm : F64 (- mean NF x)).
  { apply generic_format_opp. unfold mean, nmean. apply generic_format_round; typeclasses eauto. }
  apply (rnd64_plus_error v (- mean NF x) (Fx v Hv) Fm).
Qed.

(** a rounded square *)
Lemma sq_err a b : Rabs (a - b) <= u64 * Rabs b -> Rabs (rnd64 (a * a) - b * b) <= 4 * u64 * (b * b) + e0.
Proof.
  intros H. pose proof (rnd64_err (a * a)) as RE.
  assert (U : 0 < u64 <= / 1000) by (unfold u64; lra).
  assert (BB : Rabs b * Rabs b = b * b) by (rewrite <- Rabs_mult; apply Rabs_pos_eq; nra).
  assert (A1 : Rabs (a * a - b * b) <= (2 * u64 + u64 * u64) * (b * b)).
  { replace (a * a - b * b) with ((a - b) * (a - b) + 2 * ((a - b) * b)) by ring.
    eapply Rle_trans; [apply Rabs_triang|]. rewrite !Rabs_mult, (Rabs_pos_eq 2) by lra.
    pose proof (Rabs_pos (a - b)). pose proof (Rabs_pos b).
    assert (Rabs (a - b) * Rabs (a - b) <= u64 * Rabs b * (u64 * Rabs b)) by (apply Rmult_le_compat; lra).
    assert (Rabs (a - b) * Rabs b <= u64 * Rabs b * Rabs b) by (apply Rmult_le_compat_r; lra).
    rewrite <- BB. nra. }
  assert (A2 : Rabs (a * a) <= (1 + 3 * u64) * (b * b)).
  { replace (a * a) with (b * b + (a * a - b * b)) by ring. eapply Rle_trans; [apply Rabs_triang|].
    rewrite (Rabs_pos_eq (b * b)) by nra. nra. }
  replace (rnd64 (a * a) - b * b) with ((rnd64 (a * a) - a * a) + (a * a - b * b)) by ring.
  eapply Rle_trans; [apply Rabs_triang|]. assert (0 <= b * b) by nra.
  assert (u64 * Rabs (a * a) <= u64 * ((1 + 3 * u64) * (b * b))) by (apply Rmult_le_compat_l; lra).
  assert (u64 * u64 * (b * b) <= / 1000 * u64 * (b * b)) by (apply Rmult_le_compat_r; [lra|apply Rmult_le_compat_r; lra]).
  nra.
Qed.

Notation mF := (mean NF x).
Notation devF v := (rnd64 (v - mF)).

Lemma p400 : / 2 ^ 600 <= rvar x. Proof. eapply Rle_trans; [apply pow600|apply q_low]. Qed.

Lemma D2 : 0 <= D * D. Proof. pose proof (Rle_0_sqr D). unfold Rsqr in *. lra. Qed.

Lemma var_err : Rabs (var NF x - Q) <= / 2 ^ 26 * Q.
Proof.
  pose proof n1 as N1. pose proof D2 as D2. pose proof q_low as QL. pose proof p400 as P6. pose proof small400 as S4.
  assert (U : u64 = / 2 ^ 53) by (unfold u64; f_equal; ring).
  assert (U0 : 0 < u64 <= / 1000) by (unfold u64; lra).
  set (sq := fun v => rnd64 (devF v * devF v)).
  assert (EV : var NF x = rnd64 (nsum NF 1 (map sq x) / INR n)).
  { change (var NF x) with (rnd64 (nsum NF 1 (map sq x) / (o_ofZ (@n_dbl NF) (Z.of_nat (length (map sq x)))))).
    rewrite map_length. now rewrite (proj2 (len_I bld n HL)). }
  rewrite EV.
  (* the squares *)
  assert (SQ : Rabs (lsum (map sq x) - INR n * Q) <= INR n * (5 * u64 * Q)).
  { rewrite <- (around mF). eapply Rle_trans; [apply lsum_diff|].
    apply Rle_trans with (lsum (map (fun v => 4 * u64 * ((v - mF) * (v - mF)) + e0) x)).
    { apply lsum_map_le. intros v Hv. apply sq_err. now apply dev_err. }
    rewrite (lsum_plus (fun v => 4 * u64 * ((v - mF) * (v - mF))) (fun _ => e0)).
    rewrite lsum_scal, around, lsum_const.
    pose proof (e0_small (rvar x) P6) as E0.
    assert (/ 2 ^ 400 * rvar x <= u64 * rvar x).
    { apply Rmult_le_compat_r; [lra|]. rewrite U. apply Rle_trans with (/ 2 ^ 60); [lra|].
      apply Rinv_le_contravar; [apply pow_lt; lra|]. apply Rle_pow; [lra|lia]. }
    assert (E1 : e0 <= u64 * Q) by nra.
    assert (INR n * e0 <= INR n * (u64 * Q)) by (apply Rmult_le_compat_l; lra). lra. }
  assert (SP : forall v, In v (map sq x) -> 0 <= v /\ F64 v).
  { intros v Hv. apply in_map_iff in Hv as (w & <- & _). split; [|apply generic_format_round; typeclasses eauto].
    unfold sq. rewrite <- (rnd64_id 0) by apply generic_format_0. apply rnd64_le. nra. }
  assert (SA : lsum (map Rabs (map sq x)) = lsum (map sq x)).
  { rewrite map_map. f_equal. apply map_ext_in. intros v Hv. apply Rabs_pos_eq. apply SP. now apply in_map. }
  assert (NE : Rabs (nsum NF 1 (map sq x) - lsum (map sq x)) <= / 2 ^ 27 * lsum (map sq x)).
  { rewrite <- SA at 2. apply nsum_err; [now rewrite map_length|]. intros v Hv. now apply SP. }
  set (L := lsum (map sq x)) in *. set (T := nsum NF 1 (map sq x)) in *.
  assert (NQ : 0 <= INR n * Q) by (apply Rmult_le_pos; lra).
  apply Rabs_le_inv in SQ.
  assert (LB : 0 <= L <= (1 + 5 * u64) * (INR n * Q)) by nra.
  assert (P27 : 0 < / 2 ^ 27 <= / 100) by (split; [apply Rinv_0_lt_compat, pow_lt; lra|replace (2 ^ 27) with 134217728 by ring; lra]).
  pose proof (div_n T L ((1 + 5 * u64) * Q)) as DN.
  assert (B1 : Rabs (rnd64 (T / INR n) - L / INR n) <= (/ 2 ^ 27 + / 2 ^ 51) * ((1 + 5 * u64) * Q)).
  { apply DN.
    - apply Rmult_le_pos; lra.
    - apply Rle_trans with (1 := P6). nra.
    - rewrite Rabs_pos_eq by lra. lra.
    - eapply Rle_trans; [exact NE|]. apply Rmult_le_compat_l; lra. }
  assert (B2 : Rabs (L / INR n - Q) <= 5 * u64 * Q).
  { replace (L / INR n - Q) with ((L - INR n * Q) / INR n) by (field; lra).
    unfold Rdiv. rewrite Rabs_mult, (Rabs_pos_eq (/ INR n)) by (left; apply Rinv_0_lt_compat; lra).
    apply Rmult_le_reg_r with (INR n); [lra|]. rewrite Rmult_assoc, Rinv_l, Rmult_1_r by lra. apply Rabs_le. lra. }
  replace (rnd64 (T / INR n) - Q) with ((rnd64 (T / INR n) - L / INR n) + (L / INR n - Q)) by ring.
  eapply Rle_trans; [apply Rabs_triang|].
  apply Rle_trans with (((/ 2 ^ 27 + / 2 ^ 51) * (1 + 5 * u64) + 5 * u64) * Q); [lra|].
  apply Rmult_le_compat_r; [lra|]. unfold u64.
  replace (2 ^ 27) with 134217728 by ring. replace (2 ^ 26) with 67108864 by ring. replace (2 ^ 51) with 2251799813685248 by ring. lra.
Qed.

(** relative error of a square root *)
Lemma sqrt_rel a b e : 0 < b -> 0 <= e <= / 2 -> Rabs (a - b) <= e * b -> Rabs (sqrt a - sqrt b) <= e * sqrt b.
Proof.
  intros Hb He H. apply Rabs_le_inv in H. pose proof (sqrt_lt_R0 b Hb) as SB.
  assert (Ha : 0 <= a) by nra. pose proof (sqrt_pos a) as SA.
  pose proof (sqrt_sqrt a Ha) as EA. pose proof (sqrt_sqrt b ltac:(lra)) as EB.
  set (p := sqrt a) in *. set (q := sqrt b) in *.
  assert (H1 : - (e * (q * q)) <= p * p - q * q <= e * (q * q)) by (rewrite EA, EB; lra).
  apply Rabs_le. split.
  - destruct (Rle_lt_dec (q * (1 - e)) p) as [|C]; [lra|]. exfalso.
    assert (p * p <= q * (1 - e) * p) by (apply Rmult_le_compat_r; lra).
    assert (q * (1 - e) * p <= q * (1 - e) * (q * (1 - e))) by (apply Rmult_le_compat_l; [apply Rmult_le_pos; lra|lra]).
    assert (0 < q * q) by (apply Rmult_lt_0_compat; lra).
    destruct (Req_dec e 0) as [->|Ne]; [|nra].
    assert (p < q) by lra. nra.
  - destruct (Rle_lt_dec p (q * (1 + e))) as [|C]; [lra|]. exfalso.
    assert (q * (1 + e) * (q * (1 + e)) < p * p) by (apply Rmult_le_0_lt_compat; try lra; apply Rmult_le_pos; lra).
    assert (0 < q * q) by (apply Rmult_lt_0_compat; lra). nra.
Qed.

Definition dd : R := / 2 ^ 26 * (X / s).
Lemma s_pos : 0 < s. Proof. apply sqrt_lt_R0. exact Hs. Qed.
Lemma dd_bound : 0 <= dd <= / 64 /\ Rabs D <= dd * s.
Proof.
  pose proof s_pos as SP. unfold dd.
  assert (X0 : 0 < X) by (eapply Rlt_le_trans; [|exact HX0]; apply Rinv_0_lt_compat, pow_lt; lra).
  split; [split|].
  - apply Rmult_le_pos; [left; apply Rinv_0_lt_compat, pow_lt; lra|]. apply Rmult_le_pos; [lra|left; now apply Rinv_0_lt_compat].
  - apply Rle_trans with (/ 2 ^ 26 * 2 ^ 20).
    + apply Rmult_le_compat_l; [left; apply Rinv_0_lt_compat, pow_lt; lra|].
      apply Rmult_le_reg_r with s; auto. unfold Rdiv. rewrite Rmult_assoc, Rinv_l by lra. lra.
    + replace (2 ^ 26) with 67108864 by ring. replace (2 ^ 20) with 1048576 by ring. lra.
  - eapply Rle_trans; [apply mean_err|]. right. field. lra.
Qed.

Notation sF := (rnd64 (sqrt (var NF x))).

Lemma sd_err : Rabs (sF / s - 1) <= dd / 64 + / 2 ^ 25.
Proof.
  pose proof s_pos as SP. destruct dd_bound as [DB DS]. pose proof D2 as D2. pose proof q_low as QL.
  assert (U : u64 = / 2 ^ 53) by (unfold u64; f_equal; ring).
  assert (U0 : 0 < u64 <= / 2 ^ 50) by (rewrite U; split; [apply Rinv_0_lt_compat, pow_lt; lra|apply Rinv_le_contravar; [apply pow_lt; lra|apply Rle_pow; [lra|lia]]]).
  assert (P26 : 0 < / 2 ^ 26 <= / 100) by (split; [apply Rinv_0_lt_compat, pow_lt; lra|replace (2 ^ 26) with 67108864 by ring; lra]).
  assert (QP : 0 < Q) by lra.
  pose proof (sqrt_rel (var NF x) Q (/ 2 ^ 26) QP ltac:(lra) var_err) as H1.
  pose proof (rnd64_err (sqrt (var NF x))) as H2.
  set (q := sqrt Q) in *. assert (q0 : 0 < q) by now apply sqrt_lt_R0.
  (* the effect of the error of the mean *)
  assert (H3 : s <= q <= s * (1 + dd / 128)).
  { split; [apply sqrt_le_1_alt; lra|]. unfold q. rewrite <- (sqrt_square (s * (1 + dd / 128))) by (apply Rmult_le_pos; lra).
    apply sqrt_le_1_alt. pose proof (sqrt_sqrt (rvar x) ltac:(lra)) as SS. rewrite <- SS at 1.
    assert (D * D <= dd * s * (dd * s)).
    { pose proof (Rabs_pos D). replace (D * D) with (Rabs D * Rabs D) by (rewrite <- Rabs_mult; apply Rabs_pos_eq; lra).
      apply Rmult_le_compat; lra. }
    assert (dd * dd <= dd / 64) by nra. assert (0 < s * s) by (apply Rmult_lt_0_compat; lra).
    assert (s * s * (dd * dd) <= s * s * (dd / 64)) by (apply Rmult_le_compat_l; lra).
    assert (0 <= s * s * (dd / 128 * (dd / 128))) by (apply Rmult_le_pos; [lra|apply Rmult_le_pos; lra]).
    nra. }
  assert (SL : / 2 ^ 600 <= s).
  { destruct (Rle_lt_dec (/ 2 ^ 600) s) as [|C]; auto. exfalso.
    pose proof (sqrt_sqrt (rvar x) ltac:(lra)) as SS.
    assert (s * s <= / 2 ^ 600 * / 2 ^ 600) by (apply Rmult_le_compat; lra).
    assert (/ 2 ^ 600 * / 2 ^ 600 < / 2 ^ 400).
    { apply Rle_lt_trans with (/ 2 ^ 600 * 1).
      - apply Rmult_le_compat_l; [left; apply Rinv_0_lt_compat, pow_lt; lra|]. rewrite <- Rinv_1.
        apply Rinv_le_contravar; [lra|]. apply pow_R1_Rle. lra.
      - rewrite Rmult_1_r. apply Rinv_lt_contravar; [apply Rmult_lt_0_compat; apply pow_lt; lra|]. apply Rlt_pow; [lra|lia]. }
    lra. }
  pose proof (e0_small s SL) as E0. pose proof small400 as S4.
  assert (E1 : e0 <= / 2 ^ 50 * q).
  { apply Rle_trans with (1 := E0). apply Rmult_le_compat; lra. }
  assert (H4 : Rabs (sF - q) <= (/ 2 ^ 26 + / 2 ^ 48) * q).
  { apply Rabs_le_inv in H1. pose proof (sqrt_pos (var NF x)) as VP. rewrite (Rabs_pos_eq (sqrt _)) in H2 by auto.
    set (p := sqrt (var NF x)) in *.
    assert (p <= (1 + / 2 ^ 26) * q) by lra.
    assert (u64 * p <= / 2 ^ 50 * ((1 + / 2 ^ 26) * q)) by (apply Rmult_le_compat; lra).
    replace (rnd64 p - q) with ((rnd64 p - p) + (p - q)) by ring.
    eapply Rle_trans; [apply Rabs_triang|].
    assert (Rabs (p - q) <= / 2 ^ 26 * q) by (apply Rabs_le; lra).
    assert (E48 : / 2 ^ 48 = 4 * / 2 ^ 50) by (replace (2 ^ 50) with (4 * 2 ^ 48) by ring; field; apply pow_nonzero; lra).
    rewrite E48. assert (0 < / 2 ^ 50 * q) by (apply Rmult_lt_0_compat; [apply Rinv_0_lt_compat, pow_lt|]; lra).
    assert (/ 2 ^ 26 * (/ 2 ^ 50 * q) <= / 100 * (/ 2 ^ 50 * q)) by (apply Rmult_le_compat_r; lra). lra. }
  apply Rabs_le_inv in H4.
  assert (P48 : 0 < / 2 ^ 26 + / 2 ^ 48 <= / 2 ^ 25 * (9 / 10)).
  { split; [apply Rplus_lt_0_compat; apply Rinv_0_lt_compat, pow_lt; lra|].
    replace (2 ^ 26) with 67108864 by ring. replace (2 ^ 48) with 281474976710656 by ring. replace (2 ^ 25) with 33554432 by ring. lra. }
  assert (P25 : 0 < / 2 ^ 25 <= / 100) by (split; [apply Rinv_0_lt_compat, pow_lt; lra|replace (2 ^ 25) with 33554432 by ring; lra]).
  set (h := / 2 ^ 26 + / 2 ^ 48) in *. set (g := / 2 ^ 25) in *.
  assert (LO : s * (1 - h) <= sF).
  { apply Rle_trans with (q * (1 - h)); [apply Rmult_le_compat_r; lra|lra]. }
  assert (HI : sF <= s * (1 + dd / 128) * (1 + h)).
  { apply Rle_trans with (q * (1 + h)); [lra|apply Rmult_le_compat_r; lra]. }
  replace (sF / s - 1) with ((sF - s) / s) by (field; lra).
  unfold Rdiv at 1. rewrite Rabs_mult, (Rabs_pos_eq (/ s)) by (left; now apply Rinv_0_lt_compat).
  apply Rmult_le_reg_r with s; auto. rewrite Rmult_assoc, Rinv_l, Rmult_1_r by lra. apply Rabs_le.
  assert (HH : (1 + dd / 128) * (1 + h) <= 1 + (dd / 64 + g)).
  { assert (dd * h <= dd * (/ 100)) by (apply Rmult_le_compat_l; lra). lra. }
  split.
  - assert (0 <= s * dd) by (apply Rmult_le_pos; lra). assert (s * h <= s * g) by (apply Rmult_le_compat_l; lra). lra.
  - assert (s * ((1 + dd / 128) * (1 + h)) <= s * (1 + (dd / 64 + g))) by (apply Rmult_le_compat_l; lra). lra.
Qed.

Lemma norm_err v : In v x ->
  let z := (v - m) / s in
  Rabs (rnd32 (rnd64 (devF v / sF)) - z) <= (Rabs z + 1) * (/ 2 ^ 23 + / 2 ^ 25 * (X / s)).
Proof.
  intros Hv z. pose proof s_pos as SP. destruct dd_bound as [DB DS]. pose proof sd_err as SE. pose proof (dev_err v Hv) as DE.
  assert (P25 : 0 < / 2 ^ 25 <= / 10000) by (split; [apply Rinv_0_lt_compat, pow_lt; lra|replace (2 ^ 25) with 33554432 by ring; lra]).
  assert (U0 : 0 < u64 <= / 2 ^ 50).
  { unfold u64. replace (2 ^ 50) with 1125899906842624 by ring. lra. }
  set (t := sF / s) in *. set (tau := dd / 64 + / 2 ^ 25) in *.
  assert (Ht0 : 0 <= tau <= / 100) by (unfold tau; lra).
  apply Rabs_le_inv in SE.
  set (q := z - D / s).
  assert (Eq : v - mF = s * q) by (unfold q, z; field; lra).
  set (q' := devF v / s).
  assert (Eq' : devF v = s * q') by (unfold q'; field; lra).
  assert (Hq : Rabs (q' - q) <= u64 * Rabs q).
  { rewrite Eq', Eq in DE. replace (s * q' - s * q) with (s * (q' - q)) in DE by ring.
    rewrite !Rabs_mult, (Rabs_pos_eq s) in DE by lra. apply Rmult_le_reg_l with s; auto. lra. }
  assert (Hd : Rabs (q - z) <= dd).
  { unfold q. replace (z - D / s - z) with (- (D / s)) by ring. rewrite Rabs_Ropp. unfold Rdiv.
    rewrite Rabs_mult, (Rabs_pos_eq (/ s)) by (left; now apply Rinv_0_lt_compat).
    apply Rmult_le_reg_r with s; auto. rewrite Rmult_assoc, Rinv_l, Rmult_1_r by lra. exact DS. }
  set (B := Rabs z + 1). assert (B1 : 1 <= B) by (unfold B; pose proof (Rabs_pos z); lra).
  assert (QB : Rabs q <= B).
  { replace q with (z + (q - z)) by ring. eapply Rle_trans; [apply Rabs_triang|]. unfold B. lra. }
  assert (UB : u64 * Rabs q <= u64 * B) by (apply Rmult_le_compat_l; lra).
  assert (dB : dd <= dd * B) by nra.
  assert (P50 : 0 < / 2 ^ 50 <= / 2 ^ 25 * / 10000).
  { split; [apply Rinv_0_lt_compat, pow_lt; lra|].
    replace (2 ^ 50) with 1125899906842624 by ring. replace (2 ^ 25) with 33554432 by ring. lra. }
  assert (uB : u64 * B <= / 2 ^ 25 * / 10000 * B) by (apply Rmult_le_compat_r; lra).
  set (g := / 2 ^ 25) in *.
  assert (gB : 0 < g * B) by (apply Rmult_lt_0_compat; lra).
  assert (q'B : Rabs q' <= 101 / 100 * B).
  { replace q' with (q + (q' - q)) by ring. eapply Rle_trans; [apply Rabs_triang|]. assert (g * / 10000 * B <= / 100 * B) by (apply Rmult_le_compat_r; lra). lra. }
  (* the quotient *)
  set (r := devF v / sF).
  assert (Et : sF = t * s) by (unfold t; field; lra).
  assert (Er : r = q' / t) by (unfold r; rewrite Et, Eq'; field; lra).
  assert (Rq : Rabs (r - q') <= 105 / 100 * tau * B).
  { rewrite Er. replace (q' / t - q') with (q' * (1 - t) * / t) by (field; lra).
    rewrite !Rabs_mult, (Rabs_pos_eq (/ t)) by (left; apply Rinv_0_lt_compat; lra).
    assert (T1 : Rabs (1 - t) <= tau) by (apply Rabs_le; lra).
    assert (T2 : / t <= 102 / 100).
    { apply Rmult_le_reg_r with t; [lra|]. rewrite Rinv_l by lra. lra. }
    apply Rle_trans with (101 / 100 * B * tau * (102 / 100)).
    - assert (0 < / t) by (apply Rinv_0_lt_compat; lra).
      apply Rmult_le_compat; try lra; [apply Rmult_le_pos; apply Rabs_pos|].
      apply Rmult_le_compat; auto; apply Rabs_pos.
    - assert (0 <= B * tau) by (apply Rmult_le_pos; lra). lra. }
  assert (Rz : Rabs (r - z) <= dd * B + g * / 10000 * B + 105 / 100 * tau * B).
  { replace (r - z) with ((r - q') + (q' - q) + (q - z)) by ring.
    eapply Rle_trans; [apply Rabs_triang|]. pose proof (Rabs_triang (r - q') (q' - q)). lra. }
  assert (tB : tau * B = dd * B / 64 + g * B) by (unfold tau; field).
  assert (ddB : 0 <= dd * B <= / 64 * B) by (split; [apply Rmult_le_pos; lra|apply Rmult_le_compat_r; lra]).
  assert (gB2 : g * B <= / 10000 * B) by (apply Rmult_le_compat_r; lra).
  assert (Rz' : Rabs (r - z) <= 102 / 100 * (dd * B) + 106 / 100 * (g * B)) by lra.
  assert (RB : Rabs r <= 102 / 100 * B).
  { replace r with (z + (r - z)) by ring. eapply Rle_trans; [apply Rabs_triang|]. unfold B in *. lra. }
  (* the two roundings *)
  pose proof (rnd64_err r) as R1.
  assert (EP : e0 <= / 100000 * g).
  { pose proof (e0_small g) as H. pose proof small400. 
    assert (/ 2 ^ 600 <= g) by (unfold g; apply Rinv_le_contravar; [apply pow_lt; lra|apply Rle_pow; [lra|lia]]).
    specialize (H H1). apply Rle_trans with (1 := H). apply Rmult_le_compat_r; [lra|].
    apply Rle_trans with (/ 2 ^ 60); [lra|]. replace (2 ^ 60) with 1152921504606846976 by ring. lra. }
  assert (gB1 : g <= g * B) by nra.
  assert (R1' : Rabs (rnd64 r - r) <= / 1000 * (g * B)).
  { eapply Rle_trans; [exact R1|].
    assert (u64 * Rabs r <= / 2 ^ 50 * (102 / 100 * B)) by (apply Rmult_le_compat; try lra; apply Rabs_pos).
    assert (/ 2 ^ 50 * B <= g * / 10000 * B) by (apply Rmult_le_compat_r; lra). lra. }
  set (y := rnd64 r) in *.
  assert (YB : Rabs y <= 103 / 100 * B).
  { replace y with (r + (y - r)) by ring. eapply Rle_trans; [apply Rabs_triang|]. lra. }
  pose proof (rnd32_err y) as R2.
  assert (U32 : u32 = 2 * g) by (unfold u32, g; replace (2 ^ 25) with 33554432 by ring; lra).
  rewrite U32 in R2.
  assert (ET : eta32 <= / 100000 * g).
  { unfold eta32, g. apply Rle_trans with (bpow radix2 (-60)); [apply bpow_le; lia|].
    replace (2 ^ 25) with 33554432 by ring. cbn. lra. }
  assert (R2' : 2 * g * Rabs y <= 2 * g * (103 / 100 * B)) by (apply Rmult_le_compat_l; lra).
  assert (FIN : Rabs (rnd32 y - z) <= 102 / 100 * (dd * B) + 4 * (g * B)).
  { replace (rnd32 y - z) with ((rnd32 y - y) + (y - r) + (r - z)) by ring.
    eapply Rle_trans; [apply Rabs_triang|]. pose proof (Rabs_triang (rnd32 y - y) (y - r)). lra. }
  eapply Rle_trans; [exact FIN|].
  assert (E23 : / 2 ^ 23 = 4 * g) by (unfold g; replace (2 ^ 25) with (4 * 2 ^ 23) by ring; field; apply pow_nonzero; lra).
  assert (Edd : g * (X / s) = 2 * dd) by (unfold g, dd; replace (2 ^ 26) with (2 * 2 ^ 25) by ring; field; lra).
  rewrite E23, Edd. lra.
Qed.
End Norm.
