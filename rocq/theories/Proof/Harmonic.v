(** Fraction.limit_denominator finds the best approximation. *)
From Coq Require Import List Arith ZArith Znumtheory Bool Lia Reals Lra.
From Flocq Require Import Core.
From Verif Require Import Base.Result Base.Num Model.Harmonic Spec.BestApprox.
Import ListNotations.
Local Open Scope Z_scope.

Lemma frac_coprime n d : 0 < d -> Z.gcd n d = 1 -> frac n d = (n, d).
Proof.
  intros Hd G. unfold frac. rewrite G, !Z.div_1_r. destruct (Z.ltb_spec d 0); [lia|reflexivity].
Qed.

Lemma det_gcd p q P Q : Z.abs (p * Q - P * q) = 1 -> Z.gcd p q = 1.
Proof.
  intros H. pose proof (Z.gcd_divide_l p q) as [a Ha]. pose proof (Z.gcd_divide_r p q) as [b Hb].
  pose proof (Z.gcd_nonneg p q). set (g := Z.gcd p q) in *.
  assert (D : (g | 1)).
  { assert (E : p * Q - P * q = (a * Q - P * b) * g) by (rewrite Ha, Hb at 1; ring).
    rewrite E in H. destruct (Z.abs_spec ((a * Q - P * b) * g)) as [[_ A]|[_ A]]; rewrite A in H.
    - exists (a * Q - P * b). lia.
    - exists (- (a * Q - P * b)). lia. }
  apply Z.divide_1_r_nonneg in D; auto.
Qed.

(** what the loop ends with *)
Lemma limit_loop_spec (n0 d0 dmax : Z) : 0 < d0 -> Z.gcd n0 d0 = 1 -> 1 <= dmax < d0 ->
  forall fuel p0 q0 p1 q1 n d,
  (Z.to_nat d < fuel)%nat -> 0 <= d ->
  n0 = p1 * n + p0 * d -> d0 = q1 * n + q0 * d ->
  Z.abs (p1 * q0 - p0 * q1) = 1 -> 0 <= q0 <= dmax -> 0 <= q1 <= dmax ->
  (q1 = 0 -> q0 = 1) -> (1 <= q1 -> d < n) ->
  exists p0' q0' p1' q1' n' d', limit_loop fuel dmax p0 q0 p1 q1 n d = Ok (p0', q0', p1', q1') /\
    0 < d' /\ n0 = p1' * n' + p0' * d' /\ d0 = q1' * n' + q0' * d' /\
    Z.abs (p1' * q0' - p0' * q1') = 1 /\ 0 <= q0' <= dmax /\ 1 <= q1' <= dmax /\
    dmax < q0' + n' / d' * q1' /\ d' < n'.
Proof.
  intros Hd0 G Hdm. induction fuel as [|fuel IH]; intros p0 q0 p1 q1 n d HF Hd E1 E2 DET B0 B1 Q1 LT; [lia|].
  cbn [limit_loop].
  destruct (Z.eqb_spec d 0) as [->|Hd'].
  { exfalso. rewrite !Z.mul_0_r, !Z.add_0_r in *.
    assert (n = 1).
    { assert (1 <= q1) by (destruct (Z.eq_dec q1 0); [subst; lia|lia]).
      specialize (LT H). assert (D : (n | Z.gcd n0 d0)).
      { apply Z.gcd_greatest; [exists p1|exists q1]; lia. }
      rewrite G in D. apply Z.divide_1_r_nonneg in D; lia. }
    subst n. lia. }
  destruct (Z.ltb_spec dmax (q0 + n / d * q1)) as [L|L].
  - exists p0, q0, p1, q1, n, d. split; [reflexivity|].
    assert (1 <= q1). { destruct (Z.eq_dec q1 0) as [E|E]; [|lia]. rewrite E, Q1 in L by auto. lia. }
    repeat split; auto; try lia.
  - assert (HM : n - n / d * d = n mod d) by (rewrite Z.mod_eq by lia; lia).
    assert (HB : 0 <= n mod d < d) by (apply Z.mod_pos_bound; lia).
    rewrite HM.
    apply IH.
    + lia.
    + lia.
    + rewrite <- HM. rewrite E1. ring.
    + rewrite <- HM. rewrite E2. ring.
    + replace ((p0 + n / d * p1) * q1 - p1 * (q0 + n / d * q1)) with (- (p1 * q0 - p0 * q1)) by ring.
      now rewrite Z.abs_opp.
    + lia.
    + split; [|lia]. destruct (Z.eq_dec q1 0) as [E|E]; [rewrite E, Q1 by auto; lia|].
      assert (0 <= n / d) by (apply Z.div_pos; lia). nia.
    + intros E. exfalso. destruct (Z.eq_dec q1 0) as [E'|E'].
      * rewrite E', Q1 in E by auto. lia.
      * assert (1 <= n / d) by (apply Z.div_le_lower_bound; lia). nia.
    + intros _. lia.
Qed.

Local Open Scope R_scope.

Lemma frac_diff (a b n d : Z) : (0 < b)%Z -> (0 < d)%Z ->
  Rabs (IZR a / IZR b - IZR n / IZR d) = IZR (Z.abs (a * d - n * b)) / IZR (b * d).
Proof.
  intros Hb Hd. apply IZR_lt in Hb, Hd.
  replace (IZR a / IZR b - IZR n / IZR d) with (IZR (a * d - n * b) / IZR (b * d)).
  - unfold Rdiv. rewrite Rabs_mult, abs_IZR. f_equal. apply Rabs_pos_eq.
    apply Rlt_le, Rinv_0_lt_compat. rewrite mult_IZR. nra.
  - rewrite minus_IZR, !mult_IZR. field. lra.
Qed.

Lemma closer_spec a b c d n m : (0 < b)%Z -> (0 < d)%Z -> (0 < m)%Z ->
  closer (a, b) (n, m) (c, d) = true <->
  Rabs (IZR a / IZR b - IZR n / IZR m) <= Rabs (IZR c / IZR d - IZR n / IZR m).
Proof.
  intros Hb Hd Hm. unfold closer. cbn [fst snd]. rewrite Z.leb_le.
  rewrite !frac_diff by auto.
  assert (Bb := IZR_lt _ _ Hb). assert (Bd := IZR_lt _ _ Hd). assert (Bm := IZR_lt _ _ Hm).
  assert (P1 : 0 < IZR (b * m)) by (rewrite mult_IZR; nra).
  assert (P2 : 0 < IZR (d * m)) by (rewrite mult_IZR; nra).
  set (u := Z.abs _). set (v := Z.abs _).
  transitivity (IZR u * IZR (d * m) <= IZR v * IZR (b * m)).
  - rewrite <- !mult_IZR. split; [apply IZR_le|apply le_IZR].
  - split; intros H.
    + apply Rmult_le_reg_r with (IZR (b * m) * IZR (d * m)); [nra|].
      replace (IZR u / IZR (b * m) * (IZR (b * m) * IZR (d * m))) with (IZR u * IZR (d * m)) by (field; lra).
      replace (IZR v / IZR (d * m) * (IZR (b * m) * IZR (d * m))) with (IZR v * IZR (b * m)) by (field; lra).
      exact H.
    + apply (Rmult_le_compat_r (IZR (b * m) * IZR (d * m))) in H; [|nra].
      replace (IZR u / IZR (b * m) * (IZR (b * m) * IZR (d * m))) with (IZR u * IZR (d * m)) in H by (field; lra).
      replace (IZR v / IZR (d * m) * (IZR (b * m) * IZR (d * m))) with (IZR v * IZR (b * m)) in H by (field; lra).
      exact H.
Qed.

(** a fraction of small denominator is not strictly between two neighbours *)
Lemma outside (p q p1 q1 P Q s n d k m : Z) :
  (Z.abs s = 1 -> p1 * Q - P * q1 = s -> 0 < q1 -> 0 < Q -> 0 < q -> q < Q + q1 -> 0 < m ->
   n * q1 - p1 * m = - (s * d) -> n * Q - P * m = s * k -> 0 < d -> 0 < k ->
   (Z.abs (p1 * m - n * q1) * (q * m) <= Z.abs (p * m - n * q) * (q1 * m)) \/
   (Z.abs (P * m - n * Q) * (q * m) <= Z.abs (p * m - n * q) * (Q * m)))%Z.
Proof.
  intros Hs DET Hq1 HQ Hq LT Hm E2 E1 Hd Hk.
  assert (EQ : (q = s * ((p * Q - P * q) * q1 - (p * q1 - p1 * q) * Q))%Z).
  { replace ((p * Q - P * q) * q1 - (p * q1 - p1 * q) * Q)%Z with (q * (p1 * Q - P * q1))%Z by ring.
    rewrite DET. assert (s * s = 1)%Z by (destruct (Z.abs_spec s); nia). nia. }
  (* p m - n q expressed through each neighbour *)
  assert (I2 : ((p * m - n * q) * q1 = (p * q1 - p1 * q) * m + s * d * q)%Z).
  { replace (s * d * q)%Z with (- (n * q1 - p1 * m) * q)%Z by (rewrite E2; ring). ring. }
  assert (I1 : ((p * m - n * q) * Q = (p * Q - P * q) * m - s * k * q)%Z).
  { replace (s * k * q)%Z with ((n * Q - P * m) * q)%Z by (rewrite E1; ring). ring. }
  assert (A2 : (Z.abs (p1 * m - n * q1) = d)%Z).
  { replace (p1 * m - n * q1)%Z with (s * d)%Z by lia. rewrite Z.abs_mul, Hs. lia. }
  assert (A1 : (Z.abs (P * m - n * Q) = k)%Z).
  { replace (P * m - n * Q)%Z with (- (s * k))%Z by lia. rewrite Z.abs_opp, Z.abs_mul, Hs. lia. }
  rewrite A1, A2.
  set (u := (p * q1 - p1 * q)%Z) in *. set (w := (p * Q - P * q)%Z) in *.
  set (e := (p * m - n * q)%Z) in *.
  assert (S : (s = 1 \/ s = -1)%Z) by lia.
  assert (MUL : forall x y z t : Z, (0 < z)%Z -> (0 < m)%Z -> (x * y <= Z.abs e * z)%Z -> t = m ->
    (x * (y * t) <= Z.abs e * (z * t))%Z).
  { clear. intros x y z t Hz Hm H ->. replace (x * (y * m))%Z with (x * y * m)%Z by ring.
    replace (Z.abs e * (z * m))%Z with (Z.abs e * z * m)%Z by ring. apply Z.mul_le_mono_nonneg_r; lia. }
  assert (SS : (s * s = 1)%Z) by (destruct S as [-> | ->]; reflexivity).
  assert (ABS : forall x, (s * x <= Z.abs x)%Z) by (clear - S; intros x; destruct S as [-> | ->]; lia).
  assert (ABS' : forall x, (- (s * x) <= Z.abs x)%Z) by (clear - S; intros x; destruct S as [-> | ->]; lia).
  destruct (Z_le_gt_dec 0 (s * u)) as [U|U].
  - left. apply MUL; auto.
    replace (Z.abs e * q1)%Z with (Z.abs (e * q1)) by (rewrite Z.abs_mul; lia).
    etransitivity; [|apply ABS]. rewrite I2.
    replace (s * (u * m + s * d * q))%Z with (s * u * m + s * s * (d * q))%Z by ring. rewrite SS.
    assert (0 <= s * u * m)%Z by (apply Z.mul_nonneg_nonneg; lia). lia.
  - destruct (Z_le_gt_dec (s * w) 0) as [W|W].
    + right. apply MUL; auto.
      replace (Z.abs e * Q)%Z with (Z.abs (e * Q)) by (rewrite Z.abs_mul; lia).
      etransitivity; [|apply ABS']. rewrite I1.
      replace (- (s * (w * m - s * k * q)))%Z with (- (s * w) * m + s * s * (k * q))%Z by ring. rewrite SS.
      assert (0 <= - (s * w) * m)%Z by (apply Z.mul_nonneg_nonneg; lia). lia.
    + exfalso. replace (s * (w * q1 - u * Q))%Z with (s * w * q1 + - (s * u) * Q)%Z in EQ by ring.
      assert (q1 <= s * w * q1)%Z by (clear - W Hq1; nia).
      assert (Q <= - (s * u) * Q)%Z by (clear - U HQ; nia). lia.
Qed.

Theorem limit_denominator_best : forall n d dmax : Z,
  (0 < d)%Z -> Z.gcd n d = 1%Z -> (1 <= dmax)%Z ->
  exists a b, limit_denominator (n, d) dmax = Ok (a, b) /\ best_approx (IZR n / IZR d) dmax a b.
Proof.
  intros n d dmax Hd G Hm. unfold limit_denominator. cbn [fst snd].
  destruct (Z.ltb_spec dmax 1); [lia|].
  destruct (Z.leb_spec d dmax).
  { exists n, d. split; [reflexivity|]. split; [lia|]. split; [exact G|]. intros p q _.
    rewrite Rminus_diag_eq by reflexivity. rewrite Rabs_R0. apply Rabs_pos. }
  destruct (limit_loop_spec n d dmax Hd G) with (fuel := S (Z.to_nat d)) (p0 := 0%Z) (q0 := 1%Z) (p1 := 1%Z)
    (q1 := 0%Z) (n := n) (d := d) as (p0 & q0 & p1 & q1 & n' & d' & E & Hd' & E1 & E2 & DET & B0 & B1 & BR & LT);
    try lia.
  rewrite E. cbn [bind]. destruct (Z.eqb_spec q1 0); [lia|].
  set (k := ((dmax - q0) / q1)%Z). set (P := (p0 + k * p1)%Z). set (Q := (q0 + k * q1)%Z).
  assert (K0 : (0 <= k)%Z) by (apply Z.div_pos; lia).
  assert (KB : (k * q1 <= dmax - q0 < (k + 1) * q1)%Z).
  { pose proof (Z.div_mod (dmax - q0) q1 ltac:(lia)). pose proof (Z.mod_pos_bound (dmax - q0) q1 ltac:(lia)).
    fold k in H1. nia. }
  assert (KA : (k < n' / d')%Z) by nia.
  assert (KD : (k * d' < n')%Z).
  { pose proof (Z.div_mod n' d' ltac:(lia)). pose proof (Z.mod_pos_bound n' d' ltac:(lia)). nia. }
  set (s := (p1 * q0 - p0 * q1)%Z) in *.
  assert (DT : (p1 * Q - P * q1 = s)%Z) by (unfold P, Q, s; ring).
  assert (HQ : (0 < Q)%Z).
  { unfold Q. destruct (Z.eq_dec k 0) as [Z0|Z0]; [|nia]. rewrite Z0.
    destruct (Z.eq_dec q0 0) as [Z1|Z1]; [|lia].
    exfalso. rewrite Z0, Z1 in KB. assert (q1 = 1)%Z by (unfold s in DET; rewrite Z1 in DET; nia). lia. }
  assert (F2 : frac p1 q1 = (p1, q1)).
  { apply frac_coprime; [lia|]. apply (det_gcd p1 q1 p0 q0). exact DET. }
  assert (F1 : frac P Q = (P, Q)).
  { apply frac_coprime; [lia|]. apply (det_gcd P Q p1 q1). rewrite <- DET, <- DT.
    rewrite <- Z.abs_opp. f_equal. ring. }
  rewrite F1, F2.
  assert (X2 : (n * q1 - p1 * d = - (s * d'))%Z).
  { rewrite E1 at 1. rewrite E2. unfold s. ring. }
  assert (X1 : (n * Q - P * d = s * (n' - k * d'))%Z).
  { rewrite E1 at 1. rewrite E2. unfold s, P, Q. ring. }
  assert (OUT : forall p q, (0 < q <= dmax)%Z ->
    Rabs (IZR p1 / IZR q1 - IZR n / IZR d) <= Rabs (IZR p / IZR q - IZR n / IZR d) \/
    Rabs (IZR P / IZR Q - IZR n / IZR d) <= Rabs (IZR p / IZR q - IZR n / IZR d)).
  { intros p q Hq.
    assert (Q1 : (0 < q1)%Z) by lia. assert (Q2 : (0 < q)%Z) by lia.
    destruct (outside p q p1 q1 P Q s n d' (n' - k * d') d) as [C|C]; auto; try lia.
    - left. apply closer_spec; auto. unfold closer. cbn [fst snd]. apply Z.leb_le. exact C.
    - right. apply closer_spec; auto. unfold closer. cbn [fst snd]. apply Z.leb_le. exact C. }
  destruct (closer (p1, q1) (n, d) (P, Q)) eqn:C.
  - exists p1, q1. split; [reflexivity|]. split; [lia|]. split.
    + apply (det_gcd p1 q1 p0 q0). exact DET.
    + intros p q Hq. apply closer_spec in C; try lia. destruct (OUT p q Hq); lra.
  - exists P, Q. split; [reflexivity|]. split; [unfold Q in *; lia|]. split.
    + apply (det_gcd P Q p1 q1). rewrite <- DET, <- DT. rewrite <- Z.abs_opp. f_equal. ring.
    + intros p q Hq.
      assert (C' : ~ Rabs (IZR p1 / IZR q1 - IZR n / IZR d) <= Rabs (IZR P / IZR Q - IZR n / IZR d)).
      { intros H1. apply closer_spec in H1; try lia. congruence. }
      destruct (OUT p q Hq); lra.
Qed.
Print Assumptions limit_denominator_best.
