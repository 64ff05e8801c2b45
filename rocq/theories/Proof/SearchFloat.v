(** Rounding errors of a whole search: lemmas. *)
From Coq Require Import List Arith ZArith Bool Lia Reals Lra Psatz.
From Flocq Require Import Core Relative.
From Verif Require Import Base.Result Base.Buf Base.Num Model.Transforms Model.Downsample Spec.Sums Spec.Overlap
  Spec.Boxcar Spec.FfaSpec Spec.Noise Proof.Index Proof.Transforms Proof.Ffa Proof.Downsample Proof.Snr Proof.Rounding
  Proof.DownsampleFloat.
Import ListNotations.
Local Open Scope R_scope.

(** ** the best response is a Lipschitz function of the profile *)
Lemma template_size n w phi t i : (phi < n)%nat -> (0 < w < n)%nat -> boxcar_template n w phi t ->
  (i < n)%nat -> Rabs (t i) <= bh n w + bb n w.
Proof.
  intros Hp Hw (hi & lo & H0 & Ht & Hs & Hq) Hi.
  destruct (bh_facts n w Hw) as (B1 & B2 & _).
  destruct (template_unique n w phi t hi lo) as [-> ->]; auto.
  rewrite Ht by auto. destruct (in_window n phi w i).
  - rewrite Rabs_pos_eq; lra.
  - rewrite Rabs_Ropp, Rabs_pos_eq; lra.
Qed.

Lemma best_le (x y : list R) w v v' : length y = length x -> (0 < w < length x)%nat ->
  best_response x w v -> best_response y w v' ->
  v <= v' + (bh (length x) w + bb (length x) w) * rsum (length x) (fun i => Rabs (nth i x 0 - nth i y 0)).
Proof.
  intros L Hw [(phi & t & Hp & Ht & E) _] [_ M]. rewrite L in M. specialize (M phi t Hp Ht).
  enough (inner (length x) (fun i => nth i x 0) t - inner (length x) (fun i => nth i y 0) t <=
    (bh (length x) w + bb (length x) w) * rsum (length x) (fun i => Rabs (nth i x 0 - nth i y 0))) by lra.
  unfold inner. rewrite <- rsum_minus, <- rsum_scal. apply rsum_le. intros i Hi.
  pose proof (template_size _ _ _ _ i Hp Hw Ht Hi) as B.
  replace (nth i x 0 * t i - nth i y 0 * t i) with ((nth i x 0 - nth i y 0) * t i) by ring.
  eapply Rle_trans; [apply Rle_abs|]. rewrite Rabs_mult, Rmult_comm.
  apply Rmult_le_compat_r; [apply Rabs_pos|exact B].
Qed.

Lemma best_change (x y : list R) w v v' : length y = length x -> (0 < w < length x)%nat ->
  best_response x w v -> best_response y w v' ->
  Rabs (v - v') <= (bh (length x) w + bb (length x) w) * rsum (length x) (fun i => Rabs (nth i x 0 - nth i y 0)).
Proof.
  intros L Hw H H'. pose proof (best_le x y w v v' L Hw H H') as A.
  pose proof (best_le y x w v' v (eq_sym L) ltac:(now rewrite L) H' H) as B. rewrite L in B.
  rewrite (rsum_ext _ (fun i => Rabs (nth i y 0 - nth i x 0)) (fun i => Rabs (nth i x 0 - nth i y 0))) in B
    by (intros; apply Rabs_minus_sym).
  apply Rabs_le. lra.
Qed.

Lemma best_size (x : list R) w v : (0 < w < length x)%nat -> best_response x w v ->
  Rabs v <= (bh (length x) w + bb (length x) w) * rsum (length x) (fun i => Rabs (nth i x 0)).
Proof.
  intros Hw [(phi & t & Hp & Ht & E) _]. rewrite <- E. unfold inner.
  eapply Rle_trans; [apply rsum_abs|]. rewrite <- rsum_scal. apply rsum_le. intros i Hi.
  rewrite Rabs_mult, Rmult_comm. apply Rmult_le_compat_r; [apply Rabs_pos|]. now apply (template_size _ w phi).
Qed.

Lemma best_exists (x : list R) w : (0 < w < length x)%nat -> exists v, best_response x w v.
Proof.
  intros Hw. set (n := length x).
  set (r := fun phi => (bh n w + bb n w) * window_sum n phi w (fun j => nth (0 + j) x 0)
              - bb n w * rsum n (fun j => nth (0 + j) x 0)).
  assert (G : forall m, (0 < m)%nat -> exists phi, (phi < m)%nat /\ forall p, (p < m)%nat -> r p <= r phi).
  { induction m as [|m IH]; [lia|]. intros _. destruct m as [|m].
    - exists 0%nat. split; [lia|]. intros p Hp. replace p with 0%nat by lia. lra.
    - destruct IH as (phi & Hp & M); [lia|]. destruct (Rle_dec (r (S m)) (r phi)).
      + exists phi. split; [lia|]. intros p Hp'. destruct (Nat.eq_dec p (S m)) as [->|]; auto. apply M. lia.
      + exists (S m). split; [lia|]. intros p Hp'. destruct (Nat.eq_dec p (S m)) as [->|]; [lra|].
        specialize (M p ltac:(lia)). lra. }
  destruct (G n ltac:(unfold n; lia)) as (phi & Hp & M). exists (r phi). apply is_resp_best; auto.
  split; [exists phi; split; auto|exact M].
Qed.

(** ** folding *)
Lemma rsum_rows (rows b : nat) g : rsum (rows * b) g = rsum rows (fun r => rsum b (fun c => g (r * b + c)%nat)).
Proof.
  induction rows as [|m IH]; cbn [rsum Nat.mul]; [reflexivity|].
  rewrite Nat.add_comm, rsum_split, IH. reflexivity.
Qed.

Lemma rsum_fold (rows b : nat) (sh : nat -> nat) g : (1 <= b)%nat ->
  rsum b (fun c => rsum rows (fun r => g (r * b + (c + sh r) mod b)%nat)) = rsum (rows * b) g.
Proof.
  intros Hb. rewrite rsum_swap, rsum_rows. apply rsum_ext. intros r _.
  apply (rsum_rot b (sh r) (fun c => g (r * b + c)%nat)). lia.
Qed.

(** [y] is within [d] of [Y]; the profile of [y] in single precision and the profile of [Y] *)
Lemma fold_error (rows b : nat) (sh : nat -> nat) (y Y d : nat -> R) (prof : nat -> R) L :
  (1 <= rows)%nat -> (1 <= b)%nat ->
  (forall k, (k < rows * b)%nat -> F32 (y k) /\ Rabs (y k - Y k) <= d k) ->
  (forall c, (c < b)%nat -> prof c = teval (fun p q => rnd32 (p + q))
     (fun r => y (r * b + (c + sh r) mod b)%nat) (mtree (S rows) 0 rows)) ->
  L = (1 + u32) ^ Nat.log2_up rows ->
  let T := rsum (rows * b) (fun k => Rabs (Y k)) in let D := rsum (rows * b) d in
  (forall c, (c < b)%nat -> F32 (prof c)) /\
  rsum b (fun c => Rabs (prof c - rsum rows (fun r => Y (r * b + (c + sh r) mod b)%nat))) <= L * (T + D) - T /\
  rsum b (fun c => Rabs (prof c)) <= L * (T + D).
Proof.
  intros Hr Hb Hy Hp HL T D.
  pose proof u32_pos as U.
  assert (HL1 : 1 <= L) by (rewrite HL; apply pow_R1_Rle; lra).
  assert (Hk : forall c r, (c < b)%nat -> (r < rows)%nat -> (r * b + (c + sh r) mod b < rows * b)%nat).
  { intros c r Hc Hr'. pose proof (Nat.mod_upper_bound (c + sh r) b ltac:(lia)). nia. }
  assert (C : forall c, (c < b)%nat -> F32 (prof c) /\
    Rabs (prof c - rsum rows (fun r => Y (r * b + (c + sh r) mod b)%nat))
      <= (L - 1) * rsum rows (fun r => Rabs (y (r * b + (c + sh r) mod b)%nat))
         + rsum rows (fun r => d (r * b + (c + sh r) mod b)%nat)).
  { intros c Hc.
    destruct (tree_error (generic_format radix2 (FLT_exp (-149) 24)) (fun a b => rnd32 (a + b)) u32
      ltac:(lra) rnd32_plus_error (fun r => y (r * b + (c + sh r) mod b)%nat)
      (mtree (S rows) 0 rows) (Nat.log2_up rows)) as (F & B & _).
    { apply depth_mtree. lia. }
    { intros r Hin. rewrite leaves_mtree in Hin by lia. apply in_seq in Hin. apply Hy, Hk; lia. }
    rewrite <- Hp in F, B by auto. split; [exact F|]. rewrite !teval_rsum in B by lia. rewrite <- HL in B.
    cbn [Nat.add] in B.
    match goal with |- Rabs (?p - ?Q) <= _ => match type of B with Rabs (p - ?q) <= _ =>
      replace (p - Q) with ((p - q) + (q - Q)) by ring end end.
    eapply Rle_trans; [apply Rabs_triang|]. apply Rplus_le_compat; [exact B|].
    rewrite <- rsum_minus. eapply Rle_trans; [apply rsum_abs|]. apply rsum_le. intros r Hr'. apply Hy, Hk; auto. }
  split; [intros; now apply C|].
  assert (S1 : rsum b (fun c => Rabs (prof c - rsum rows (fun r => Y (r * b + (c + sh r) mod b)%nat)))
    <= L * (T + D) - T).
  { eapply Rle_trans; [apply rsum_le; intros c Hc; apply C; exact Hc|].
    rewrite rsum_plus, rsum_scal, (rsum_fold rows b sh (fun k => Rabs (y k))), (rsum_fold rows b sh d) by auto.
    fold D. assert (rsum (rows * b) (fun k => Rabs (y k)) <= T + D).
    { unfold T, D. rewrite <- rsum_plus. apply rsum_le. intros k Hk'. destruct (Hy k Hk') as [_ E].
      replace (y k) with (Y k + (y k - Y k)) by ring. eapply Rle_trans; [apply Rabs_triang|]. lra. }
    assert ((L - 1) * rsum (rows * b) (fun k => Rabs (y k)) <= (L - 1) * (T + D)) by (apply Rmult_le_compat_l; lra).
    lra. }
  split; [exact S1|].
  apply Rle_trans with (rsum b (fun c => Rabs (prof c - rsum rows (fun r => Y (r * b + (c + sh r) mod b)%nat))
     + rsum rows (fun r => Rabs (Y (r * b + (c + sh r) mod b)%nat)))).
  - apply rsum_le. intros c Hc.
    set (q := rsum rows (fun r => Y (r * b + (c + sh r) mod b)%nat)).
    replace (prof c) with ((prof c - q) + q) at 1 by ring.
    eapply Rle_trans; [apply Rabs_triang|]. apply Rplus_le_compat_l. apply rsum_abs.
  - rewrite rsum_plus, (rsum_fold rows b sh (fun k => Rabs (Y k))) by auto. fold T. lra.
Qed.

(** ** the sums of the absolute values of the downsampled samples *)
Lemma ds_abs_total (x : list R) f n : 1 <= f ->
  rsum n (fun k => ds_abs x f k) <= rsum (length x) (fun i => Rabs (nth i x 0)).
Proof.
  intros Hf. unfold ds_abs. rewrite rsum_swap. apply rsum_le. intros i Hi.
  rewrite (rsum_ext n _ (fun k => Rabs (nth i x 0) * weight i (INR k * f) ((INR k + 1) * f))).
  2:{ intros k _. rewrite Rabs_mult, (Rabs_pos_eq (weight _ _ _)); auto. apply weight_nonneg. }
  rewrite rsum_scal, weight_steps by lra.
  rewrite <- (Rmult_1_r (Rabs (nth i x 0))) at 2. apply Rmult_le_compat_l; [apply Rabs_pos|].
  pose proof (pos_INR i). minmax.
Qed.

(** ** the noise *)
Lemma rnd64_err x : Rabs (rnd64 x - x) <= u64 * Rabs x + bpow radix2 (-1075).
Proof.
  destruct (error_N_FLT radix2 (-1074) 53 eq_refl (fun z => negb (Z.even z)) x)
    as (eps & eta & He & Ht & _ & E).
  change (round radix2 fexp64 (Znearest (fun z => negb (Z.even z))) x) with (rnd64 x) in E.
  rewrite E. replace (x * (1 + eps) + eta - x) with (eps * x + eta) by ring.
  eapply Rle_trans; [apply Rabs_triang|]. apply Rplus_le_compat.
  - rewrite Rabs_mult. apply Rmult_le_compat_r; [apply Rabs_pos|].
    eapply Rle_trans; [exact He|]. unfold u64. cbn. lra.
  - eapply Rle_trans; [exact Ht|].
    replace (bpow radix2 (-1075)) with (/ 2 * bpow radix2 (-1074)); [lra|].
    change (/ 2) with (bpow radix2 (-1)). rewrite <- bpow_plus. reflexivity.
Qed.

(** values of size up to [B] *)
Lemma rnd64_abs x B : / 2 <= B -> Rabs x <= B -> Rabs (rnd64 x - x) <= 2 * u64 * B.
Proof.
  intros HB Hx. eapply Rle_trans; [apply rnd64_err|].
  assert (bpow radix2 (-1075) <= u64 * / 2).
  { apply Rle_trans with (bpow radix2 (-54)); [apply bpow_le; lia|]. unfold u64. cbn. lra. }
  assert (u64 * Rabs x <= u64 * B) by (apply Rmult_le_compat_l; auto; unfold u64; lra).
  assert (u64 * / 2 <= u64 * B) by (apply Rmult_le_compat_l; auto; unfold u64; lra). lra.
Qed.

Lemma noise_variance_low n f V : 1 <= f -> noise_variance n f V -> 5 / 8 <= V.
Proof.
  intros Hf [[H ->]|[H ->]]; [lra|]. set (x := INR n * _). set (k := IZR (Zfloor f)).
  assert (0 <= (k - 1) ^ 2) by apply pow2_ge_0. assert (0 <= (x - 3 / 4) ^ 2) by apply pow2_ge_0. lra.
Qed.

Lemma u52 : / 2 ^ 52 = 2 * u64.
Proof. unfold u64. replace (2 ^ 52) with 4503599627370496 by (rewrite pow_IZR; reflexivity). lra. Qed.

Lemma variance_F bld (size : nat) f : (Z.of_nat size <= 33554432)%Z -> F64 f -> 1 <= f <= INR size ->
  let n := downsampled_size (numF bld) size f in
  exists V, noise_variance n f V /\
    Rabs (downsampled_variance (numF bld) size f - V) <= 80 * u64 * V.
Proof.
  intros HN Ff Hf n.
  assert (NR : INR size <= 33554432) by (rewrite INR_IZR_INZ; apply (IZR_le _ 33554432); lia).
  unfold downsampled_variance. fold n. cbn [numF opsF n_floor n_dbl n_ltb o_ofZ o_sub o_mul o_div o_mad o_add].
  set (k := Zfloor f).
  assert (Hk : (1 <= k <= 33554432)%Z).
  { unfold k. split; [apply Zfloor_lub; lra|]. apply le_IZR. eapply Rle_trans; [apply Zfloor_lb|lra]. }
  assert (HkR : 1 <= IZR k <= 33554432) by (split; [apply (IZR_le 1)|apply (IZR_le _ 33554432)]; lia).
  rewrite !(rnd64_id (IZR k)) by (apply F64_int; lia).
  rewrite (rnd64_id 1), (rnd64_id 3), (rnd64_id 2) by (apply F64_int; lia).
  assert (Hr : 0 <= f - IZR k < 1).
  { pose proof (Zfloor_lb f) as A. pose proof (Zfloor_ub f) as B. fold k in A, B. lra. }
  assert (Hfr : rnd64 (f - IZR k) = f - IZR k).
  { apply rnd64_id. apply (frac_exact f k Ff); [right; lra|]. rewrite Rabs_pos_eq; lra. }
  rewrite Hfr. set (r := f - IZR k) in *.
  assert (Hn : (n <= size)%nat).
  { destruct (Req_dec f 1) as [->|].
    - unfold n, downsampled_size. cbn [numF opsF n_floor n_dbl o_div o_ofZ]. unfold Rdiv. rewrite Rinv_1, Rmult_1_r.
      rewrite <- INR_IZR_INZ. rewrite !(rnd64_id (INR size)) by (rewrite INR_IZR_INZ; apply F64_int; lia).
      rewrite INR_IZR_INZ, Zfloor_IZR. lia.
    - destruct (size_F bld size f HN Ff ltac:(lra)) as (_ & _ & A). fold n in A. lia. }
  rewrite <- !INR_IZR_INZ. rewrite (rnd64_id (INR n)) by (rewrite INR_IZR_INZ; apply F64_int; lia).
  set (x := INR n * r).
  assert (Hx0 : 0 <= x) by (apply Rmult_le_pos; [apply pos_INR|lra]).
  assert (R1 : forall y, 1 <= y -> 1 <= rnd64 y).
  { intros y Hy. rewrite <- (rnd64_id 1) by (apply (F64_int 1); lia). now apply rnd64_le. }
  destruct (Rlt_bool_spec 1 (rnd64 x)) as [Hx|Hx].
  - exists (f - 1 / 3). split.
    + left. fold k r x. split; auto. destruct (Rle_dec x 1) as [C|C]; [|lra]. exfalso.
      assert (rnd64 x <= 1); [|lra]. rewrite <- (rnd64_id 1) by (apply (F64_int 1); lia). now apply rnd64_le.
    + pose proof (rnd64_abs (1 / 3) (/ 2) ltac:(lra) ltac:(rewrite Rabs_pos_eq; lra)) as A.
      set (t := rnd64 (1 / 3)) in *. apply Rabs_le_inv in A.
      pose proof (rnd64_abs (f - t) f ltac:(lra)) as B. unfold u64 in *.
      specialize (B ltac:(apply Rabs_le; lra)). apply Rabs_le_inv in B. apply Rabs_le. lra.
  - set (km := IZR k - 1).
    assert (Km : rnd64 km = km).
    { apply rnd64_id. unfold km. replace (IZR k - 1) with (IZR (k - 1)) by now rewrite minus_IZR. apply F64_int. lia. }
    rewrite !Km.
    assert (K2 : rnd64 (km * km) = km * km).
    { apply rnd64_id. unfold km. replace ((IZR k - 1) * (IZR k - 1)) with (IZR ((k - 1) * (k - 1)))
        by (rewrite mult_IZR, !minus_IZR; ring). apply F64_int. nia. }
    rewrite K2.
    assert (Hx1 : x <= 1 + 2 * u64).
    { destruct (Rle_dec x 1) as [C|C]; [unfold u64; lra|]. apply Rnot_le_lt in C.
      pose proof (rnd64_rel x ltac:(lra) (or_intror (Rlt_le _ _ C))) as A. apply Rabs_le_inv in A. unfold u64 in *. lra. }
    exists (km ^ 2 + 2 / 3 * x ^ 2 - x + 1). split.
    + right. fold k r x. rewrite u52. split; auto.
    + set (K := km * km). replace (km ^ 2) with K by (unfold K; ring).
      assert (HK : 0 <= K <= 1125899906842624) by (unfold K, km; nra).
      pose proof (rnd64_abs x 2 ltac:(lra)) as A1. unfold u64 in *.
      specialize (A1 ltac:(rewrite Rabs_pos_eq; lra)). set (xh := rnd64 x) in *. apply Rabs_le_inv in A1.
      assert (Hh0 : 0 <= xh).
      { unfold xh. rewrite <- (rnd64_id 0) by apply generic_format_0. now apply rnd64_le. }
      assert (X2 : Rabs (xh * xh - x * x) <= 12 * / 9007199254740992).
      { replace (xh * xh - x * x) with ((xh - x) * (xh + x)) by ring. rewrite Rabs_mult.
        rewrite (Rabs_pos_eq (xh + x)) by lra.
        apply Rle_trans with (4 * / 9007199254740992 * 3); [|lra].
        apply Rmult_le_compat; [apply Rabs_pos|lra|apply Rabs_le; lra|lra]. }
      apply Rabs_le_inv in X2.
      assert (XX : 0 <= xh * xh <= 1) by nra.
      pose proof (rnd64_abs (xh * xh) 1 ltac:(lra) ltac:(rewrite Rabs_pos_eq; lra)) as A2.
      set (xx := rnd64 (xh * xh)) in *. unfold u64 in A2. apply Rabs_le_inv in A2.
      pose proof (rnd64_abs (2 / 3) 1 ltac:(lra) ltac:(rewrite Rabs_pos_eq; lra)) as A3.
      set (tt := rnd64 (2 / 3)) in *. unfold u64 in A3. apply Rabs_le_inv in A3.
      assert (P1 : Rabs (tt * xx - 2 / 3 * (x * x)) <= 20 * / 9007199254740992).
      { replace (tt * xx - 2 / 3 * (x * x)) with ((tt - 2 / 3) * xx + 2 / 3 * (xx - x * x)) by ring.
        eapply Rle_trans; [apply Rabs_triang|]. rewrite !Rabs_mult.
        assert (Rabs (tt - 2 / 3) * Rabs xx <= 2 * / 9007199254740992 * 2).
        { apply Rmult_le_compat; try apply Rabs_pos; apply Rabs_le; lra. }
        assert (Rabs (xx - x * x) <= 14 * / 9007199254740992) by (apply Rabs_le; lra).
        rewrite (Rabs_pos_eq (2 / 3)) by lra. lra. }
      apply Rabs_le_inv in P1.
      assert (XB : 0 <= x * x <= 1.5) by nra.
      set (m := if b_fma bld then rnd64 (tt * xx + K) else rnd64 (rnd64 (tt * xx) + K)).
      assert (M : Rabs (m - (2 / 3 * (x * x) + K)) <= (26 + 2 * K) * / 9007199254740992).
      { unfold m. destruct (b_fma bld).
        - pose proof (rnd64_abs (tt * xx + K) (K + 2) ltac:(lra)) as Q. unfold u64 in Q.
          specialize (Q ltac:(apply Rabs_le; lra)). apply Rabs_le_inv in Q. apply Rabs_le. lra.
        - pose proof (rnd64_abs (tt * xx) 1 ltac:(lra) ltac:(apply Rabs_le; lra)) as Q. unfold u64 in Q.
          set (p := rnd64 (tt * xx)) in *. apply Rabs_le_inv in Q.
          pose proof (rnd64_abs (p + K) (K + 2) ltac:(lra)) as Q2. unfold u64 in Q2.
          specialize (Q2 ltac:(apply Rabs_le; lra)). apply Rabs_le_inv in Q2. apply Rabs_le. lra. }
      apply Rabs_le_inv in M. fold m.
      pose proof (rnd64_abs (m - xh) (K + 3) ltac:(lra)) as Q3. unfold u64 in Q3.
      specialize (Q3 ltac:(apply Rabs_le; lra)). set (s := rnd64 (m - xh)) in *. apply Rabs_le_inv in Q3.
      pose proof (rnd64_abs (s + 1) (K + 5) ltac:(lra)) as Q4. unfold u64 in Q4.
      specialize (Q4 ltac:(apply Rabs_le; lra)). apply Rabs_le_inv in Q4.
      pose proof (Rle_0_sqr (x - 3 / 4)) as SQ. unfold Rsqr in SQ.
      replace (x ^ 2) with (x * x) by ring. apply Rabs_le. lra.
Qed.

Lemma noise_F bld (size rows : nat) f :
  (Z.of_nat size <= 33554432)%Z -> F64 f -> 1 <= f <= INR size -> (1 <= rows)%nat -> (rows <= size)%nat ->
  let n := downsampled_size (numF bld) size f in
  let sd := rnd32 (rnd64 (R_sqrt.sqrt (rnd64 (INR rows * downsampled_variance (numF bld) size f)))) in
  exists V, noise_variance n f V /\
    Rabs (sd - R_sqrt.sqrt (INR rows * V)) <= 3 / 2 * u32 * R_sqrt.sqrt (INR rows * V).
Proof.
  intros HN Ff Hf Hr Hrs n sd.
  destruct (variance_F bld size f HN Ff Hf) as (V & HV & EV). fold n in HV.
  exists V. split; [exact HV|]. pose proof (noise_variance_low n f V ltac:(lra) HV) as V0.
  set (v := downsampled_variance (numF bld) size f) in *. change (n_T (numF bld)) with R in v.
  assert (R1 : 1 <= INR rows) by (apply (le_INR 1); lia).
  set (W := INR rows * V). set (w := INR rows * v) in *.
  assert (W0 : 5 / 8 <= W) by (unfold W; nra).
  assert (A0 : app (/ 100) W 0 w W).
  { split; [rewrite Rabs_pos_eq; lra|]. unfold w, W. rewrite <- Rmult_minus_distr_l, Rabs_mult, (Rabs_pos_eq (INR rows)) by lra.
    rewrite Rplus_0_r. replace (/ 100 * u32 * (INR rows * V)) with (INR rows * (/ 100 * u32 * V)) by ring.
    apply Rmult_le_compat_l; [lra|]. eapply Rle_trans; [exact EV|]. apply Rmult_le_compat_r; [lra|]. unfold u64, u32. lra. }
  assert (D : forall c a x, 0 <= c <= 10 -> / 2 <= x -> app c x 0 a x -> app (c + / 100) x 0 (rnd64 a) x).
  { intros c a x Hc Hx HA. pose proof (app_size _ _ _ _ _ HA) as S. destruct HA as [B1 B2]. split; auto.
    rewrite Rplus_0_r in *. replace (rnd64 a - x) with ((rnd64 a - a) + (a - x)) by ring.
    eapply Rle_trans; [apply Rabs_triang|].
    assert (Ha : Rabs a <= 2 * x).
    { eapply Rle_trans; [exact S|]. apply Rmult_le_compat_r; [lra|]. unfold u32. lra. }
    pose proof (rnd64_abs a (2 * x) ltac:(lra) Ha) as E. unfold u64, u32 in *. lra. }
  apply D in A0; try lra. set (q := rnd64 w) in *.
  apply app_sqrt in A0; try lra.
  assert (SW : / 2 <= R_sqrt.sqrt W).
  { rewrite <- (sqrt_square (/ 2)) by lra. apply sqrt_le_1_alt. lra. }
  apply D in A0; try lra. apply app_rnd_normal in A0; try lra.
  2:{ apply Rle_trans with (bpow radix2 (-1)); [apply bpow_le; lia|]. exact SW. }
  apply (app_weaken _ (3 / 2) _ 0 0) in A0; try lra.
  destruct A0 as [_ A0]. rewrite Rplus_0_r in A0. exact A0.
Qed.

(** ** the periods *)
Definition rel64 (c a x : R) : Prop := Rabs (a - x) <= c * u64 * x.

Lemma rel64_scale c a x k : 0 <= k -> rel64 c a x -> rel64 c (a * k) (x * k).
Proof.
  unfold rel64. intros Hk H. rewrite <- Rmult_minus_distr_r, Rabs_mult, (Rabs_pos_eq k) by auto.
  rewrite <- Rmult_assoc. now apply Rmult_le_compat_r.
Qed.

Lemma rel64_rnd c a x : 0 <= c <= 100 -> bpow radix2 (-1000) <= x -> rel64 c a x -> rel64 (c + 1 + / 10) (rnd64 a) x.
Proof.
  unfold rel64. intros Hc Hx H. apply Rabs_le_inv in H.
  assert (x0 : 0 < x) by (pose proof (bpow_gt_0 radix2 (-1000)); lra).
  assert (C : c * u64 * x <= / 100 * x) by (apply Rmult_le_compat_r; [lra|]; unfold u64; lra).
  assert (Ha : bpow radix2 (-1022) <= Rabs a).
  { rewrite Rabs_pos_eq by lra. apply Rle_trans with (/ 2 * bpow radix2 (-1000)); [|lra].
    change (/ 2) with (bpow radix2 (-1)). rewrite <- bpow_plus. apply bpow_le. lia. }
  pose proof (relative_error_N_FLT radix2 (-1074) 53 eq_refl (fun z => negb (Z.even z)) a Ha) as E.
  change (round radix2 fexp64 (Znearest _) a) with (rnd64 a) in E. rewrite (Rabs_pos_eq a) in E by lra.
  replace (/ 2 * bpow radix2 (- (53) + 1) * a) with (u64 * a) in E by (cbn; unfold u64; lra).
  replace (rnd64 a - x) with ((rnd64 a - a) + (a - x)) by ring.
  eapply Rle_trans; [apply Rabs_triang|].
  assert (u64 * a <= u64 * ((1 + / 100) * x)) by (apply Rmult_le_compat_l; [unfold u64|]; lra).
  assert (Rabs (a - x) <= c * u64 * x) by (apply Rabs_le; lra).
  assert (0 <= u64 * x) by (apply Rmult_le_pos; [unfold u64|]; lra). lra.
Qed.

Lemma rel64_div c a x k e d : 0 <= c <= 100 -> 0 <= k <= 100 -> 0 < x -> 0 < d ->
  rel64 c a x -> rel64 k e d -> rel64 (c + k + / 10) (a / e) (x / d).
Proof.
  unfold rel64. intros Hc Hk Hx Hd Ha He.
  assert (Ck : k * u64 * d <= / 2 * d) by (apply Rmult_le_compat_r; [lra|]; unfold u64; lra).
  assert (E0 : / 2 * d <= e) by (apply Rabs_le_inv in He; lra).
  replace (a / e - x / d) with (((a - x) * d - x * (e - d)) * / (e * d)) by (field; lra).
  assert (P : 0 < / (e * d)) by (apply Rinv_0_lt_compat, Rmult_lt_0_compat; lra).
  rewrite Rabs_mult, (Rabs_pos_eq (/ (e * d))) by lra.
  apply Rmult_le_reg_r with (e * d); [apply Rmult_lt_0_compat; lra|].
  rewrite Rmult_assoc, Rinv_l, Rmult_1_r by (apply Rgt_not_eq, Rmult_lt_0_compat; lra).
  apply Rle_trans with (c * u64 * x * d + x * (k * u64 * d)).
  - unfold Rminus at 1. eapply Rle_trans; [apply Rabs_triang|]. rewrite Rabs_Ropp, !Rabs_mult.
    rewrite (Rabs_pos_eq d), (Rabs_pos_eq x) by lra. apply Rplus_le_compat.
    + apply Rmult_le_compat_r; lra.
    + apply Rmult_le_compat_l; lra.
  - replace ((c + k + / 10) * u64 * (x / d) * (e * d)) with ((c + k + / 10) * u64 * (x * e)) by (field; lra).
    replace (c * u64 * x * d + x * (k * u64 * d)) with ((c + k) * u64 * (x * d)) by ring.
    assert (Hed : (1 - k * u64) * d <= e) by (apply Rabs_le_inv in He; lra).
    apply Rle_trans with ((c + k + / 10) * u64 * (x * ((1 - k * u64) * d))).
    + replace ((c + k + / 10) * u64 * (x * ((1 - k * u64) * d)))
        with (((c + k + / 10) * (1 - k * u64)) * (u64 * (x * d))) by ring.
      rewrite (Rmult_assoc (c + k)). apply Rmult_le_compat_r.
      * apply Rmult_le_pos; [unfold u64; lra|]. apply Rmult_le_pos; lra.
      * assert (k * (c + k + / 10) <= 100 * 201) by (apply Rmult_le_compat; lra). unfold u64. lra.
    + apply Rmult_le_compat_l; [apply Rmult_le_pos; unfold u64; lra|]. apply Rmult_le_compat_l; lra.
Qed.

Lemma period_F (f tsamp : R) (b rows s : nat) :
  1 <= f -> bpow radix2 (-1000) <= tsamp -> (2 <= b)%nat -> (2 <= rows)%nat -> (s < rows)%nat ->
  (Z.of_nat rows <= 33554432)%Z ->
  let P := f * tsamp * INR b ^ 2 / (INR b - INR s / (INR rows - 1)) in
  rel64 16 (rnd64 (rnd64 (rnd64 (rnd64 (f * tsamp) * INR b) * INR b)
               / rnd64 (INR b - rnd64 (INR s / rnd64 (INR rows - 1))))) P.
Proof.
  intros Hf Ht Hb Hr Hs Hr2 P.
  assert (B2 : 2 <= INR b) by (apply (le_INR 2); lia).
  assert (R2 : 2 <= INR rows) by (apply (le_INR 2); lia).
  assert (T0 : 0 < tsamp) by (pose proof (bpow_gt_0 radix2 (-1000)); lra).
  assert (Hr1 : rnd64 (INR rows - 1) = INR rows - 1).
  { apply rnd64_id. rewrite INR_IZR_INZ, <- minus_IZR. apply F64_int. lia. }
  rewrite Hr1. set (q := INR s / (INR rows - 1)).
  assert (Hq : 0 <= q <= 1).
  { assert (INR s <= INR rows - 1).
    { assert (INR s + 1 <= INR rows) by (rewrite <- S_INR; apply le_INR; lia). lra. }
    pose proof (pos_INR s). unfold q, Rdiv. split.
    - apply Rmult_le_pos; auto. left. apply Rinv_0_lt_compat. lra.
    - apply Rmult_le_reg_r with (INR rows - 1); [lra|]. rewrite Rmult_assoc, Rinv_l by lra. lra. }
  pose proof (rnd64_abs q 1 ltac:(lra) ltac:(rewrite Rabs_pos_eq; lra)) as A1.
  set (qh := rnd64 q) in *. apply Rabs_le_inv in A1.
  pose proof (rnd64_abs (INR b - qh) (INR b) ltac:(lra)) as A2.
  assert (Q0 : 0 <= qh).
  { unfold qh. rewrite <- (rnd64_id 0) by apply generic_format_0. apply rnd64_le. lra. }
  unfold u64 in A1. specialize (A2 ltac:(apply Rabs_le; lra)). unfold u64 in A2. apply Rabs_le_inv in A2.
  assert (Den : rel64 6 (rnd64 (INR b - qh)) (INR b - q)).
  { unfold rel64. apply Rabs_le. unfold u64. lra. }
  assert (Ft : tsamp <= f * tsamp) by nra.
  assert (N1 : rel64 (0 + 1 + / 10) (rnd64 (f * tsamp)) (f * tsamp)).
  { apply rel64_rnd; try lra. unfold rel64. replace (f * tsamp - f * tsamp) with 0 by ring. rewrite Rabs_R0. lra. }
  apply (rel64_scale _ _ _ (INR b)) in N1; [|lra].
  assert (F2 : tsamp <= f * tsamp * INR b) by nra.
  apply rel64_rnd in N1; try lra. apply (rel64_scale _ _ _ (INR b)) in N1; [|lra].
  assert (F3 : tsamp <= f * tsamp * INR b * INR b) by nra.
  apply rel64_rnd in N1; try lra.
  assert (N2 := rel64_div (0 + 1 + / 10 + 1 + / 10 + 1 + / 10) _ (f * tsamp * INR b * INR b) 6 _ (INR b - q)
    ltac:(lra) ltac:(lra) ltac:(lra) ltac:(lra) N1 Den).
  apply rel64_rnd in N2; try lra.
  - replace (f * tsamp * INR b * INR b / (INR b - q)) with P in N2 by (unfold P; fold q; field; lra).
    unfold rel64 in *. eapply Rle_trans; [exact N2|]. apply Rmult_le_compat_r.
    + unfold P. fold q. apply Rlt_le, Rdiv_lt_0_compat; [|lra]. replace (INR b ^ 2) with (INR b * INR b) by ring. nra.
    + unfold u64. lra.
  - apply Rle_trans with (tsamp * 1); [lra|].
    apply Rmult_le_reg_r with (INR b - q); [lra|]. unfold Rdiv. rewrite (Rmult_assoc _ (/ _)), Rinv_l by lra. nra.
Qed.
