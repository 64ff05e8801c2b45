(** C115, C116: normalise() and ffa_search() in floating point. *)
From Coq Require Import List Arith ZArith Bool Lia Reals Lra Psatz.
From Flocq Require Import Core.
From Verif Require Import Base.Result Base.Buf Base.Num Model.Transforms Model.Libffa Model.Periodogram Model.TimeSeries
  Model.Search Spec.Sums Spec.Overlap Spec.Noise Spec.Boxcar Spec.Pulse Spec.Libm
  Proof.Index Proof.Downsample Proof.Snr Proof.Detect Proof.Rounding Proof.SearchFloat Proof.NormFloat
  Props.Downsample Props.Snr Props.TimeSeries Props.PeriodogramFloat Props.SnrFloat Props.DownsampleFloat
  Props.PeriodogramRounding Props.Detect Props.DetectFloat Props.WidthsFloat.
Import ListNotations.
Local Open Scope R_scope.

(** sample [i] less the mean of the data, in units of their standard deviation *)
Definition standard (x : list R) (i : nat) : R := (nth i x 0 - rmean x) / sqrt (rvar x).

(** the relative accuracy of normalise() *)
Definition norm_accuracy (X s : R) : R := / 2 ^ 23 + / 2 ^ 25 * (X / s).

Lemma standard_sums (x : list R) : 0 < rvar x -> let n := length x in
  rsum n (standard x) = 0 /\ rsum n (fun i => standard x i * standard x i) = INR n /\
  rsum n (fun i => Rabs (standard x i)) <= INR n.
Proof.
  intros Hv n. pose proof (sqrt_lt_R0 _ Hv) as SP. pose proof (sqrt_sqrt (rvar x) ltac:(lra)) as SS.
  assert (N0 : 0 < INR n).
  { apply (lt_INR 0). destruct x; [|cbn; lia]. unfold rvar in Hv. cbn in Hv. unfold Rdiv in Hv. rewrite Rmult_0_l in Hv. lra. }
  assert (A1 : rsum n (standard x) = 0).
  { unfold standard. rewrite (rsum_ext _ _ (fun i => / sqrt (rvar x) * (nth i x 0 - rmean x))) by (intros; unfold Rdiv; ring).
    rewrite rsum_scal, rsum_minus, rsum_const. unfold rmean. fold n. field. lra. }
  assert (A2 : rsum n (fun i => standard x i * standard x i) = INR n).
  { rewrite (rsum_ext _ _ (fun i => / rvar x * (nth i x 0 - rmean x) ^ 2)).
    2:{ intros i Hi. unfold standard. replace (/ rvar x) with (/ (sqrt (rvar x) * sqrt (rvar x))) by (now rewrite SS). field. lra. }
    rewrite rsum_scal.
    assert (E : rsum n (fun i => (nth i x 0 - rmean x) ^ 2) = rvar x * INR n) by (unfold rvar; fold n; field; lra).
    rewrite E. field. lra. }
  split; [exact A1|]. split; [exact A2|].
  apply Rle_trans with (rsum n (fun i => / 2 * (standard x i * standard x i) + / 2)).
  - apply rsum_le. intros i Hi. set (z := standard x i).
    assert (0 <= (Rabs z - 1) * (Rabs z - 1)) by apply Rle_0_sqr.
    assert (Rabs z * Rabs z = z * z) by (rewrite <- Rabs_mult; apply Rabs_pos_eq; apply Rle_0_sqr). lra.
  - rewrite rsum_plus, rsum_scal, A2, rsum_const. lra.
Qed.

Lemma standard_max (x : list R) (i : nat) : 0 < rvar x -> (i < length x)%nat -> (Z.of_nat (length x) <= 33554432)%Z ->
  Rabs (standard x i) <= 5793.
Proof.
  intros Hv Hi HL. destruct (standard_sums x Hv) as (_ & S2 & _).
  pose proof (rsum_one_abs (length x) (fun i => standard x i * standard x i) i Hi) as H. cbv beta in H.
  rewrite (rsum_ext _ (fun k => Rabs (standard x k * standard x k)) (fun k => standard x k * standard x k)) in H
    by (intros; apply Rabs_pos_eq; apply Rle_0_sqr).
  rewrite S2, Rabs_mult in H.
  assert (INR (length x) <= 33554432) by (rewrite INR_IZR_INZ; now apply IZR_le).
  pose proof (Rabs_pos (standard x i)). nra.
Qed.

Lemma single_lower v : single v -> v <> 0 -> / 2 ^ 149 <= Rabs v.
Proof.
  intros Fv Hv. assert (H : bpow radix2 (-149) <= Rabs v).
  { apply generic_format_ge_bpow with (fexp := FLT_exp (-149) 24); auto.
    - intros e. unfold FLT_exp. lia.
    - now apply Rabs_pos_lt.
    - now apply generic_format_abs. }
  eapply Rle_trans; [|exact H]. right. change (-149)%Z with (- (149))%Z. rewrite bpow_opp. f_equal.
  rewrite <- (IZR_Zpower radix2) by lia. rewrite pow_IZR. f_equal.
Qed.

Lemma some_nonzero (x : list R) X u v : Forall single x -> (forall i, (i < length x)%nat -> Rabs (nth i x 0) <= X) ->
  In u x -> In v x -> u <> v -> / 2 ^ 149 <= X.
Proof.
  intros HF HX Hu Hv Hne. rewrite Forall_forall in HF.
  assert (Q : exists w, In w x /\ w <> 0).
  { destruct (Req_dec u 0) as [->|]; [exists v|exists u]; auto. }
  destruct Q as (w & Hw & W0). destruct (In_nth x w 0 Hw) as (i & Hi & E).
  apply Rle_trans with (2 := HX i Hi). rewrite E. apply single_lower; auto.
Qed.

(** C115.  normalise() on [float] samples of at most [X] whose standard deviation is at least
    [X 2^-20]: the mean and standard deviation are computed by sums in double precision, in any order, the
    result is rounded to [float].  Every sample of the result is the standardised sample up to the
    stated error, and the mean and variance of the result are 0 and 1 up to 2 and 5 times the
    accuracy. *)
Theorem normalise_rounding :
  forall (bld : build) (x : list R) (X u v : R),
  let n := length x in
  (Z.of_nat n <= 33554432)%Z -> Forall single x -> (forall i, (i < n)%nat -> Rabs (nth i x 0) <= X) ->
  In u x -> In v x -> u <> v -> X <= 2 ^ 20 * sqrt (rvar x) ->
  let y := normalised (numF bld) x : list R in
  let rho := norm_accuracy X (sqrt (rvar x)) in
  length y = n /\ Forall single y /\ 0 < rho <= / 30 /\
  (forall i, (i < n)%nat -> Rabs (nth i y 0 - standard x i) <= (Rabs (standard x i) + 1) * rho) /\
  Rabs (rmean y) <= 2 * rho /\ Rabs (rvar y - 1) <= 5 * rho.
Proof.
  intros bld x X u v n HL HF HX Hu Hv Hne HK y rho.
  pose proof (rvar_pos x u v Hu Hv Hne) as RV. pose proof (sqrt_lt_R0 _ RV) as SP.
  pose proof (some_nonzero x X u v HF HX Hu Hv Hne) as X0.
  assert (H1 : (1 <= n)%nat) by (unfold n; destruct x; [destruct Hu|cbn; lia]).
  assert (X1 : 0 < X) by (eapply Rlt_le_trans; [|exact X0]; apply Rinv_0_lt_compat, pow_lt; lra).
  assert (HX' : forall w, In w x -> Rabs w <= X).
  { intros w Hw. destruct (In_nth x w 0 Hw) as (i & Hi & <-). now apply HX. }
  assert (Ly : length y = n) by (unfold y, normalised, normalised64; now rewrite !map_length).
  assert (R0 : 0 < rho <= / 30).
  { unfold rho, norm_accuracy. set (q := X / sqrt (rvar x)).
    assert (0 < q <= 2 ^ 20).
    { unfold q. split; [now apply Rdiv_lt_0_compat|]. apply Rmult_le_reg_r with (sqrt (rvar x)); auto.
      unfold Rdiv. rewrite Rmult_assoc, Rinv_l by lra. lra. }
    assert (P25 : 0 < / 2 ^ 25) by (apply Rinv_0_lt_compat, pow_lt; lra).
    assert (P23 : 0 < / 2 ^ 23) by (apply Rinv_0_lt_compat, pow_lt; lra).
    assert (0 < / 2 ^ 25 * q) by (apply Rmult_lt_0_compat; lra).
    assert (/ 2 ^ 25 * q <= / 2 ^ 25 * 2 ^ 20) by (apply Rmult_le_compat_l; lra).
    assert (/ 2 ^ 23 + / 2 ^ 25 * 2 ^ 20 <= / 30).
    { replace (2 ^ 23) with 8388608 by ring. replace (2 ^ 25) with 33554432 by ring. replace (2 ^ 20) with 1048576 by ring. lra. }
    lra. }
  assert (Ny : forall i, (i < n)%nat -> Rabs (nth i y 0 - standard x i) <= (Rabs (standard x i) + 1) * rho).
  { intros i Hi.
    pose proof (norm_err bld x X H1 HL HF HX' X0 RV HK (nth i x 0) (nth_In _ _ Hi)) as E. cbv zeta in E.
    fold (standard x i) rho in E.
    assert (K : nth i y 0 = rnd32 (rnd64 (rnd64 (nth i x 0 - mean (numF bld) x) / rnd64 (sqrt (var (numF bld) x))))).
    { unfold y, normalised, normalised64. rewrite map_map.
      set (g := fun w : R => rnd32 (rnd64 (rnd64 (w - mean (numF bld) x) / rnd64 (sqrt (var (numF bld) x))))).
      change (nth i (map g x) 0 = g (nth i x 0)).
      rewrite (nth_indep (map g x) 0 (g 0)) by (now rewrite map_length). apply map_nth. }
    rewrite K. exact E. }
  split; [exact Ly|]. split.
  { unfold y, normalised. rewrite Forall_forall. intros w Hw. apply in_map_iff in Hw as (z & <- & _).
    apply generic_format_round; typeclasses eauto. }
  split; [exact R0|]. split; [exact Ny|].
  destruct (standard_sums x RV) as (S1 & S2 & S3). fold n in S1, S2, S3.
  assert (N1 : 1 <= INR n) by (apply (le_INR 1); auto).
  set (z := standard x) in *. set (d := fun i => nth i y 0 - z i).
  assert (Dn : forall c, 0 < c -> forall a, Rabs a <= c * INR n -> Rabs (a / INR n) <= c).
  { intros c Hc a Ha. unfold Rdiv. rewrite Rabs_mult, (Rabs_pos_eq (/ INR n)) by (left; apply Rinv_0_lt_compat; lra).
    apply Rmult_le_reg_r with (INR n); [lra|]. rewrite Rmult_assoc, Rinv_l by lra. lra. }
  assert (M : Rabs (rmean y) <= 2 * rho).
  { unfold rmean. rewrite Ly. apply Dn; [lra|].
    rewrite (rsum_ext n _ (fun i => z i + d i)) by (intros; unfold d; ring). rewrite rsum_plus, S1, Rplus_0_l.
    eapply Rle_trans; [apply rsum_abs|]. apply Rle_trans with (rsum n (fun i => rho * (Rabs (z i) + 1))).
    - apply rsum_le. intros i Hi. rewrite Rmult_comm. now apply Ny.
    - rewrite rsum_scal, rsum_plus, rsum_const. assert (rho * (rsum n (fun i => Rabs (z i)) + INR n * 1) <= rho * (INR n + INR n * 1)).
      { apply Rmult_le_compat_l; lra. } lra. }
  split; [exact M|].
  assert (V : rvar y = (rsum n (fun i => nth i y 0 * nth i y 0)) / INR n - rmean y * rmean y).
  { unfold rvar. rewrite Ly.
    rewrite (rsum_ext n _ (fun i => nth i y 0 * nth i y 0 + (- 2 * rmean y) * nth i y 0 + rmean y * rmean y)) by (intros; ring).
    rewrite !rsum_plus, rsum_scal, rsum_const.
    assert (E : rsum n (fun i => nth i y 0) = rmean y * INR n) by (unfold rmean; rewrite Ly; field; lra).
    rewrite E. field. lra. }
  assert (S4 : Rabs (rsum n (fun i => nth i y 0 * nth i y 0) - INR n) <= (4 * rho + 4 * (rho * rho)) * INR n).
  { rewrite <- S2 at 1. rewrite <- rsum_minus. eapply Rle_trans; [apply rsum_abs|].
    apply Rle_trans with (rsum n (fun i => (2 * rho + 2 * (rho * rho)) * (z i * z i) + (2 * rho * Rabs (z i) + 2 * (rho * rho)))).
    - apply rsum_le. intros i Hi. specialize (Ny i Hi). fold (d i) in Ny.
      replace (nth i y 0 * nth i y 0 - z i * z i) with (2 * z i * d i + d i * d i) by (unfold d; ring).
      eapply Rle_trans; [apply Rabs_triang|]. rewrite !Rabs_mult, (Rabs_pos_eq 2) by lra.
      assert (ZZ : Rabs (z i) * Rabs (z i) = z i * z i) by (rewrite <- Rabs_mult; apply Rabs_pos_eq; apply Rle_0_sqr).
      rewrite <- ZZ. pose proof (Rabs_pos (z i)) as Z0. pose proof (Rabs_pos (d i)) as D0. set (a := Rabs (z i)) in *.
      assert (B1 : 2 * a * Rabs (d i) <= 2 * a * ((a + 1) * rho)) by (apply Rmult_le_compat_l; lra).
      assert (B2 : Rabs (d i) * Rabs (d i) <= (a + 1) * rho * ((a + 1) * rho)) by (apply Rmult_le_compat; lra).
      assert (B3 : (a + 1) * (a + 1) <= 2 * (a * a) + 2) by (pose proof (Rle_0_sqr (a - 1)); unfold Rsqr in *; lra).
      assert (B4 : rho * rho * ((a + 1) * (a + 1)) <= rho * rho * (2 * (a * a) + 2)) by (apply Rmult_le_compat_l; [apply Rmult_le_pos; lra|lra]).
      lra.
    - rewrite !rsum_plus, !rsum_scal, S2, rsum_const.
      assert (2 * rho * rsum n (fun i => Rabs (z i)) <= 2 * rho * INR n) by (apply Rmult_le_compat_l; lra). lra. }
  assert (RR : rho * rho <= / 30 * rho) by (apply Rmult_le_compat_r; lra).
  assert (RP : 0 < rho * rho) by (apply Rmult_lt_0_compat; lra).
  assert (MM : 0 <= rmean y * rmean y <= 4 * (rho * rho)).
  { split; [apply Rle_0_sqr|].
    replace (rmean y * rmean y) with (Rabs (rmean y) * Rabs (rmean y)) by (rewrite <- Rabs_mult; apply Rabs_pos_eq; apply Rle_0_sqr).
    pose proof (Rabs_pos (rmean y)).
    apply Rle_trans with (2 * rho * (2 * rho)); [apply Rmult_le_compat; lra|lra]. }
  apply Dn in S4; [|lra].
  replace ((rsum n (fun i => nth i y 0 * nth i y 0) - INR n) / INR n)
    with (rsum n (fun i => nth i y 0 * nth i y 0) / INR n - 1) in S4 by (field; lra).
  rewrite V. apply Rabs_le_inv in S4. apply Rabs_le. lra.
Qed.
Print Assumptions normalise_rounding.

Example normalise_rounding_ex :
  let x := [1; 2; 1; 2] in
  (Z.of_nat (length x) <= 33554432)%Z /\ Forall single x /\ (forall i, (i < length x)%nat -> Rabs (nth i x 0) <= 2) /\
  In 1 x /\ In 2 x /\ 1 <> 2 /\ 2 <= 2 ^ 20 * sqrt (rvar x).
Proof.
  cbv zeta. assert (V : rvar [1; 2; 1; 2] = / 2 * / 2) by (unfold rvar, rmean; cbn; lra).
  split; [cbn; lia|]. split; [repeat constructor; first [apply (single_int 1); lia|apply (single_int 2); lia]|].
  split. { intros i Hi. cbn in Hi. do 4 (destruct i as [|i]; [cbn; rewrite Rabs_pos_eq; lra|]). lia. }
  split; [cbn; auto|]. split; [cbn; auto|]. split; [lra|].
  rewrite V, sqrt_square by lra. replace (2 ^ 20) with 1048576 by ring. lra.
Qed.

Lemma weight_01 i c : 0 <= weight i 0 c <= 1.
Proof.
  split; [apply weight_nonneg|]. unfold weight, overlap. apply Rmax_lub; [lra|].
  pose proof (Rmin_l (INR i + 1) c). pose proof (Rmax_l (INR i) 0). lra.
Qed.

(** how the errors of normalise() change the response *)
Lemma response_change (x y : list R) (on : nat -> bool) (base folded rho : R) (b W : nat) :
  let n := length x in let s := sqrt (rvar x) in let zb := (base - rmean x) / s in
  0 < rvar x -> length y = n -> (0 < W < b)%nat -> 0 < rho ->
  (forall i, (i < n)%nat -> Rabs (nth i y 0 - standard x i) <= (Rabs (standard x i) + 1) * rho) ->
  boxcar_response b W (flux x base on folded true / s) (flux x base on folded false / s)
  - sqrt (INR b / (INR W * INR (b - W))) * (INR n * (rho * (3 + Rabs zb)))
  <= boxcar_response b W (flux y (zb - (Rabs zb + 1) * rho) on folded true) (flux y (zb - (Rabs zb + 1) * rho) on folded false).
Proof.
  intros n s zb RV Ly HW R0 Ny. pose proof (sqrt_lt_R0 _ RV) as SP. fold s in SP.
  set (bs := zb - (Rabs zb + 1) * rho).
  set (e := fun i => rho * (Rabs (standard x i) + (2 + Rabs zb))).
  assert (E0 : forall i, 0 <= e i) by (intros; unfold e; pose proof (Rabs_pos (standard x i)); pose proof (Rabs_pos zb); apply Rmult_le_pos; lra).
  assert (F : forall mk, Rabs (flux y bs on folded mk - flux x base on folded mk / s)
    <= rsum n (fun i => if Bool.eqb (on i) mk then e i else 0)).
  { intros mk.
    assert (EF : flux x base on folded mk / s
      = rsum n (fun i => / s * (if Bool.eqb (on i) mk then (nth i x 0 - base) * weight i 0 folded else 0))).
    { rewrite rsum_scal. unfold flux. fold n. unfold Rdiv. apply Rmult_comm. }
    rewrite EF. unfold flux. rewrite Ly, <- rsum_minus. eapply Rle_trans; [apply rsum_abs|]. apply rsum_le. intros i Hi.
    destruct (Bool.eqb (on i) mk); [|rewrite Rmult_0_r, Rminus_0_r, Rabs_R0; lra].
    replace ((nth i y 0 - bs) * weight i 0 folded - / s * ((nth i x 0 - base) * weight i 0 folded))
      with (((nth i y 0 - standard x i) + (Rabs zb + 1) * rho) * weight i 0 folded)
      by (unfold bs, zb, standard; fold s; field; lra).
    rewrite Rabs_mult. destruct (weight_01 i folded) as [W0 W1]. rewrite (Rabs_pos_eq (weight _ _ _)) by auto.
    apply Rle_trans with (e i * 1); [|lra]. apply Rmult_le_compat; auto; [apply Rabs_pos|].
    eapply Rle_trans; [apply Rabs_triang|]. specialize (Ny i Hi).
    rewrite (Rabs_pos_eq ((Rabs zb + 1) * rho)) by (pose proof (Rabs_pos zb); apply Rmult_le_pos; lra). unfold e. lra. }
  pose proof (F true) as F1. pose proof (F false) as F2.
  assert (ES : rsum n (fun i => if Bool.eqb (on i) true then e i else 0) + rsum n (fun i => if Bool.eqb (on i) false then e i else 0)
    <= INR n * (rho * (3 + Rabs zb))).
  { rewrite <- rsum_plus. rewrite (rsum_ext n _ e).
    2:{ intros i Hi. destruct (on i); cbn; lra. }
    unfold e. rewrite rsum_scal, rsum_plus, rsum_const.
    destruct (standard_sums x RV) as (_ & _ & S3). fold n in S3.
    assert (rho * (rsum n (fun i => Rabs (standard x i)) + INR n * (2 + Rabs zb)) <= rho * (INR n + INR n * (2 + Rabs zb)))
      by (apply Rmult_le_compat_l; lra). lra. }
  set (e1 := rsum n (fun i => if Bool.eqb (on i) true then e i else 0)) in *.
  set (e2 := rsum n (fun i => if Bool.eqb (on i) false then e i else 0)) in *.
  assert (P1 : 0 <= e1) by (apply rsum_nonneg; intros i _; destruct (Bool.eqb _ _); auto; lra).
  assert (P2 : 0 <= e2) by (apply rsum_nonneg; intros i _; destruct (Bool.eqb _ _); auto; lra).
  unfold boxcar_response. rewrite <- bh_eq by auto. rewrite <- (height_sum b W) by auto.
  destruct (bh_facts b W HW) as (B1 & B2 & _).
  replace ((flux y bs on folded true - INR W / (INR b - INR W) * flux y bs on folded false) * bh b W)
    with (bh b W * flux y bs on folded true - bb b W * flux y bs on folded false) by (rewrite bb_eq by auto; ring).
  replace ((flux x base on folded true / s - INR W / (INR b - INR W) * (flux x base on folded false / s)) * bh b W)
    with (bh b W * (flux x base on folded true / s) - bb b W * (flux x base on folded false / s)) by (rewrite bb_eq by auto; ring).
  apply Rabs_le_inv in F1, F2.
  set (p := flux y bs on folded true) in *. set (q := flux y bs on folded false) in *.
  set (p' := flux x base on folded true / s) in *. set (q' := flux x base on folded false / s) in *.
  assert (bh b W * (p' - p) <= bh b W * e1) by (apply Rmult_le_compat_l; lra).
  assert (bb b W * (q - q') <= bb b W * e2) by (apply Rmult_le_compat_l; lra).
  assert ((bh b W + bb b W) * (e1 + e2) <= (bh b W + bb b W) * (INR n * (rho * (3 + Rabs zb)))) by (apply Rmult_le_compat_l; lra).
  assert (0 <= bh b W * e2) by (apply Rmult_le_pos; lra). assert (0 <= bb b W * e1) by (apply Rmult_le_pos; lra). lra.
Qed.

(** C116.  ffa_search() without dereddening in floating point, on a signal as in C108: its S/N is that
    of C101, with the data in units of their standard deviation, less the effect of the rounding
    errors of normalise() (C115) and of the search (C106). *)
Theorem ffa_search_float_detects :
  forall (bld : build) (flog : R -> R) (fpow : R -> nat -> R) (alloc : nat -> list R) (allocz : nat -> list Z)
    (data : list R) (tsamp pmin pmax : R) (fpmin : Z) (bmin bmax : nat) (ducy wtsp rw : R) (minpts : Z)
    (X u v period phi w base : R) (on : nat -> bool),
  let size := length data in let s := sqrt (rvar data) in
  let zb := (base - rmean data) / s in let rho := norm_accuracy X s in
  allocates alloc -> allocates allocz ->
  float_search flog fpow size [1%nat] tsamp pmin pmax bmin bmax -> double ducy -> ducy < 1 ->
  Forall single data -> (forall i, (i < size)%nat -> Rabs (nth i data 0) <= X) ->
  In u data -> In v data -> u <> v -> X <= 2 ^ 20 * s ->
  pmin <= period <= pmax * (1 - / 2 ^ 40) -> pulsed tsamp period phi w base on data ->
  exists (x : list R) (widths : list Z) (periods : list R) (bins : list Z) (snrs : arr2 R) (t b rows n : nat) (f V : R),
    ffa_search (numF bld) flog fpow alloc allocz data tsamp pmin pmax fpmin bmin bmax ducy wtsp false rw
      minpts false = Ok (x, (widths, periods, bins, snrs)) /\
    generate_width_trials (numF bld) (Z.of_nat bmin) ducy wtsp = Ok widths /\
    (t < length periods)%nat /\ nth t bins 0%Z = Z.of_nat b /\ (bmin <= b <= bmax)%nat /\
    1 <= f /\ INR n * f <= INR size * (1 + / 2 ^ 53) /\ INR size * (1 - / 2 ^ 53) < (INR n + 1) * f /\
    (rows * b <= n < (rows + 1) * b)%nat /\ (2 <= rows)%nat /\
    next_trial tsamp period (nth t periods 0) b rows f /\
    noise_variance n f V /\
    let folded := INR (rows * b) * f in
    let A := INR size * (1 + 2 * rho) in
    let T := (1 + / 2 ^ 24) ^ (Nat.log2_up rows + Z.to_nat (Zceil f) + 3)
             * (A + INR n * (INR size * / 2 ^ 50 * 2 ^ 13 + 3 * / 2 ^ 150)) in
    forall k, (k < length widths)%nat ->
      let W := Z.to_nat (nth k widths 0%Z) in
      w * INR b + 2 * INR (Nat.log2_up rows) + 3 <= INR W ->
      (boxcar_response b W (flux data base on folded true / s) (flux data base on folded false / s)
       - sqrt (INR b / (INR W * INR (b - W)))
         * ((1 + 31 * / 2 ^ 24) * T - A + INR size * (rho * (3 + Rabs zb) + / 2 ^ 53 * (2 * Rabs zb + 1))))
      / sqrt (INR rows * V) - / 2 ^ 145 <= at2 0 snrs t k.
Proof.
  intros bld flog fpow alloc allocz data tsamp pmin pmax fpmin bmin bmax ducy wtsp rw minpts X u v period phi w base on
    size s zb rho Ha Hz HA Fd Hd HF HX Hu Hv Hne HK HP [P1 P2].
  pose proof HA as (Hl & Al & Hp & Ap & F1 & Ht & Hpm & Hpt & Hbm & Hbase & Hlong & Hsz & Hb & Hr & Hws & Hw).
  pose proof (rvar_pos data u v Hu Hv Hne) as RV. pose proof (sqrt_lt_R0 _ RV) as SP. fold s in SP.
  destruct (normalise_rounding bld data X u v Hsz HF HX Hu Hv Hne HK) as (Ly & Fy & R0 & Ny & _).
  fold s rho size in Ly, R0, Ny. set (y := normalised (numF bld) data : list R) in *.
  assert (U53 : 0 < / 2 ^ 53) by (apply Rinv_0_lt_compat, pow_lt; lra).
  (* the widths *)
  assert (LIM : Rmax 1 (rnd64 (ducy * IZR (Z.of_nat bmin))) <= IZR (Z.of_nat bmin)).
  { apply Rmax_lub; [apply (IZR_le 1); lia|]. rewrite <- (rnd64_id (IZR (Z.of_nat bmin))) at 2 by (apply F64_int; lia).
    apply rnd64_le. assert (0 <= IZR (Z.of_nat bmin)) by (apply (IZR_le 0); lia). nra. }
  destruct (width_trials_float bld (Z.of_nat bmin) ducy wtsp ltac:(lia)) as (widths & EW & _ & _ & Wn & Wf & _ & _ & Wlt).
  { apply Rle_lt_trans with (1 := LIM). apply Rle_lt_trans with 4194304; [apply IZR_le; lia|].
    replace 4194304 with (2 ^ 22) by ring. apply Rlt_pow; [lra|lia]. }
  specialize (Wlt Fd Hd ltac:(lia)). rewrite Forall_forall in Wf, Wlt.
  set (ws := map Z.to_nat widths).
  assert (GW : good_widths ws bmin).
  { intros q Hq. apply in_map_iff in Hq as (z & <- & Hz'). specialize (Wlt z Hz'). pose proof (proj1 (Wf z Hz')). lia. }
  assert (HA' : float_search flog fpow (length y) ws tsamp pmin pmax bmin bmax).
  { unfold float_search. rewrite Ly. repeat (split; [assumption|]). split; [|exact GW].
    unfold ws. destruct widths; [congruence|discriminate]. }
  set (bs := zb - (Rabs zb + 1) * rho).
  assert (Z0 : 0 <= Rabs zb) by apply Rabs_pos.
  assert (PY : pulsed tsamp period phi w bs on y).
  { split; rewrite Ly; intros i Hi Ei; [now apply P1|]. specialize (P2 i Hi Ei). specialize (Ny i Hi).
    assert (ZB : zb <= standard data i).
    { unfold zb, standard. apply Rmult_le_compat_r; [left; now apply Rinv_0_lt_compat|lra]. }
    apply Rabs_le_inv in Ny. set (z := standard data i) in *.
    assert (Rabs z <= Rabs zb + (z - zb)).
    { replace z with (zb + (z - zb)) at 1 by ring. eapply Rle_trans; [apply Rabs_triang|]. rewrite (Rabs_pos_eq (z - zb)); lra. }
    assert ((Rabs z + 1) * rho <= (Rabs zb + (z - zb) + 1) * rho) by (apply Rmult_le_compat_r; lra).
    assert ((z - zb) * rho <= (z - zb) * 1) by (apply Rmult_le_compat_l; lra). unfold bs. lra. }
  assert (BY : forall i, (i < length y)%nat -> Rabs (nth i y 0) <= 2 ^ 13).
  { intros i Hi. rewrite Ly in Hi. specialize (Ny i Hi). pose proof (standard_max data i RV Hi Hsz) as SM.
    set (z := standard data i) in *. replace (nth i y 0) with (z + (nth i y 0 - z)) by ring.
    eapply Rle_trans; [apply Rabs_triang|]. pose proof (Rabs_pos z).
    assert ((Rabs z + 1) * rho <= (5793 + 1) * / 30) by (apply Rmult_le_compat; lra).
    replace (2 ^ 13) with 8192 by ring. lra. }
  destruct (periodogram_float_detects bld flog fpow alloc allocz y ws tsamp pmin pmax bmin bmax (2 ^ 13) period phi w bs on
    Ha Hz HA' Fy BY HP PY)
    as (P & B & S & t & b & rows & n & f & V & E & H1 & H2 & H3 & H4 & H5 & H6 & H7 & H8 & H9 & H10 & G).
  rewrite Ly in *.
  exists y, widths, P, B, S, t, b, rows, n, f, V. split.
  { unfold ffa_search. cbn [bind]. fold y. rewrite EW. cbn [bind]. fold ws. rewrite E. reflexivity. }
  repeat (split; [assumption|]). intros folded A T k Hk W Hwide. cbv zeta in G. fold folded in G.
  assert (Lw : length ws = length widths) by apply map_length. rewrite Lw in G. specialize (G k Hk).
  replace (nth k ws 0%nat) with W in G by (unfold W; symmetry; apply (map_nth Z.to_nat widths 0%Z)).
  specialize (G Hwide).
  assert (HW : (0 < W < b)%nat).
  { unfold W. assert (I : In (nth k widths 0%Z) widths) by now apply nth_In.
    specialize (Wlt _ I). pose proof (proj1 (Wf _ I)). lia. }
  eapply Rle_trans; [|exact G]. apply Rplus_le_compat_r.
  assert (Psg : 0 < sqrt (INR rows * V)).
  { pose proof (noise_variance_low _ _ _ H4 H10). apply sqrt_lt_R0. apply Rmult_lt_0_compat; [apply (lt_INR 0); lia|lra]. }
  apply Rmult_le_compat_r; [left; now apply Rinv_0_lt_compat|].
  pose proof (response_change data y on base folded rho b W RV Ly HW (proj1 R0) Ny) as RC. cbv zeta in RC.
  fold size s zb bs in RC.
  set (H := sqrt (INR b / (INR W * INR (b - W)))) in *. assert (H0 : 0 <= H) by apply sqrt_pos.
  set (Ay := rsum size (fun j => Rabs (nth j y 0))) in *.
  assert (AY : Ay <= A).
  { unfold Ay, A. apply Rle_trans with (rsum size (fun i => (1 + rho) * Rabs (standard data i) + rho)).
    - apply rsum_le. intros i Hi. specialize (Ny i Hi). set (z := standard data i) in *.
      replace (nth i y 0) with (z + (nth i y 0 - z)) by ring. eapply Rle_trans; [apply Rabs_triang|]. lra.
    - rewrite rsum_plus, rsum_scal, rsum_const. destruct (standard_sums data RV) as (_ & _ & S3). fold size in S3.
      assert ((1 + rho) * rsum size (fun i => Rabs (standard data i)) <= (1 + rho) * INR size) by (apply Rmult_le_compat_l; lra). lra. }
  set (K := INR n * (INR size * / 2 ^ 50 * 2 ^ 13 + 3 * / 2 ^ 150)) in *.
  set (Pw := (1 + / 2 ^ 24) ^ (Nat.log2_up rows + Z.to_nat (Zceil f) + 3)) in *.
  assert (U24 : 0 < / 2 ^ 24) by (apply Rinv_0_lt_compat, pow_lt; lra).
  assert (Pw1 : 1 <= Pw) by (apply pow_R1_Rle; lra).
  assert (Q : (1 + 31 * / 2 ^ 24) * (Pw * (Ay + K)) - Ay <= (1 + 31 * / 2 ^ 24) * T - A).
  { unfold T. set (c := 1 + 31 * / 2 ^ 24) in *. assert (1 <= c * Pw) by (assert (1 <= c) by (unfold c; lra); nra).
    assert ((c * Pw - 1) * Ay <= (c * Pw - 1) * A) by (apply Rmult_le_compat_l; lra). lra. }
  assert (BB : Rabs bs <= 2 * Rabs zb + 1).
  { unfold bs. replace (zb - (Rabs zb + 1) * rho) with (zb + - ((Rabs zb + 1) * rho)) by ring.
    eapply Rle_trans; [apply Rabs_triang|]. rewrite Rabs_Ropp.
    assert ((Rabs zb + 1) * rho <= (Rabs zb + 1) * 1) by (apply Rmult_le_compat_l; lra).
    rewrite (Rabs_pos_eq ((Rabs zb + 1) * rho)) by (apply Rmult_le_pos; lra). lra. }
  assert (SB : INR size * / 2 ^ 53 * Rabs bs <= INR size * / 2 ^ 53 * (2 * Rabs zb + 1)).
  { apply Rmult_le_compat_l; auto. apply Rmult_le_pos; [apply pos_INR|lra]. }
  set (g1 := (1 + 31 * / 2 ^ 24) * (Pw * (Ay + K)) - Ay) in *. set (g2 := (1 + 31 * / 2 ^ 24) * T - A) in *.
  assert (H * (g1 + INR size * / 2 ^ 53 * Rabs bs) <= H * (g2 + INR size * / 2 ^ 53 * (2 * Rabs zb + 1)))
    by (apply Rmult_le_compat_l; lra). lra.
Qed.
Print Assumptions ffa_search_float_detects.

(** the data of [periodogram_float_detects_ex]: the samples are at most 3, their variance is at least 2^-14 *)
Example ffa_search_float_detects_ex :
  let data := map (fun i => if (i mod 96 =? 0)%nat then 3 else 1) (seq 0 (100 * 100)) in
  float_search ln pow (length data) [1%nat] (/ 1024) (/ 16) 1 40 44 /\
  In 3 data /\ In 1 data /\ 3 <> 1 /\ double (/ 2) /\ / 2 < 1 /\ 3 <= 2 ^ 20 * sqrt (rvar data).
Proof.
  pose proof periodogram_float_detects_ex as FS. cbv zeta in *. destruct FS as (FS & _). set (data := map _ _) in *.
  split. { unfold float_search in *. destruct FS as (G1 & G2 & G3 & G4 & G5 & G6 & G7 & G8 & G9 & G10 & G11 & G12 & G13 & G14 & _).
    repeat (split; [assumption|]). split; [discriminate|]. intros q [<-|[]]. lia. }
  assert (L : length data = (100 * 100)%nat) by (unfold data; now rewrite map_length, seq_length).
  assert (I : forall i, (i < 100 * 100)%nat -> In (if (i mod 96 =? 0)%nat then 3 else 1) data).
  { intros i Hi. apply in_map_iff. exists i. split; [reflexivity|apply in_seq; lia]. }
  split; [apply (I 0%nat); lia|]. split; [apply (I 1%nat); lia|]. split; [lra|].
  split. { apply generic_format_FLT. exists (Float radix2 1 (-1)); cbn; auto; try lia. unfold F2R; cbn; lra. }
  split; [lra|].
  assert (N0 : nth 0 data 0 = 3) by reflexivity. assert (N1 : nth 1 data 0 = 1) by reflexivity.
  assert (ES : INR (100 * 100) = 10000) by (rewrite mult_INR; replace (INR 100) with 100 by (cbn; lra); lra).
  assert (V : / 10000 <= rvar data).
  { unfold rvar. rewrite L, ES. set (m := rmean data). clearbody data.
    rewrite <- (Rmult_1_l (/ 10000)). apply Rmult_le_compat_r; [lra|].
    change (100 * 100)%nat with (2 + 98 * 102 + 2)%nat.
    rewrite <- Nat.add_assoc, rsum_split. cbn [rsum]. rewrite N0, N1.
    assert (0 <= rsum (98 * 102 + 2) (fun i => (nth (2 + i) data 0 - m) ^ 2)) by (apply rsum_nonneg; intros; apply pow2_ge_0).
    pose proof (pow2_ge_0 (m - 2)). lra. }
  assert (S1 : / 100 <= sqrt (rvar data)).
  { rewrite <- (sqrt_square (/ 100)) by lra. apply sqrt_le_1_alt. lra. }
  replace (2 ^ 20) with 1048576 by ring. lra.
Qed.
