(** C127: ffa_search() with dereddening finds pulses in floating point. *)
From Coq Require Import List Arith ZArith Bool Lia Reals Lra Psatz.
From Flocq Require Import Core.
From Verif Require Import Base.Result Base.Buf Base.Num Model.Transforms Model.Libffa Model.Periodogram Model.TimeSeries
  Model.Search Model.Worker Spec.Sums Spec.Overlap Spec.Noise Spec.Boxcar Spec.Pulse Spec.Libm Spec.Order
  Proof.Index Proof.Downsample Proof.Snr Proof.Detect Proof.Rounding Proof.SearchFloat Proof.NormFloat
  Props.Downsample Props.Snr Props.TimeSeries Props.PeriodogramFloat Props.SnrFloat Props.DownsampleFloat
  Props.PeriodogramRounding Props.Detect Props.DetectFloat Props.WidthsFloat Props.NormFloat Props.Worker Props.Deredden
  Props.DereddenIeee Props.DereddenError.
Import ListNotations.
Local Open Scope R_scope.

(** ** mean and standard deviation of changed data *)
Lemma mean_close (x y : list R) (c e : R) : length y = length x -> (1 <= length x)%nat ->
  (forall i, (i < length x)%nat -> Rabs (nth i y 0 - (nth i x 0 - c)) <= e) ->
  Rabs (rmean y - (rmean x - c)) <= e.
Proof.
  intros L N H. unfold rmean. rewrite L. set (n := length x) in *.
  assert (N0 : 0 < INR n) by (apply (lt_INR 0); lia).
  replace (rsum n (fun i => nth i y 0) / INR n - (rsum n (fun i => nth i x 0) / INR n - c))
    with (rsum n (fun i => nth i y 0 - (nth i x 0 - c)) / INR n).
  2:{ rewrite !rsum_minus, rsum_const. field. lra. }
  unfold Rdiv. rewrite Rabs_mult, (Rabs_pos_eq (/ INR n)) by (left; now apply Rinv_0_lt_compat).
  apply Rmult_le_reg_r with (INR n); auto. rewrite Rmult_assoc, Rinv_l by lra. rewrite Rmult_1_r.
  eapply Rle_trans; [apply rsum_abs|]. rewrite Rmult_comm, <- rsum_const. now apply rsum_le.
Qed.

Lemma deviation_close (x y : list R) (c e : R) : length y = length x -> (1 <= length x)%nat -> 0 <= e ->
  (forall i, (i < length x)%nat -> Rabs (nth i y 0 - (nth i x 0 - c)) <= e) ->
  Rabs (sqrt (rvar y) - sqrt (rvar x)) <= e.
Proof.
  intros L N E0 H. set (n := length x) in *.
  assert (N0 : 0 < INR n) by (apply (lt_INR 0); lia).
  set (g := fun i => nth i y 0 - rmean y). set (h := fun i => nth i x 0 - rmean x).
  set (P := rsum n (fun i => g i ^ 2)). set (Q := rsum n (fun i => h i ^ 2)). set (C := rsum n (fun i => g i * h i)).
  assert (P0 : 0 <= P) by (apply rsum_nonneg; intros; apply pow2_ge_0).
  assert (Q0 : 0 <= Q) by (apply rsum_nonneg; intros; apply pow2_ge_0).
  assert (VY : rvar y = P / INR n) by (unfold rvar; rewrite L; reflexivity).
  assert (VX : rvar x = Q / INR n) by reflexivity.
  set (t := fun i => nth i y 0 - (nth i x 0 - c)). set (tm := rmean y - (rmean x - c)).
  assert (TM : rsum n t = INR n * tm).
  { unfold t, tm, rmean. rewrite L. fold n. rewrite !rsum_minus, rsum_const. field. lra. }
  assert (D : rsum n (fun i => (g i - h i) ^ 2) <= INR n * e ^ 2).
  { rewrite (rsum_ext n _ (fun i => t i ^ 2 - 2 * tm * t i + tm ^ 2)).
    2:{ intros i _. unfold g, h, t, tm. ring. }
    rewrite rsum_plus, rsum_minus, rsum_scal, rsum_const, TM.
    assert (rsum n (fun i => t i ^ 2) <= INR n * e ^ 2).
    { rewrite <- rsum_const. apply rsum_le. intros i Hi. specialize (H i Hi). fold (t i) in H.
      rewrite <- (pow2_abs (t i)). apply pow_incr. split; [apply Rabs_pos|exact H]. }
    assert (0 <= INR n * tm ^ 2) by (apply Rmult_le_pos; [lra|apply pow2_ge_0]). lra. }
  assert (ED : rsum n (fun i => (g i - h i) ^ 2) = P + Q - 2 * C).
  { unfold P, Q, C. rewrite <- rsum_scal, <- rsum_plus, <- rsum_minus. apply rsum_ext. intros; ring. }
  pose proof (cauchy_schwarz n g h) as CS. fold P Q C in CS.
  pose proof (sqrt_pos P) as SP. pose proof (sqrt_pos Q) as SQ.
  pose proof (sqrt_sqrt P P0) as PP. pose proof (sqrt_sqrt Q Q0) as QQ.
  set (p := sqrt P) in *. set (q := sqrt Q) in *.
  assert (CB : C <= p * q).
  { apply Rnot_lt_le. intros LT. assert (0 <= p * q) by now apply Rmult_le_pos.
    assert ((p * q) ^ 2 < C ^ 2) by (cbn [pow]; rewrite !Rmult_1_r; apply Rmult_le_0_lt_compat; auto).
    assert ((p * q) ^ 2 = P * Q) by (rewrite <- PP, <- QQ; ring). lra. }
  set (r := sqrt (INR n)). assert (R0 : 0 < r) by now apply sqrt_lt_R0.
  assert (RR : r * r = INR n) by (apply sqrt_sqrt; lra).
  assert (K : Rabs (p - q) <= r * e).
  { apply Rnot_lt_le. intros LT. assert (RE : 0 <= r * e) by (apply Rmult_le_pos; lra).
    assert ((r * e) * (r * e) < Rabs (p - q) * Rabs (p - q)) by now apply Rmult_le_0_lt_compat.
    rewrite <- Rabs_mult, Rabs_pos_eq in H0 by apply Rle_0_sqr.
    assert ((r * e) * (r * e) = INR n * e ^ 2) by (rewrite <- RR; ring).
    assert ((p - q) * (p - q) = P + Q - 2 * (p * q)) by (rewrite <- PP, <- QQ; ring). lra. }
  rewrite VX, VY, !sqrt_div_alt by auto. fold p q r.
  replace (p / r - q / r) with ((p - q) / r) by (field; lra).
  unfold Rdiv. rewrite Rabs_mult, (Rabs_pos_eq (/ r)) by (left; now apply Rinv_0_lt_compat).
  apply Rmult_le_reg_r with r; auto. rewrite Rmult_assoc, Rinv_l by lra. lra.
Qed.

Lemma varies (x : list R) : 0 < rvar x -> exists u v, In u x /\ In v x /\ u <> v.
Proof.
  intros V. destruct x as [|a x].
  { unfold rvar in V. cbn in V. unfold Rdiv in V. rewrite Rmult_0_l in V. lra. }
  destruct (list_eq_dec Req_EM_T x (repeat a (length x))) as [E|E].
  - exfalso. set (l := a :: x) in *.
    assert (A : forall i, (i < length l)%nat -> nth i l 0 = a).
    { intros i Hi. unfold l in *. rewrite E in *. change (a :: repeat a (length x)) with (repeat a (S (length x))) in *.
      apply (repeat_spec (S (length x)) a). apply nth_In. exact Hi. }
    assert (N0 : 0 < INR (length l)) by (apply (lt_INR 0); unfold l; cbn; lia).
    assert (M : rmean l = a).
    { unfold rmean. rewrite (rsum_ext _ _ (fun _ => a)) by exact A. rewrite rsum_const. field. lra. }
    revert V. unfold rvar. rewrite (rsum_ext _ _ (fun _ => 0)); [rewrite rsum_0; unfold Rdiv; rewrite Rmult_0_l; lra|].
    intros i Hi. rewrite A, M by auto. ring.
  - assert (S : exists v, In v x /\ v <> a).
    { clear V. induction x as [|b x IH]; [exfalso; now apply E|].
      destruct (Req_EM_T b a) as [->|NE]; [|exists b; split; [now left|auto]].
      destruct IH as (v & I & D); [|exists v; split; [now right|auto]].
      intros E'. apply E. cbn. now rewrite <- E'. }
    destruct S as (v & I & D). exists v, a. split; [now right|]. split; [now left|auto].
Qed.

(** the error of each dereddened sample: [f] samples per mean, samples of at most [X], at most
    [M] from the level *)
Definition deredden_accuracy (f : nat) (X M : R) : R :=
  let acc := median_accuracy f X in acc + / 2 ^ 23 * (M + acc) + / 2 ^ 150.

Lemma median_accuracy_nonneg f X : 0 <= X -> 0 <= median_accuracy f X.
Proof.
  intros X0. unfold median_accuracy. destruct (f =? 1)%nat; [lra|].
  assert (0 < / 2 ^ 24) by (apply Rinv_0_lt_compat, pow_lt; lra).
  assert (1 <= (1 + / 2 ^ 24) ^ (f + 2)) by (apply pow_R1_Rle; lra).
  assert (0 < / 2 ^ 148) by (apply Rinv_0_lt_compat, pow_lt; lra).
  assert (0 <= ((1 + / 2 ^ 24) ^ (f + 2) - 1) * X) by (apply Rmult_le_pos; lra). lra.
Qed.

(** C127.  ffa_search() with dereddening, in floating point, on pulses above a constant level that the running
    medians do not see (C121): the S/N is at least that of C116 for the data less the level, [sd]
    being the standard deviation of the dereddened samples, and the errors of dereddening (C126) counting as
    flux outside the pulses. *)
Theorem ffa_search_deredden_float_detects :
  forall (bld : build) (flog : R -> R) (fpow : R -> nat -> R) (alloc : nat -> list R) (allocz : nat -> list Z)
    (data : list R) (tsamp pmin pmax : R) (fpmin : Z) (bmin bmax : nat) (ducy wtsp rw : R) (minpts : Z)
    (X M period phi w base : R) (on : nat -> bool),
  let size := length data in let s := sqrt (rvar data) in
  let wd := ZnearestE (rnd64 (rw / tsamp)) in
  let e := deredden_accuracy (samples_per_mean wd minpts) X M in
  allocates alloc -> allocates allocz ->
  float_search flog fpow size [1%nat] tsamp pmin pmax bmin bmax -> double ducy -> ducy < 1 ->
  Forall single data -> (forall i, (i < size)%nat -> Rabs (nth i data 0) <= X) ->
  (forall i, (i < size)%nat -> Rabs (nth i data 0 - base) <= M) -> M + e <= 2 ^ 20 * (s - e) ->
  0 <= rw -> rw / tsamp <= 2 ^ 51 -> (0 < minpts <= 2 ^ 52)%Z -> Z.odd minpts = true -> window_fits wd minpts (Z.of_nat size) ->
  mostly_quiet data base (fst (groups_of wd (PInt minpts))) (snd (groups_of wd (PInt minpts))) ->
  pmin <= period <= pmax * (1 - / 2 ^ 40) -> pulsed tsamp period phi w base on data ->
  exists (x : list R) (widths : list Z) (periods : list R) (bins : list Z) (snrs : arr2 R) (t b rows n : nat) (f V sd : R),
    ffa_search (numF bld) flog fpow alloc allocz data tsamp pmin pmax fpmin bmin bmax ducy wtsp true rw
      minpts false = Ok (x, (widths, periods, bins, snrs)) /\
    generate_width_trials (numF bld) (Z.of_nat bmin) ducy wtsp = Ok widths /\
    (t < length periods)%nat /\ nth t bins 0%Z = Z.of_nat b /\ (bmin <= b <= bmax)%nat /\
    1 <= f /\ INR n * f <= INR size * (1 + / 2 ^ 53) /\ INR size * (1 - / 2 ^ 53) < (INR n + 1) * f /\
    (rows * b <= n < (rows + 1) * b)%nat /\ (2 <= rows)%nat /\
    next_trial tsamp period (nth t periods 0) b rows f /\
    noise_variance n f V /\ 0 < sd /\ Rabs (sd - s) <= e /\
    let folded := INR (rows * b) * f in
    let rho := norm_accuracy (M + e) sd in
    let zb := (Rabs (rmean data - base) + 2 * e) / sd in
    let A := INR size * (1 + 2 * rho) in
    let T := (1 + / 2 ^ 24) ^ (Nat.log2_up rows + Z.to_nat (Zceil f) + 3)
             * (A + INR n * (INR size * / 2 ^ 50 * 2 ^ 13 + 3 * / 2 ^ 150)) in
    forall k, (k < length widths)%nat ->
      let W := Z.to_nat (nth k widths 0%Z) in
      w * INR b + 2 * INR (Nat.log2_up rows) + 3 <= INR W ->
      (boxcar_response b W (flux data base on folded true / sd) ((flux data base on folded false + 2 * e * INR size) / sd)
       - sqrt (INR b / (INR W * INR (b - W)))
         * ((1 + 31 * / 2 ^ 24) * T - A + INR size * (rho * (3 + zb) + / 2 ^ 53 * (2 * zb + 1))))
      / sqrt (INR rows * V) - / 2 ^ 145 <= at2 0 snrs t k.
Proof.
  intros bld flog fpow alloc allocz data tsamp pmin pmax fpmin bmin bmax ducy wtsp rw minpts X M period phi w base on
    size s wd e Ha Hz HA Fd Hd HF HX HM HK R0 R1 M0 MO Fit MQ HP [P1 P2].
  pose proof HA as (Hl & Al & Hp & Ap & F1 & Ht & Hpm & Hpt & Hbm & Hbase & Hlong & Hsz & Hb & Hr & Hws & Hw).
  assert (T0 : 0 < tsamp) by (eapply Rlt_le_trans; [|exact Ht]; apply Rinv_0_lt_compat, pow_lt; lra).
  assert (N1 : (1 <= size)%nat).
  { unfold window_fits in Fit. destruct (wd <? 2 * minpts)%Z; [lia|]. destruct size; [|lia]. change (Z.of_nat 0) with 0%Z in Fit. rewrite Zdiv_0_l in Fit. lia. }
  assert (X0 : 0 <= X) by (pose proof (HX 0%nat ltac:(lia)); pose proof (Rabs_pos (nth 0 data 0)); lra).
  assert (M1 : 0 <= M) by (pose proof (HM 0%nat ltac:(lia)); pose proof (Rabs_pos (nth 0 data 0 - base)); lra).
  pose proof (median_accuracy_nonneg (samples_per_mean wd minpts) X X0) as AC0.
  assert (P23 : 0 < / 2 ^ 23) by (apply Rinv_0_lt_compat, pow_lt; lra).
  assert (P150 : 0 < / 2 ^ 150) by (apply Rinv_0_lt_compat, pow_lt; lra).
  assert (E0 : 0 < e).
  { unfold e, deredden_accuracy. set (acc := median_accuracy _ _) in *.
    assert (0 <= / 2 ^ 23 * (M + acc)) by (apply Rmult_le_pos; lra). lra. }
  destruct (deredden_rounding bld alloc data tsamp rw X minpts Ha T0 R0 R1 M0 MO Hsz HF HX Fit)
    as (r & rR & ER & MED & Lr & Ld & Fs & K). fold wd size in MED, Lr, Ld, K.
  pose proof (running_median_of_quiet_data data wd (PInt minpts) rR base MED MQ) as QB.
  set (d := minus (numF bld) data r : list R) in *. change (n_T (numF bld)) with R in *.
  assert (DE : forall i, (i < size)%nat -> Rabs (nth i d 0 - (nth i data 0 - base)) <= e).
  { intros i Hi. destruct (K i Hi) as [_ K2]. rewrite (QB i Hi) in K2. cbv zeta in K2. eapply Rle_trans; [exact K2|].
    unfold e, deredden_accuracy. specialize (HM i Hi).
    set (acc := median_accuracy _ _) in *. assert (/ 2 ^ 23 * (Rabs (nth i data 0 - base) + acc) <= / 2 ^ 23 * (M + acc)) by (apply Rmult_le_compat_l; lra). lra. }
  set (sd := sqrt (rvar d)).
  assert (SDC : Rabs (sd - s) <= e) by (apply (deviation_close data d base e); auto; lra).
  assert (SDL : s - e <= sd <= s + e) by (apply Rabs_le_inv in SDC; lra).
  assert (Se : 0 < s - e).
  { apply Rmult_lt_reg_l with (2 ^ 20); [apply pow_lt; lra|]. rewrite Rmult_0_r. lra. }
  assert (SD0 : 0 < sd) by lra.
  assert (RV : 0 < rvar d).
  { apply Rnot_le_lt. intros H. unfold sd in SD0. rewrite sqrt_neg_0 in SD0 by auto. lra. }
  destruct (varies d RV) as (u & v & Iu & Iv & Ne).
  assert (HK' : M + e <= 2 ^ 20 * sd).
  { eapply Rle_trans; [exact HK|]. apply Rmult_le_compat_l; [apply pow_le; lra|lra]. }
  assert (DX : forall i, (i < length d)%nat -> Rabs (nth i d 0) <= M + e).
  { intros i Hi. rewrite Ld in Hi. specialize (DE i Hi). specialize (HM i Hi).
    replace (nth i d 0) with ((nth i data 0 - base) + (nth i d 0 - (nth i data 0 - base))) by ring.
    eapply Rle_trans; [apply Rabs_triang|]. lra. }
  assert (PD : pulsed tsamp period phi w (- e) on d).
  { split; intros i Hi Ei; rewrite Ld in Hi; [now apply P1|]. specialize (P2 i Hi Ei). specialize (DE i Hi). apply Rabs_le_inv in DE. lra. }
  assert (HA' : float_search flog fpow (length d) [1%nat] tsamp pmin pmax bmin bmax) by (rewrite Ld; exact HA).
  destruct (ffa_search_float_detects bld flog fpow alloc allocz d tsamp pmin pmax fpmin bmin bmax ducy wtsp rw minpts
    (M + e) u v period phi w (- e) on Ha Hz HA' Fd Hd Fs DX Iu Iv Ne HK' HP PD)
    as (x & widths & P & B & S & t & b & rows & n & f & V & E & EW & H1 & H2 & H3 & H4 & H5 & H6 & H7 & H8 & H9 & H10 & G).
  rewrite Ld in *. fold sd in G.
  exists x, widths, P, B, S, t, b, rows, n, f, V, sd. split.
  { rewrite <- E. unfold ffa_search. rewrite ER. cbn [bind]. change (n_T (numF bld)) with R in *. rewrite Lr. fold size. rewrite Nat.eqb_refl. reflexivity. }
  repeat (split; [assumption|]). intros folded rho zb A T k Hk W Hwide. cbv zeta in G. specialize (G k Hk Hwide).
  fold folded rho W A in G. change (INR size * (1 + 2 * rho)) with A in G. fold T in G.
  eapply Rle_trans; [|exact G]. apply Rplus_le_compat_r.
  assert (Psg : 0 < sqrt (INR rows * V)).
  { pose proof (noise_variance_low _ _ _ H4 H10). apply sqrt_lt_R0. apply Rmult_lt_0_compat; [apply (lt_INR 0); lia|lra]. }
  apply Rmult_le_compat_r; [left; now apply Rinv_0_lt_compat|].
  (* the level *)
  assert (SI : 0 < / sd) by now apply Rinv_0_lt_compat.
  assert (ZB : Rabs ((- e - rmean d) / sd) <= zb).
  { unfold zb, Rdiv. rewrite Rabs_mult, (Rabs_pos_eq (/ sd)) by lra. apply Rmult_le_compat_r; [lra|].
    pose proof (mean_close data d base e Ld N1 DE) as MC.
    replace (- e - rmean d) with (- (e + (rmean d - (rmean data - base)) + (rmean data - base))) by ring. rewrite Rabs_Ropp.
    eapply Rle_trans; [apply Rabs_triang|]. pose proof (Rabs_triang e (rmean d - (rmean data - base))) as TR.
    rewrite (Rabs_pos_eq e) in TR by lra. lra. }
  (* the flux *)
  assert (FL1 : flux data base on folded true <= flux d (- e) on folded true).
  { unfold flux. rewrite Ld. fold size. apply rsum_le. intros i Hi. destruct (Bool.eqb (on i) true); [|lra].
    destruct (weight_01 i folded) as [W0 W1]. apply Rmult_le_compat_r; [lra|]. specialize (DE i Hi). apply Rabs_le_inv in DE. lra. }
  assert (FL0 : flux d (- e) on folded false <= flux data base on folded false + 2 * e * INR size).
  { unfold flux. rewrite Ld. fold size. rewrite (Rmult_comm (2 * e)), <- rsum_const, <- rsum_plus. apply rsum_le. intros i Hi.
    destruct (Bool.eqb (on i) false); [|lra]. destruct (weight_01 i folded) as [W0 W1]. specialize (DE i Hi). apply Rabs_le_inv in DE.
    apply Rle_trans with ((nth i data 0 - base + 2 * e) * weight i 0 folded); [apply Rmult_le_compat_r; lra|].
    assert (2 * e * weight i 0 folded <= 2 * e * 1) by (apply Rmult_le_compat_l; lra). lra. }
  assert (HW : (0 < W < b)%nat).
  { destruct (width_trials_float bld (Z.of_nat bmin) ducy wtsp ltac:(lia)) as (ws & EW' & _ & _ & Wn & Wf & _ & _ & Wlt).
    { apply Rle_lt_trans with (IZR (Z.of_nat bmin)).
      - apply Rmax_lub; [apply (IZR_le 1); lia|]. rewrite <- (rnd64_id (IZR (Z.of_nat bmin))) at 2 by (apply F64_int; lia).
        apply rnd64_le. assert (0 <= IZR (Z.of_nat bmin)) by (apply (IZR_le 0); lia). nra.
      - apply Rle_lt_trans with 4194304; [apply IZR_le; lia|]. replace 4194304 with (2 ^ 22) by ring. apply Rlt_pow; [lra|lia]. }
    specialize (Wlt Fd Hd ltac:(lia)). rewrite Forall_forall in Wf, Wlt.
    assert (ws = widths) by congruence. subst ws. assert (I : In (nth k widths 0%Z) widths) by now apply nth_In.
    unfold W. specialize (Wlt _ I). pose proof (proj1 (Wf _ I)). lia. }
  destruct (bh_facts b W HW) as (B1 & B2 & _).
  assert (RESP : boxcar_response b W (flux data base on folded true / sd) ((flux data base on folded false + 2 * e * INR size) / sd)
    <= boxcar_response b W (flux d (- e) on folded true / sd) (flux d (- e) on folded false / sd)).
  { unfold boxcar_response. rewrite <- bh_eq by auto.
    set (p := flux data base on folded true) in *. set (p' := flux d (- e) on folded true) in *.
    set (q := flux data base on folded false + 2 * e * INR size) in *. set (q' := flux d (- e) on folded false) in *.
    replace ((p / sd - INR W / (INR b - INR W) * (q / sd)) * bh b W) with ((bh b W * p - bb b W * q) * / sd) by (rewrite bb_eq by auto; unfold Rdiv; ring).
    replace ((p' / sd - INR W / (INR b - INR W) * (q' / sd)) * bh b W) with ((bh b W * p' - bb b W * q') * / sd) by (rewrite bb_eq by auto; unfold Rdiv; ring).
    apply Rmult_le_compat_r; [lra|].
    assert (bh b W * p <= bh b W * p') by (apply Rmult_le_compat_l; lra).
    assert (bb b W * q' <= bb b W * q) by (apply Rmult_le_compat_l; lra). lra. }
  set (H := sqrt (INR b / (INR W * INR (b - W)))) in *. assert (H0 : 0 <= H) by apply sqrt_pos.
  set (z := Rabs ((- e - rmean d) / sd)) in *.
  assert (RH : 0 < rho).
  { unfold rho, norm_accuracy. assert (0 <= (M + e) / sd) by (apply Rmult_le_pos; lra).
    assert (0 < / 2 ^ 25) by (apply Rinv_0_lt_compat, pow_lt; lra). assert (0 <= / 2 ^ 25 * ((M + e) / sd)) by (apply Rmult_le_pos; lra). lra. }
  assert (U53 : 0 < / 2 ^ 53) by (apply Rinv_0_lt_compat, pow_lt; lra).
  assert (ZZ : INR size * (rho * (3 + z) + / 2 ^ 53 * (2 * z + 1)) <= INR size * (rho * (3 + zb) + / 2 ^ 53 * (2 * zb + 1))).
  { apply Rmult_le_compat_l; [apply pos_INR|]. apply Rplus_le_compat; apply Rmult_le_compat_l; lra. }
  set (c := (1 + 31 * / 2 ^ 24) * T - A) in *.
  assert (H * (c + INR size * (rho * (3 + z) + / 2 ^ 53 * (2 * z + 1))) <= H * (c + INR size * (rho * (3 + zb) + / 2 ^ 53 * (2 * zb + 1))))
    by (apply Rmult_le_compat_l; lra).
  lra.
Qed.
Print Assumptions ffa_search_deredden_float_detects.

(** one sample of 3 in 96, medians over 31 samples *)
Example ffa_search_deredden_float_detects_ex :
  let on i := (i mod 96 =? 48)%nat in
  let data := map (fun i => if on i then 3 else 1) (seq 0 (100 * 100)) in
  let size := length data in let s := sqrt (rvar data) in
  let tsamp := / 1024 in let rw := 31 / 1024 in
  let wd := ZnearestE (rnd64 (rw / tsamp)) in
  let e := deredden_accuracy (samples_per_mean wd 31) 3 2 in
  float_search ln pow size [1%nat] tsamp (/ 16) 1 40 44 /\ double (/ 2) /\ / 2 < 1 /\
  Forall single data /\ (forall i, (i < size)%nat -> Rabs (nth i data 0) <= 3) /\
  (forall i, (i < size)%nat -> Rabs (nth i data 0 - 1) <= 2) /\ 2 + e <= 2 ^ 20 * (s - e) /\
  0 <= rw /\ rw / tsamp <= 2 ^ 51 /\ (0 < 31 <= 2 ^ 52)%Z /\ Z.odd 31 = true /\ window_fits wd 31 (Z.of_nat size) /\
  mostly_quiet data 1 (fst (groups_of wd (PInt 31))) (snd (groups_of wd (PInt 31))) /\
  / 16 <= 3 / 32 <= 1 * (1 - / 2 ^ 40) /\ pulsed tsamp (3 / 32) (1 / 2) (/ 96) 1 on data.
Proof.
  intros on data size s tsamp rw wd e.
  assert (L : length data = (100 * 100)%nat) by (unfold data; now rewrite map_length, seq_length).
  assert (FS : float_search ln pow (100 * 100) [1%nat] (/ 1024) (/ 16) 1 40 44).
  { destruct ffa_search_float_detects_ex as [FS _]. cbv zeta in FS. rewrite map_length, seq_length in FS. exact FS. }
  assert (DB : double (/ 2)) by (destruct ffa_search_float_detects_ex as (_ & _ & _ & _ & DB & _); exact DB).
  assert (PP : / 16 <= 3 / 32 <= 1 * (1 - / 2 ^ 40)) by (destruct periodogram_float_detects_ex as (_ & _ & _ & PP & _); exact PP).
  assert (VD : forall i, (i < 100 * 100)%nat -> nth i data 0 = if on i then 3 else 1).
  { intros i Hi. unfold data. now rewrite nth_map_seq. }
  assert (WD : wd = 31%Z).
  { unfold wd, rw, tsamp. replace (31 / 1024 / / 1024) with (IZR 31) by field. rewrite rnd64_id by (apply F64_int; lia). apply (Zrnd_IZR ZnearestE 31). }
  assert (PU : pulsed tsamp (3 / 32) (1 / 2) (/ 96) 1 on data).
  { split; rewrite L; intros i Hi Ei.
    - unfold on in Ei. apply Nat.eqb_eq in Ei. pose proof (Nat.div_mod i 96 ltac:(lia)) as D. rewrite Ei in D.
      exists (Z.of_nat (i / 96)). rewrite <- INR_IZR_INZ. apply (f_equal INR) in D. rewrite plus_INR, mult_INR in D.
      replace (INR 96) with 96 in D by (cbn; lra). replace (INR 48) with 48 in D by (cbn; lra). unfold tsamp. rewrite D. split; lra.
    - rewrite VD, Ei by auto. lra. }
  assert (EE : e <= / 2 ^ 20).
  { unfold e, deredden_accuracy, samples_per_mean. rewrite WD. change (31 <? 2 * 31)%Z with true. unfold median_accuracy. cbn [Nat.eqb].
    assert (/ 2 ^ 150 <= / 2 ^ 30) by (apply Rinv_le_contravar; [apply pow_lt; lra|apply Rle_pow; [lra|lia]]).
    replace (2 ^ 30) with 1073741824 in * by ring. replace (2 ^ 23) with 8388608 by ring. replace (2 ^ 20) with 1048576 by ring. lra. }
  assert (ES : INR (100 * 100) = 10000) by (rewrite mult_INR; replace (INR 100) with 100 by (cbn; lra); lra).
  assert (S1 : / 100 <= s).
  { unfold s. rewrite <- (sqrt_square (/ 100)) by lra. apply sqrt_le_1_alt. unfold rvar. rewrite L, ES. set (m := rmean data).
    replace (/ 100 * / 100) with (1 * / 10000) by lra. apply Rmult_le_compat_r; [lra|].
    change (100 * 100)%nat with (48 + (2 + (98 * 101 + 52)))%nat.
    rewrite rsum_split, rsum_split.
    assert (G1 : 0 <= rsum 48 (fun i => (nth i data 0 - m) ^ 2)) by (apply rsum_nonneg; intros; apply pow2_ge_0).
    assert (G2 : 0 <= rsum (98 * 101 + 52) (fun i => (nth (48 + (2 + i)) data 0 - m) ^ 2)) by (apply rsum_nonneg; intros; apply pow2_ge_0).
    assert (G3 : rsum 2 (fun i => (nth (48 + i) data 0 - m) ^ 2) = (3 - m) ^ 2 + (1 - m) ^ 2).
    { cbn [rsum]. rewrite !VD by (cbn; lia). change (on (48 + 0)%nat) with true. change (on (48 + 1)%nat) with false. cbv iota. ring. }
    rewrite G3.
    pose proof (pow2_ge_0 (m - 2)). lra. }
  unfold size. rewrite L. split; [exact FS|]. split; [exact DB|]. split; [lra|]. split.
  { apply Forall_forall. intros v Hv. unfold data in Hv. apply in_map_iff in Hv as (i & <- & _).
    destruct (on i); [apply (F32_int 3); lia|apply (F32_int 1); lia]. }
  split. { intros i Hi. rewrite VD by auto. destruct (on i); rewrite Rabs_pos_eq; lra. }
  split. { intros i Hi. rewrite VD by auto. destruct (on i); rewrite Rabs_pos_eq; lra. }
  split. { replace (2 ^ 20) with 1048576 in * by ring. lra. }
  split; [unfold rw; lra|]. split.
  { unfold rw, tsamp. replace (31 / 1024 / / 1024) with 31 by field. apply Rle_trans with (2 ^ 10); [cbn; lra|]. apply Rle_pow; [lra|lia]. }
  split; [lia|]. split; [reflexivity|]. rewrite WD. split; [unfold window_fits; cbn; split; [reflexivity|lia]|]. split; [|split; [exact PP|exact PU]].
  change (fst (groups_of 31 (PInt 31))) with 1%nat. change (snd (groups_of 31 (PInt 31))) with 31%nat.
  apply (pulse_train_is_mostly_quiet data tsamp (3 / 32) (1 / 2) (/ 96) 1 on); try lra; try lia; rewrite ?L.
  - unfold tsamp; lra.
  - intros i Hi Ei. apply PU; auto.
  - intros i Hi Ei. now rewrite VD, Ei by auto.
  - intros i Hi. assert (i = 0)%nat as -> by lia. rewrite Nat.div_1_r. split; reflexivity.
  - unfold tsamp. replace (INR 31) with 31 by (cbn; lra). cbn [INR]. lra.
Qed.
