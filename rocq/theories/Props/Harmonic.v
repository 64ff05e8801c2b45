(** C46: harmonic testing. *)
From Coq Require Import List Arith ZArith Bool Lia Reals Lra.
From Flocq Require Import Core.
From Verif Require Import Base.Result Base.Num Model.Cluster Model.Peaks Model.Harmonic Spec.BestApprox
  Proof.Cluster Proof.Harmonic.
Import ListNotations.
Local Open Scope R_scope.

(** [Fraction(x)] of a rational number is that number in lowest terms.  Every float is one; only
    the one conversion made by the code matters. *)
Definition exact_fraction (as_fraction : R -> res fraction) (n d : Z) : Prop :=
  (0 < d)%Z /\ Z.gcd n d = 1%Z /\ as_fraction (IZR n / IZR d) = Ok (n, d).

Definition pulse_width (X : peak numR) : R := p_ducy X / p_freq X.

(** the three conditions under which [H] is declared to be the [p/q]-th harmonic of [F]:
    over the observation the pulse trains drift apart by at most [phase_max] times the faster
    one's pulse width, dispersion delays across the band differ by at most [dm_max] times the
    shorter pulse, and the S/N is within [snr_max] of F.snr / sqrt(p q) *)
Definition in_phase (F H : peak numR) (p q : Z) (tobs phase_max : R) : Prop :=
  if Rle_bool (p_freq F) (p_freq H)
  then Rabs (IZR p / IZR q * p_freq F - p_freq H) * tobs / p_ducy H <= phase_max
  else Rabs (IZR q / IZR p * p_freq H - p_freq F) * tobs / p_ducy F <= phase_max.
Definition same_dm (F H : peak numR) (dF dH fmin fmax dm_max : R) : Prop :=
  Rabs (dF - dH) * 4150 * Rabs (/ fmin ^ 2 - / fmax ^ 2) / Rmin (pulse_width F) (pulse_width H) <= dm_max.
Definition snr_fits (F H : peak numR) (p q : Z) (snr_max : R) : Prop :=
  Rabs (p_snr H - p_snr F / sqrt (IZR p * IZR q)) <= snr_max.

Lemma best_positive x dmax a b : 1 <= x -> (1 <= dmax)%Z -> best_approx x dmax a b -> (0 < a)%Z.
Proof.
  intros Hx Hd (B & _ & H). specialize (H 1%Z 1%Z ltac:(lia)).
  destruct (Z_lt_le_dec 0 a) as [|L]; auto. exfalso.
  assert (IZR a / IZR b <= 0).
  { assert (Hb : 0 < IZR b) by (apply IZR_lt; lia). apply IZR_le in L.
    apply Rmult_le_reg_r with (IZR b); auto. replace (IZR a / IZR b * IZR b) with (IZR a) by (field; lra). lra. }
  rewrite (Rabs_left1 (IZR a / IZR b - x)) in H by lra.
  rewrite (Rabs_left1 (1 / 1 - x)) in H by lra. lra.
Qed.

Lemma frac_gcd n d : (0 < n)%Z -> (0 < d)%Z -> Z.gcd n d = 1%Z -> frac_inv (n, d) = Ok (d, n).
Proof.
  intros Hn Hd G. unfold frac_inv. cbn [fst snd]. destruct (Z.eqb_spec n 0); [lia|].
  rewrite frac_coprime; auto. now rewrite Z.gcd_comm.
Qed.

Lemma nmin2_R a b : nmin2 numR a b = Rmin a b.
Proof.
  unfold nmin2. rsimp. destruct (Rlt_bool_spec b a).
  - rewrite Rmin_right; lra.
  - rewrite Rmin_left; lra.
Qed.

Lemma pow_m2_R x : 0 < x -> pow_m2 numR x = Ok (/ x ^ 2).
Proof.
  intros H. unfold pow_m2. rsimp. destruct (Req_bool_spec x 0); [lra|]. f_equal. field. lra.
Qed.

Lemma peak_eqb_freq a b : p_freq a <> p_freq b -> peak_eqb numR a b = false.
Proof.
  intros H. unfold peak_eqb. rsimp. rewrite (Req_bool_false (p_freq a) (p_freq b) H).
  rewrite andb_false_r. reflexivity.
Qed.

Lemma peak_eqb_refl a : peak_eqb numR a a = true.
Proof.
  unfold peak_eqb. rsimp. rewrite !Req_bool_true by reflexivity. rewrite Z.eqb_refl, !Nat.eqb_refl. cbn.
  destruct (p_dm a); [|reflexivity]. now rewrite Req_bool_true.
Qed.

Lemma Rle_bool_iff a b : Rle_bool a b = true <-> a <= b.
Proof. destruct (Rle_bool_spec a b); split; intros; auto; try lra; discriminate. Qed.

(** It returns for peaks with positive frequencies and DMs; also when the fraction is only near
    the ratio of the frequencies. *)
Theorem htest_returns :
  forall as_fraction (F H : peak numR) (tobs fmin fmax : R) (denom_max : Z) (phase_max dm_max snr_max : R),
  0 < p_freq F -> 0 < p_freq H -> 0 < tobs -> 0 < fmin < fmax -> (1 <= denom_max)%Z ->
  p_dm F <> None -> p_dm H <> None ->
  (forall x, 1 <= x -> exists n d, as_fraction x = Ok (n, d) /\ (0 < d <= n)%Z /\ Z.gcd n d = 1%Z) ->
  exists r, htest numR as_fraction F H tobs fmin fmax denom_max phase_max dm_max snr_max = Ok r.
Proof.
  intros as_fraction F H tobs fmin fmax denom_max phase_max dm_max snr_max PF PH PT PB PD DF DH EX.
  unfold htest, hdiag. rsimp. rewrite !Rlt_bool_true by lra. cbn [guard bind].
  set (sf := if Rlt_bool (p_freq H) (p_freq F) then (H, F) else (F, H)).
  assert (S1 : 0 < p_freq (fst sf) /\ p_freq (fst sf) <= p_freq (snd sf)).
  { unfold sf. destruct (Rlt_bool_spec (p_freq H) (p_freq F)); cbn [fst snd]; numR_ty; lra. }
  destruct sf as [slow fast]. cbn [fst snd] in S1.
  destruct (EX (p_freq fast / p_freq slow)) as (n & d & E & (D1 & D2) & G).
  { apply Rmult_le_reg_r with (p_freq slow); [lra|]. unfold Rdiv. rewrite Rmult_assoc, Rinv_l by lra. numR_ty. lra. }
  numR_ty. rewrite E. cbn [bind].
  destruct (limit_denominator_best n d denom_max D1 G PD) as (a & b & EL & BA). rewrite EL. cbn [bind].
  assert (GE : 1 <= IZR n / IZR d).
  { apply Rmult_le_reg_r with (IZR d); [apply IZR_lt; lia|]. unfold Rdiv. rewrite Rmult_assoc, Rinv_l by (apply not_0_IZR; lia).
    rewrite Rmult_1_l, Rmult_1_r. apply IZR_le. lia. }
  assert (AP : (1 <= a)%Z).
  { destruct (Z_lt_le_dec a 1) as [L|L]; auto. exfalso. destruct BA as (B1 & B2 & B3).
    pose proof (B3 1%Z 1%Z ltac:(lia)) as B4.
    assert (IZR a / IZR b <= 0).
    { unfold Rdiv. assert (0 < / IZR b) by (apply Rinv_0_lt_compat, IZR_lt; lia). assert (IZR a <= 0) by (apply IZR_le; lia). nra. }
    replace (IZR 1 / IZR 1) with 1 in B4 by field. revert B4. rewrite Rabs_left1, Rabs_left1 by lra. lra. }
  destruct (peak_eqb numR H slow).
  - unfold frac_inv. cbn [fst]. destruct (Z.eqb_spec a 0); [lia|]. cbn [bind].
    destruct (p_dm F); [|easy]. destruct (p_dm H); [|easy]. rewrite !pow_m2_R by lra. cbn [bind]. eauto.
  - cbn [bind]. destruct (p_dm F); [|easy]. destruct (p_dm H); [|easy]. rewrite !pow_m2_R by lra. cbn [bind]. eauto.
Qed.
Print Assumptions htest_returns.

(** C46 *)
Theorem htest_correct :
  forall as_fraction (F H : peak numR) (tobs fmin fmax : R) (denom_max : Z)
    (phase_max dm_max snr_max dF dH : R) (n d : Z),
  0 < p_freq F -> 0 < p_freq H -> 0 < tobs -> 0 < fmin < fmax -> (1 <= denom_max)%Z ->
  p_dm F = Some dF -> p_dm H = Some dH ->
  (* the frequencies have the rational ratio n/d *)
  exact_fraction as_fraction n d -> Rmax (p_freq F) (p_freq H) / Rmin (p_freq F) (p_freq H) = IZR n / IZR d ->
  exists related p q,
    htest numR as_fraction F H tobs fmin fmax denom_max phase_max dm_max snr_max = Ok (related, (p, q)) /\
    (0 < p)%Z /\ (0 < q)%Z /\ Z.gcd p q = 1%Z /\
    (p_freq F <= p_freq H -> best_approx (p_freq H / p_freq F) denom_max p q) /\
    (p_freq H <= p_freq F -> best_approx (p_freq F / p_freq H) denom_max q p) /\
    (related = true <->
       in_phase F H p q tobs phase_max /\ same_dm F H dF dH fmin fmax dm_max /\ snr_fits F H p q snr_max).
Proof.
  intros as_fraction F H tobs fmin fmax denom_max phase_max dm_max snr_max dF dH n d
    PF PH PT PB PD DF DH (Hd & G & EX) RAT.
  destruct (limit_denominator_best n d denom_max Hd G PD) as (a & b & EL & BA).
  assert (GE : 1 <= IZR n / IZR d).
  { rewrite <- RAT. assert (0 < Rmin (p_freq F) (p_freq H)) by (apply Rmin_glb_lt; lra).
    apply Rmult_le_reg_r with (Rmin (p_freq F) (p_freq H)); [lra|].
    unfold Rdiv. rewrite Rmult_assoc, Rinv_l by lra. rewrite Rmult_1_l, Rmult_1_r.
    apply Rle_trans with (p_freq F); [apply Rmin_l|apply Rmax_l]. }
  assert (PA := best_positive _ _ _ _ GE PD BA).
  destruct BA as (BB & GG & BEST).
  unfold htest, hdiag. rsimp.
  rewrite (Rlt_bool_true fmin fmax) by lra. cbn [guard bind].
  rewrite (Rlt_bool_true 0 tobs) by lra. cbn [guard bind].
  destruct (Rlt_bool_spec (p_freq H) (p_freq F)) as [L|L].
  - rewrite Rmax_left, Rmin_right in RAT by lra. rewrite RAT, EX. cbn [bind].
    rewrite EL. cbn [bind]. rewrite peak_eqb_refl. rewrite frac_gcd by (auto; lia). cbn [bind].
    rewrite DF, DH. rewrite !pow_m2_R by lra. cbn [bind fst snd to_float].
    rewrite !nabs_R, nmin2_R. eexists _, b, a. split; [reflexivity|].
    split; [lia|]. split; [lia|]. split; [now rewrite Z.gcd_comm|].
    split; [lra|]. split; [intros _; try rewrite RAT; split; auto|].
    rewrite !andb_true_iff, !Rle_bool_iff. unfold in_phase, same_dm, snr_fits, pulse_width, to_float. rsimp.
    rewrite (Rle_bool_false (p_freq F) (p_freq H)) by lra. rewrite mult_IZR. tauto.
  - rewrite Rmax_right, Rmin_left in RAT by lra. rewrite RAT, EX. cbn [bind].
    rewrite EL. cbn [bind].
    assert (EI : (if peak_eqb numR H F then frac_inv (a, b) else @Ok fraction (a, b)) = Ok (a, b) /\
      (p_freq H <= p_freq F -> a = b)).
    { destruct (Req_dec (p_freq H) (p_freq F)) as [E|E].
      - assert (AB : a = b).
        { rewrite E in RAT. unfold Rdiv at 1 in RAT. rewrite Rinv_r in RAT by lra.
          specialize (BEST 1%Z 1%Z ltac:(lia)). rewrite <- RAT in BEST.
          replace (1 / 1 - 1) with 0 in BEST by lra. rewrite Rabs_R0 in BEST.
          assert (Rabs (IZR a / IZR b - 1) = 0) by (pose proof (Rabs_pos (IZR a / IZR b - 1)); lra).
          assert (Hb : 0 < IZR b) by (apply IZR_lt; lia).
          assert (IZR a / IZR b - 1 = 0) by (destruct (Req_dec (IZR a / IZR b - 1) 0); auto; exfalso; now apply (Rabs_no_R0 (IZR a / IZR b - 1))).
          apply eq_IZR. apply Rmult_eq_reg_r with (/ IZR b); [|apply Rinv_neq_0_compat; lra].
          rewrite Rinv_r by lra. unfold Rdiv in *. lra. }
        split; auto. destruct (peak_eqb numR H F); auto. rewrite frac_gcd by (auto; lia). now rewrite AB.
      - split; [|lra]. rewrite peak_eqb_freq; auto. }
    destruct EI as [-> EI]. cbn [bind]. rewrite DF, DH. rewrite !pow_m2_R by lra. cbn [bind fst snd].
    rewrite !nabs_R, nmin2_R. eexists _, a, b. split; [reflexivity|].
    split; [lia|]. split; [lia|]. split; [auto|].
    split; [intros _; try rewrite RAT; split; auto|]. split.
    + intros L'. assert (E := EI L'). assert (EF : p_freq H = p_freq F) by lra.
      rewrite <- E in *. rewrite EF in *. try rewrite RAT. split; [auto|]. split; auto.
    + rewrite !andb_true_iff, !Rle_bool_iff. unfold in_phase, same_dm, snr_fits, pulse_width, to_float. rsimp.
      rewrite (Rle_bool_true (p_freq F) (p_freq H)) by lra. rewrite mult_IZR. tauto.
Qed.
Print Assumptions htest_correct.

(** a rational-valued Fraction() exists, and the theorem applies: 3 Hz against 1 Hz, S/N 10
    against 5.7, same DM *)
Definition mkpeak (freq ducy snr dm : R) : peak numR :=
  Peak (N := numR) (/ freq) freq 1 ducy 0 0 snr (Some dm).

Example htest_correct_used : forall as_fraction, exact_fraction as_fraction 3 1 ->
  let F := mkpeak 1 (1 / 10) 10 5 in let H := mkpeak 3 (1 / 10) 6 5 in
  htest numR as_fraction F H 100 1000 2000 100 1 3 3 = Ok (true, (3, 1)%Z) /\
  htest numR as_fraction H F 100 1000 2000 100 1 3 3 = Ok (false, (1, 3)%Z).
Proof.
  intros af EX F H.
  assert (S3 : 17 / 10 < sqrt 3 < 18 / 10).
  { split; [apply Rsqr_incrst_0|apply Rsqr_incrst_0]; try (rewrite Rsqr_sqrt by lra; unfold Rsqr; lra);
      try lra; apply sqrt_pos. }
  assert (UQ : forall x a b dmax p q, best_approx x dmax a b -> x = IZR p / IZR q -> (0 < q <= dmax)%Z ->
    IZR a / IZR b = IZR p / IZR q).
  { intros x a b dmax p q (_ & _ & B) -> Hq. specialize (B p q Hq).
    rewrite (Rminus_diag_eq (IZR p / IZR q)), Rabs_R0 in B by reflexivity.
    assert (Z0 : Rabs (IZR a / IZR b - IZR p / IZR q) = 0) by (pose proof (Rabs_pos (IZR a / IZR b - IZR p / IZR q)); lra).
    destruct (Req_dec (IZR a / IZR b - IZR p / IZR q) 0); [lra|]. exfalso. now apply (Rabs_no_R0 _ H0). }
  assert (CO : forall a b, Z.gcd a b = 1%Z -> (0 < b)%Z -> IZR a / IZR b = 3 -> a = 3%Z /\ b = 1%Z).
  { intros a b Gc Hb E. assert (0 < IZR b) by (apply IZR_lt; lia).
    assert (IZR a = IZR (3 * b)). { rewrite mult_IZR. rewrite <- E. field. lra. }
    apply eq_IZR in H1. subst a.
    assert (D : Z.divide b (Z.gcd (3 * b) b)) by (apply Z.gcd_greatest; [exists 3%Z|exists 1%Z]; lia).
    rewrite Gc in D. apply Z.divide_1_r_nonneg in D; lia. }
  split.
  - destruct (htest_correct af F H 100 1000 2000 100 1 3 3 5 5 3 1) as (r & p & q & E & Pp & Pq & Gc & B & _ & R);
      try (cbn; lra); try reflexivity; try exact EX; try lia.
    { cbn. rewrite Rmax_right, Rmin_left by lra. lra. }
    assert (PQ : p = 3%Z /\ q = 1%Z).
    { apply CO; auto. replace 3 with (3 / 1) by lra. apply (UQ (3 / 1) p q 100%Z 3%Z 1%Z); auto; [|lia].
      replace (3 / 1) with (p_freq H / p_freq F) by (cbn; lra). apply B. cbn. lra. }
    destruct PQ as [-> ->]. rewrite E. f_equal. f_equal. apply R.
    unfold in_phase, same_dm, snr_fits, pulse_width. cbn. rewrite Rle_bool_true by lra.
    split; [|split].
    + replace (3 / 1 * 1 - 3) with 0 by lra. rewrite Rabs_R0. lra.
    + replace (5 - 5) with 0 by lra. rewrite Rabs_R0. unfold Rdiv. rewrite !Rmult_0_l. lra.
    + replace (3 * 1) with 3 by lra. apply Rabs_le.
      assert (10 / (18 / 10) < 10 / sqrt 3 < 10 / (17 / 10)).
      { unfold Rdiv. split; apply Rmult_lt_compat_l; try lra; apply Rinv_lt_contravar; try nra. }
      lra.
  - destruct (htest_correct af H F 100 1000 2000 100 1 3 3 5 5 3 1) as (r & p & q & E & Pp & Pq & Gc & _ & B & R);
      try (cbn; lra); try reflexivity; try exact EX; try lia.
    { cbn. rewrite Rmax_left, Rmin_right by lra. lra. }
    assert (PQ : q = 3%Z /\ p = 1%Z).
    { apply CO; auto. { now rewrite Z.gcd_comm. } replace 3 with (3 / 1) by lra.
      apply (UQ (3 / 1) q p 100%Z 3%Z 1%Z); auto; [|lia].
      replace (3 / 1) with (p_freq H / p_freq F) by (cbn; lra). apply B. cbn. lra. }
    destruct PQ as [-> ->]. rewrite E. f_equal. f_equal. destruct r; auto. exfalso.
    destruct (proj1 R eq_refl) as (_ & _ & S). unfold snr_fits in S. cbn in S.
    replace (1 * 3) with 3 in S by lra. 
    assert (6 / sqrt 3 < 6 / (17 / 10)).
    { unfold Rdiv. apply Rmult_lt_compat_l; try lra; apply Rinv_lt_contravar; try nra. }
    assert (10 - 6 / sqrt 3 <= 3) by (eapply Rle_trans; [apply Rle_abs|exact S]). lra.
Qed.

(** The denominator of the reported fraction can exceed [denom_max], whatever its value: a
    fundamental of frequency [denom_max + 1] Hz and its [1 / (denom_max + 1)]-th harmonic. *)
Theorem htest_denominator_refuted :
  forall as_fraction (denom_max : Z), exact_fraction as_fraction (denom_max + 1) 1 -> (1 <= denom_max)%Z ->
  exists F H : peak numR,
    htest numR as_fraction F H 100 1000 2000 denom_max 1 3 3 = Ok (true, (1, denom_max + 1)%Z).
Proof.
  intros af dm EX Hd.
  set (K := (dm + 1)%Z). assert (HK : 2 <= IZR K) by (apply IZR_le; unfold K; lia).
  assert (SK : 0 < sqrt (1 * IZR K)) by (apply sqrt_lt_R0; lra).
  set (F := mkpeak (IZR K) (1 / 10) (7 * sqrt (1 * IZR K)) 5). set (H := mkpeak 1 (1 / 10) 7 5).
  exists F, H.
  destruct (htest_correct af F H 100 1000 2000 dm 1 3 3 5 5 K 1) as (r & p & q & E & Pp & Pq & Gc & _ & B & R);
    try (cbn; lra); try reflexivity; try exact EX; try lia.
  { cbn. rewrite Rmax_left, Rmin_right by lra. lra. }
  assert (PQ : q = K /\ p = 1%Z).
  { assert (BB : best_approx (IZR K / 1) dm q p).
    { replace (IZR K / 1) with (p_freq F / p_freq H) by (cbn; lra). apply B. cbn. lra. }
    destruct BB as (Bp & Bg & Bb). specialize (Bb K 1%Z ltac:(lia)).
    rewrite (Rminus_diag_eq (IZR K / 1)), Rabs_R0 in Bb by reflexivity.
    assert (Z0 : Rabs (IZR q / IZR p - IZR K / 1) = 0) by (pose proof (Rabs_pos (IZR q / IZR p - IZR K / 1)); lra).
    assert (E0 : IZR q / IZR p - IZR K / 1 = 0).
    { destruct (Req_dec (IZR q / IZR p - IZR K / 1) 0); auto. exfalso. now apply (Rabs_no_R0 _ H0). }
    assert (Pp' : 0 < IZR p) by (apply IZR_lt; lia).
    assert (EQ : IZR q = IZR (K * p)).
    { rewrite mult_IZR. replace (IZR q) with (IZR q / IZR p * IZR p) by (field; lra).
      replace (IZR q / IZR p) with (IZR K) by lra. reflexivity. }
    apply eq_IZR in EQ. subst q.
    assert (D : Z.divide p (Z.gcd p (K * p))) by (apply Z.gcd_greatest; [exists 1%Z|exists K]; lia).
    rewrite Gc in D. apply Z.divide_1_r_nonneg in D; [|lia]. subst p. split; [ring|reflexivity]. }
  destruct PQ as [-> ->]. rewrite E. f_equal. f_equal. apply R.
  unfold in_phase, same_dm, snr_fits, pulse_width. cbn. rewrite Rle_bool_false by lra.
  split; [|split].
  - replace (IZR K / 1 * 1 - IZR K) with 0 by lra. rewrite Rabs_R0. lra.
  - replace (5 - 5) with 0 by lra. rewrite Rabs_R0. unfold Rdiv. rewrite !Rmult_0_l. lra.
  - replace (7 - 7 * sqrt (1 * IZR K) / sqrt (1 * IZR K)) with 0 by (field; lra). rewrite Rabs_R0. lra.
Qed.
Print Assumptions htest_denominator_refuted.

(** The documentation says related candidates have H.snr within [snr_distance_max] of
    F.snr * sqrt(p q); the example above (10 against 6 at p/q = 3) shows otherwise. *)
Theorem htest_snr_doc_refuted :
  forall as_fraction, exact_fraction as_fraction 3 1 ->
  exists (F H : peak numR) (p q : Z) (snr_max : R),
    htest numR as_fraction F H 100 1000 2000 100 1 3 snr_max = Ok (true, (p, q)) /\
    ~ Rabs (p_snr H - p_snr F * sqrt (IZR p * IZR q)) <= snr_max.
Proof.
  intros af EX. exists (mkpeak 1 (1 / 10) 10 5), (mkpeak 3 (1 / 10) 6 5), 3%Z, 1%Z, 3. split.
  - apply htest_correct_used. exact EX.
  - cbn. replace (3 * 1) with 3 by lra. intros A.
    assert (17 / 10 < sqrt 3).
    { apply Rsqr_incrst_0; try (rewrite Rsqr_sqrt by lra; unfold Rsqr; lra); try lra. apply sqrt_pos. }
    apply Rabs_le_inv in A. lra.
Qed.
Print Assumptions htest_snr_doc_refuted.

(** conversions meeting the hypothesis exist *)
Example exact_fraction_used : exact_fraction (fun _ => Ok (3, 1)%Z) 3 1.
Proof. repeat split. Qed.
