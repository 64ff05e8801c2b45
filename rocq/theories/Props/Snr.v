(** C19 - C22: boxcar S/N. *)
From Coq Require Import List Arith ZArith Bool Lia Reals Lra Psatz.
From Flocq Require Import Core.
From Verif Require Import Base.Result Base.Buf Base.Num Model.Kernels Model.Transforms Model.Libffa
  Model.Snr Spec.Sums Spec.Boxcar Proof.Transforms Proof.Kernels Proof.Snr Props.Downsample.
Import ListNotations.
Local Open Scope R_scope.

Definition good_widths (ws : list nat) (n : nat) : Prop := forall w, In w ws -> (0 < w < n)%nat.

Lemma good_widths_forallb ws n :
  good_widths ws n <-> forallb (fun w => (0 <? w) && (w <? n))%nat ws = true.
Proof.
  rewrite forallb_forall. split; intros H w Hw; specialize (H w Hw).
  - apply andb_true_intro. split; apply Nat.ltb_lt; lia.
  - apply andb_prop in H. destruct H as [H1 H2]. apply Nat.ltb_lt in H1, H2. lia.
Qed.

(** C19.  A profile has fewer than 2^64 bins. *)
Theorem snr_matched_filter :
  forall (alloc : nat -> list R) (x : list R) (ws : list nat) (sd : R), allocates alloc ->
  (Z.of_nat (length x) < 2 ^ 64)%Z -> ws <> [] -> good_widths ws (length x) -> 0 < sd ->
  exists out : list R, py_snr1 numR alloc x ws sd = Ok out /\ length out = length ws /\
    forall k, (k < length ws)%nat ->
      exists v, best_response x (nth k ws 0%nat) v /\ nth k out 0 = v / sd.
Proof.
  intros alloc x ws sd Ha Hx Hws Hw Hsd.
  unfold py_snr1, check_stdnoise, check_trial_widths. rsimp. rewrite Rlt_bool_true by auto.
  cbn [guard bind]. numR_ty. rewrite (proj1 (good_widths_forallb ws (length x)) Hw). cbn [guard bind].
  destruct (snr1_spec alloc x 0 (length x) ws sd (alloc (length ws)) 0)
    as (out & g & E & (L & W & _) & V); auto; [rewrite Ha; lia|].
  exists out. split; auto. split; [rewrite L; apply Ha|].
  intros k Hk. exists (g k * sd). split.
  - apply is_resp_best; auto. apply Hw, nth_In; auto.
  - specialize (W k Hk). cbn [Nat.add] in W. rewrite (nth_error_nth _ _ 0 W). field. lra.
Qed.
Print Assumptions snr_matched_filter.

Example snr_matched_filter_ex :
  [1; 2]%nat <> [] /\ good_widths [1; 2]%nat (length [0; 1; 5; 2]) /\ 0 < 1.
Proof.
  split; [discriminate|]. split; [|lra]. intros w [<-|[<-|[]]]; cbn; lia.
Qed.

(** C19 for many profiles of any array shape: the S/N of profile [i] at width number [k]. *)
Theorem boxcar_snr_matched_filter :
  forall (alloc : nat -> list R) (data : ndarray R) (lead : list nat) (b : nat)
    (ws : list nat) (sd : R), allocates alloc -> nd_wf data ->
  nd_shape data = lead ++ [b] -> (0 < b)%nat -> (Z.of_nat b < 2 ^ 64)%Z ->
  ws <> [] -> good_widths ws b -> 0 < sd ->
  exists out : ndarray R, boxcar_snr numR alloc data ws sd = Ok out /\ nd_wf out /\
    nd_shape out = lead ++ [length ws] /\
    forall i k, (i < fold_right Nat.mul 1 lead)%nat -> (k < length ws)%nat ->
      exists v,
        best_response (firstn b (skipn (i * b) (nd_data data))) (nth k ws 0%nat) v /\
        nth (i * length ws + k) (nd_data out) 0 = v / sd.
Proof.
  intros alloc data lead b ws sd Ha Hwf Hsh Hb Hb64 Hws Hw Hsd.
  unfold boxcar_snr. numR_ty. rewrite Hsh, rev_app_distr. cbn [rev app].
  destruct (Nat.eqb_spec b 0); [lia|].
  set (rows := fold_right Nat.mul 1%nat lead).
  assert (Hs : forall l c, fold_right Nat.mul 1%nat (l ++ [c]) = (fold_right Nat.mul 1 l * c)%nat).
  { induction l as [|a l IH]; intros c; cbn; [lia|]. rewrite IH. lia. }
  assert (Hsize : nd_size data = (rows * b)%nat).
  { unfold nd_size. rewrite Hsh. apply Hs. }
  rewrite Hsize, Nat.div_mul by auto.
  unfold py_snr2, check_stdnoise, check_trial_widths. rsimp. rewrite Rlt_bool_true by auto.
  cbn [guard bind a_cols a_rows a_data].
  rewrite (proj1 (good_widths_forallb ws b) Hw). cbn [guard bind].
  destruct (snr2_spec alloc (nd_data data) 0 rows b ws sd (alloc (rows * length ws)%nat) 0)
    as (out & E & L & _ & V); auto.
  { numR_ty. rewrite Hwf, Hsize. lia. }
  { rewrite Ha. lia. }
  numR_ty. rewrite E. cbn [bind]. rewrite rev_involutive.
  eexists. split; [reflexivity|]. split.
  { unfold nd_wf, nd_size. cbn. rewrite Hs. rewrite L. apply Ha. }
  split; [reflexivity|]. cbn [nd_data].
  intros i k Hi Hk. specialize (V i k Hi Hk). cbn [Nat.add] in V.
  set (row := firstn b (skipn (i * b) (nd_data data))).
  assert (Lr : length row = b).
  { unfold row. rewrite firstn_length, skipn_length, Hwf, Hsize. fold rows in Hi. nia. }
  exists (nth (i * length ws + k) out 0 * sd). split.
  - apply is_resp_best. { rewrite Lr. apply Hw, nth_In; auto. }
    rewrite Lr.
    assert (N1 : forall j, (j < b)%nat -> nth (0 + j) row 0 = nth (i * b + j) (nd_data data) 0).
    { intros j Hj. unfold row. cbn [Nat.add].
      assert (G : forall (l : list R) n m, (m < n)%nat -> nth m (firstn n l) 0 = nth m l 0).
      { clear. induction l as [|a l IH]; intros [|n] [|m] H; cbn; auto; try lia. apply IH. lia. }
      rewrite G by auto.
      assert (G2 : forall (l : list R) n m, nth m (skipn n l) 0 = nth (n + m) l 0).
      { clear. induction l as [|a l IH]; intros [|n] m; cbn; auto; destruct m; auto. }
      now rewrite G2. }
    assert (Wb : (nth k ws 0 < b)%nat) by (apply Hw, nth_In; auto).
    assert (W1 : forall phi, (phi < b)%nat ->
       window_sum b phi (nth k ws 0%nat) (fun j => nth (0 + j) row 0)
       = window_sum b phi (nth k ws 0%nat) (fun j => nth (i * b + j) (nd_data data) 0)).
    { intros phi Hp. apply rsum_ext. intros j Hj. apply N1. apply Nat.mod_upper_bound. lia. }
    assert (W2 : rsum b (fun j => nth (0 + j) row 0) = rsum b (fun j => nth (i * b + j) (nd_data data) 0)).
    { apply rsum_ext. auto. }
    destruct V as [(phi & Hp & Ev) M]. split.
    + exists phi. split; auto. rewrite W1, W2 by auto. exact Ev.
    + intros phi' Hp'. rewrite W1, W2 by auto. apply M; auto.
  - cbn [a_data]. field. lra.
Qed.
Print Assumptions boxcar_snr_matched_filter.

Example boxcar_snr_matched_filter_ex :
  let data := Nd [2; 3]%nat [1; 2; 3; 4; 5; 6] in
  nd_wf data /\ nd_shape data = [2%nat] ++ [3%nat] /\ good_widths [1; 2]%nat 3.
Proof. repeat split; auto; intros; destruct H as [<-|[<-|[]]]; lia. Qed.

(** C20.  [rotated x k] is the profile rolled by [k] bins. *)
Definition rotated (x : list R) (k : nat) : list R :=
  map (fun i => nth ((i + k) mod length x) x 0) (seq 0 (length x)).

Lemma rotated_length x k : length (rotated x k) = length x.
Proof. unfold rotated. now rewrite map_length, seq_length. Qed.

Lemma rotated_nth x k i : (i < length x)%nat ->
  nth i (rotated x k) 0 = nth ((i + k) mod length x) x 0.
Proof.
  intros H. unfold rotated. now rewrite nth_map_seq.
Qed.

Lemma is_resp_rot x k w v : (0 < w < length x)%nat ->
  is_resp x 0 (length x) w v -> is_resp (rotated x k) 0 (length x) w v.
Proof.
  intros Hw [(phi & Hp & E) M]. set (n := length x) in *.
  assert (W : forall p, (p < n)%nat -> window_sum n p w (fun j => nth (0 + j) (rotated x k) 0)
     = window_sum n ((p + k) mod n) w (fun j => nth (0 + j) x 0)).
  { intros p Hpp. apply rsum_ext. intros j Hj. cbn [Nat.add].
    rewrite rotated_nth by (apply Nat.mod_upper_bound; fold n; lia). fold n.
    rewrite Nat.add_mod_idemp_l, Nat.add_mod_idemp_r by lia. do 2 f_equal. lia. }
  assert (T : rsum n (fun j => nth (0 + j) (rotated x k) 0) = rsum n (fun j => nth (0 + j) x 0)).
  { rewrite <- (rsum_rot n k (fun j => nth (0 + j) x 0)) by lia.
    apply rsum_ext. intros j Hj. cbn [Nat.add]. now rewrite rotated_nth. }
  split.
  - exists ((phi + (n - k mod n)) mod n)%nat. split; [apply Nat.mod_upper_bound; lia|].
    rewrite W, T by (apply Nat.mod_upper_bound; lia).
    rewrite Nat.add_mod_idemp_l by lia.
    assert (EQ : ((phi + (n - k mod n) + k) mod n = phi)%nat).
    { pose proof (Nat.mod_upper_bound k n ltac:(lia)).
      rewrite <- Nat.add_mod_idemp_r by lia.
      replace (phi + (n - k mod n) + k mod n)%nat with (phi + 1 * n)%nat by lia.
      rewrite Nat.mod_add by lia. apply Nat.mod_small. auto. }
    rewrite EQ. exact E.
  - intros p Hpp. rewrite W, T by auto. apply M. apply Nat.mod_upper_bound; lia.
Qed.

Lemma is_resp_affine x a c w v : (0 < w < length x)%nat -> 0 < a ->
  is_resp x 0 (length x) w v ->
  is_resp (map (fun y => a * y + c) x) 0 (length x) w (a * v).
Proof.
  intros Hw Ha [(phi & Hp & E) M]. set (n := length x) in *.
  destruct (bh_facts n w Hw) as (B1 & B2 & B3 & B4 & Hn & W1 & W2).
  assert (N1 : forall j, (j < n)%nat ->
     nth (0 + j) (map (fun y => a * y + c) x) 0 = a * nth (0 + j) x 0 + c * 1).
  { intros j Hj. cbn [Nat.add]. rewrite (nth_map _ _ _ _ 0) by auto. ring. }
  assert (W : forall p, (p < n)%nat ->
     (bh n w + bb n w) * window_sum n p w (fun j => nth (0 + j) (map (fun y => a * y + c) x) 0)
       - bb n w * rsum n (fun j => nth (0 + j) (map (fun y => a * y + c) x) 0)
     = a * ((bh n w + bb n w) * window_sum n p w (fun j => nth (0 + j) x 0)
       - bb n w * rsum n (fun j => nth (0 + j) x 0))).
  { intros p Hpp. unfold window_sum.
    rewrite (rsum_ext w _ (fun j => a * nth (0 + (j + p) mod n) x 0 + c * 1))
      by (intros; apply N1; apply Nat.mod_upper_bound; lia).
    rewrite (rsum_ext n _ (fun j => a * nth (0 + j) x 0 + c * 1)) by auto.
    rewrite !rsum_plus, !rsum_scal, !rsum_const. 
    assert ((bh n w + bb n w) * INR w = bb n w * INR n) by (rewrite Hn; lra).
    replace ((bh n w + bb n w) * (a * rsum w (fun i => nth (0 + (i + p) mod n) x 0) + c * (INR w * 1)))
      with (a * (bh n w + bb n w) * rsum w (fun i => nth (0 + (i + p) mod n) x 0)
            + c * ((bh n w + bb n w) * INR w)) by ring.
    rewrite H. ring. }
  split.
  - exists phi. split; auto. rewrite W by auto. f_equal. exact E.
  - intros p Hpp. rewrite W by auto. apply Rmult_le_compat_l; [lra|]. apply M; auto.
Qed.

(** average of the window sums over phases *)
Lemma window_average n w g : (0 < n)%nat ->
  rsum n (fun p => window_sum n p w g) = INR w * rsum n g.
Proof.
  intros Hn. unfold window_sum. rewrite rsum_swap.
  rewrite (rsum_ext w _ (fun _ => rsum n g)); [apply rsum_const|].
  intros k Hk. rewrite <- (rsum_rot n k g) by auto. apply rsum_ext. intros p Hp. f_equal. f_equal. lia.
Qed.

Lemma is_resp_nonneg x w v : (0 < w < length x)%nat -> is_resp x 0 (length x) w v -> 0 <= v.
Proof.
  intros Hw [_ M]. set (n := length x) in *.
  destruct (bh_facts n w Hw) as (B1 & B2 & B3 & B4 & Hn & W1 & W2).
  set (g := fun j => nth (0 + j) x 0) in *.
  assert (rsum n (fun p => (bh n w + bb n w) * window_sum n p w g - bb n w * rsum n g) <= rsum n (fun _ => v)).
  { apply rsum_le. intros p Hp. apply M; auto. }
  rewrite rsum_minus, rsum_scal, window_average, !rsum_const in H by lia.
  assert (E : (bh n w + bb n w) * (INR w * rsum n g) - INR n * (bb n w * rsum n g) = 0).
  { rewrite Hn. replace ((bh n w + bb n w) * (INR w * rsum n g) - (INR w + INR (n - w)) * (bb n w * rsum n g))
      with ((INR w * bh n w - INR (n - w) * bb n w) * rsum n g) by ring.
    rewrite B3. ring. }
  rewrite E in H. apply Rmult_le_reg_l with (INR n); lra.
Qed.

(** C20. *)
Theorem snr_invariances :
  forall (alloc : nat -> list R) (x : list R) (ws : list nat) (sd : R) (rot : nat) (a c : R),
  allocates alloc -> (Z.of_nat (length x) < 2 ^ 64)%Z -> ws <> [] ->
  good_widths ws (length x) -> 0 < sd -> 0 < a ->
  exists out : list R, py_snr1 numR alloc x ws sd = Ok out /\
    py_snr1 numR alloc (rotated x rot) ws sd = Ok out /\
    py_snr1 numR alloc (map (fun y => y + c) x) ws sd = Ok out /\
    py_snr1 numR alloc (map (fun y => a * y) x) ws sd = Ok (map (fun s => a * s) out) /\
    py_snr1 numR alloc x ws (a * sd) = Ok (map (fun s => s / a) out) /\
    Forall (fun s => 0 <= s) out.
Proof.
  intros alloc x ws sd rot a c Ha Hx Hws Hw Hsd Hpos.
  destruct (snr_matched_filter alloc x ws sd Ha Hx Hws Hw Hsd) as (out & E & L & V).
  exists out. split; auto.
  assert (Resp : forall k, (k < length ws)%nat -> is_resp x 0 (length x) (nth k ws 0%nat) (nth k out 0 * sd)).
  { intros k Hk. destruct (V k Hk) as (v & B & Ek). apply is_resp_best.
    { apply Hw, nth_In; auto. } replace (nth k out 0 * sd) with v; auto. rewrite Ek. field. lra. }
  (* equality criterion *)
  assert (EQ : forall (y : list R) sd' (o' : list R), length y = length x -> 0 < sd' -> length o' = length ws ->
     (forall k, (k < length ws)%nat -> is_resp y 0 (length x) (nth k ws 0%nat) (nth k o' 0 * sd')) ->
     py_snr1 numR alloc y ws sd' = Ok o').
  { intros y sd' o' Ly Hsd' Lo H.
    destruct (snr_matched_filter alloc y ws sd' Ha) as (o'' & E'' & L'' & V''); auto.
    { now rewrite Ly. } { now rewrite Ly. }
    rewrite E''. f_equal. apply nth_ext with 0 0; [congruence|].
    intros k Hk. rewrite L'' in Hk. destruct (V'' k Hk) as (v & B & Ek). rewrite Ek.
    assert (v = nth k o' 0 * sd').
    { apply best_response_unique with y (nth k ws 0%nat); auto. apply is_resp_best.
      { rewrite Ly. apply Hw, nth_In; auto. } rewrite Ly. auto. }
    rewrite H0. field. lra. }
  assert (NM : forall (f : R -> R) k, (k < length ws)%nat -> nth k (map f out) 0 = f (nth k out 0)).
  { intros f k Hk. rewrite (nth_indep _ 0 (f 0)) by (rewrite map_length, L; auto). apply map_nth. }
  split. { apply EQ; auto. { apply rotated_length. } intros k Hk. apply is_resp_rot; auto.
    apply Hw, nth_In; auto. }
  split. { apply EQ; auto. { apply map_length. } intros k Hk.
    rewrite (map_ext _ (fun y => 1 * y + c)) by (intros; ring).
    rewrite <- (Rmult_1_l (nth k out 0 * sd)). apply is_resp_affine; auto; [|lra].
    apply Hw, nth_In; auto. }
  split. { apply EQ; auto. { apply map_length. } { now rewrite map_length. } intros k Hk.
    rewrite (map_ext _ (fun y => a * y + 0)) by (intros; ring).
    rewrite NM by auto. rewrite Rmult_assoc. apply is_resp_affine; auto.
    apply Hw, nth_In; auto. }
  split. { apply EQ; auto. { apply Rmult_lt_0_compat; auto. } { now rewrite map_length. } intros k Hk.
    rewrite NM by auto. replace (nth k out 0 / a * (a * sd)) with (nth k out 0 * sd) by (field; lra).
    auto. }
  apply Forall_nth. intros k d Hk. rewrite (nth_indep _ d 0) by auto. rewrite L in Hk.
  specialize (Resp k Hk). apply is_resp_nonneg in Resp; [|apply Hw, nth_In; auto].
  apply Rmult_le_reg_r with sd; lra.
Qed.
Print Assumptions snr_invariances.

Example snr_invariances_ex :
  [1; 3]%nat <> [] /\ good_widths [1; 3]%nat (length [0; 1; 5; 2]) /\ 0 < 2 /\ 0 < 3.
Proof. repeat split; try discriminate; try lra; destruct H as [<-|[<-|[]]]; cbn; lia. Qed.

(** C21.  A noiseless pulse: [base + amp] in a window of [w] bins, [base] elsewhere. *)
Definition pulse (n phi w : nat) (base amp : R) : list R :=
  map (fun i => if in_window n phi w i then base + amp else base) (seq 0 n).

Theorem snr_best_width :
  forall (alloc : nat -> list R) (n phi w : nat) (base amp sd : R) (ws : list nat),
  allocates alloc -> (Z.of_nat n < 2 ^ 64)%Z -> (phi < n)%nat -> (0 < w < n)%nat -> 0 <= amp ->
  0 < sd -> ws <> [] -> good_widths ws n ->
  exists out : list R, py_snr1 numR alloc (pulse n phi w base amp) ws sd = Ok out /\
    forall k, (k < length ws)%nat ->
      let peak := amp * R_sqrt.sqrt (INR w * INR (n - w) / INR n) / sd in
      nth k out 0 <= peak /\ (nth k ws 0%nat = w -> nth k out 0 = peak).
Proof.
  intros alloc n phi w base amp sd ws Ha Hn64 Hphi Hw Hamp Hsd Hws Hgw.
  set (x := pulse n phi w base amp).
  assert (Lx : length x = n) by (unfold x, pulse; now rewrite map_length, seq_length).
  destruct (snr_matched_filter alloc x ws sd Ha) as (out & E & L & V); auto; try (now rewrite Lx).
  exists out. split; auto. intros k Hk peak.
  destruct (V k Hk) as (v & B & Ek). rewrite Ek.
  set (w' := nth k ws 0%nat) in *.
  assert (Hw' : (0 < w' < n)%nat) by (apply Hgw, nth_In; auto).
  destruct (bh_facts n w Hw) as (B1 & B2 & B3 & B4 & Hn & W1 & W2).
  assert (NX : forall i, (i < n)%nat -> nth i x 0 = if in_window n phi w i then base + amp else base).
  { intros i Hi. unfold x, pulse. now rewrite nth_map_seq. }
  set (mean := base + amp * INR w / INR n).
  assert (Hnp : 0 < INR n) by (apply (lt_INR 0); lia).
  set (q := INR w * INR (n - w) / INR n).
  assert (Hq : 0 < q). { unfold q. apply Rdiv_lt_0_compat; auto. apply Rmult_lt_0_compat; auto. }
  assert (SQ : rsum n (fun i => (nth i x 0 - mean) ^ 2) = amp ^ 2 * q).
  { rewrite (rsum_ext n _ (fun i => 1 * (fun i => if in_window n phi w i
        then (base + amp - mean) ^ 2 else (base - mean) ^ 2) i)).
    2:{ intros i Hi. rewrite NX by auto. destruct (in_window n phi w i); ring. }
    rewrite (rsum_two n phi w _ (fun _ => 1) ((base + amp - mean) ^ 2) ((base - mean) ^ 2))
      by (auto; lia).
    rewrite window_one, rsum_const. unfold mean, q. rewrite Hn. field. lra. }
  assert (SH : forall t, rsum n t = 0 ->
     inner n (fun i => nth i x 0) t = rsum n (fun i => (nth i x 0 - mean) * t i)).
  { intros t Ht. unfold inner.
    rewrite (rsum_ext n (fun i => (nth i x 0 - mean) * t i)
       (fun i => nth i x 0 * t i - mean * t i)) by (intros; ring).
    rewrite rsum_minus, rsum_scal, Ht. ring. }
  assert (Hpk : peak = amp * R_sqrt.sqrt q / sd) by reflexivity.
  destruct B as [(p & t & Hp & HT & Ev) M]. rewrite Lx in *.
  assert (UP : v <= amp * R_sqrt.sqrt q).
  { destruct HT as (hi & lo & H0 & Ht & Hs & Hsq). rewrite SH in Ev by auto.
    pose proof (cauchy_schwarz n (fun i => nth i x 0 - mean) t) as CS.
    cbv beta in CS. rewrite Ev, SQ, Hsq, Rmult_1_r in CS.
    destruct (Rle_dec v 0).
    - apply Rle_trans with 0; auto. apply Rmult_le_pos; auto. apply sqrt_pos.
    - apply Rsqr_incr_0.
      + unfold Rsqr. replace (amp * R_sqrt.sqrt q * (amp * R_sqrt.sqrt q))
          with (amp * amp * (R_sqrt.sqrt q * R_sqrt.sqrt q)) by ring.
        rewrite sqrt_sqrt by lra. nra.
      + lra.
      + apply Rmult_le_pos; auto. apply sqrt_pos. }
  rewrite Hpk. split.
  - unfold Rdiv. apply Rmult_le_compat_r; auto. left. now apply Rinv_0_lt_compat.
  - intros Hww. f_equal. apply Rle_antisym; auto.
    rewrite Hww in M. pose proof (template_exists n w phi Hphi Hw) as TE.
    specialize (M phi _ Hphi TE). rewrite (inner_template n w phi _ _ Hphi Hw TE) in M.
    apply Rle_trans with (2 := M). apply Req_le.
    (* window sum of the pulse over its own window *)
    assert (WS : window_sum n phi w (fun i => nth i x 0) = INR w * (base + amp)).
    { unfold window_sum. rewrite (rsum_ext w _ (fun _ => base + amp)); [apply rsum_const|].
      intros i Hi. rewrite NX by (apply Nat.mod_upper_bound; lia).
      rewrite in_window_rot by lia. destruct (Nat.ltb_spec i w); [reflexivity|lia]. }
    assert (TS : rsum n (fun i => nth i x 0) = INR n * base + INR w * amp).
    { rewrite (rsum_ext n _ (fun i => 1 * (fun i => if in_window n phi w i then base + amp else base) i))
        by (intros i Hi; rewrite NX by auto; cbv beta; ring).
      rewrite (rsum_two n phi w _ (fun _ => 1) (base + amp) base) by (auto; lia).
      rewrite window_one, rsum_const. rewrite Hn. ring. }
    rewrite WS, TS.
    replace ((bh n w + bb n w) * (INR w * (base + amp)) - bb n w * (INR n * base + INR w * amp))
      with (base * (INR w * bh n w - INR (n - w) * bb n w) + amp * (INR w * bh n w))
      by (rewrite Hn; ring).
    rewrite B3, Rminus_diag_eq, Rmult_0_r, Rplus_0_l by reflexivity. f_equal.
    (* sqrt q = w * bh *)
    rewrite <- B3. apply Rsqr_inj; [apply sqrt_pos|apply Rmult_le_pos; lra|].
    rewrite Rsqr_sqrt by lra.
    assert (Hs : bh n w * bh n w = INR (n - w) / INR (n * w)).
    { unfold bh. apply sqrt_sqrt. left. apply Rdiv_lt_0_compat; auto.
      rewrite mult_INR. apply Rmult_lt_0_compat; lra. }
    unfold Rsqr. replace (INR w * bh n w * (INR w * bh n w))
      with (INR w * INR w * (bh n w * bh n w)) by ring.
    rewrite Hs, mult_INR. unfold q. field. lra.
Qed.
Print Assumptions snr_best_width.

Example snr_best_width_ex :
  (2 < 10)%nat /\ (0 < 3 < 10)%nat /\ 0 <= 5 /\ [1; 2; 3; 4]%nat <> [] /\ good_widths [1; 2; 3; 4]%nat 10.
Proof. repeat split; try lia; try lra; try discriminate;
  destruct H as [<-|[<-|[<-|[<-|[]]]]]; lia. Qed.

(** C22.  Errors and memory safety for every arithmetic [N], in particular binary32. *)
Theorem snr_checks :
  forall (N : num) (alloc : nat -> list N) (x : list N) (ws : list nat) (sd : N),
  allocates alloc -> ws <> [] ->
  (n_ltb (o_ofZ n_sgl 0) sd = true /\ good_widths ws (length x) ->
   exists out, py_snr1 N alloc x ws sd = Ok out /\ length out = length ws) /\
  (~ (n_ltb (o_ofZ n_sgl 0) sd = true /\ good_widths ws (length x)) ->
   py_snr1 N alloc x ws sd = Err ValueError).
Proof.
  intros N alloc x ws sd Ha Hws. unfold py_snr1, check_stdnoise, check_trial_widths.
  rewrite good_widths_forallb.
  destruct (n_ltb (o_ofZ n_sgl 0) sd); [|split; [intros [? _]; discriminate|reflexivity]].
  cbn [guard bind].
  destruct (forallb (fun w => (0 <? w) && (w <? length x))%nat ws) eqn:F;
    [|split; [intros [_ ?]; discriminate|reflexivity]].
  split; [|intros H; exfalso; apply H; auto]. intros _. cbn [guard bind].
  destruct (snr1_any N alloc x 0 (length x) ws sd (alloc (length ws)) 0) as (out & E & L); auto.
  - apply (proj2 (good_widths_forallb ws (length x)) F).
  - rewrite Ha. lia.
  - exists out. split; auto. rewrite L. apply Ha.
Qed.
Print Assumptions snr_checks.

Theorem snr2_checks :
  forall (N : num) (alloc : nat -> list N) (x : arr2 N) (ws : list nat) (sd : N),
  allocates alloc -> ws <> [] -> arr2_wf x ->
  (n_ltb (o_ofZ n_sgl 0) sd = true /\ good_widths ws (a_cols x) ->
   exists out, py_snr2 N alloc x ws sd = Ok out /\
     a_rows out = a_rows x /\ a_cols out = length ws /\ arr2_wf out) /\
  (~ (n_ltb (o_ofZ n_sgl 0) sd = true /\ good_widths ws (a_cols x)) ->
   py_snr2 N alloc x ws sd = Err ValueError).
Proof.
  intros N alloc x ws sd Ha Hws Hwf. unfold py_snr2, check_stdnoise, check_trial_widths.
  rewrite good_widths_forallb.
  destruct (n_ltb (o_ofZ n_sgl 0) sd); [|split; [intros [? _]; discriminate|reflexivity]].
  cbn [guard bind].
  destruct (forallb (fun w => (0 <? w) && (w <? a_cols x))%nat ws) eqn:F;
    [|split; [intros [_ ?]; discriminate|reflexivity]].
  split; [|intros H; exfalso; apply H; auto]. intros _. cbn [guard bind].
  destruct (snr2_any N alloc (a_data x) 0 (a_rows x) (a_cols x) ws sd (alloc (a_rows x * length ws)%nat) 0)
    as (out & E & L); auto.
  - apply (proj2 (good_widths_forallb ws (a_cols x)) F).
  - unfold arr2_wf in Hwf. lia.
  - rewrite Ha. lia.
  - rewrite E. cbn [bind]. eexists. split; [reflexivity|]. cbn. repeat split; auto.
    unfold arr2_wf. cbn. rewrite L. apply Ha.
Qed.
Print Assumptions snr2_checks.

Example snr_checks_ex :
  exists x ws (sd : R), ws <> [] /\ n_ltb (n := numR) (o_ofZ n_sgl 0) sd = true /\ good_widths ws (@length R x).
Proof.
  exists [1; 2; 3], [1; 2]%nat, 1. split; [discriminate|]. split.
  - rsimp. apply Rlt_bool_true. lra.
  - intros w [<-|[<-|[]]]; cbn; lia.
Qed.

(** An empty width list passes the checks and then dereferences the end pointer. *)
Theorem snr_no_widths_refuted :
  forall (N : num) (alloc : nat -> list N) (x : list N) (sd : N),
  n_ltb (o_ofZ n_sgl 0) sd = true -> py_snr1 N alloc x [] sd = UB.
Proof.
  intros N alloc x sd H. unfold py_snr1, check_stdnoise. rewrite H. reflexivity.
Qed.
Print Assumptions snr_no_widths_refuted.
