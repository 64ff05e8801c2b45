(** C103, C104: prefix sums and S/N in floating point. *)
From Coq Require Import List Arith ZArith Bool Lia Reals Lra Psatz.
From Flocq Require Import Core.
From Verif Require Import Base.Result Base.Buf Base.Num Model.Kernels Model.Transforms Model.Libffa Model.Snr
  Spec.Sums Spec.Boxcar Proof.Index Proof.Ffa Proof.Kernels Proof.Downsample Proof.Snr Proof.Rounding Proof.SnrFloat
  Props.Downsample Props.Snr.
Import ListNotations.
Local Open Scope R_scope.

(** the numbers of single precision, without a largest one *)
Definition single (x : R) : Prop := generic_format radix2 (FLT_exp (-149) 24) x.

Definition abs_sum (x : list R) : R := rsum (length x) (fun i => Rabs (nth i x 0)).

(** C103.  The sums over up to two turns of a profile of up to 2^22 bins, [2^-24] being the
    rounding unit of single precision: thanks to the double precision accumulator, the error
    does not grow with the number of bins. *)
Theorem circular_prefix_sum_rounding :
  forall (bld : build) (x out : list R) (nsum : nat),
  let n := length x in
  (0 < n)%nat -> (Z.of_nat n <= 4194304)%Z -> Forall single x ->
  (nsum <= 2 * n)%nat -> (nsum <= length out)%nat ->
  exists out' : list R, circular_prefix_sum (numF bld) x 0 n nsum out = Ok out' /\
    forall j, (j < nsum)%nat ->
      Rabs (nth j out' 0 - rsum (S j) (fun k => nth (k mod n) x 0))
        <= (if (j <? n)%nat then 6 / 5 else 23 / 5) * / 2 ^ 24 * abs_sum x.
Proof.
  intros bld x out nsum n Hn0 Hn HF Hs Ho.
  destruct (circular_prefix_sum_val (numF bld) 0 x 0 n nsum out) as (o & E & _ & W & _); auto.
  exists o. split; [exact E|]. intros j Hj.
  assert (HF' : forall i, (i < length x)%nat -> F32 (nth i x 0)).
  { intros i Hi. rewrite Forall_forall in HF. apply HF. now apply nth_In. }
  change (n_T (numF bld)) with R in *. rewrite (nth_error_nth o j 0 (W j Hj)).
  change (rsum (S j) (fun k => nth (k mod n) x 0)) with (cps x 0 n j).
  replace (/ 2 ^ 24) with u32 by (unfold u32; cbn; lra).
  destruct (Nat.ltb_spec j n).
  - destruct (pval_low bld x HF' Hn j) as [_ [_ A]]; auto. rewrite Rplus_0_r in A. exact A.
  - destruct (pval_high bld x HF' Hn j) as [_ [_ A]]; [unfold n in *; lia|]. rewrite Rplus_0_r in A.
    change (abs_sum x) with (l1 x). fold n in A. lra.
Qed.
Print Assumptions circular_prefix_sum_rounding.

Lemma single_int z : (Z.abs z <= 2 ^ 23)%Z -> single (IZR z).
Proof. apply F32_int. Qed.

Example circular_prefix_sum_rounding_ex : let x := [1; 2; 16777215 / 2] in
  (0 < length x)%nat /\ (Z.of_nat (length x) <= 4194304)%Z /\ Forall single x /\ (5 <= 2 * length x)%nat.
Proof.
  cbv zeta. repeat split; try (cbn; lia).
  repeat constructor; [apply (single_int 1); lia|apply (single_int 2); lia|apply (F32_half 16777215); lia].
Qed.

(** C104.  The S/N of a profile in floating point, with or without fused operations, is that of
    the matched filter up to 28 rounding units of the largest response a profile with the same
    sum of absolute values may have.  [2^-149] is the smallest positive number. *)
Definition snr_error (n w : nat) (total sd : R) : R :=
  28 * / 2 ^ 24 * (sqrt (INR n / (INR w * INR (n - w))) * total / sd) + (5 / sd + / 2) * / 2 ^ 149.

Lemma height_sum n w : (0 < w < n)%nat -> bh n w + bb n w = sqrt (INR n / (INR w * INR (n - w))).
Proof.
  intros H. destruct (bh_facts n w H) as (B1 & B2 & B3 & B4 & En & P1 & P2).
  symmetry. apply sqrt_lem_1.
  - apply Rlt_le, Rdiv_lt_0_compat; [lra|]. now apply Rmult_lt_0_compat.
  - lra.
  - assert (B : bb n w = INR w * bh n w / INR (n - w)) by (rewrite B3; field; lra).
    assert (S : bh n w * bh n w = INR (n - w) / INR (n * w)).
    { unfold bh. apply sqrt_sqrt. apply Rlt_le, Rdiv_lt_0_compat; auto. apply (lt_INR 0). nia. }
    rewrite B. replace ((bh n w + INR w * bh n w / INR (n - w)) * (bh n w + INR w * bh n w / INR (n - w)))
      with (bh n w * bh n w * ((INR (n - w) + INR w) / INR (n - w)) ^ 2) by (field; lra).
    rewrite S, mult_INR, En. field. lra.
Qed.

Lemma snr1_rounding bld (alloc : nat -> list R) (x : list R) (ws : list nat) (sd : R) (out : list R) oo :
  allocates alloc -> (Z.of_nat (length x) <= 4194304)%Z -> Forall single x ->
  ws <> [] -> good_widths ws (length x) -> 0 < sd -> (oo + length ws <= length out)%nat ->
  exists out', snr1 (numF bld) alloc x 0 (length x) ws sd out oo = Ok out' /\
    forall k, (k < length ws)%nat -> let w := nth k ws 0%nat in
      exists s v, nth_error out' (oo + k) = Some s /\ best_response x w v /\
        Rabs (s - v / sd) <= snr_error (length x) w (abs_sum x) sd.
Proof.
  intros Ha Hn HF Hws Hw Hsd Ho.
  assert (HF' : forall i, (i < length x)%nat -> F32 (nth i x 0)).
  { intros i Hi. rewrite Forall_forall in HF. apply HF. now apply nth_In. }
  destruct (snr1_value (numF bld) 0 alloc x (length x) ws sd out oo) as (o & c & E & C & V); auto.
  exists o. split; [exact E|]. intros k Hk w.
  assert (Hin : In w ws) by (apply nth_In; auto). pose proof (Hw w Hin) as Hww.
  destruct (V k Hk) as (dmax & Ed & Eo). fold w in Ed, Eo. destruct (C w Hin) as [C1 C2].
  destruct (snr_value_app bld x HF' Hn w c dmax sd Hww Hsd C1 C2 Ed) as (r & R & B).
  exists (snr_value (numF bld) 0 x (length x) sd w dmax), r. split; [exact Eo|].
  split; [now apply is_resp_best|]. eapply Rle_trans; [exact B|]. unfold snr_error.
  rewrite <- height_sum by auto.
  replace (/ 2 ^ 24) with u32 by (unfold u32; cbn; lra).
  replace (/ 2 ^ 149) with (2 * eta32); [change (abs_sum x) with (l1 x); unfold Rdiv; lra|].
  unfold eta32. change (bpow radix2 (-150)) with (/ IZR (Z.pow_pos 2 150)).
  replace (IZR (Z.pow_pos 2 150)) with (2 * 2 ^ 149); [field; apply pow_nonzero; lra|].
  replace (2 * 2 ^ 149) with (2 ^ 150) by (change 150%nat with (S 149); cbn [pow]; reflexivity).
  rewrite pow_IZR. reflexivity.
Qed.

Theorem snr_rounding :
  forall (bld : build) (alloc : nat -> list R) (x : list R) (ws : list nat) (sd : R), allocates alloc ->
  (Z.of_nat (length x) <= 4194304)%Z -> Forall single x -> ws <> [] -> good_widths ws (length x) -> 0 < sd ->
  exists out : list R, py_snr1 (numF bld) alloc x ws sd = Ok out /\ length out = length ws /\
    forall k, (k < length ws)%nat -> let w := nth k ws 0%nat in
      exists v, best_response x w v /\
        Rabs (nth k out 0 - v / sd) <= snr_error (length x) w (abs_sum x) sd.
Proof.
  intros bld alloc x ws sd Ha Hn HF Hws Hw Hsd.
  unfold py_snr1, check_stdnoise, check_trial_widths. cbn [numF opsF n_T n_ltb n_sgl o_ofZ].
  rewrite (rnd32_id 0) by apply generic_format_0. rewrite Rlt_bool_true by auto. cbn [guard bind].
  rewrite (proj1 (good_widths_forallb ws (length x)) Hw). cbn [guard bind].
  destruct (snr1_rounding bld alloc x ws sd (alloc (length ws)) 0) as (o & E & V); auto; [rewrite Ha; lia|].
  destruct (snr1_any (numF bld) alloc x 0 (length x) ws sd (alloc (length ws)) 0) as (o' & E' & L'); auto.
  { rewrite Ha. lia. }
  assert (o' = o) as -> by congruence.
  change (n_T (numF bld)) with R in *. exists o. split; [exact E|]. split; [rewrite L'; apply Ha|].
  intros k Hk. set (w := nth k ws 0%nat). destruct (V k Hk) as (s & v & Es & R & B). exists v. split; [exact R|].
  cbn [Nat.add] in Es. rewrite (nth_error_nth o k 0 Es). exact B.
Qed.
Print Assumptions snr_rounding.

Example snr_rounding_ex :
  Forall single [0; 1; 5; 2] /\ [1; 2]%nat <> [] /\ good_widths [1; 2]%nat (length [0; 1; 5; 2]) /\ 0 < 1.
Proof.
  split; [|apply snr_matched_filter_ex].
  repeat constructor; [apply (single_int 0)|apply (single_int 1)|apply (single_int 5)|apply (single_int 2)]; lia.
Qed.

(** C104 for many profiles of any array shape *)
Theorem boxcar_snr_rounding :
  forall (bld : build) (alloc : nat -> list R) (data : ndarray R) (lead : list nat) (b : nat)
    (ws : list nat) (sd : R), allocates alloc -> nd_wf data -> Forall single (nd_data data) ->
  nd_shape data = lead ++ [b] -> (0 < b)%nat -> (Z.of_nat b <= 4194304)%Z ->
  ws <> [] -> good_widths ws b -> 0 < sd ->
  exists out : ndarray R, boxcar_snr (numF bld) alloc data ws sd = Ok out /\ nd_wf out /\
    nd_shape out = lead ++ [length ws] /\
    forall i k, (i < fold_right Nat.mul 1 lead)%nat -> (k < length ws)%nat ->
      let x := firstn b (skipn (i * b) (nd_data data)) in let w := nth k ws 0%nat in
      exists v, best_response x w v /\
        Rabs (nth (i * length ws + k) (nd_data out) 0 - v / sd) <= snr_error b w (abs_sum x) sd.
Proof.
  intros bld alloc data lead b ws sd Ha Hwf HF Hsh Hb Hb22 Hws Hw Hsd.
  unfold boxcar_snr. change (n_T (numF bld)) with R. rewrite Hsh, rev_unit. cbv iota beta.
  destruct (Nat.eqb_spec b 0); [lia|].
  set (rows := fold_right Nat.mul 1%nat lead).
  assert (Hs : forall l c, fold_right Nat.mul 1%nat (l ++ [c]) = (fold_right Nat.mul 1 l * c)%nat).
  { induction l as [|a l IH]; intros c; cbn; [lia|]. rewrite IH. lia. }
  assert (Hsize : nd_size data = (rows * b)%nat).
  { unfold nd_size. rewrite Hsh. apply Hs. }
  rewrite Hsize, Nat.div_mul by auto.
  unfold py_snr2, check_stdnoise, check_trial_widths. cbn [numF opsF n_T n_ltb n_sgl o_ofZ].
  rewrite (rnd32_id 0) by apply generic_format_0. rewrite Rlt_bool_true by auto.
  cbn [guard bind a_cols a_rows a_data].
  rewrite (proj1 (good_widths_forallb ws b) Hw). cbn [guard bind].
  destruct (snr2_val (numF bld) alloc (nd_data data) rows b ws sd (alloc (rows * length ws)%nat) 0)
    as (out & E & [L _] & V); auto.
  { rewrite Hwf, Hsize. lia. }
  { rewrite Ha. lia. }
  change (n_T (numF bld)) with R in *. rewrite E. cbn [bind]. rewrite rev_involutive.
  eexists. split; [reflexivity|]. split.
  { unfold nd_wf, nd_size. cbn. rewrite Hs. rewrite L. apply Ha. }
  split; [reflexivity|]. cbn [nd_data a_data].
  intros i k Hi Hk. set (x := firstn b (skipn (i * b) (nd_data data))). set (w := nth k ws 0%nat).
  assert (Lx : length x = b).
  { unfold x. rewrite firstn_length, skipn_length, Hwf, Hsize. fold rows in Hi. nia. }
  destruct (V i k Hi Hk) as (v & Ev & s & Es & Esk). cbn [Nat.add] in Ev.
  assert (Fx : Forall single x).
  { rewrite Forall_forall in *. intros y Hy. apply HF. unfold x in Hy.
    assert (FI : forall m (l : list R), In y (firstn m l) -> In y l).
    { clear. induction m as [|m IH]; intros [|a l]; cbn; try tauto. intros [->|Hy]; auto. }
    assert (SI : forall m (l : list R), In y (skipn m l) -> In y l).
    { clear. induction m as [|m IH]; intros [|a l]; cbn; try tauto. auto. }
    eauto. }
  destruct (snr1_rounding bld alloc x ws sd (alloc (length ws)) 0) as (s' & Es' & V'); auto.
  { rewrite Lx. auto. }
  { rewrite Lx. auto. }
  { rewrite Ha. lia. }
  rewrite Lx in Es'. fold x in Es. change (n_T (numF bld)) with R in *. rewrite Es' in Es. injection Es as ->.
  destruct (V' k Hk) as (v' & r & Ev' & R & B). cbn [Nat.add] in Ev'.
  exists r. split; [exact R|]. rewrite Lx in B.
  assert (v' = v) as -> by (rewrite Ev' in Esk; congruence).
  rewrite (nth_error_nth out _ 0 Ev). exact B.
Qed.
Print Assumptions boxcar_snr_rounding.

Example boxcar_snr_rounding_ex :
  let data := Nd [2; 3]%nat [1; 2; 3; 4; 5; 6] in
  nd_wf data /\ Forall single (nd_data data) /\ nd_shape data = [2%nat] ++ [3%nat] /\ good_widths [1; 2]%nat 3.
Proof.
  cbv zeta. destruct boxcar_snr_matched_filter_ex as (A & B & C). split; auto. split; [|auto].
  cbn [nd_data]. rewrite Forall_forall. intros x Hx.
  repeat (destruct Hx as [<-|Hx]; [match goal with |- single (IZR ?z) => apply (single_int z); lia end|]).
  destruct Hx.
Qed.
