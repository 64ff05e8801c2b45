(** C105: rounding errors of the downsampling. *)
From Coq Require Import List Arith ZArith Bool Lia Reals Lra Psatz.
From Flocq Require Import Core.
From Verif Require Import Base.Result Base.Buf Base.Num Model.Downsample
  Spec.Sums Spec.Overlap Proof.Index Proof.Downsample Proof.Rounding Proof.DownsampleFloat
  Props.Downsample Props.SnrFloat.
Import ListNotations.
Local Open Scope R_scope.

(** the numbers of double precision, without a largest one *)
Definition double (x : R) : Prop := generic_format radix2 (FLT_exp (-1074) 53) x.

Lemma eta32_eq : eta32 = / 2 ^ 150.
Proof.
  unfold eta32. change (bpow radix2 (-150)) with (/ IZR (Z.pow_pos 2 150)). f_equal. rewrite pow_IZR. reflexivity.
Qed.

(** C105.  Output sample [k] is the integral of the input over [k f, (k+1) f] up to
    - one relative rounding of [2^-24] per operation, on the sum of absolute values of the
      terms of the integral: there are at most [ceil f + 3] operations;
    - the displacement of the ends of the interval, in double precision;
    - underflow.
    [n] is the number of whole intervals, where [N / f] is rounded before being floored. *)
Theorem downsample_rounding :
  forall (bld : build) (alloc : nat -> list R) (x : list R) (f X : R), allocates alloc ->
  let N := length x in
  (Z.of_nat N <= 33554432)%Z -> double f -> 1 < f <= INR N -> Forall single x ->
  (forall i, (i < N)%nat -> Rabs (nth i x 0) <= X) ->
  exists (out : list R) n, py_downsample (numF bld) alloc x f = Ok out /\ length out = n /\ Forall single out /\
    (n < N)%nat /\ INR n * f <= INR N * (1 + / 2 ^ 53) /\ INR N * (1 - / 2 ^ 53) < (INR n + 1) * f /\
    forall k, (k < n)%nat ->
      let term i := nth i x 0 * weight i (INR k * f) ((INR k + 1) * f) in
      let growth := (1 + / 2 ^ 24) ^ (Z.to_nat (Zceil f) + 3) in
      Rabs (nth k out 0 - rsum N term)
        <= (growth - 1) * rsum N (fun i => Rabs (term i)) + growth * (INR N * / 2 ^ 50 * X + 3 * / 2 ^ 150).
Proof.
  intros bld alloc x f X Ha N HN Ff Hf HF HX.
  assert (HF' : forall i, (i < length x)%nat -> F32 (nth i x 0)).
  { intros i Hi. rewrite Forall_forall in HF. apply HF. now apply nth_In. }
  destruct (size_F bld N f HN Ff Hf) as (S1 & S2 & S3).
  set (n := downsampled_size (numF bld) N f) in *.
  destruct (downsample_near bld x f X (alloc n) HN Ff Hf HF' HX) as (o & E & L & V).
  { rewrite Ha. fold N. fold n. lia. }
  fold N in E, V. fold n in V. rewrite Ha in L.
  assert (U53 : / 2 ^ 53 = u64) by (unfold u64; f_equal; rewrite pow_IZR; reflexivity).
  assert (U24 : / 2 ^ 24 = u32) by (unfold u32; f_equal; rewrite pow_IZR; reflexivity).
  assert (U50 : / 2 ^ 50 = 8 * u64).
  { unfold u64. replace (2 ^ 50) with 1125899906842624 by (rewrite pow_IZR; reflexivity). lra. }
  exists o, n. split.
  { unfold py_downsample.
    assert (HV : valid_factor (numF bld) (length x) f = true).
    { unfold downsample in E. fold N in E |- *. destruct (valid_factor (numF bld) N f); auto. discriminate E. }
    change (n_T (numF bld)) with R in *. rewrite HV. cbn [guard bind]. exact E. }
  split; [exact L|]. split.
  { rewrite Forall_forall. intros y Hy. destruct (In_nth o y 0 Hy) as (k & Hk & <-). apply V. lia. }
  rewrite U53. split; [exact S3|]. split; [exact S1|]. split; [exact S2|].
  intros k Hk term growth. destruct (V k Hk) as [_ B]. unfold growth. rewrite U24, U50, <- eta32_eq.
  eapply Rle_trans; [exact B|]. apply Req_le. unfold ds_abs, ds_terms, term. fold N. ring.
Qed.
Print Assumptions downsample_rounding.

Example downsample_rounding_ex : let x := [1; 2; 3; 4] in
  (Z.of_nat (length x) <= 33554432)%Z /\ double (3 * / 2) /\ 1 < 3 * / 2 <= INR (length x) /\ Forall single x /\
  (forall i, (i < length x)%nat -> Rabs (nth i x 0) <= 4).
Proof.
  cbv zeta. split; [cbn; lia|]. split; [apply (F64_half 3); lia|]. split; [cbn; lra|]. split.
  - repeat constructor;
      [apply (single_int 1)|apply (single_int 2)|apply (single_int 3)|apply (single_int 4)]; lia.
  - intros i Hi. do 4 (destruct i as [|i]; [cbn; rewrite Rabs_pos_eq; lra|]). cbn in Hi. lia.
Qed.
