(** C117: the trial widths in floating point. *)
From Coq Require Import List Arith ZArith Bool Lia Reals Lra Sorted.
From Flocq Require Import Core.
From Verif Require Import Base.Result Base.Num Model.Libffa Proof.Libffa Proof.Downsample Proof.Index Proof.WidthsIeee
  Proof.WidthsFloat Props.DownsampleFloat.
Import ListNotations.
Local Open Scope R_scope.

(** C117.  As C23 with the products rounded to [double]: the loop ends, the widths are integers from 1
    upwards, and each is followed by the integer part of [max(w + 1, wtsp * w)], the product being
    rounded.  A width never equals the number of bins or exceeds it if the maximum duty cycle is below
    1, although [ducy_max * nbins] may be rounded up. *)
Theorem width_trials_float :
  forall (bld : build) (nbins : Z) (ducy_max wtsp : R),
  let limit := Rmax 1 (rnd64 (ducy_max * IZR nbins)) in
  (Z.abs nbins <= 2 ^ 52)%Z -> limit < 2 ^ 52 ->
  exists ws, generate_width_trials (numF bld) nbins ducy_max wtsp = Ok ws /\
    StronglySorted Z.lt ws /\ hd 0%Z ws = 1%Z /\ ws <> [] /\
    Forall (fun w => (1 <= w)%Z /\ IZR w <= limit) ws /\
    linked (fun w w' => w' = Zfloor (Rmax (IZR w + 1) (rnd64 (wtsp * IZR w)))) ws /\
    limit < IZR (Zfloor (Rmax (IZR (last ws 0%Z) + 1) (rnd64 (wtsp * IZR (last ws 0%Z))))) /\
    (double ducy_max -> ducy_max < 1 -> (2 <= nbins)%Z -> Forall (fun w => (w < nbins)%Z) ws).
Proof.
  intros bld nbins ducy wtsp limit Hb Hlim. unfold generate_width_trials.
  destruct (width_limit_F bld nbins ducy Hb) as (L1 & L2). fold limit in L1.
  set (wmax := width_limit (numF bld) nbins ducy) in *.
  assert (Lm : IZR wmax <= limit) by (rewrite L1; apply Zfloor_lb).
  assert (L3 : (wmax < 2 ^ 52)%Z).
  { apply lt_IZR. apply Rle_lt_trans with (1 := Lm). rewrite (IZR_Zpower radix2) by lia.
    rewrite bpow_powerRZ. exact Hlim. }
  destruct (width_loop_F bld wtsp wmax L3 (S (Z.to_nat wmax)) 1) as (ws & E & S & F & Nil & Hd & L & La);
    [lia|lia|].
  assert (Hne : ws <> []) by (intros ->; assert (wmax < 1)%Z by (apply Nil; auto); lia).
  exists ws. split; auto. split; auto. split; auto. split; auto. split.
  { eapply Forall_impl; [|exact F]. intros w [H1 H2]. split; auto. apply IZR_le in H2. lra. }
  split.
  { clear - L F L3. induction L as [|a|a b l H L IH]; constructor.
    - inversion F; subst. rewrite (proj1 (next_width_F bld wtsp a ltac:(lia))). reflexivity.
    - apply IH. now inversion F. }
  split.
  - specialize (La Hne).
    assert (Hl : (1 <= last ws 0 <= wmax)%Z).
    { clear - F Hne. induction F as [|a l Ha F IH]; [congruence|].
      destruct l; [cbn; lia|]. apply IH. discriminate. }
    rewrite (proj1 (next_width_F bld wtsp (last ws 0%Z) ltac:(lia))) in La.
    pose proof (Zfloor_ub limit) as U. rewrite <- L1 in U.
    apply Rlt_le_trans with (1 := U). rewrite <- plus_IZR. apply IZR_le. lia.
  - intros Fd Hd1 Hn. pose proof (width_limit_lt bld nbins ducy Fd Hd1 ltac:(lia)) as LT. fold wmax in LT.
    eapply Forall_impl; [|exact F]. cbv beta. intros w Hw. lia.
Qed.
Print Assumptions width_trials_float.

(** the default parameters of rseek (rounded): 240 bins, duty cycle 1/5 *)
Example width_trials_float_ex :
  (Z.abs 240 <= 2 ^ 52)%Z /\ Rmax 1 (rnd64 (rnd64 (/ 5) * IZR 240)) < 2 ^ 52 /\
  double (rnd64 (/ 5)) /\ rnd64 (/ 5) < 1.
Proof.
  assert (H : rnd64 (/ 5) <= / 2).
  { replace (/ 2) with (rnd64 (/ 2)); [apply rnd64_le; lra|]. apply rnd64_id.
    apply generic_format_FLT. exists (Float radix2 1 (-1)); cbn; auto; try lia. unfold F2R; cbn; lra. }
  split; [lia|]. split; [|split; [apply generic_format_round; typeclasses eauto|lra]].
  apply Rle_lt_trans with 120.
  - apply Rmax_lub; [lra|]. rewrite <- (rnd64_id 120) by (apply (F64_int 120); lia). apply rnd64_le. lra.
  - apply Rlt_le_trans with (2 ^ 10); [cbn; lra|]. apply Rle_pow; [lra|lia].
Qed.
