(** C133: the binding benchmark_ffa2. *)
From Coq Require Import List Arith ZArith Bool Lia Reals Lra.
From Flocq Require Import Core.
From Verif Require Import Base.Result Base.Buf Base.Num Proof.Downsample Model.Kernels Model.Transforms Model.Benchmark Proof.Transforms Proof.Index Proof.Ffa Props.Downsample.
Import ListNotations.

(** It returns the time per loop, in bounds, for at most 2^22 rows whose elements fit in the address space. *)
Theorem benchmark_ffa2_correct :
  forall (bld : build) (junk : nat -> list R) (elapsed : R) (rows cols loops : nat),
  allocates junk -> (1 <= rows)%nat -> (1 <= cols)%nat -> (Z.of_nat rows <= 4194304)%Z ->
  (3 * (Z.of_nat rows * Z.of_nat cols) < 2 ^ 64)%Z -> (1 <= Z.of_nat loops < 2 ^ 53)%Z ->
  benchmark_ffa2 (numF bld) junk elapsed rows cols loops = Ok (rnd64 (elapsed / IZR (Z.of_nat loops))).
Proof.
  intros bld junk elapsed rows cols loops Ha Hr Hc Hm H3 HL. unfold benchmark_ffa2, u64.
  rewrite Z.mod_small by lia. destruct (Z.leb_spec (2 ^ 64) (3 * (Z.of_nat rows * Z.of_nat cols))); [lia|].
  rewrite <- Nat2Z.inj_mul, Nat2Z.id. set (size := (rows * cols)%nat).
  set (inp := repeat _ size). assert (LI : length inp = size) by apply repeat_length.
  match goal with |- context [for_ loops 0 ?b _] => set (body := b) end.
  assert (G : forall n lo st, length (fst st) = size -> length (snd st) = size -> exists st', for_ n lo body st = Ok st').
  { induction n as [|n IH]; intros lo [temp out] L1 L2; [cbn; eauto|]. cbn [fst snd] in L1, L2. cbn [for_]. unfold body at 1.
    destruct (transform_spec (merge_index (numF bld)) (@o_add (numF bld) n_sgl) 0%R (S rows) rows cols 0 0 0 inp temp out)
      as (tmp' & out' & E & _); auto; try lia.
    { intros m' Hm'. apply good_index_float; lia. }
    unfold transform_ptr. change (n_T (numF bld)) with R in *. rewrite E. cbn [bind].
    apply transform_len in E as [L1' L2']. apply IH; cbn [fst snd]; congruence. }
  destruct (G loops 0%nat (junk size, junk size)) as [st' E]; [apply Ha|apply Ha|].
  change (n_T (numF bld)) with R in *. rewrite E. cbn [bind]. do 2 f_equal. cbn [numF opsF n_dbl o_ofZ o_div].
  rewrite (rnd64_id (IZR (Z.of_nat loops))); [reflexivity|]. apply F64_int. lia.
Qed.
Print Assumptions benchmark_ffa2_correct.

(** the unit test of the benchmark: 16 rows of 16 columns *)
Example benchmark_ffa2_ex : (1 <= 16)%nat /\ (Z.of_nat 16 <= 4194304)%Z /\ (3 * (Z.of_nat 16 * Z.of_nat 16) < 2 ^ 64)%Z /\
  (1 <= Z.of_nat 5 < 2 ^ 53)%Z.
Proof. lia. Qed.

(** Unlike ffa2, whose arguments are the shape of an array that exists, it multiplies any two numbers: 2 rows of 2^63
    columns overflow to 0 and it reads what it has not allocated.  Without rows it recurses for ever. *)
Theorem benchmark_ffa2_overflow_refuted :
  forall (N : num) (junk : nat -> list N) (elapsed : N) (cols loops : nat),
  Z.of_nat cols = (2 ^ 63)%Z -> (1 <= loops)%nat ->
  benchmark_ffa2 N junk elapsed 2 cols loops = UB.
Proof.
  intros N junk elapsed cols loops HC HL. unfold benchmark_ffa2. rewrite HC.
  replace (u64 (Z.of_nat 2 * 2 ^ 63)) with 0%Z by reflexivity. cbn [Z.leb]. change (2 ^ 64 <=? 3 * 0)%Z with false. cbv iota.
  destruct loops as [|loops]; [lia|]. destruct cols as [|cols]; [cbn in HC; discriminate|].
  change (Z.to_nat 0) with 0%nat. cbn [for_ repeat]. unfold transform_ptr. cbn [transform b_rows Nat.eqb b_cols].
  unfold add. cbn [for_]. unfold rowptr. cbn. reflexivity.
Qed.
Print Assumptions benchmark_ffa2_overflow_refuted.

Theorem benchmark_ffa2_no_rows_refuted :
  forall (N : num) (junk : nat -> list N) (elapsed : N) (cols loops : nat), (1 <= loops)%nat ->
  benchmark_ffa2 N junk elapsed 0 cols loops = Loop.
Proof.
  intros N junk elapsed cols loops HL. unfold benchmark_ffa2. cbn [Z.of_nat Z.mul]. change (u64 0) with 0%Z.
  change (2 ^ 64 <=? 3 * 0)%Z with false. cbv iota. destruct loops as [|loops]; [lia|]. cbn [for_]. unfold transform_ptr.
  rewrite transform_no_rows. reflexivity.
Qed.
Print Assumptions benchmark_ffa2_no_rows_refuted.
Example benchmark_ffa2_overflow_used : Z.of_nat (Z.to_nat (2 ^ 63)) = (2 ^ 63)%Z /\ (1 <= 1)%nat.
Proof. split; [apply Z2Nat.id; lia|lia]. Qed.
