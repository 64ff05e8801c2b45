(** The trial widths when every operation is rounded. *)
From Coq Require Import List Arith ZArith Bool Lia Reals Lra Sorted.
From Flocq Require Import Core.
From Verif Require Import Base.Result Base.Num Model.Libffa Proof.Libffa Proof.Downsample Proof.Index Proof.Rounding
  Proof.WidthsIeee.
Import ListNotations.
Local Open Scope R_scope.

Section Widths.
Context (bld : build).
Notation NF := (numF bld).

Lemma next_width_F s w : (1 <= w < 2 ^ 52)%Z ->
  next_width NF s w = Zfloor (Rmax (IZR w + 1) (rnd64 (s * IZR w))) /\ (w < next_width NF s w)%Z.
Proof.
  intros Hw. unfold next_width.
  destruct (lit_I bld w ltac:(lia)) as [_ E0]. destruct (lit_I bld (w + 1) ltac:(lia)) as [_ E1]. rewrite E0, E1.
  change (@n_ltb NF) with Rlt_bool. cbn [numF opsF n_dbl o_mul n_trunc]. rewrite plus_IZR.
  set (y := rnd64 _).
  assert (Q : (w < Zfloor (Rmax (IZR w + 1) y))%Z).
  { assert (w + 1 <= Zfloor (Rmax (IZR w + 1) y))%Z; [|lia]. apply Zfloor_lub. rewrite plus_IZR. apply Rmax_l. }
  destruct (Rlt_bool_spec (IZR w + 1) y) as [H|H].
  - rewrite Rmax_right in * by lra. rewrite Ztrunc_floor; auto.
    apply Rle_trans with (IZR w + 1); [|lra]. rewrite <- plus_IZR. apply (IZR_le 0). lia.
  - rewrite Rmax_left in * by lra. rewrite <- plus_IZR, Zfloor_IZR in *. split; auto; lia.
Qed.

Lemma width_limit_F b d : (Z.abs b <= 2 ^ 52)%Z ->
  width_limit NF b d = Zfloor (Rmax 1 (rnd64 (d * IZR b))) /\ (1 <= width_limit NF b d)%Z.
Proof.
  intros Hb. unfold width_limit.
  destruct (lit_I bld b ltac:(lia)) as [_ E0]. destruct (lit_I bld 1 ltac:(lia)) as [_ E1]. rewrite E0, E1.
  change (@n_ltb NF) with Rlt_bool. cbn [numF opsF n_dbl o_mul n_trunc]. set (y := rnd64 _).
  destruct (Rlt_bool_spec 1 y) as [H|H].
  - rewrite Rmax_right by lra. rewrite Ztrunc_floor by lra. split; auto. apply Zfloor_lub. lra.
  - rewrite Rmax_left by lra. rewrite Zfloor_IZR. split; auto; lia.
Qed.

Lemma width_loop_F s wmax : (wmax < 2 ^ 52)%Z -> forall fuel w, (1 <= w)%Z ->
  (Z.to_nat (wmax + 1 - w) < fuel)%nat ->
  exists ws, width_loop NF fuel s wmax w = Ok ws /\
    StronglySorted Z.lt ws /\ Forall (fun v => (w <= v <= wmax)%Z) ws /\
    (ws = [] <-> (wmax < w)%Z) /\ (ws <> [] -> hd 0%Z ws = w) /\
    linked (fun a b => b = next_width NF s a) ws /\
    (ws <> [] -> (wmax < next_width NF s (last ws 0))%Z).
Proof.
  intros Hm. induction fuel as [|f IH]; intros w Hw Hf; [lia|]. cbn [width_loop].
  destruct (Z.leb_spec w wmax) as [Hle|Hgt].
  2:{ exists []. repeat split; auto; try constructor; try lia; try congruence. }
  destruct (next_width_F s w ltac:(lia)) as [_ Hn].
  destruct (IH (next_width NF s w)) as (ws & E & S & F & Nil & Hd & L & La); [lia|lia|].
  rewrite E. cbn [bind]. exists (w :: ws). split; auto. split.
  { constructor; auto. eapply Forall_impl; [|exact F]. cbn; intros; lia. }
  split. { constructor; [lia|]. eapply Forall_impl; [|exact F]. cbn; intros; lia. }
  split. { split; [discriminate|lia]. }
  split. { reflexivity. }
  destruct ws as [|v ws].
  - split; [constructor|]. intros _. cbn. apply Nil. reflexivity.
  - split.
    + constructor; auto. apply Hd. discriminate.
    + intros _. apply La. discriminate.
Qed.
End Widths.
