From Coq Require Import List Arith ZArith Bool Lia Reals Lra Sorted.
From Flocq Require Import Core.
From Verif Require Import Base.Result Base.Buf Base.Num Model.Libffa Proof.Downsample.
Import ListNotations.
Local Open Scope R_scope.

(** ** widths, exact arithmetic *)
Lemma next_width_spec wtsp w : (1 <= w)%Z ->
  (w < next_width numR wtsp w)%Z /\
  IZR (next_width numR wtsp w) <= Rmax (IZR w + 1) (wtsp * IZR w)
  < IZR (next_width numR wtsp w) + 1.
Proof.
  intros Hw. unfold next_width. rsimp.
  assert (1 <= IZR w) by now apply (IZR_le 1).
  rewrite plus_IZR.
  destruct (Rlt_bool_spec (IZR w + 1) (wtsp * IZR w)) as [H1|H1].
  - rewrite Rmax_right by lra. rewrite Ztrunc_floor by lra.
    split. { assert (w + 1 <= Zfloor (wtsp * IZR w))%Z; [|lia].
      apply Zfloor_lub. rewrite plus_IZR. lra. }
    split; [apply Zfloor_lb|apply Zfloor_ub].
  - rewrite Rmax_left by lra. rewrite plus_IZR. split; [lia|lra].
Qed.

Lemma width_limit_spec nbins ducy :
  (1 <= width_limit numR nbins ducy)%Z /\
  IZR (width_limit numR nbins ducy) <= Rmax 1 (ducy * IZR nbins)
  < IZR (width_limit numR nbins ducy) + 1.
Proof.
  unfold width_limit. rsimp.
  destruct (Rlt_bool_spec 1 (ducy * IZR nbins)).
  - rewrite Rmax_right by lra. rewrite Ztrunc_floor by lra.
    split. { apply Zfloor_lub. lra. } split; [apply Zfloor_lb|apply Zfloor_ub].
  - rewrite Rmax_left by lra. split; [lia|lra].
Qed.

(** consecutive elements of a list *)
Inductive linked {A} (R : A -> A -> Prop) : list A -> Prop :=
| linked_nil : linked R []
| linked_one a : linked R [a]
| linked_cons a b l : R a b -> linked R (b :: l) -> linked R (a :: b :: l).

Lemma width_loop_spec wtsp wmax : forall fuel w, (1 <= w)%Z ->
  (Z.to_nat (wmax + 1 - w) < fuel)%nat ->
  exists ws, width_loop numR fuel wtsp wmax w = Ok ws /\
    StronglySorted Z.lt ws /\ Forall (fun v => (w <= v <= wmax)%Z) ws /\
    (ws = [] <-> (wmax < w)%Z) /\ (ws <> [] -> hd 0%Z ws = w) /\
    linked (fun a b => b = next_width numR wtsp a) ws /\
    (ws <> [] -> (wmax < next_width numR wtsp (last ws 0))%Z).
Proof.
  induction fuel as [|f IH]; intros w Hw Hf; [lia|]. cbn [width_loop].
  destruct (Z.leb_spec w wmax) as [Hle|Hgt].
  2:{ exists []. repeat split; auto; try constructor; try lia; try congruence. }
  destruct (next_width_spec wtsp w Hw) as [Hn _].
  destruct (IH (next_width numR wtsp w)) as (ws & E & S & F & Nil & Hd & L & La); [lia|lia|].
  rewrite E. cbn [bind]. exists (w :: ws). split; auto. split.
  { constructor; auto. eapply Forall_impl; [|exact F]. cbn; intros; lia. }
  split. { constructor; [lia|]. eapply Forall_impl; [|exact F]. cbn; intros; lia. }
  split. { split; [discriminate|lia]. }
  split. { reflexivity. }
  destruct ws as [|v ws].
  - split; [constructor|]. intros _. cbn. apply Nil. reflexivity.
  - split.
    + constructor; auto. apply Hd. discriminate.
    + intros _. apply La. discriminate.
Qed.
