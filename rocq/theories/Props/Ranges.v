(** C49, C50, C58 (ranges): search ranges. *)
From Coq Require Import String List Arith ZArith Bool Lia Reals Lra Permutation Sorted.
From Flocq Require Import Core.
From Verif Require Import Base.Result Base.Buf Base.Num Model.Cluster Model.Peaks Model.Harmonic
  Model.Folding Model.DmIter Model.Pipeline Model.Ranges Proof.Cluster Proof.Pipeline
  Props.Downsample Props.Folding Props.Pipeline.
Import ListNotations.
Local Open Scope R_scope.

(** ranges one after the other without gap or overlap *)
Fixpoint contiguous (l : list (range_conf numR)) : Prop :=
  match l with
  | a :: ((b :: _) as rest) => rg_pmax a = rg_pmin b /\ contiguous rest
  | _ => True
  end.
Definition holds (r : range_conf numR) (P : R) : Prop := rg_pmin r <= P < rg_pmax r.

(** C58, the checks made once the data are known *)
Theorem validate_ranges_correct :
  forall (ranges : list (range_conf numR)) (tsamp_max : R),
  (validate_ranges numR ranges tsamp_max = Ok tt <->
     Forall (fun r : range_conf numR => IZR (rg_bmin r) * tsamp_max <= rg_pmin r /\
        IZR (rg_cbins r) * tsamp_max <= rg_pmin r) ranges /\ contiguous ranges) /\
  (validate_ranges numR ranges tsamp_max = Ok tt \/ validate_ranges numR ranges tsamp_max = Err InvalidSearchRange).
Proof.
  intros ranges tsamp_max.
  assert (V : forall r, match validate_range numR tsamp_max r with
     | Ok _ => IZR (rg_bmin r) * tsamp_max <= rg_pmin r /\ IZR (rg_cbins r) * tsamp_max <= rg_pmin r
     | Err e => e = InvalidSearchRange /\ ~ (IZR (rg_bmin r) * tsamp_max <= rg_pmin r /\ IZR (rg_cbins r) * tsamp_max <= rg_pmin r)
     | _ => False end).
  { intros r. unfold validate_range. rsimp.
    destruct (Rlt_bool_spec (rg_pmin r) (IZR (rg_bmin r) * tsamp_max)) as [L|L]; cbn [negb guard bind].
    - split; auto. intros [A B]. lra.
    - destruct (Rlt_bool_spec (rg_pmin r) (IZR (rg_cbins r) * tsamp_max)) as [L'|L']; cbn [negb guard bind].
      + split; auto. intros [A B]. lra.
      + auto. }
  assert (C : forall l, match validate_ranges_contiguity numR l with
     | Ok _ => contiguous l | Err e => e = InvalidSearchRange /\ ~ contiguous l | _ => False end).
  { induction l as [|a [|b l] IH]; [exact I|exact I|].
    change (contiguous (a :: b :: l)) with (rg_pmax a = rg_pmin b /\ contiguous (b :: l)).
    change (validate_ranges_contiguity numR (a :: b :: l)) with
      (_ <- guard (Req_bool (rg_pmax a) (rg_pmin b)) InvalidSearchRange ;; validate_ranges_contiguity numR (b :: l)).
    destruct (Req_bool_spec (rg_pmax a) (rg_pmin b)) as [E|E]; cbn [guard bind].
    - destruct (validate_ranges_contiguity numR (b :: l)); try contradiction; [split; [exact E|exact IH]|].
      destruct IH as [-> IH]. split; [reflexivity|]. intros [_ G]. exact (IH G).
    - split; [reflexivity|]. intros [G _]. exact (E G). }
  unfold validate_ranges.
  assert (G : match foreach ranges (fun r _ => validate_range numR tsamp_max r) tt with
     | Ok _ => Forall (fun r : range_conf numR => IZR (rg_bmin r) * tsamp_max <= rg_pmin r /\
        IZR (rg_cbins r) * tsamp_max <= rg_pmin r) ranges
     | Err e => e = InvalidSearchRange /\ ~ Forall (fun r : range_conf numR => IZR (rg_bmin r) * tsamp_max <= rg_pmin r /\
        IZR (rg_cbins r) * tsamp_max <= rg_pmin r) ranges
     | _ => False end).
  { induction ranges as [|r l IH]; [constructor|]. cbn [foreach]. specialize (V r).
    destruct (validate_range numR tsamp_max r) as [[]| | |]; try contradiction; cbn [bind].
    - destruct (foreach l _ tt); auto. destruct IH as [-> IH]. split; auto. intros F. inversion F; auto.
    - destruct V as [-> V]. split; auto. intros F. inversion F; auto. }
  specialize (C ranges).
  destruct (foreach ranges _ tt) as [[]| | |]; try contradiction; cbn [bind].
  - destruct (validate_ranges_contiguity numR ranges) as [[]| | |]; try contradiction.
    + split; [tauto|auto].
    + destruct C as [-> C]. split; [split; [discriminate|tauto]|auto].
  - destruct G as [-> G]. split; [split; [discriminate|tauto]|auto].
Qed.
Print Assumptions validate_ranges_correct.

(** ** C49 *)
Lemma sorted_asc_id {A} (key : A -> R) l : StronglySorted (fun a b => key a <= key b) l ->
  sorted_asc (fun a b => Rlt_bool (key a) (key b)) l = l.
Proof.
  induction 1 as [|a l S IH F]; [reflexivity|]. cbn.
  change (fold_right _ [] l) with (sorted_asc (fun a b => Rlt_bool (key a) (key b)) l). rewrite IH.
  destruct l as [|b l]; [reflexivity|]. cbn. inversion F as [|? ? L _]; subst.
  destruct (Rlt_bool_spec (key b) (key a)); [lra|reflexivity].
Qed.

Lemma contiguous_head r l : contiguous (r :: l) -> Forall (fun s : range_conf numR => rg_pmin s < rg_pmax s) l ->
  contiguous l /\ Forall (fun s : range_conf numR => rg_pmax r <= rg_pmin s /\ rg_pmax r < rg_pmax s) l.
Proof.
  revert r. induction l as [|s l IH]; intros r C F; [split; [exact I|constructor]|].
  cbn in C. destruct C as [E C]. split; [exact C|]. inversion F as [|? ? F1 F2]; subst.
  destruct (IH s C F2) as [_ G]. constructor; [rewrite E; lra|].
  eapply Forall_impl; [|exact G]. intros t [T1 T2]. rewrite E. lra.
Qed.

Lemma contiguous_sorted l : contiguous l -> Forall (fun s : range_conf numR => rg_pmin s < rg_pmax s) l ->
  StronglySorted (fun a b : range_conf numR => rg_pmax a <= rg_pmin b /\ rg_pmax a < rg_pmax b) l.
Proof.
  induction l as [|r l IH]; intros C F; [constructor|]. inversion F as [|? ? F1 F2]; subst.
  destruct (contiguous_head r l C F2) as [C' G]. constructor; auto.
Qed.

Definition fold_min (l : list R) (a : R) : R := fold_left (fun a b => if Rlt_bool b a then b else a) l a.
Definition fold_max (l : list R) (a : R) : R := fold_left (fun a b => if Rlt_bool a b then b else a) l a.
Lemma fold_min_id l a : Forall (fun b => a <= b) l -> fold_min l a = a.
Proof.
  unfold fold_min. induction l as [|b l IH]; intros F; [reflexivity|]. inversion F; subst. cbn.
  destruct (Rlt_bool_spec b a); [lra|]. now apply IH.
Qed.
Lemma fold_max_last l a d : StronglySorted Rlt (a :: l) -> fold_max l a = last (a :: l) d.
Proof.
  unfold fold_max. revert a. induction l as [|b l IH]; intros a S; [reflexivity|].
  inversion S as [|? ? S1 S2]; subst. inversion S2; subst. cbn [fold_left].
  destruct (Rlt_bool_spec a b); [|lra]. rewrite IH by exact S1. reflexivity.
Qed.

(** For ranges as validated, none empty: the range holding the period, which is unique, and outside
    all ranges the first or the last one. *)
Theorem get_search_range_correct :
  forall (first : range_conf numR) (rest : list (range_conf numR)) (period : R),
  let ranges := first :: rest in
  let final := List.last ranges first in
  contiguous ranges -> Forall (fun r : range_conf numR => rg_pmin r < rg_pmax r) ranges ->
  (period < rg_pmin first -> get_search_range numR ranges period = Ok (Some first)) /\
  (rg_pmax final <= period -> get_search_range numR ranges period = Ok (Some final)) /\
  (rg_pmin first <= period < rg_pmax final ->
     exists r, In r ranges /\ holds r period /\ get_search_range numR ranges period = Ok (Some r) /\
       forall s, In s ranges -> holds s period -> s = r).
Proof.
  intros first rest period ranges final C F. pose proof (contiguous_sorted ranges C F) as S.
  assert (MN : Forall (fun r : range_conf numR => rg_pmin first <= rg_pmin r) ranges).
  { inversion S as [|? ? S1 S2]; subst. inversion F; subst. constructor; [lra|].
    eapply Forall_impl; [|exact S2]. intros r [A B]. lra. }
  assert (E : get_search_range numR ranges period =
    if Rlt_bool period (rg_pmin first) then Ok (Some first)
    else if negb (Rlt_bool period (rg_pmax final)) then Ok (Some final)
    else Ok (find (fun r : range_conf numR => Rle_bool (rg_pmin r) period && Rlt_bool period (rg_pmax r)) ranges)).
  { unfold get_search_range. rsimp. numR_ty.
    replace (sorted_asc _ ranges) with ranges.
    2:{ symmetry. apply (sorted_asc_id (fun r : range_conf numR => rg_pmax r)). clear - S.
        induction S as [|a l S IH G]; constructor; auto. eapply Forall_impl; [|exact G]. intros b [_ L]. now left. }
    cbn [min_of max_of fold1 ranges map bind]. unfold min_of, max_of, fold1. rsimp. cbn [bind].
    change (fold_left _ (map rg_pmin rest) (rg_pmin first)) with (fold_min (map rg_pmin rest) (rg_pmin first)).
    change (fold_left _ (map rg_pmax rest) (rg_pmax first)) with (fold_max (map rg_pmax rest) (rg_pmax first)).
    rewrite fold_min_id by (inversion MN; subst; now apply Forall_map).
    rewrite (fold_max_last _ _ (rg_pmax first)).
    2:{ change (rg_pmax first :: map rg_pmax rest) with (map (fun r : range_conf numR => rg_pmax r) ranges). clear - S.
        induction S as [|a l S IH G]; cbn; constructor; auto. apply Forall_map. eapply Forall_impl; [|exact G]. now intros b [_ L]. }
    match goal with |- context [Rlt_bool period (List.last ?l ?d)] => replace (List.last l d) with (rg_pmax final) end.
    2:{ unfold final, ranges. clear. change (rg_pmax first :: map rg_pmax rest) with (map (fun r : range_conf numR => rg_pmax r) (first :: rest)).
        assert (G : forall l d, rg_pmax (List.last l d) = List.last (map (fun r : range_conf numR => rg_pmax r) l) (rg_pmax d)).
        { induction l as [|a [|b l] IH]; intros d; try reflexivity. apply (IH d). }
        apply G. }
    cbn [hd_error]. fold ranges.
    replace (hd_error (rev ranges)) with (Some final); [reflexivity|].
    unfold final, ranges. clear.
    destruct (exists_last (l := first :: rest)) as (l & x & ->); [discriminate|].
    rewrite rev_app_distr. cbn. now rewrite last_last. }
  rewrite E. split; [|split].
  - intros L. now rewrite Rlt_bool_true.
  - intros L. assert (rg_pmin first <= period).
    { assert (In final ranges) as Hin.
      { unfold final, ranges. destruct (exists_last (l := first :: rest)) as (l & x & ->); [discriminate|].
        rewrite last_last. apply in_app_iff. right. now left. }
      rewrite Forall_forall in MN, F. specialize (MN _ Hin). specialize (F _ Hin). lra. }
    rewrite Rlt_bool_false, Rlt_bool_false by lra. reflexivity.
  - intros [L1 L2]. rewrite Rlt_bool_false, Rlt_bool_true by lra. cbn [negb].
    assert (EX : exists r, In r ranges /\ holds r period).
    { clear - C L1 L2. unfold final, ranges in *. clear final ranges. revert first C L1 L2. induction rest as [|b l IH]; intros a C L1 L2.
      - exists a. split; [now left|]. split; auto.
      - cbn in C. destruct C as [Eab C]. destruct (Rlt_or_le period (rg_pmax a)) as [L|L].
        + exists a. split; [now left|split; auto].
        + destruct (IH b C) as (r & Hr & H).
          * lra.
          * assert (G : forall (l : list (range_conf numR)) b d d', List.last (b :: l) d = List.last (b :: l) d').
            { clear. induction l as [|c l IH]; intros b d d'; [reflexivity|]. apply (IH c). }
            rewrite (G l b b a). exact L2.
          * exists r. split; [now right|auto]. }
    assert (UQ : forall r s, In r ranges -> In s ranges -> holds r period -> holds s period -> r = s).
    { clear - S. induction S as [|a l S IH G]; intros r s Hr Hs [H1 H2] [H3 H4]; [destruct Hr|].
      rewrite Forall_forall in G. destruct Hr as [<-|Hr], Hs as [<-|Hs]; auto.
      - specialize (G s Hs). lra.
      - specialize (G r Hr). lra.
      - apply IH; auto; split; auto. }
    destruct EX as (r0 & Hr0 & HH0).
    destruct (find (fun r : range_conf numR => Rle_bool (rg_pmin r) period && Rlt_bool period (rg_pmax r)) ranges) as [r|] eqn:EF.
    + apply find_some in EF as [Hr B]. apply andb_true_iff in B as [B1 B2].
      exists r. assert (HR : holds r period).
      { split; [now destruct (Rle_bool_spec (rg_pmin r) period)|now destruct (Rlt_bool_spec period (rg_pmax r))]. }
      split; [exact Hr|]. split; [exact HR|]. split; [reflexivity|]. intros s Hs HS. now apply UQ.
    + exfalso. apply find_none with (x := r0) in EF; auto. destruct HH0. rewrite Rle_bool_true, Rlt_bool_true in EF by auto. discriminate.
Qed.
Print Assumptions get_search_range_correct.

Definition ex_ranges : list (range_conf numR) :=
  [Range (N := numR) (1 / 2) 2 200 128 32; Range (N := numR) 2 10 200 256 32].
Example get_search_range_correct_used : contiguous ex_ranges /\
  Forall (fun r : range_conf numR => rg_pmin r < rg_pmax r) ex_ranges /\
  validate_ranges numR ex_ranges (1 / 1000) = Ok tt.
Proof.
  split; [cbn; auto|]. split; [repeat constructor; cbn; lra|].
  apply validate_ranges_correct. split; [repeat constructor; cbn; lra|cbn; auto].
Qed.

(** ranges the validation lets through although one is reversed: some periods between the
    smallest and the largest are in no range and get None *)
Theorem get_search_range_validated_refuted :
  exists (ranges : list (range_conf numR)) (tsamp_max period : R),
    validate_ranges numR ranges tsamp_max = Ok tt /\
    (exists r s, In r ranges /\ In s ranges /\ rg_pmin r <= period < rg_pmax s) /\
    get_search_range numR ranges period = Ok None.
Proof.
  exists [Range (N := numR) 1 2 10 10 1; Range (N := numR) 2 (1 / 2) 10 10 1; Range (N := numR) (1 / 2) (7 / 10) 10 10 1],
    (1 / 100), (8 / 10).
  split; [|split].
  - apply validate_ranges_correct. split; [repeat constructor; cbn; lra|cbn; auto].
  - exists (Range (N := numR) (1 / 2) (7 / 10) 10 10 1), (Range (N := numR) 1 2 10 10 1). cbn. split; auto. split; auto. lra.
  - unfold get_search_range. rsimp. cbn [sorted_asc fold_right insert_asc rg_pmax].
    repeat (cbn; unfold min_of, max_of, fold1; rsimp; cbn;
      match goal with
      | |- context [Rlt_bool ?a ?b] => (rewrite (Rlt_bool_true a b) by lra) || (rewrite (Rlt_bool_false a b) by lra)
      | |- context [Rle_bool ?a ?b] => (rewrite (Rle_bool_true a b) by lra) || (rewrite (Rle_bool_false a b) by lra)
      end).
    reflexivity.
Qed.
Print Assumptions get_search_range_validated_refuted.
