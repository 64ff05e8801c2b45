(** C60: what rseek reports. *)
From Coq Require Import List Arith ZArith Bool Lia Reals Lra Permutation Sorted.
From Flocq Require Import Core.
From Verif Require Import Base.Result Base.Buf Base.Num Spec.Friends Model.Cluster Model.Peaks
  Model.Pipeline Model.Ranges Proof.Cluster Proof.Pipeline Props.Cluster Props.Pipeline.
Import ListNotations.
Local Open Scope R_scope.

(** The groups are groups of positions in the list of peaks, two of them in the same one exactly
    if a chain of peaks links them; [best] are the brightest of each. *)
Theorem rseek_report_correct :
  forall argsort (clrad len : R) (peaks : list (peak numR)),
  sorts argsort -> peaks <> [] ->
  exists (groups : list (list nat)) (best out : list (peak numR)),
    rseek_report numR argsort clrad len peaks = Ok (Some out) /\
    Permutation (concat groups) (seq 0 (length peaks)) /\
    (forall i j, (i < length peaks)%nat -> (j < length peaks)%nat ->
       (together groups i j <-> friends (fun k => (k < length peaks)%nat)
          (fun k => nth k (map p_freq peaks) 0) (clrad / len) i j)) /\
    Forall2 (fun g p => (exists i, In i g /\ nth_error peaks i = Some p) /\
       forall j q, In j g -> nth_error peaks j = Some q -> p_snr q <= p_snr p) groups best /\
    Permutation out best /\
    StronglySorted (fun p q : peak numR => p_snr q <= p_snr p) out.
Proof.
  intros argsort clrad len peaks HA HN. unfold rseek_report.
  destruct (Nat.eqb_spec (length peaks) 0) as [E|_]; [now destruct peaks|].
  destruct (cluster1d_friends argsort (map p_freq peaks) (clrad / len) false HA) as (PM & NE & FR & _ & _); [discriminate|].
  change (@o_div numR n_dbl clrad len) with (clrad / len).
  set (groups := cluster1d _ _ _ _ _) in *. clearbody groups. rewrite !map_length in *.
  assert (RD : exists best, mapM (fun g => ps <- mapM (rd peaks) g ;;
      match ps with [] => Err ValueError | p :: ps => Ok (first_max snr_lt p ps) end) groups = Ok best /\
    Forall2 (fun g (p : peak numR) => (exists i, In i g /\ nth_error peaks i = Some p) /\
       forall j q, In j g -> nth_error peaks j = Some q -> p_snr q <= p_snr p) groups best).
  { assert (IN : forall i, In i (concat groups) -> (i < length peaks)%nat).
    { intros i Hi. apply (Permutation_in _ PM), in_seq in Hi. lia. }
    clear - IN NE. induction groups as [|g gs IH]; [exists []; split; [reflexivity|constructor]|].
    destruct IH as (best & E & F). { intros h Hh. apply NE. now right. } { intros i Hi. apply IN. cbn. apply in_app_iff. now right. }
    assert (G : exists ps, mapM (rd peaks) g = Ok ps /\ Forall2 (fun i p => nth_error peaks i = Some p) g ps).
    { assert (IG : forall i, In i g -> (i < length peaks)%nat) by (intros i Hi; apply IN; cbn; apply in_app_iff; now left).
      clear - IG. induction g as [|i g IH]; [exists []; split; [reflexivity|constructor]|].
      destruct IH as (ps & E & F); [intros j Hj; apply IG; now right|].
      destruct (rd_ok peaks i) as (p & E1 & E2); [apply IG; now left|].
      exists (p :: ps). cbn. rewrite E1. cbn [bind]. rewrite E. split; [reflexivity|]. now constructor. }
    destruct G as (ps & E1 & F1). cbn [mapM]. rewrite E1. cbn [bind].
    destruct ps as [|p ps]. { inversion F1; subst. now destruct (NE [] (or_introl eq_refl)). }
    cbn [bind]. rewrite E. cbn [bind]. eexists. split; [reflexivity|]. constructor; [|exact F].
    pose proof (proj1 (centre_spec (Cl (p :: ps) None None None) (first_max snr_lt p ps)) eq_refl) as (l1 & l2 & EL & A & B).
    cbn [c_peaks] in EL. assert (IP : forall q, In q (p :: ps) -> p_snr q <= p_snr (first_max snr_lt p ps)).
    { intros q Hq. rewrite EL in Hq. apply in_app_iff in Hq as [Hq|[<-|Hq]]; [left; now apply A|lra|now apply B]. }
    split.
    - assert (IB : In (first_max snr_lt p ps) (p :: ps)) by (rewrite EL; apply in_app_iff; right; now left).
      revert IB. generalize (first_max snr_lt p ps). clear - F1. intros b.
      induction F1 as [|i q g qs H F IH]; intros Hb; [destruct Hb|]. destruct Hb as [<-|Hb].
      + exists i. split; [now left|exact H].
      + destruct (IH Hb) as (k & Hk & Ek). exists k. split; [now right|exact Ek].
    - intros j q Hj Eq. apply IP. clear - F1 Hj Eq. revert F1 Hj. generalize (p :: ps).
      intros qs F1. induction F1 as [|i r g rs H F IH]; intros Hj; [destruct Hj|]. destruct Hj as [<-|Hj].
      + left. congruence.
      + right. now apply IH. }
  destruct RD as (best & E & F). rewrite E. cbn [bind]. exists groups, best. eexists. split; [reflexivity|].
  split; [exact PM|]. split; [exact FR|]. split; [exact F|]. split.
  - symmetry. exact (sorted_desc_perm (fun q : peak numR => (p_snr q : R)) best).
  - exact (sorted_desc_sorted (fun q : peak numR => (p_snr q : R)) best).
Qed.
Print Assumptions rseek_report_correct.

Example rseek_report_correct_used : sorts argsort_R /\ [pk 4 9 0; pk 3 8 0; pk 1 10 0] <> [].
Proof. split; [exact argsort_R_sorts|discriminate]. Qed.

(** nothing is reported without peaks *)
Theorem rseek_report_none : forall argsort (clrad len : R) peaks,
  rseek_report numR argsort clrad len peaks = Ok None <-> peaks = [].
Proof.
  intros argsort clrad len peaks. unfold rseek_report. split; [|now intros ->].
  destruct peaks as [|p ps]; auto. cbn [length Nat.eqb].
  destruct (mapM _ _); cbn [bind]; discriminate.
Qed.
Print Assumptions rseek_report_none.
