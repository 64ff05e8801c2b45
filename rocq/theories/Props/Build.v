(** C48, C50: building candidates. *)
From Coq Require Import String List Arith ZArith Bool Lia Reals Lra Permutation Sorted.
From Flocq Require Import Core.
From Verif Require Import Base.Result Base.Buf Base.Num Model.Cluster Model.Peaks Model.Harmonic
  Model.Folding Model.DmIter Model.Pipeline Model.Ranges Proof.Cluster Proof.Pipeline
  Props.Downsample Props.Folding Props.Pipeline Props.Ranges.
Import ListNotations.
Local Open Scope R_scope.

Definition somes {A} (l : list (option A)) : list A :=
  flat_map (fun o => match o with Some a => [a] | None => [] end) l.

Section Build.
Context (T : Type) (ts_length : T -> R) (ts_fold : T -> R -> Z -> option Z -> res (folded R)).
Context (get_filename : R -> res string) (load : string -> res T) (prepare : T -> res T).
Context (ranges : list (range_conf numR)).

(** the time series of a DM, loaded and prepared *)
Definition source (d : R) (ts : T) : Prop :=
  exists f ts0, get_filename d = Ok f /\ load f = Ok ts0 /\ prepare ts0 = Ok ts.

(** what becomes of a cluster: folded at the period of its centre with the bins and
    sub-integrations of the range found for it, or nothing if that raises *)
Definition outcome (c : cluster numR) (o : option (candidate numR T)) : Prop :=
  exists p d ts, first_brightest (c_peaks c) p /\ p_dm p = Some d /\ source d ts /\
  match get_search_range numR ranges (p_period p) with
  | Ok (Some r) =>
    exists subints, (subints = Some (rg_csubints r) /\ IZR (rg_csubints r) * p_period p < ts_length ts \/
                     subints = None /\ ts_length ts <= IZR (rg_csubints r) * p_period p) /\
      match ts_fold ts (p_period p) (rg_cbins r) subints with
      | Ok X => o = Some (Cand (N := numR) p ts (c_peaks c) X)
      | _ => o = None
      end
  | _ => o = None
  end.

Definition cand_of (c : cluster numR) : option (candidate numR T) :=
  match (p <- centre c ;;
         fname <- match p_dm p with Some d => get_filename d | None => Err KeyError end ;;
         ts0 <- load fname ;; ts <- prepare ts0 ;;
         rng <- get_search_range numR ranges (p_period p) ;;
         match rng with
         | None => Err TypeError
         | Some r => from_pipeline_output numR T ts_length ts_fold ts c (rg_cbins r) (Some (rg_csubints r))
         end) with
  | Ok x => Some x
  | _ => None
  end.

Definition loadable (c : cluster numR) : Prop :=
  exists p d ts, first_brightest (c_peaks c) p /\ p_dm p = Some d /\ source d ts.
Hypothesis no_ub : forall d ts P r s, source d ts -> In r ranges ->
  ts_fold ts P (rg_cbins r) s <> UB /\ ts_fold ts P (rg_cbins r) s <> Loop.

Lemma get_search_range_in P r : get_search_range numR ranges P = Ok (Some r) -> In r ranges.
Proof.
  unfold get_search_range. cbn zeta. set (rs := sorted_asc _ ranges).
  assert (PM : Permutation ranges rs) by (exact (sorted_asc_perm (fun r : range_conf numR => (rg_pmax r : R)) ranges)).
  intros H. apply (Permutation_in r (Permutation_sym PM)). clearbody rs. clear PM.
  assert (HD : forall l, hd_error l = Some r -> In r l) by (intros [|a l] E; [discriminate|injection E as ->; now left]).
  unfold min_of, max_of, fold1 in H. destruct (map rg_pmin rs); [discriminate|]. cbn [bind] in H.
  destruct (map rg_pmax rs); [discriminate|]. cbn [bind] in H. destruct (n_ltb P _).
  - injection H as H. now apply HD.
  - destruct (negb _); injection H as H; [apply in_rev; now apply HD|]. now apply find_some in H.
Qed.

Lemma get_search_range_noub P : get_search_range numR ranges P <> UB /\ get_search_range numR ranges P <> Loop.
Proof.
  unfold get_search_range. cbn zeta. unfold min_of, max_of, fold1.
  destruct (map rg_pmin _); [split; discriminate|]. cbn [bind].
  destruct (map rg_pmax _); [split; discriminate|]. cbn [bind].
  destruct (n_ltb _ _); [split; discriminate|]. destruct (negb _); split; discriminate.
Qed.

Lemma cand_outcome c : loadable c -> outcome c (cand_of c).
Proof.
  intros (p & d & ts & B & D & S). exists p, d, ts. split; [exact B|]. split; [exact D|]. split; [exact S|].
  destruct S as (f & ts0 & S1 & S2 & S3). unfold cand_of. apply centre_spec in B. rewrite B. cbn [bind].
  rewrite D. numR_ty. rewrite S1. cbn [bind]. rewrite S2. cbn [bind]. rewrite S3. cbn [bind].
  destruct (get_search_range numR ranges (p_period p)) as [[r|]| | |]; cbn [bind]; auto.
  unfold from_pipeline_output. rewrite B. cbn [bind]. rsimp. numR_ty.
  destruct (Rlt_bool_spec (IZR (rg_csubints r) * p_period p) (ts_length ts)) as [L|L]; cbn [negb].
  - exists (Some (rg_csubints r)). split; [left; auto|]. destruct (ts_fold ts _ _ _); cbn; auto.
  - exists None. split; [right; auto|]. destruct (ts_fold ts _ _ _); cbn; auto.
Qed.

Lemma try_ok (c : cluster numR) (p : peak numR) (d : R) (ts : T) (cands : list (candidate numR T)) : centre c = Ok p -> p_dm p = Some d -> source d ts ->
  try_candidate numR T ts_length ts_fold ranges ts c cands = Ok (cands ++ somes [cand_of c]).
Proof.
  intros B D S. pose proof S as (f & ts0 & S1 & S2 & S3). unfold try_candidate, cand_of. rewrite B. cbn [bind].
  rewrite D. numR_ty. rewrite S1. cbn [bind]. rewrite S2. cbn [bind]. rewrite S3. cbn [bind].
  pose proof (get_search_range_noub (p_period p)) as [N1 N2].
  destruct (get_search_range numR ranges (p_period p)) as [[r|]| | |] eqn:EG; cbn [bind]; try contradiction;
    try (cbn; now rewrite app_nil_r).
  apply get_search_range_in in EG.
  unfold from_pipeline_output. rewrite B. cbn [bind].
  match goal with |- context [ts_fold ?a ?b ?c ?d] => destruct (no_ub _ a b r d S EG) as [M1 M2]; destruct (ts_fold a b c d) end;
    cbn; try contradiction; rewrite ?app_nil_r; reflexivity.
Qed.

Definition in_group (d : option R) (c : cluster numR) : Prop := exists p, centre c = Ok p /\ p_dm p = d.

Lemma group_add_spec d c (g : list (option R * list (cluster numR))) :
  in_group d c -> Forall (fun x => snd x <> [] /\ Forall (in_group (fst x)) (snd x)) g ->
  Forall (fun x => snd x <> [] /\ Forall (in_group (fst x)) (snd x)) (group_add numR d c g) /\
  Permutation (flat_map snd (group_add numR d c g)) (c :: flat_map snd g) /\ group_add numR d c g <> [].
Proof.
  intros H. induction g as [|[e l] g IH]; intros F; cbn.
  - split; [repeat constructor; auto; discriminate|]. split; [auto|discriminate].
  - inversion F as [|? ? [F0 F1] F2]; subst. cbn in F0, F1. destruct (dm_eqb numR d e) eqn:E.
    + assert (d = e).
      { destruct d as [x|], e as [y|]; cbn in E; try discriminate; auto.
        change (Req_bool x y = true) in E. destruct (Req_bool_spec x y); [now subst|discriminate]. }
      subst e. split; [constructor; auto; cbn; split; [now destruct l|apply Forall_app; auto]|]. split; [|discriminate].
      cbn. rewrite <- app_assoc. cbn. symmetry. apply Permutation_middle.
    + destruct (IH F2) as (I1 & I2 & _). split; [now constructor|]. split; [|discriminate].
      cbn. rewrite I2. symmetry. apply Permutation_middle.
Qed.

Theorem build_candidates_correct :
  forall (filtered : list (cluster numR)) (old : list (candidate numR T)),
  Forall loadable filtered ->
  exists out outs,
    build_candidates numR T ts_length ts_fold get_filename load prepare ranges filtered old = Ok out /\
    Forall2 outcome filtered outs /\ Permutation out (old ++ somes outs) /\
    (filtered <> [] -> StronglySorted (fun a b : candidate numR T => p_snr (cd_params b) <= p_snr (cd_params a)) out).
Proof.
  intros filtered old LD.
  assert (NE : forall c, In c filtered -> c_peaks c <> []).
  { intros c Hc. rewrite Forall_forall in LD. destruct (LD c Hc) as (p & _ & _ & (l1 & l2 & E & _) & _).
    rewrite E. now destruct l1. }
  unfold build_candidates. destruct (by_snr_total (fun c => c) filtered NE) as [s ES].
  assert (SB : StronglySorted (fun _ _ : cluster numR => True) filtered).
  { clear. induction filtered; constructor; auto. now apply Forall_forall. }
  destruct (by_snr_spec (fun c => c) _ _ _ SB ES) as (PM & _ & CT). rewrite ES. cbn [bind].
  assert (OC : Forall2 outcome filtered (map cand_of filtered)).
  { clear - LD. induction LD as [|c l H F IH]; cbn; constructor; auto. now apply cand_outcome. }
  destruct (Nat.eqb_spec (length s) 0) as [L0|L0].
  { assert (filtered = []) as ->.
    { destruct s; [|discriminate]. cbn in PM. now apply Permutation_nil in PM. }
    exists old, []. split; [reflexivity|]. split; [constructor|]. split; [cbn; now rewrite app_nil_r|easy]. }
  set (groups := fold_left (fun g x => group_add numR (p_dm (snd x)) (fst x) g) s []).
  assert (GR : Forall (fun x => snd x <> [] /\ Forall (in_group (fst x)) (snd x)) groups /\
    Permutation (flat_map snd groups) filtered).
  { rewrite <- PM. unfold groups.
    assert (G : forall s g, (forall a p, In (a, p) s -> centre a = Ok p) ->
      Forall (fun x => snd x <> [] /\ Forall (in_group (fst x)) (snd x)) g ->
      Forall (fun x => snd x <> [] /\ Forall (in_group (fst x)) (snd x)) (fold_left (fun g x => group_add numR (p_dm (snd x)) (fst x) g) s g) /\
      Permutation (flat_map snd (fold_left (fun g x => group_add numR (p_dm (snd x)) (fst x) g) s g)) (map fst s ++ flat_map snd g)).
    { clear. induction s as [|[a p] s IH]; intros g CT F; cbn; [auto|].
      destruct (group_add_spec (p_dm p) a g) as (I1 & I2 & _); auto.
      { exists p. split; auto. apply CT. now left. }
      destruct (IH (group_add numR (p_dm p) a g)) as [J1 J2]; auto. { intros; apply CT; now right. }
      split; auto. rewrite J2, I2. symmetry. apply Permutation_middle. }
    destruct (G s [] CT (Forall_nil _)) as [G1 G2]. split; auto. now rewrite G2, app_nil_r. }
  destruct GR as [GF GP]. clearbody groups.
  assert (FE : forall cands, foreach groups (fun '(dm, cls) cands =>
    fname <- match dm with Some d => get_filename d | None => Err KeyError end ;;
    ts <- load fname ;; ts <- prepare ts ;;
    foreach cls (try_candidate numR T ts_length ts_fold ranges ts) cands) cands =
    Ok (cands ++ somes (map cand_of (flat_map snd groups)))).
  { assert (LG : forall x c, In x groups -> In c (snd x) -> loadable c).
    { intros x c Hx Hc. rewrite Forall_forall in LD. apply LD. rewrite <- GP. apply in_flat_map. eauto. }
    clear - GF LG no_ub. revert GF LG. induction groups as [|[dm cls] g IH]; intros GF LG cands; [cbn; now rewrite app_nil_r|].
    inversion GF as [|? ? [G0 G1] G2]; subst. cbn [fst snd] in G0, G1. cbn [foreach].
    assert (SRC : exists d ts, dm = Some d /\ source d ts).
    { destruct cls as [|c0 cls]; [easy|]. destruct (LG (dm, c0 :: cls) c0) as (p & d & ts & B & D & S); [now left|now left|].
      inversion G1 as [|? ? (p' & C' & D') _]; subst. apply centre_spec in B. numR_ty. rewrite B in C'. injection C' as <-.
      exists d, ts. auto. }
    destruct SRC as (d & ts & -> & S). pose proof S as (f & ts0 & S1 & S2 & S3). numR_ty. rewrite S1. cbn [bind].
    rewrite S2. cbn [bind]. rewrite S3. cbn [bind].
    assert (IN : forall cands, foreach cls (try_candidate numR T ts_length ts_fold ranges ts) cands =
      Ok (cands ++ somes (map cand_of cls))).
    { clear - G1 S no_ub. induction cls as [|c l IH]; intros cands; [cbn; now rewrite app_nil_r|].
      inversion G1 as [|? ? (p' & C' & D') G2]; subst. cbn [foreach]. rewrite (try_ok c p' d ts cands C' D' S). cbn [bind].
      rewrite IH by auto. rewrite <- app_assoc. f_equal. f_equal. cbn. now rewrite app_nil_r. }
    rewrite IN. cbn [bind]. rewrite IH; auto.
    - rewrite <- app_assoc. f_equal. f_equal. cbn [flat_map snd]. rewrite map_app. unfold somes. now rewrite flat_map_app.
    - intros x c Hx Hc. apply (LG x c); auto. now right. }
  rewrite FE. cbn [bind]. eexists _, (map cand_of filtered). split; [reflexivity|]. split; [exact OC|]. split.
  - etransitivity; [symmetry; apply (sorted_desc_perm (fun a : candidate numR T => (p_snr (cd_params a) : R)))|]. apply Permutation_app_head. unfold somes.
    apply Permutation_flat_map. now apply Permutation_map.
  - intros _. exact (sorted_desc_sorted (fun a : candidate numR T => (p_snr (cd_params a) : R)) _).
Qed.
End Build.
Print Assumptions build_candidates_correct.

(** two bright clusters, the second of which cannot be folded *)
Definition ex_fold (_ : unit) (P : R) (_ : Z) (_ : option Z) : res (folded R) :=
  if Rlt_bool P 1 then Err ValueError else Ok (Prof []).
Example build_candidates_correct_used :
  (forall ts P b s, ex_fold ts P b s <> UB /\ ex_fold ts P b s <> Loop) /\
  Forall (loadable unit (fun _ => Ok EmptyString) (fun _ => Ok tt) (fun t => Ok t)) ex_clusters.
Proof.
  split. { intros. unfold ex_fold. destruct (Rlt_bool P 1); split; discriminate. }
  assert (G : forall c, In c ex_clusters -> exists p, first_brightest (c_peaks c) p /\ p_dm p = Some 0).
  { intros c [<-|[<-|[<-|[]]]].
    - exists (pk 3 6 0). split; [|reflexivity]. exists [], []. repeat split; intros ? [].
    - exists (pk 1 10 0). split; [|reflexivity]. exists [], [pk 1 9 0]. repeat split; [intros ? []|intros q [<-|[]]; cbn; lra].
    - exists (pk 6 4 0). split; [|reflexivity]. exists [], []. repeat split; intros ? []. }
  rewrite Forall_forall. intros c Hc. destruct (G c Hc) as (p & B & D). exists p, 0, tt. split; [exact B|]. split; [exact D|].
  exists EmptyString, tt. auto.
Qed.

(** Only folding is isolated: a file that does not load loses the candidates of every cluster.
    Here the first cluster's file does not load while the second one's does and folds. *)
Theorem build_candidates_load_refuted :
  exists (filtered : list (cluster numR)) (load : string -> res unit) (get_filename : R -> res string)
    (fold : unit -> R -> Z -> option Z -> res (folded R)) (ranges : list (range_conf numR)) c,
    In c filtered /\ loadable unit get_filename load (fun t => Ok t) c /\
    (exists o, outcome unit (fun _ => 1) fold get_filename load (fun t => Ok t) ranges c (Some o)) /\
    build_candidates numR unit (fun _ => 1) fold get_filename load (fun t => Ok t) ranges filtered [] = Err OSError.
Proof.
  set (gf := fun d : R => if Req_bool d 0 then Ok "a"%string else Ok "b"%string).
  set (load := fun f : string => if String.eqb f "a" then Err OSError else Ok tt).
  set (fold := fun (_ : unit) (_ : R) (_ : Z) (_ : option Z) => Ok (Prof (@nil R))).
  exists [Cl [pk 3 6 0] None None None; Cl [pk 1 5 7] None None None], load, gf, fold, ex_ranges, (Cl [pk 1 5 7] None None None).
  assert (S : source unit gf load (fun t => Ok t) 7 tt).
  { exists "b"%string, tt. unfold gf. rewrite Req_bool_false by lra. auto. }
  assert (B : first_brightest [pk 1 5 7] (pk 1 5 7)) by (exists [], []; repeat split; intros ? []).
  split; [right; now left|]. split; [exists (pk 1 5 7), 7, tt; auto|]. split.
  - destruct get_search_range_correct_used as (C & F & _).
    destruct (get_search_range_correct _ _ (1 / 1) C F) as (_ & _ & G). destruct G as (r & Hr & HH & E & _); [cbn; lra|].
    eexists. exists (pk 1 5 7), 7, tt. split; [exact B|]. split; [reflexivity|]. split; [exact S|].
    change (p_period (pk 1 5 7)) with (1 / 1). unfold ex_ranges in *. rewrite E.
    destruct (Rlt_or_le (IZR (rg_csubints r) * (1 / 1)) 1) as [L|L];
      [exists (Some (rg_csubints r))|exists None]; (split; [auto|reflexivity]).
  - unfold build_candidates, by_snr. cbn [mapM c_peaks centre bind map fst snd first_max fold_left combine].
    unfold gf, load.
    assert (E : sorted_desc (fun a b : cluster numR * peak numR => snr_lt (snd a) (snd b))
      [(Cl [pk 3 6 0] None None None, pk 3 6 0); (Cl [pk 1 5 7] None None None, pk 1 5 7)] =
      [(Cl [pk 3 6 0] None None None, pk 3 6 0); (Cl [pk 1 5 7] None None None, pk 1 5 7)]).
    { cbn. change (snr_lt (pk 3 6 0) (pk 1 5 7)) with (Rlt_bool 6 5). now rewrite Rlt_bool_false by lra. }
    rewrite E. cbn [length Nat.eqb fold_left snd fst group_add p_dm pk].
    change (dm_eqb numR (Some 7) (Some 0)) with (Req_bool 7 0). rewrite Req_bool_false by lra.
    cbn [foreach]. rewrite Req_bool_true by lra. reflexivity.
Qed.
Print Assumptions build_candidates_load_refuted.

(** Building again on the same Pipeline adds every candidate a second time. *)
Theorem build_candidates_twice_refuted :
  exists (filtered : list (cluster numR)) (o : candidate numR unit),
    let build := build_candidates numR unit (fun _ => 1) (fun _ _ _ _ => Ok (Prof (@nil R)))
      (fun _ => Ok EmptyString) (fun _ => Ok tt) (fun t => Ok t) ex_ranges filtered in
    build [] = Ok [o] /\ build [o] = Ok [o; o].
Proof.
  destruct get_search_range_correct_used as (C & F & _).
  destruct (get_search_range_correct _ _ (1 / 1) C F) as (_ & _ & G). destruct G as (r & Hr & HH & E & _); [cbn; lra|].
  exists [Cl [pk 1 5 7] None None None], (Cand (N := numR) (pk 1 5 7) tt [pk 1 5 7] (Prof [])). cbv zeta.
  unfold build_candidates. cbn [mapM bind by_snr centre c_peaks first_max fold_left map combine sorted_desc fold_right insert_desc length Nat.eqb].
  cbn [fold_left group_add p_dm pk snd fst foreach bind]. unfold try_candidate.
  cbn [centre c_peaks bind first_max fold_left]. change (p_period (pk 1 5 7)) with (1 / 1).
  change [Range (N := numR) (1 / 2) 2 200 128 32; Range (N := numR) 2 10 200 256 32] with ex_ranges in E.
  rewrite E. cbn [bind]. unfold from_pipeline_output. cbn [centre c_peaks bind first_max fold_left].
  change (p_period (pk 1 5 7)) with (1 / 1). split; [reflexivity|].
  cbn [app sorted_desc fold_right insert_desc cd_params]. change (snr_lt (pk 1 5 7) (pk 1 5 7)) with (Rlt_bool 5 5).
  rewrite Rlt_bool_false by lra. reflexivity.
Qed.
Print Assumptions build_candidates_twice_refuted.

(** ** C50 *)
(** folding the samples [fst ts] of sampling time [snd ts] *)
Definition fold_ts (alloc : nat -> list R) (ts : list R * R) (P : R) (b : Z) (s : option Z) : res (folded R) :=
  fold numR alloc (fst ts) (snd ts) P (Z.to_nat b) s.
Definition ts_len (ts : list R * R) : R := INR (length (fst ts)) * snd ts.

(** With ranges that passed validation and are the right way around, the candidate of a cluster
    is always built if its period is not less than the smallest searched, not more than the
    length of the data, and not exactly the number of bins times the sampling time. *)
Theorem validated_ranges_fold_partial :
  forall alloc (first : range_conf numR) rest (tsamp_max : R) (ts : list R * R) (c : cluster numR) p cands,
  let ranges := first :: rest in
  allocates alloc -> validate_ranges numR ranges tsamp_max = Ok tt ->
  Forall (fun r : range_conf numR => rg_pmin r < rg_pmax r /\ (1 <= rg_cbins r)%Z /\ (1 <= rg_csubints r)%Z) ranges ->
  0 < snd ts <= tsamp_max -> first_brightest (c_peaks c) p ->
  rg_pmin first <= p_period p <= ts_len ts ->
  (forall r, In r ranges -> p_period p <> IZR (rg_cbins r) * snd ts) ->
  exists X, try_candidate numR (list R * R) ts_len (fold_ts alloc) ranges ts c cands =
    Ok (cands ++ [Cand (N := numR) p ts (c_peaks c) X]).
Proof.
  intros alloc first rest tsamp_max ts c p cands ranges HA V F [HT HM] B [L1 L2] NE.
  apply (proj1 (validate_ranges_correct ranges tsamp_max)) in V as [V C].
  assert (F' : Forall (fun r : range_conf numR => rg_pmin r < rg_pmax r) ranges) by (eapply Forall_impl; [|exact F]; intros a Ha; exact (proj1 Ha)).
  assert (SR : exists r, In r ranges /\ rg_pmin r <= p_period p /\ get_search_range numR ranges (p_period p) = Ok (Some r)).
  { destruct (get_search_range_correct first rest (p_period p) C F') as (_ & G2 & G3).
    destruct (Rlt_or_le (p_period p) (rg_pmax (List.last (first :: rest) first))) as [L|L].
    - destruct G3 as (r & Hr & [H1 _] & E & _); [lra|]. eauto.
    - eexists. split; [|split; [|apply G2; exact L]].
      + destruct (exists_last (l := first :: rest)) as (l & x & E); [discriminate|]. unfold ranges. rewrite E, last_last.
        apply in_app_iff. right. now left.
      + assert (In (List.last (first :: rest) first) ranges) as Hin.
        { destruct (exists_last (l := first :: rest)) as (l & x & E); [discriminate|]. unfold ranges. rewrite E, last_last.
          apply in_app_iff. right. now left. }
        rewrite Forall_forall in F'. specialize (F' _ Hin). lra. }
  destruct SR as (r & Hr & LP & E). rewrite Forall_forall in V, F. destruct (V r Hr) as [_ V2]. destruct (F r Hr) as (_ & B1 & S1).
  unfold try_candidate. pose proof (proj2 (centre_spec c p) B) as CE. rewrite CE. cbn [bind]. numR_ty. rewrite E. cbn [bind].
  unfold from_pipeline_output. rewrite CE. cbn [bind]. rsimp. numR_ty.
  set (sub := if negb (Rlt_bool (IZR (rg_csubints r) * p_period p) (ts_len ts)) then None else Some (rg_csubints r)).
  assert (BP : 0 < IZR (rg_cbins r)) by (apply IZR_lt; lia).
  assert (PP : IZR (rg_cbins r) * snd ts < p_period p).
  { assert (IZR (rg_cbins r) * snd ts <= IZR (rg_cbins r) * tsamp_max) by (apply Rmult_le_compat_l; lra).
    specialize (NE r Hr). lra. }
  assert (P0 : 0 < p_period p) by (apply Rle_lt_trans with (2 := PP); apply Rmult_le_pos; lra).
  assert (EB : INR (Z.to_nat (rg_cbins r)) = IZR (rg_cbins r)) by (rewrite INR_IZR_INZ, Z2Nat.id by lia; reflexivity).
  assert (NR : ~ fold_refused (ts_len ts) (snd ts) (p_period p) (Z.to_nat (rg_cbins r)) sub).
  { intros [H|[H|H]].
    - lra.
    - rewrite EB in H. apply (Rmult_le_compat_r (IZR (rg_cbins r))) in H; [|lra].
      unfold Rdiv in H. rewrite Rmult_assoc, Rinv_l in H by lra. lra.
    - unfold sub in H. destruct (Rlt_bool_spec (IZR (rg_csubints r) * p_period p) (ts_len ts)) as [G|G]; cbn [negb] in H; [|contradiction].
      destruct H as [H|H]; [lia|]. apply (Rmult_lt_compat_r (p_period p)) in H; [|lra].
      unfold Rdiv in H. rewrite Rmult_assoc, Rinv_l in H by lra. lra. }
  destruct (fold_correct alloc (fst ts) (snd ts) (p_period p) (Z.to_nat (rg_cbins r)) sub HA HT) as [_ G]; [lia|].
  unfold fold_ts. destruct (G NR) as (m & _ & _ & X).
  cbv zeta in X. match type of X with if ?b then _ else _ => destruct b end.
  - destruct X as (q & EX & _). rewrite EX. cbn [bind]. eauto.
  - destruct X as (q & EX & _). rewrite EX. cbn [bind]. eauto.
Qed.
Print Assumptions validated_ranges_fold_partial.

Example validated_ranges_fold_used :
  validate_ranges numR ex_ranges (1 / 1000) = Ok tt /\
  Forall (fun r : range_conf numR => rg_pmin r < rg_pmax r /\ (1 <= rg_cbins r)%Z /\ (1 <= rg_csubints r)%Z) ex_ranges /\
  first_brightest [pk 1 10 0; pk 1 9 0] (pk 1 10 0) /\
  (forall r, In r ex_ranges -> p_period (pk 1 10 0) <> IZR (rg_cbins r) * (1 / 1000)).
Proof.
  destruct get_search_range_correct_used as (_ & _ & V). split; [exact V|].
  split; [repeat constructor; cbn; try lra; lia|]. split.
  - exists [], [pk 1 9 0]. repeat split; [intros ? []|intros q [<-|[]]; cbn; lra].
  - intros r [<-|[<-|[]]]; cbn; lra.
Qed.

(** The validation accepts a smallest period of exactly [bins] sampling times, for which folding
    raises: the candidate is lost.  The first trial period of a search is that very period. *)
Theorem validated_ranges_fold_refuted :
  exists (ranges : list (range_conf numR)) (tsamp : R) (p : peak numR),
    validate_ranges numR ranges tsamp = Ok tt /\
    (exists r, In r ranges /\ holds r (p_period p)) /\
    forall alloc data, allocates alloc -> p_period p <= ts_len (data, tsamp) ->
      forall cands, try_candidate numR (list R * R) ts_len (fold_ts alloc) ranges (data, tsamp) (Cl [p] None None None) cands = Ok cands.
Proof.
  set (r := Range (N := numR) 4 8 4 4 2). exists [r], 1, (pk (1 / 4) 10 0).
  split; [apply validate_ranges_correct; split; [repeat constructor; cbn; lra|exact I]|].
  assert (EP : p_period (pk (1 / 4) 10 0) = 4) by (cbn; field).
  split; [exists r; split; [now left|]; unfold holds; rewrite EP; cbn; lra|].
  intros alloc data HA L cands. unfold try_candidate. cbn [centre c_peaks bind first_max fold_left]. numR_ty. rewrite EP in *.
  assert (F : Forall (fun r : range_conf numR => rg_pmin r < rg_pmax r) [r]) by (repeat constructor; cbn; lra).
  destruct (get_search_range_correct r [] 4 I F) as (_ & _ & G). destruct G as (r' & [<-|[]] & _ & E & _); [cbn; lra|].
  rewrite E. cbn [bind]. unfold from_pipeline_output. cbn [centre c_peaks bind first_max fold_left]. numR_ty. rewrite EP.
  cbn [r rg_cbins rg_csubints]. unfold fold_ts. cbn [fst snd].
  match goal with |- context [fold numR alloc data 1 4 (Z.to_nat 4) ?s] =>
    destruct (fold_correct alloc data 1 4 (Z.to_nat 4) s HA) as [G _]; [lra|cbn; lia|]; rewrite G; [reflexivity|] end.
  right. left. replace (INR (Z.to_nat 4)) with 4 by (rewrite INR_IZR_INZ; reflexivity). lra.
Qed.
Print Assumptions validated_ranges_fold_refuted.
