(** C52, C68: the files written at the end. *)
From Coq Require Import String Ascii List Arith ZArith Bool Lia Permutation DecimalString DecimalNat DecimalFacts.
From Verif Require Import Base.Result Model.Pool Model.Writer Proof.Pool Props.Pool.
Import ListNotations.
Local Open Scope string_scope.

(** ** names *)
Lemma append_inj_l (a b c : string) : a ++ b = a ++ c -> b = c.
Proof. induction a as [|x a IH]; cbn; auto. intros H. injection H as H. auto. Qed.

Lemma append_assoc (a b c : string) : (a ++ b) ++ c = a ++ b ++ c.
Proof. induction a as [|x a IH]; cbn; [reflexivity|now rewrite IH]. Qed.

Definition digit (a : ascii) : bool := (Nat.leb 48 (nat_of_ascii a) && Nat.leb (nat_of_ascii a) 57)%bool.
(** the number a text of digits stands for *)
Fixpoint number (acc : nat) (s : string) : nat :=
  match s with
  | "" => acc
  | String a s' => if digit a
                   then number (10 * acc + (nat_of_ascii a - 48)) s' else acc
  end.

Lemma number_uint d acc rest : (match rest with "" => True | String a _ => nat_of_ascii a < 48 \/ 57 < nat_of_ascii a end) ->
  number acc (NilEmpty.string_of_uint d ++ rest) = Nat.of_uint_acc d acc.
Proof.
  intros HR. revert acc.
  assert (TM : forall a, Nat.tail_mul 10 a = 10 * a) by (intros; unfold Nat.tail_mul; rewrite Nat.tail_addmul_spec || rewrite <- Nat.tail_mul_spec; auto).
  induction d as [|d IH|d IH|d IH|d IH|d IH|d IH|d IH|d IH|d IH|d IH]; intros acc.
  1:{ cbn [NilEmpty.string_of_uint append Nat.of_uint_acc]. destruct rest as [|a r]; [reflexivity|]. cbn [number]. unfold digit.
      destruct (Nat.leb_spec 48 (nat_of_ascii a)); [|reflexivity]. destruct (Nat.leb_spec (nat_of_ascii a) 57); [lia|reflexivity]. }
  all: cbn [NilEmpty.string_of_uint append Nat.of_uint_acc]; rewrite <- IH, TM; cbn [number];
    match goal with |- (if ?b then _ else _) = _ => change b with true end;
    cbv beta iota; f_equal; cbn -[Nat.mul]; lia.
Qed.

Lemma number_pad n rest : (match rest with "" => True | String a _ => nat_of_ascii a < 48 \/ 57 < nat_of_ascii a end) ->
  number 0 (pad4 n ++ rest) = n.
Proof.
  intros HR. unfold pad4, decimal. rewrite append_assoc.
  assert (Z : forall k t, number 0 (zeros k ++ t) = number 0 t).
  { induction k as [|k IH]; intros t; [reflexivity|]. cbn [zeros append number].
    change (digit "0") with true. cbv beta iota. exact (IH t). }
  rewrite Z, number_uint by exact HR. exact (Unsigned.of_to n).
Qed.

(** the text from the first character on that is not a digit *)
Fixpoint after (s : string) : string :=
  match s with
  | "" => ""
  | String a s' => if digit a then after s' else s
  end.
Lemma after_pad n rest : (match rest with "" => True | String a _ => nat_of_ascii a < 48 \/ 57 < nat_of_ascii a end) ->
  after (pad4 n ++ rest) = rest.
Proof.
  intros HR. unfold pad4, decimal. rewrite append_assoc.
  assert (Z : forall k t, after (zeros k ++ t) = after t).
  { induction k as [|k IH]; intros t; [reflexivity|]. cbn [zeros append after].
    change (digit "0") with true. cbv beta iota. exact (IH t). }
  rewrite Z. generalize (Nat.to_uint n). intros d. induction d; cbn [NilEmpty.string_of_uint append after];
    try (match goal with |- (if ?b then _ else _) = _ => change b with true end; cbv beta iota; exact IHd).
  destruct rest as [|a r]; [reflexivity|]. cbn [after]. unfold digit.
  destruct (Nat.leb_spec 48 (nat_of_ascii a)); [|reflexivity]. destruct (Nat.leb_spec (nat_of_ascii a) 57); [lia|reflexivity].
Qed.

(** C52: two candidate files of a directory have different names if their ranks or their kinds
    differ *)
Theorem candidate_fname_injective :
  forall outdir rank rank' ext ext',
  In ext [".json"; ".png"] -> In ext' [".json"; ".png"] ->
  candidate_fname outdir rank ext = candidate_fname outdir rank' ext' -> rank = rank' /\ ext = ext'.
Proof.
  intros outdir r r' e e' He He' H. unfold candidate_fname, path_join in H. cbn [append] in H.
  assert (E : pad4 r ++ e = pad4 r' ++ e').
  { destruct ((outdir =? "") || (substring (String.length outdir - 1) 1 outdir =? "/"))%bool.
    - apply append_inj_l in H. injection H as H. exact H.
    - apply append_inj_l in H. injection H as H. exact H. }
  assert (K : forall e, In e [".json"; ".png"] -> match e with "" => True | String a _ => nat_of_ascii a < 48 \/ 57 < nat_of_ascii a end).
  { intros x [<-|[<-|[]]]; cbn; lia. }
  split.
  - pose proof (number_pad r e (K e He)) as A. pose proof (number_pad r' e' (K e' He')) as B. congruence.
  - pose proof (after_pad r e (K e He)) as A. pose proof (after_pad r' e' (K e' He')) as B. congruence.
Qed.
Print Assumptions candidate_fname_injective.
Example candidate_fname_used : candidate_fname "/out" 12 ".json" = "/out/candidate_0012.json" /\
  candidate_fname "/out" (Z.to_nat 12345) ".png" = "/out/candidate_12345.png".
Proof. split; reflexivity. Qed.

(** ** contents *)
(** texts arrive whole in the end *)
Definition splits (pieces : string -> list string) : Prop :=
  forall s, fold_right append "" (pieces s) = s.
Definition prefix_of (a b : string) : Prop := exists rest, b = a ++ rest.
Definition run (ops : list fop) (s : fs) : fs := fold_left (fun s o => run_fop o s) ops s.

Lemma eqb_neq a b : a <> b -> (a =? b) = false.
Proof. intros H. now apply String.eqb_neq. Qed.

Lemma run_other ops f s : (forall o, In o ops -> fop_file o <> f) -> run ops s f = s f.
Proof.
  revert s. induction ops as [|o ops IH]; intros s H; [reflexivity|]. cbn [run fold_left].
  change (fold_left (fun s o => run_fop o s) ops (run_fop o s)) with (run ops (run_fop o s)).
  rewrite IH by (intros; apply H; now right). specialize (H o (or_introl eq_refl)).
  destruct o as [g|g t]; cbn [run_fop fop_file] in *; now rewrite eqb_neq by congruence.
Qed.

Lemma run_writes f ps n s old : s f = Some old ->
  run (firstn n (map (Write f) ps)) s f = Some (old ++ fold_right append "" (firstn n ps)).
Proof.
  revert n s old. induction ps as [|p ps IH]; intros [|n] s old H; cbn [map firstn run fold_left fold_right];
    try (rewrite H; f_equal; clear; induction old as [|a o IH]; cbn; [reflexivity|now rewrite <- IH]).
  change (fold_left (fun s o => run_fop o s) (firstn n (map (Write f) ps)) (run_fop (Write f p) s))
    with (run (firstn n (map (Write f) ps)) (run_fop (Write f p) s)).
  rewrite (IH n _ (old ++ p)); [now rewrite append_assoc|]. cbn [run_fop]. now rewrite String.eqb_refl, H.
Qed.

Lemma run_app a b s : run (a ++ b) s = run b (run a s).
Proof. unfold run. apply fold_left_app. Qed.

(** the contents of [f] during the writing of [t] to it: untouched or the beginning of [t] *)
Lemma run_write_file pieces f t n s : splits pieces ->
  (n = 0 /\ run (firstn n (write_file pieces f t)) s f = s f) \/
  exists c, run (firstn n (write_file pieces f t)) s f = Some c /\ prefix_of c t /\
    (List.length (write_file pieces f t) <= n -> c = t).
Proof.
  intros SP. unfold write_file. destruct n as [|n]; [left; auto|]. right. cbn [firstn run fold_left].
  change (fold_left (fun s o => run_fop o s) (firstn n (map (Write f) (pieces t))) (run_fop (Create f) s))
    with (run (firstn n (map (Write f) (pieces t))) (run_fop (Create f) s)).
  rewrite (run_writes f (pieces t) n _ ""); [|cbn; now rewrite String.eqb_refl]. cbn [append].
  exists (fold_right append "" (firstn n (pieces t))). split; [reflexivity|]. split.
  - exists (fold_right append "" (skipn n (pieces t))). rewrite <- (SP t) at 1.
    rewrite <- (firstn_skipn n (pieces t)) at 1. generalize (firstn n (pieces t)) (skipn n (pieces t)). clear. intros a b.
    induction a as [|x a IH]; [reflexivity|]. cbn. now rewrite IH, append_assoc.
  - cbn [List.length]. rewrite map_length. intros L. rewrite firstn_all2 by lia. apply SP.
Qed.

Section Pool.
Context (C : Type) (to_json png : C -> res string) (pieces : string -> list string) (SP : splits pieces).
Context (outdir : string) (plot : bool).
Local Notation ops := (writer_ops C to_json png pieces outdir plot).
Local Notation result := (writer_result C to_json png plot).

Lemma write_file_file f t o : In o (write_file pieces f t) -> fop_file o = f.
Proof. intros [<-|H]; [reflexivity|]. apply in_map_iff in H as (p & <- & _). reflexivity. Qed.

Lemma ops_file rank c o : In o (ops (rank, c)) ->
  exists ext, In ext [".json"; ".png"] /\ fop_file o = candidate_fname outdir rank ext.
Proof.
  unfold writer_ops. destruct (to_json c) as [s|e| |]; try (intros [<-|[]]; exists ".json"; split; [now left|reflexivity]).
  rewrite in_app_iff. intros [H|H].
  - exists ".json". split; [now left|]. eapply write_file_file; eauto.
  - destruct plot; [|destruct H]. destruct (png c) as [t| | |]; try destruct H.
    + exists ".png". split; [right; now left|]. subst o. reflexivity.
    + exists ".png". split; [right; now left|]. apply in_map_iff in H as (p & <- & _). reflexivity.
Qed.

Lemma ops_disjoint (cands : list C) : Proof.Pool.disjoint ops fop_file (combine (seq 0 (List.length cands)) cands).
Proof.
  intros i j [r c] [r' c'] o o' NE Hi Hj Ho Ho' E.
  assert (G : forall (l : list C) s i r c, nth_error (combine (seq s (List.length l)) l) i = Some (r, c) -> r = s + i).
  { clear. induction l as [|a l IH]; intros s [|i] r c H; try discriminate; cbn in H.
    - injection H as <- _. lia.
    - apply IH in H. lia. }
  apply G in Hi. apply G in Hj. apply ops_file in Ho as (e & He & Fe). apply ops_file in Ho' as (e' & He' & Fe').
  rewrite Fe, Fe' in E. apply candidate_fname_injective in E as [E _]; auto. lia.
Qed.

Lemma ops_json rank c n s :
  let f := candidate_fname outdir rank ".json" in
  let after := run (firstn n (ops (rank, c))) s f in
  (n = 0 /\ after = s f) \/
  exists t, after = Some t /\
    (forall full, to_json c = Ok full -> prefix_of t full /\ (List.length (ops (rank, c)) <= n -> t = full)).
Proof.
  intros f after. unfold after, writer_ops. destruct (to_json c) as [s1|e| |].
  2-4: (destruct n as [|n]; [left; auto|]; right; exists ""; split; [cbn; destruct n; cbn; now rewrite String.eqb_refl|discriminate]).
  fold f. rewrite firstn_app, run_app.
  rewrite run_other.
  2:{ intros o Ho. assert (In o (if plot then match png c with Ok s => write_file pieces (candidate_fname outdir rank ".png") s | _ => [] end else [])) as Ho'.
      { eapply (In_nth_error _ _) in Ho as [k Hk]. eapply nth_error_In. rewrite firstn_nth_error in Hk; [exact Hk|].
        apply nth_error_Some in Hk as Hk' || idtac. assert (k < List.length (firstn (n - List.length (write_file pieces f s1)) (if plot then match png c with Ok s => write_file pieces (candidate_fname outdir rank ".png") s | _ => [] end else []))) by (apply nth_error_Some; congruence).
        rewrite firstn_length in *. lia. }
      destruct plot; [|destruct Ho']. destruct (png c) as [t| | |]; try destruct Ho'.
      + subst o. cbn. intros E. apply candidate_fname_injective in E as [_ E]; [discriminate|right; now left|now left].
      + apply in_map_iff in H as (p & <- & _). cbn. intros E.
        apply candidate_fname_injective in E as [_ E]; [discriminate|right; now left|now left]. }
  destruct (run_write_file pieces f s1 n s SP) as [H|(t & E & P & W)]; [left; exact H|]. right. exists t. split; [exact E|].
  intros full Ef. injection Ef as <-. split; [exact P|]. intros L. apply W. rewrite app_length in L. lia.
Qed.
End Pool.

(** C52: at any point of any execution of the writers, also one with failed writes and killed
    processes, the JSON file of every candidate is as it was before or holds the beginning of
    the candidate's text, all of it once the writer has gone past the candidate; and no other
    file has changed. *)
Theorem candidate_files_any_point :
  forall C (to_json png : C -> res string) pieces outdir plot faults procs (cands : list C) (s0 : fs) p,
  procs <> 0 -> splits pieces ->
  (forall c, In c cands -> (to_json c <> UB /\ to_json c <> Loop) /\ (png c <> UB /\ png c <> Loop)) ->
  reaches run_fop (writer_ops C to_json png pieces outdir plot) (writer_result C to_json png plot) faults procs
    (combine (seq 0 (List.length cands)) cands) s0 p ->
  (forall rank c, nth_error cands rank = Some c ->
     let f := candidate_fname outdir rank ".json" in
     let complete := produced procs (combine (seq 0 (List.length cands)) cands) p rank in
     (pl_state p f = s0 f /\ ~ complete) \/
     exists t, pl_state p f = Some t /\ forall full, to_json c = Ok full -> prefix_of t full /\ (complete -> t = full)) /\
  (forall f, (forall rank ext, rank < List.length cands -> In ext [".json"; ".png"] -> f <> candidate_fname outdir rank ext) ->
     pl_state p f = s0 f).
Proof.
  intros C to_json png pieces outdir plot faults procs cands s0 p HP SP NU R.
  set (l := combine (seq 0 (List.length cands)) cands) in *.
  assert (NL : forall rank c, nth_error cands rank = Some c -> nth_error l rank = Some (rank, c)).
  { assert (G : forall (m : list C) k rank c, nth_error m rank = Some c -> nth_error (combine (seq k (List.length m)) m) rank = Some (k + rank, c)).
    { clear. induction m as [|a m IH]; intros k [|r] c H; try discriminate; cbn in *.
      - injection H as ->. now rewrite Nat.add_0_r.
      - rewrite (IH (S k) r c H). f_equal. f_equal. lia. }
    intros rank c H. exact (G cands 0 rank c H). }
  assert (IN : forall x, In x l -> nth_error cands (fst x) = Some (snd x)).
  { intros [r c] H. unfold l in H. cbn [fst snd].
    assert (G : forall (m : list C) k, In (r, c) (combine (seq k (List.length m)) m) -> k <= r /\ nth_error m (r - k) = Some c).
    { clear. induction m as [|a m IH]; intros k []; cbn in *.
      - injection H as -> ->. split; [lia|]. now rewrite Nat.sub_diag.
      - destruct (IH _ H) as [L E]. split; [lia|]. replace (r - k) with (S (r - S k)) by lia. exact E. }
    destruct (G cands 0 H) as [_ E]. now rewrite Nat.sub_0_r in E. }
  assert (NU' : forall x, In x l -> writer_result C to_json png plot x <> UB /\ writer_result C to_json png plot x <> Loop).
  { intros x Hx. apply IN, nth_error_In, NU in Hx as [[A1 A2] [B1 B2]]. unfold writer_result.
    destruct (to_json (snd x)); cbn [bind]; try (split; (discriminate || contradiction)).
    destruct plot; [|split; discriminate]. destruct (png (snd x)); cbn [bind]; split; (discriminate || contradiction). }
  destruct (state_reach run_fop (writer_ops C to_json png pieces outdir plot) (writer_result C to_json png plot) faults
    (fun (s : fs) k => s k) fop_file) with (procs := procs) (l := l) (s0 := s0) (p := p) as (n & S1 & S2 & S3); auto.
  { intros [g|g t] s k Hk; cbn in *; now rewrite eqb_neq. }
  { intros [g|g t] s s' k Hk; cbn in *; destruct (k =? g); congruence. }
  specialize (S1 (ops_disjoint C to_json png pieces outdir plot cands)). split.
  - intros rank c Hc f complete. specialize (NL rank c Hc).
    assert (EF : pl_state p f = run (firstn (n rank) (writer_ops C to_json png pieces outdir plot (rank, c))) s0 f).
    { refine (S1 rank (rank, c) (Create f) NL _). unfold writer_ops. fold f.
      destruct (to_json c) as [s| | |]; [|now left..]. apply in_app_iff. left. now left. }
    destruct (ops_json C to_json png pieces SP outdir plot rank c (n rank) s0) as [[N0 E]|(t & E & W)].
    + left. split; [fold f in E; congruence|]. intros CP. apply (S3 _ _ NL) in CP. rewrite N0 in CP.
      symmetry in CP. revert CP. unfold writer_ops. destruct (to_json c); cbn; discriminate.
    + right. exists t. split; [fold f in E; congruence|]. intros full Ef. destruct (W full Ef) as [W1 W2].
      split; [exact W1|]. intros CP. apply W2. now rewrite (S3 _ _ NL CP).
  - intros f Hf. apply S2. intros [r c] o Hx Ho Ef. apply ops_file in Ho as (ext & He & Fo).
    apply (Hf r ext); auto; [|congruence]. apply IN in Hx. apply nth_error_Some. cbn in Hx. congruence.
Qed.
Print Assumptions candidate_files_any_point.

(** When save_products returns, every candidate is complete in its own file, and files other than
    the candidate files and the three CSV files are untouched. *)
Theorem save_products_correct :
  forall C (to_json png : C -> res string) pieces outdir plot faults procs peaks clusters candidates (cands : list C) s0 s1,
  procs <> 0 -> splits pieces ->
  (forall c, In c cands -> (to_json c <> UB /\ to_json c <> Loop) /\ (png c <> UB /\ png c <> Loop)) ->
  save_products C to_json png pieces faults procs plot outdir peaks clusters candidates cands s0 (Ok tt) s1 ->
  match peaks with
  | None => s1 = s0
  | Some _ =>
    (forall rank c, nth_error cands rank = Some c ->
       exists t, to_json c = Ok t /\ s1 (candidate_fname outdir rank ".json") = Some t) /\
    (forall f, (forall rank ext, rank < List.length cands -> In ext [".json"; ".png"] -> f <> candidate_fname outdir rank ext) ->
       ~ In f (map (path_join outdir) ["peaks.csv"; "clusters.csv"; "candidates.csv"]) -> s1 f = s0 f)
  end.
Proof.
  intros C to_json png pieces outdir plot faults procs peaks clusters candidates cands s0 s1 HP SP NU H.
  inversion H as [E E1 E2|r s' NE csv PM E1 E2]; subst; [reflexivity|].
  destruct peaks as [pk|]; [|easy]. destruct r as [v|e| |]; try discriminate.
  set (l := combine (seq 0 (List.length cands)) cands) in *.
  set (sm := fold_left _ _ s0) in PM.
  inversion PM as [|p v' HP' R Y EV E3 E4|]; subst. clear PM.
  assert (AP := candidate_files_any_point C to_json png pieces outdir plot faults procs cands sm p HP SP NU R).
  assert (LL : List.length l = List.length cands) by (unfold l; rewrite combine_length, seq_length; lia).
  assert (IN : forall x, In x l -> In (snd x) cands).
  { intros [r c] Hx. unfold l in Hx. now apply in_combine_r in Hx. }
  assert (NU' : forall x, In x l -> writer_result C to_json png plot x <> UB /\ writer_result C to_json png plot x <> Loop).
  { intros x Hx. apply IN, NU in Hx as [[A1 A2] [B1 B2]]. unfold writer_result.
    destruct (to_json (snd x)); cbn [bind]; try (split; (discriminate || contradiction)).
    destruct plot; [|split; discriminate]. destruct (png (snd x)); cbn [bind]; split; (discriminate || contradiction). }
  assert (PC := pool_map_correct run_fop (writer_ops C to_json png pieces outdir plot) (writer_result C to_json png plot)
    faults procs l sm (Ok v) (pl_state p) HP NU' (Map_returns _ _ _ _ _ _ _ p v HP R Y EV)).
  destruct PC as (bs & F & ->). destruct AP as [AP1 AP2]. split.
  - intros rank c Hc.
    assert (OK : exists t, to_json c = Ok t).
    { assert (NL : exists r, nth_error l rank = Some (r, c)).
      { unfold l. clear - Hc. generalize 0. revert rank Hc. induction cands as [|a m IH]; intros [|r] Hc k; try discriminate; cbn in *.
        - injection Hc as ->. eauto.
        - apply IH. exact Hc. }
      destruct NL as [r NL]. assert (exists b, writer_result C to_json png plot (r, c) = Ok b) as [b Hb].
      { clear - F NL. revert rank NL. induction F as [|x b xs bs E F IH]; intros [|k] NL; try discriminate; cbn in NL.
        - injection NL as ->. eauto.
        - eapply IH; eauto. }
      unfold writer_result in Hb. cbn [snd] in Hb. destruct (to_json c); try discriminate. eauto. }
    destruct OK as [t Et]. exists t. split; [exact Et|].
    assert (CP : produced procs l p rank).
    { right. right. exists (map Some bs). destruct (nth_error bs rank) as [b|] eqn:Eb.
      - exists b. split; [exact EV|]. now rewrite nth_error_map, Eb.
      - exfalso. apply nth_error_None in Eb. rewrite <- (Forall2_len _ _ _ F), LL in Eb.
        assert (rank < List.length cands) by (apply nth_error_Some; congruence). lia. }
    destruct (AP1 rank c Hc) as [[_ N]|(t' & E & W)]; [contradiction|]. destruct (W t Et) as [_ W2].
    rewrite (W2 CP) in E. exact E.
  - intros f Hf Hn. rewrite AP2 by exact Hf. unfold sm. apply (run_other _ f s0). intros o Ho Eo. apply Hn.
    rewrite <- Eo. cbn [map]. rewrite !in_app_iff in Ho.
    assert (K : forall name od, In o (csv name od) -> path_join outdir name = fop_file o).
    { intros name [t|] Hi; [|destruct Hi]. symmetry. eapply write_file_file. exact Hi. }
    destruct Ho as [Ho|[Ho|Ho]]; apply K in Ho; rewrite Ho; cbn; auto.
Qed.
Print Assumptions save_products_correct.

(** names of different things are different *)
Lemma table_names outdir : forall a b, In a ["peaks.csv"; "clusters.csv"; "candidates.csv"] ->
  In b ["peaks.csv"; "clusters.csv"; "candidates.csv"] -> path_join outdir a = path_join outdir b -> a = b.
Proof.
  intros a b Ha Hb H. unfold path_join in H.
  destruct Ha as [<-|[<-|[<-|[]]]], Hb as [<-|[<-|[<-|[]]]]; try reflexivity; exfalso;
    destruct ((outdir =? "") || (substring (String.length outdir - 1) 1 outdir =? "/"))%bool; apply append_inj_l in H; discriminate.
Qed.
Lemma table_not_candidate outdir name rank ext : In name ["peaks.csv"; "clusters.csv"; "candidates.csv"] ->
  path_join outdir name <> candidate_fname outdir rank ext.
Proof.
  intros Hn H. unfold candidate_fname, path_join in H. cbn [append] in H.
  destruct Hn as [<-|[<-|[<-|[]]]];
    destruct ((outdir =? "") || (substring (String.length outdir - 1) 1 outdir =? "/"))%bool; apply append_inj_l in H; discriminate.
Qed.

Lemma run_whole_file pieces f t s : splits pieces -> run (write_file pieces f t) s f = Some t.
Proof.
  intros SP. destruct (run_write_file pieces f t (List.length (write_file pieces f t)) s SP) as [[E _]|(c & E & _ & W)].
  - discriminate E.
  - rewrite firstn_all in E. rewrite E. f_equal. auto.
Qed.

(** C78: when save_products returns after a run that found peaks, each table that is not empty is
    complete, each candidate's JSON text is complete, and so is each plot when asked for; every
    other file is as it was. *)
Theorem save_products_files :
  forall C (to_json png : C -> res string) pieces outdir plot faults procs peaks clusters candidates (cands : list C) s0 s1,
  procs <> 0 -> splits pieces ->
  (forall c, In c cands -> (to_json c <> UB /\ to_json c <> Loop) /\ (png c <> UB /\ png c <> Loop)) ->
  save_products C to_json png pieces faults procs plot outdir (Some peaks) clusters candidates cands s0 (Ok tt) s1 ->
  let written o f := s1 f = match o with Some t => Some t | None => s0 f end in
  written (Some peaks) (path_join outdir "peaks.csv") /\
  written clusters (path_join outdir "clusters.csv") /\
  written candidates (path_join outdir "candidates.csv") /\
  (forall rank c, nth_error cands rank = Some c ->
     (exists t, to_json c = Ok t /\ written (Some t) (candidate_fname outdir rank ".json")) /\
     (if plot then exists t, png c = Ok t /\ written (Some t) (candidate_fname outdir rank ".png")
      else written None (candidate_fname outdir rank ".png"))) /\
  (forall f, (forall rank ext, rank < List.length cands -> In ext [".json"; ".png"] -> f <> candidate_fname outdir rank ext) ->
     ~ In f (map (path_join outdir) ["peaks.csv"; "clusters.csv"; "candidates.csv"]) -> s1 f = s0 f).
Proof.
  intros C to_json png pieces outdir plot faults procs peaks clusters candidates cands s0 s1 HP SP NU H written.
  pose proof (save_products_correct C to_json png pieces outdir plot faults procs (Some peaks) clusters candidates cands s0 s1 HP SP NU H)
    as [_ OTHER].
  inversion H as [E|r s' NE csv PM E1 E2]; subst; [discriminate|]. destruct r as [v|e| |]; try discriminate.
  set (l := combine (seq 0 (List.length cands)) cands) in *.
  set (sm := fold_left _ _ s0) in PM.
  assert (NL : forall rank c, nth_error cands rank = Some c -> nth_error l rank = Some (rank, c)).
  { assert (G : forall (m : list C) k rank c, nth_error m rank = Some c -> nth_error (combine (seq k (List.length m)) m) rank = Some (k + rank, c)).
    { clear. induction m as [|a m IH]; intros k [|r] c H; try discriminate; cbn in *.
      - injection H as ->. now rewrite Nat.add_0_r.
      - rewrite (IH (S k) r c H). f_equal. f_equal. lia. }
    intros rank c Hc. exact (G cands 0 rank c Hc). }
  assert (IN : forall x, In x l -> In (snd x) cands).
  { intros [r c] Hx. unfold l in Hx. now apply in_combine_r in Hx. }
  assert (NU' : forall x, In x l -> writer_result C to_json png plot x <> UB /\ writer_result C to_json png plot x <> Loop).
  { intros x Hx. apply IN, NU in Hx as [[A1 A2] [B1 B2]]. unfold writer_result.
    destruct (to_json (snd x)); cbn [bind]; try (split; (discriminate || contradiction)).
    destruct plot; [|split; discriminate]. destruct (png (snd x)); cbn [bind]; split; (discriminate || contradiction). }
  assert (PC := pool_map_correct run_fop (writer_ops C to_json png pieces outdir plot) (writer_result C to_json png plot)
    faults procs l sm (Ok v) s1 HP NU' PM).
  destruct PC as (bs & F & ->).
  inversion PM as [|p v' HP' R Y EV E3 E4|]; subst.
  assert (LL : List.length l = List.length cands) by (unfold l; rewrite combine_length, seq_length; lia).
  destruct (state_reach run_fop (writer_ops C to_json png pieces outdir plot) (writer_result C to_json png plot) faults
    (fun (s : fs) k => s k) fop_file) with (procs := procs) (l := l) (s0 := sm) (p := p) as (n & S1 & S2 & S3); auto.
  { intros [g|g t] s k Hk; cbn in *; now rewrite eqb_neq. }
  { intros [g|g t] s s' k Hk; cbn in *; destruct (k =? g); congruence. }
  specialize (S1 (ops_disjoint C to_json png pieces outdir plot cands)).
  assert (SEP : forall name, In name ["peaks.csv"; "clusters.csv"; "candidates.csv"] ->
    pl_state p (path_join outdir name) = sm (path_join outdir name)).
  { intros name Hn. apply S2. intros [r c] o Hx Ho Ef. apply ops_file in Ho as (ext & He & Fo).
    apply (table_not_candidate outdir name r ext Hn). congruence. }
  assert (CSV : forall name name' o s, In name ["peaks.csv"; "clusters.csv"; "candidates.csv"] ->
    In name' ["peaks.csv"; "clusters.csv"; "candidates.csv"] ->
    run (csv name o) s (path_join outdir name') =
    if name =? name' then match o with Some t => Some t | None => s (path_join outdir name') end else s (path_join outdir name')).
  { intros name name' o s Hn Hn'. unfold csv. destruct (String.eqb_spec name name') as [<-|N].
    - destruct o as [t|]; [apply run_whole_file; auto|reflexivity].
    - destruct o as [t|]; [|reflexivity]. apply run_other. intros op Ho E. apply write_file_file in Ho.
      apply N. apply (table_names outdir); auto. congruence. }
  assert (SMT : forall name, In name ["peaks.csv"; "clusters.csv"; "candidates.csv"] -> sm (path_join outdir name) =
    run (csv "candidates.csv" candidates) (run (csv "clusters.csv" clusters) (run (csv "peaks.csv" (Some peaks)) s0)) (path_join outdir name)).
  { intros name _. unfold sm. change (run (csv "peaks.csv" (Some peaks) ++ csv "clusters.csv" clusters ++ csv "candidates.csv" candidates) s0
      (path_join outdir name) = run (csv "candidates.csv" candidates) (run (csv "clusters.csv" clusters) (run (csv "peaks.csv" (Some peaks)) s0)) (path_join outdir name)).
    now rewrite !run_app. }
  assert (T1 : In "peaks.csv" ["peaks.csv"; "clusters.csv"; "candidates.csv"]) by (cbn; auto).
  assert (T2 : In "clusters.csv" ["peaks.csv"; "clusters.csv"; "candidates.csv"]) by (cbn; auto).
  assert (T3 : In "candidates.csv" ["peaks.csv"; "clusters.csv"; "candidates.csv"]) by (cbn; auto).
  split; [|split; [|split; [|split; [|exact OTHER]]]].
  1-3: unfold written; rewrite SEP, SMT, !CSV by assumption; reflexivity.
  intros rank c Hc. specialize (NL rank c Hc).
  assert (CP : produced procs l p rank).
  { right. right. exists (map Some bs). destruct (nth_error bs rank) as [b|] eqn:Eb.
    - exists b. split; [exact EV|]. now rewrite nth_error_map, Eb.
    - exfalso. apply nth_error_None in Eb. rewrite <- (Forall2_len _ _ _ F), LL in Eb.
      assert (rank < List.length cands) by (apply nth_error_Some; congruence). lia. }
  apply (S3 _ _ NL) in CP.
  assert (FIN : forall o, In o (writer_ops C to_json png pieces outdir plot (rank, c)) ->
    pl_state p (fop_file o) = run (writer_ops C to_json png pieces outdir plot (rank, c)) sm (fop_file o)).
  { intros o Ho. rewrite (S1 rank (rank, c) o NL Ho), CP, firstn_all. reflexivity. }
  assert (WR : exists b, writer_result C to_json png plot (rank, c) = Ok b).
  { clear - F NL. revert rank NL. induction F as [|x b xs bs E F IH]; intros rank NL; [now destruct rank|].
    remember (rank, c) as y. destruct rank as [|k]; cbn in NL.
    - injection NL as ->. eauto.
    - clear Heqy. revert k NL. generalize y. clear - IH F.
      intros y k NL. clear IH. revert k NL. induction F as [|x b xs bs E F IH]; intros [|k] NL; try discriminate; cbn in NL.
      + injection NL as ->. eauto.
      + eapply IH; eauto. }
  destruct WR as [b Hb]. unfold writer_result in Hb. cbn [snd] in Hb.
  destruct (to_json c) as [tj| | |] eqn:EJ; try discriminate. cbn [bind] in Hb.
  assert (DIFF : candidate_fname outdir rank ".json" <> candidate_fname outdir rank ".png").
  { intros E. apply candidate_fname_injective in E as [_ E]; [discriminate|now left|right; now left]. }
  unfold writer_ops in FIN. rewrite EJ in FIN. split.
  - exists tj. split; [reflexivity|]. unfold written.
    assert (Q := FIN (Create (candidate_fname outdir rank ".json"))). cbn [fop_file] in Q. rewrite Q by (apply in_app_iff; left; now left). clear Q.
    rewrite run_app, run_other; [apply run_whole_file; auto|].
    intros o Ho E. destruct plot; [|destruct Ho]. destruct (png c); try destruct Ho; try discriminate.
    + subst o. cbn [fop_file] in E. congruence.
    + match goal with H0 : In o (map _ _) |- _ => apply in_map_iff in H0 as (? & <- & _) end. cbn [fop_file] in E. congruence.
  - destruct plot.
    + destruct (png c) as [tp| | |]; try discriminate. exists tp. split; [reflexivity|]. unfold written.
      assert (Q := FIN (Create (candidate_fname outdir rank ".png"))). cbn [fop_file] in Q. rewrite Q by (apply in_app_iff; right; now left). clear Q.
      rewrite run_app. apply run_whole_file; auto.
    + unfold written. rewrite S2.
      * unfold sm. apply (run_other _ _ s0). intros o Ho Eo. rewrite !in_app_iff in Ho.
        assert (K : forall name od, In name ["peaks.csv"; "clusters.csv"; "candidates.csv"] -> In o (csv name od) -> False).
        { intros name [t|] Hn Hi; [|destruct Hi]. apply write_file_file in Hi. apply (table_not_candidate outdir name rank ".png" Hn). congruence. }
        destruct Ho as [Ho|[Ho|Ho]]; [exact (K _ _ T1 Ho)|exact (K _ _ T2 Ho)|exact (K _ _ T3 Ho)].
      * intros [r c'] o Hx Ho Ef. unfold writer_ops in Ho.
        assert (FJ : fop_file o = candidate_fname outdir r ".json").
        { destruct (to_json c'); [|destruct Ho as [<-|[]]; reflexivity..]. rewrite List.app_nil_r in Ho. now apply write_file_file in Ho. }
        rewrite FJ in Ef. apply candidate_fname_injective in Ef as [_ Ef]; [discriminate|now left|right; now left].
Qed.
Print Assumptions save_products_files.

(** C79: two runs that return leave the same files, whatever their schedules and numbers of
    processes. *)
Theorem save_products_determined :
  forall C (to_json png : C -> res string) pieces outdir plot faults procs faults' procs' peaks clusters candidates (cands : list C) s0 s1 s2,
  procs <> 0 -> procs' <> 0 -> splits pieces ->
  (forall c, In c cands -> (to_json c <> UB /\ to_json c <> Loop) /\ (png c <> UB /\ png c <> Loop)) ->
  save_products C to_json png pieces faults procs plot outdir peaks clusters candidates cands s0 (Ok tt) s1 ->
  save_products C to_json png pieces faults' procs' plot outdir peaks clusters candidates cands s0 (Ok tt) s2 ->
  forall f, s1 f = s2 f.
Proof.
  intros C to_json png pieces outdir plot faults procs faults' procs' peaks clusters candidates cands s0 s1 s2 HP HP' SP NU H1 H2 f.
  destruct peaks as [pk|].
  2:{ apply (save_products_correct C to_json png pieces outdir plot faults procs None clusters candidates cands s0 s1) in H1; auto.
      apply (save_products_correct C to_json png pieces outdir plot faults' procs' None clusters candidates cands s0 s2) in H2; auto. congruence. }
  apply save_products_files in H1; auto. apply save_products_files in H2; auto. cbv zeta in *.
  destruct H1 as (A1 & A2 & A3 & A4 & A5), H2 as (B1 & B2 & B3 & B4 & B5).
  assert (D : (exists rank ext, rank < List.length cands /\ In ext [".json"; ".png"] /\ f = candidate_fname outdir rank ext) \/
    forall rank ext, rank < List.length cands -> In ext [".json"; ".png"] -> f <> candidate_fname outdir rank ext).
  { clear. generalize (List.length cands). intros n. induction n as [|n [IH|IH]].
    - right. intros rank ext L. lia.
    - left. destruct IH as (r & e & L & H). exists r, e. split; [lia|auto].
    - destruct (string_dec f (candidate_fname outdir n ".json")) as [->|N1]; [left; exists n, ".json"; split; [lia|cbn; auto]|].
      destruct (string_dec f (candidate_fname outdir n ".png")) as [->|N2]; [left; exists n, ".png"; split; [lia|cbn; auto]|].
      right. intros r e L He. destruct (Nat.eq_dec r n) as [->|N]; [destruct He as [<-|[<-|[]]]; auto|]. apply IH; auto. lia. }
  destruct D as [(r & e & L & He & ->)|D].
  - destruct (nth_error cands r) as [c|] eqn:Ec; [|apply nth_error_None in Ec; lia].
    destruct (A4 r c Ec) as [(t & Et & J1) P1]. destruct (B4 r c Ec) as [(t' & Et' & J2) P2].
    destruct He as [<-|[<-|[]]]; [congruence|]. destruct plot; [|congruence].
    destruct P1 as (u & Eu & P1), P2 as (u' & Eu' & P2). congruence.
  - destruct (in_dec string_dec f (map (path_join outdir) ["peaks.csv"; "clusters.csv"; "candidates.csv"])) as [I|I].
    + cbn [map In] in I. destruct I as [<-|[<-|[<-|[]]]]; congruence.
    + rewrite A5, B5; auto.
Qed.
Print Assumptions save_products_determined.

(** one candidate over an older file of its name *)
Example save_products_used :
  splits (fun s => [s]) /\
  exists s1, save_products nat (fun n => Ok (decimal n)) (fun _ => Ok "") (fun s => [s]) False 2 false "/out"
    (Some "p") None (Some "c") [7] (fun _ => Some "old") (Ok tt) s1 /\ s1 "/out/candidate_0000.json" = Some "7".
Proof.
  assert (SP : splits (fun s => [s])).
  { intros s. cbn. induction s as [|a s IH]; cbn; [reflexivity|now rewrite IH]. }
  split; [exact SP|].
  assert (NU : forall x : nat * nat, writer_result nat (fun n => Ok (decimal n)) (fun _ => Ok "") false x = Ok tt) by reflexivity.
  set (sm := fold_left (fun s o => run_fop o s)
    (write_file (fun s => [s]) (path_join "/out" "peaks.csv") "p" ++ [] ++ write_file (fun s => [s]) (path_join "/out" "candidates.csv") "c")
    (fun _ => Some "old" : option string)).
  destruct (pool_map_returns run_fop (writer_ops nat (fun n => Ok (decimal n)) (fun _ => Ok "") (fun s => [s]) "/out" false)
    (writer_result nat (fun n => Ok (decimal n)) (fun _ => Ok "") false) 2 (combine (seq 0 1) [7]) sm) as (r & s' & H).
  { lia. } { intros x _. rewrite NU. split; discriminate. }
  assert (r = Ok [Some tt]) as ->.
  { pose proof H as H'. apply pool_map_correct in H'; [|lia|intros x _; rewrite NU; split; discriminate].
    destruct r as [v|e| |]; try contradiction.
    - destruct H' as (bs & F & ->). inversion F as [|? b ? ? E F']; subst. inversion F'; subst. now destruct b.
    - destruct H' as [(x & _ & E)|([] & _)]. rewrite NU in E. discriminate. }
  assert (HS : save_products nat (fun n => Ok (decimal n)) (fun _ => Ok "") (fun s => [s]) False 2 false "/out"
    (Some "p") None (Some "c") [7] (fun _ => Some "old") (Ok tt) s').
  { apply (Save_some nat (fun n => Ok (decimal n)) (fun _ => Ok "") (fun s => [s]) False 2 false "/out" (Some "p") None (Some "c") [7]
      (fun _ => Some "old") (Ok [Some tt]) s'); [discriminate|exact H]. }
  exists s'. split; [exact HS|].
  apply save_products_correct in HS; auto. 2:{ intros c _. repeat split; discriminate. }
  destruct HS as [HS _]. destruct (HS 0 7 eq_refl) as (t & E & W). injection E as <-. exact W.
Qed.

(** C68 is false: candidate files of an earlier run with more candidates stay. *)
Theorem stale_candidates_refuted :
  exists (s0 s1 s2 : fs),
    let save := save_products nat (fun n => Ok (decimal n)) (fun _ => Ok "") (fun s => [s]) False 1 false "/out" (Some "p") None (Some "c") in
    save [7; 8] s0 (Ok tt) s1 /\ save [9] s1 (Ok tt) s2 /\
    s2 (candidate_fname "/out" 0 ".json") = Some "9" /\ s2 (candidate_fname "/out" 1 ".json") = Some "8".
Proof.
  assert (SP : splits (fun s => [s])).
  { intros s. cbn. induction s as [|a s IH]; cbn; [reflexivity|now rewrite IH]. }
  assert (NU : forall x : nat * nat, writer_result nat (fun n => Ok (decimal n)) (fun _ => Ok "") false x = Ok tt) by reflexivity.
  assert (EX : forall cands s0, exists s1, save_products nat (fun n => Ok (decimal n)) (fun _ => Ok "") (fun s => [s]) False 1 false "/out" (Some "p") None (Some "c") cands s0 (Ok tt) s1).
  { intros cands s0.
    set (sm := fold_left (fun s o => run_fop o s)
      (write_file (fun s => [s]) (path_join "/out" "peaks.csv") "p" ++ [] ++ write_file (fun s => [s]) (path_join "/out" "candidates.csv") "c") s0).
    destruct (pool_map_returns run_fop (writer_ops nat (fun n => Ok (decimal n)) (fun _ => Ok "") (fun s => [s]) "/out" false)
      (writer_result nat (fun n => Ok (decimal n)) (fun _ => Ok "") false) 1 (combine (seq 0 (List.length cands)) cands) sm) as (r & s' & H).
    { lia. } { intros x _. rewrite NU. split; discriminate. }
    assert (exists v, r = Ok v) as [v ->].
    { pose proof H as H'. apply pool_map_correct in H'; [|lia|intros x _; rewrite NU; split; discriminate].
      destruct r as [v|e| |]; try contradiction; [eauto|]. destruct H' as [(x & _ & E)|([] & _)]. rewrite NU in E. discriminate. }
    exists s'. apply (Save_some nat (fun n => Ok (decimal n)) (fun _ => Ok "") (fun s => [s]) False 1 false "/out" (Some "p") None (Some "c") cands
      s0 (Ok v) s'); [discriminate|exact H]. }
  assert (NC : forall c : nat, In c [7; 8] \/ True -> ((Ok (decimal c) : res string) <> UB /\ (Ok (decimal c) : res string) <> Loop) /\ ((Ok "" : res string) <> UB /\ (Ok "" : res string) <> Loop)).
  { intros. repeat split; discriminate. }
  destruct (EX [7; 8] (fun _ => None)) as [s1 H1]. destruct (EX [9] s1) as [s2 H2].
  exists (fun _ => None), s1, s2. cbv zeta. split; [exact H1|]. split; [exact H2|].
  apply save_products_correct in H1; auto. apply save_products_correct in H2; auto.
  destruct H1 as [A1 _], H2 as [A2 B2]. split.
  - destruct (A2 0 9 eq_refl) as (t & E & W). injection E as <-. exact W.
  - rewrite B2.
    + destruct (A1 1 8 eq_refl) as (t & E & W). injection E as <-. exact W.
    + intros rank ext Hr He E. cbn in Hr. apply candidate_fname_injective in E as [E _]; [lia|now left|exact He].
    + vm_compute. intuition discriminate.
Qed.
Print Assumptions stale_candidates_refuted.
