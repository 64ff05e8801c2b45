(** C57, C71: PRESTO files. *)
From Coq Require Import String Ascii List Arith ZArith Bool Lia Reals Lra.
From Flocq Require Import Core.
From Verif Require Import Base.Result Base.Num Model.Metadata Model.Sigproc Model.Presto Spec.PrestoFmt.
From Verif Require Spec.SigprocFmt Props.Sigproc.
Import ListNotations.
Local Open Scope Z_scope.

(** ** characters *)
Lemma byte_nat a : byte a = Z.of_nat (nat_of_ascii a).
Proof. unfold byte, nat_of_ascii. lia. Qed.
Lemma isspace_spec a : isspace a = true <-> space a.
Proof.
  unfold isspace, rng, space. rewrite byte_nat. generalize (nat_of_ascii a). intros n.
  rewrite orb_true_iff, !andb_true_iff, !Z.leb_le. cbn [In]. lia.
Qed.
Lemma isbreak_spec a : isbreak a = true <-> line_end a.
Proof.
  unfold isbreak, rng, line_end. rewrite byte_nat. generalize (nat_of_ascii a). intros n.
  rewrite orb_true_iff, !andb_true_iff, !Z.leb_le. cbn [In]. lia.
Qed.
Lemma isspace_false a : ~ space a -> isspace a = false.
Proof. intros H. destruct (isspace a) eqn:E; [|reflexivity]. now apply isspace_spec in E. Qed.
Lemma isbreak_false a : ~ line_end a -> isbreak a = false.
Proof. intros H. destruct (isbreak a) eqn:E; [|reflexivity]. now apply isbreak_spec in E. Qed.

(** ** strip *)
Lemma drop_while_all p l l' : Forall (fun a => p a = true) l -> drop_while p (l ++ l') = drop_while p l'.
Proof. induction 1 as [|a l H F IH]; [reflexivity|]. cbn. now rewrite H. Qed.
Lemma drop_while_nil p l : Forall (fun a => p a = true) l -> drop_while p l = [].
Proof. intros H. rewrite <- (app_nil_r l). now rewrite drop_while_all. Qed.
Lemma strip_padded l v r : Forall space l -> Forall space r -> trimmed v -> strip (l ++ v ++ r) = v.
Proof.
  intros Hl Hr Hv. unfold strip, strip_by.
  assert (B : forall l, Forall space l -> Forall (fun a => isspace a = true) l)
    by (intros l0; apply Forall_impl; intros a Ha; now apply isspace_spec).
  rewrite drop_while_all by auto. destruct v as [|a v].
  - cbn [app]. rewrite (drop_while_nil isspace r) by auto. reflexivity.
  - cbn [app drop_while]. rewrite isspace_false by (apply (proj1 (Hv a v)); reflexivity).
    change (a :: v ++ r)%list with ((a :: v) ++ r)%list. rewrite rev_app_distr.
    rewrite drop_while_all by (apply Forall_rev; auto).
    destruct (@exists_last _ (a :: v) ltac:(discriminate)) as (w & b & E). rewrite E in *. rewrite rev_app_distr. cbn [rev app drop_while].
    rewrite isspace_false by (apply (proj2 (Hv b w)); reflexivity). cbn [rev]. now rewrite rev_involutive.
Qed.

Lemma raw_inf_value_line i : item_ok i -> raw_inf_value (line i) = Ok (i_val i).
Proof.
  intros (L & _ & Hl & Hr & T). unfold raw_inf_value, line. rewrite nth_error_app2 by lia. rewrite L. cbn [Nat.sub nth_error app].
  change (is_char "=" "=") with true. cbv iota. f_equal.
  replace (skipn 41 (i_label i ++ "="%char :: i_left i ++ i_val i ++ i_right i)) with (i_left i ++ i_val i ++ i_right i)%list.
  - now apply strip_padded.
  - rewrite skipn_app, L. rewrite skipn_all2 by lia. reflexivity.
Qed.

(** ** integers *)
Lemma digits_spec ds cs : Forall2 digit_char ds cs -> forall ad acc, (ds <> [] \/ ad = true) ->
  digits ad acc cs = Some (fold_left (fun acc d => 10 * acc + d) ds acc).
Proof.
  induction 1 as [|d a ds cs [Hd Ha] F IH]; intros ad acc H; cbn [digits fold_left].
  - destruct H as [H| ->]; [contradiction|reflexivity].
  - unfold digit, rng. rewrite byte_nat, Ha. rewrite (proj2 (Z.leb_le 48 _)), (proj2 (Z.leb_le _ 57)) by lia. cbn [andb].
    rewrite IH by auto. do 2 f_equal. lia.
Qed.
Lemma digit_not_space d a : digit_char d a -> ~ space a /\ a <> "-"%char /\ a <> "+"%char /\ a <> ","%char.
Proof.
  intros [H1 H2]. repeat split.
  - unfold space. cbn [In]. lia.
  - intros ->. change (Z.of_nat (nat_of_ascii "-")) with 45 in H2. lia.
  - intros ->. change (Z.of_nat (nat_of_ascii "+")) with 43 in H2. lia.
  - intros ->. change (Z.of_nat (nat_of_ascii ",")) with 44 in H2. lia.
Qed.
Lemma trimmed_int z l : int_text z l -> trimmed l.
Proof.
  intros (ds & cs & Hne & F & H) a r.
  assert (C : Forall (fun a => ~ space a) cs).
  { clear - F. induction F as [|d a ds cs H F IH]; constructor; auto. now apply digit_not_space in H. }
  assert (Cl : Forall (fun a => ~ space a) l).
  { destruct H as [[-> _]|[[-> _]|[-> _]]]; auto; constructor; auto; unfold space; cbv; intuition discriminate. }
  split; intros ->; [now inversion Cl|]. apply Forall_app in Cl as [_ Cl]. now inversion Cl.
Qed.
Lemma py_int_padded z l : padded_int z l -> py_int l = Ok z.
Proof.
  intros (a & v & b & -> & Ha & Hb & V). unfold py_int. rewrite strip_padded; auto; [|now apply (trimmed_int z)].
  destruct V as (ds & cs & Hne & F & H).
  assert (D : digits false 0 cs = Some (decimal ds)) by (apply digits_spec; auto).
  destruct H as [[-> ->]|[[-> ->]|[-> ->]]].
  - destruct F as [|d c ds cs Hd F]; [contradiction|]. destruct (digit_not_space d c Hd) as (_ & N1 & N2 & _).
    unfold is_char. destruct (Ascii.eqb_spec "-" c); [congruence|]. destruct (Ascii.eqb_spec "+" c); [congruence|]. now rewrite D.
  - unfold is_char. cbn [Ascii.eqb Bool.eqb]. now rewrite D.
  - unfold is_char. cbn [Ascii.eqb Bool.eqb]. now rewrite D.
Qed.
Lemma py_int_text z l : int_text z l -> py_int l = Ok z.
Proof. intros H. apply py_int_padded. exists [], l, []. cbn. rewrite app_nil_r. repeat split; auto. Qed.

Lemma split_nochar c l cur : Forall (fun a => a <> c) l -> split_from c cur l = [rev cur ++ l]%list.
Proof.
  revert cur. induction l as [|a l IH]; intros cur F; cbn; [now rewrite app_nil_r|]. inversion F; subst.
  unfold is_char. destruct (Ascii.eqb_spec c a); [congruence|]. rewrite IH by auto. cbn. now rewrite <- app_assoc.
Qed.
Lemma split_at c l1 l2 cur : Forall (fun a => a <> c) l1 ->
  split_from c cur (l1 ++ c :: l2) = (rev cur ++ l1)%list :: split_from c [] l2.
Proof.
  revert cur. induction l1 as [|a l1 IH]; intros cur F; cbn.
  - unfold is_char. rewrite Ascii.eqb_refl. now rewrite app_nil_r.
  - inversion F; subst. unfold is_char. destruct (Ascii.eqb_spec c a); [congruence|]. rewrite IH by auto. cbn. now rewrite <- app_assoc.
Qed.
Lemma padded_no_comma z l : padded_int z l -> Forall (fun a => a <> ","%char) l.
Proof.
  intros (a & v & b & -> & Ha & Hb & ds & cs & Hne & F & H).
  assert (S : forall l, Forall space l -> Forall (fun a => a <> ","%char) l)
    by (intros l; apply Forall_impl; intros x Hx ->; cbv in Hx; intuition discriminate).
  assert (C : Forall (fun a => a <> ","%char) cs)
    by (clear - F; induction F as [|d x ds cs H F IH]; constructor; auto; now apply digit_not_space in H).
  apply Forall_app. split; [auto|]. apply Forall_app. split; [|auto].
  destruct H as [[-> _]|[[-> _]|[-> _]]]; auto; constructor; auto; discriminate.
Qed.
Lemma parse_pair xy i : denotes_pair xy i ->
  (v <- raw_inf_value (line i) ;; parse_int_pair v) = Ok xy.
Proof.
  intros (O & a & b & E & Pa & Pb). rewrite raw_inf_value_line by exact O. cbn [bind]. rewrite E. unfold parse_int_pair, split.
  cbn [app]. rewrite split_at by now apply (padded_no_comma (fst xy)). rewrite split_nochar by now apply (padded_no_comma (snd xy)).
  cbn [rev app]. rewrite (py_int_padded _ _ Pa), (py_int_padded _ _ Pb). cbn [bind]. now destruct xy.
Qed.

(** ** lines *)
Lemma splitlines_step l t cur : Forall (fun a => ~ line_end a) l ->
  splitlines_from cur (l ++ LF :: t) = (rev cur ++ l)%list :: splitlines t.
Proof.
  revert cur. induction l as [|a l IH]; intros cur F; cbn [app splitlines_from].
  - change (isbreak LF) with true. cbv iota. rewrite app_nil_r. f_equal. destruct t; [reflexivity|]. reflexivity.
  - inversion F; subst. rewrite isbreak_false by assumption. rewrite IH by assumption. cbn [rev]. now rewrite <- app_assoc.
Qed.
Lemma splitlines_step_cr l t cur : Forall (fun a => ~ line_end a) l ->
  splitlines_from cur (l ++ "013"%char :: LF :: t) = (rev cur ++ l)%list :: splitlines t.
Proof.
  revert cur. induction l as [|a l IH]; intros cur F; cbn [app splitlines_from].
  - change (isbreak "013") with true. cbv iota. rewrite app_nil_r. reflexivity.
  - inversion F; subst. rewrite isbreak_false by assumption. rewrite IH by assumption. cbn [rev]. now rewrite <- app_assoc.
Qed.
Lemma splitlines_last l cur : Forall (fun a => ~ line_end a) l -> (rev cur ++ l)%list <> [] -> splitlines_from cur l = [rev cur ++ l]%list.
Proof.
  revert cur. induction l as [|a l IH]; intros cur F H; cbn [splitlines_from].
  - rewrite app_nil_r in *. destruct cur; [contradiction|reflexivity].
  - inversion F; subst. rewrite isbreak_false by assumption. rewrite IH; auto.
    + cbn [rev]. now rewrite <- app_assoc.
    + cbn [rev]. intros E. apply (f_equal (@List.length _)) in E. rewrite !app_length in E. cbn in E. lia.
Qed.

Lemma splitlines_last_cr l cur : Forall (fun a => ~ line_end a) l -> splitlines_from cur (l ++ ["013"%char]) = [rev cur ++ l]%list.
Proof.
  revert cur. induction l as [|a l IH]; intros cur F; cbn [app splitlines_from].
  - change (isbreak "013") with true. cbv iota. now rewrite app_nil_r.
  - inversion F; subst. rewrite isbreak_false by assumption. rewrite IH by assumption. cbn [rev]. now rewrite <- app_assoc.
Qed.

(** the end of a line *)
Definition line_ending (cr : bool) : text := if cr then ["013"%char; LF] else [LF].
Definition ended (ci : bool * item) : text := (line (snd ci) ++ line_ending (fst ci))%list.

Definition rstrip (p : ascii -> bool) (l : text) : text := rev (drop_while p (rev l)).
Lemma rstrip_app p x y : rstrip p (x ++ y) = match rstrip p y with [] => rstrip p x | s => (x ++ s)%list end.
Proof.
  unfold rstrip. rewrite rev_app_distr. generalize (rev y) as y'. intros y'. induction y' as [|a y' IH]; [reflexivity|].
  cbn [app drop_while]. destruct (p a); [exact IH|]. change (a :: y' ++ rev x)%list with ((a :: y') ++ rev x)%list.
  rewrite rev_app_distr, rev_involutive. destruct (rev (a :: y')) eqn:E; [|reflexivity]. apply (f_equal (@List.length _)) in E.
  rewrite rev_length in E. discriminate.
Qed.

Lemma read_lines items t : items <> [] -> Forall item_ok items -> laid_out items t ->
  exists rest, splitlines (strip_by (is_char LF) t) = (map line items ++ rest)%list.
Proof.
  intros Hne F (crs & notes & LC & ->).
  change (fun ci : bool * item => _) with ended.
  set (J := flat_map ended (combine crs items)).
  assert (NLF : forall a, ~ line_end a -> is_char LF a = false).
  { intros a H. unfold is_char. destruct (Ascii.eqb_spec LF a) as [<-|]; [|reflexivity]. exfalso. apply H. cbv. auto. }
  assert (NE : forall i, item_ok i -> exists a r, line i = (a :: r)%list /\ ~ line_end a).
  { intros i (L & NB & _). unfold line in *. destruct (i_label i) as [|a r]; [discriminate|]. exists a. eexists. split; [reflexivity|]. now inversion NB. }
  assert (NL : forall i, item_ok i -> exists a r, line i = (r ++ [a])%list /\ ~ line_end a).
  { intros i O. destruct (NE i O) as (a0 & r0 & E0 & _). destruct (@exists_last _ (line i)) as (r & a & E); [rewrite E0; discriminate|].
    exists a, r. split; [exact E|]. destruct O as (_ & NB & _). rewrite E in NB. apply Forall_app in NB as [_ NB]. now inversion NB. }
  assert (START : drop_while (is_char LF) (J ++ notes) = (J ++ notes)%list).
  { subst J. destruct items as [|i items]; [contradiction|]. destruct crs as [|cr crs]; [discriminate|].
    inversion F; subst. destruct (NE i) as (a & r & E & Ha); [assumption|].
    change (flat_map ended (combine (cr :: crs) (i :: items))) with ((line i ++ line_ending cr) ++ flat_map ended (combine crs items))%list.
    rewrite E. cbn [app drop_while]. now rewrite (NLF a Ha). }
  unfold strip_by. rewrite START. change (rev (drop_while ?p (rev ?l))) with (rstrip p l). rewrite rstrip_app.
  assert (SPLIT : forall items crs tail, Forall item_ok items -> List.length crs = List.length items ->
     splitlines (flat_map ended (combine crs items) ++ tail) = (map line items ++ splitlines tail)%list).
  { clear. intros items crs tail F. revert crs. induction F as [|i items O F IH]; intros [|cr crs] L; try discriminate; [reflexivity|].
    change (flat_map ended (combine (cr :: crs) (i :: items))) with ((line i ++ line_ending cr) ++ flat_map ended (combine crs items))%list.
    rewrite <- !app_assoc. cbn [map app].
    unfold splitlines at 1. destruct cr; cbn [line_ending app].
    - rewrite splitlines_step_cr by apply O. cbn [rev app]. f_equal. apply IH. now injection L.
    - rewrite splitlines_step by apply O. cbn [rev app]. f_equal. apply IH. now injection L. }
  destruct (rstrip (is_char LF) notes) as [|s0 s] eqn:ES.
  - destruct (@exists_last _ items Hne) as (items' & i & ->). apply Forall_app in F as [F1 F2]. inversion F2 as [|? ? O _]; subst.
    exists []. rewrite app_nil_r.
    destruct (@exists_last _ crs) as (crs' & cr & ->); [destruct crs, items'; discriminate|].
    rewrite !app_length in LC. cbn in LC. assert (LC' : List.length crs' = List.length items') by lia.
    assert (EC : combine (crs' ++ [cr]) (items' ++ [i]) = (combine crs' items' ++ [(cr, i)])%list).
    { clear - LC'. revert items' LC'. induction crs' as [|c0 crs' IH]; intros [|i0 items'] L; try discriminate; [reflexivity|].
      cbn. f_equal. apply IH. now injection L. }
    unfold J. rewrite EC, flat_map_app. cbn [flat_map]. rewrite app_nil_r. unfold ended at 2. cbn [fst snd].
    destruct (NL i O) as (a & r & E & Ha). destruct (NE i O) as (a1 & r1 & E1 & _).
    assert (R : rstrip (is_char LF) (line i) = line i).
    { rewrite E. unfold rstrip. rewrite rev_app_distr. cbn [rev app drop_while]. rewrite (NLF a Ha). cbn [rev]. now rewrite rev_involutive. }
    destruct cr; cbn [line_ending].
    + assert (R2 : rstrip (is_char LF) (line i ++ ["013"%char; LF]) = (line i ++ ["013"%char])%list) by now rewrite rstrip_app.
      rewrite rstrip_app, R2.
      replace (match (line i ++ ["013"%char])%list with [] => _ | _ => _ end) with
        (flat_map ended (combine crs' items') ++ line i ++ ["013"%char])%list by (rewrite E1; reflexivity).
      rewrite SPLIT by assumption. rewrite map_app. f_equal. cbn [map]. unfold splitlines. now rewrite splitlines_last_cr by apply O.
    + assert (R2 : rstrip (is_char LF) (line i ++ [LF]) = line i).
      { rewrite rstrip_app. change (rstrip (is_char LF) [LF]) with (@nil ascii). exact R. }
      rewrite rstrip_app, R2.
      replace (match line i with [] => _ | _ => _ end) with (flat_map ended (combine crs' items') ++ line i)%list by (rewrite E1; reflexivity).
      rewrite SPLIT by assumption. rewrite map_app. f_equal.
      cbn [map]. unfold splitlines. rewrite (splitlines_last (line i) []); [reflexivity|apply O|]. cbn. rewrite E1. discriminate.
  - unfold J. rewrite SPLIT by assumption. eauto.
Qed.

(** ** items *)
Section Inf.
Context (N : num) (py_float : text -> res N).
Notation den := (denotes N py_float).

(** what each conversion gives *)
Definition conv (v : ival N) : text -> res (ival N) :=
  match v with
  | IStr _ => to_str N
  | IInt _ => to_int N
  | IFloat _ => to_float N py_float
  | IBool _ => to_bool N
  | IPairs _ => to_str N
  end.
Lemma p_denotes v i lines n : den v i -> nth_error lines n = Some (line i) -> p N lines n (conv v) = Ok v.
Proof.
  intros (O & D) E. unfold p. rewrite E, raw_inf_value_line by exact O. cbn [bind]. destruct v; cbn [conv] in *.
  - unfold to_str, str. rewrite D. unfold chars. now rewrite string_of_list_ascii_of_string.
  - unfold to_float. now rewrite D.
  - unfold to_int. now rewrite (py_int_text z).
  - destruct D as (z & D & B). unfold to_bool. rewrite (py_int_text z) by exact D. cbn [bind]. do 2 f_equal.
    destruct (Z.eqb_spec z 0); destruct b; cbn; auto; exfalso; [apply (proj1 B eq_refl); assumption|discriminate (proj2 B ltac:(assumption))].
  - contradiction.
Qed.
Lemma p_str s i lines n : den (IStr s) i -> nth_error lines n = Some (line i) -> p N lines n (to_str N) = Ok (IStr s).
Proof. exact (p_denotes (IStr s) i lines n). Qed.
Lemma p_all_denotes kvs is : Forall2 den (map snd kvs) is -> forall pre post,
  p_all N (pre ++ map line is ++ post) (List.length pre) (map (fun kv => (fst kv, conv (snd kv))) kvs) = Ok kvs.
Proof.
  revert is. induction kvs as [|(k, v) kvs IH]; intros is F pre post; inversion F as [|? i ? is' H1 H2]; subst; cbn [map p_all fst snd]; [reflexivity|].
  rewrite (p_denotes v i) by (auto; rewrite nth_error_app2, Nat.sub_diag by lia; reflexivity). cbn [bind].
  specialize (IH is' H2 (pre ++ [line i])%list post). rewrite app_length, Nat.add_1_r, <- app_assoc in IH. cbn [app] in *. rewrite IH. reflexivity.
Qed.
Lemma onoff_denotes pairs is line' post : Forall2 denotes_pair pairs is ->
  (forall r, (v <- raw_inf_value line' ;; parse_int_pair v) <> Ok r) ->
  onoff (map line is ++ line' :: post) = pairs.
Proof.
  intros F H. induction F as [|xy i pairs is D F IH]; cbn [map app onoff].
  - destruct (bind _ _); [exfalso; now apply (H a)| | |]; reflexivity.
  - rewrite (parse_pair xy i D). now rewrite IH.
Qed.

(** the part common to all bands *)
Section Common.
Context (basename telescope instrument source_name raj decj observer : string) (mjd : N)
        (barycentered : bool) (nsamp : Z) (tsamp : N) (breaks : bool) (pairs : list (Z * Z)).
Definition common : list (string * ival N) :=
  [("basename", IStr basename); ("telescope", IStr telescope); ("instrument", IStr instrument);
   ("source_name", IStr source_name); ("raj", IStr raj); ("decj", IStr decj);
   ("observer", IStr observer); ("mjd", IFloat mjd); ("barycentered", IBool barycentered);
   ("nsamp", IInt nsamp); ("tsamp", IFloat tsamp); ("breaks", IBool breaks)]%string.

Lemma inf2dict_common band (rest : list (string * ival N)) I1 I2 I3 t :
  Forall2 den (map snd common) I1 ->
  Forall2 denotes_pair pairs I2 -> (breaks = false -> pairs = []) ->
  Forall2 den (IStr band :: map snd rest) I3 ->
  ~ In ","%char (chars band) -> telescope <> fake_telescope ->
  laid_out (I1 ++ I2 ++ I3) t ->
  inf2dict N py_float t =
  let items := (common ++ [("onoff_pairs", IPairs pairs); ("em_band", IStr band)])%list%string in
  let tail l := (r <- p_all N (map line I3 ++ skipn (List.length (I1 ++ I2 ++ I3)) (splitlines (strip_by (is_char LF) t))) 1 l ;; Ok (items ++ r)%list) in
  if String.eqb band "Radio" then
    tail [("fov_arcsec", to_float N py_float); ("dm", to_float N py_float); ("fbot", to_float N py_float); ("bandwidth", to_float N py_float);
       ("nchan", to_int N); ("cbw", to_float N py_float); ("analyst", to_str N)]%string
  else if String.eqb band "X-ray" || String.eqb band "Gamma" then
    tail [("fov_arcsec", to_float N py_float); ("central_energy_kev", to_float N py_float);
       ("energy_bandpass_kev", to_float N py_float); ("analyst", to_str N)]%string
  else Err ValueError.
Proof.
  intros F1 F2 HB F3 NC NF LO.
  assert (OK : Forall item_ok (I1 ++ I2 ++ I3)).
  { apply Forall_app; split; [|apply Forall_app; split].
    - clear - F1. induction F1 as [|? ? ? ? [H _]]; constructor; auto.
    - clear - F2. induction F2 as [|? ? ? ? [H _]]; constructor; auto.
    - clear - F3. induction F3 as [|? ? ? ? [H _]]; constructor; auto. }
  destruct (read_lines (I1 ++ I2 ++ I3) t ltac:(inversion F1; discriminate) OK LO) as (post & EL).
  unfold inf2dict. change "010"%char with LF. rewrite EL.
  assert (SK : skipn (List.length (I1 ++ I2 ++ I3)) (map line (I1 ++ I2 ++ I3) ++ post) = post)
    by (rewrite <- (map_length line); apply Props.Sigproc.skipn_pre).
  rewrite SK. clear SK EL LO OK t.
  destruct I1 as [|i0 [|i1 I1]]; try (inversion F1; fail). { inversion F1 as [|? ? ? ? _ F]. inversion F. }
  inversion F1 as [|? ? ? ? D0 F1']; subst. inversion F1' as [|? ? ? ? D1 F1'']; subst. clear F1 F1'.
  assert (L1 : List.length I1 = 10%nat) by (clear - F1''; repeat match goal with H : Forall2 _ _ _ |- _ => inversion H; subst; clear H end; reflexivity).
  rewrite !map_app. cbn [map app]. rewrite <- !app_assoc.
  set (lines := (line i0 :: line i1 :: _)%list).
  rewrite (p_str basename i0 lines 0 D0) by reflexivity. cbn [bind].
  rewrite (p_str telescope i1 lines 1 D1) by reflexivity. cbn [bind].
  destruct (String.eqb_spec telescope fake_telescope) as [|_]; [contradiction|]. cbn [negb guard bind].
  pose proof (p_all_denotes (skipn 2 common) I1 F1'' [line i0; line i1] (map line I2 ++ map line I3 ++ post)) as PA.
  cbn [skipn common map fst snd conv List.length app] in PA. fold lines in PA. rewrite PA. cbn [bind].
  assert (SK : skipn 12 lines = (map line I2 ++ map line I3 ++ post)%list).
  { change (skipn 12 lines) with (skipn 10 (map line I1 ++ map line I2 ++ map line I3 ++ post)).
    rewrite <- L1, <- (map_length line). apply Props.Sigproc.skipn_pre. }
  rewrite SK. cbn [lookup String.eqb Ascii.eqb Bool.eqb].
  inversion F3 as [|? i3 ? I3' D3 F3']; subst.
  assert (NP : forall r, (v <- raw_inf_value (line i3) ;; parse_int_pair v) <> Ok r).
  { intros r. rewrite raw_inf_value_line by apply D3. cbn [bind]. destruct D3 as [_ D3]. rewrite D3. unfold parse_int_pair, split.
    rewrite split_nochar; [discriminate|]. apply Forall_forall. intros a Ha ->. auto. }
  assert (OP : match (if breaks then Some (@IBool N true) else Some (IBool false)) with Some (IBool true) => onoff (map line I2 ++ map line (i3 :: I3') ++ post) | _ => [] end = pairs).
  { destruct breaks; [|rewrite HB; reflexivity]. cbn [map app]. now apply onoff_denotes. }
  replace (match breaks with true => _ | false => _ end) with pairs; [|destruct breaks; [symmetry; exact OP|now rewrite HB]].
  assert (SK2 : skipn (List.length pairs) (map line I2 ++ map line (i3 :: I3') ++ post) = (map line (i3 :: I3') ++ post)%list).
  { replace (List.length pairs) with (List.length (map line I2)); [apply Props.Sigproc.skipn_pre|]. rewrite map_length. clear - F2. induction F2; cbn; auto. }
  rewrite SK2. rewrite (p_str band i3 _ 0 D3) by reflexivity. cbn [bind].
  cbn [app common]. reflexivity.
Qed.

(** C57: a .inf file of a radio observation is read back field by field, whatever its labels,
    its spacing, its number of on/off pairs and its notes *)
Theorem inf2dict_radio (fov dm fbot bandwidth cbw : N) (nchan : Z) (analyst : string) I1 I2 I3 t :
  Forall2 den
    [IStr basename; IStr telescope; IStr instrument; IStr source_name; IStr raj; IStr decj; IStr observer;
     IFloat mjd; IBool barycentered; IInt nsamp; IFloat tsamp; IBool breaks] I1 ->
  Forall2 denotes_pair pairs I2 -> (breaks = false -> pairs = []) ->
  Forall2 den
    [IStr "Radio"; IFloat fov; IFloat dm; IFloat fbot; IFloat bandwidth; IInt nchan; IFloat cbw; IStr analyst] I3 ->
  telescope <> "None (Artificial Data Set)"%string ->
  laid_out (I1 ++ I2 ++ I3) t ->
  inf2dict N py_float t = Ok
    [("basename", IStr basename); ("telescope", IStr telescope); ("instrument", IStr instrument);
     ("source_name", IStr source_name); ("raj", IStr raj); ("decj", IStr decj); ("observer", IStr observer);
     ("mjd", IFloat mjd); ("barycentered", IBool barycentered); ("nsamp", IInt nsamp);
     ("tsamp", IFloat tsamp); ("breaks", IBool breaks); ("onoff_pairs", IPairs pairs);
     ("em_band", IStr "Radio"); ("fov_arcsec", IFloat fov); ("dm", IFloat dm); ("fbot", IFloat fbot);
     ("bandwidth", IFloat bandwidth); ("nchan", IInt nchan); ("cbw", IFloat cbw); ("analyst", IStr analyst)]%string.
Proof.
  intros F1 F2 HB F3 NF LO.
  set (rest := [("fov_arcsec", IFloat fov); ("dm", IFloat dm); ("fbot", IFloat fbot);
     ("bandwidth", IFloat bandwidth); ("nchan", IInt nchan); ("cbw", IFloat cbw); ("analyst", IStr analyst)]%string : list (string * ival N)).
  rewrite (inf2dict_common "Radio" rest I1 I2 I3 t); auto.
  2:{ cbv. intuition discriminate. }
  cbn [String.eqb Ascii.eqb Bool.eqb]. cbv zeta. inversion F3 as [|? i3 ? I3' D3 F3']; subst.
  pose proof (p_all_denotes rest I3' F3' [line i3]
    (skipn (List.length (I1 ++ I2 ++ i3 :: I3')) (splitlines (strip_by (is_char LF) t)))) as PA.
  cbn [rest map fst snd conv List.length app] in PA. cbn [map app]. rewrite PA. reflexivity.
Qed.

(** the same for X-ray and gamma-ray observations *)
Theorem inf2dict_high_energy band (fov energy bandpass : N) (analyst : string) I1 I2 I3 t :
  band = "X-ray"%string \/ band = "Gamma"%string ->
  Forall2 den
    [IStr basename; IStr telescope; IStr instrument; IStr source_name; IStr raj; IStr decj; IStr observer;
     IFloat mjd; IBool barycentered; IInt nsamp; IFloat tsamp; IBool breaks] I1 ->
  Forall2 denotes_pair pairs I2 -> (breaks = false -> pairs = []) ->
  Forall2 den [IStr band; IFloat fov; IFloat energy; IFloat bandpass; IStr analyst] I3 ->
  telescope <> "None (Artificial Data Set)"%string ->
  laid_out (I1 ++ I2 ++ I3) t ->
  inf2dict N py_float t = Ok
    [("basename", IStr basename); ("telescope", IStr telescope); ("instrument", IStr instrument);
     ("source_name", IStr source_name); ("raj", IStr raj); ("decj", IStr decj); ("observer", IStr observer);
     ("mjd", IFloat mjd); ("barycentered", IBool barycentered); ("nsamp", IInt nsamp);
     ("tsamp", IFloat tsamp); ("breaks", IBool breaks); ("onoff_pairs", IPairs pairs);
     ("em_band", IStr band); ("fov_arcsec", IFloat fov); ("central_energy_kev", IFloat energy);
     ("energy_bandpass_kev", IFloat bandpass); ("analyst", IStr analyst)]%string.
Proof.
  intros Band F1 F2 HB F3 NF LO.
  set (rest := [("fov_arcsec", IFloat fov); ("central_energy_kev", IFloat energy);
     ("energy_bandpass_kev", IFloat bandpass); ("analyst", IStr analyst)]%string : list (string * ival N)).
  rewrite (inf2dict_common band rest I1 I2 I3 t); auto.
  2:{ destruct Band as [-> | ->]; cbv; intuition discriminate. }
  replace (String.eqb band "Radio") with false by (destruct Band as [-> | ->]; reflexivity).
  replace (String.eqb band "X-ray" || String.eqb band "Gamma") with true by (destruct Band as [-> | ->]; reflexivity).
  cbv zeta. inversion F3 as [|? i3 ? I3' D3 F3']; subst.
  pose proof (p_all_denotes rest I3' F3' [line i3]
    (skipn (List.length (I1 ++ I2 ++ i3 :: I3')) (splitlines (strip_by (is_char LF) t)))) as PA.
  cbn [rest map fst snd conv List.length app] in PA. cbn [map app]. rewrite PA. reflexivity.
Qed.

(** any other band is refused *)
Theorem inf2dict_other_band band I1 I2 I3 t :
  ~ In band ["Radio"; "X-ray"; "Gamma"]%string -> ~ In ","%char (chars band) ->
  Forall2 den
    [IStr basename; IStr telescope; IStr instrument; IStr source_name; IStr raj; IStr decj; IStr observer;
     IFloat mjd; IBool barycentered; IInt nsamp; IFloat tsamp; IBool breaks] I1 ->
  Forall2 denotes_pair pairs I2 -> (breaks = false -> pairs = []) ->
  den (IStr band) I3 ->
  laid_out (I1 ++ I2 ++ [I3]) t ->
  inf2dict N py_float t = Err ValueError.
Proof.
  intros NB NC F1 F2 HB D3 LO.
  destruct (String.eqb_spec telescope fake_telescope) as [E|NF].
  - assert (OK : Forall item_ok (I1 ++ I2 ++ [I3])).
    { apply Forall_app; split; [|apply Forall_app; split].
      - clear - F1. induction F1 as [|? ? ? ? [H _]]; constructor; auto.
      - clear - F2. induction F2 as [|? ? ? ? [H _]]; constructor; auto.
      - constructor; [apply D3|constructor]. }
    destruct (read_lines (I1 ++ I2 ++ [I3]) t ltac:(inversion F1; discriminate) OK LO) as (post & EL).
    unfold inf2dict. change "010"%char with LF. rewrite EL.
    inversion F1 as [|? i0 ? ? D0 F1']; subst. inversion F1' as [|? i1 ? ? D1 F1'']; subst.
    rewrite (p_str basename i0 _ 0 D0) by reflexivity. cbn [bind].
    rewrite (p_str fake_telescope i1 _ 1 D1) by reflexivity. cbn [bind]. reflexivity.
  - rewrite (inf2dict_common band [] I1 I2 [I3] t); auto. 2:{ constructor; [exact D3|constructor]. }
    cbv zeta. destruct (String.eqb_spec band "Radio") as [->|]; [exfalso; apply NB; cbn; auto|].
    destruct (String.eqb_spec band "X-ray") as [->|]; [exfalso; apply NB; cbn; auto|].
    destruct (String.eqb_spec band "Gamma") as [->|]; [exfalso; apply NB; cbn; auto|]. reflexivity.
Qed.
End Common.

(** data written by PRESTO's makedata are refused *)
Theorem inf2dict_fake basename i0 i1 is t :
  den (IStr basename) i0 -> den (IStr "None (Artificial Data Set)") i1 ->
  Forall item_ok is -> laid_out (i0 :: i1 :: is) t ->
  inf2dict N py_float t = Err ValueError.
Proof.
  intros D0 D1 F LO.
  assert (OK : Forall item_ok (i0 :: i1 :: is)) by (constructor; [apply D0|constructor; [apply D1|exact F]]).
  destruct (read_lines (i0 :: i1 :: is) t ltac:(discriminate) OK LO) as (post & EL).
  unfold inf2dict. change "010"%char with LF. rewrite EL.
  rewrite (p_str basename i0 _ 0 D0) by reflexivity. cbn [bind].
  rewrite (p_str fake_telescope i1 _ 1 D1) by reflexivity. cbn [bind]. reflexivity.
Qed.
End Inf.
Print Assumptions inf2dict_radio.
Print Assumptions inf2dict_high_energy.
Print Assumptions inf2dict_other_band.
Print Assumptions inf2dict_fake.

(** *** a concrete file *)
Definition ex_item (label v : string) : item :=
  let l := firstn 40 (chars label ++ repeat " "%char 40)%list in Item l (chars "  ") (chars v) (chars " ").
Lemma ex_item_ok label v :
  forallb (fun a => negb (isbreak a)) (chars label ++ chars v) = true ->
  match chars v with [] => true | a :: _ => negb (isspace a) end = true ->
  match rev (chars v) with [] => true | a :: _ => negb (isspace a) end = true ->
  item_ok (ex_item label v).
Proof.
  intros B H1 H2.
  assert (NB : forall a, isbreak a = false -> ~ line_end a) by (intros a H L; apply isbreak_spec in L; congruence).
  assert (NS : forall a, negb (isspace a) = true -> ~ space a) by (intros a H L; apply isspace_spec in L; rewrite L in H; discriminate).
  rewrite forallb_app, andb_true_iff in B. destruct B as [B1 B2].
  assert (BL : forall l, forallb (fun a => negb (isbreak a)) l = true -> Forall (fun a => ~ line_end a) l).
  { intros l H. apply Forall_forall. intros a Ha. rewrite forallb_forall in H. apply NB. specialize (H a Ha). now destruct (isbreak a). }
  repeat split.
  - cbn [ex_item i_label]. rewrite firstn_length, app_length, repeat_length. lia.
  - unfold line, ex_item. cbn [i_label i_left i_val i_right]. repeat (apply Forall_app; split).
    + assert (F : Forall (fun a => ~ line_end a) (chars label ++ repeat " "%char 40)).
      { apply Forall_app. split; [auto|]. apply Forall_forall. intros a Ha. apply repeat_spec in Ha as ->. apply NB. reflexivity. }
      rewrite <- (firstn_skipn 40 (chars label ++ repeat " "%char 40)) in F. now apply Forall_app in F.
    + repeat constructor. now apply NB.
    + repeat constructor; now apply NB.
    + auto.
    + repeat constructor. now apply NB.
  - cbn. repeat constructor; cbv; tauto.
  - cbn. repeat constructor; cbv; tauto.
  - cbn [ex_item i_val]. intros E. rewrite E in H1. now apply NS.
  - cbn [ex_item i_val]. intros E. rewrite E, rev_app_distr in H2. now apply NS.
Qed.
Lemma spaces l : forallb isspace l = true -> Forall space l.
Proof. intros H. rewrite forallb_forall in H. apply Forall_forall. intros a Ha. now apply isspace_spec, H. Qed.
Lemma ex_int_text z l : (exists ds cs, ds <> [] /\ Forall2 digit_char ds cs /\ l = cs /\ z = decimal ds) -> int_text z l.
Proof. intros (ds & cs & A & B & C & D). exists ds, cs. auto. Qed.
Ltac ex_int ds :=
  apply ex_int_text;
  match goal with |- exists _ _, _ /\ _ /\ ?l = _ /\ _ => exists ds, l end;
  split; [discriminate|split; [|split; reflexivity]];
  repeat (apply Forall2_cons; [split; [lia|reflexivity]|]); apply Forall2_nil.
Ltac ex_str := split; [apply ex_item_ok; reflexivity|reflexivity].

Definition ex_common : list item :=
  [ex_item " Data file name without suffix" "obs_DM10"; ex_item " Telescope used" "Parkes"; ex_item " Instrument used" "BPSR";
   ex_item " Object being observed" "PSR J0000"; ex_item " J2000 Right Ascension (hh:mm:ss.ssss)" "00:01:02.5";
   ex_item " J2000 Declination     (dd:mm:ss.ssss)" "-00:30:00.0"; ex_item " Data observed by" ""; ex_item " Epoch of observation (MJD)" "59000.5";
   ex_item " Barycentered?           (1 yes, 0 no)" "1"; ex_item " Number of bins in the time series" "1024";
   ex_item " Width of each time series bin (sec)" "6.4e-05"; ex_item " Any breaks in the data? (1 yes, 0 no)" "1"]%string.
Definition ex_pairs : list item := [ex_item " On/Off bin pair #  1" "0          , 511"; ex_item " On/Off bin pair #  2" "600        , 1023"]%string.
Definition ex_radio : list item :=
  [ex_item " Type of observation (EM band)" "Radio"; ex_item " Beam diameter (arcsec)" "900"; ex_item " Dispersion measure (cm-3 pc)" "10";
   ex_item " Central freq of low channel (Mhz)" "1182"; ex_item " Total bandwidth (Mhz)" "400"; ex_item " Number of channels" "1024";
   ex_item " Channel bandwidth (Mhz)" "0.39"; ex_item " Data analyzed by" "somebody"]%string.
Definition ex_text : text :=
  (flat_map ended (combine [false; true; true; false; false; false; false; false; false; false; false; false; false; false; true; false; false; false;
      false; false; false; true] (ex_common ++ ex_pairs ++ ex_radio)) ++ chars " Any additional notes:" ++ [LF])%list.

Example inf2dict_radio_hypotheses (N : num) (x : N) :
  let den := denotes N (fun _ => Ok x) in
  Forall2 den
    [IStr "obs_DM10"; IStr "Parkes"; IStr "BPSR"; IStr "PSR J0000"; IStr "00:01:02.5"; IStr "-00:30:00.0"; IStr "";
     IFloat x; IBool true; IInt 1024; IFloat x; IBool true]%string ex_common /\
  Forall2 denotes_pair [(0, 511); (600, 1023)] ex_pairs /\
  Forall2 den [IStr "Radio"; IFloat x; IFloat x; IFloat x; IFloat x; IInt 1024; IFloat x; IStr "somebody"]%string ex_radio /\
  laid_out (ex_common ++ ex_pairs ++ ex_radio) ex_text.
Proof.
  intros den. split; [|split; [|split]].
  - repeat (apply Forall2_cons; [first [ex_str|split; [apply ex_item_ok; reflexivity|]]|]); try apply Forall2_nil.
    + exists 1. split; [ex_int [1]|]. split; [discriminate|reflexivity].
    + ex_int [1; 0; 2; 4].
    + exists 1. split; [ex_int [1]|]. split; [discriminate|reflexivity].
  - apply Forall2_cons; [|apply Forall2_cons; [|constructor]]; (split; [apply ex_item_ok; reflexivity|]).
    + exists (chars "0          "), (chars " 511"). split; [reflexivity|]. split.
      * exists [], (chars "0"), (chars "          "). split; [reflexivity|]. split; [apply spaces; reflexivity|split; [apply spaces; reflexivity|]]. ex_int [0].
      * exists (chars " "), (chars "511"), []. split; [reflexivity|]. split; [apply spaces; reflexivity|split; [apply spaces; reflexivity|]]. ex_int [5; 1; 1].
    + exists (chars "600        "), (chars " 1023"). split; [reflexivity|]. split.
      * exists [], (chars "600"), (chars "        "). split; [reflexivity|]. split; [apply spaces; reflexivity|split; [apply spaces; reflexivity|]]. ex_int [6; 0; 0].
      * exists (chars " "), (chars "1023"), []. split; [reflexivity|]. split; [apply spaces; reflexivity|split; [apply spaces; reflexivity|]]. ex_int [1; 0; 2; 3].
  - repeat (apply Forall2_cons; [first [ex_str|split; [apply ex_item_ok; reflexivity|]]|]); try apply Forall2_nil. ex_int [1; 0; 2; 4].
  - exists [false; true; true; false; false; false; false; false; false; false; false; false; false; false; true; false; false; false;
      false; false; false; true], (chars " Any additional notes:" ++ [LF])%list. split; reflexivity.
Qed.
Example inf2dict_ex (N : num) (x : N) :
  exists items, inf2dict N (fun _ => Ok x) ex_text = Ok items /\
    lookup "onoff_pairs" items = Some (IPairs [(0, 511); (600, 1023)]) /\ lookup "analyst" items = Some (IStr "somebody"%string).
Proof. eexists. split; [vm_compute; reflexivity|]. split; reflexivity. Qed.

(** ** the .dat file *)
Lemma upto_none l : ~ In "."%char l -> upto_last_dot l = None.
Proof.
  induction l as [|a l IH]; intros H; [reflexivity|]. cbn [upto_last_dot]. rewrite IH by (intros I; apply H; now right).
  unfold is_char. destruct (Ascii.eqb_spec "." a) as [<-|]; [exfalso; apply H; now left|reflexivity].
Qed.
Lemma upto_dot l ext : ~ In "."%char ext -> upto_last_dot (l ++ "."%char :: ext) = Some l.
Proof.
  intros H. induction l as [|a l IH]; cbn.
  - now rewrite upto_none.
  - now rewrite IH.
Qed.
Lemma chars_app s s' : chars (s ++ s') = (chars s ++ chars s')%list.
Proof. unfold chars. induction s as [|a s IH]; cbn; [reflexivity|]. now rewrite IH. Qed.
Lemma str_chars s : str (chars s) = s.
Proof. apply string_of_list_ascii_of_string. Qed.

(** C71: the samples of stem.inf are read from stem.dat *)
Theorem data_fname_inf stem : data_fname (stem ++ ".inf")%string = (stem ++ ".dat")%string.
Proof.
  unfold data_fname. rewrite chars_app. change (chars ".inf") with ("."%char :: chars "inf").
  rewrite upto_dot by (cbv; intuition discriminate). rewrite <- chars_app. apply str_chars.
Qed.
Print Assumptions data_fname_inf.
Example data_fname_ex : data_fname "/data/v1.0/obs_DM10.20.inf" = "/data/v1.0/obs_DM10.20.dat"%string.
Proof. reflexivity. Qed.

(** A file name without extension inside a directory with a dot in its name gets a .dat file
    outside this directory. *)
Theorem data_fname_same_directory_refuted :
  ~ (forall dir name, ~ In "/"%char (chars name) -> exists name', data_fname (dir ++ "/" ++ name) = (dir ++ "/" ++ name')%string).
Proof.
  intros H. destruct (H "/data/v1.0"%string "obs"%string) as (n & E); [cbv; intuition discriminate|].
  vm_compute in E. discriminate.
Qed.
Print Assumptions data_fname_same_directory_refuted.

Local Open Scope R_scope.
(** C71: loading a .inf file uses every complete float32 of the .dat file of the same stem, in
    order, and keeps every field of the .inf file as metadata; the warning is given exactly for
    the high-energy bands. *)
Theorem from_presto_inf_correct py_float skycoord realpath other (ob32 : Z -> R) dat fname stem t
    (data : list R) (tsamp : R) m warned :
  realpath fname = (stem ++ ".inf")%string ->
  from_presto_inf numR py_float skycoord realpath other ob32 dat fname t = Ok (data, tsamp, m, warned) ->
  exists items bytes,
    inf2dict numR py_float t = Ok items /\
    dat (stem ++ ".dat")%string = Ok bytes /\
    Props.Sigproc.holds_samples 4 (fun b => ob32 (le_uint b)) bytes data /\
    lookup "tsamp" items = Some (@IFloat numR tsamp) /\
    (forall k v, lookup k items = Some v -> ~ In k ["skycoord"; "fname"; "tobs"]%string -> md_get k m = Some (md_of_inf numR other v)) /\
    (exists nsamp, lookup "nsamp" items = Some (IInt nsamp) /\ md_get "tobs" m = Some (@MFloat numR (tsamp * IZR nsamp)) /\ 0 < tsamp * IZR nsamp) /\
    md_get "fname" m = Some (@MStr numR (realpath (stem ++ ".inf")%string)) /\
    (exists raj decj c, lookup "raj" items = Some (IStr raj) /\ lookup "decj" items = Some (IStr decj) /\
       skycoord raj decj = Ok c /\ md_get "skycoord" m = Some (@MCoord numR c)) /\
    (warned = true <-> lookup "em_band" items = Some (IStr "X-ray"%string) \/ lookup "em_band" items = Some (IStr "Gamma"%string)).
Proof.
  intros RP. unfold from_presto_inf. destruct (inf2dict numR py_float t) as [items| | |]; cbn [bind]; try discriminate.
  rewrite RP, data_fname_inf.
  destruct (metadata_from_presto _ _ _ _ _ _) as [m0| | |] eqn:MD; cbn [bind]; try discriminate.
  destruct (dat (stem ++ ".dat")%string) as [bytes| | |] eqn:DT; cbn [bind]; try discriminate.
  destruct (lookup "tsamp" items) as [[]|] eqn:LT; cbn [bind]; try discriminate.
  destruct (istr numR "em_band" items) as [band| | |] eqn:LB; cbn [bind]; try discriminate.
  intros H. assert (E : data = float32s numR ob32 bytes /\ tsamp = x /\ m = m0 /\ warned = (String.eqb band "X-ray" || String.eqb band "Gamma")%bool)
    by (repeat split; congruence).
  clear H. destruct E as (-> & -> & -> & ->). exists items, bytes.
  split; [reflexivity|]. split; [reflexivity|]. split; [apply Props.Sigproc.float32s_spec|]. split; [exact LT|].
  unfold metadata_from_presto in MD. unfold istr in MD.
  destruct (lookup "raj" items) as [[raj| | | |]|] eqn:L1; cbn [bind] in MD; try discriminate.
  destruct (lookup "decj" items) as [[decj| | | |]|] eqn:L2; cbn [bind] in MD; try discriminate.
  destruct (skycoord raj decj) as [c| | |] eqn:SC; cbn [bind] in MD; try discriminate.
  rewrite LT in MD. cbn [bind] in MD.
  destruct (lookup "nsamp" items) as [[| |ns| |]|] eqn:LN; cbn [bind] in MD; try discriminate.
  assert (GA : forall k, @md_get numR k (map (fun kv => (fst kv, md_of_inf numR other (snd kv))) items) =
    match lookup k items with Some v => Some (md_of_inf numR other v) | None => None end).
  { intros k. clear. induction items as [|(k1, v1) a IH]; cbn; [reflexivity|]. now destruct (String.eqb k k1). }
  repeat split.
  - intros k v Hk Hin. eapply Props.Sigproc.metadata_new_get; [exact MD|]. rewrite !Props.Sigproc.md_get_set.
    destruct (String.eqb_spec k "tobs") as [->|]; [exfalso; apply Hin; cbn; auto|].
    destruct (String.eqb_spec k "fname") as [->|]; [exfalso; apply Hin; cbn; auto|].
    destruct (String.eqb_spec k "skycoord") as [->|]; [exfalso; apply Hin; cbn; auto|]. now rewrite GA, Hk.
  - exists ns. split; [reflexivity|].
    destruct (Props.Sigproc.metadata_new_get "tobs" (@MFloat numR (x * IZR ns)) _ _ MD) as [G1 G2]; [now rewrite Props.Sigproc.md_get_set|].
    split; [exact G1|]. cbn [item_valid String.eqb Ascii.eqb Bool.eqb orb] in G2. revert G2. rsimp.
    destruct (Rlt_bool_spec 0 (x * IZR ns)); [intros _; assumption|discriminate].
  - eapply Props.Sigproc.metadata_new_get; [exact MD|]. now rewrite !Props.Sigproc.md_get_set.
  - exists raj, decj, c. repeat split; auto. eapply Props.Sigproc.metadata_new_get; [exact MD|]. now rewrite !Props.Sigproc.md_get_set.
  - unfold istr in LB. destruct (lookup "em_band" items) as [[]|]; try discriminate. injection LB as ->.
    rewrite orb_true_iff, !String.eqb_eq. intros [-> | ->]; auto.
  - unfold istr in LB. destruct (lookup "em_band" items) as [[]|]; try discriminate. injection LB as ->.
    rewrite orb_true_iff, !String.eqb_eq. intros [[= ->]|[= ->]]; auto.
Qed.
Print Assumptions from_presto_inf_correct.
Example from_presto_inf_ex :
  exists m, from_presto_inf numR (fun _ => Ok 1) (fun _ _ => Ok 0%nat) (fun s => s) (fun _ => 0%nat) IZR
    (fun s => if String.eqb s "/d/o.dat" then Ok (map SigprocFmt.byte_of [1; 0; 0; 0; 0; 1; 0; 0; 9]%Z) else Err OSError) "/d/o.inf" ex_text =
    Ok ([1; 256], 1, m, false) /\ md_get "tobs" m = Some (@MFloat numR (1 * IZR 1024)).
Proof.
  unfold from_presto_inf.
  destruct (inf2dict_radio_hypotheses numR 1) as (F1 & F2 & F3 & LO).
  rewrite (inf2dict_radio numR (fun _ => Ok 1) _ _ _ _ _ _ _ _ _ _ _ _ _ _ _ _ _ _ _ _ _ _ _ _ F1 F2 ltac:(discriminate) F3 ltac:(discriminate) LO).
  cbn [bind]. unfold metadata_from_presto, istr. cbn [lookup String.eqb Ascii.eqb Bool.eqb bind].
  unfold metadata_new. match goal with |- context [guard (forallb ?p ?l)] => replace (forallb p l) with true end.
  - cbn [guard bind]. change (data_fname "/d/o.inf") with "/d/o.dat"%string. cbn [String.eqb Ascii.eqb Bool.eqb bind].
    eexists. split; [reflexivity|]. reflexivity.
  - symmetry. apply forallb_forall. intros kv I. cbn in I.
    repeat (destruct I as [<-|I]; [cbn; rsimp; rewrite ?Rlt_bool_true, ?Rle_bool_true by lra; reflexivity|]). destruct I.
Qed.
