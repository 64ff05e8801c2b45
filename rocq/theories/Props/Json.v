(** C53, C54: JSON products. *)
From Coq Require Import String Ascii List Arith ZArith Bool Lia Reals Lra.
From Flocq Require Import Core.
From Verif Require Import Base.Result Base.Num Model.Sigproc Model.Json Spec.SigprocFmt Spec.JsonSpec Props.Sigproc.
Import ListNotations.
Local Open Scope Z_scope.
Local Ltac Zify.zify_post_hook ::= Z.div_mod_to_equations.

(** ** base64 *)
Lemma index_char z : 0 <= z < 64 -> index_of (b64_char z) b64_alphabet = Some z /\ Ascii.eqb (b64_char z) "=" = false.
Proof.
  intros H. assert (A : forallb (fun n => match index_of (b64_char (Z.of_nat n)) b64_alphabet with Some y => y =? Z.of_nat n | None => false end
      && negb (Ascii.eqb (b64_char (Z.of_nat n)) "=")) (seq 0 64) = true) by (vm_compute; reflexivity).
  rewrite forallb_forall in A. specialize (A (Z.to_nat z)). rewrite in_seq, Z2Nat.id in A by lia. specialize (A ltac:(lia)).
  apply andb_true_iff in A as [A1 A2]. destruct (index_of (b64_char z) b64_alphabet) as [y|]; [|discriminate].
  apply Z.eqb_eq in A1 as ->. split; [reflexivity|]. now apply negb_true_iff in A2.
Qed.
Lemma a2b_char quad pads left z l : 0 <= z < 64 ->
  a2b quad pads left (b64_char z :: l) =
  if quad =? 0 then a2b 1 0 z l
  else if quad =? 1 then (r <- a2b 2 0 (z mod 16) l ;; Ok (mk_byte (left * 4 + z / 16) :: r))
  else if quad =? 2 then (r <- a2b 3 0 (z mod 4) l ;; Ok (mk_byte (left * 16 + z / 4) :: r))
  else (r <- a2b 0 0 0 l ;; Ok (mk_byte (left * 64 + z) :: r)).
Proof. intros H. destruct (index_char z H) as [E1 E2]. cbn [a2b]. now rewrite E1, E2. Qed.
Lemma mk_byte_byte a z : z = byte a -> mk_byte z = a.
Proof.
  intros ->. unfold mk_byte. pose proof (byte_range a). rewrite Z.mod_small by lia.
  change (ascii_of_N (Z.to_N (byte a))) with (byte_of (byte a)). apply byte_of_byte.
Qed.

Lemma glue_div x y k : 0 < k -> 0 <= y < k -> (x * k + y) / k = x.
Proof. intros. rewrite Z.div_add_l by lia. rewrite Z.div_small by lia. lia. Qed.
Lemma glue_mod x y k : 0 < k -> 0 <= y < k -> (x * k + y) mod k = y.
Proof. intros. rewrite Z.add_comm, Z.mod_add by lia. now apply Z.mod_small. Qed.

Lemma three_ind (P : list ascii -> Prop) : P [] -> (forall a, P [a]) -> (forall a b, P [a; b]) ->
  (forall a b c l, P l -> P (a :: b :: c :: l)) -> forall l, P l.
Proof.
  intros H0 H1 H2 H3. fix IH 1. intros [|a [|b [|c l]]]; [exact H0|exact (H1 a)|exact (H2 a b)|]. apply H3. apply IH.
Qed.

(** C53: decoding what was encoded gives the same bytes *)
Theorem base64_roundtrip l : b64decode (b64encode l) = Ok l.
Proof.
  unfold b64decode. induction l as [|a|a b|a b c l IH] using three_ind.
  - reflexivity.
  - pose proof (byte_range a). cbn [b64encode].
    rewrite a2b_char by lia. cbn [Z.eqb]. rewrite a2b_char by lia.
    cbn -[mk_byte Z.div Z.modulo Z.mul Z.add byte]. rewrite (mk_byte_byte a); [reflexivity|lia].
  - pose proof (byte_range a). pose proof (byte_range b). cbn [b64encode].
    rewrite a2b_char by lia. cbn [Z.eqb]. rewrite a2b_char by lia. change (1 =? 0) with false. change (1 =? 1) with true. cbv iota.
    rewrite a2b_char by lia. rewrite glue_div, glue_mod by lia.
    cbn -[mk_byte Z.div Z.modulo Z.mul byte].
    rewrite (mk_byte_byte a) by lia. rewrite (mk_byte_byte b) by lia. reflexivity.
  - pose proof (byte_range a). pose proof (byte_range b). pose proof (byte_range c). cbn [b64encode].
    rewrite a2b_char by lia. change (0 =? 0) with true. cbv iota.
    rewrite a2b_char by lia. change (1 =? 0) with false. change (1 =? 1) with true. cbv iota.
    rewrite a2b_char by lia. change (2 =? 0) with false. change (2 =? 1) with false. change (2 =? 2) with true. cbv iota.
    rewrite a2b_char by lia. change (3 =? 0) with false. change (3 =? 1) with false. change (3 =? 2) with false. cbv iota.
    rewrite IH. cbn [bind]. rewrite !glue_div, !glue_mod by lia.
    rewrite (mk_byte_byte a) by lia. rewrite (mk_byte_byte b) by lia. rewrite (mk_byte_byte c) by lia. reflexivity.
Qed.
Print Assumptions base64_roundtrip.
Example base64_ex : b64encode (list_ascii_of_string "riptide") = list_ascii_of_string "cmlwdGlkZQ==" /\
  b64decode (list_ascii_of_string "cmlwdGlkZQ==") = Ok (list_ascii_of_string "riptide").
Proof. split; vm_compute; reflexivity. Qed.

(** C53: the text is the base64 code of the bytes *)
Lemma code_char z : 0 <= z < 64 -> code (b64_char z) = Some z.
Proof.
  intros H. assert (A : forallb (fun n => match code (b64_char (Z.of_nat n)) with Some y => y =? Z.of_nat n | None => false end) (seq 0 64) = true)
    by (vm_compute; reflexivity).
  rewrite forallb_forall in A. specialize (A (Z.to_nat z)). rewrite in_seq, Z2Nat.id in A by lia. specialize (A ltac:(lia)).
  destruct (code (b64_char z)) as [y|]; [|discriminate]. apply Z.eqb_eq in A as ->. reflexivity.
Qed.
Theorem base64_correct l : encodes l (b64encode l).
Proof.
  induction l as [|a|a b|a b c l IH] using three_ind; [constructor|..]; cbn [b64encode].
  - pose proof (byte_range a). eapply Enc1; [apply code_char; lia..|]. change (octet a) with (byte a). lia.
  - pose proof (byte_range a). pose proof (byte_range b). eapply Enc2; [apply code_char; lia..|].
    change (octet a) with (byte a). change (octet b) with (byte b). lia.
  - pose proof (byte_range a). pose proof (byte_range b). pose proof (byte_range c). eapply Enc3; [apply code_char; lia..| |exact IH].
    change (octet a) with (byte a). change (octet b) with (byte b). change (octet c) with (byte c). lia.
Qed.
Print Assumptions base64_correct.
(** C53: so it has 4 characters for every 3 bytes or part thereof, only legal ones, with at most
    two of padding at the end *)
Theorem base64_shape l t : encodes l t ->
  List.length t = (4 * ((List.length l + 2) / 3))%nat /\
  exists body pad, t = (body ++ repeat "="%char pad)%list /\ (pad <= 2)%nat /\
    Forall (fun a => exists v, code a = Some v /\ 0 <= v < 64) body.
Proof.
  assert (CH : forall a v, code a = Some v -> exists v, code a = Some v /\ 0 <= v < 64).
  { intros a v E. exists v. split; [exact E|]. unfold code in E. cbv zeta in E.
    repeat match type of E with context [if ?b then _ else _] => destruct b eqn:?B end; try discriminate;
      repeat match goal with B : _ && _ = true |- _ => apply andb_true_iff in B as [? ?] end; injection E as <-; lia. }
  induction 1 as [|a c1 c2 v1 v2 E1 E2 _|a b c1 c2 c3 v1 v2 v3 E1 E2 E3 _|a b c l c1 c2 c3 c4 v1 v2 v3 v4 t E1 E2 E3 E4 _ _ (IH1 & body & pad & IH2 & IH3 & IH4)].
  - split; [reflexivity|]. exists [], 0%nat. repeat split; [lia|constructor].
  - split; [reflexivity|]. exists [c1; c2], 2%nat. split; [reflexivity|]. split; [lia|].
    repeat (apply Forall_cons; [eapply CH; eassumption|]). constructor.
  - split; [reflexivity|]. exists [c1; c2; c3], 1%nat. split; [reflexivity|]. split; [lia|].
    repeat (apply Forall_cons; [eapply CH; eassumption|]). constructor.
  - split.
    + cbn [List.length]. rewrite IH1. replace (S (S (S (List.length l))) + 2)%nat with (1 * 3 + (List.length l + 2))%nat by lia.
      rewrite Nat.div_add_l by lia. lia.
    + exists (c1 :: c2 :: c3 :: c4 :: body), pad. split; [cbn [app]; rewrite IH2; reflexivity|]. split; [exact IH3|].
      repeat (apply Forall_cons; [eapply CH; eassumption|]). exact IH4.
Qed.
Print Assumptions base64_shape.

(** ** saving and loading *)
Section Reload.
Context (N : num) (itemsize : string -> option nat) (version : string).
Notation pv := (pv N).
Notation jv := (jv N).
Notation enc := (encode N version).
Notation dec := (decode N itemsize version).
Notation ld := (loaded N version).
Notation sv := (savable N itemsize).

Definition all_enc (l : list pv) : res (list jv) :=
  (fix go (l : list pv) : res (list jv) := match l with [] => Ok [] | x :: l' => y <- enc x ;; r <- go l' ;; Ok (y :: r) end) l.
Definition items_enc (l : list (string * pv)) : res (list (string * jv)) :=
  (fix go (l : list (string * pv)) : res (list (string * jv)) :=
    match l with [] => Ok [] | (k, x) :: l' => y <- enc x ;; r <- go l' ;; Ok ((k, y) :: r) end) l.
Definition all_dec (l : list jv) : res (list pv) :=
  (fix go (l : list jv) : res (list pv) := match l with [] => Ok [] | x :: l' => y <- dec x ;; r <- go l' ;; Ok (y :: r) end) l.
Definition items_dec (acc : list (string * pv)) (l : list (string * jv)) : res (list (string * pv)) :=
  (fix go (acc : list (string * pv)) (l : list (string * jv)) : res (list (string * pv)) :=
    match l with [] => Ok acc | (k, x) :: l' => y <- dec x ;; go (dset k y acc) l' end) acc l.
Definition all_sv (l : list pv) : Prop :=
  (fix go (l : list pv) : Prop := match l with [] => True | x :: l' => sv x /\ go l' end) l.
Definition items_sv (l : list (string * pv)) : Prop :=
  (fix go (l : list (string * pv)) : Prop := match l with [] => True | (_, x) :: l' => sv x /\ go l' end) l.
Definition items_ld := map (fun kv : string * pv => (fst kv, ld (snd kv))).

Lemma pv_rect' (P : pv -> Prop) :
  P (PNone N) -> (forall b, P (PBool N b)) -> (forall z, P (PInt N z)) -> (forall x, P (PFloat N x)) -> (forall s, P (PStr N s)) ->
  (forall z, P (PNpInt N z)) -> (forall x, P (PNpFloat N x)) ->
  (forall l, Forall P l -> P (PList N l)) -> (forall l, Forall P l -> P (PTuple N l)) ->
  (forall l, Forall (fun kv => P (snd kv)) l -> P (PDict N l)) ->
  (forall l v, Forall (fun kv => P (snd kv)) l -> P (PMeta N l v)) ->
  (forall a, P (PArr N a)) -> (forall a c d, P (PFrame N a c d)) -> (forall x y, P (PCoord N x y)) ->
  (forall a t l v, Forall (fun kv => P (snd kv)) l -> P (PSeries N a t l v)) ->
  (forall w p f s m v, P w -> P p -> P f -> P s -> P m -> P (PPgram N w p f s m v)) ->
  (forall p t k s v, P p -> P t -> P k -> P s -> P (PCand N p t k s v)) ->
  (forall n, P (POther N n)) -> forall v, P v.
Proof.
  intros h0 h1 h2 h3 h4 h5 h6 hl ht hd hm ha hf hc hs hp hk ho. fix IH 1. intros v.
  set (L := fix go (l : list pv) : Forall P l :=
    match l with [] => Forall_nil P | x :: l' => Forall_cons x (IH x) (go l') end).
  set (K := fix go (l : list (string * pv)) : Forall (fun kv => P (snd kv)) l :=
    match l with [] => Forall_nil _ | kv :: l' => Forall_cons kv (IH (snd kv)) (go l') end).
  destruct v; clear -IH L K h0 h1 h2 h3 h4 h5 h6 hl ht hd hm ha hf hc hs hp hk ho.
  - exact h0. - apply h1. - apply h2. - apply h3. - apply h4. - apply h5. - apply h6.
  - apply hl, L. - apply ht, L. - apply hd, K. - apply hm, K. - apply ha. - apply hf. - apply hc.
  - apply hs, K. - apply hp; apply IH. - apply hk; apply IH. - apply ho.
Qed.

Definition good (v : pv) : Prop := sv v -> exists j, enc v = Ok j /\ dec j = Ok (ld v).

Lemma all_good l : Forall good l -> all_sv l -> exists js, all_enc l = Ok js /\ all_dec js = Ok (map ld l).
Proof.
  induction 1 as [|x l Hx _ IH]; [exists []; split; reflexivity|]. intros [S1 S2].
  destruct (Hx S1) as (j & E1 & E2). destruct (IH S2) as (js & F1 & F2). exists (j :: js).
  unfold all_enc, all_dec in *. rewrite E1. cbn [bind]. rewrite F1. cbn [bind map]. rewrite E2. cbn [bind]. rewrite F2. split; reflexivity.
Qed.
Lemma items_good l acc : Forall (fun kv => good (snd kv)) l -> items_sv l -> NoDup (map fst acc ++ map fst l)%list ->
  exists js, items_enc l = Ok js /\ items_dec acc js = Ok (acc ++ items_ld l)%list.
Proof.
  intros H. revert acc. induction H as [|(k, x) l Hx _ IH]; intros acc S D.
  - exists []. split; [reflexivity|]. cbn. now rewrite app_nil_r.
  - destruct S as [S1 S2]. destruct (Hx S1) as (j & E1 & E2). cbn [snd] in *.
    assert (Hk : ~ In k (map fst acc)).
    { cbn in D. apply NoDup_remove_2 in D. rewrite in_app_iff in D. tauto. }
    destruct (IH (dset k (ld x) acc)) as (js & F1 & F2); [exact S2| |].
    { rewrite dset_new by exact Hk. rewrite map_app, <- app_assoc. exact D. }
    exists ((k, j) :: js). unfold items_enc, items_dec in *. rewrite E1. cbn [bind]. rewrite F1. split; [reflexivity|].
    rewrite E2. cbn [bind]. rewrite F2, dset_new, <- app_assoc by exact Hk. reflexivity.
Qed.
Lemma lookup_none {A} k (l : list (string * A)) : ~ In k (map fst l) -> lookup k l = None.
Proof.
  induction l as [|(k', v) l IH]; [reflexivity|]. cbn. intros H. destruct (String.eqb_spec k k') as [->|]; [exfalso; auto|]. auto.
Qed.
Lemma lookup_in {A} k (l : list (string * A)) : lookup k l = None <-> ~ In k (map fst l).
Proof.
  split; [|apply lookup_none]. induction l as [|(k', v) l IH]; cbn; [tauto|]. destruct (String.eqb_spec k k') as [->|H]; [discriminate|].
  intros E [F|F]; [congruence|]. now apply IH.
Qed.
Lemma keys_ld l : map fst (items_ld l) = map fst l.
Proof. unfold items_ld. rewrite map_map. now apply map_ext. Qed.
Lemma dict_good l : Forall (fun kv => good (snd kv)) l -> keys_ok N l -> items_sv l ->
  exists js, items_enc l = Ok js /\ dec (JObj N js) = Ok (PDict N (items_ld l)).
Proof.
  intros H [D T] S. destruct (items_good l [] H S D) as (js & E1 & E2). exists js. split; [exact E1|].
  cbn [decode]. unfold items_dec in E2. rewrite E2. cbn [bind app]. unfold object_hook.
  rewrite lookup_none; [reflexivity|]. now rewrite keys_ld.
Qed.

Lemma size_nd a : nd_ok itemsize a -> dec (enc_nd N a) = Ok (PArr N (read_only a)).
Proof.
  intros (k & Hk & H0 & Hl). unfold enc_nd.
  assert (S : all_dec (map (JInt N) (nd_shape a)) = Ok (map (PInt N) (nd_shape a))).
  { clear. induction (nd_shape a) as [|z l IH]; [reflexivity|]. unfold all_dec in *. cbn [map]. cbn [decode]. cbn [bind]. rewrite IH. reflexivity. }
  cbn [decode]. unfold all_dec in S. cbn [dset]. cbn [bind]. rewrite S. cbn. unfold dec_nd. cbn.
  rewrite list_ascii_of_string_of_list_ascii. rewrite base64_roundtrip. cbn. rewrite Hk. cbn.
  assert (G : ((0 <? Z.of_nat k) && (Z.of_nat (List.length (nd_data a)) mod Z.of_nat k =? 0)) = true).
  { apply andb_true_iff. split; [apply Z.ltb_lt; lia|]. apply Z.eqb_eq. rewrite Hl, Z.mul_comm. apply Z.mod_mul. lia. }
  rewrite G. cbn.
  assert (M : mapM (fun x : pv => match x with PInt _ z => Ok z | _ => Err TypeError end) (map (PInt N) (nd_shape a)) = Ok (nd_shape a)).
  { clear. induction (nd_shape a) as [|z l IH]; [reflexivity|]. cbn. rewrite IH. reflexivity. }
  rewrite M. cbn.
  assert (G2 : (size (nd_shape a) =? Z.of_nat (List.length (nd_data a)) / Z.of_nat k) = true).
  { apply Z.eqb_eq. rewrite Hl, Z.mul_comm, Z.div_mul by lia. reflexivity. }
  rewrite G2. reflexivity.
Qed.

(** metadata *)
Lemma jsonable_ld v : jsonable N v = true -> jsonable N (ld v) = true.
Proof.
  induction v using pv_rect'; try (intros E; exact E); try discriminate; cbn [jsonable loaded]; intros E.
  - rewrite forallb_forall in *. intros x Hx. apply in_map_iff in Hx as (y & <- & Hy). rewrite Forall_forall in H. auto.
  - rewrite forallb_forall in *. intros x Hx. apply in_map_iff in Hx as (y & <- & Hy). rewrite Forall_forall in H. auto.
  - rewrite forallb_forall in *. intros x Hx. apply in_map_iff in Hx as (y & <- & Hy). rewrite Forall_forall in H. cbn. auto.
  - rewrite forallb_forall in *. intros x Hx. apply in_map_iff in Hx as (y & <- & Hy). rewrite Forall_forall in H. cbn. auto.
Qed.
Lemma valid_ld kv : meta_item_valid N kv = true -> meta_item_valid N (fst kv, ld (snd kv)) = true.
Proof.
  destruct kv as [k v]. unfold meta_item_valid. cbn [fst snd].
  destruct (String.eqb k "source_name" || String.eqb k "fname"); [destruct v; cbn; auto; discriminate|].
  destruct (String.eqb k "skycoord"); [destruct v; cbn; auto; discriminate|].
  destruct (String.eqb k "dm" || String.eqb k "mjd"); [destruct v; cbn; auto; discriminate|].
  destruct (String.eqb k "tobs"); [destruct v; cbn; auto; discriminate|]. apply jsonable_ld.
Qed.
Lemma set_defaults ks m : NoDup ks ->
  fold_left (fun m k => set_default N k m) ks m =
  (m ++ map (fun k => (k, PNone N)) (filter (fun k => negb (existsb (String.eqb k) (map fst m))) ks))%list.
Proof.
  intros D. revert m. induction D as [|k ks Hk _ IH]; intros m; [cbn; now rewrite app_nil_r|].
  cbn [fold_left filter]. rewrite IH. unfold set_default at 1.
  assert (X : forall (l : list string), existsb (String.eqb k) l = true <-> In k l).
  { intros l. rewrite existsb_exists. split; [intros (y & Hy & E); apply String.eqb_eq in E; now subst|].
    intros Hy. exists k. split; [exact Hy|apply String.eqb_refl]. }
  destruct (lookup k m) eqn:L.
  - assert (Y : existsb (String.eqb k) (map fst m) = true).
    { apply X. destruct (in_dec string_dec k (map fst m)) as [I|I]; [exact I|]. apply lookup_in in I. congruence. }
    rewrite Y. cbn. unfold set_default. rewrite L. reflexivity.
  - assert (Y : existsb (String.eqb k) (map fst m) = false).
    { apply not_true_iff_false. rewrite X. now apply lookup_in. }
    rewrite Y. cbn [negb map]. unfold set_default. rewrite L, <- app_assoc. cbn [app]. do 2 f_equal. f_equal.
    apply filter_ext_in. intros j Hj. f_equal. rewrite map_app, existsb_app. cbn. rewrite orb_false_r.
    destruct (String.eqb_spec j k) as [->|]; [contradiction|]. now rewrite orb_false_r.
Qed.
Lemma series_meta m tobs : forallb (meta_item_valid N) m = true ->
  exists r, meta_new N (items_ld m) = Ok r /\ dset "tobs" (PFloat N tobs) r = completed N tobs (items_ld m).
Proof.
  intros V. unfold meta_new. replace (forallb (meta_item_valid N) (items_ld m)) with true.
  - eexists. split; [reflexivity|]. unfold completed. f_equal. apply set_defaults.
    unfold reserved_keys. repeat (apply NoDup_cons; [cbn; intuition discriminate|]). apply NoDup_nil.
  - symmetry. apply forallb_forall. intros kv H. apply in_map_iff in H as (y & <- & Hy). apply valid_ld.
    rewrite forallb_forall in V. auto.
Qed.
Lemma version_stamped v : stamped version v = Some (version_of version v).
Proof. unfold stamped, version_of. destruct v as [s|]; [destruct (String.eqb s "")|]; reflexivity. Qed.

Lemma all_values_good v : good v.
Proof.
  induction v using pv_rect'; intros S; cbn [savable] in S;
    try (eexists; split; reflexivity).
  - destruct (all_good l H S) as (js & E1 & E2). exists (JArr N js). cbn [encode decode]. unfold all_enc, all_dec in *.
    rewrite E1. split; [reflexivity|]. rewrite E2. reflexivity.
  - destruct (all_good l H S) as (js & E1 & E2). exists (JArr N js). cbn [encode decode]. unfold all_enc, all_dec in *.
    rewrite E1. split; [reflexivity|]. rewrite E2. reflexivity.
  - destruct S as [S1 S2]. destruct (dict_good l H S1 S2) as (js & E1 & E2). exists (JObj N js). split; [|exact E2].
    cbn [encode]. unfold items_enc in E1. rewrite E1. reflexivity.
  - destruct S as [S1 S2]. destruct (dict_good l H S1 S2) as (js & E1 & E2). exists (JObj N js). split; [|exact E2].
    cbn [encode]. unfold items_enc in E1. rewrite E1. reflexivity.
  - exists (enc_nd N a). split; [reflexivity|]. now apply size_nd.
  - destruct S as (S1 & n & S2). eexists. split; [reflexivity|]. pose proof (size_nd a S1) as E.
    assert (C : all_dec (map (JStr N) c) = Ok (map (PStr N) c)).
    { clear. induction c as [|z l IH]; [reflexivity|]. unfold all_dec in *. cbn [map]. cbn [decode]. cbn [bind]. rewrite IH. reflexivity. }
    unfold all_dec in C. remember (enc_nd N a) as e. cbn [decode bind]. rewrite E. cbn [bind]. rewrite C. cbn [bind dset].
    cbn -[mapM map nd_shape Z.eqb].
    assert (M : mapM (fun x : pv => match x with PStr _ z => Ok z | _ => Err TypeError end) (map (PStr N) c) = Ok c).
    { clear. induction c as [|z l IH]; [reflexivity|]. cbn. rewrite IH. reflexivity. }
    rewrite M. cbn [bind]. change (nd_shape (read_only a)) with (nd_shape a). rewrite S2, Z.eqb_refl. reflexivity.
  - destruct S as (S1 & S2 & S3 & S4 & S5). destruct (dict_good l H S3 S4) as (js & E1 & E2).
    eexists. split; [cbn [encode]; unfold items_enc in E1; rewrite E1; reflexivity|].
    pose proof (size_nd a S1) as E. unfold tagged. remember (enc_nd N a) as e. remember (JObj N js) as o.
    cbn [decode app bind]. rewrite E, E2. cbn. unfold series_from_dict. cbn. rewrite S2. cbn.
    destruct (series_meta l (o_mul n_dbl (o_ofZ n_dbl (size (nd_shape a))) t) S5) as (r & F1 & F2).
    rewrite F1. cbn [bind]. change (fold_left Z.mul (nd_shape a) 1) with (size (nd_shape a)). rewrite F2, version_stamped. reflexivity.
  - destruct S as (S1 & S2 & S3 & S4 & S5 & S6).
    destruct (IHv1 S1) as (j1 & A1 & B1). destruct (IHv2 S2) as (j2 & A2 & B2). destruct (IHv3 S3) as (j3 & A3 & B3).
    destruct (IHv4 S4) as (j4 & A4 & B4). destruct (IHv5 S5) as (j5 & A5 & B5).
    eexists. split; [cbn [encode]; rewrite A1; cbn [bind]; rewrite A2; cbn [bind]; rewrite A3; cbn [bind]; rewrite A4; cbn [bind]; rewrite A5; reflexivity|].
    unfold tagged. cbn [decode app bind]. rewrite B1; cbn [bind]. rewrite B2; cbn [bind]. rewrite B3; cbn [bind].
    rewrite B4; cbn [bind]. rewrite B5; cbn [bind]. cbn. rewrite version_stamped.
    destruct v5; try reflexivity. congruence.
  - destruct S as (S1 & S2 & S3 & S4).
    destruct (IHv1 S1) as (j1 & A1 & B1). destruct (IHv2 S2) as (j2 & A2 & B2). destruct (IHv3 S3) as (j3 & A3 & B3).
    destruct (IHv4 S4) as (j4 & A4 & B4).
    eexists. split; [cbn [encode]; rewrite A1; cbn [bind]; rewrite A2; cbn [bind]; rewrite A3; cbn [bind]; rewrite A4; reflexivity|].
    unfold tagged. cbn [decode app bind]. rewrite B1; cbn [bind]. rewrite B2; cbn [bind]. rewrite B3; cbn [bind].
    rewrite B4; cbn [bind]. cbn. rewrite version_stamped. reflexivity.
  - contradiction.
Qed.

Lemma stamp_versioned v : version <> ""%string -> exists s, stamped version v = Some s /\ s <> ""%string.
Proof.
  intros H. unfold stamped. destruct v as [s|]; [destruct (String.eqb_spec s "")|]; eexists; split; eauto; reflexivity.
Qed.
Lemma stamp_same v s : v = Some s -> s <> ""%string -> stamped version v = v.
Proof. intros -> H. unfold stamped. destruct (String.eqb_spec s ""); congruence. Qed.

Definition all_pl (l : list pv) : Prop :=
  (fix go (l : list pv) : Prop := match l with [] => True | x :: l' => plain N x /\ go l' end) l.
Definition items_pl (l : list (string * pv)) : Prop :=
  (fix go (l : list (string * pv)) : Prop := match l with [] => True | (_, x) :: l' => plain N x /\ go l' end) l.
Lemma all_pl_spec l : all_pl l <-> Forall (plain N) l.
Proof.
  induction l as [|x l IH]; [split; [constructor|easy]|]. split.
  - intros [H1 H2]. constructor; [exact H1|]. now apply IH.
  - intros H. inversion H; subst. split; [assumption|]. now apply IH.
Qed.
Lemma items_pl_spec l : items_pl l <-> Forall (fun kv => plain N (snd kv)) l.
Proof.
  induction l as [|(k, x) l IH]; [split; [constructor|easy]|]. split.
  - intros [H1 H2]. constructor; [exact H1|]. now apply IH.
  - intros H. inversion H; subst. split; [assumption|]. now apply IH.
Qed.
Lemma map_ld_same l : Forall (fun v => plain N v -> ld v = v) l -> Forall (plain N) l -> map ld l = l.
Proof. induction 1; intros F; [reflexivity|]. inversion F; subst. cbn. f_equal; auto. Qed.
Lemma items_ld_same l : Forall (fun kv => plain N (snd kv) -> ld (snd kv) = snd kv) l -> Forall (fun kv => plain N (snd kv)) l -> items_ld l = l.
Proof.
  unfold items_ld. induction 1 as [|(k, x) l H _ IH]; intros F; [reflexivity|]. inversion F; subst. cbn in *. f_equal; auto. f_equal; auto.
Qed.
Lemma dset_same {A} k (v : A) l : NoDup (map fst l) -> In (k, v) l -> dset k v l = l.
Proof.
  induction l as [|(k', v') l IH]; cbn; [tauto|]. intros D H. inversion D as [|? ? D1 D2]; subst. destruct (String.eqb_spec k k') as [->|Nk].
  - destruct H as [[= ->]|H]; [reflexivity|]. destruct D1. change k' with (fst (k', v)). now apply in_map.
  - destruct H as [[= -> ->]|H]; [congruence|]. f_equal. auto.
Qed.
Lemma read_only_same a : nd_write a = false -> read_only a = a.
Proof. destruct a. cbn. now intros ->. Qed.
Lemma existsb_in k (l : list string) : existsb (String.eqb k) l = true <-> In k l.
Proof.
  rewrite existsb_exists. split; [intros (y & Hy & E); apply String.eqb_eq in E; now subst|].
  intros Hy. exists k. split; [exact Hy|apply String.eqb_refl].
Qed.
Lemma plain_same v : plain N v -> ld v = v.
Proof.
  induction v using pv_rect'; intros P; cbn [plain] in P; try reflexivity; try contradiction; cbn [loaded].
  - f_equal. apply map_ld_same; [assumption|]. now apply all_pl_spec.
  - f_equal. apply items_ld_same; [assumption|]. now apply items_pl_spec.
  - f_equal. now apply read_only_same.
  - destruct P as [P1 P2]. rewrite read_only_same by exact P1. now rewrite P2.
  - destruct P as (P1 & P2 & (s & P3 & P3') & P4 & P5 & P6). rewrite read_only_same by exact P1. rewrite (stamp_same v s) by assumption.
    f_equal. fold items_ld. rewrite items_ld_same; [|assumption|now apply items_pl_spec]. unfold completed.
    replace (filter _ _) with (@nil string).
    + cbn [map]. rewrite app_nil_r. now apply dset_same.
    + cbn [filter]. repeat match goal with |- context [existsb (String.eqb ?k) (map fst l)] =>
        replace (existsb (String.eqb k) (map fst l)) with true by (symmetry; apply existsb_in, P4; cbn; tauto) end. reflexivity.
  - destruct P as (P1 & P2 & P3 & P4 & P5 & (s & P6 & P6')). rewrite (stamp_same v6 s) by assumption. f_equal; auto.
  - destruct P as (P1 & P2 & P3 & P4 & (s & P6 & P6')). rewrite (stamp_same v5 s) by assumption. f_equal; auto.
Qed.

(** what was loaded is plain *)
Lemma dset_items {A} (P : A -> Prop) k v l : P v -> Forall (fun kv => P (snd kv)) l -> Forall (fun kv => P (snd kv)) (dset k v l).
Proof.
  intros Hv. induction 1 as [|(k', v') l H F IH]; cbn; [constructor; [exact Hv|constructor]|].
  destruct (String.eqb k k'); constructor; auto.
Qed.
Lemma completed_keys tobs m : map fst (completed N tobs m) = map fst (m ++ map (fun k => (k, PNone N))
       (filter (fun k => negb (existsb (String.eqb k) (map fst m))) ["source_name"; "skycoord"; "dm"; "mjd"; "tobs"; "fname"]))%list%string.
Proof.
  unfold completed. rewrite keys_dset. destruct in_dec as [|Nin]; [reflexivity|]. exfalso. apply Nin.
  rewrite map_app, in_app_iff, map_map. cbn [fst]. rewrite map_id.
  destruct (existsb (String.eqb "tobs") (map fst m)) eqn:E; [left; now apply existsb_in|right].
  apply filter_In. split; [cbn; tauto|]. now rewrite E.
Qed.
Lemma completed_full tobs m k : In k ["source_name"; "skycoord"; "dm"; "mjd"; "tobs"; "fname"]%string -> In k (map fst (completed N tobs m)).
Proof.
  intros H. rewrite completed_keys, map_app, in_app_iff, map_map. cbn [fst]. rewrite map_id.
  destruct (existsb (String.eqb k) (map fst m)) eqn:E; [left; now apply existsb_in|right].
  apply filter_In. split; [exact H|]. now rewrite E.
Qed.
Lemma completed_nodup tobs m : NoDup (map fst m) -> NoDup (map fst (completed N tobs m)).
Proof.
  intros D. rewrite completed_keys, map_app, map_map. cbn [fst]. rewrite map_id.
  assert (R : NoDup (filter (fun k => negb (existsb (String.eqb k) (map fst m))) ["source_name"; "skycoord"; "dm"; "mjd"; "tobs"; "fname"]%string)).
  { apply NoDup_filter. repeat (apply NoDup_cons; [cbn; intuition discriminate|]). apply NoDup_nil. }
  assert (X : forall k, In k (filter (fun k => negb (existsb (String.eqb k) (map fst m))) ["source_name"; "skycoord"; "dm"; "mjd"; "tobs"; "fname"]%string) -> ~ In k (map fst m)).
  { intros k H. apply filter_In in H as [_ H]. rewrite <- existsb_in. apply negb_true_iff in H. now rewrite H. }
  revert X. generalize (filter (fun k => negb (existsb (String.eqb k) (map fst m))) ["source_name"; "skycoord"; "dm"; "mjd"; "tobs"; "fname"]%string) R. clear R.
  intros r R X. induction (map fst m) as [|k l IH]; [exact R|]. inversion D; subst. cbn. constructor.
  - rewrite in_app_iff. intros [H|H]; [contradiction|]. apply (X k H). now left.
  - apply IH; [assumption|]. intros k' H' F. apply (X k' H'). now right.
Qed.
Lemma lookup_some_in {A} k (v : A) l : lookup k l = Some v -> In (k, v) l.
Proof.
  induction l as [|(k', v') l IH]; cbn; [discriminate|]. destruct (String.eqb_spec k k') as [->|]; [intros [= ->]; now left|]. intros; right; auto.
Qed.
Lemma completed_tobs tobs m : In ("tobs"%string, PFloat N tobs) (completed N tobs m).
Proof. apply lookup_some_in. unfold completed. rewrite lookup_dset. reflexivity. Qed.
Lemma completed_items (P : pv -> Prop) tobs m : P (PFloat N tobs) -> P (PNone N) -> Forall (fun kv => P (snd kv)) m ->
  Forall (fun kv => P (snd kv)) (completed N tobs m).
Proof.
  intros H1 H2 H. unfold completed. apply dset_items; [exact H1|]. apply Forall_app. split; [exact H|].
  apply Forall_forall. intros kv I. apply in_map_iff in I as (k & <- & _). exact H2.
Qed.
Lemma items_sv_spec l : items_sv l <-> Forall (fun kv => sv (snd kv)) l.
Proof.
  induction l as [|(k, x) l IH]; [split; [constructor|easy]|]. split.
  - intros [H1 H2]. constructor; [exact H1|]. now apply IH.
  - intros H. inversion H; subst. split; [assumption|]. now apply IH.
Qed.
Lemma all_sv_spec l : all_sv l <-> Forall sv l.
Proof.
  induction l as [|x l IH]; [split; [constructor|easy]|]. split.
  - intros [H1 H2]. constructor; [exact H1|]. now apply IH.
  - intros H. inversion H; subst. split; [assumption|]. now apply IH.
Qed.
Lemma Forall_ld (P Q : pv -> Prop) l : Forall (fun v => P v -> Q (ld v)) l -> Forall P l -> Forall Q (map ld l).
Proof. induction 1; intros F; inversion F; subst; cbn; constructor; auto. Qed.
Lemma Forall_items_ld (P Q : pv -> Prop) l : Forall (fun kv => P (snd kv) -> Q (ld (snd kv))) l -> Forall (fun kv => P (snd kv)) l ->
  Forall (fun kv => Q (snd kv)) (items_ld l).
Proof. induction 1; intros F; inversion F; subst; cbn; constructor; auto. Qed.

Lemma loaded_plain v : version <> ""%string -> sv v -> plain N (ld v).
Proof.
  intros V. induction v using pv_rect'; intros S; cbn [savable] in S; cbn [loaded plain]; try exact I; try contradiction.
  - apply all_pl_spec. apply (Forall_ld sv); [assumption|]. now apply all_sv_spec.
  - apply all_pl_spec. apply (Forall_ld sv); [assumption|]. now apply all_sv_spec.
  - apply items_pl_spec. apply (Forall_items_ld sv); [assumption|]. now apply items_sv_spec.
  - apply items_pl_spec. apply (Forall_items_ld sv); [assumption|]. now apply items_sv_spec.
  - reflexivity.
  - split; reflexivity.
  - destruct S as (S1 & S2 & S3 & S4 & S5). fold items_ld. repeat split.
    + apply items_pl_spec. apply completed_items; [exact I|exact I|]. apply (Forall_items_ld sv); [assumption|]. now apply items_sv_spec.
    + now apply stamp_versioned.
    + apply completed_full.
    + apply completed_nodup. rewrite keys_ld. apply S3.
    + apply completed_tobs.
  - intuition auto using stamp_versioned.
  - intuition auto using stamp_versioned.
Qed.

Definition all_tm (l : list pv) : Prop :=
  (fix go (l : list pv) : Prop := match l with [] => True | x :: l' => timed N x /\ go l' end) l.
Definition items_tm (l : list (string * pv)) : Prop :=
  (fix go (l : list (string * pv)) : Prop := match l with [] => True | (_, x) :: l' => timed N x /\ go l' end) l.
Lemma all_tm_spec l : all_tm l <-> Forall (timed N) l.
Proof.
  induction l as [|x l IH]; [split; [constructor|easy]|]. split.
  - intros [H1 H2]. constructor; [exact H1|]. now apply IH.
  - intros H. inversion H; subst. split; [assumption|]. now apply IH.
Qed.
Lemma items_tm_spec l : items_tm l <-> Forall (fun kv => timed N (snd kv)) l.
Proof.
  induction l as [|(k, x) l IH]; [split; [constructor|easy]|]. split.
  - intros [H1 H2]. constructor; [exact H1|]. now apply IH.
  - intros H. inversion H; subst. split; [assumption|]. now apply IH.
Qed.
Lemma Forall_ld2 (P T Q : pv -> Prop) l : Forall (fun v => P v -> T v -> Q (ld v)) l -> Forall P l -> Forall T l -> Forall Q (map ld l).
Proof. induction 1; intros F G; inversion F; inversion G; subst; cbn; constructor; auto. Qed.
Lemma Forall_items_ld2 (P T Q : pv -> Prop) l : Forall (fun kv => P (snd kv) -> T (snd kv) -> Q (ld (snd kv))) l ->
  Forall (fun kv => P (snd kv)) l -> Forall (fun kv => T (snd kv)) l -> Forall (fun kv => Q (snd kv)) (items_ld l).
Proof. induction 1; intros F G; inversion F; inversion G; subst; cbn; constructor; auto. Qed.
Lemma completed_valid tobs m : meta_item_valid N ("tobs"%string, PFloat N tobs) = true -> forallb (meta_item_valid N) m = true ->
  forallb (meta_item_valid N) (completed N tobs m) = true.
Proof.
  intros H1 H2. unfold completed.
  assert (G : forall l, forallb (meta_item_valid N) l = true -> forallb (meta_item_valid N) (dset "tobs" (PFloat N tobs) l) = true).
  { induction l as [|(k', v') l IH]; intros H; cbn [dset forallb].
    - now rewrite H1.
    - destruct (String.eqb_spec "tobs" k') as [<-|Hk]; cbn [forallb] in *; apply andb_true_iff in H as [Ha Hb]; apply andb_true_iff; split; auto. }
  apply G. rewrite forallb_app. apply andb_true_iff. split; [exact H2|]. apply forallb_forall. intros kv I.
  apply in_map_iff in I as (k & <- & _). unfold meta_item_valid.
  repeat match goal with |- context [if ?b then _ else _] => destruct b end; reflexivity.
Qed.
Lemma valid_items_ld m : forallb (meta_item_valid N) m = true -> forallb (meta_item_valid N) (items_ld m) = true.
Proof.
  intros V. apply forallb_forall. intros kv H. apply in_map_iff in H as (y & <- & Hy). apply valid_ld.
  rewrite forallb_forall in V. auto.
Qed.
Lemma keys_ok_ld l : keys_ok N l -> keys_ok N (items_ld l).
Proof. unfold keys_ok. now rewrite keys_ld. Qed.
Lemma completed_not_type tobs m : ~ In "__type__"%string (map fst m) -> ~ In "__type__"%string (map fst (completed N tobs m)).
Proof.
  intros H. rewrite completed_keys, map_app, in_app_iff, map_map. cbn [fst]. rewrite map_id.
  intros [F|F]; [auto|]. apply filter_In in F as [F _]. cbn in F. intuition discriminate.
Qed.
Lemma loaded_savable v : sv v -> timed N v -> sv (ld v) /\ timed N (ld v).
Proof.
  induction v using pv_rect'; intros S T; cbn [savable timed] in S, T; cbn [loaded savable timed]; try (split; [assumption || exact I|exact I]); try contradiction.
  - apply all_sv_spec in S. apply all_tm_spec in T.
    assert (F : Forall (fun v => sv v /\ timed N v) (map ld l)) by (apply (Forall_ld2 sv (timed N)); assumption).
    split; [apply all_sv_spec|apply all_tm_spec]; eapply Forall_impl; [|exact F| |exact F]; cbn; tauto.
  - apply all_sv_spec in S. apply all_tm_spec in T.
    assert (F : Forall (fun v => sv v /\ timed N v) (map ld l)) by (apply (Forall_ld2 sv (timed N)); assumption).
    split; [apply all_sv_spec|apply all_tm_spec]; eapply Forall_impl; [|exact F| |exact F]; cbn; tauto.
  - destruct S as [S0 S]. apply items_sv_spec in S. apply items_tm_spec in T.
    assert (F : Forall (fun kv => sv (snd kv) /\ timed N (snd kv)) (items_ld l))
      by (apply (Forall_items_ld2 sv (timed N) (fun v => sv v /\ timed N v)); assumption).
    split; [split; [now apply keys_ok_ld|apply items_sv_spec]|apply items_tm_spec]; eapply Forall_impl; [|exact F| |exact F]; cbn; tauto.
  - destruct S as [S0 S]. apply items_sv_spec in S. apply items_tm_spec in T.
    assert (F : Forall (fun kv => sv (snd kv) /\ timed N (snd kv)) (items_ld l))
      by (apply (Forall_items_ld2 sv (timed N) (fun v => sv v /\ timed N v)); assumption).
    split; [split; [now apply keys_ok_ld|apply items_sv_spec]|apply items_tm_spec]; eapply Forall_impl; [|exact F| |exact F]; cbn; tauto.
  - destruct S as (S1 & S2 & S3 & S4 & S5). destruct T as [T1 T2]. fold items_ld.
    apply items_sv_spec in S4. apply items_tm_spec in T2.
    assert (F : Forall (fun kv => sv (snd kv) /\ timed N (snd kv)) (items_ld l))
      by (apply (Forall_items_ld2 sv (timed N) (fun v => sv v /\ timed N v)); assumption).
    apply (completed_items (fun v => sv v /\ timed N v) (o_mul n_dbl (o_ofZ n_dbl (size (nd_shape a))) t)) in F; [|split; exact I..].
    split; [|split; [exact T1|]].
    + split; [exact S1|]. split; [exact S2|]. split; [split|].
      * apply completed_nodup. rewrite keys_ld. apply S3.
      * apply completed_not_type. rewrite keys_ld. apply S3.
      * split; [apply items_sv_spec; eapply Forall_impl; [|exact F]; cbn; tauto|].
        apply completed_valid; [exact T1|]. now apply valid_items_ld.
    + apply items_tm_spec. eapply Forall_impl; [|exact F]; cbn; tauto.
  - assert (M : v5 <> PNone N -> ld v5 <> PNone N) by (destruct v5; cbn; congruence). intuition auto.
  - intuition auto.
Qed.
End Reload.

(** C54: every savable value can be saved, and loading the file gives [loaded v] *)
Theorem json_roundtrip N itemsize version v :
  savable N itemsize v -> reload N itemsize version v = Ok (loaded N version v).
Proof.
  intros S. destruct (all_values_good N itemsize version v S) as (j & E1 & E2). unfold reload. rewrite E1. exact E2.
Qed.
Print Assumptions json_roundtrip.

(** C54: the values that come back equal *)
Theorem json_roundtrip_exact N itemsize version v :
  savable N itemsize v -> plain N v -> reload N itemsize version v = Ok v.
Proof. intros S P. rewrite json_roundtrip by exact S. f_equal. now apply (plain_same N itemsize version). Qed.
Print Assumptions json_roundtrip_exact.

(** C54: once loaded, a value can be saved and loaded any number of times and stays equal *)
Theorem json_reload_stable N itemsize version v :
  version <> ""%string -> savable N itemsize v -> timed N v ->
  reload N itemsize version v = Ok (loaded N version v) /\
  reload N itemsize version (loaded N version v) = Ok (loaded N version v).
Proof.
  intros V S T. split; [now apply json_roundtrip|]. apply json_roundtrip_exact; [now apply loaded_savable|].
  now apply (loaded_plain N itemsize).
Qed.
Print Assumptions json_reload_stable.

(** the hypotheses hold for a candidate with its metadata, its table of peaks and its
    sub-integrations, and a time series *)
Definition sizes (s : string) : option nat :=
  if String.eqb s "float32" then Some 4%nat else if String.eqb s "float64" then Some 8%nat
  else if String.eqb s "int64" then Some 8%nat else None.
Definition bytes (n : nat) : list ascii := map (fun k => ascii_of_N (N.of_nat k)) (seq 0 n).
Definition table : nd := Nd "float64" [2; 3] (bytes 48) true.
Definition samples : nd := Nd "float32" [4] (bytes 16) true.
Definition tsmeta : list (string * pv numR) :=
  [("source_name", PStr numR "J0000+0000"); ("skycoord", PCoord numR (1 / 2)%R 3%R); ("dm", PFloat numR 10%R)]%string.
Definition product : pv numR :=
  PDict numR
    [("cand", PCand numR (PDict numR [("dm", PFloat numR 10%R); ("width", PNpInt numR 3)])
        (PMeta numR tsmeta None) (PFrame numR table ["period"; "width"; "snr"] ["float64"; "int64"; "float64"])
        (PArr numR table) None);
     ("series", PSeries numR samples 2%R tsmeta None);
     ("history", PList numR [PTuple numR [PInt numR 1; PBool numR true]; PNone numR])]%string.
Example json_roundtrip_ex : savable numR sizes product /\ timed numR product.
Proof.
  assert (A : nd_ok sizes table) by (exists 8%nat; repeat split; lia).
  assert (B : nd_ok sizes samples) by (exists 4%nat; repeat split; lia).
  assert (M : keys_ok numR tsmeta).
  { split; [repeat (apply NoDup_cons; [cbn; intuition discriminate|]); apply NoDup_nil|cbn; intuition discriminate]. }
  assert (V : forallb (meta_item_valid numR) tsmeta = true).
  { cbn. rewrite !andb_true_r. apply Rle_bool_true. lra. }
  split; cbn [savable timed product tsmeta].
  - repeat match goal with
    | |- _ /\ _ => split
    | |- True => exact I
    | |- nd_ok _ _ => assumption
    | |- keys_ok _ _ => split; [repeat (apply NoDup_cons; [cbn; intuition discriminate|]); apply NoDup_nil|cbn; intuition discriminate]
    | |- exists n, _ => exists 2; reflexivity
    | |- forallb _ _ = true => exact V
    | |- @eq string _ _ => reflexivity
    end.
  - repeat match goal with |- _ /\ _ => split | |- True => exact I end.
    cbn. apply Rlt_bool_true. lra.
Qed.

(** ** What does not come back equal *)

(** Metadata comes back as a plain dictionary, on its own and inside a candidate or a periodogram:
    serialization.py:66-76 is never reached for a subclass of dict *)
Theorem json_metadata_refuted N itemsize version :
  ~ (forall v w, savable N itemsize v -> reload N itemsize version v = Ok w -> w = v) /\
  forall l ver, savable N itemsize (PMeta N l ver) ->
    exists l', reload N itemsize version (PMeta N l ver) = Ok (PDict N l').
Proof.
  split.
  - intros H. specialize (H (PMeta N [] None) (PDict N [])). discriminate H; [|reflexivity].
    cbn. repeat split; [apply NoDup_nil|tauto].
  - intros l ver S. rewrite json_roundtrip by exact S. eexists. reflexivity.
Qed.
Print Assumptions json_metadata_refuted.

(** a tuple comes back as a list, a numpy scalar as a Python one *)
Theorem json_tuple_refuted N itemsize version l : savable N itemsize (PTuple N l) ->
  exists w, reload N itemsize version (PTuple N l) = Ok w /\ w <> PTuple N l.
Proof. intros S. rewrite json_roundtrip by exact S. eexists. split; [reflexivity|]. discriminate. Qed.
Print Assumptions json_tuple_refuted.

(** a dictionary of strings that has a "__type__" key is saved but cannot be loaded, or comes back
    as something else *)
Theorem json_type_key_refuted N itemsize version :
  (exists j, encode N version (PDict N [("__type__", PStr N "pulsar")]%string) = Ok j /\ decode N itemsize version j = Err AttributeError) /\
  (exists j, encode N version (PDict N [("__type__", PStr N "numpy.ndarray")]%string) = Ok j /\ decode N itemsize version j = Err KeyError) /\
  (exists m, reload N itemsize version (PDict N [("__type__", PStr N "Metadata"); ("note", PStr N "x")]%string) = Ok (PMeta N m (Some version))).
Proof.
  split; [eexists; split; reflexivity|]. split; [eexists; split; reflexivity|]. eexists. reflexivity.
Qed.
Print Assumptions json_type_key_refuted.

(** a table whose columns differ in type comes back with a single one *)
Theorem json_dataframe_dtypes_refuted N version :
  let v := PFrame N table ["period"; "width"; "snr"]%string ["float64"; "int64"; "float64"]%string in
  savable N sizes v /\ reload N sizes version v =
    Ok (PFrame N (read_only table) ["period"; "width"; "snr"]%string ["float64"; "float64"; "float64"]%string).
Proof.
  assert (S : savable N sizes (PFrame N table ["period"; "width"; "snr"]%string ["float64"; "int64"; "float64"]%string)).
  { split; [exists 8%nat; repeat split; lia|]. exists 2. reflexivity. }
  cbv zeta. split; [exact S|]. rewrite json_roundtrip by exact S. reflexivity.
Qed.
Print Assumptions json_dataframe_dtypes_refuted.

(** every loaded array is read-only, so that the in-place operations of a loaded TimeSeries fail *)
Theorem json_read_only_refuted N itemsize version a t m ver : savable N itemsize (PSeries N a t m ver) ->
  exists a' m' ver', reload N itemsize version (PSeries N a t m ver) = Ok (PSeries N a' t m' ver') /\
    nd_write a' = false /\ nd_data a' = nd_data a /\ nd_shape a' = nd_shape a /\ nd_dtype a' = nd_dtype a.
Proof. intros S. rewrite json_roundtrip by exact S. do 3 eexists. split; [reflexivity|]. repeat split. Qed.
Print Assumptions json_read_only_refuted.

(** a TimeSeries without samples has tobs 0, is saved, and cannot be loaded *)
Theorem json_empty_series_refuted version :
  let v := PSeries numR (Nd "float32" [0] [] true) 1%R
     [("source_name", PNone numR); ("skycoord", PNone numR); ("dm", PNone numR); ("mjd", PNone numR);
      ("tobs", PFloat numR 0%R); ("fname", PNone numR)]%string None in
  (exists j, encode numR version v = Ok j) /\ reload numR sizes version v = Err SchemaError.
Proof.
  cbv zeta. split; [eexists; reflexivity|]. cbn. unfold meta_new. cbn. rewrite Rlt_bool_false by lra. reflexivity.
Qed.
Print Assumptions json_empty_series_refuted.

(** an object without to_dict() is not saved *)
Theorem json_unknown_object N itemsize version n l :
  reload N itemsize version (POther N n) = Err TypeError /\
  reload N itemsize version (PList N (POther N n :: l)) = Err TypeError.
Proof. split; reflexivity. Qed.
Print Assumptions json_unknown_object.
