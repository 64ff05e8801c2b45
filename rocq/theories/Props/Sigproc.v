(** C55, C56, C70: SIGPROC files. *)
From Coq Require Import String Ascii List Arith ZArith Bool Lia Reals Lra.
From Flocq Require Import Core.
From Verif Require Import Base.Result Base.Num Model.Metadata Model.Sigproc Spec.SigprocFmt.
Import ListNotations.
Local Open Scope Z_scope.

(** ** bytes *)
Lemma byte_range a : 0 <= byte a < 256.
Proof. unfold byte. pose proof (N_ascii_bounded a). lia. Qed.
Lemma byte_byte_of z : 0 <= z < 256 -> byte (byte_of z) = z.
Proof. intros H. unfold byte, byte_of. rewrite N_ascii_embedding by lia. lia. Qed.
Lemma byte_of_byte a : byte_of (byte a) = a.
Proof. unfold byte, byte_of. rewrite N2Z.id. apply ascii_N_embedding. Qed.

Lemma le_bytes_length n z : List.length (le_bytes n z) = n.
Proof. revert z. induction n as [|n IH]; intros z; cbn; auto. Qed.
Lemma le_uint_bytes n z : le_uint (le_bytes n z) = z mod 256 ^ Z.of_nat n.
Proof.
  revert z. induction n as [|n IH]; intros z; [cbn; now rewrite Z.mod_1_r|].
  cbn [le_bytes le_uint]. rewrite IH, byte_byte_of by (apply Z.mod_pos_bound; lia).
  rewrite Nat2Z.inj_succ, Z.pow_succ_r by lia. rewrite Z.rem_mul_r by lia. reflexivity.
Qed.
Lemma le_uint_range l : 0 <= le_uint l < 256 ^ Z.of_nat (List.length l).
Proof.
  induction l as [|a l IH]; [cbn; lia|]. cbn [le_uint List.length]. pose proof (byte_range a).
  rewrite Nat2Z.inj_succ, Z.pow_succ_r by lia. lia.
Qed.
Lemma le_bytes_uint l : le_bytes (List.length l) (le_uint l) = l.
Proof.
  induction l as [|a l IH]; [reflexivity|]. cbn [le_uint List.length le_bytes]. pose proof (byte_range a).
  replace ((byte a + 256 * le_uint l) mod 256) with (byte a).
  2:{ rewrite Z.mul_comm, Z.mod_add by lia. now rewrite Z.mod_small. }
  replace ((byte a + 256 * le_uint l) / 256) with (le_uint l).
  2:{ rewrite Z.mul_comm, Z.div_add by lia. rewrite Z.div_small; lia. }
  now rewrite byte_of_byte, IH.
Qed.
Lemma int32_bytes z : - 2 ^ 31 <= z < 2 ^ 31 -> to_signed 32 (le_uint (le_bytes 4 z)) = z.
Proof.
  intros H. rewrite le_uint_bytes. change (256 ^ Z.of_nat 4) with (2 ^ 32). unfold to_signed.
  change (2 ^ (32 - 1)) with 2147483648. change (2 ^ 31) with 2147483648 in H. change (2 ^ 32) with 4294967296.
  destruct (Z.ltb_spec (z mod 4294967296) 2147483648).
  - destruct (Z_lt_le_dec z 0).
    + assert (z mod 4294967296 = z + 4294967296); [|lia]. symmetry. apply Z.mod_unique_pos with (q := -1); lia.
    + rewrite Z.mod_small in *; lia.
  - destruct (Z_lt_le_dec z 0).
    + assert (z mod 4294967296 = z + 4294967296); [|lia]. symmetry. apply Z.mod_unique_pos with (q := -1); lia.
    + rewrite Z.mod_small in *; lia.
Qed.
Lemma bytes_int32 l : List.length l = 4%nat -> le_bytes 4 (to_signed 32 (le_uint l)) = l /\
  - 2 ^ 31 <= to_signed 32 (le_uint l) < 2 ^ 31.
Proof.
  intros H. pose proof (le_uint_range l) as R. rewrite H in R. change (256 ^ Z.of_nat 4) with 4294967296 in R.
  unfold to_signed. change (2 ^ (32 - 1)) with 2147483648. change (2 ^ 31) with 2147483648. change (2 ^ 32) with 4294967296.
  split.
  - destruct (Z.ltb_spec (le_uint l) 2147483648).
    + rewrite <- H. apply le_bytes_uint.
    + rewrite <- (le_bytes_uint l) at 2. rewrite H. generalize (le_uint l). intros z.
      assert (G : forall n z k, le_bytes n (z + k * 256 ^ Z.of_nat n) = le_bytes n z).
      { clear. induction n as [|n IH]; intros z k; [reflexivity|]. cbn [le_bytes].
        rewrite Nat2Z.inj_succ, Z.pow_succ_r by lia.
        replace (z + k * (256 * 256 ^ Z.of_nat n)) with (z + (k * 256 ^ Z.of_nat n) * 256) by lia.
        rewrite Z.mod_add, Z.div_add by lia. now rewrite IH. }
      replace (z - 4294967296) with (z + (-1) * 256 ^ Z.of_nat 4) by (change (256 ^ Z.of_nat 4) with 4294967296; lia). apply G.
  - destruct (Z.ltb_spec (le_uint l) 2147483648); lia.
Qed.

(** ** UTF-8 *)
Lemma rng_spec lo hi x : rng lo hi x = true <-> lo <= x <= hi.
Proof. unfold rng. rewrite andb_true_iff, !Z.leb_le. tauto. Qed.

Lemma utf8_ok_app c l : scalar c -> utf8_ok (utf8 c ++ l) = utf8_ok l.
Proof.
  intros H. unfold scalar in H.
  assert (D : forall k, 0 <= c mod 64 < 64 /\ 0 <= c / 64 mod 64 < 64 /\ 0 <= c / k / 64 mod 64 + 64)
    by (intros; pose proof (Z.mod_pos_bound c 64); pose proof (Z.mod_pos_bound (c / 64) 64); pose proof (Z.mod_pos_bound (c / k / 64) 64); lia).
  unfold utf8. destruct (Z.ltb_spec c 128); [|destruct (Z.ltb_spec c 2048); [|destruct (Z.ltb_spec c 65536)]];
    cbn [map app utf8_ok].
  - rewrite byte_byte_of by lia. destruct (Z.ltb_spec c 128); [reflexivity|lia].
  - pose proof (Z.div_mod c 64). pose proof (Z.mod_pos_bound c 64).
    rewrite !byte_byte_of by lia. destruct (Z.ltb_spec (192 + c / 64) 128); [lia|].
    rewrite !(proj2 (rng_spec _ _ _)) by lia. reflexivity.
  - pose proof (Z.div_mod c 64). pose proof (Z.mod_pos_bound c 64). pose proof (Z.div_mod (c / 64) 64). pose proof (Z.mod_pos_bound (c / 64) 64).
    replace (c / 4096) with (c / 64 / 64) by (rewrite Z.div_div by lia; reflexivity).
    rewrite !byte_byte_of by lia. destruct (Z.ltb_spec (224 + c / 64 / 64) 128); [lia|].
    replace (rng 194 223 (224 + c / 64 / 64)) with false by (symmetry; unfold rng; apply andb_false_iff; right; apply Z.leb_gt; lia).
    rewrite (proj2 (rng_spec 224 239 _)) by lia. rewrite (proj2 (rng_spec 128 191 (128 + c mod 64))) by lia.
    rewrite (proj2 (rng_spec _ _ _)); [reflexivity|].
    destruct (Z.eqb_spec (224 + c / 64 / 64) 224), (Z.eqb_spec (224 + c / 64 / 64) 237); lia.
  - pose proof (Z.div_mod c 64). pose proof (Z.mod_pos_bound c 64). pose proof (Z.div_mod (c / 64) 64). pose proof (Z.mod_pos_bound (c / 64) 64).
    pose proof (Z.div_mod (c / 64 / 64) 64). pose proof (Z.mod_pos_bound (c / 64 / 64) 64).
    replace (c / 4096) with (c / 64 / 64) by (rewrite Z.div_div by lia; reflexivity).
    replace (c / 262144) with (c / 64 / 64 / 64) by (rewrite !Z.div_div by lia; reflexivity).
    rewrite !byte_byte_of by lia. destruct (Z.ltb_spec (240 + c / 64 / 64 / 64) 128); [lia|].
    replace (rng 194 223 _) with false by (symmetry; unfold rng; apply andb_false_iff; right; apply Z.leb_gt; lia).
    replace (rng 224 239 _) with false by (symmetry; unfold rng; apply andb_false_iff; right; apply Z.leb_gt; lia).
    rewrite (proj2 (rng_spec 240 244 _)) by lia. rewrite (proj2 (rng_spec 128 191 (128 + c mod 64))) by lia.
    rewrite (proj2 (rng_spec 128 191 (128 + c / 64 mod 64))) by lia.
    rewrite (proj2 (rng_spec _ _ _)); [reflexivity|].
    destruct (Z.eqb_spec (240 + c / 64 / 64 / 64) 240), (Z.eqb_spec (240 + c / 64 / 64 / 64) 244); lia.
Qed.

Lemma utf8_ok_spec l : utf8_ok l = true <-> is_text l.
Proof.
  split.
  - remember (List.length l) as n eqn:Hn. assert (Hle : (List.length l <= n)%nat) by lia. clear Hn. revert l Hle.
    induction n as [|n IH]; intros l Hle H.
    { destruct l; [|cbn in Hle; lia]. exists []. split; [constructor|reflexivity]. }
    destruct l as [|a l]; [exists []; split; [constructor|reflexivity]|].
    assert (NEXT : forall c m, scalar c -> a :: l = (utf8 c ++ m)%list -> (List.length m <= n)%nat -> utf8_ok m = true -> is_text (a :: l)).
    { intros c m Hc E L Hm. destruct (IH m L Hm) as (cs & F & ->). exists (c :: cs). split; [now constructor|]. rewrite E. reflexivity. }
    cbn [utf8_ok] in H. cbn [List.length] in Hle.
    destruct (Z.ltb_spec (byte a) 128) as [L|L].
    { pose proof (byte_range a). apply (NEXT (byte a) l); auto; [left; lia| |lia].
      unfold utf8. rewrite (proj2 (Z.ltb_lt _ _) L). cbn. now rewrite byte_of_byte. }
    destruct l as [|b l]; [discriminate|]. destruct (rng 194 223 (byte a)) eqn:R1.
    { apply rng_spec in R1. apply andb_true_iff in H as [H1 H2]. apply rng_spec in H1.
      apply (NEXT (64 * (byte a - 192) + (byte b - 128)) l); auto; [left; lia| |cbn [List.length] in Hle; lia].
      unfold utf8. destruct (Z.ltb_spec (64 * (byte a - 192) + (byte b - 128)) 128); [lia|].
      destruct (Z.ltb_spec (64 * (byte a - 192) + (byte b - 128)) 2048); [|lia].
      assert (E1 : (64 * (byte a - 192) + (byte b - 128)) / 64 = byte a - 192) by (symmetry; apply Z.div_unique with (r := byte b - 128); lia).
      assert (E2 : (64 * (byte a - 192) + (byte b - 128)) mod 64 = byte b - 128) by (symmetry; apply Z.mod_unique with (q := byte a - 192); lia).
      rewrite E1, E2. cbn [map app]. rewrite !Zplus_minus, !byte_of_byte. reflexivity. }
    destruct l as [|c l]; [discriminate|]. destruct (rng 224 239 (byte a)) eqn:R2.
    { apply rng_spec in R2. apply andb_true_iff in H as [H H2]. apply andb_true_iff in H as [H0 H1].
      apply rng_spec in H0. apply rng_spec in H1.
      set (x := byte a - 224). set (y := byte b - 128). set (z := byte c - 128).
      assert (RY : 0 <= y < 64) by (subst y; destruct (Z.eqb_spec (byte a) 224), (Z.eqb_spec (byte a) 237); lia).
      assert (RZ : 0 <= z < 64) by (subst z; lia). assert (RX : 0 <= x < 16) by (subst x; lia).
      assert (E1 : (64 * (64 * x + y) + z) / 64 = 64 * x + y) by (symmetry; apply Z.div_unique with (r := z); lia).
      assert (E2 : (64 * (64 * x + y) + z) mod 64 = z) by (symmetry; apply Z.mod_unique with (q := 64 * x + y); lia).
      assert (E3 : (64 * x + y) / 64 = x) by (symmetry; apply Z.div_unique with (r := y); lia).
      assert (E4 : (64 * x + y) mod 64 = y) by (symmetry; apply Z.mod_unique with (q := x); lia).
      assert (RV : scalar (64 * (64 * x + y) + z) /\ 2048 <= 64 * (64 * x + y) + z < 65536).
      { unfold scalar. subst x y z. destruct (Z.eqb_spec (byte a) 224), (Z.eqb_spec (byte a) 237); lia. }
      apply (NEXT (64 * (64 * x + y) + z) l); auto; [tauto| |cbn [List.length] in Hle; lia].
      unfold utf8. destruct (Z.ltb_spec (64 * (64 * x + y) + z) 128); [lia|]. destruct (Z.ltb_spec (64 * (64 * x + y) + z) 2048); [lia|].
      destruct (Z.ltb_spec (64 * (64 * x + y) + z) 65536); [|lia].
      replace ((64 * (64 * x + y) + z) / 4096) with ((64 * (64 * x + y) + z) / 64 / 64) by (rewrite Z.div_div by lia; reflexivity).
      rewrite E1, E2, E3, E4. subst x y z. cbn [map app]. rewrite !Zplus_minus, !byte_of_byte. reflexivity. }
    destruct l as [|d l]; [discriminate|].
    apply andb_true_iff in H as [H H2]. apply andb_true_iff in H as [H Hd]. apply andb_true_iff in H as [H Hc]. apply andb_true_iff in H as [Ha Hb].
    apply rng_spec in Ha. apply rng_spec in Hb. apply rng_spec in Hc. apply rng_spec in Hd.
    set (w := byte a - 240). set (x := byte b - 128). set (y := byte c - 128). set (z := byte d - 128).
    assert (RX : 0 <= x < 64) by (subst x; destruct (Z.eqb_spec (byte a) 240), (Z.eqb_spec (byte a) 244); lia).
    assert (RY : 0 <= y < 64) by (subst y; lia). assert (RZ : 0 <= z < 64) by (subst z; lia). assert (RW : 0 <= w < 5) by (subst w; lia).
    assert (E1 : (64 * (64 * (64 * w + x) + y) + z) / 64 = 64 * (64 * w + x) + y) by (symmetry; apply Z.div_unique with (r := z); lia).
    assert (E2 : (64 * (64 * (64 * w + x) + y) + z) mod 64 = z) by (symmetry; apply Z.mod_unique with (q := 64 * (64 * w + x) + y); lia).
    assert (E3 : (64 * (64 * w + x) + y) / 64 = 64 * w + x) by (symmetry; apply Z.div_unique with (r := y); lia).
    assert (E4 : (64 * (64 * w + x) + y) mod 64 = y) by (symmetry; apply Z.mod_unique with (q := 64 * w + x); lia).
    assert (E5 : (64 * w + x) / 64 = w) by (symmetry; apply Z.div_unique with (r := x); lia).
    assert (E6 : (64 * w + x) mod 64 = x) by (symmetry; apply Z.mod_unique with (q := w); lia).
    assert (RV : 65536 <= 64 * (64 * (64 * w + x) + y) + z < 1114112).
    { subst w x y z. destruct (Z.eqb_spec (byte a) 240), (Z.eqb_spec (byte a) 244); lia. }
    set (v := 64 * (64 * (64 * w + x) + y) + z) in *.
    apply (NEXT v l); auto; [right; lia| |cbn [List.length] in Hle; lia].
    unfold utf8. destruct (Z.ltb_spec v 128); [lia|]. destruct (Z.ltb_spec v 2048); [lia|]. destruct (Z.ltb_spec v 65536); [lia|].
    replace (v / 4096) with (v / 64 / 64) by (rewrite Z.div_div by lia; reflexivity).
    replace (v / 262144) with (v / 64 / 64 / 64) by (rewrite !Z.div_div by lia; reflexivity).
    rewrite E2, E1, E4, E3, E6, E5. subst w x y z. cbn [map app]. rewrite !Zplus_minus, !byte_of_byte. reflexivity.
  - intros (cs & F & ->). induction F as [|c cs H F IH]; [reflexivity|]. cbn [flat_map]. now rewrite utf8_ok_app.
Qed.

(** ** dictionaries *)
Lemma lookup_dset {A} k k' (v : A) d : lookup k (dset k' v d) = if String.eqb k k' then Some v else lookup k d.
Proof.
  induction d as [|(k1, v1) d IH]; cbn; [reflexivity|]. destruct (String.eqb_spec k' k1) as [->|N]; cbn.
  - now destruct (String.eqb k k1).
  - rewrite IH. destruct (String.eqb_spec k k1) as [->|N1]; [|reflexivity].
    destruct (String.eqb_spec k1 k'); [congruence|reflexivity].
Qed.
Lemma keys_dset {A} k (v : A) d :
  map fst (dset k v d) = if in_dec string_dec k (map fst d) then map fst d else (map fst d ++ [k])%list.
Proof.
  induction d as [|(k1, v1) d IH]; [reflexivity|]. cbn [dset map fst]. destruct (String.eqb_spec k k1) as [->|N].
  - destruct (in_dec string_dec k1 (k1 :: map fst d)) as [I|I]; [reflexivity|exfalso; apply I; now left].
  - cbn [map fst]. rewrite IH. destruct (in_dec string_dec k (map fst d)) as [I|I], (in_dec string_dec k (k1 :: map fst d)) as [J|J]; auto.
    + exfalso. apply J. now right.
    + exfalso. destruct J; [congruence|auto].
Qed.
Definition dict_of (items d : list (string * aval)) : list (string * aval) :=
  fold_left (fun d kv => dset (fst kv) (snd kv) d) items d.
Lemma dict_of_summarises items : summarises items (dict_of items []).
Proof.
  unfold summarises, last_value, first_keys, dict_of. split.
  - intros k. induction items as [|kv items IH] using rev_ind; [reflexivity|].
    rewrite fold_left_app, rev_app_distr. cbn [fold_left rev app lookup]. rewrite lookup_dset, IH. destruct kv. reflexivity.
  - induction items as [|kv items IH] using rev_ind; [reflexivity|].
    rewrite map_app, !fold_left_app. cbn [fold_left map]. rewrite keys_dset, IH. reflexivity.
Qed.
Lemma dset_new {A} k (v : A) d : ~ In k (map fst d) -> dset k v d = (d ++ [(k, v)])%list.
Proof.
  induction d as [|(k1, v1) d IH]; cbn; [reflexivity|]. intros H. destruct (String.eqb_spec k k1); [exfalso; auto|].
  rewrite IH; auto.
Qed.
Lemma dict_of_nodup items : NoDup (map fst items) -> dict_of items [] = items.
Proof.
  unfold dict_of. induction items as [|kv items IH] using rev_ind; [reflexivity|]. intros H.
  rewrite map_app in H. cbn in H. apply NoDup_remove in H as [H1 H2]. rewrite app_nil_r in *.
  rewrite fold_left_app. cbn. rewrite IH by exact H1. rewrite dset_new by exact H2. now destruct kv.
Qed.

(** ** reading what was written *)
Lemma skipn_pre {A} (a b : list A) : skipn (List.length a) (a ++ b) = b.
Proof. rewrite skipn_app, skipn_all, Nat.sub_diag. reflexivity. Qed.
Lemma unpack_app pre l post :
  unpack (pre ++ l ++ post) (List.length pre) (List.length l) = Ok (l, (List.length pre + List.length l)%nat).
Proof.
  unfold unpack, read. destruct (Z.ltb_spec (Z.of_nat (List.length l)) 0); [lia|]. rewrite Nat2Z.id, skipn_pre.
  rewrite firstn_app, firstn_all, Nat.sub_diag. cbn [firstn]. rewrite app_nil_r, Nat.eqb_refl. reflexivity.
Qed.
Lemma unpack_bytes pre n z post :
  unpack (pre ++ le_bytes n z ++ post) (List.length pre) n = Ok (le_bytes n z, (List.length pre + n)%nat).
Proof. rewrite <- (le_bytes_length n z) at 2 4. apply unpack_app. Qed.
Lemma length_chars s : List.length (list_ascii_of_string s) = String.length s.
Proof. induction s; cbn; auto. Qed.
Lemma read_str_app pre s post : text s ->
  read_str (pre ++ enc_str s ++ post) (List.length pre) = Ok (s, (List.length pre + List.length (enc_str s))%nat).
Proof.
  intros [T L]. unfold read_str, enc_str. rewrite <- app_assoc, unpack_bytes. cbn [bind].
  rewrite int32_bytes by lia. unfold read. destruct (Z.ltb_spec (Z.of_nat (String.length s)) 0); [lia|]. rewrite Nat2Z.id.
  replace (List.length pre + 4)%nat with (List.length (pre ++ le_bytes 4 (Z.of_nat (String.length s)))%list)
    by (rewrite app_length, le_bytes_length; reflexivity).
  replace (pre ++ le_bytes 4 (Z.of_nat (String.length s)) ++ list_ascii_of_string s ++ post)%list
    with ((pre ++ le_bytes 4 (Z.of_nat (String.length s))) ++ list_ascii_of_string s ++ post)%list by now rewrite <- app_assoc.
  rewrite skipn_pre. rewrite firstn_app, length_chars, Nat.sub_diag. cbn [firstn]. rewrite app_nil_r.
  rewrite <- (length_chars s), firstn_all. rewrite (proj2 (utf8_ok_spec _) T). cbn [guard bind].
  rewrite string_of_list_ascii_of_string, length_chars. do 2 f_equal. rewrite !app_length, !le_bytes_length, length_chars. lia.
Qed.

Lemma read_attribute_app db pre k v post : item_ok db (k, v) ->
  read_attribute db (pre ++ enc_item (k, v) ++ post) (List.length pre) =
  Ok (k, Some v, (List.length pre + List.length (enc_item (k, v)))%nat).
Proof.
  intros (T & NE & t & K & V). cbn [fst snd] in *. unfold enc_item. cbn [fst snd]. rewrite <- app_assoc.
  unfold read_attribute. rewrite read_str_app by exact T. cbn [bind].
  destruct (String.eqb_spec k "HEADER_END") as [E|_]; [contradiction|]. rewrite K.
  rewrite app_assoc. rewrite <- (app_length pre (enc_str k)). rewrite (app_length (enc_str k)).
  destruct t, v as [s|z|b|b]; cbn in V; try contradiction; cbn [enc_val].
  - rewrite read_str_app by exact V. cbn [bind]. rewrite app_length, Nat.add_assoc. reflexivity.
  - rewrite unpack_bytes. cbn [bind]. rewrite int32_bytes by lia. rewrite app_length, le_bytes_length, Nat.add_assoc. reflexivity.
  - rewrite unpack_bytes. cbn [bind]. rewrite le_uint_bytes, Z.mod_small by (change (256 ^ Z.of_nat 8) with (2 ^ 64); lia).
    rewrite app_length, le_bytes_length, Nat.add_assoc. reflexivity.
  - rewrite (unpack_app _ [byte_of (if b then 1 else 0)]). cbn [bind le_uint List.length].
    rewrite byte_byte_of by (destruct b; lia). rewrite app_length, Nat.add_assoc. destruct b; reflexivity.
Qed.
Lemma enc_str_length s : List.length (enc_str s) = (4 + String.length s)%nat.
Proof. unfold enc_str. now rewrite app_length, le_bytes_length, length_chars. Qed.

Lemma text_ascii s : forallb (fun a => byte a <? 128) (list_ascii_of_string s) = true ->
  Z.of_nat (String.length s) < 2 ^ 31 -> text s.
Proof.
  intros H L. split; [|exact L]. apply utf8_ok_spec. induction (list_ascii_of_string s) as [|a l IH]; [reflexivity|].
  cbn in H. apply andb_true_iff in H as [H1 H2]. cbn [utf8_ok]. rewrite H1. auto.
Qed.
Lemma text_end : text "HEADER_END". Proof. apply text_ascii; reflexivity. Qed.
Lemma text_start : text "HEADER_START". Proof. apply text_ascii; reflexivity. Qed.

Lemma read_attributes_app db items pre post attrs fuel :
  Forall (item_ok db) items -> (List.length items < fuel)%nat ->
  read_attributes fuel db (pre ++ (flat_map enc_item items ++ enc_str "HEADER_END") ++ post) (List.length pre) attrs =
  Ok (dict_of items attrs, (List.length pre + List.length (flat_map enc_item items ++ enc_str "HEADER_END"))%nat).
Proof.
  revert pre attrs fuel. induction items as [|(k, v) items IH]; intros pre attrs fuel F L.
  - destruct fuel as [|fuel]; [lia|]. cbn [read_attributes flat_map app]. unfold read_attribute.
    rewrite read_str_app by exact text_end. cbn [bind]. reflexivity.
  - inversion F as [|? ? F1 F2]; subst. destruct fuel as [|fuel]; [lia|]. cbn [read_attributes flat_map].
    rewrite <- !app_assoc. rewrite read_attribute_app by exact F1. cbn [bind].
    rewrite <- app_length. rewrite (app_assoc pre). rewrite (app_assoc (flat_map _ _)). rewrite IH; [|exact F2|cbn in L; lia].
    unfold dict_of. cbn [fold_left fst snd]. do 2 f_equal. rewrite !app_length. lia.
Qed.

(** C55 (round trip): whatever attributes were written, in whatever order, and whatever follows
    the header, reading gives back the value of each key and the exact header size. *)
Theorem sigproc_header_roundtrip extra items payload :
  Forall (item_ok (keydb_of extra)) items ->
  exists attrs,
    read_sigproc_header (enc_header items ++ payload) extra = Ok (attrs, List.length (enc_header items)) /\
    summarises items attrs /\ (NoDup (map fst items) -> attrs = items).
Proof.
  intros F. exists (dict_of items []). split; [|split; [apply dict_of_summarises|apply dict_of_nodup]].
  unfold read_sigproc_header, enc_header. rewrite <- app_assoc.
  pose proof (read_str_app [] "HEADER_START" ((flat_map enc_item items ++ enc_str "HEADER_END") ++ payload)%list text_start) as R.
  cbn [app] in R. cbn [List.length] in R. change (0 + ?n)%nat with n in R. rewrite R. cbn [bind]. rewrite String.eqb_refl. cbn [guard bind].
  rewrite read_attributes_app; [now rewrite (app_length (enc_str _))|exact F|].
  enough (List.length items <= List.length (flat_map enc_item items))%nat by (rewrite !app_length; lia).
  clear. induction items as [|kv items IH]; [cbn; lia|]. cbn [flat_map List.length]. rewrite app_length. unfold enc_item at 1.
  rewrite app_length, enc_str_length. lia.
Qed.
Print Assumptions sigproc_header_roundtrip.

(** two attributes, one of them written twice, and 3 bytes of data *)
Definition ex_items : list (string * aval) :=
  [("nbits", AInt 8); ("source_name", AStr "PSR"); ("nbits", AInt (-32)); ("tsamp", AFloat 4607182418800017408); ("signed", ABool true)]%string.
Lemma ex_items_ok : Forall (item_ok (keydb_of [])) ex_items.
Proof.
  repeat constructor; try (apply text_ascii; reflexivity); try discriminate; cbn [fst snd].
  - exists TInt. cbn. split; [reflexivity|lia].
  - exists TStr. split; [reflexivity|]. apply text_ascii; reflexivity.
  - exists TInt. cbn. split; [reflexivity|lia].
  - exists TFloat. cbn. split; [reflexivity|lia].
  - exists TBool. split; [reflexivity|exact I].
Qed.
Example sigproc_header_roundtrip_ex :
  read_sigproc_header (enc_header ex_items ++ list_ascii_of_string "abc") [] =
  Ok ([("nbits", AInt (-32)); ("source_name", AStr "PSR"); ("tsamp", AFloat 4607182418800017408); ("signed", ABool true)]%string, 106%nat).
Proof. vm_compute. reflexivity. Qed.

(** ** every file *)
Lemma skipn_skipn {A} a b (l : list A) : skipn a (skipn b l) = skipn (a + b) l.
Proof.
  revert l. induction b as [|b IH]; intros l; [now rewrite Nat.add_0_r|]. rewrite Nat.add_succ_r. destruct l; [now rewrite !skipn_nil|].
  cbn. apply IH.
Qed.
Lemma unpack_inv f pos n l q : unpack f pos n = Ok (l, q) ->
  skipn pos f = (l ++ skipn q f)%list /\ List.length l = n /\ q = (pos + n)%nat /\ (n <> 0 -> q <= List.length f)%nat.
Proof.
  unfold unpack, read. destruct (Z.ltb_spec (Z.of_nat n) 0); [lia|]. rewrite Nat2Z.id.
  destruct (Nat.eqb_spec (List.length (firstn n (skipn pos f))) n) as [E|]; [|discriminate]. cbn [guard bind].
  intros H0. injection H0 as <- <-. repeat split; auto.
  - rewrite Nat.add_comm, <- skipn_skipn. now rewrite firstn_skipn.
  - intros. rewrite firstn_length, skipn_length in E. lia.
Qed.
Lemma unpack_total f pos n : unpack f pos n <> Loop /\ unpack f pos n <> UB.
Proof. unfold unpack. destruct (_ =? n)%nat; split; discriminate. Qed.
Lemma read_str_total f pos : read_str f pos <> Loop /\ read_str f pos <> UB.
Proof.
  unfold read_str. pose proof (unpack_total f pos 4). destruct (unpack f pos 4) as [(b, q)| | |]; cbn [bind]; try tauto; try (split; discriminate).
  destruct (utf8_ok _); split; discriminate.
Qed.
Lemma read_str_inv f pos s q : read_str f pos = Ok (s, q) ->
  exists size, - 2 ^ 31 <= size < 2 ^ 31 /\ is_text (list_ascii_of_string s) /\
    skipn pos f = (le_bytes 4 size ++ list_ascii_of_string s ++ skipn q f)%list /\
    q = (pos + 4 + String.length s)%nat /\ (q <= List.length f)%nat /\
    (size = Z.of_nat (String.length s) \/ q = List.length f /\ (size < 0 \/ Z.of_nat (String.length s) < size)).
Proof.
  unfold read_str. destruct (unpack f pos 4) as [(b, p1)| | |] eqn:U; cbn [bind]; try discriminate.
  destruct (utf8_ok _) eqn:T; cbn [guard bind]; [|discriminate]. intros H. injection H as <- <-.
  apply unpack_inv in U as (S1 & Lb & -> & B). specialize (B ltac:(lia)).
  destruct (bytes_int32 b Lb) as [Eb Rb]. set (size := to_signed 32 (le_uint b)) in *.
  exists size. split; [exact Rb|]. set (d := read f (pos + 4) size) in *.
  assert (Ed : list_ascii_of_string (string_of_list_ascii d) = d) by apply list_ascii_of_string_of_list_ascii.
  assert (Ld : String.length (string_of_list_ascii d) = List.length d) by (rewrite <- length_chars, Ed; reflexivity).
  rewrite Ed, Ld. split; [now apply utf8_ok_spec|].
  assert (D : skipn (pos + 4) f = (d ++ skipn (pos + 4 + List.length d) f)%list /\ (List.length d <= List.length f - (pos + 4))%nat /\
              (size = Z.of_nat (List.length d) \/ (pos + 4 + List.length d)%nat = List.length f /\ (size < 0 \/ Z.of_nat (List.length d) < size))).
  { assert (SK : (pos + 4 + List.length d = List.length d + (pos + 4))%nat) by lia. rewrite SK, <- (skipn_skipn (List.length d) (pos + 4)). clear SK. subst d. unfold read.
    pose proof (skipn_length (pos + 4) f) as SL.
    destruct (Z.ltb_spec size 0).
    - rewrite skipn_all, app_nil_r. split; [reflexivity|]. split; [lia|]. right. lia.
    - rewrite firstn_length. destruct (Nat.le_ge_cases (Z.to_nat size) (List.length (skipn (pos + 4) f))) as [L|L].
      + rewrite Nat.min_l by lia. rewrite firstn_skipn. split; [reflexivity|]. split; lia.
      + rewrite Nat.min_r by lia. rewrite firstn_all2 by lia. rewrite skipn_all, app_nil_r. split; [reflexivity|]. split; [lia|].
        destruct (Z.eq_dec size (Z.of_nat (List.length (skipn (pos + 4) f)))); [left; auto|right; lia]. }
  destruct D as (D1 & D2 & D3). split; [|split; [reflexivity|split; [lia|exact D3]]].
  rewrite S1, D1, Eb. reflexivity.
Qed.

Lemma read_attribute_total db f pos : read_attribute db f pos <> Loop /\ read_attribute db f pos <> UB.
Proof.
  unfold read_attribute. pose proof (read_str_total f pos). destruct (read_str f pos) as [(k, q)| | |]; cbn [bind]; try tauto; try (split; discriminate).
  destruct (String.eqb k _); [split; discriminate|]. destruct (db k) as [[]|]; try (split; discriminate);
  [pose proof (read_str_total f q) as R; destruct (read_str f q) as [(?, ?)| | |]
  |pose proof (unpack_total f q 4) as R; destruct (unpack f q 4) as [(?, ?)| | |]
  |pose proof (unpack_total f q 8) as R; destruct (unpack f q 8) as [(?, ?)| | |]
  |pose proof (unpack_total f q 1) as R; destruct (unpack f q 1) as [(?, ?)| | |]]; cbn [bind]; try tauto; split; discriminate.
Qed.

Lemma read_attribute_end db f pos k q : read_attribute db f pos = Ok (k, None, q) ->
  exists l, end_bytes l (skipn q f) /\ skipn pos f = (l ++ skipn q f)%list /\ (q <= List.length f)%nat.
Proof.
  unfold read_attribute. destruct (read_str f pos) as [(k1, q1)| | |] eqn:R; cbn [bind]; try discriminate.
  destruct (String.eqb_spec k1 "HEADER_END") as [E|NE].
  - intros H. injection H as <- <-. subst k1.
    apply read_str_inv in R as (size & Rs & T & S1 & Q & B & C). rewrite app_assoc in S1.
    eexists. split; [|split; [exact S1|exact B]]. destruct C as [->|[-> C]]; [now left|right].
    split; [apply skipn_all|]. exists size. split; [cbn in C; lia|reflexivity].
  - destruct (db k1) as [[]|]; try discriminate;
    [destruct (read_str f q1) as [(?, ?)| | |]|destruct (unpack f q1 4) as [(?, ?)| | |]
    |destruct (unpack f q1 8) as [(?, ?)| | |]|destruct (unpack f q1 1) as [(?, ?)| | |]]; cbn [bind]; discriminate.
Qed.

Lemma read_attribute_item db f pos k v q : read_attribute db f pos = Ok (k, Some v, q) ->
  (pos + 4 <= q <= List.length f)%nat /\
  (q = List.length f \/ item_ok db (k, v) /\ exists l, item_bytes (k, v) l /\ skipn pos f = (l ++ skipn q f)%list).
Proof.
  unfold read_attribute. destruct (read_str f pos) as [(k1, q1)| | |] eqn:R; cbn [bind]; try discriminate.
  destruct (String.eqb_spec k1 "HEADER_END") as [E|NE]; [discriminate|].
  apply read_str_inv in R as (size & Rs & T & S1 & Q & B & C).
  assert (K : q1 <> List.length f -> text k1 /\ skipn pos f = (enc_str k1 ++ skipn q1 f)%list).
  { intros N. destruct C as [->|[? _]]; [|contradiction]. split; [split; [exact T|lia]|].
    unfold enc_str. rewrite <- app_assoc. exact S1. }
  destruct (db k1) as [[]|] eqn:D; try discriminate.
  - destruct (read_str f q1) as [(s, q2)| | |] eqn:R2; cbn [bind]; try discriminate. intros H. injection H as <- <- <-.
    apply read_str_inv in R2 as (size2 & Rs2 & T2 & S2 & Q2 & B2 & C2). split; [lia|].
    destruct C2 as [->|[E _]]; [right|now left]. destruct K as [K1 K2]; [lia|]. split.
    + split; [exact K1|]. split; [exact NE|]. exists TStr. split; [exact D|]. split; [exact T2|lia].
    + exists (enc_str k1 ++ enc_str s)%list. split; [exists (enc_str s); split; reflexivity|].
      rewrite K2, S2. unfold enc_str. now rewrite <- !app_assoc.
  - destruct (unpack f q1 4) as [(b, q2)| | |] eqn:R2; cbn [bind]; try discriminate. intros H. injection H as <- <- <-.
    apply unpack_inv in R2 as (S2 & L2 & -> & B2). specialize (B2 ltac:(lia)). split; [lia|]. right.
    destruct K as [K1 K2]; [lia|]. destruct (bytes_int32 b L2) as [E2 Rb]. split.
    + split; [exact K1|]. split; [exact NE|]. exists TInt. split; [exact D|exact Rb].
    + exists (enc_str k1 ++ b)%list. split; [exists b; split; [|reflexivity]; symmetry; exact E2|].
      rewrite K2, S2. now rewrite <- !app_assoc.
  - destruct (unpack f q1 8) as [(b, q2)| | |] eqn:R2; cbn [bind]; try discriminate. intros H. injection H as <- <- <-.
    apply unpack_inv in R2 as (S2 & L2 & -> & B2). specialize (B2 ltac:(lia)). split; [lia|]. right.
    destruct K as [K1 K2]; [lia|]. pose proof (le_uint_range b) as Rb. rewrite L2 in Rb. split.
    + split; [exact K1|]. split; [exact NE|]. exists TFloat. split; [exact D|exact Rb].
    + exists (enc_str k1 ++ b)%list. split; [exists b; split; [|reflexivity]; cbn [snd val_bytes enc_val]|].
      * rewrite <- L2. symmetry. apply le_bytes_uint.
      * rewrite K2, S2. now rewrite <- !app_assoc.
  - destruct (unpack f q1 1) as [(b, q2)| | |] eqn:R2; cbn [bind]; try discriminate. intros H. injection H as <- <- <-.
    apply unpack_inv in R2 as (S2 & L2 & -> & B2). specialize (B2 ltac:(lia)). split; [lia|]. right.
    destruct K as [K1 K2]; [lia|]. split.
    + split; [exact K1|]. split; [exact NE|]. exists TBool. split; [exact D|exact I].
    + destruct b as [|a [|? ?]]; try discriminate. exists (enc_str k1 ++ [a])%list. split.
      * exists [a]. split; [|reflexivity]. exists a. split; [reflexivity|]. cbn [le_uint].
        replace (byte a + 256 * 0) with (byte a) by lia. destruct (Z.eqb_spec (byte a) 0); cbn; split; intros; congruence || (exfalso; auto).
      * rewrite K2, S2. now rewrite <- !app_assoc.
Qed.

Lemma read_attributes_inv db f fuel : forall pos attrs r n,
  read_attributes fuel db f pos attrs = Ok (r, n) ->
  exists items bodies last,
    r = dict_of items attrs /\ Forall (item_ok db) items /\ Forall2 item_bytes items bodies /\
    end_bytes last (skipn n f) /\ skipn pos f = (concat bodies ++ last ++ skipn n f)%list /\ (n <= List.length f)%nat.
Proof.
  induction fuel as [|fuel IH]; intros pos attrs r n H; [discriminate|]. cbn [read_attributes] in H.
  destruct (read_attribute db f pos) as [((k, v), q)| | |] eqn:R; cbn [bind] in H; try discriminate. destruct v as [v|].
  - apply read_attribute_item in R as [B [E|[I (l & Il & S1)]]].
    + exfalso. destruct fuel; [discriminate|]. cbn [read_attributes] in H. unfold read_attribute in H.
      destruct (read_str f q) as [(k1, q1)| | |] eqn:R; cbn [bind] in H; try discriminate.
      apply read_str_inv in R as (_ & _ & _ & _ & ? & ? & _). lia.
    + apply IH in H as (items & bodies & last & -> & F & F2 & EB & S2 & L).
      exists ((k, v) :: items), (l :: bodies), last. repeat split; auto. rewrite S1, S2. cbn [concat]. now rewrite <- !app_assoc.
  - injection H as <- <-. apply read_attribute_end in R as (l & E & S1 & L). exists [], [], l. repeat split; auto.
Qed.

Lemma read_attributes_total db f fuel : forall pos attrs, (List.length f - pos < fuel)%nat ->
  read_attributes fuel db f pos attrs <> Loop /\ read_attributes fuel db f pos attrs <> UB.
Proof.
  induction fuel as [|fuel IH]; intros pos attrs H; [lia|]. cbn [read_attributes].
  pose proof (read_attribute_total db f pos). destruct (read_attribute db f pos) as [((k, v), q)| | |] eqn:R; cbn [bind]; try tauto; try (split; discriminate).
  destruct v as [v|]; [|split; discriminate]. apply IH. apply read_attribute_item in R as [B _]. lia.
Qed.

(** C55 (termination): on every file, reading ends with a header or an exception. *)
Theorem sigproc_header_terminates f extra :
  (exists r, read_sigproc_header f extra = Ok r) \/ (exists e, read_sigproc_header f extra = Err e).
Proof.
  assert (T : read_sigproc_header f extra <> Loop /\ read_sigproc_header f extra <> UB).
  { unfold read_sigproc_header. pose proof (read_str_total f 0). destruct (read_str f 0) as [(k, q)| | |]; cbn [bind]; try tauto; try (split; discriminate).
    destruct (String.eqb k _); cbn [guard bind]; [|split; discriminate]. apply read_attributes_total. lia. }
  destruct (read_sigproc_header f extra); [left|right| |]; try tauto; eauto.
Qed.
Print Assumptions sigproc_header_terminates.
Example sigproc_header_terminates_ex :
  read_sigproc_header (enc_str "HEADER_START" ++ enc_str "nbits" ++ list_ascii_of_string "xy") [] = Err StructError /\
  read_sigproc_header (enc_str "HEADER_START" ++ enc_str "nobits") [] = Err KeyError /\
  read_sigproc_header (enc_str "HEADER") [] = Err AssertionError.
Proof. vm_compute. auto. Qed.

(** C55 (what is accepted): a file is accepted only if it starts with a header, the attributes
    returned are those in the header, and the size returned is that of the header. *)
Theorem sigproc_header_accepts f extra attrs n :
  read_sigproc_header f extra = Ok (attrs, n) ->
  (n <= List.length f)%nat /\
  exists items, is_header (keydb_of extra) items (firstn n f) (skipn n f) /\ summarises items attrs.
Proof.
  unfold read_sigproc_header. destruct (read_str f 0) as [(k, q)| | |] eqn:R; cbn [bind]; try discriminate.
  destruct (String.eqb_spec k "HEADER_START") as [->|]; cbn [guard bind]; [|discriminate]. intros H.
  apply read_str_inv in R as (size & Rs & T & S1 & Q & B & C).
  assert (Nq : q <> List.length f).
  { intros ->. cbn [read_attributes] in H. unfold read_attribute in H.
    destruct (read_str f (List.length f)) as [(k1, q1)| | |] eqn:R; cbn [bind] in H; try discriminate.
    apply read_str_inv in R as (_ & _ & _ & _ & ? & ? & _). lia. }
  destruct C as [->|[? _]]; [|contradiction].
  apply read_attributes_inv in H as (items & bodies & last & -> & F & F2 & EB & S2 & L).
  split; [exact L|]. exists items. split; [|apply dict_of_summarises]. split; [exact F|]. exists bodies, last. split; [exact F2|]. split; [exact EB|].
  apply (app_inv_tail (skipn n f)). rewrite firstn_skipn. cbn [skipn] in S1. rewrite S1 at 1. rewrite S2. unfold enc_str. now rewrite <- !app_assoc.
Qed.
Print Assumptions sigproc_header_accepts.

(** ... and every such file is accepted, so this describes exactly the files accepted. *)
Lemma item_bytes_enc db kv l : item_ok db kv -> item_bytes kv l -> forall pre post,
  read_attribute db (pre ++ l ++ post) (List.length pre) = Ok (fst kv, Some (snd kv), (List.length pre + List.length l)%nat).
Proof.
  destruct kv as (k, v). intros O (vb & V & ->) pre post. cbn [fst snd] in *.
  destruct v as [s|z|b|b]; try (rewrite V; change (enc_str k ++ enc_val ?v)%list with (enc_item (k, v)); now apply (read_attribute_app db)).
  destruct V as (a & -> & Ha). destruct O as (T & NE & t & K & Hv). cbn [fst snd] in *. destruct t; cbn in Hv; try contradiction.
  unfold read_attribute. rewrite <- app_assoc. rewrite read_str_app by exact T. cbn [bind].
  destruct (String.eqb_spec k "HEADER_END") as [E|_]; [contradiction|]. rewrite K.
  rewrite app_assoc. rewrite <- (app_length pre (enc_str k)). rewrite (unpack_app _ [a]). cbn [bind le_uint].
  replace (byte a + 256 * 0) with (byte a) by lia. rewrite !app_length, Nat.add_assoc.
  assert (E : negb (byte a =? 0) = b); [|now rewrite E].
  destruct (Z.eqb_spec (byte a) 0) as [E|E]; destruct b; cbn; auto; exfalso; [apply (proj1 Ha eq_refl); exact E|discriminate (proj2 Ha E)].
Qed.
Lemma end_bytes_enc db l rest : end_bytes l rest -> forall pre,
  read_attribute db (pre ++ l ++ rest) (List.length pre) = Ok ("HEADER_END"%string, None, (List.length pre + List.length l)%nat).
Proof.
  intros [->|(-> & size & Hs & ->)] pre; unfold read_attribute.
  - rewrite read_str_app by exact text_end. reflexivity.
  - unfold read_str. rewrite <- app_assoc, unpack_bytes. cbn [bind]. rewrite int32_bytes by lia.
    replace (List.length pre + 4)%nat with (List.length (pre ++ le_bytes 4 size)%list) by (rewrite app_length, le_bytes_length; reflexivity).
    rewrite (app_assoc pre (le_bytes 4 size)), app_nil_r.
    assert (E : read ((pre ++ le_bytes 4 size) ++ list_ascii_of_string "HEADER_END") (List.length (pre ++ le_bytes 4 size)) size = list_ascii_of_string "HEADER_END").
    { unfold read. rewrite skipn_pre. destruct (Z.ltb_spec size 0); [reflexivity|]. apply firstn_all2. cbn [List.length list_ascii_of_string]. lia. }
    rewrite E. cbn [guard bind]. replace (utf8_ok (list_ascii_of_string "HEADER_END")) with true by reflexivity. cbn [guard bind].
    rewrite string_of_list_ascii_of_string, String.eqb_refl. rewrite (app_length (le_bytes 4 size)), (app_length pre), Nat.add_assoc. reflexivity.
Qed.
Lemma read_attributes_bytes db items bodies last rest attrs :
  Forall (item_ok db) items -> Forall2 item_bytes items bodies -> end_bytes last rest ->
  forall fuel pre, (List.length items < fuel)%nat ->
  read_attributes fuel db (pre ++ (concat bodies ++ last) ++ rest) (List.length pre) attrs =
  Ok (dict_of items attrs, (List.length pre + List.length (concat bodies ++ last))%nat).
Proof.
  intros F F2 E. revert attrs. induction F2 as [|kv l items bodies B F2 IH]; intros attrs fuel pre L.
  - destruct fuel as [|fuel]; [lia|]. cbn [read_attributes concat app]. rewrite (end_bytes_enc db _ _ E). reflexivity.
  - inversion F as [|? ? F1 F3]; subst. destruct fuel as [|fuel]; [lia|]. cbn [read_attributes concat].
    rewrite <- !app_assoc. rewrite (item_bytes_enc db kv l F1 B). cbn [bind].
    rewrite <- app_length. rewrite (app_assoc pre). rewrite (app_assoc (concat bodies)). rewrite (IH F3); [|cbn in L; lia].
    unfold dict_of. cbn [fold_left fst snd]. do 2 f_equal. rewrite !app_length. lia.
Qed.
Theorem sigproc_header_complete extra items h rest :
  is_header (keydb_of extra) items h rest ->
  exists attrs, read_sigproc_header (h ++ rest) extra = Ok (attrs, List.length h) /\ summarises items attrs.
Proof.
  intros (F & bodies & last & F2 & E & ->). exists (dict_of items []). split; [|apply dict_of_summarises].
  unfold read_sigproc_header. rewrite <- app_assoc.
  pose proof (read_str_app [] "HEADER_START" ((concat bodies ++ last) ++ rest)%list text_start) as R.
  cbn [app] in R. cbn [List.length] in R. change (0 + ?n)%nat with n in R. rewrite R. cbn [bind]. rewrite String.eqb_refl. cbn [guard bind].
  rewrite (read_attributes_bytes _ items); [now rewrite (app_length (enc_str _))|exact F|exact F2|exact E|].
  enough (List.length items <= List.length (concat bodies))%nat by (rewrite !app_length; lia).
  clear - F2. induction F2 as [|kv l items bodies (vb & V & ->) F2 IH]; [cbn; lia|]. cbn [concat List.length]. rewrite !app_length.
  rewrite enc_str_length. lia.
Qed.
Print Assumptions sigproc_header_complete.
Example sigproc_header_complete_ex : exists h, is_header (keydb_of []) ex_items h [] /\ (List.length h = 106)%nat.
Proof.
  exists (enc_header ex_items). split; [|vm_compute; reflexivity]. split; [exact ex_items_ok|].
  exists (map enc_item ex_items), (enc_str "HEADER_END"). split; [|split; [now left|]].
  - repeat constructor; (eexists; split; [|reflexivity]); cbn; try reflexivity. eexists. split; [reflexivity|]. cbn. split; [discriminate|reflexivity].
  - unfold enc_header. now rewrite flat_map_concat_map.
Qed.

(** A header whose last string has a negative size is accepted: the reader does not insist on the
    documented layout. *)
Theorem sigproc_header_strict_refuted :
  ~ (forall f attrs n, read_sigproc_header f [] = Ok (attrs, n) -> exists items, firstn n f = enc_header items).
Proof.
  intros H. pose (f := (enc_str "HEADER_START" ++ le_bytes 4 (-1) ++ list_ascii_of_string "HEADER_END")%list).
  destruct (H f [] 30%nat) as (items & E); [vm_compute; reflexivity|].
  assert (L : List.length (enc_header items) = 30%nat) by (rewrite <- E; reflexivity).
  unfold enc_header in L. rewrite !app_length, !enc_str_length in L. cbn [String.length] in L.
  assert (items = []) as ->. { destruct items as [|(k, v) items]; [reflexivity|]. cbn [flat_map] in L. unfold enc_item in L. rewrite !app_length, enc_str_length in L. lia. }
  vm_compute in E. discriminate.
Qed.
Print Assumptions sigproc_header_strict_refuted.

(** ** coordinates *)
Local Open Scope R_scope.
Lemma divmod_R (x y : R) : divmod numR x y = (IZR (Zfloor (x / y)), x - IZR (Zfloor (x / y)) * y).
Proof. reflexivity. Qed.
Lemma divmod_split (q : Z) (r y : R) : 0 < y -> 0 <= r < y -> divmod numR (IZR q * y + r) y = (IZR q, r).
Proof.
  intros Hy Hr. rewrite divmod_R. replace (Zfloor ((IZR q * y + r) / y)) with q.
  - f_equal. ring.
  - symmetry. apply Zfloor_imp. rewrite plus_IZR. replace ((IZR q * y + r) / y) with (IZR q + r / y) by (field; lra).
    assert (0 <= r / y < 1); [|lra]. split; [apply Rmult_le_pos; [lra|left; now apply Rinv_0_lt_compat]|].
    apply Rmult_lt_reg_r with y; [lra|]. unfold Rdiv. rewrite Rmult_assoc, Rinv_l by lra. lra.
Qed.

(** C56: sign * (hh mm ss.s) is read as sign * (hh + mm/60 + ss.s/3600), in particular for
    coordinates between -1 and 0 degrees; minutes and seconds up to 99 are split the same way. *)
Theorem parse_float_coord_correct (negative : bool) (hh mm : Z) (ss : R) :
  (0 <= hh)%Z -> (0 <= mm < 100)%Z -> 0 <= ss < 100 ->
  let sign := if negative then -1 else 1 in
  parse_float_coord numR (sign * (10000 * IZR hh + 100 * IZR mm + ss)) =
  sign * (IZR hh + IZR mm / 60 + ss / 3600).
Proof.
  intros Hh Hm Hs sign. set (v := 10000 * IZR hh + 100 * IZR mm + ss).
  assert (Ih : 0 <= IZR hh) by now apply IZR_le. assert (Im : 0 <= IZR mm <= 99) by (split; apply IZR_le; lia).
  assert (V : 0 <= v) by (unfold v; lra).
  unfold parse_float_coord. rsimp.
  change (IZR 0) with 0.
  assert (S : (if Rlt_bool 0 (sign * v) then 1 else if Rlt_bool (sign * v) 0 then -1 else 0) * (IZR hh + IZR mm / 60 + ss / 3600) =
              sign * (IZR hh + IZR mm / 60 + ss / 3600)).
  { unfold sign. destruct negative.
    - rewrite Rlt_bool_false by lra. destruct (Rlt_bool_spec (-1 * v) 0) as [L|L]; [reflexivity|].
      assert (v = 0) by lra. unfold v in H. assert (IZR hh = 0 /\ IZR mm = 0 /\ ss = 0) as (-> & -> & ->) by lra. lra.
    - destruct (Rlt_bool_spec 0 (1 * v)) as [L|L]; [reflexivity|].
      assert (v = 0) by lra. unfold v in H. assert (IZR hh = 0 /\ IZR mm = 0 /\ ss = 0) as (-> & -> & ->) by lra. lra. }
  assert (A : (if Rlt_bool (sign * v) 0 then 0 - sign * v else sign * v) = IZR hh * 10000 + (100 * IZR mm + ss)).
  { unfold sign, v. destruct negative.
    - destruct (Rlt_bool_spec (-1 * (10000 * IZR hh + 100 * IZR mm + ss)) 0); lra.
    - rewrite Rlt_bool_false by (fold v; lra). lra. }
  match goal with |- context [divmod numR ?x _] => replace x with (IZR hh * 10000 + (100 * IZR mm + ss)) end.
  rewrite (divmod_split hh (100 * IZR mm + ss) 10000) by lra.
  replace (100 * IZR mm + ss) with (IZR mm * 100 + ss) by lra.
  rewrite (divmod_split mm ss 100) by lra. exact S.
Qed.
Print Assumptions parse_float_coord_correct.
Example parse_float_coord_ex : parse_float_coord numR (- 3015.5) = - (30 / 60 + 15.5 / 3600).
Proof.
  pose proof (parse_float_coord_correct true 0 30 (15.5) ltac:(lia) ltac:(lia) ltac:(lra)) as H. cbv beta iota zeta in H.
  replace (-3015.5) with (-1 * (10000 * 0 + 100 * 30 + 15.5)) by lra. rewrite H. lra.
Qed.

(** every input is covered by the theorem *)
Theorem parse_float_coord_total (f : R) :
  exists negative hh mm ss, (0 <= hh)%Z /\ (0 <= mm < 100)%Z /\ 0 <= ss < 100 /\
    f = (if negative : bool then -1 else 1) * (10000 * IZR hh + 100 * IZR mm + ss).
Proof.
  set (x := Rabs f). assert (X : 0 <= x) by apply Rabs_pos.
  set (hh := Zfloor (x / 10000)). set (r := x - 10000 * IZR hh). set (mm := Zfloor (r / 100)).
  pose proof (Zfloor_lb (x / 10000)) as A1. pose proof (Zfloor_ub (x / 10000)) as A2. fold hh in A1, A2.
  pose proof (Zfloor_lb (r / 100)) as B1. pose proof (Zfloor_ub (r / 100)) as B2. fold mm in B1, B2.
  assert (R0 : 0 <= r < 10000) by (unfold r; lra).
  exists (if Rlt_dec f 0 then true else false), hh, mm, (r - 100 * IZR mm). repeat split.
  - apply Zfloor_lub. lra.
  - apply Zfloor_lub. lra.
  - apply lt_IZR. lra.
  - lra.
  - lra.
  - replace (10000 * IZR hh + 100 * IZR mm + (r - 100 * IZR mm)) with x by (unfold r; lra).
    unfold x. destruct (Rlt_dec f 0); [rewrite Rabs_left by lra|rewrite Rabs_right by lra]; lra.
Qed.
Print Assumptions parse_float_coord_total.

(** ** the data *)
(** the samples in a payload of [w]-byte items *)
Definition holds_samples (w : nat) (value : list ascii -> R) (payload : list ascii) (data : list R) : Prop :=
  List.length data = (List.length payload / w)%nat /\
  forall i, (i < List.length data)%nat -> nth i data 0 = value (firstn w (skipn (i * w) payload)).

Lemma float32s_spec (ob32 : Z -> R) l : holds_samples 4 (fun b => ob32 (le_uint b)) l (float32s numR ob32 l).
Proof.
  remember (List.length l) as n eqn:Hn. assert (Hle : (List.length l <= n)%nat) by lia. clear Hn. revert l Hle.
  induction n as [|n IH]; intros l Hle.
  { destruct l; [|cbn in Hle; lia]. split; [reflexivity|]. cbn. lia. }
  destruct l as [|a [|b [|c [|d l]]]]; try (split; [reflexivity|cbn; lia]).
  destruct (IH l) as [IH1 IH2]; [cbn in Hle; lia|]. cbn [float32s]. split.
  - cbn [List.length]. rewrite IH1. change (S (S (S (S (List.length l))))) with (4 + List.length l)%nat.
    replace (4 + List.length l)%nat with (1 * 4 + List.length l)%nat by lia. rewrite Nat.div_add_l by lia. reflexivity.
  - intros [|i] Hi; [reflexivity|]. cbn [nth List.length] in *. rewrite IH2 by lia. reflexivity.
Qed.
Lemma int8s_spec signed l :
  holds_samples 1 (fun b => IZR (if signed : bool then to_signed 8 (le_uint b) else le_uint b)) l (int8s numR signed l).
Proof.
  unfold int8s. split; [rewrite map_length, Nat.div_1_r; reflexivity|]. intros i Hi. rewrite Nat.mul_1_r. rewrite map_length in Hi.
  revert l Hi. induction i as [|i IH]; intros [|a l] Hi; cbn in Hi; try lia.
  - cbn [map nth skipn firstn le_uint]. replace (byte a + 256 * 0)%Z with (byte a) by lia. reflexivity.
  - cbn [map nth skipn]. apply IH. lia.
Qed.

Lemma md_get_set {N} k k' (v : mval N) m : md_get k (md_set k' v m) = if String.eqb k k' then Some v else md_get k m.
Proof.
  induction m as [|(k1, v1) m IH]; cbn; [reflexivity|]. destruct (String.eqb_spec k' k1) as [->|NE]; cbn.
  - now destruct (String.eqb k k1).
  - rewrite IH. destruct (String.eqb_spec k k1) as [->|N1]; [|reflexivity].
    destruct (String.eqb_spec k1 k'); [congruence|reflexivity].
Qed.
Lemma md_get_in {N} k (v : mval N) m : md_get k m = Some v -> In (k, v) m.
Proof.
  induction m as [|(k1, v1) m IH]; cbn; [discriminate|]. destruct (String.eqb_spec k k1) as [->|]; [|auto].
  intros H. injection H as ->. now left.
Qed.
Lemma md_get_app {N} k (m m' : metadata N) : md_get k (m ++ m') = match md_get k m with Some v => Some v | None => md_get k m' end.
Proof. induction m as [|(k1, v1) m IH]; cbn; [reflexivity|]. now destruct (String.eqb k k1). Qed.
Lemma md_get_default {N} k k' (v w : mval N) m : md_get k m = Some v -> md_get k (md_default k' w m) = Some v.
Proof. intros H. unfold md_default. destruct (md_get k' m); [exact H|]. now rewrite md_get_app, H. Qed.
Lemma metadata_new_get {N} k (v : mval N) m m' : metadata_new m = Ok m' -> md_get k m = Some v ->
  md_get k m' = Some v /\ item_valid N (k, v) = true.
Proof.
  unfold metadata_new. destruct (forallb (item_valid N) m) eqn:F; cbn [guard bind]; [|discriminate]. intros H G. injection H as <-.
  split.
  - unfold reserved. cbn [fold_left]. repeat apply md_get_default. exact G.
  - rewrite forallb_forall in F. apply F. now apply md_get_in.
Qed.
Lemma md_get_attrs (ob : Z -> R) k a : @md_get numR k (map (fun kv => (fst kv, md_of numR ob (snd kv))) a) =
  match lookup k a with Some v => Some (md_of numR ob v) | None => None end.
Proof. induction a as [|(k1, v1) a IH]; cbn; [reflexivity|]. now destruct (String.eqb k k1). Qed.

(** C70: a SIGPROC file is loaded only if it holds one channel of 8 or 32 bits; then the time
    series has every complete sample after the header, in order, and the metadata give its
    length in seconds and the absolute path. *)
Theorem from_sigproc_correct (ob ob32 : Z -> R) skycoord realpath fname f extra data (tsamp : R) m :
  from_sigproc numR ob ob32 skycoord realpath fname f extra = Ok (data, tsamp, m) -> 0 < tsamp ->
  exists a n, read_sigproc_header f extra = Ok (a, n) /\
    lookup "nchans" a = Some (AInt 1) /\
    (exists b, lookup "tsamp" a = Some (AFloat b) /\ tsamp = ob b) /\
    (lookup "nbits" a = Some (AInt 32) /\ holds_samples 4 (fun b => ob32 (le_uint b)) (skipn n f) data \/
     lookup "nbits" a = Some (AInt 8) /\ exists s, lookup "signed" a = Some s /\
       forall b, s = ABool b ->
       holds_samples 1 (fun l => IZR (if b then to_signed 8 (le_uint l) else le_uint l)) (skipn n f) data) /\
    data <> [] /\
    md_get "tobs" m = Some (@MFloat numR (INR (List.length data) * tsamp)) /\
    md_get "fname" m = Some (@MStr numR (realpath fname)) /\
    (forall k v, lookup k a = Some v -> ~ In k ["dm"; "skycoord"; "mjd"; "fname"; "tobs"]%string -> md_get k m = Some (md_of numR ob v)) /\
    md_get "dm" m = Some (match lookup "refdm" a with Some v => md_of numR ob v | None => MNone end) /\
    md_get "mjd" m = Some (match lookup "tstart" a with Some v => md_of numR ob v | None => MNone end).
Proof.
  unfold from_sigproc. destruct (read_sigproc_header f extra) as [(a, n)| | |] eqn:RH; cbn [bind]; try discriminate.
  destruct (metadata_from_sigproc _ _ _ _ _ _ _ _) as [m0| | |] eqn:MD; cbn [bind]; try discriminate.
  destruct (get_int a "nbits") as [nb| | |] eqn:NB; cbn [bind]; try discriminate.
  destruct (get_float numR ob a "tsamp") as [ts| | |] eqn:TS; cbn [bind]; try discriminate.
  intros H Ht. injection H as <- <- <-. exists a, n. split; [reflexivity|].
  assert (Hn : (n <= List.length f)%nat) by now apply sigproc_header_accepts in RH.
  unfold metadata_from_sigproc in MD. destruct (get_int a "nchans") as [nc| | |] eqn:NC; cbn [bind] in MD; try discriminate.
  destruct (Z.ltb_spec 1 nc) as [|Hc]; cbn [negb guard bind] in MD; [discriminate|]. rewrite NB in MD. cbn [bind] in MD.
  destruct ((nb =? 8)%Z || (nb =? 32)%Z) eqn:E8; cbn [guard bind] in MD; [|discriminate].
  destruct (negb ((nb =? 8)%Z && _)) eqn:ES in MD; cbn [guard bind] in MD; [|discriminate].
  destruct (get_float numR ob a "src_raj") as [ra| | |]; cbn [bind] in MD; try discriminate.
  destruct (get_float numR ob a "src_dej") as [de| | |]; cbn [bind] in MD; try discriminate.
  destruct (skycoord _ _) as [c| | |]; cbn [bind] in MD; try discriminate.
  unfold tobs, nsamp, bytes_per_sample in MD. rewrite NC, NB, TS in MD. cbn [bind] in MD.
  change (floordiv (nc * nb) 8) with (Ok (nc * nb / 8)%Z) in MD. cbn [bind] in MD. unfold floordiv in MD.
  unfold get_int in NB, NC. destruct (lookup "nchans" a) as [[]|] eqn:LC; try discriminate. injection NC as ->.
  destruct (lookup "nbits" a) as [[]|] eqn:LB; try discriminate. injection NB as ->.
  unfold get_float in TS. destruct (lookup "tsamp" a) as [[]|] eqn:LT; try discriminate. injection TS as <-.
  destruct (Z.eqb_spec (nc * nb / 8) 0) as [|Hz]; cbn [bind] in MD; [discriminate|].
  set (ns := ((Z.of_nat (List.length f) - Z.of_nat n) / (nc * nb / 8))%Z) in *.
  assert (TO : md_get "tobs" m0 = Some (@MFloat numR (IZR ns * ob bits)) /\ 0 < IZR ns * ob bits).
  { destruct (metadata_new_get "tobs" (@MFloat numR (IZR ns * ob bits)) _ _ MD) as [G1 G2]; [rewrite md_get_set; reflexivity|].
    split; [exact G1|]. cbn [item_valid String.eqb Ascii.eqb Bool.eqb orb] in G2. revert G2. rsimp.
    destruct (Rlt_bool_spec 0 (IZR ns * ob bits)); [intros _; assumption|discriminate]. }
  destruct TO as [TO1 TO2].
  assert (NS : (0 < ns)%Z). { apply lt_IZR. apply Rmult_lt_reg_r with (ob bits); [exact Ht|]. lra. }
  assert (NB2 : nb = 8%Z \/ nb = 32%Z) by (apply orb_true_iff in E8; rewrite !Z.eqb_eq in E8; exact E8).
  assert (C1 : nc = 1%Z).
  { assert (D : (nc * nb / 8 = nc * (nb / 8))%Z) by (destruct NB2 as [-> | ->]; [rewrite Z.div_mul by lia; change (8 / 8)%Z with 1%Z; lia|
      replace (nc * 32)%Z with (nc * 4 * 8)%Z by lia; rewrite Z.div_mul by lia; change (32 / 8)%Z with 4%Z; lia]).
    destruct (Z_lt_le_dec (nc * nb / 8) 0) as [L|L].
    - exfalso. unfold ns in NS. rewrite <- Z.div_opp_opp in NS by lia.
      assert (- (Z.of_nat (List.length f) - Z.of_nat n) / - (nc * nb / 8) <= 0)%Z; [|lia].
      apply Z.div_le_upper_bound; lia.
    - destruct NB2 as [-> | ->]; [change (8 / 8)%Z with 1%Z in D|change (32 / 8)%Z with 4%Z in D]; lia. }
  subst nc. split; [reflexivity|]. split; [eauto|].
  assert (LP : (Z.of_nat (List.length (skipn n f)) = Z.of_nat (List.length f) - Z.of_nat n)%Z) by (rewrite skipn_length; lia).
  set (data := if (nb =? 8)%Z then _ else _).
  assert (D : (lookup "nbits" a = Some (AInt 32) /\ holds_samples 4 (fun b => ob32 (le_uint b)) (skipn n f) data \/
     lookup "nbits" a = Some (AInt 8) /\ exists s, lookup "signed" a = Some s /\
       forall b, s = ABool b ->
       holds_samples 1 (fun l => IZR (if b then to_signed 8 (le_uint l) else le_uint l)) (skipn n f) data) /\ Z.of_nat (List.length data) = ns).
  { destruct NB2 as [-> | ->].
    - subst data. rewrite Z.eqb_refl. split.
      + right. split; [exact LB|]. destruct (lookup "signed" a) as [s|]; [|discriminate]. exists s. split; [reflexivity|].
        intros b ->. apply int8s_spec.
      + unfold int8s. rewrite map_length. unfold ns. rewrite LP. change (1 * 8 / 8)%Z with 1%Z. now rewrite Z.div_1_r.
    - subst data. change (32 =? 8)%Z with false. cbv iota. destruct (float32s_spec ob32 (skipn n f)) as [F1 F2]. split.
      + left. split; [exact LB|]. split; assumption.
      + rewrite F1. unfold ns. rewrite Nat2Z.inj_div, LP. reflexivity. }
  destruct D as [D1 D2]. split; [rewrite <- LB; exact D1|]. split; [intros E; rewrite E in D2; cbn in D2; lia|].
  assert (EI : INR (List.length data) = IZR ns) by (rewrite INR_IZR_INZ; f_equal; exact D2).
  split; [rewrite TO1, <- EI; reflexivity|].
  split; [|split; [|split]].
  - eapply metadata_new_get; [exact MD|]. rewrite !md_get_set. reflexivity.
  - intros k v Hk Hin. eapply metadata_new_get; [exact MD|].
    assert (NE : forall k', In k' ["dm"; "skycoord"; "mjd"; "fname"; "tobs"]%string -> String.eqb k k' = false)
      by (intros k' I; apply String.eqb_neq; intros ->; auto).
    rewrite !md_get_set. rewrite !NE by (cbn; tauto).
    destruct (String.eqb_spec k "source_name") as [->|].
    + unfold md_or_none. rewrite !md_get_set. cbn [String.eqb Ascii.eqb Bool.eqb]. rewrite md_get_attrs, Hk. reflexivity.
    + rewrite !NE by (cbn; tauto). now rewrite md_get_attrs, Hk.
  - eapply metadata_new_get; [exact MD|]. rewrite !md_get_set. cbn [String.eqb Ascii.eqb Bool.eqb]. unfold md_or_none. rewrite md_get_attrs.
    now destruct (lookup "refdm" a).
  - eapply metadata_new_get; [exact MD|]. rewrite !md_get_set. cbn [String.eqb Ascii.eqb Bool.eqb]. unfold md_or_none. rewrite !md_get_set.
    cbn [String.eqb Ascii.eqb Bool.eqb]. rewrite md_get_attrs.
    now destruct (lookup "tstart" a).
Qed.
Print Assumptions from_sigproc_correct.

(** files with one channel of two 8-bit samples, and with -1 channels and a negative sampling time *)
Definition ex_header (nchans ts : Z) : list (string * aval) :=
  [("nchans", AInt nchans); ("nbits", AInt 8); ("signed", ABool true); ("tsamp", AFloat ts); ("src_raj", AFloat 0);
   ("src_dej", AFloat 0); ("refdm", AFloat 3)]%string.
Definition ex_sig (nchans ts : Z) : file := (enc_header (ex_header nchans ts) ++ [byte_of 255; byte_of 2])%list.
(** here 7 is the bit pattern of 7 and 8 that of -7 *)
Definition ex_bits (b : Z) : R := if (b =? 8)%Z then -7 else IZR b.
Definition ex_from (nchans ts : Z) :=
  from_sigproc numR ex_bits IZR (fun _ _ => Ok 0%nat) (fun s => s) "f" (ex_sig nchans ts) [].
Lemma ex_from_ok nchans ts : (nchans = 1 /\ ts = 7 \/ nchans = -1 /\ ts = 8)%Z ->
  exists m, ex_from nchans ts = Ok ([-1; 2], ex_bits ts, m) /\ md_get "tobs" m = Some (@MFloat numR (IZR (2 * nchans) * ex_bits ts)).
Proof.
  intros C. unfold ex_from, from_sigproc.
  replace (read_sigproc_header (ex_sig nchans ts) []) with
    (@Ok (list (string * aval) * nat) (ex_header nchans ts, List.length (enc_header (ex_header nchans ts))))
    by (destruct C as [[-> ->]|[-> ->]]; vm_compute; reflexivity).
  cbn [bind]. unfold metadata_from_sigproc. change (get_int (ex_header nchans ts) "nchans") with (@Ok Z nchans). cbn [bind].
  replace (1 <? nchans)%Z with false by (symmetry; apply Z.ltb_ge; lia). cbn [negb guard bind].
  change (get_int (ex_header nchans ts) "nbits") with (@Ok Z 8%Z). cbn [bind]. change (8 =? 8)%Z with true. cbn [orb andb guard bind].
  change (lookup "signed" (ex_header nchans ts)) with (Some (ABool true)). cbn [negb guard bind].
  change (get_float numR ex_bits (ex_header nchans ts) "src_raj") with (@Ok R 0).
  change (get_float numR ex_bits (ex_header nchans ts) "src_dej") with (@Ok R 0). cbn [bind].
  unfold tobs, nsamp, bytes_per_sample. change (get_int (ex_header nchans ts) "nchans") with (@Ok Z nchans).
  change (get_int (ex_header nchans ts) "nbits") with (@Ok Z 8%Z).
  change (get_float numR ex_bits (ex_header nchans ts) "tsamp") with (@Ok R (ex_bits ts)). cbn [bind].
  replace (floordiv (nchans * 8) 8) with (@Ok Z nchans) by (destruct C as [[-> ->]|[-> ->]]; reflexivity). cbn [bind].
  replace (floordiv _ nchans) with (@Ok Z (2 * nchans)%Z) by (destruct C as [[-> ->]|[-> ->]]; vm_compute; reflexivity). cbn [bind].
  assert (P : 0 < IZR (2 * nchans) * ex_bits ts) by (destruct C as [[-> ->]|[-> ->]]; cbv [ex_bits Z.eqb Pos.eqb Z.mul Pos.mul]; lra).
  unfold metadata_new. match goal with |- context [guard (forallb ?p ?l)] => replace (forallb p l) with true end.
  - cbn [guard bind]. 
    replace (skipn (List.length (enc_header (ex_header nchans ts))) (ex_sig nchans ts)) with [byte_of 255; byte_of 2]
      by (unfold ex_sig; now rewrite skipn_pre).
    eexists. split; [reflexivity|]. unfold reserved. cbn [fold_left]. do 6 apply md_get_default. rewrite md_get_set. reflexivity.
  - symmetry. apply forallb_forall. intros kv I. unfold md_or_none in I. cbn in I.
    repeat (destruct I as [<-|I]; [cbn; rsimp; rewrite ?Rlt_bool_true, ?Rle_bool_true by (exact P || unfold ex_bits; cbn; lra); reflexivity|]). destruct I.
Qed.
Example from_sigproc_ex : exists m, ex_from 1 7 = Ok ([-1; 2], 7, m) /\ md_get "tobs" m = Some (@MFloat numR (2 * 7)).
Proof. exact (ex_from_ok 1 7 ltac:(auto)). Qed.

(** Nothing checks the sampling time, and only an excess of channels is refused: with a negative
    sampling time a file claiming -1 channels is loaded. *)
Theorem from_sigproc_one_channel_refuted :
  ~ (forall ob ob32 skycoord realpath fname f extra data (tsamp : R) m,
       from_sigproc numR ob ob32 skycoord realpath fname f extra = Ok (data, tsamp, m) ->
       exists a n, read_sigproc_header f extra = Ok (a, n) /\ lookup "nchans" a = Some (AInt 1)).
Proof.
  intros H. destruct (ex_from_ok (-1) 8 ltac:(auto)) as (m & E & _). destruct (H _ _ _ _ _ _ _ _ _ _ E) as (a & n & R1 & L).
  vm_compute in R1. injection R1 as <- <-. discriminate.
Qed.
Print Assumptions from_sigproc_one_channel_refuted.
