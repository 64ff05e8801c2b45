(** C140: DMIterator in floating point. *)
From Coq Require Import String List Arith ZArith Bool Lia Reals Lra Sorted Permutation.
From Flocq Require Import Core.
From Verif Require Import Base.Result Base.Num Model.Cluster Model.Peaks Model.DmIter Spec.Smearing
  Proof.Cluster Proof.DmIter Proof.Downsample Proof.SearchFloat Proof.ClusterFloat Proof.RadiusFloat
  Props.Cluster Props.DownsampleFloat Props.DmIter Props.DmFloat.
Import ListNotations.
Local Open Scope R_scope.

Section Float.
Context (bld : build).
Local Notation NF := (numF bld).
Ltac fsimp := cbn [numF opsF n_dbl n_eqb n_ltb n_leb o_ofZ o_add o_sub o_mul o_div].
Ltac fsimp_all := cbn [numF opsF n_dbl n_eqb n_ltb n_leb o_ofZ o_add o_sub o_mul o_div] in *.
Ltac ftype := change (n_T NF) with R in *.

Lemma dict_get_set_f (k k' : R) (m : meta NF) d :
  dict_get NF k' (dict_set NF k m d) = if Req_bool k k' then Ok m else dict_get NF k' d.
Proof.
  induction d as [|[a v] d IH]; cbn.
  - fsimp. destruct (Req_bool_spec k' k), (Req_bool_spec k k'); auto; congruence.
  - fsimp. destruct (Req_bool_spec k a) as [->|Ne]; cbn; fsimp.
    + destruct (Req_bool_spec k' a) as [->|Ne'].
      * now rewrite Req_bool_true.
      * rewrite Req_bool_false; auto.
    + rewrite IH. destruct (Req_bool_spec k' a) as [->|Ne']; [now rewrite Req_bool_false|]. reflexivity.
Qed.

Lemma dict_keys_set_f (k k' : R) (m : meta NF) d :
  In k' (map fst (dict_set NF k m d)) <-> k' = k \/ In k' (map fst d).
Proof.
  induction d as [|[a v] d IH]; cbn; [intuition congruence|].
  fsimp. destruct (Req_bool_spec k a) as [->|Ne]; cbn.
  - intuition congruence.
  - rewrite IH. intuition congruence.
Qed.

Lemma dict_nodup_set_f (k : R) (m : meta NF) d : NoDup (map fst d) -> NoDup (map fst (dict_set NF k m d)).
Proof.
  induction d as [|[a v] d IH]; cbn; intros ND; [repeat constructor; auto|].
  fsimp. inversion ND; subst. destruct (Req_bool_spec k a) as [->|Ne]; cbn.
  - constructor; auto.
  - constructor; [|now apply IH]. rewrite dict_keys_set_f. intuition congruence.
Qed.

Definition last_file (l : list (meta NF)) (k : R) (m : meta NF) : Prop :=
  exists l1 l2, l = l1 ++ m :: l2 /\ m_dm m = k /\ forall m', In m' l2 -> m_dm m' <> k.

Lemma dict_of_spec_f (l : list (meta NF)) :
  NoDup (map fst (dict_of NF l)) /\
  (forall k, In k (map fst (dict_of NF l)) <-> In k (map m_dm l)) /\
  (forall k, In k (map m_dm l) -> exists m, dict_get NF k (dict_of NF l) = Ok m /\ last_file l k m) /\
  (forall k, ~ In k (map m_dm l) -> dict_get NF k (dict_of NF l) = Err KeyError).
Proof.
  induction l as [|m l IH] using rev_ind.
  { repeat split; try constructor; try easy. }
  unfold dict_of in *. rewrite fold_left_app, map_app. cbn [fold_left map].
  set (d := fold_left (fun d m => dict_set NF (m_dm m) m d) l []) in *.
  destruct IH as (I1 & I2 & I3 & I4). split; [now apply dict_nodup_set_f|].
  split.
  { intros k. rewrite dict_keys_set_f, I2, in_app_iff. cbn. intuition congruence. }
  split.
  - intros k Hk. rewrite dict_get_set_f. destruct (Req_bool_spec (m_dm m) k) as [E|E].
    + exists m. split; auto. exists l, []. repeat split; auto.
    + apply in_app_iff in Hk as [Hk|[Hk|[]]]; [|congruence].
      destruct (I3 k Hk) as (m' & G & l1 & l2 & -> & E' & N). exists m'. split; auto.
      exists l1, (l2 ++ [m]). split; [now rewrite <- app_assoc|]. split; auto.
      intros y Hy. apply in_app_iff in Hy as [Hy|[<-|[]]]; auto.
  - intros k Hk. rewrite dict_get_set_f. rewrite in_app_iff in Hk. cbn in Hk.
    rewrite Req_bool_neq by tauto. apply I4. tauto.
Qed.

Lemma chunks_from_spec_f (d : dmiter NF) (size : nat) : (1 <= size)%nat ->
  forall dms names, Forall2 (fun x s => get_filename NF d x = Ok s) dms names ->
  forall chunk, (length chunk < size)%nat ->
  exists chunks, chunks_from NF d size dms chunk = Ok chunks /\
    concat chunks = chunk ++ names /\ chunked size chunks.
Proof.
  intros HS dms names F. induction F as [|x s dms names E F IH]; intros chunk HC.
  - cbn. destruct (Nat.eqb_spec (length chunk) 0) as [Z|Z].
    + exists []. destruct chunk; [|discriminate]. repeat split; auto; destruct pre; discriminate.
    + exists [chunk]. split; [reflexivity|]. split; [cbn; now rewrite !app_nil_r|].
      intros pre c post H. destruct pre as [|? [|? ?]]; try discriminate. injection H as <- <-.
      split; [intros ->; now cbn in Z|]. split; [lia|congruence].
  - cbn [chunks_from]. unfold get_filename in E. ftype.
    destruct (dict_get NF x (di_dict d)) as [m| | |]; try discriminate. cbn [bind] in *.
    injection E as ->. rewrite app_length. cbn [length].
    destruct (Nat.eqb_spec (length chunk + 1) size) as [Z|Z].
    + destruct (IH []) as (cs & -> & C1 & C2); [cbn; lia|]. cbn [bind]. eexists. split; [reflexivity|].
      split; [cbn; rewrite C1; cbn; now rewrite <- app_assoc|].
      intros pre c post H. destruct pre as [|p pre]; cbn in H; injection H as H1 H2.
      * subst c post. split; [destruct chunk; discriminate|]. rewrite app_length. cbn. split; [lia|auto].
      * subst p. eapply C2. exact H2.
    + destruct (IH (chunk ++ [s])) as (cs & -> & C1 & C2); [rewrite app_length; cbn; lia|].
      exists cs. split; [reflexivity|]. split; [rewrite C1; now rewrite <- app_assoc|exact C2].
Qed.

Definition range_rounded abs_sin (l : list (meta NF)) (dm_start dm_end dmsinb_max : option R) (start stop : R) : Prop :=
  match dm_start with
  | Some a => start = a
  | None => (forall m, In m l -> start <= m_dm m) /\ exists m, In m l /\ start = m_dm m
  end /\
  exists e, match dm_end with
            | Some a => e = a
            | None => (forall m, In m l -> m_dm m <= e) /\ exists m, In m l /\ e = m_dm m
            end /\
    match dmsinb_max with
    | None => stop = e
    | Some c => exists m gb, In m l /\ gb = m_gb m /\
        if Req_bool (abs_sin gb) 0 then stop = e else stop = Rmin e (rnd64 (c / abs_sin gb))
    end.

Lemma fold_min_spec_f (ms : list (meta NF)) : forall a r : R,
  fold_left (fun a m => nmin2 NF a (m_dm m)) ms a = r ->
  r <= a /\ (forall m, In m ms -> r <= m_dm m) /\ (r = a \/ exists m, In m ms /\ r = m_dm m).
Proof.
  induction ms as [|m ms IH]; intros a r E; [cbn in E; subst r; repeat split; auto; [lra|easy]|].
  cbn in E. destruct (IH (nmin2 NF a (m_dm m)) r E) as (I1 & I2 & I3).
  assert (NM : nmin2 NF a (m_dm m) <= a /\ nmin2 NF a (m_dm m) <= m_dm m /\
    (nmin2 NF a (m_dm m) = a \/ nmin2 NF a (m_dm m) = m_dm m)).
  { unfold nmin2. fsimp. destruct (Rlt_bool_spec (m_dm m) a); repeat split; auto; lra. }
  destruct NM as (N1 & N2 & N3). ftype.
  split; [lra|]. split.
  - intros y [<-|Hy]; [lra|auto].
  - destruct I3 as [-> |(y & Hy & EY)]; [|right; exists y; split; [now right|exact EY]].
    destruct N3 as [N3|N3]; rewrite N3; [now left|right; exists m; split; [now left|auto]].
Qed.

Lemma fold_max_spec_f (ms : list (meta NF)) : forall a r : R,
  fold_left (fun (a : R) (m : meta NF) => if Rlt_bool a (m_dm m) then m_dm m else a) ms a = r ->
  a <= r /\ (forall m, In m ms -> m_dm m <= r) /\ (r = a \/ exists m, In m ms /\ r = m_dm m).
Proof.
  induction ms as [|m ms IH]; intros a r E; [cbn in E; subst r; repeat split; auto; [lra|easy]|].
  cbn in E. set (a' := if Rlt_bool a (m_dm m) then m_dm m else a) in *.
  destruct (IH a' r E) as (I1 & I2 & I3). ftype.
  assert (NM : a <= a' /\ m_dm m <= a' /\ (a' = a \/ a' = m_dm m)).
  { unfold a'. destruct (Rlt_bool_spec a (m_dm m)); repeat split; auto; lra. }
  destruct NM as (N1 & N2 & N3).
  split; [lra|]. split.
  - intros y [<-|Hy]; [lra|auto].
  - destruct I3 as [-> |(y & Hy & EY)]; [|right; exists y; split; [now right|exact EY]].
    destruct N3 as [N3|N3]; rewrite N3; [now left|right; exists m; split; [now left|auto]].
Qed.

(** the other edge of the band of a PRESTO file *)
Definition top_rounded (fbot cbw : R) (nc : Z) : R := rnd64 (fbot + rnd64 (rnd64 (IZR nc) * cbw)).
Definition edges_rounded (m : meta NF) (f0 f1 : R) (nc : Z) : Prop :=
  exists fbot cbw, m_band m = Some (fbot, cbw, nc) /\
    f0 = Rmin fbot (top_rounded fbot cbw nc) /\ f1 = Rmax fbot (top_rounded fbot cbw nc).
Definition shared_band (l : list (meta NF)) (f0 f1 : R) (nc : Z) : Prop :=
  forall m, In m l -> edges_rounded m f0 f1 nc.
(** the band of the files when they all have the same one, the configured band otherwise *)
Definition band_rounded (l : list (meta NF)) (fmin fmax : option R) (nchans : option Z) (f0 f1 : R) (nc : Z) : Prop :=
  shared_band l f0 f1 nc \/
  ~ (exists g0 g1 n, shared_band l g0 g1 n) /\ fmin = Some f0 /\ fmax = Some f1 /\ nchans = Some nc.
Definition same_position (l : list (meta NF)) : Prop :=
  forall m m', In m l -> In m' l -> m_gl m = m_gl m' /\ m_gb m = m_gb m'.

Lemma band_params_spec_f (m : meta NF) f0 f1 nc : get_band_params NF m = Ok (f0, f1, nc) <-> edges_rounded m f0 f1 nc.
Proof.
  unfold get_band_params, edges_rounded, nmin2. destruct (m_band m) as [[[fbot cbw] n]|].
  - fsimp. change (rnd64 (fbot + rnd64 (rnd64 (IZR n) * cbw))) with (top_rounded fbot cbw n); set (ftop := top_rounded fbot cbw n).
    assert (E0 : (if Rlt_bool ftop fbot then ftop else fbot) = Rmin fbot ftop).
    { destruct (Rlt_bool_spec ftop fbot); [rewrite Rmin_right|rewrite Rmin_left]; auto; lra. }
    assert (E1 : (if Rlt_bool fbot ftop then ftop else fbot) = Rmax fbot ftop).
    { destruct (Rlt_bool_spec fbot ftop); [rewrite Rmax_right|rewrite Rmax_left]; auto; lra. }
    ftype. rewrite E0, E1. split.
    + intros H. injection H as <- <- <-. exists fbot, cbw. auto.
    + intros (a & b & H & -> & ->). injection H as <- <- <-. reflexivity.
  - split; [discriminate|]. intros (a & b & H & _). discriminate.
Qed.

Lemma infer_band_spec_f (l : list (meta NF)) : l <> [] ->
  match infer_band_params NF l with
  | Ok (f0, f1, nc) => shared_band l f0 f1 nc
  | Err e => (e = ValueError \/ e = RuntimeError) /\ ~ (exists g0 g1 n, shared_band l g0 g1 n)
  | _ => False
  end.
Proof.
  intros NE. unfold infer_band_params.
  assert (M : (exists ps, mapM (get_band_params NF) l = Ok ps /\ Forall2 (fun m p => get_band_params NF m = Ok p) l ps) \/
    mapM (get_band_params NF) l = Err ValueError /\ exists m, In m l /\ m_band m = None).
  { clear NE. induction l as [|m l IH]; [left; exists []; split; [reflexivity|constructor]|]. cbn [mapM].
    destruct (m_band m) as [[[a b] c]|] eqn:EB.
    - assert (exists p, get_band_params NF m = Ok p) as [p Ep] by (unfold get_band_params; rewrite EB; eauto).
      rewrite Ep. cbn [bind]. destruct IH as [(ps & -> & F)|(-> & x & Hx & Ex)]; cbn [bind].
      + left. eexists. split; [reflexivity|]. constructor; auto.
      + right. split; [reflexivity|]. exists x. split; [now right|exact Ex].
    - right. unfold get_band_params at 1. rewrite EB. split; [reflexivity|]. exists m. split; [now left|exact EB]. }
  destruct M as [(ps & E & F)|(-> & m & Hm & EB)]; cbn [bind].
  2:{ split; auto. intros (a & b & c & H). destruct (H m Hm) as (? & ? & E & _). congruence. }
  rewrite E. cbn [bind]. destruct F as [|m0 p0 l ps E0 F]; [easy|].
  destruct p0 as [[f0 f1] nc]. destruct (forallb (band_eqb NF (f0, f1, nc)) ((f0, f1, nc) :: ps)) eqn:FB; cbn [guard bind].
  - rewrite forallb_forall in FB. intros m [<-|Hm]; [now apply band_params_spec_f|].
    assert (exists p, In p ps /\ get_band_params NF m = Ok p) as ([[a b] c] & Hp & Ep).
    { clear - F Hm. induction F as [|x p l ps E F IH]; [destruct Hm|]. destruct Hm as [<-|Hm]; [exists p; split; [now left|auto]|].
      destruct (IH Hm) as (q & Hq & Eq). exists q. split; [now right|auto]. }
    specialize (FB _ (or_intror Hp)). unfold band_eqb in FB. fsimp_all.
    apply andb_true_iff in FB as [FB F3]. apply andb_true_iff in FB as [F1 F2]. apply Z.eqb_eq in F3.
    destruct (Req_bool_spec f0 a), (Req_bool_spec f1 b); try discriminate. subst. now apply band_params_spec_f.
  - split; auto. intros (a & b & c & H).
    assert (forallb (band_eqb NF (f0, f1, nc)) ((f0, f1, nc) :: ps) = true); [|congruence].
    apply forallb_forall. intros p Hp.
    assert (forall q m, get_band_params NF m = Ok q -> In m (m0 :: l) -> q = (a, b, c)) as Q.
    { intros q m Eq Hm. specialize (H m Hm). apply band_params_spec_f in H.
      assert (Z : Ok q = Ok (a, b, c)) by (etransitivity; [symmetry; exact Eq|exact H]). now injection Z. }
    assert (p = (a, b, c) /\ (f0, f1, nc) = (a, b, c)) as [-> EQ].
    { split; [|apply (Q _ m0); [exact E0|now left]]. destruct Hp as [<-|Hp]; [apply (Q _ m0); [exact E0|now left]|].
      clear - F Hp Q. assert (exists m, In m l /\ get_band_params NF m = Ok p) as (m & Hm & Em).
      { clear Q. induction F as [|x q l ps E F IH]; [destruct Hp|]. destruct Hp as [<-|Hp]; [exists x; split; [now left|auto]|].
        destruct (IH Hp) as (m & Hm & Em). exists m. split; [now right|auto]. }
      apply (Q _ m); auto. now right. }
    injection EQ as -> -> ->. unfold band_eqb. fsimp. rewrite !Req_bool_true by reflexivity. now rewrite Z.eqb_refl.
Qed.

Lemma get_galactic_spec_f (l : list (meta NF)) : l <> [] ->
  (same_position l -> exists m, In m l /\ get_galactic NF l = Ok (m_gl m, m_gb m)) /\
  (~ same_position l -> get_galactic NF l = Err RuntimeError) /\
  (forall r, get_galactic NF l = Ok r -> same_position l).
Proof.
  destruct l as [|m0 l]; [easy|]. intros _. unfold get_galactic. set (L := m0 :: l).
  assert (G : forallb (fun m => n_eqb (m_gl m) (m_gl m0) && n_eqb (m_gb m) (m_gb m0)) L = true <-> same_position L).
  { rewrite forallb_forall. fsimp. split.
    - intros H. assert (Q : forall m, In m L -> m_gl m = m_gl m0 /\ m_gb m = m_gb m0).
      { intros m Hm. specialize (H m Hm). apply andb_true_iff in H as [H1 H2].
        destruct (Req_bool_spec (m_gl m) (m_gl m0)), (Req_bool_spec (m_gb m) (m_gb m0)); try discriminate; auto. }
      intros m m' Hm Hm'. destruct (Q m Hm) as [-> ->], (Q m' Hm') as [-> ->]. auto.
    - intros H m Hm. destruct (H m m0 Hm (or_introl eq_refl)) as [-> ->]. now rewrite !Req_bool_true. }
  split; [intros H|split; [intros H|intros r E; apply G; now destruct (forallb _ L)]].
  - apply G in H. rewrite H. cbn [guard bind]. exists m0. split; [now left|reflexivity].
  - destruct (forallb _ L) eqn:E; [exfalso; apply H; now apply G|]. reflexivity.
Qed.


Lemma dm_iterator_reduces abs_sin (l : list (meta NF)) dm_start dm_end cap (wmin : R) fmin fmax nchans f0 f1 nc start stop :
  l <> [] -> same_position l -> band_rounded l fmin fmax nchans f0 f1 nc -> range_rounded abs_sin l dm_start dm_end cap start stop ->
  dm_iterator NF abs_sin l dm_start dm_end cap wmin fmin fmax nchans =
  (sel <- select_dms NF (map fst (dict_of NF l)) start stop f0 f1 nc wmin ;; Ok (DMI (N := NF) l (dict_of NF l) sel f0 f1 nc)).
Proof.
  intros NE OP BO RG. destruct (get_galactic_spec_f l NE) as (G1 & _).
  destruct l as [|m0 ms] eqn:EL; [easy|]. rewrite <- EL in *. unfold dm_iterator. rewrite EL. rewrite <- EL.
  destruct (G1 OP) as (mg & Img & ->). cbn [bind].
  match goal with |- context [select_dms _ _ ?s0 ?s1 _ _ _ _] => set (st := s0); set (sp := s1) end.
  match goal with |- bind ?b _ = _ => assert (EB : b = Ok (f0, f1, nc)) end.
  { pose proof (infer_band_spec_f l NE) as IB. destruct BO as [CB|(NB & -> & -> & ->)].
    - destruct (infer_band_params NF l) as [[[g0 g1] n]|e| |]; try contradiction.
      + pose proof (IB m0) as B1. pose proof (CB m0) as B2. rewrite EL in B1, B2. specialize (B1 (or_introl eq_refl)).
        specialize (B2 (or_introl eq_refl)). apply band_params_spec_f in B1. apply band_params_spec_f in B2.
        etransitivity; [symmetry; exact B1|exact B2].
      + exfalso. apply (proj2 IB). eauto.
    - destruct (infer_band_params NF l) as [[[g0 g1] n]|e| |]; try contradiction; [exfalso; apply NB; eauto|].
      destruct IB as [[-> | ->] _]; reflexivity. }
  rewrite EB. cbn [bind].
  assert (ST : st = start /\ sp = stop).
  { destruct RG as (R1 & e & R2 & R3). split.
    - unfold st. destruct dm_start as [a|]; [auto|]. rewrite EL in R1. destruct R1 as [L (m & Im & Em)].
      destruct (fold_min_spec_f ms (m_dm m0) _ eq_refl) as (F1 & F2 & F3).
      apply Rle_antisym.
      + rewrite Em. destruct Im as [<-|Im]; [exact F1|now apply F2].
      + destruct F3 as [-> |(y & Hy & ->)]; [apply L; now left|apply L; now right].
    - assert (EE : match dm_end with Some d => d | None => fold_left (fun a m => if n_ltb a (m_dm m) then m_dm m else a) ms (m_dm m0) end = e).
      { destruct dm_end as [a|]; [auto|]. rewrite EL in R2. destruct R2 as [L (m & Im & Em)].
        match goal with |- ?v = e => destruct (fold_max_spec_f ms (m_dm m0) v eq_refl) as (F1 & F2 & F3) end. apply Rle_antisym.
        + destruct F3 as [-> |(y & Hy & ->)]; [apply L; now left|apply L; now right].
        + rewrite Em. destruct Im as [<-|Im]; [exact F1|now apply F2]. }
      unfold sp. clear st sp EB. fsimp_all. ftype. rewrite EE. destruct cap as [c|]; [|auto]. destruct R3 as (m & gb & Im & -> & R3).
      destruct (OP mg m Img Im) as [_ ->]. rewrite rnd64_0. destruct (Req_bool (abs_sin (m_gb m)) 0); auto. rewrite R3.
      unfold nmin2. fsimp. destruct (Rlt_bool_spec (rnd64 (c / abs_sin (m_gb m))) e); [rewrite Rmin_right|rewrite Rmin_left]; auto; lra. }
  destruct ST as [-> ->]. reflexivity.
Qed.

(** C140.  In floating point, DMIterator fails with ValueError if no file has a DM in the range asked for.  Otherwise it
    selects DMs of the files inside the range, increasing; what any file of the range would cover is covered up to a
    rounding error; and each selected DM is searched in the last file with that DM, once, in order, in full chunks but
    for the last. *)
Theorem dm_iterator_float :
  forall abs_sin (l : list (meta NF)) dm_start dm_end dmsinb_max (wmin : R) fmin fmax nchans f0 f1 nc start stop,
  l <> [] -> same_position l -> band_rounded l fmin fmax nchans f0 f1 nc ->
  range_rounded abs_sin l dm_start dm_end dmsinb_max start stop ->
  (forall m, In m l -> double (m_dm m) /\ 0 <= m_dm m) ->
  bpow radix2 (-100) <= f0 <= bpow radix2 100 -> 17 / 16 * f0 <= f1 <= 4 * f0 -> (1 <= nc <= 16384)%Z -> bpow radix2 (-500) <= wmin ->
  let X := dm_iterator NF abs_sin l dm_start dm_end dmsinb_max wmin fmin fmax nchans in
  ((forall m, In m l -> ~ start <= m_dm m <= stop) -> X = Err ValueError) /\
  ((exists m, In m l /\ start <= m_dm m <= stop) -> exists d, X = Ok d /\
     di_list d = l /\ (di_fmin d : R) = f0 /\ (di_fmax d : R) = f1 /\ di_nchans d = nc /\
     StronglySorted Rlt (di_selected d) /\ (forall x : R, In x (di_selected d) -> start <= x <= stop) /\
     (forall (m : meta NF) (x : R), In m l -> start <= m_dm m <= stop -> tolerable f0 f1 nc wmin (m_dm m) x ->
        exists s y : R, In s (di_selected d) /\ tolerable f0 f1 nc wmin s y /\
          Rabs (x - y) <= / 67108864 * Rabs (y - s) + / 4503599627370496 * s) /\
     (forall x, In x (di_selected d) -> exists m, last_file l x m /\ get_filename NF d x = Ok (m_fname m)) /\
     forall chunksize, (1 <= chunksize)%nat ->
       exists chunks, iterate_filenames NF d chunksize = Ok chunks /\ chunked chunksize chunks /\
         Forall2 (fun x s => exists m, last_file l x m /\ m_fname m = s) (di_selected d) (concat chunks)).
Proof.
  intros abs_sin l dm_start dm_end cap wmin fmin fmax nchans f0 f1 nc start stop NE OP BO RG DB HF HB HN HW X.
  unfold X. rewrite (dm_iterator_reduces abs_sin l dm_start dm_end cap wmin fmin fmax nchans f0 f1 nc start stop NE OP BO RG).
  destruct (dict_of_spec_f l) as (D1 & D2 & D3 & _).
  destruct (select_dms_float bld (map fst (dict_of NF l)) start stop f0 f1 nc wmin D1) as [S1 S2]; auto.
  { intros x Hx. apply D2 in Hx. apply in_map_iff in Hx as (m & <- & Hm). auto. }
  split.
  { intros N. ftype. rewrite S1; [reflexivity|]. intros x [Hx L]. apply D2 in Hx. apply in_map_iff in Hx as (m & <- & Hm). now apply (N m). }
  intros (m & Im & L). destruct S2 as (sel & E & SS & IN & _ & CV & _).
  { exists (m_dm m). split; [apply D2; now apply in_map|exact L]. }
  ftype. rewrite E. cbn [bind]. eexists. split; [reflexivity|]. cbn [di_list di_fmin di_fmax di_nchans di_selected].
  split; [reflexivity|]. split; [reflexivity|]. split; [reflexivity|]. split; [reflexivity|]. split; [exact SS|].
  split; [intros x Hx; apply (IN x Hx)|]. split.
  { intros m' x Hm' Hr T. apply (CV (m_dm m') x); [|exact T]. split; [apply D2; now apply in_map|exact Hr]. }
  assert (SI : forall x, In x sel -> In x (map m_dm l)) by (intros x Hx; apply IN in Hx as [Hx _]; now apply D2).
  assert (GF : forall x, In x sel -> exists m, last_file l x m /\
     get_filename NF (DMI (N := NF) l (dict_of NF l) sel f0 f1 nc) x = Ok (m_fname m)).
  { intros x Hx. destruct (D3 x (SI x Hx)) as (m' & G & LW). exists m'. split; auto.
    unfold get_filename. cbn [di_dict]. ftype. rewrite G. reflexivity. }
  split; [exact GF|]. intros size Hs.
  assert (EN : exists names, Forall2 (fun x s => get_filename NF (DMI (N := NF) l (dict_of NF l) sel f0 f1 nc) x = Ok s) sel names /\
     Forall2 (fun x s => exists m, last_file l x m /\ m_fname m = s) sel names).
  { assert (GF' : forall x, In x sel -> exists m, last_file l x m /\
      get_filename NF (DMI (N := NF) l (dict_of NF l) sel f0 f1 nc) x = Ok (m_fname m)) by exact GF.
    revert GF'. generalize (DMI (N := NF) l (dict_of NF l) sel f0 f1 nc). clear. intros dd.
    induction sel as [|x sel IH]; intros GF; [exists []; split; constructor|].
    destruct (GF x (or_introl eq_refl)) as (m & LW & G).
    destruct IH as (names & F1 & F2).
    { intros y Hy. destruct (GF y (or_intror Hy)) as (m' & ? & ?). exists m'. auto. }
    exists (m_fname m :: names). split; constructor; auto. eauto. }
  destruct EN as (names & F1 & F2).
  destruct (chunks_from_spec_f (DMI (N := NF) l (dict_of NF l) sel f0 f1 nc) size Hs sel names F1 []) as (chunks & EC & C1 & C2); [cbn; lia|].
  exists chunks. split; [exact EC|]. split; [exact C2|]. rewrite C1. exact F2.
Qed.
End Float.
Print Assumptions dm_iterator_float.

(** two PRESTO files with the band 1000-1500 MHz, one counting its channels downwards; the cap excludes DM 10 *)
Example dm_iterator_float_used : forall bld,
  let m name dm fbot cbw := Meta (N := numF bld) name dm 100 (1 / 1024) 0 30 (Some (fbot, cbw, 100%Z)) in
  let l := [m "a"%string 0 1000 5; m "b"%string 10 1500 (-5)] in
  l <> [] /\ same_position bld l /\ band_rounded bld l (Some 1) (Some 2) None 1000 1500 100 /\
  range_rounded bld (fun _ => 1 / 2) l None (Some 20) (Some 3) 0 6 /\ (forall x, In x l -> double (m_dm x) /\ 0 <= m_dm x) /\
  bpow radix2 (-100) <= 1000 <= bpow radix2 100 /\ 17 / 16 * 1000 <= 1500 <= 4 * 1000 /\
  (exists x, In x l /\ 0 <= m_dm x <= 6) /\ exists x, In x l /\ ~ 0 <= m_dm x <= 6.
Proof.
  intros bld m l. assert (LF : forall z, (Z.abs z < 2 ^ 53)%Z -> rnd64 (IZR z) = IZR z) by (intros; now apply lit_F).
  split; [discriminate|]. split; [intros x y [<-|[<-|[]]] [<-|[<-|[]]]; cbn; auto|]. split.
  { left. intros x [<-|[<-|[]]]; cbn [m_band m]; unfold edges_rounded, top_rounded; cbn [m_band m].
    - exists 1000, 5. split; [reflexivity|]. rewrite (LF 100%Z) by lia. replace (100 * 5) with 500 by lra. rewrite (LF 500%Z) by lia.
      replace (1000 + 500) with 1500 by lra. rewrite (LF 1500%Z) by lia. rewrite Rmin_left, Rmax_right by lra. auto.
    - exists 1500, (-5). split; [reflexivity|]. rewrite (LF 100%Z) by lia. replace (100 * -5) with (-500) by lra. rewrite (LF (-500)%Z) by lia.
      replace (1500 + -500) with 1000 by lra. rewrite (LF 1000%Z) by lia. rewrite Rmin_right, Rmax_left by lra. auto. }
  split.
  { split.
    - split; [intros x [<-|[<-|[]]]; cbn; lra|]. eexists. split; [left; reflexivity|reflexivity].
    - exists 20. split; [reflexivity|]. exists (m "a"%string 0 1000 5), 30. split; [now left|]. split; [reflexivity|].
      rewrite Req_bool_false by lra. replace (3 / (1 / 2)) with 6 by lra. rewrite (LF 6%Z) by lia. rewrite Rmin_right; lra. }
  split.
  { assert (D : forall z, (Z.abs z < 2 ^ 53)%Z -> double (IZR z)) by (intros z Hz; now apply F64_int).
    intros x [<-|[<-|[]]]; cbn [m_dm m]; (split; [apply D; lia|lra]). }
  split.
  { split; [apply Rle_trans with (bpow radix2 0); [apply bpow_le; lia|cbn; lra]|].
    apply Rle_trans with (bpow radix2 20); [cbn; lra|apply bpow_le; lia]. }
  split; [lra|]. split; eexists; (split; [|cbn [m_dm m]]).
  - now left.
  - cbn. lra.
  - right. now left.
  - cbn. lra.
Qed.
