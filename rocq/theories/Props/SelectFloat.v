(** C146: harmonic flagging, candidate filters and range lookup compare doubles without computing with them. *)
From Coq Require Import List Arith ZArith Bool Lia Reals Lra Sorting.Sorted Permutation.
From Verif Require Import Base.Result Base.Buf Base.Num Model.Cluster Model.Peaks Model.Harmonic Model.Folding Model.DmIter Model.Pipeline
  Proof.Pipeline Props.Pipeline Props.Ranges.
Import ListNotations.

(** the same values, in exact arithmetic *)
Definition peakR {bld} (p : peak (numF bld)) : peak numR :=
  Peak (N := numR) (p_period p) (p_freq p) (p_width p) (p_ducy p) (p_iw p) (p_ip p) (p_snr p) (p_dm p).
Definition peakF bld (p : peak numR) : peak (numF bld) :=
  Peak (N := numF bld) (p_period p) (p_freq p) (p_width p) (p_ducy p) (p_iw p) (p_ip p) (p_snr p) (p_dm p).
Definition clusterR {bld} (c : cluster (numF bld)) : cluster numR :=
  Cl (N := numR) (map peakR (c_peaks c)) (c_rank c) (c_parent c) (c_hfrac c).
Definition filtersR {bld} (f : filters (numF bld)) : filters numR :=
  Filters (N := numR) (fl_dm_min f) (fl_snr_min f) (fl_remove_harmonics f) (fl_max_number f).
Definition rangeR {bld} (r : range_conf (numF bld)) : range_conf numR :=
  Range (N := numR) (rg_pmin r) (rg_pmax r) (rg_bmin r) (rg_cbins r) (rg_csubints r).
Definition rmap {A B} (f : A -> B) (r : res A) : res B := x <- r ;; Ok (f x).

Lemma first_max_map {A B} (g : A -> B) lt lt' l : (forall a b, lt' (g a) (g b) = lt a b) ->
  forall a, first_max lt' (g a) (map g l) = g (first_max lt a l).
Proof.
  intros H. unfold first_max. induction l as [|b l IH]; intros a; cbn [map fold_left]; [reflexivity|].
  rewrite H. destruct (lt a b); apply IH.
Qed.

Lemma sorted_desc_map {A B} (g : A -> B) lt lt' l : (forall a b, lt' (g a) (g b) = lt a b) ->
  sorted_desc lt' (map g l) = map g (sorted_desc lt l).
Proof.
  intros H. unfold sorted_desc. induction l as [|a l IH]; cbn [map fold_right]; [reflexivity|]. rewrite IH. clear IH.
  induction (fold_right (insert_desc lt) [] l) as [|b k IHk]; cbn [map insert_desc]; [reflexivity|].
  rewrite H. destruct (lt a b); cbn [map]; [now rewrite IHk|reflexivity].
Qed.

Lemma sorted_asc_map {A B} (g : A -> B) lt lt' l : (forall a b, lt' (g a) (g b) = lt a b) ->
  sorted_asc lt' (map g l) = map g (sorted_asc lt l).
Proof.
  intros H. unfold sorted_asc. induction l as [|a l IH]; cbn [map fold_right]; [reflexivity|]. rewrite IH. clear IH.
  induction (fold_right (insert_asc lt) [] l) as [|b k IHk]; cbn [map insert_asc]; [reflexivity|].
  rewrite H. destruct (lt b a); cbn [map]; [now rewrite IHk|reflexivity].
Qed.

Lemma combinations2_map {A B} (g : A -> B) l : combinations2 (map g l) = map (fun x => (g (fst x), g (snd x))) (combinations2 l).
Proof.
  induction l as [|a l IH]; cbn [map combinations2]; [reflexivity|]. rewrite IH, map_app, !map_map. reflexivity.
Qed.

Lemma foreach_map {X Y S T} (g : X -> Y) (h : S -> T) (body : X -> S -> res S) (body' : Y -> T -> res T) l :
  (forall x s, body' (g x) (h s) = rmap h (body x s)) -> forall s, foreach (map g l) body' (h s) = rmap h (foreach l body s).
Proof.
  intros H. induction l as [|x l IH]; intros s; cbn [map foreach]; [reflexivity|]. rewrite H.
  destruct (body x s); cbn [bind rmap]; [apply IH|reflexivity..].
Qed.

Lemma filterM_map {A B} (g : A -> B) (f : A -> res bool) (f' : B -> res bool) l : (forall a, f' (g a) = f a) ->
  filterM f' (map g l) = rmap (map g) (filterM f l).
Proof.
  intros H. induction l as [|a l IH]; cbn [map filterM]; [reflexivity|]. rewrite H, IH.
  destruct (f a) as [[|]| | |]; cbn [bind rmap]; auto; destruct (filterM f l); reflexivity.
Qed.

Lemma filter_map {A B} (g : A -> B) (f : A -> bool) (f' : B -> bool) l : (forall a, f' (g a) = f a) ->
  filter f' (map g l) = map g (filter f l).
Proof. intros H. induction l as [|a l IH]; cbn [map filter]; [reflexivity|]. rewrite H, IH. now destruct (f a). Qed.

Lemma combine_map_r {A B C} (g : B -> C) (l : list A) (m : list B) : combine l (map g m) = map (fun x => (fst x, g (snd x))) (combine l m).
Proof. revert m. induction l as [|a l IH]; intros [|b m]; cbn; auto. now rewrite IH. Qed.

Lemma upd_map {A B} (g : A -> B) l : forall i v, upd (map g l) i (g v) = map g (upd l i v).
Proof. induction l as [|a l IH]; intros [|i] v; cbn; auto. now rewrite IH. Qed.

Lemma rd_map {A B} (g : A -> B) l i : rd (map g l) i = rmap g (rd l i).
Proof. unfold rd. rewrite nth_error_map. now destruct (nth_error l i). Qed.

Lemma wr_map {A B} (g : A -> B) l i v : wr (map g l) i (g v) = rmap (map g) (wr l i v).
Proof. unfold wr. rewrite map_length, upd_map. now destruct (i <? length l). Qed.

Section Same.
Context (bld : build).
Local Notation NF := (numF bld).

Lemma centre_same (c : cluster NF) : centre (clusterR c) = rmap peakR (centre c).
Proof.
  unfold centre. cbn [clusterR c_peaks]. destruct (c_peaks c) as [|p ps]; cbn [map rmap bind]; [reflexivity|].
  now rewrite (first_max_map peakR (snr_lt (N := NF))).
Qed.

Lemma by_snr_same {A B} (g : A -> B) (get : A -> cluster NF) (get' : B -> cluster numR) l : (forall a, get' (g a) = clusterR (get a)) ->
  by_snr numR get' (map g l) = rmap (map (fun x => (g (fst x), peakR (snd x)))) (by_snr NF get l).
Proof.
  intros H. unfold by_snr.
  assert (E : mapM (fun a => p <- centre (get' a) ;; Ok (a, p)) (map g l) =
    rmap (map (fun x => (g (fst x), peakR (snd x)))) (mapM (fun a => p <- centre (get a) ;; Ok (a, p)) l)).
  { induction l as [|a l IH]; cbn [map mapM]; [reflexivity|]. rewrite H, centre_same, IH.
    destruct (centre (get a)); cbn [rmap bind]; try reflexivity. destruct (mapM _ l); reflexivity. }
  rewrite E. destruct (mapM _ l) as [ks| | |]; cbn [rmap bind]; try reflexivity. f_equal.
  now apply (sorted_desc_map (fun x : A * peak NF => (g (fst x), peakR (snd x)))).
Qed.

(** C146.  In floating point, the harmonics flagged are those exact arithmetic flags for the same values and the same test. *)
Theorem flag_harmonics_same (test : peak NF -> peak NF -> res (bool * fraction)) (cs : list (cluster NF)) :
  flag_harmonics numR (fun p q => test (peakF bld p) (peakF bld q)) (map clusterR cs) = rmap (map clusterR) (flag_harmonics NF test cs).
Proof.
  unfold flag_harmonics. rewrite map_length, combine_map_r.
  rewrite (by_snr_same (fun x : nat * cluster NF => (fst x, clusterR (snd x))) snd snd) by reflexivity.
  destruct (by_snr NF snd _) as [s| | |]; cbn [rmap bind]; try reflexivity. rewrite !map_map. cbn [fst snd].
  set (order := map (fun x => (fst (fst x), snd x)) s).
  replace (map (fun x : nat * cluster NF * peak NF => fst (fst x)) s) with (map fst order) by (unfold order; now rewrite map_map).
  replace (map (fun x : nat * cluster NF * peak NF => (fst (fst x), peakR (snd x))) s) with (map (fun x => (fst x, peakR (snd x))) order)
    by (unfold order; now rewrite map_map).
  assert (E : assign_ranks numR (map fst order) (map clusterR cs) = rmap (map clusterR) (assign_ranks NF (map fst order) cs)).
  { unfold assign_ranks. rewrite <- (map_id (combine _ _)) at 1. apply foreach_map. intros [r i] l. rewrite rd_map.
    destruct (rd l i); cbn [rmap bind]; try reflexivity. apply (wr_map clusterR l i (Cl (N := NF) (c_peaks a) (Some r) (c_parent a) (c_hfrac a))). }
  rewrite E. destruct (assign_ranks NF _ cs) as [cs1| | |]; cbn [rmap bind]; try reflexivity.
  rewrite combinations2_map. apply foreach_map. intros [[f pf] [h ph]] l. cbn [fst snd flag_pair]. rewrite !rd_map.
  destruct (rd l f) as [F| | |]; cbn [rmap bind]; try reflexivity. destruct (rd l h) as [H| | |]; cbn [rmap bind]; try reflexivity.
  change (is_harmonic (clusterR F)) with (is_harmonic F). change (is_harmonic (clusterR H)) with (is_harmonic H).
  destruct (is_harmonic F || is_harmonic H); [reflexivity|].
  replace (peakF bld (peakR pf)) with pf by now destruct pf. replace (peakF bld (peakR ph)) with ph by now destruct ph.
  destruct (test pf ph) as [[[|] fr]| | |]; cbn [rmap bind]; try reflexivity.
  apply (wr_map clusterR l h (Cl (N := NF) (c_peaks H) (c_rank H) (Some f) (Some fr))).
Qed.

(** C146.  So are the clusters the candidate filters keep. *)
Theorem candidate_filters_same (fl : filters NF) (cs : list (cluster NF)) :
  apply_candidate_filters numR (filtersR fl) (map clusterR cs) = apply_candidate_filters NF fl cs.
Proof.
  unfold apply_candidate_filters. cbn [filtersR fl_dm_min fl_snr_min fl_remove_harmonics fl_max_number]. rewrite map_length, combine_map_r.
  set (g := fun x : nat * cluster NF => (fst x, clusterR (snd x))). set (ids := combine _ cs).
  assert (E1 : forall ids, match fl_dm_min fl with
         | None => Ok (map g ids)
         | Some d => filterM (fun x => p <- centre (snd x) ;; match p_dm p with Some v => Ok (n_leb (n := numR) d v) | None => Err TypeError end) (map g ids)
         end = rmap (map g) match fl_dm_min fl with
         | None => Ok ids
         | Some d => filterM (fun x => p <- centre (snd x) ;; match p_dm p with Some v => Ok (n_leb (n := NF) d v) | None => Err TypeError end) ids
         end).
  { intros l. destruct (fl_dm_min fl) as [d|]; [|reflexivity]. apply filterM_map. intros [i c]. cbn [g fst snd]. rewrite centre_same.
    destruct (centre c); reflexivity. }
  rewrite E1. match goal with |- context [rmap (map g) ?m] => destruct m as [ids1| | |] end; cbn [rmap bind]; try reflexivity.
  assert (E2 : forall ids, match fl_snr_min fl with
         | None => Ok (map g ids)
         | Some s => filterM (fun x => p <- centre (snd x) ;; Ok (n_leb (n := numR) s (p_snr p))) (map g ids)
         end = rmap (map g) match fl_snr_min fl with
         | None => Ok ids
         | Some s => filterM (fun x => p <- centre (snd x) ;; Ok (n_leb (n := NF) s (p_snr p))) ids
         end).
  { intros l. destruct (fl_snr_min fl) as [d|]; [|reflexivity]. apply filterM_map. intros [i c]. cbn [g fst snd]. rewrite centre_same.
    destruct (centre c); reflexivity. }
  rewrite E2. match goal with |- context [rmap (map g) ?m] => destruct m as [ids2| | |] end; cbn [rmap bind]; try reflexivity.
  rewrite (filter_map g (fun x => negb (is_harmonic (snd x)))) by reflexivity.
  set (ids3 := match fl_remove_harmonics fl with Some true => filter _ ids2 | _ => ids2 end).
  match goal with |- context [by_snr numR snd ?l] => replace l with (map g ids3) by (unfold ids3; destruct (fl_remove_harmonics fl) as [[|]|]; reflexivity) end.
  assert (E3 : (match fl_remove_harmonics fl with Some true => map g (filter (fun x => negb (is_harmonic (snd x))) ids2) | _ => map g ids2 end) = map g ids3)
    by (unfold ids3; destruct (fl_remove_harmonics fl) as [[|]|]; reflexivity).
  rewrite ?E3. assert (MF : forall l, map fst (map g l) = map fst l) by (intros l; rewrite map_map; reflexivity).
  destruct (fl_max_number fl) as [n|]; cbn [bind]; [|now rewrite MF]. destruct (n =? 0)%Z; cbn [bind]; [now rewrite MF|].
  rewrite (by_snr_same g snd snd) by reflexivity. destruct (by_snr NF snd ids3) as [s| | |]; cbn [rmap bind]; try reflexivity.
  rewrite map_length, map_map. cbn [fst]. rewrite <- (map_map fst g), firstn_map, MF. reflexivity.
Qed.

(** C146.  And the search range of a period. *)
Theorem get_search_range_same (ranges : list (range_conf NF)) (period : R) :
  get_search_range numR (map rangeR ranges) period = rmap (option_map rangeR) (get_search_range NF ranges period).
Proof.
  unfold get_search_range. rewrite (sorted_asc_map rangeR (fun a b : range_conf NF => n_ltb (n := NF) (rg_pmax a) (rg_pmax b))) by reflexivity.
  set (rs := sorted_asc _ ranges). clearbody rs. rewrite !map_map. cbn [rangeR rg_pmin rg_pmax].
  change (min_of numR (map (fun x : range_conf NF => rg_pmin x) rs)) with (min_of NF (map rg_pmin rs)).
  change (max_of numR (map (fun x : range_conf NF => rg_pmax x) rs)) with (max_of NF (map rg_pmax rs)).
  destruct (min_of NF (map rg_pmin rs)) as [a| | |]; cbn [bind rmap]; try reflexivity.
  destruct (max_of NF (map rg_pmax rs)) as [b| | |]; cbn [bind rmap]; try reflexivity.
  change (n_ltb (n := numR)) with (n_ltb (n := NF)). change (n_leb (n := numR)) with (n_leb (n := NF)).
  destruct (n_ltb (n := NF) period a); [now destruct rs|]. destruct (n_ltb (n := NF) period b); cbn [negb].
  - f_equal. induction rs as [|r rs IH]; cbn [map find]; [reflexivity|]. cbn [rangeR rg_pmin rg_pmax] in *.
    destruct (n_leb (n := NF) (rg_pmin r) period && n_ltb (n := NF) period (rg_pmax r)); [reflexivity|exact IH].
  - rewrite <- map_rev. now destruct (rev rs).
Qed.

(** C146.  What harmonic flagging does in floating point (C45 for doubles). *)
Theorem flag_harmonics_float (test : peak NF -> peak NF -> res (bool * fraction)) (cs cs' : list (cluster NF)) :
  Forall (fun c => c_peaks c <> [] /\ c_parent c = None /\ c_hfrac c = None) cs -> flag_harmonics NF test cs = Ok cs' ->
  length cs' = length cs /\
  exists order : list nat,
    Permutation order (seq 0 (length cs)) /\
    let ranked k i c p := nth_error order k = Some i /\ nth_error (map clusterR cs') i = Some c /\ first_brightest (c_peaks c) p in
    let test p q := test (peakF bld p) (peakF bld q) in
    let unrelated p q := exists fr, test p q = Ok (false, fr) in
    (forall k i, nth_error order k = Some i -> exists c c' p, nth_error (map clusterR cs) i = Some c /\ ranked k i c' p /\
       c_peaks c' = c_peaks c /\ c_rank c' = Some k) /\
    (forall k l i j c d p q, ranked k i c p -> ranked l j d q -> (k < l)%nat ->
       (p_snr q < p_snr p)%R \/ p_snr p = p_snr q /\ (i < j)%nat) /\
    (forall k i c p, ranked k i c p ->
       match c_parent c with
       | Some f => exists l d q fr, (l < k)%nat /\ ranked l f d q /\ c_parent d = None /\
           test q p = Ok (true, fr) /\ c_hfrac c = Some fr /\
           forall l' f' d' q', (l' < l)%nat -> ranked l' f' d' q' -> c_parent d' = None -> unrelated q' p
       | None => c_hfrac c = None /\
           forall l f d q, (l < k)%nat -> ranked l f d q -> c_parent d = None -> unrelated q p
       end).
Proof.
  intros FR H. pose proof (flag_harmonics_same test cs) as E. rewrite H in E. cbn [rmap bind] in E.
  destruct (flag_harmonics_correct (fun p q => test (peakF bld p) (peakF bld q)) (map clusterR cs) (map clusterR cs')) as [L X]; [|exact E|].
  { apply Forall_map. eapply Forall_impl; [|exact FR]. intros c (A & B & C). split; [|split; [exact B|exact C]].
    cbn [clusterR c_peaks]. intros Z. apply map_eq_nil in Z. contradiction. }
  rewrite !map_length in L. rewrite map_length in X. split; [exact L|exact X].
Qed.

(** C146.  What the candidate filters keep in floating point (C47 for doubles). *)
Theorem candidate_filters_float (fl : filters NF) (cs : list (cluster NF)) (kept : list nat) :
  (forall n, fl_max_number fl = Some n -> (0 < n)%Z) -> Forall (fun c => c_peaks c <> []) cs ->
  apply_candidate_filters NF fl cs = Ok kept ->
  let good i p := exists c, nth_error (map clusterR cs) i = Some c /\ first_brightest (c_peaks c) p /\ passes (filtersR fl) c p in
  let before i j := forall p q, good i p -> good j q -> (p_snr q < p_snr p)%R \/ p_snr p = p_snr q /\ (i < j)%nat in
  (forall i, In i kept -> exists p, good i p) /\
  match fl_max_number fl with
  | None => StronglySorted lt kept /\ forall i p, good i p -> In i kept
  | Some n => StronglySorted before kept /\ NoDup kept /\ (Z.of_nat (length kept) <= n)%Z /\
      forall j q, good j q -> ~ In j kept -> Z.of_nat (length kept) = n /\ forall i, In i kept -> before i j
  end.
Proof.
  intros HN NE H. rewrite <- candidate_filters_same in H. apply (candidate_filters_correct (filtersR fl)); [exact HN| |exact H].
  apply Forall_map. eapply Forall_impl; [|exact NE]. intros c A. cbn [clusterR c_peaks]. intros Z. apply map_eq_nil in Z. contradiction.
Qed.
(** C146.  The range of a period in floating point (C49 for doubles). *)
Theorem get_search_range_float (first : range_conf NF) (rest : list (range_conf NF)) (period : R) :
  let ranges := first :: rest in let final := List.last ranges first in
  contiguous (map rangeR ranges) -> Forall (fun r : range_conf NF => (rg_pmin r < rg_pmax r)%R) ranges ->
  ((period < rg_pmin first)%R -> get_search_range NF ranges period = Ok (Some first)) /\
  ((rg_pmax final <= period)%R -> get_search_range NF ranges period = Ok (Some final)) /\
  ((rg_pmin first <= period < rg_pmax final)%R ->
     exists r, In r ranges /\ (rg_pmin r <= period < rg_pmax r)%R /\ get_search_range NF ranges period = Ok (Some r) /\
       forall s, In s ranges -> (rg_pmin s <= period < rg_pmax s)%R -> s = r).
Proof.
  intros ranges final C F.
  assert (RI : forall a b : range_conf NF, rangeR a = rangeR b -> a = b).
  { intros [a1 a2 a3 a4 a5] [b1 b2 b3 b4 b5] E. injection E as -> -> -> -> ->. reflexivity. }
  assert (B : forall r, get_search_range numR (map rangeR ranges) period = Ok (Some (rangeR r)) -> get_search_range NF ranges period = Ok (Some r)).
  { intros r. rewrite get_search_range_same. destruct (get_search_range NF ranges period) as [[x|]| | |]; cbn [rmap bind option_map]; try discriminate.
    intros E. assert (X : rangeR x = rangeR r) by (exact (f_equal (fun v => match v with Ok (Some y) => y | _ => rangeR r end) E)). now rewrite (RI _ _ X). }
  assert (LM : forall l d, List.last (map rangeR l) (rangeR d) = rangeR (List.last l d : range_conf NF)).
  { induction l as [|a [|b l] IH]; intros d; try reflexivity. exact (IH d). }
  destruct (get_search_range_correct (rangeR first) (map rangeR rest) period) as (H1 & H2 & H3).
  { exact C. }
  { change (rangeR first :: map rangeR rest) with (map rangeR ranges). apply Forall_map. exact F. }
  change (rangeR first :: map rangeR rest) with (map rangeR ranges) in *. rewrite LM in H2, H3. fold final in H2, H3.
  split; [intros L; apply B, H1, L|]. split; [intros L; apply B, H2, L|]. intros L. destruct (H3 L) as (r & I & Hh & E & U).
  apply in_map_iff in I as (x & <- & I). exists x. split; [exact I|]. split; [exact Hh|]. split; [apply B, E|].
  intros s Is Hs. apply RI, U; [now apply in_map|exact Hs].
Qed.
End Same.
Print Assumptions get_search_range_float.
Print Assumptions flag_harmonics_same.
Print Assumptions candidate_filters_same.
Print Assumptions get_search_range_same.
Print Assumptions flag_harmonics_float.
Print Assumptions candidate_filters_float.

(** two clusters, the second a harmonic of the first for the test; the filters keep the first *)
Definition two_clusters bld : list (cluster (numF bld)) :=
  let pk f s := Peak (N := numF bld) (/ f)%R f 1 (/ 10)%R 0 0 s (Some 10%R) in
  [Cl (N := numF bld) [pk 1%R 20%R] None None None; Cl (N := numF bld) [pk 2%R 9%R] None None None].
Example flag_harmonics_float_used : forall bld, exists cs,
  flag_harmonics (numF bld) (fun _ _ => Ok (true, (2, 1)%Z)) (two_clusters bld) = Ok cs /\ map (fun c => c_parent c) cs = [None; Some 0%nat] /\
  apply_candidate_filters (numF bld) (Filters (N := numF bld) None (Some 7%R) (Some true) None) cs = Ok [0%nat].
Proof.
  intros bld. eexists. split; [|split].
  - unfold flag_harmonics, two_clusters, by_snr, snr_lt. cbn. rewrite Raux.Rlt_bool_false by lra. cbn. reflexivity.
  - reflexivity.
  - unfold apply_candidate_filters. cbn. rewrite !Raux.Rle_bool_true by lra. reflexivity.
Qed.
Example get_search_range_float_used : forall bld,
  let r a b := Range (N := numF bld) a b 240 128 64 in
  get_search_range (numF bld) [r 1%R 2%R; r 2%R 5%R] 2%R = Ok (Some (r 2%R 5%R)).
Proof.
  intros bld r. destruct (get_search_range_float bld (r 1%R 2%R) [r 2%R 5%R] 2%R) as (_ & _ & H).
  - cbn. auto.
  - constructor; [cbn; lra|constructor; [cbn; lra|constructor]].
  - destruct H as (x & I & Hx & E & _); [cbn; lra|]. cbv zeta in E. rewrite E. destruct I as [<-|[<-|[]]]; [cbn in Hx; lra|reflexivity].
Qed.
