(** C135: the command line of the pipeline. *)
From Coq Require Import String List Bool.
From Verif Require Import Base.Result Model.Cli.
Import ListNotations.
Local Open Scope string_scope.

(** what a command line must be like for its run to begin, and what the run is given *)
Definition wellformed (isdir : string -> bool) (here : string) (o : options) (config dir level : string) : Prop :=
  op_config o = Some config /\
  (op_outdir o = Some dir \/ op_outdir o = None /\ dir = here) /\ isdir dir = true /\
  (op_log_level o = Some level \/ op_log_level o = None /\ level = "DEBUG") /\
  (level = "DEBUG" \/ level = "INFO" \/ level = "WARNING") /\
  op_files o <> [].

Lemma level_in l : existsb (String.eqb l) levels = true <-> l = "DEBUG" \/ l = "INFO" \/ l = "WARNING".
Proof.
  unfold levels. cbn [existsb]. rewrite !orb_true_iff, !String.eqb_eq. intuition discriminate.
Qed.

Lemma parse_args_decided isdir here o : exists x, parse_args isdir (Ok here) o = Ok x.
Proof.
  unfold parse_args. cbn [bind]. destruct (op_config o); [|eauto]. destruct (outdir isdir _); [|eauto].
  destruct (existsb _ _); [|eauto]. destruct (op_files o); eauto.
Qed.

(** the parser accepts the well-formed command lines and no other, and passes on what was given *)
Theorem parse_args_correct :
  forall (isdir : string -> bool) (here : string) (o : options),
  (forall a, parse_args isdir (Ok here) o = Ok (Some a) <->
     wellformed isdir here o (ar_config a) (ar_outdir a) (ar_log_level a) /\ ar_logfile a = op_logfile o /\
     ar_log_timings a = op_log_timings o /\ ar_files a = op_files o) /\
  (parse_args isdir (Ok here) o = Ok None <-> forall config dir level, ~ wellformed isdir here o config dir level).
Proof.
  intros isdir here o.
  assert (A : forall a, parse_args isdir (Ok here) o = Ok (Some a) <->
     wellformed isdir here o (ar_config a) (ar_outdir a) (ar_log_level a) /\ ar_logfile a = op_logfile o /\
     ar_log_timings a = op_log_timings o /\ ar_files a = op_files o).
  { intros [c d lf l tm fs]. unfold parse_args, wellformed, outdir. cbn [bind ar_config ar_outdir ar_log_level ar_logfile ar_log_timings ar_files].
    set (od := match op_outdir o with Some x => x | None => here end).
    set (lv := match op_log_level o with Some x => x | None => "DEBUG" end).
    assert (Eod : op_outdir o = Some d \/ op_outdir o = None /\ d = here <-> od = d).
    { unfold od. destruct (op_outdir o); intuition congruence. }
    assert (Elv : op_log_level o = Some l \/ op_log_level o = None /\ l = "DEBUG" <-> lv = l).
    { unfold lv. destruct (op_log_level o); intuition congruence. }
    rewrite Eod, Elv, <- level_in. clear Eod Elv. clearbody od lv.
    destruct (op_config o) as [config|]; [|intuition discriminate].
    destruct (isdir od) eqn:I.
    2:{ split; [discriminate|]. intros ((_ & <- & K & _) & _). congruence. }
    destruct (existsb (String.eqb lv) levels) eqn:L.
    2:{ split; [discriminate|]. intros ((_ & _ & _ & <- & K & _) & _). congruence. }
    destruct (op_files o) as [|x fl]; [intuition congruence|].
    split; [intros E; injection E as <- <- <- <- <- <-; repeat split; auto; discriminate|].
    intros ((E1 & <- & _ & <- & _) & -> & -> & ->). injection E1 as ->. reflexivity. }
  split; [exact A|]. destruct (parse_args_decided isdir here o) as [[a|] E]; rewrite E in A |- *.
  - split; [discriminate|]. intros K. exfalso. destruct (proj1 (A a) eq_refl) as (W & _). exact (K _ _ _ W).
  - split; auto. intros _ config dir level W.
    specialize (A (Args config dir (op_logfile o) level (op_log_timings o) (op_files o))). cbn in A.
    destruct A as [_ A]. specialize (A ltac:(auto)). discriminate.
Qed.
Print Assumptions parse_args_correct.

(** the exit status: 2 for a command line that is not well-formed, else 0 or 1 as the run returns or raises; a run
    is begun only with an output directory that exists and at least one file *)
Theorem cli_status :
  forall (A : Type) (isdir : string -> bool) (here : string) (run : args -> res A) (o : options) (n : nat),
  cli isdir (Ok here) run o = Ok n ->
  n = 2 /\ (forall config dir level, ~ wellformed isdir here o config dir level) \/
  (exists a, wellformed isdir here o (ar_config a) (ar_outdir a) (ar_log_level a) /\ ar_files a = op_files o /\
     isdir (ar_outdir a) = true /\ ar_files a <> [] /\
     (n = 0 /\ (exists r, run a = Ok r) \/ n = 1 /\ (exists e, run a = Err e))).
Proof.
  intros A isdir here run o n. unfold cli. destruct (parse_args_correct isdir here o) as [P1 P2].
  destruct (parse_args_decided isdir here o) as [[a|] E]; rewrite E in P1, P2 |- *.
  - intros H. right. exists a. destruct (proj1 (P1 a) eq_refl) as (W & _ & _ & F). pose proof W as (_ & _ & D & _ & _ & Ne).
    rewrite F. repeat (split; [assumption||reflexivity|]). destruct (run a) as [r|e| |]; try discriminate; injection H as <-; eauto.
  - intros H. injection H as <-. left. split; [reflexivity|]. now apply P2.
Qed.
Print Assumptions cli_status.

(** an output directory is given, but the program stops because the directory it is run from is gone *)
Theorem cli_cwd_refuted :
  exists (isdir : string -> bool) (o : options) (e : exn),
    wellformed isdir "" o "c.yml" "/out" "DEBUG" /\
    (forall (A : Type) (run : args -> res A), cli isdir (Err e) run o = Ok 1) /\
    forall here, exists a, parse_args isdir (Ok here) o = Ok (Some a) /\ ar_outdir a = "/out".
Proof.
  exists (String.eqb "/out"), (Options (Some "c.yml") (Some "/out") None None false ["a.inf"]), OSError.
  split; [|split].
  - unfold wellformed. cbn. intuition discriminate.
  - reflexivity.
  - intros here. eexists. cbn. auto.
Qed.
Print Assumptions cli_cwd_refuted.

Example parse_args_ex :
  parse_args (String.eqb "/home") (Ok "/home") (Options (Some "c.yml") None (Some "log") (Some "INFO") true ["a.inf"; "b.inf"])
  = Ok (Some (Args "c.yml" "/home" (Some "log") "INFO" true ["a.inf"; "b.inf"])) /\
  parse_args (String.eqb "/home") (Ok "/home") (Options (Some "c.yml") (Some "/tmp") None None true ["a.inf"]) = Ok None /\
  parse_args (String.eqb "/home") (Ok "/home") (Options (Some "c.yml") None None (Some "ERROR") true ["a.inf"]) = Ok None /\
  parse_args (String.eqb "/home") (Ok "/home") (Options (Some "c.yml") None None None true []) = Ok None /\
  cli (String.eqb "/home") (Ok "/home") (fun a => Ok (ar_files a)) (Options (Some "c.yml") None None None true ["a.inf"]) = Ok 0.
Proof. repeat split. Qed.
