(** Model of the command line of the pipeline (pipeline.py:411-460, 504-510). *)
From Coq Require Import String List Bool.
From Verif Require Import Base.Result.
Import ListNotations.
Local Open Scope string_scope.

(** the options given on the command line; --help and --version, which print and exit, are not among them, and how argparse
    splits the words of the command line is not modelled *)
Record options := Options {
  op_config : option string; op_outdir : option string; op_logfile : option string; op_log_level : option string;
  op_log_timings : bool; op_files : list string
}.
(** the parsed arguments *)
Record args := Args {
  ar_config : string; ar_outdir : string; ar_logfile : option string; ar_log_level : string; ar_log_timings : bool;
  ar_files : list string
}.

Section Cli.
(** os.path.isdir(), os.getcwd(), which raises when the directory has been removed *)
Context (isdir : string -> bool) (cwd : res string).

(** pipeline.py:412-417  outdir; None is an ArgumentTypeError *)
Definition outdir (path : string) : option string := if isdir path then Some path else None.

(** pipeline.py:449  choices *)
Definition levels : list string := ["DEBUG"; "INFO"; "WARNING"].

(** pipeline.py:411-460  get_parser().parse_args(); None is an error message and the exit status 2.  The default of
    --outdir is found when the parser is made, whether it is needed or not; the conversion is applied to it too, as
    argparse does when a default is a str. *)
Definition parse_args (o : options) : res (option args) :=
  here <- cwd ;;
  match op_config o with
  | None => Ok None
  | Some config =>
    match outdir (match op_outdir o with Some d => d | None => here end) with
    | None => Ok None
    | Some d =>
      let level := match op_log_level o with Some l => l | None => "DEBUG" end in
      if existsb (String.eqb level) levels then
        match op_files o with
        | [] => Ok None
        | files => Ok (Some (Args config d (op_logfile o) level (op_log_timings o) files))
        end
      else Ok None
    end
  end.

(** pipeline.py:504-510  main(): the exit status, without what run_program writes.  [run] is run_program (Model/Main.v);
    a status of 1 is that of an exception which is not caught. *)
Definition cli {A} (run : args -> res A) (o : options) : res nat :=
  match parse_args o with
  | Ok None => Ok 2
  | Ok (Some a) => match run a with Ok _ => Ok 0 | Err _ => Ok 1 | UB => UB | Loop => Loop end
  | Err _ => Ok 1
  | UB => UB
  | Loop => Loop
  end.
End Cli.
