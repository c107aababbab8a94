(** * The command line: app.py, subcommands/run.py, subcommands/version.py, client.py:101-121.
    Left out: argparse itself (its outcome is an argument), the texts that are printed, print_help
    failing to write, and the clock check thread. *)
From Verif Require Import Py.

(** What one poll of the agent, or the wait after it, comes to *)
Inductive poll_outcome := PollOk | PollRaises (e : exn) | PollSystemExit | PollInterrupt.
Inductive wait_outcome := Timeout | ExitSet | WaitInterrupt.
(** What running a sub-command comes to; [Returned None]: the value None *)
Inductive outcome := Returned (v : option Z) | Raised (e : exn) | Interrupted | Running.
(** client.py:101-121: the polls so far and the waits after them; the finally clause only stops a thread. *)
Fixpoint run_forever (l : list (poll_outcome * wait_outcome)) : outcome :=
  match l with
  | [] => Running
  | (PollOk, Timeout) :: r => run_forever r
  | (PollOk, ExitSet) :: _ => Returned None
  | (PollOk, WaitInterrupt) :: _ => Returned None
  | (PollSystemExit, _) :: _ => Returned None
  | (PollInterrupt, _) :: _ => Returned None
  | (PollRaises e, _) :: _ => Raised e
  end.
(** What a step can be cut short by *)
Inductive stop := Stop (e : exn) | StopInterrupt. (* nothing there calls sys.exit *)
Definition stopped (s : stop) : outcome := match s with Stop e => Raised e | StopInterrupt => Interrupted end.
(** The registered sub-commands (subcommand.py:10-17) and what happens when they run: what cuts
    Client() short, if anything, and the polls; what cuts writing to stdout short, if anything *)
Inductive command := Run (client : option stop) (polls : list (poll_outcome * wait_outcome)) | Version (stdout : option stop).
(** run.py:12-14, version.py:15-16 *)
Definition run_command (c : command) : outcome :=
  match c with
  | Run (Some s) _ => stopped s
  | Run None polls => run_forever polls
  | Version (Some s) => stopped s
  | Version None => Returned None
  end.

Record args := Args { log_level : text; log_file : option text; debug : bool; quiet : bool; sub : option command }.
(** parse_args: --help, --version and wrong arguments exit *)
Inductive parsed := Parsed (a : args) | ParserExit (code : Z).
(** app.py:17-25 *)
Definition level_names : list (text * Z) :=
  [(T "NOTSET", 0); (T "DEBUG", 10); (T "INFO", 20); (T "WARN", 30); (T "WARNING", 30); (T "ERROR", 40); (T "CRITICAL", 50)]%Z.
(** How the process ends: sys.exit(code), a traceback of an exception or of an interrupt, or not at all *)
Inductive ending := Exit (code : Z) | Traceback (e : exn) | Interrupt | Never.
Inductive flow := Return (code : Z) | Ended (e : ending).

Section App.
  (** [upper]: str.upper; [file_config]: what dictConfig raises for the log file, if anything;
      [stderr]: what writing to stderr raises, if anything *)
  Variable upper : text -> text.
  Variable file_config : text -> option exn.
  Variable stderr : option exn.
  (** app.py:120-156: the exception it raises, if any *)
  Definition init_logging (a : args) : option exn :=
    let log_level := if quiet a then T "CRITICAL" else upper (log_level a) in
    match dict_get text_eqb log_level level_names with
    | None => Some EKey                                              (* except IndexError does not catch it *)
    | Some _ =>
        match log_file a with
        | Some ((_ :: _) as path) => file_config path
        | _ => None
        end
    end.
  (** x or 0 *)
  Definition or_0 (v : option Z) : Z := match v with Some z => z | None => 0%Z end.
  (** app.py:175-198 *)
  Definition app_run (p : parsed) : flow :=
    match p with
    | ParserExit code => Ended (Exit code)
    | Parsed a =>
        match init_logging a with
        | Some e => Ended (Traceback e)
        | None =>
            match sub a with
            | None => Return 1
            | Some c =>
                match run_command c with
                | Returned v => Return (or_0 v)
                | Raised e => if debug a then Ended (Traceback e)
                              else match stderr with Some e' => Ended (Traceback e') | None => Return (-1) end
                | Interrupted => Ended Interrupt
                | Running => Ended Never
                end
            end
        end
    end.
  (** app.py:201-205 *)
  Definition main (p : parsed) : ending := match app_run p with Return code => Exit (or_0 (Some code)) | Ended e => e end.
End App.
(** The status the system sees (CPython: sys.exit(n) gives n modulo 256, a traceback 1, an interrupt 130) *)
Definition status (e : ending) : option Z :=
  match e with Exit code => Some (code mod 256)%Z | Traceback _ => Some 1%Z | Interrupt => Some 130%Z | Never => None end.
