(** * What is asked of the command line *)
From Verif Require Import Py Model_App.

(** The agent was told to stop: after some polls with nothing, an exit or an interrupt *)
Definition told_to_stop (polls : list (poll_outcome * wait_outcome)) : Prop :=
  exists idle p w r, polls = idle ++ (p, w) :: r /\ Forall (fun x => x = (PollOk, Timeout)) idle /\
    (p = PollSystemExit \/ p = PollInterrupt \/ p = PollOk /\ w <> Timeout).
(** A poll fails after some with nothing *)
Definition poll_fails (polls : list (poll_outcome * wait_outcome)) : Prop :=
  exists idle e w r, polls = idle ++ (PollRaises e, w) :: r /\ Forall (fun x => x = (PollOk, Timeout)) idle.
Definition succeeds (c : command) : Prop :=
  match c with Run client polls => client = None /\ told_to_stop polls | Version stdout => stdout = None end.
Definition fails (c : command) : Prop :=
  match c with
  | Run client polls => (exists e, client = Some (Stop e)) \/ client = None /\ poll_fails polls
  | Version stdout => exists e, stdout = Some (Stop e)
  end.
(** An interrupt comes while the client is made or the version is printed. *)
Definition cut_short (c : command) : Prop :=
  match c with Run client _ => client = Some StopInterrupt | Version stdout => stdout = Some StopInterrupt end.
(** The log level is one the agent knows, in any case; with --quiet it does not matter. *)
Definition known_level (upper : text -> text) (a : args) : Prop :=
  quiet a = true \/ In (upper (log_level a)) [T "NOTSET"; T "DEBUG"; T "INFO"; T "WARN"; T "WARNING"; T "ERROR"; T "CRITICAL"].
(** The log file can be used, if one is wanted. *)
Definition log_file_works (file_config : text -> option exn) (a : args) : Prop :=
  forall path, log_file a = Some path -> path <> [] -> file_config path = None.
