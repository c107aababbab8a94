(** * What is logged where: app.py:120-156 with the parts of logging it uses (CPython 3.11).
    Left out: formatting, rotation of the file and failures while a record is written. *)
From Verif Require Import Py Model_App.

Inductive place := Stderr | LogFile (path : text).
(** The loggers of the agent have no level and no handlers of their own and hand everything to the root. *)
Record logging := Logging { root_level : Z; root_handlers : list (place * Z); disabled : list text }.
(** Before anything is set up: the root has level WARNING and no handlers. *)
Definition logging0 : logging := Logging 30 [] [].
(** logging._nameToLevel *)
Definition name_to_level : list (text * Z) :=
  [(T "CRITICAL", 50); (T "FATAL", 50); (T "ERROR", 40); (T "WARN", 30); (T "WARNING", 30); (T "INFO", 20); (T "DEBUG", 10); (T "NOTSET", 0)]%Z.

Section Logging.
  Variable upper : text -> text.
  (** what opening the log file raises, if anything *)
  Variable file_config : text -> option exn.
  (** the loggers that exist already, all but the root *)
  Variable existing : list text.

  (** logging.basicConfig(level=...): it does nothing if the root has handlers. *)
  Definition basic_config (level : Z) (l : logging) : logging :=
    match root_handlers l with [] => Logging level [(Stderr, 0%Z)] (disabled l) | _ :: _ => l end.
  (** logging.config.dictConfig with one handler, a file, and the root as the only logger *)
  Definition dict_config (disable_existing : bool) (handler_level logger_level : text) (path : text) : logging + exn :=
    match dict_get text_eqb handler_level name_to_level, dict_get text_eqb logger_level name_to_level with
    | Some h, Some r =>
        match file_config path with
        | Some e => inr e
        | None => inl (Logging r [(LogFile path, h)] (if disable_existing then existing else []))
        end
    | _, _ => inr EValue
    end.
  (** app.py:120-156 *)
  Definition configure (a : args) (l : logging) : logging + exn :=
    let log_level := if quiet a then T "CRITICAL" else upper (log_level a) in
    match dict_get text_eqb log_level level_names with
    | None => inr EKey
    | Some log_level_no =>
        match log_file a with
        | Some ((_ :: _) as path) => dict_config false log_level log_level path
        | _ => inl (basic_config log_level_no l)
        end
    end.
  (** log.debug(...) and so on: where a record of level [n] of the logger [name] is written.
      Logger.isEnabledFor, Logger.callHandlers; without any handler WARNING and above go to stderr. *)
  Definition emit (name : text) (n : Z) (l : logging) : list place :=
    if existsb (text_eqb name) (disabled l) then []
    else if (n <=? 0)%Z then []
    else if (n <? root_level l)%Z then []
    else match root_handlers l with
         | [] => if (30 <=? n)%Z then [Stderr] else []
         | hs => map fst (filter (fun h => (snd h <=? n)%Z) hs)
         end.
End Logging.
