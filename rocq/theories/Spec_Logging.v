(** * What is asked of logging *)
From Verif Require Import Py Model_App Model_Logging.

(** The levels a user can ask for, in capitals, and what they stand for *)
Inductive stands_for : text -> Z -> Prop :=
| Notset : stands_for (T "NOTSET") 0
| Debug : stands_for (T "DEBUG") 10
| Info : stands_for (T "INFO") 20
| Warn : stands_for (T "WARN") 30
| Warning : stands_for (T "WARNING") 30
| Error : stands_for (T "ERROR") 40
| Critical : stands_for (T "CRITICAL") 50.
(** The least level to be logged: --quiet leaves only what is critical. *)
Definition asked (upper : text -> text) (a : args) (level : Z) : Prop :=
  if quiet a then level = 50%Z else stands_for (upper (log_level a)) level.
(** Where to *)
Definition wanted (a : args) : place := match log_file a with Some (c :: r) => LogFile (c :: r) | _ => Stderr end.
