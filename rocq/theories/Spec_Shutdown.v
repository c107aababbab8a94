(** * What is asked of the agent's end *)
From Verif Require Import Py Model_Shutdown.

(** What is done on the way out: closing the connection, noting the end of a sync, and the clauses
    of run_forever *)
Definition cleanup (p : place) : Prop := match p with PClose | PSyncEnd | PUserExit | PStop | PJoin | PBye => True | _ => False end.
Definition no_failure (tr : trace) : Prop := Forall (fun e => snd e <> Fails) tr.
(** The user interrupts the agent at [p]; [after]: what it does then *)
Definition interrupted (tr : trace) (p : place) (after : trace) : Prop := exists before, tr = after ++ (p, Interrupt) :: before.
Definition ended {A} (o : out A) : Prop := match o with Endless => False | _ => True end.

(** Nothing fails and the user does not interrupt again. *)
Definition undisturbed (tr : trace) : Prop := Forall (fun e => exists b, snd e = Goes b) tr.
(** In a poll or between two polls *)
Definition while_polling (p : place) : Prop := match p with PClient | PClock | PUserExit | PStop | PJoin | PBye | PReport => False | _ => True end.
(** Number of polls *)
Definition polls (tr : trace) : nat := length (filter (fun e => match fst e with PPoll => true | _ => false end) tr).

(** ** C124: exit() is called at statement t *)
Definition exit_from (t : nat) (exits : nat -> bool) : Prop := forall n, t <= n -> exits n = true.
(** A poll that is not the first one starts at statement n. *)
Definition polls_again (tr : trace) (n : nat) : Prop :=
  exists after ev before, tr = after ++ (PPoll, ev) :: before /\ length before = n /\ polls before <> 0.

(** ** C125 *)
Definition main_alive (l : list thread) : Prop := exists t, In t l /\ t_kind t = Main /\ t_alive t = true.
(** Python waits for these when the main thread ends. *)
Definition kept_by (l : list thread) (t : thread) : Prop := In t l /\ t_alive t = true /\ t_daemon t = false.
