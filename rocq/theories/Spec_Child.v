(** * What is asked of the processes of terminals *)
From Verif Require Import Py Model_Child Model_Process.

(** ** C119: rights.  Real, effective and saved ids agree *)
Definition plain (c : creds) : Prop := ruid c = euid c /\ suid c = euid c /\ rgid c = egid c /\ sgid c = egid c.
Definition as_user (uid : Z) (c : creds) : Prop := ruid c = uid /\ euid c = uid /\ suid c = uid.
Definition as_group (gid : Z) (c : creds) : Prop := rgid c = gid /\ egid c = gid /\ sgid c = gid.
(** The rights a process can give itself afterwards *)
Inductive later (c : creds) : creds -> Prop :=
| now_ : later c c
| setuid_later u c' c'' : later c c' -> setuid u c' = Some c'' -> later c c''
| setgid_later g c' c'' : later c c' -> setgid g c' = Some c'' -> later c c''.

(** ** C120: the program, $SHELL if none is configured *)
Inductive chosen (shell : option text) : list text -> list text -> Prop :=
| configured p a : chosen shell (p :: a) (p :: a)
| the_shell s : shell = Some s -> chosen shell [] [s].

(** ** C121, C122: nobody asks for the process to be ended *)
Definition unclosed (e : event) : Prop := match e with CloseChannel _ _ | CloseProcess _ _ => False | _ => True end.
(** Nothing fails that the thread of the terminal does with its channel and its window *)
Definition untroubled (e : event) : Prop := match e with InitFd false | Reads _ _ false => False | _ => True end.
(** The next steps of a wait thread *)
Definition round (i : nat) : list event := [Begins i; WaitPid i; Act i true; WaitPid i].
