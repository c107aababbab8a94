(** * The child of a terminal: dataplicity/m2m/proxy.py:64-92, between fork and exec.

    Logging is left out.  User and group ids are those of Linux, without capabilities: a process
    is privileged exactly if its effective user id is 0. *)
From Verif Require Import Py.

(** Real, effective and saved ids, and the supplementary groups *)
Record creds := Creds { ruid : Z; euid : Z; suid : Z; rgid : Z; egid : Z; sgid : Z; groups : list Z }.
(** setuid(2); [None]: EPERM *)
Definition setuid (u : Z) (c : creds) : option creds :=
  if (euid c =? 0)%Z then Some (Creds u u u (rgid c) (egid c) (sgid c) (groups c))
  else if (u =? ruid c)%Z || (u =? suid c)%Z then Some (Creds (ruid c) u (suid c) (rgid c) (egid c) (sgid c) (groups c))
  else None.
(** setgid(2) *)
Definition setgid (g : Z) (c : creds) : option creds :=
  if (euid c =? 0)%Z then Some (Creds (ruid c) (euid c) (suid c) g g g (groups c))
  else if (g =? rgid c)%Z || (g =? sgid c)%Z then Some (Creds (ruid c) (euid c) (suid c) (rgid c) g (sgid c) (groups c))
  else None.

(** What becomes of the child: another program; or an exception ends the child's only thread and
    with it the child, its traceback goes to stderr, which is the terminal; or it waits for ever. *)
Inductive fate := Executes (argv : list text) (c : creds) | Ends (e : exn) | Waits.

Section Child.
  (** pwd.getpwnam and grp.getgrnam ([None]: KeyError), os.environ.get("SHELL"), and what exec
      raises, if anything *)
  Variables passwd group_db : text -> option Z.
  Variable shell : option text.
  Variable exec : list text -> creds -> option exn.

  (** proxy.py:68-77 *)
  Definition switch_user (user : option text) (c : creds) : res creds :=
    match user with
    | None => Ok c
    | Some u =>
        match passwd u with
        | None => Ok c                                        (* log.error *)
        | Some uid => match setuid uid c with Some c' => Ok c' | None => Raise EOS end
        end
    end.
  (** proxy.py:78-87 *)
  Definition switch_group (group : option text) (c : creds) : res creds :=
    match group with
    | None => Ok c
    | Some g =>
        match group_db g with
        | None => Ok c                                        (* log.error *)
        | Some gid => match setgid gid c with Some c' => Ok c' | None => Raise EOS end
        end
    end.
  (** proxy.py:88-89 *)
  Definition program (argv : list text) : res (list text) :=
    match argv with
    | [] => match shell with Some s => Ok [s] | None => Raise EKey end
    | _ => Ok argv
    end.
  (** proxy.py:67-92 *)
  Definition child_side (user group : option text) (argv : list text) (c : creds) : res (list text * creds) :=
    c <- switch_user user c ;;
    c <- switch_group group c ;;
    argv <- program argv ;;
    match exec argv c with None => Ok (argv, c) | Some e => Raise e end.
  (** remoteprocess.py:96-100 in the child.  After an exception it calls limiter.decrement
      (limiter.py:74-81) on its own copy of the limiter, whose lock is [held] if another thread had
      it when the process was forked; that thread does not exist in the child.  The launching
      thread has it from before this thread is started until it has logged the launch
      (m2mmanager.py:65-68, limiter.py:22-34). *)
  Definition child_run (held : bool) (user group : option text) (argv : list text) (c : creds) : fate :=
    match child_side user group argv c with
    | Ok (argv, c) => Executes argv c
    | Raise e => if held then Waits else Ends e
    | Hang => Waits
    end.
End Child.
