(** * Descriptor numbers of terminals: dataplicity/m2m/proxy.py:57-101, 115-125 and 155-176

    A terminal keeps the descriptor of its pty as a number.  The numbers of all open
    descriptors of the agent's process are in one table; closed ones are given out again.
    Threads interleave at every use of [self.master_fd] and of a descriptor; an event that is not
    possible changes nothing.  Data and sizes are left out except for the data written. *)
From Verif Require Import Py.

(** What an open descriptor stands for *)
Inductive owner := Pty (i : nat) | Other (n : nat).   (* the pty of terminal i; a file or socket of the agent *)
(** The thread of a terminal *)
Inductive tpc :=
| TNew
| TForked (fd : nat)     (* pty.fork returned, 64 *)
| TCopy (fd : nat)       (* master_fd is set, 65-98 *)
| TClosed (fd : nat)     (* os.close done, 100 *)
| TForgot (fd : nat).    (* master_fd is None, 101 *)
(** The callback of the terminal's channel that the receiving thread is in *)
Inductive cpc :=
| CIdle
| CWrite (fd : nat) (data : bytes)   (* write_master, 174-176 *)
| CResize                            (* 158 passed, before 119 *)
| CSized                             (* 119-123 passed, before self.master_fd is read in 125 *)
| CIoctl (fd : nat).                 (* the arguments of 125 are evaluated *)
Record term := Term { t_pc : tpc; t_fd : option nat; c_pc : cpc }.   (* t_fd: self.master_fd *)
Inductive use := UWrite (d : bytes) | UResize | URead.
Record hst := HS {
  table : nat -> option owner;          (* open descriptors *)
  terms : nat -> term;
  uses : list (nat * owner * use) }.    (* what was done for a terminal to which descriptor, latest first *)
(** [t0]: what is open before the first terminal is started *)
Definition hinit (t0 : nat -> option nat) : hst :=
  HS (fun fd => option_map Other (t0 fd)) (fun _ => Term TNew None CIdle) [].

Inductive event :=
| Fork (i fd : nat)          (* 64: the kernel gives a free number *)
| SetFd (i : nat)            (* 65 *)
| Reads (i : nat)            (* 149, also the ioctl of 94 *)
| CloseFd (i : nat)          (* 100 *)
| Forget (i : nat)           (* 101 *)
| Opens (fd n : nat)         (* another part of the agent opens something *)
| Closes (fd n : nat)
| Input (i : nat) (d : bytes) (* remoteprocess.py:102-104, proxy.py:172-173 *)
| Resize (i : nat)           (* 158 *)
| Step (i n : nat) (ok : bool). (* the callback goes on; a write takes up to n+1 bytes, or raises *)

Definition upd {A} (f : nat -> A) (i : nat) (x : A) (j : nat) : A := if j =? i then x else f j.
Definition with_term st i t := HS (table st) (upd (terms st) i t) (uses st).
Definition with_table st fd w := HS (upd (table st) fd w) (terms st) (uses st).
Definition with_tpc st i p := let t := terms st i in with_term st i (Term p (t_fd t) (c_pc t)).
Definition with_cpc st i p := let t := terms st i in with_term st i (Term (t_pc t) (t_fd t) p).
(** A use of number [fd]; EBADF if it is closed *)
Definition touch st (i fd : nat) (u : use) : hst :=
  match table st fd with Some w => HS (table st) (terms st) ((i, w, u) :: uses st) | None => st end.
Definition is_open st fd : bool := match table st fd with Some _ => true | None => false end.

Definition hstep (e : event) (st : hst) : hst :=
  match e with
  | Fork i fd =>
      match t_pc (terms st i) with
      | TNew => if is_open st fd then st else with_tpc (with_table st fd (Some (Pty i))) i (TForked fd)
      | _ => st
      end
  | SetFd i =>
      match t_pc (terms st i) with
      | TForked fd => with_term st i (Term (TCopy fd) (Some fd) (c_pc (terms st i)))
      | _ => st
      end
  | Reads i => match t_pc (terms st i) with TCopy fd => touch st i fd URead | _ => st end
  | CloseFd i => match t_pc (terms st i) with TCopy fd => with_tpc (with_table st fd None) i (TClosed fd) | _ => st end
  | Forget i =>
      match t_pc (terms st i) with
      | TClosed fd => with_term st i (Term (TForgot fd) None (c_pc (terms st i)))
      | _ => st
      end
  | Opens fd n => if is_open st fd then st else with_table st fd (Some (Other n))
  | Closes fd n => match table st fd with Some (Other m) => if m =? n then with_table st fd None else st | _ => st end
  | Input i d =>
      match c_pc (terms st i), t_fd (terms st i) with
      | CIdle, Some fd => with_cpc st i (CWrite fd d)
      | _, _ => st (* AssertionError, caught in remoteprocess.py:105 *)
      end
  | Resize i =>
      match c_pc (terms st i), t_fd (terms st i) with
      | CIdle, Some _ => with_cpc st i CResize
      | _, _ => st
      end
  | Step i n ok =>
      match c_pc (terms st i) with
      | CIdle => st
      | CWrite fd [] => with_cpc st i CIdle
      | CWrite fd d =>
          if ok && is_open st fd then touch (with_cpc st i (CWrite fd (skipn (S n) d))) i fd (UWrite (firstn (S n) d))
          else with_cpc st i CIdle
      | CResize => with_cpc st i (match t_fd (terms st i) with Some _ => CSized | None => CIdle end)
      | CSized => with_cpc st i (match t_fd (terms st i) with Some fd => CIoctl fd | None => CIdle end)
      | CIoctl fd => touch (with_cpc st i CIdle) i fd UResize
      end
  end.
Definition hrun (l : list event) (st : hst) : hst := fold_left (fun s e => hstep e s) l st.
