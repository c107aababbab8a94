(** * A terminal process: dataplicity/m2m/remoteprocess.py, dataplicity/m2m/proxy.py

    A transition system over the process thread ([RemoteProcess.run]), the m2m thread
    (channel callbacks), the wait threads, the child process and the clock.  An event that
    is not enabled changes nothing.  Logging, users and groups are left out. *)
From Verif Require Import Py.

(** The process thread, proxy.py:57-101 *)
Inductive phase :=
| Starting   (* before pty.fork, 64 *)
| Forked     (* 65 done, 66 not *)
| HavePid    (* 66 done, before _init_fd, 94 *)
| Copying    (* in _copy, 96 *)
| Closing    (* before os.close, 100 *)
| Closed     (* before 101 *)
| Over.      (* returned or raised *)
Inductive child := Unborn | Running | Zombie | Reaped.
Inductive sig := SIGHUP | SIGKILL.
(** remoteprocess.py:19-69 [PidWaitThread.run], between two of its steps *)
Inductive wphase := Launched (* before 34 *) | Sleeping (* 47 *) | StillRunning (* 55 *) | Finished.
Record waiter := W { w_start : Z; w_warnings : list Z; w_sent_kill : bool; w_phase : wphase }.

Record pst := P {
  now : Z;                          (* time.time(), taken to be monotonic *)
  ph : phase;
  fd : bool;                        (* self.master_fd is not None *)
  pid : bool;                       (* self.pid is not None *)
  closed : bool;                    (* self._closed *)
  kid : child;
  waiters : list waiter;
  signals : list (sig * Z * child); (* latest first: signal, time, state of the child then *)
  chan_closed : bool;               (* Channel._closed *)
  asked : nat;                      (* close requests sent *)
  input : bytes;                    (* accepted by the pty *)
  pending : bytes;                  (* printed by the child, not read yet *)
  written : bytes }.                (* written to the channel *)

(** remoteprocess.py:75-85, proxy.py:48-55 *)
Definition pinit (t0 : Z) : pst :=
  P t0 Starting false false false Unborn [] [] false 0 [] [] [].

(** One [os.write]: [Took n] accepts n+1 bytes (at most all of them), a blocking write never
    accepts none; or it raises. *)
Inductive wr := Took (n : nat) | WriteFails.

Inductive event :=
| Tick (d : nat)
| Fork (ok : bool) | SetPid | InitFd (ok : bool)
| Prints (d : bytes)                       (* the child, or a process it left behind *)
| Exits                                    (* the child *)
| Reads (n : nat) (hangup send_ok : bool)  (* _copy: POLLIN, then possibly POLLHUP *)
| Hangup                                   (* _copy: POLLHUP only, or a failing poll or read *)
| CloseFd | ForgetFd
| Data (d : bytes) (ws : nat -> wr)        (* m2m thread: a route packet *)
| CloseChannel (kill_ok thread_ok : bool)  (* m2m thread: notify_close or disconnection *)
| CloseProcess (kill_ok thread_ok : bool)  (* a direct call of close(), m2mmanager.py:83 *)
| Begins (i : nat)                         (* wait thread i: remoteprocess.py:34 *)
| WaitPid (i : nat)                        (* wait thread i: remoteprocess.py:47-53 *)
| Act (i : nat) (kill_ok : bool).          (* wait thread i: 54-67 and 46 *)

(** remoteprocess.py:35-43 *)
Definition warnings0 : list Z := [5; 10; 30; 60; 60 * 10; 60 * 60; 60 * 60 * 24]%Z.
(** remoteprocess.py:45 *)
Definition kill_time : Z := 15.

(** proxy.py:174-176, the loop of [write_master]: bytes accepted, and whether it raised. *)
Fixpoint write_loop (fuel k : nat) (ws : nat -> wr) (data : bytes) : bytes * bool :=
  match fuel, data with
  | O, _ | _, [] => ([], true)
  | S f, _ =>
      match ws k with
      | WriteFails => ([], false)
      | Took n => let '(acc, ok) := write_loop f (S k) ws (skipn (S n) data) in (firstn (S n) data ++ acc, ok)
      end
  end.

Definition with_now st t := P t (ph st) (fd st) (pid st) (closed st) (kid st) (waiters st) (signals st) (chan_closed st) (asked st) (input st) (pending st) (written st).
Definition with_ph st x := P (now st) x (fd st) (pid st) (closed st) (kid st) (waiters st) (signals st) (chan_closed st) (asked st) (input st) (pending st) (written st).
Definition with_fd st x := P (now st) (ph st) x (pid st) (closed st) (kid st) (waiters st) (signals st) (chan_closed st) (asked st) (input st) (pending st) (written st).
Definition with_pid st := P (now st) (ph st) (fd st) true (closed st) (kid st) (waiters st) (signals st) (chan_closed st) (asked st) (input st) (pending st) (written st).
Definition with_closed st := P (now st) (ph st) (fd st) (pid st) true (kid st) (waiters st) (signals st) (chan_closed st) (asked st) (input st) (pending st) (written st).
Definition with_kid st x := P (now st) (ph st) (fd st) (pid st) (closed st) x (waiters st) (signals st) (chan_closed st) (asked st) (input st) (pending st) (written st).
Definition with_waiters st x := P (now st) (ph st) (fd st) (pid st) (closed st) (kid st) x (signals st) (chan_closed st) (asked st) (input st) (pending st) (written st).
(** [os.kill(self.pid, s)] that does not raise *)
Definition kill st s := P (now st) (ph st) (fd st) (pid st) (closed st) (kid st) (waiters st) ((s, now st, kid st) :: signals st) (chan_closed st) (asked st) (input st) (pending st) (written st).
Definition with_chan_closed st := P (now st) (ph st) (fd st) (pid st) (closed st) (kid st) (waiters st) (signals st) true (asked st) (input st) (pending st) (written st).
(** wsclient.py:69-72 [Channel.close] *)
Definition ask_close st := if chan_closed st then st else P (now st) (ph st) (fd st) (pid st) (closed st) (kid st) (waiters st) (signals st) (chan_closed st) (S (asked st)) (input st) (pending st) (written st).
Definition with_input st x := P (now st) (ph st) (fd st) (pid st) (closed st) (kid st) (waiters st) (signals st) (chan_closed st) (asked st) x (pending st) (written st).
Definition with_io st x y := P (now st) (ph st) (fd st) (pid st) (closed st) (kid st) (waiters st) (signals st) (chan_closed st) (asked st) (input st) x y.

(** The descriptor is open (it is left open if _init_fd or a channel write raises, 94-101). *)
Definition fd_open st := match ph st with Starting | Closed => false | _ => fd st end.

(** remoteprocess.py:102-106 [on_data], proxy.py:168-176; one step of the m2m thread, a
    closing in the middle of it shows as a failing write. *)
Definition on_data (d : bytes) (ws : nat -> wr) (st : pst) : pst :=
  if fd_open st then
    let '(acc, ok) := write_loop (length d) 0 ws d in
    let st' := with_input st (input st ++ acc) in
    if ok then st' else ask_close st'
  else if fd st then match d with [] => st | _ => ask_close st end (* os.write on a closed descriptor *)
  else ask_close st. (* AssertionError, proxy.py:173 *)

(** remoteprocess.py:132-141 [close], called by [on_close] (122-123) *)
Definition close (kill_ok thread_ok : bool) (st : pst) : pst :=
  if negb (closed st) && pid st then
    if kill_ok then
      let st' := kill st SIGHUP in
      with_closed (if thread_ok then with_waiters st' (waiters st' ++ [W (now st) warnings0 false Launched]) else st')
    else st (* os.kill raised *)
  else with_closed st.

Fixpoint update {A} (i : nat) (x : A) (l : list A) : list A :=
  match l, i with
  | [], _ => []
  | _ :: r, O => x :: r
  | a :: r, S j => a :: update j x r
  end.

(** remoteprocess.py:56-67 and the test of 46 *)
Definition act (i : nat) (kill_ok : bool) (w : waiter) (st : pst) : pst :=
  let passed := (now st - w_start w)%Z in
  let ws := match w_warnings w with t :: r => if (t <=? passed)%Z then r else t :: r | [] => [] end in
  let next (sk ok : bool) := W (w_start w) ws sk (if ok then match ws with [] => Finished | _ => Sleeping end else Finished) in
  if negb (w_sent_kill w) && (kill_time <=? passed)%Z then
    if kill_ok then with_waiters (kill st SIGKILL) (update i (next true true) (waiters st))
    else with_waiters st (update i (next true false) (waiters st))
  else with_waiters st (update i (next (w_sent_kill w) true) (waiters st)).

Definition pstep (e : event) (st : pst) : pst :=
  match e with
  | Tick d => with_now st (now st + Z.of_nat d)
  | Fork ok =>
      match ph st with
      | Starting => if ok then with_kid (with_fd (with_ph st Forked) true) Running else with_ph st Over
      | _ => st
      end
  | SetPid => match ph st with Forked => with_pid (with_ph st HavePid) | _ => st end
  | InitFd ok => match ph st with HavePid => with_ph st (if ok then Copying else Over) | _ => st end
  | Prints d => match kid st with Unborn => st | _ => with_io st (pending st ++ d) (written st) end
  | Exits => match kid st with Running => with_kid st Zombie | _ => st end
  | Reads n hangup send_ok => (* proxy.py:148-153, remoteprocess.py:125-127 *)
      match ph st with
      | Copying =>
          let st' := with_io st (skipn n (pending st)) (if chan_closed st then written st else written st ++ firstn n (pending st)) in
          if send_ok then if hangup then with_ph st' Closing else st' else with_ph st' Over
      | _ => st
      end
  | Hangup => match ph st with Copying => with_ph st Closing | _ => st end
  | CloseFd => match ph st with Closing => with_ph st Closed | _ => st end
  | ForgetFd => match ph st with Closed => with_fd (with_ph st Over) false | _ => st end
  | Data d ws => if chan_closed st then st else on_data d ws st (* wsclient.py:89-99 *)
  | CloseChannel kill_ok thread_ok => (* wsclient.py:74-83 *)
      if chan_closed st then st else close kill_ok thread_ok (with_chan_closed st)
  | CloseProcess kill_ok thread_ok => close kill_ok thread_ok st
  | Begins i =>
      match nth_error (waiters st) i with
      | Some w => match w_phase w with
                  | Launched => with_waiters st (update i (W (now st) (w_warnings w) (w_sent_kill w) Sleeping) (waiters st))
                  | _ => st
                  end
      | None => st
      end
  | WaitPid i =>
      match nth_error (waiters st) i with
      | Some w =>
          match w_phase w with
          | Sleeping =>
              match kid st with
              | Running | Unborn => with_waiters st (update i (W (w_start w) (w_warnings w) (w_sent_kill w) StillRunning) (waiters st))
              | Zombie => with_kid (with_waiters st (update i (W (w_start w) (w_warnings w) (w_sent_kill w) Finished) (waiters st))) Reaped
              | Reaped => (* ChildProcessError *) with_waiters st (update i (W (w_start w) (w_warnings w) (w_sent_kill w) Finished) (waiters st))
              end
          | _ => st
          end
      | None => st
      end
  | Act i kill_ok =>
      match nth_error (waiters st) i with
      | Some w => match w_phase w with StillRunning => act i kill_ok w st | _ => st end
      | None => st
      end
  end.
Definition prun (evs : list event) (st : pst) : pst := fold_left (fun s e => pstep e s) evs st.
