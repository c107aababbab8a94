(** * Properties C37-C39, C80, C81: terminal processes
      (dataplicity/m2m/remoteprocess.py, dataplicity/m2m/proxy.py) *)
From Verif Require Import Py Model_Process Spec_Process Proof_Process Proof_Process2.

(** A session: the shell starts, gets input and prints; the channel closes; the shell
    ignores SIGHUP and is killed 16 seconds later. *)
Definition took1 : nat -> wr := fun n => Took n.
Definition session : list event :=
  [Fork true; SetPid; InitFd true; Data (B "ls -l") took1; Prints (B "total 0"); Reads 3 false true; Reads 100 false true;
   Tick 5; CloseChannel true true; Begins 0; Tick 2; WaitPid 0; Act 0 true; Tick 14; WaitPid 0; Act 0 true; Exits; Tick 2; WaitPid 0].

(** C37. One SIGHUP and one SIGKILL at most, only to the process itself (existing and not
    collected), SIGKILL 15 seconds or more after SIGHUP. *)
Theorem C37_signals : forall t0 evs st, st = prun evs (pinit t0) ->
  times SIGHUP (signals st) <= 1 /\ times SIGKILL (signals st) <= 1 /\
  (forall s t k, In (s, t, k) (signals st) -> exists_ k) /\
  (forall t k, In (SIGKILL, t, k) (signals st) -> exists t' k', In (SIGHUP, t', k') (signals st) /\ (t' + 15 <= t)%Z).
Proof. exact c37. Qed.
Print Assumptions C37_signals.
(** Once the process has exited, and the wait thread is not between looking and acting,
    no SIGKILL follows. *)
Theorem C37_no_kill_after_exit : forall t0 before after st, st = prun before (pinit t0) ->
  (kid st = Zombie \/ kid st = Reaped) -> (forall w, In w (waiters st) -> w_phase w <> StillRunning) ->
  times SIGKILL (signals (prun (before ++ after) (pinit t0))) = times SIGKILL (signals st).
Proof. exact no_kill_after_exit. Qed.
Print Assumptions C37_no_kill_after_exit.
(** A process still running 15 seconds after the wait thread began gets SIGKILL in the
    thread's next round; the thread does not give up before. *)
Theorem C37_kill_comes : forall st w, waiters st = [w] -> w_phase w = Sleeping -> w_sent_kill w = false -> kid st = Running ->
  (w_start w + 15 <= now st)%Z -> In (SIGKILL, now st, Running) (signals (prun [WaitPid 0; Act 0 true] st)).
Proof. exact kill_comes. Qed.
Print Assumptions C37_kill_comes.
Theorem C37_does_not_give_up : forall t0 evs st w, st = prun evs (pinit t0) -> In w (waiters st) -> w_phase w = Finished ->
  kid st = Reaped \/ w_sent_kill w = true.
Proof. exact gives_up. Qed.
Print Assumptions C37_does_not_give_up.
Example C37_case : signals (prun session (pinit 100)) = [(SIGKILL, 121%Z, Running); (SIGHUP, 105%Z, Running)] /\
  kid (prun session (pinit 100)) = Reaped /\ waiters (prun session (pinit 100)) = [W 105 [10; 30; 60; 600; 3600; 86400]%Z true Finished].
Proof. vm_compute. auto. Qed.

(** C38 is false: a channel closed before the fork has returned never sends any signal,
    whatever happens later; the process runs on. *)
Theorem C38_close_before_spawn_refuted : forall t0 before after k t st, st = prun before (pinit t0) ->
  pid st = false -> chan_closed st = false -> closed st = false ->
  signals (prun (before ++ CloseChannel k t :: after) (pinit t0)) = [].
Proof. exact closed_too_early. Qed.
Print Assumptions C38_close_before_spawn_refuted.
(** Once the process has been created and its creation noted, whatever happened before,
    closing the channel sends SIGHUP. *)
Theorem C38_close_after_spawn_partial : forall t0 evs t, let st := prun evs (pinit t0) in
  kid st <> Unborn -> ph st <> Forked -> chan_closed st = false -> closed st = false ->
  In (SIGHUP, now st, kid st) (signals (pstep (CloseChannel true t) st)).
Proof. exact hup_after_spawn. Qed.
Print Assumptions C38_close_after_spawn_partial.
Example C38_spawn_case : let st := prun [Fork true; SetPid; Prints (B "$ "); InitFd true; Exits] (pinit 0) in
  kid st = Zombie /\ ph st = Copying /\ chan_closed st = false /\ closed st = false /\
  signals (pstep (CloseChannel true false) st) = [(SIGHUP, 0%Z, Zombie)].
Proof. vm_compute. auto 6. Qed.
Example C38_case :
  let st := prun ([] ++ CloseChannel true true :: [Fork true; SetPid; InitFd true; Tick 1000]) (pinit 0) in
  signals st = [] /\ kid st = Running /\ chan_closed st = true.
Proof. vm_compute. auto. Qed.

(** C39. Whatever the write sizes, the pty receives a prefix of each message, in order; all
    of it unless the agent asked to close the channel or it was closed. *)
Theorem C39_input_in_order_partial : forall t0 evs,
  let st := prun evs (pinit t0) in
  (exists parts, input st = concat parts /\ Forall2 prefix parts (datas evs)) /\
  (asked st = 0 -> chan_closed st = false -> input st = concat (datas evs)).
Proof. exact fed_run. Qed.
Print Assumptions C39_input_in_order_partial.
(** But input that arrives before the process is spawned is lost, and ends the session. *)
Theorem C39_input_before_spawn_refuted : forall t0 d ws evs, datas evs = [] ->
  input (prun (Data d ws :: evs) (pinit t0)) = [] /\ asked (prun (Data d ws :: evs) (pinit t0)) = 1.
Proof. exact early_input_lost. Qed.
Print Assumptions C39_input_before_spawn_refuted.
Example C39_case : input (prun session (pinit 0)) = B "ls -l" /\ asked (prun session (pinit 0)) = 0 /\
  input (prun [Fork true; Data (B "abcdef") (fun n => if n =? 2 then WriteFails else Took n); Data (B "xy") took1] (pinit 0)) = B "abcxy".
Proof. vm_compute. auto. Qed.

(** C80. What is written to the channel is a prefix of what was printed, in order; all of
    it if the channel is open and nothing is left unread. *)
Theorem C80_output_in_order_partial : forall t0 evs, prefix (written (prun evs (pinit t0))) (terminal_output evs).
Proof. exact output_prefix. Qed.
Print Assumptions C80_output_in_order_partial.
Theorem C80_output_when_all_read_partial : forall t0 evs st, st = prun evs (pinit t0) -> chan_closed st = false -> pending st = [] ->
  written st = terminal_output evs.
Proof. exact output_complete. Qed.
Print Assumptions C80_output_when_all_read_partial.
(** But a hang-up that comes with a read shorter than what is pending (Linux reads at most
    4095 bytes of a pty at a time) loses the rest. *)
Theorem C80_output_lost_at_exit_refuted : exists evs, let st := prun evs (pinit 0) in
  chan_closed st = false /\ ph st = Over /\ kid st = Zombie /\ terminal_output evs = B "hello world" /\
  forall more, written (prun more st) = B "hello".
Proof. exact output_lost. Qed.
Print Assumptions C80_output_lost_at_exit_refuted.

(** C81 is false: the agent asks to close the channel only in answer to input; when the
    process ends nothing is sent. *)
Theorem C81_channel_stays_open_refuted : forall t0 evs, datas evs = [] -> asked (prun evs (pinit t0)) = 0.
Proof. exact (fun t0 evs H => proj2 (no_data_no_change evs (pinit t0) H)). Qed.
Print Assumptions C81_channel_stays_open_refuted.
(** Input after the end does close it. *)
Theorem C81_input_after_end_partial : forall st d ws, ph st = Over -> fd st = false -> chan_closed st = false ->
  asked (pstep (Data d ws) st) = S (asked st).
Proof. exact input_after_end. Qed.
Print Assumptions C81_input_after_end_partial.
Example C81_case :
  let evs := [Fork true; SetPid; InitFd true; Prints (B "bye"); Reads 3 false true; Exits; Hangup; CloseFd; ForgetFd; Tick 600] in
  let st := prun evs (pinit 0) in
  asked st = 0 /\ ph st = Over /\ fd st = false /\ kid st = Zombie /\ chan_closed st = false.
Proof. vm_compute. auto. Qed.
