(** * Properties C33-C35: port forwarding (Connection of dataplicity/portforward.py) *)
From Verif Require Import Py Model_Forward Spec_Forward Proof_Forward Proof_Forward2 Proof_Forward3.

(** C33. In every interleaving in which no sendall raised, the local server has a prefix of
    the data that arrived, and all of it once both threads are done. *)
Theorem C33_in_order_without_failures_partial : forall l, let st := crun l cinit in
  send_failed st = false ->
  is_prefix (delivered st) (concat (arrived st)) /\ (settled st -> delivered st = concat (arrived st)).
Proof. exact in_order. Qed.
Print Assumptions C33_in_order_without_failures_partial.
(** If the socket never fails, and the channel is not closed while connecting, all is delivered. *)
Theorem C33_all_delivered_partial : forall l, no_failure l -> late_close l cinit -> settled (crun l cinit) ->
  delivered (crun l cinit) = concat (arrived (crun l cinit)).
Proof. exact late_close_delivers. Qed.
Print Assumptions C33_all_delivered_partial.
(** If the socket breaks for good at any point, the local server has a prefix. *)
Theorem C33_prefix_when_broken_partial : forall l, breaks_once l cinit ->
  is_prefix (delivered (crun l cinit)) (concat (arrived (crun l cinit))).
Proof. exact breaks_once_prefix. Qed.
Print Assumptions C33_prefix_when_broken_partial.
(** Nothing is sent before there is a socket. *)
Theorem C33_nothing_before_connection : forall l, socket (crun l cinit) = false -> delivered (crun l cinit) = [].
Proof. exact nothing_before. Qed.
Print Assumptions C33_nothing_before_connection.
(** When the channel is closed the socket is shut down for writing, so that the local server
    sees the end of the data. *)
Theorem C33_close_shuts_partial : forall l, no_failure l -> late_close l cinit -> settled (crun l cinit) ->
  chan_closed (crun l cinit) = true -> shut (crun l cinit) = true.
Proof. exact close_shuts. Qed.
Print Assumptions C33_close_shuts_partial.
(** From every reachable state both threads can finish: no deadlock on the lock. *)
Theorem C33_no_deadlock : forall l, exists st', reaches (crun l cinit) st' /\ m_pc st' = MIdle /\ (c_pc st' = CConnected \/ c_pc st' = CFailed).
Proof. exact no_deadlock. Qed.
Print Assumptions C33_no_deadlock.
(** A sendall that times out (5 seconds, the socket is still good) drops the rest of the
    buffer and later data is sent: the local server gets a stream with a hole. *)
Theorem C33_timeout_hole_refuted : exists l, settled (crun l cinit) /\
  ~ is_prefix (delivered (crun l cinit)) (concat (arrived (crun l cinit))).
Proof. exact hole_refuted. Qed.
Print Assumptions C33_timeout_hole_refuted.
(** [self.socket] is assigned without the lock: when that happens between the flush and the
    shutdown of [on_channel_close], the socket is shut for writing before the data is sent,
    and the data is lost although no send failed by itself. *)
Theorem C33_close_race_refuted : exists l, no_failure l /\
  m_pc (crun l cinit) = MIdle /\ c_pc (crun l cinit) = CFailed /\ In (Connects true) l /\
  arrived (crun l cinit) = [[x41]] /\ delivered (crun l cinit) = [] /\ buffer (crun l cinit) = [].
Proof. exact race_refuted. Qed.
Print Assumptions C33_close_race_refuted.

(** Data before the connection, data arriving between the assignment of the socket and the
    flush by the connection thread, and data after it. *)
Definition C33_run : list action :=
  [Arrives (B "ab"); StepM None; StepM None; StepM None; StepM None; Connects true; StepC None;
   Arrives (B "c"); StepM None; StepC None; StepM None; StepM None; StepM None; StepM None; StepM None; StepM None; StepM None;
   StepC None; StepC None; StepC None; StepC None; StepC None;
   Arrives (B "d"); StepM None; StepM None; StepM None; StepM None; StepM None; StepM None; StepM None; Closes].
Example C33_case : no_failure C33_run /\ late_close C33_run cinit /\
  delivered (crun C33_run cinit) = B "abcd" /\ c_pc (crun C33_run cinit) = CConnected /\ chan_closed (crun C33_run cinit) = true.
Proof.
  split; [repeat constructor|]. split; [|repeat split].
  vm_compute. repeat split; intros; try discriminate; auto.
Qed.
Example C33_settled_case : let l := firstn 30 C33_run in settled (crun l cinit) /\ no_failure l /\ late_close l cinit /\ send_failed (crun l cinit) = false.
Proof.
  split; [split; reflexivity|]. split; [repeat constructor|]. split; [|reflexivity].
  vm_compute. repeat split; intros; try discriminate; auto.
Qed.
Definition C33_closed_run : list action := C33_run ++ repeat (StepM None) 6.
Example C33_shut_case : no_failure C33_closed_run /\ late_close C33_closed_run cinit /\ settled (crun C33_closed_run cinit) /\
  chan_closed (crun C33_closed_run cinit) = true /\
  socket (crun (firstn 5 C33_run) cinit) = false /\ arrived (crun (firstn 5 C33_run) cinit) = [B "ab"].
Proof.
  split; [repeat constructor|]. split; [|repeat split].
  vm_compute. repeat split; intros; try discriminate; auto.
Qed.
Definition C33_broken : list action :=
  [Connects true; StepC None; StepC None; StepC None; StepC None; StepC None; StepC None;
   Arrives (B "ab"); StepM None; StepM None; StepM None; StepM (Some 1); StepM (Some 0); StepM (Some 0)].
Example C33_broken_case : breaks_once C33_broken cinit /\ delivered (crun C33_broken cinit) = B "a".
Proof. split; [|reflexivity]. vm_compute. repeat split; intros; try discriminate; auto. Qed.

(** C34. While no poll reports an error or hang-up, a connection goes as if it were alone:
    all actions of other connections can be left out. *)
Theorem C34_independent_without_errors_partial : forall chunk j l, Forall quiet l ->
  close_event (orun chunk l oinit) = false /\
  nth_error (conns (orun chunk l oinit)) j = nth_error (conns (orun chunk (filter (relevant j) l) oinit)) j.
Proof. exact independent. Qed.
Print Assumptions C34_independent_without_errors_partial.
(** A hang-up of one connection ends the others, and no connection made later transfers
    anything: [close_event] is shared by all and never cleared. *)
Theorem C34_shared_event_refuted : forall chunk, let n := orun chunk shared_run oinit in
  (exists c, nth_error (conns n) 1 = Some c /\ o_pc c = OCheck /\ o_rest c = [x41] /\ o_closed c = false) /\
  (forall l, exists c, nth_error (conns (orun chunk l n)) 1 = Some c /\ o_written c = []) /\
  (forall l s, exists c, nth_error (conns (orun chunk (New s :: l) n)) 2 = Some c /\ o_written c = []).
Proof. exact shared_refuted. Qed.
Print Assumptions C34_shared_event_refuted.
(** The same from any state: once the event is set, no connection outside [poll] writes again. *)
Theorem C34_event_ends_all : forall chunk j w l n c, close_event n = true -> nth_error (conns n) j = Some c -> o_pc c <> OPolling -> o_written c = w ->
  exists c', nth_error (conns (orun chunk l n)) j = Some c' /\ o_pc c' <> OPolling /\ o_written c' = w.
Proof. exact dead_conn. Qed.
Print Assumptions C34_event_ends_all.
Example C34_case : let l := [New (B "x"); New (B "yz"); OConnects 0 true; OConnects 1 true; CheckEvent 0; CheckEvent 1;
    Polls 1 (PollResult [(1%Z, Some 0)]); Polls 0 (PollResult [(1%Z, Some 5)]); CheckEvent 1; Polls 1 (PollResult [(1%Z, Some 5)])] in
  Forall quiet l /\ map o_written (conns (orun 1024 l oinit)) = [B "x"; B "yz"] /\ length (filter (relevant 1) l) = 7.
Proof. split; [repeat constructor|split; reflexivity]. Qed.
Example C34_event_case : close_event (orun 16 shared_run oinit) = true.
Proof. reflexivity. Qed.

(** C35. What was written to the channel and what is still to be received make up the local
    server's stream, for every sequence of events. *)
Theorem C35_in_order_partial : forall chunk l i c, nth_error (conns (orun chunk l oinit)) i = Some c ->
  o_written c ++ o_rest c = stream_of i l.
Proof. exact out_order. Qed.
Print Assumptions C35_in_order_partial.
(** A connection that ended has asked once for its channel to be closed, if it was open,
    unless the clock shows no time since the start (ZeroDivisionError). *)
Theorem C35_ended_closes_partial : forall chunk l i c, (forall j e, In (Leaves j e) l -> e <> 0%Z) ->
  nth_error (conns (orun chunk l oinit)) i = Some c ->
  (o_pc c = OGone -> o_closed c = true \/ o_asked c = 1) /\ (o_pc c <> OGone -> o_asked c = 0).
Proof. exact out_closed. Qed.
Print Assumptions C35_ended_closes_partial.
(** A hang-up or error reported by poll, together with data or without, ends the connection. *)
Theorem C35_hangup_closes_partial : forall chunk i n c mask r e,
  nth_error (conns n) i = Some c -> o_pc c = OPolling -> o_closed c = false -> failed mask = true ->
  (readable mask = true -> exists k, r = Some k /\ firstn (Nat.min chunk (S k)) (o_rest c) <> []) -> e <> 0%Z ->
  exists c', nth_error (conns (orun chunk [Polls i (PollResult [(mask, r)]); CheckEvent i; Leaves i e] n)) i = Some c' /\
    o_pc c' = OGone /\ o_asked c' = S (o_asked c).
Proof. exact hangup_closes. Qed.
Print Assumptions C35_hangup_closes_partial.
(** A failed connection attempt, a failing poll, or a poll after the channel was closed ends
    the connection, and the channel if it is open. *)
Theorem C35_failure_ends_partial : forall chunk i n c e, nth_error (conns n) i = Some c -> e <> 0%Z ->
  (forall a, (o_pc c = OConnecting /\ a = OConnects i false) \/ (o_pc c = OPolling /\ a = Polls i PollFails) \/
             (o_pc c = OPolling /\ o_closed c = true /\ exists l, a = Polls i (PollResult l)) ->
   exists c', nth_error (conns (orun chunk [a; Leaves i e] n)) i = Some c' /\ o_pc c' = OGone /\
     (o_closed c = false -> o_asked c' = S (o_asked c))).
Proof. exact failure_ends. Qed.
Print Assumptions C35_failure_ends_partial.
(** End of stream is reported as POLLIN with an empty recv; the [break] leaves only the [for]
    loop. However often it is seen, the connection stays in its loop and nothing closes the channel. *)
Theorem C35_end_of_stream_refuted : forall chunk k s, s <> [] -> length s <= chunk ->
  let n := orun chunk ([New s; OConnects 0 true; CheckEvent 0; Polls 0 (PollResult [(1%Z, Some (length s))])] ++ eof_polls 0 k) oinit in
  exists c, nth_error (conns n) 0 = Some c /\ o_pc c = OCheck /\ o_rest c = [] /\ o_written c = s /\ o_asked c = 0.
Proof. exact eof_refuted. Qed.
Print Assumptions C35_end_of_stream_refuted.
Example C35_case :
  let n := orun 2 [New (B "hello"); OConnects 0 true; CheckEvent 0; Polls 0 (PollResult [(1%Z, Some 9)]); CheckEvent 0;
                   Polls 0 (PollResult []); CheckEvent 0; Polls 0 (PollResult [(1%Z, Some 0)]); CheckEvent 0] oinit in
  map (fun c => (o_written c, o_rest c, o_pc c)) (conns n) = [(B "hel", B "lo", OPolling)] /\
  map (fun c => (o_written c, o_pc c, o_asked c))
    (conns (orun 2 [Polls 0 (PollResult [(17%Z, Some 9)]); CheckEvent 0; Leaves 0 3] n)) = [(B "hello", OGone, 1)].
Proof. split; reflexivity. Qed.
Example C35_failure_case : map (fun c => (o_pc c, o_asked c))
    (conns (orun 2 [New (B "x"); New (B "y"); OConnects 1 true; CheckEvent 1; OConnects 0 false; Leaves 0 1; Polls 1 PollFails; Leaves 1 2] oinit)) =
  [(OGone, 1); (OGone, 1)].
Proof. reflexivity. Qed.
