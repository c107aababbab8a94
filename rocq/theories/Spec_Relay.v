(** * What C110 to C113 mean: a service and the peer of its channel *)
From Verif Require Import Py Model_Process Model_Forward Model_Client Spec_Client Spec_Early Spec_Outbound Model_Relay.

(** Others neither speak through channel object [o] nor replace its callbacks. *)
Definition hands_off (o : nat) (p : op) : Prop := by_channels_only p /\ elsewhere o p /\ keeps_callbacks o p.
Definition respected (env : list effect -> effect -> list (op * bool) * option exn) (o : nat) : Prop :=
  leave_alone env o /\ nobody_replaces env o.
Definition others {X A} (o : nat) (l : list (@move X A)) : Prop :=
  Forall (fun m => match m with Rest (InOp p) _ => hands_off o p | _ => True end) l.
(** A service has just installed its callbacks on the open channel object [o]. *)
Definition perched (st : state) (o kd : nat) (kc : option nat) (c : chan) : Prop :=
  reached st /\ chan_of st o = Some c /\ ch_closed c = false /\ ch_data_cb c = Some kd /\ ch_close_cb c = kc.
Definition seated (st : state) (o kd kc : nat) (c : chan) : Prop := perched st o kd (Some kc) c.
(** What happens to the client, in order *)
Definition rest_inputs {X A} (l : list (@move X A)) : list input := flat_map (fun m => match m with Rest i _ => [i] | Own _ => [] end) l.
Definition own_steps {X A} (l : list (@move X A)) : list A := flat_map (fun m => match m with Rest _ _ => [] | Own a => [a] end) l.
(** [l1] is the part of [l] up to the closing of [o], that included. *)
Definition open_part {X A S} (go : list (@move X A) -> option (state * S)) (o : nat) (l l1 : list (@move X A)) : Prop :=
  exists l2, l = l1 ++ l2 /\
    (forall l0 m l3 y, l1 = l0 ++ m :: l3 -> go l0 = Some y -> ~ object_closed (fst y) o) /\
    (l2 = [] \/ exists y, go l1 = Some y /\ object_closed (fst y) o).

(** Sessions with a port forward and with a terminal *)
Definition forward_session env error_text (o kd kc chunk : nat) (l : list (@move unit tunnel_step)) (st : state) (event : bool) (stream : bytes) : option (state * tunnel) :=
  move_run tunnel unit tunnel_step tunnel_busy tunnel_data tunnel_close (tunnel_act chunk) env error_text o kd (Some kc) l (st, tunnel_start event stream).
Definition terminal_session env error_text (o kd kc limit : nat) (l : list (@move term_os Model_Process.event)) (st : state) (t0 : Z) : option (state * pst) :=
  move_run pst term_os Model_Process.event term_busy term_data term_close (term_act limit) env error_text o kd (Some kc) l (st, pinit t0).
(** How often the peer is told that the channel is closed *)
Definition closes_of (l : list said) : nat := length (filter (fun x => match x with SClose => true | _ => false end) l).
Definition is_control_said (x : said) : Prop := match x with SControl _ => True | _ => False end.
(** Connecting to the local server failed, or sending it what had already arrived *)
Definition gave_up (t : tunnel) : Prop := c_pc (t_in t) = CFailed.
