(** * What C115 to C118 mean: opening services *)
From Verif Require Import Py Model_Process Model_Bencode Spec_Bencode Model_Client Spec_Client Spec_Early Spec_Outbound Model_Manager Spec_System Model_Limiter
  Model_Relay Spec_Relay Model_Opening.
Local Open Scope nat_scope.

(** The deed is one for the channel with number [n]. *)
Inductive on_channel (n : Z) : deed -> Prop :=
| on_terminal name size : on_channel n (LaunchTerminal name (VInt n) size)
| on_echo : on_channel n (StartEcho (VInt n))
| on_forward host port : on_channel n (Connect host port (VInt n))
| on_file path : on_channel n (SendFile (VInt n) path)
| on_command c : on_channel n (RunCommand (VInt n) c).
(** When the message [i] is an instruction, the manager carries it out, with luck [v] at starting
    a thread. *)
Definition obeys (env : list effect -> effect -> list (op * bool) * option exn) (json : string -> string -> string -> text) (ks : callbacks) (m : manager)
  (v : luck) (n : Z) (st : state) (i : input) : Prop :=
  forall s data, calls_for i (Instruction s data) -> env (st_trace st) (Instruction s data) = manager_reply json ks m v (object_for n st) data.
(** The number is still that of a channel closed by the end of an earlier connection. *)
Definition dead_number (st : state) (n : Z) : Prop := exists o, registered st n = Some o /\ object_closed st o.

(** ** C115: the service is where data for the channel go. *)
Definition connected (ks : callbacks) (d : deed) (st : state) (o : nat) (c : chan) : Prop :=
  match d with
  | LaunchTerminal _ _ _ | Connect _ _ _ => seated st o (for_data ks) (for_close ks) c /\ ch_ctl_cb c = Some (for_control ks)
  | StartEcho _ => perched st o (for_data ks) None c /\ ch_ctl_cb c = None
  | _ => reached st /\ chan_of st o = Some c /\ ch_closed c = false
  end.

(** Nobody calls the terminal's [close] directly; only [on_client_close]
    does (m2mmanager.py:115-118), which nothing calls. *)
Definition uncalled (a : Model_Process.event) : Prop := match a with Model_Process.CloseProcess _ _ => False | _ => True end.

(** ** C116 *)
(** How the peer is told that a request is refused *)
Inductive no_for (json : string -> string -> string -> text) : deed -> said -> Prop :=
| no_terminal name c size rest : no_for json (LaunchTerminal name c size) (SData (B "Failed to launch" ++ rest))
| no_forward host port c rest : no_for json (Connect host port c) (SData (B "HTTP/1.1 503 " ++ rest))
| no_file c path rest : no_for json (SendFile c path) (SData (B "HTTP/1.1 503 " ++ rest))
| no_command c cmd b : utf8_encode (json "command" "error" "error")%string = Some b -> no_for json (RunCommand c cmd) (SControl b).
(** The websocket raises nothing but WebSocketError. *)
Definition civil (env : list effect -> effect -> list (op * bool) * option exn) : Prop :=
  forall tr b x, snd (env tr (Sent b)) = Some x -> x = EWebSocket.
Definition sound_errors (json : string -> string -> string -> text) : Prop := forall a b c, exists d, utf8_encode (json a b c) = Some d /\ short d.

(** ** C117: sessions with an echo service *)
Definition echo_session env error_text (o kd : nat) (l : list (@move unit Empty_set)) (st : state) : option (state * unit) :=
  move_run unit unit Empty_set echo_busy echo_data echo_close echo_act env error_text o kd None l (st, tt).

(** ** C118 *)
(** Which limiter a deed is under *)
Inductive under : deed -> pool -> Prop :=
| under_terminal name c size : under (LaunchTerminal name c size) Terminals
| under_forward host port c : under (Connect host port c) Services
| under_file c path : under (SendFile c path) Services
| under_command c cmd : under (RunCommand c cmd) Services.
Definition of_pool (p : pool) (h : happening) : bool :=
  match h, p with
  | Asked (LaunchTerminal _ _ _) _, Terminals | Ended Terminals, Terminals => true
  | Asked (Connect _ _ _ | SendFile _ _ | RunCommand _ _) _, Services | Ended Services, Services => true
  | _, _ => false
  end.
(** How many services of a limiter run after what happened, in order *)
Inductive count (limit : pool -> nat) (p : pool) : list happening -> nat -> Prop :=
| count_nil : count limit p [] 0
| count_started l n d : count limit p l n -> under d p -> n < limit p -> count limit p (l ++ [Asked d true]) (S n)
| count_failed l n d : count limit p l n -> under d p -> count limit p (l ++ [Asked d false]) n
| count_full l n d ok : count limit p l n -> under d p -> n = limit p -> count limit p (l ++ [Asked d ok]) n
| count_ended l n : count limit p l n -> count limit p (l ++ [Ended p]) (n - 1)
| count_other_asked l n d ok : count limit p l n -> ~ under d p -> count limit p (l ++ [Asked d ok]) n
| count_other_ended l n q : count limit p l n -> q <> p -> count limit p (l ++ [Ended q]) n.
