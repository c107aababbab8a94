(** * A service together with the client whose channel it uses: a port forward
      (dataplicity/portforward.py:22-212) or a terminal (dataplicity/m2m/remoteprocess.py,
      dataplicity/m2m/proxy.py) on one channel object of dataplicity/m2m/wsclient.py.

    The service is a machine: the client's receiving thread starts its data and close
    callbacks, its own threads take steps, and both say things through the channel.
    Everything else happens to the client in between as in Model_Client.v: any other input,
    any other thread.  The channel object's test of [is_closed] and the sending of one
    packet are one step (see C91 for what happens between them). *)
From Verif Require Import Py Model_Process Model_Forward Model_Client.

(** What a service says through its channel: wsclient.py:152-156 [write], 69-72 [close]. *)
Inductive word := WData (d : bytes) | WClose.
Definition word_op (o : nat) (w : word) : op := match w with WData d => OpWrite o d | WClose => OpClose o end.

(** The callback [k] is the one installed, if one is. *)
Definition is_cb (kc : option nat) (k : nat) : bool := match kc with Some k' => k =? k' | None => false end.

Section Relay.
  (** State of the service; what the operating system does during a callback; steps of the
      service's own threads *)
  Variables S X A : Type.
  (** A callback started earlier has not returned. *)
  Variable busy : S -> bool.
  Variable on_data : X -> bytes -> S -> S * list word.
  Variable on_close : X -> S -> S * list word.
  (** A step of an own thread, told whether the channel is closed *)
  Variable act : A -> bool -> S -> S * list word.

  Variable env : list effect -> effect -> list (op * bool) * option exn.
  Variable error_text : list effect -> text.
  (** The channel object, and the callbacks the service has installed on it
      (portforward.py:40-42, remoteprocess.py:81-83, echoservice.py:23, which installs none for
      the closing; the control callback says nothing). *)
  Variables (o kd : nat) (kc : option nat).

  (** The effects a step of the client has added, in order *)
  Definition fresh (st st' : state) : list effect := rev (firstn (length (st_trace st') - length (st_trace st)) (st_trace st')).
  (** The callbacks among them that are this service's *)
  Fixpoint feed (x : X) (l : list effect) (s : S) : S * list word :=
    match l with
    | [] => (s, [])
    | e :: r =>
        let '(s1, w1) :=
          match e with
          | DataCb k o' d => if (o' =? o) && (k =? kd) then on_data x d s else (s, [])
          | CloseCb k o' => if (o' =? o) && is_cb kc k then on_close x s else (s, [])
          | _ => (s, [])
          end in
        let '(s2, w2) := feed x r s1 in (s2, w1 ++ w2)
    end.
  (** Saying: the channel drops it when it is closed; what the websocket raises is part of
      [act] and [on_data]. *)
  Definition speak (ws : list word) (st : state) : option state := run env error_text (map (fun w => InOp (word_op o w)) ws) st.

  Inductive move :=
  | Rest (i : input) (x : X)   (* anything that happens to the client *)
  | Own (a : A).               (* the service's own threads *)
  (** The receiving thread handles the next event when it has returned from a callback. *)
  Definition waits (i : input) (s : S) : bool := match i with InEvent _ => busy s | _ => false end.
  Definition shut_now (st : state) : bool := match nth_error (st_heap st) o with Some c => ch_closed c | None => true end.
  (** None: not possible now, or the receiving thread hangs *)
  Definition move_step (m : move) (y : state * S) : option (state * S) :=
    let '(st, s) := y in
    match m with
    | Rest i x =>
        if waits i s then None
        else match step env error_text i st with
             | (_, Hang) => None
             | (st1, _) =>
                 let '(s1, ws) := feed x (fresh st st1) s in
                 match speak ws st1 with Some st2 => Some (st2, s1) | None => None end
             end
    | Own a =>
        let '(s1, ws) := act a (shut_now st) s in
        match speak ws st with Some st2 => Some (st2, s1) | None => None end
    end.
  Fixpoint move_run (l : list move) (y : state * S) : option (state * S) :=
    match l with
    | [] => Some y
    | m :: r => match move_step m y with Some y' => move_run r y' | None => None end
    end.
End Relay.
Arguments Rest {X A}.
Arguments Own {X A}.

(** ** Port forward: one [Connection] *)
(** The connection thread, portforward.py:57-113; inside [_connect] it is in [Model_Forward.cpc]. *)
Inductive loop :=
| LConnecting                            (* 69 *)
| LCheck                                 (* 76 *)
| LPolling                               (* 80 *)
| LEvents (l : list Z)                   (* 87, event masks still to handle *)
| LLeaving                               (* 106 *)
| LGone.
Record tunnel := Tun {
  t_in : cst;        (* buffer, lock, socket and both threads as far as inbound data goes *)
  t_loop : loop;
  t_event : bool;    (* the manager's close_event, shared with other connections *)
  t_rest : bytes }.  (* what the local server has sent or will send, not received yet *)
Definition tunnel_start (event : bool) (stream : bytes) : tunnel := Tun cinit LConnecting event stream.
Inductive tunnel_step :=
| TCallback (s : sendres)                (* the callback under way goes on *)
| TConnects (ok : bool)                  (* 168 *)
| TConnect (s : sendres)                 (* the connection thread goes on in _connect *)
| TEnter (ok : bool)                     (* 69-72; poll.register may fail *)
| TOtherEnds                             (* another connection sets the event *)
| TCheck                                 (* 76 *)
| TPoll (r : option (list Z))            (* 80-86; None: poll raises *)
| THandle (r : option nat) (send_ok : bool) (* 87-105; recv: None raises, Some n: up to n+1 bytes *)
| TLeave (elapsed : Z).                  (* 106-113 *)
Definition with_in t c := Tun c (t_loop t) (t_event t) (t_rest t).
Definition with_loop t x := Tun (t_in t) x (t_event t) (t_rest t).

(** portforward.py:185-188, 199-207: the callbacks start. *)
Definition tunnel_data (x : unit) (d : bytes) (t : tunnel) : tunnel * list word := (with_in t (cstep (Arrives d) (t_in t)), []).
Definition tunnel_close (x : unit) (t : tunnel) : tunnel * list word := (with_in t (cstep Closes (t_in t)), []).
Definition tunnel_busy (t : tunnel) : bool := match m_pc (t_in t) with MIdle => false | _ => true end.
(** portforward.py:102-105 *)
Definition after_event (mask : Z) (r : list Z) (t : tunnel) : tunnel :=
  Tun (t_in t) (match r with [] => LCheck | _ => LEvents r end) (t_event t || failed mask) (t_rest t).
Definition tunnel_act (chunk : nat) (a : tunnel_step) (closed : bool) (t : tunnel) : tunnel * list word :=
  match a, t_loop t with
  | TCallback s, _ => (with_in t (cstep (StepM s) (t_in t)), [])
  | TConnects ok, LConnecting => (with_in t (cstep (Connects ok) (t_in t)), [])
  | TConnect s, LConnecting => (with_in t (cstep (StepC s) (t_in t)), [])
  | TEnter ok, LConnecting =>
      match c_pc (t_in t) with
      | CConnected => (with_loop t (if ok then LCheck else LLeaving), [])
      | CFailed => (with_loop t LLeaving, [])
      | _ => (t, [])
      end
  | TOtherEnds, _ => (Tun (t_in t) (t_loop t) true (t_rest t), [])
  | TCheck, LCheck => (with_loop t (if t_event t then LLeaving else LPolling), [])
  | TPoll None, LPolling => (with_loop t LLeaving, [])
  | TPoll (Some l), LPolling =>
      (with_loop t (if closed then LLeaving else match l with [] => LCheck | _ => LEvents l end), [])
  | THandle r send_ok, LEvents (mask :: l) =>
      if Model_Forward.readable mask then
        match r with
        | None => (with_loop t LCheck, []) (* 92-94 *)
        | Some n =>
            match firstn (Nat.min chunk (Datatypes.S n)) (t_rest t) with
            | [] => (with_loop t LCheck, []) (* 99-101 *)
            | d =>
                let t1 := Tun (t_in t) (t_loop t) (t_event t) (skipn (Nat.min chunk (Datatypes.S n)) (t_rest t)) in
                (if send_ok then after_event mask l t1 else with_loop t1 LLeaving, [WData d])
            end
        end
      else (after_event mask l t, [])
  | TLeave elapsed, LLeaving => (* 108: ZeroDivisionError before the channel is closed *)
      (with_loop t LGone, if (elapsed =? 0)%Z then [] else [WClose])
  | _, _ => (t, [])
  end.

(** ** Terminal: one [RemoteProcess] *)
(** What the operating system does during a callback: the writes to the pty, whether kill
    and the start of the wait thread succeed. *)
Definition term_os := ((nat -> wr) * bool * bool)%type.
(** remoteprocess.py:102-106: the callback asks for the channel to be closed when writing fails. *)
Definition term_data (x : term_os) (d : bytes) (p : pst) : pst * list word :=
  let p' := pstep (Data d (fst (fst x))) p in
  (p', repeat WClose (asked p' - asked p)).
(** remoteprocess.py:122-123 *)
Definition term_close (x : term_os) (p : pst) : pst * list word := (pstep (CloseChannel (snd (fst x)) (snd x)) p, []).
Definition term_busy (p : pst) : bool := false.
(** The events of Model_Process.v that are not callbacks of the channel; a read of the pty is
    written to the channel, remoteprocess.py:125-127.  [limit]: proxy.py:149. *)
Definition term_act (limit : nat) (e : Model_Process.event) (closed : bool) (p : pst) : pst * list word :=
  match e with
  | Data _ _ | CloseChannel _ _ => (p, [])
  | Reads n _ _ =>
      if n <=? limit then (pstep e p, match ph p with Copying => [WData (firstn n (pending p))] | _ => [] end) else (p, [])
  | _ => (pstep e p, [])
  end.
