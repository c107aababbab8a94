(** * The websocket client: channels, dispatcher, packet handlers
      (dataplicity/m2m/wsclient.py and dataplicity/m2m/dispatcher.py)

    The environment (websocket, callbacks installed on channels, command callbacks,
    remote directory, manager) is an arbitrary function [env] of everything that
    happened before.  For each call into the environment it says which operations of
    the client the callee performs in return (with a flag: does it suppress an
    exception of that operation), and which exception it finally raises.  Only
    [Exception]s are modelled, not [SystemExit] or [KeyboardInterrupt].  Logging and
    [last_packet_time] are left out.  [channel_callback] and [control_callback] of
    wsclient.py:187-188 are always None in the agent (m2mmanager.py:98) and are left out. *)
From Verif Require Import Py Model_Bencode Model_Packets.

(** ** Channels (wsclient.py:50-165) *)
(** wsclient.py:53-63. Callbacks are identified by numbers. *)
Record chan := Chan {
  ch_no : Z; ch_closed : bool;
  ch_data_cb : option nat; ch_close_cb : option nat; ch_ctl_cb : option nat;
  ch_deque : list bytes; ch_event : bool }.
(** wsclient.py:53-63 [Channel.__init__] *)
Definition new_chan (n : Z) : chan := Chan n false None None None [] false.

(** wsclient.py:97-99: appending a message. *)
Definition chan_push (d : bytes) (c : chan) : chan :=
  Chan (ch_no c) (ch_closed c) (ch_data_cb c) (ch_close_cb c) (ch_ctl_cb c) (ch_deque c ++ [d]) true.
(** wsclient.py:78 *)
Definition chan_shut (c : chan) : chan :=
  Chan (ch_no c) true (ch_data_cb c) (ch_close_cb c) (ch_ctl_cb c) (ch_deque c) (ch_event c).
(** wsclient.py:109-112 [set_callbacks] *)
Definition chan_set_cbs (d x t : option nat) (c : chan) : chan :=
  Chan (ch_no c) (ch_closed c) d x t (ch_deque c) (ch_event c).
(** wsclient.py:114-117 [size] *)
Definition chan_size (c : chan) : nat := list_sum (map (@length byte) (ch_deque c)).
(** wsclient.py:119-123 [__bool__] *)
Definition chan_ready (c : chan) : bool := ch_event c.

(** wsclient.py:137-146, the loop of [read]: bytes taken and the deque left.  Each turn
    removes the head or ends the loop, as [bytes_remaining] is then 0. *)
Fixpoint read_loop (q : list bytes) (remaining : Z) : bytes * list bytes :=
  match q with
  | [] => ([], [])
  | head :: rest =>
      if (remaining =? 0)%Z then ([], q)
      else
        let read_bytes := Z.min remaining (Z.of_nat (length head)) in
        let left := slice_from head read_bytes in
        match left with
        | [] => let '(out, q') := read_loop rest (remaining - read_bytes) in
                (slice_to head read_bytes ++ out, q')
        | _ :: _ =>
            (* the head stays: the next turn, if any, sees [bytes_left] first *)
            (slice_to head read_bytes, left :: rest)
        end
  end.
(** wsclient.py:125-150 [read], when it does not have to wait.  ([read_loop] stops when
    something is left of the head: then [bytes_remaining] is 0, see
    [read_loop_stops] in Proof_Client3.v.) *)
Definition chan_read (count : Z) (c : chan) : bytes * chan :=
  let '(out, q) := read_loop (ch_deque c) count in
  (out, Chan (ch_no c) (ch_closed c) (ch_data_cb c) (ch_close_cb c) (ch_ctl_cb c) q
             (match q with [] => false | _ => ch_event c end)).

(** ** Packet handlers (wsclient.py:373-497) *)
Inductive handler :=
| HNull | HSetIdentity | HPing | HWelcome | HLog | HRoute | HRouteControl | HNotifyOpen
| HNotifyClose | HLoginSuccess | HResponse | HInstruction | HOpenFile | HCloseFile
| HReadFile | HScan | HWriteFile.

(** Parameter names after [self] and [packet_type]. *)
Definition h_params (h : handler) : list string :=
  match h with
  | HNull => [] (* 374 *)
  | HSetIdentity => ["identity"%string] (* 379 *)
  | HPing => ["data"%string] (* 387 *)
  | HWelcome => [] (* 392 *)
  | HLog => ["msg"%string] (* 397 *)
  | HRoute => ["channel"%string; "data"%string] (* 402 *)
  | HRouteControl => ["channel"%string; "data"%string] (* 413 *)
  | HNotifyOpen => ["channel_no"%string] (* 424 *)
  | HNotifyClose => ["channel_no"%string] (* 430 *)
  | HLoginSuccess => ["user"%string] (* 439 *)
  | HResponse => ["command_id"%string; "result"%string] (* 445 *)
  | HInstruction => ["sender"%string; "data"%string] (* 450 *)
  | HOpenFile => ["upload_id"%string; "path"%string] (* 458 *)
  | HCloseFile => ["upload_id"%string] (* 464 *)
  | HReadFile => ["upload_id"%string; "offset"%string; "size"%string] (* 470 *)
  | HScan => [] (* 476 *)
  | HWriteFile => ["id"%string; "path"%string; "device_path"%string; "offset"%string; "data"%string; "final"%string] (* 489 *)
  end.

(** The exposed methods in the order of [dir()] (alphabetical), with the member of
    PacketType given to [expose]. *)
Definition exposed : list (string * handler) :=
  [("log"%string, HLog); ("null"%string, HNull); ("ping"%string, HPing); ("route"%string, HRoute);
   ("route_control"%string, HRouteControl); ("set_identity"%string, HSetIdentity); ("welcome"%string, HWelcome);
   ("close_remote_file"%string, HCloseFile); ("instruction"%string, HInstruction);
   ("notify_login_success"%string, HLoginSuccess); ("notify_close"%string, HNotifyClose);
   ("notify_open"%string, HNotifyOpen); ("open_remote_file"%string, HOpenFile);
   ("read_remote_file"%string, HReadFile); ("response"%string, HResponse);
   ("scan_remote_directory"%string, HScan); ("write_remote_file"%string, HWriteFile)].

(** dispatcher.py:62-69 [_init_dispatcher] *)
Fixpoint init_dispatcher (l : list (string * handler)) (d : list (Z * handler)) : list (Z * handler) :=
  match l with
  | [] => d
  | (n, h) :: r =>
      match type_of_name n with
      | None => init_dispatcher r d
      | Some t => init_dispatcher r (dict_set Z.eqb t h d)
      end
  end.
Definition handlers : list (Z * handler) := init_dispatcher exposed [].

(** Binding of arguments to parameters without defaults (dispatcher.py:99-102,
    [inspect.getcallargs]); None is TypeError. *)
Fixpoint bind_rest (params : list string) (kwargs : list (string * val)) : option (list val) :=
  match params with
  | [] => match kwargs with [] => Some [] | _ => None end
  | n :: r =>
      match dict_get String.eqb n kwargs with
      | None => None
      | Some v => match bind_rest r (dict_del String.eqb n kwargs) with
                  | None => None | Some vs => Some (v :: vs) end
      end
  end.
Definition bind_args (params : list string) (args : list val) (kwargs : list (string * val)) : option (list val) :=
  if length params <? length args then None
  else match bind_rest (skipn (length args) params) kwargs with
       | None => None | Some vs => Some (args ++ vs) end.

(** dispatcher.py:71-109 [dispatch] and [dispatch_packet] up to the call: which handler
    is called with which values.  [getfullargspec] of a bound method counts [self] and
    [packet_type]. *)
Definition resolve (t : Z) (body : list val) : res (option (handler * list val)) :=
  p <- create t body [] ;;
  match dict_get Z.eqb (pc_type (pk_class p)) handlers with
  | None => Ok None
  | Some h =>
      a <- method_args p (length (h_params h) + 2) ;;
      match bind_args (h_params h) (fst a) (snd a) with
      | None => Raise EDispatchFormat
      | Some vs => Ok (Some (h, vs))
      end
  end.

(** wsclient.py:340-353 [on_packet] up to the call of [dispatch]: [packet[0]] and
    [packet[1:]] also work on bytes, and fail on everything else. *)
Definition is_packet_type (t : Z) : bool := existsb (fun p => Z.eqb (snd p) t) packet_types.
Definition split_packet (v : val) : option (Z * list val) :=
  match v with
  | VList (VInt t :: body) => if is_packet_type t then Some (t, body) else None
  | VBytes (x :: r) =>
      let t := Z.of_N (Byte.to_N x) in
      if is_packet_type t then Some (t, map (fun y => VInt (Z.of_N (Byte.to_N y))) r) else None
  | _ => None
  end.

(** ** Observable effects *)
Inductive effect :=
| Sent (b : bytes)                          (* websocket.send_binary was called *)
| DataCb (k o : nat) (d : bytes)            (* data callback [k] of channel object [o] *)
| CloseCb (k o : nat)
| CtlCb (k o : nat) (d : bytes)
| Buffered (o : nat) (d : bytes)            (* message queued in channel object [o] *)
| ReadRet (o : nat) (count : Z) (d : bytes) (* a read returned *)
| CmdCb (k : nat) (cmd : Z) (result : option val)
| SetIdent (i : option bytes)               (* manager.set_identity *)
| Instruction (sender data : val)           (* manager.on_instruction *)
| RdOpen (id path : val) | RdClose (id : val) | RdRead (id offset size : val)
| RdScan | RdWrite (id path device_path offset data final : val)
| WsClose.

Record state := State {
  st_heap : list chan;          (* all channel objects ever made; a position is an object *)
  st_chans : list (Z * nat);    (* [self.channels], in insertion order *)
  st_ident : option bytes;
  st_closed : bool;
  st_cbs : list (Z * list nat); (* [self.callbacks] *)
  st_user : option val;
  st_trace : list effect }.     (* latest first *)

(** wsclient.py:171-203 *)
Definition init_state (uuid : option bytes) : state := State [] [] uuid false [] None [].

Definition with_heap h st := State h (st_chans st) (st_ident st) (st_closed st) (st_cbs st) (st_user st) (st_trace st).
Definition with_chans c st := State (st_heap st) c (st_ident st) (st_closed st) (st_cbs st) (st_user st) (st_trace st).
Definition with_ident i st := State (st_heap st) (st_chans st) i (st_closed st) (st_cbs st) (st_user st) (st_trace st).
Definition with_closed b st := State (st_heap st) (st_chans st) (st_ident st) b (st_cbs st) (st_user st) (st_trace st).
Definition with_cbs c st := State (st_heap st) (st_chans st) (st_ident st) (st_closed st) c (st_user st) (st_trace st).
Definition with_user u st := State (st_heap st) (st_chans st) (st_ident st) (st_closed st) (st_cbs st) u (st_trace st).
Definition emit e st := State (st_heap st) (st_chans st) (st_ident st) (st_closed st) (st_cbs st) (st_user st) (e :: st_trace st).

Fixpoint upd {A} (n : nat) (f : A -> A) (l : list A) : list A :=
  match l, n with
  | [], _ => []
  | x :: r, O => f x :: r
  | x :: r, S n' => x :: upd n' f r
  end.
Definition upd_chan (o : nat) (f : chan -> chan) (st : state) : state := with_heap (upd o f (st_heap st)) st.

(** Operations of the client and its channels that other threads and callbacks use. *)
Inductive op :=
| OpOpen (n : Z)                                  (* client.get_channel(n) *)
| OpWrite (o : nat) (d : bytes)                   (* channel.write(d) *)
| OpControl (o : nat) (json : text)               (* channel.send_control(c), json = json.dumps(c) *)
| OpClose (o : nat)                               (* channel.close() *)
| OpRead (o : nat) (count : Z)                    (* channel.read(count) *)
| OpSetCbs (o : nat) (d x t : option nat)         (* channel.set_callbacks(...) *)
| OpSend (name : string) (args : list val) (kwargs : list (string * val)). (* client.send(...) *)

Definition outcome := res unit.
Definition action := state -> state * outcome.

Section Client.
  (** What the environment does when called: the operations it performs (and whether it
      suppresses an exception of each), then the exception it raises. *)
  Variable env : list effect -> effect -> list (op * bool) * option exn.
  (** [str(error)] of the exception raised by the scanner. *)
  Variable error_text : list effect -> text.

  Definition ret_exn (x : option exn) : outcome := match x with None => Ok tt | Some e => Raise e end.
  (** A call into the environment during which the client is not used. *)
  Definition extern (e : effect) : action := fun st =>
    (emit e st, ret_exn (snd (env (st_trace st) e))).
  Definition seq (a b : action) : action := fun st =>
    match a st with
    | (st', Ok _) => b st'
    | r => r
    end.
  (** [try: a except Exception: log] *)
  Definition guard (a : action) : action := fun st =>
    match a st with
    | (st', Raise _) => (st', Ok tt)
    | r => r
    end.
  Definition skip : action := fun st => (st, Ok tt).
  Definition raise (e : exn) : action := fun st => (st, Raise e).

  (** wsclient.py:303-310 [send_bytes] *)
  Definition send_bytes (b : bytes) : action := fun st =>
    match extern (Sent b) st with
    | (st', Raise EWebSocket) => (st', Ok tt)
    | r => r
    end.
  (** wsclient.py:291-301 [send] *)
  Definition send (name : string) (args : list val) (kwargs : list (string * val)) : action := fun st =>
    match (p <- create_named name args kwargs ;; as_bytes p) with
    | Ok b => send_bytes b st
    | Raise e => (st, Raise e)
    | Hang => (st, Hang)
    end.

  (** wsclient.py:241-245 [get_channel] *)
  Definition get_channel (n : Z) (st : state) : nat * state :=
    match dict_get Z.eqb n (st_chans st) with
    | Some o => (o, st)
    | None =>
        let o := length (st_heap st) in
        (o, with_chans (dict_set Z.eqb n o (st_chans st)) (with_heap (st_heap st ++ [new_chan n]) st))
    end.

  (** wsclient.py:355-357 [channel_write] and 152-156 [Channel.write] *)
  Definition chan_write (o : nat) (d : bytes) : action := fun st =>
    match nth_error (st_heap st) o with
    | Some c =>
        if ch_closed c then (st, Ok tt)
        else send "request_send" [] [("channel"%string, VInt (ch_no c)); ("data"%string, VBytes d)] st
    | None => (st, Ok tt)
    end.
  (** wsclient.py:364-367 and 158-162 [send_control] *)
  Definition chan_control (o : nat) (json : text) : action := fun st =>
    match nth_error (st_heap st) o with
    | Some c =>
        if ch_closed c then (st, Ok tt)
        else send "request_send_control" [] [("channel"%string, VInt (ch_no c)); ("data"%string, VText json)] st
    | None => (st, Ok tt)
    end.
  (** wsclient.py:69-72 [Channel.close] and 250-252 [close_channel] *)
  Definition chan_close (o : nat) : action := fun st =>
    match nth_error (st_heap st) o with
    | Some c =>
        if ch_closed c then (st, Ok tt)
        else send "request_close" [] [("port"%string, VInt (ch_no c))] st
    | None => (st, Ok tt)
    end.

  Definition do_op (p : op) : action := fun st =>
    match p with
    | OpOpen n => (snd (get_channel n st), Ok tt)
    | OpWrite o d => chan_write o d st
    | OpControl o j => chan_control o j st
    | OpClose o => chan_close o st
    | OpRead o count =>
        match nth_error (st_heap st) o with
        | Some c => let '(d, c') := chan_read count c in
                    (emit (ReadRet o count d) (upd_chan o (fun _ => c') st), Ok tt)
        | None => (st, Ok tt)
        end
    | OpSetCbs o d x t => (upd_chan o (chan_set_cbs d x t) st, Ok tt)
    | OpSend name args kwargs => send name args kwargs st
    end.
  Fixpoint do_ops (l : list (op * bool)) : action :=
    match l with
    | [] => skip
    | (p, suppress) :: r => seq (if suppress then guard (do_op p) else do_op p) (do_ops r)
    end.
  (** A call into the environment that may use the client. *)
  Definition callback (e : effect) : action := fun st =>
    let '(ops, x) := env (st_trace st) e in
    seq (do_ops ops) (fun st' => (st', ret_exn x)) (emit e st).

  (** wsclient.py:74-83 [Channel.on_close] *)
  Definition chan_on_close (o : nat) : action := fun st =>
    match nth_error (st_heap st) o with
    | Some c =>
        if ch_closed c then (st, Ok tt)
        else
          let st1 := upd_chan o chan_shut st in
          match ch_close_cb c with
          | None => (st1, Ok tt)
          | Some k => guard (callback (CloseCb k o)) st1
          end
    | None => (st, Ok tt)
    end.
  (** wsclient.py:89-99 [Channel.on_data] *)
  Definition chan_on_data (o : nat) (d : bytes) : action := fun st =>
    match nth_error (st_heap st) o with
    | Some c =>
        if ch_closed c then (st, Ok tt)
        else match ch_data_cb c with
             | Some k => callback (DataCb k o d) st
             | None => (emit (Buffered o d) (upd_chan o (chan_push d) st), Ok tt)
             end
    | None => (st, Ok tt)
    end.
  (** wsclient.py:101-107 [Channel.on_control] *)
  Definition chan_on_control (o : nat) (d : bytes) : action := fun st =>
    match nth_error (st_heap st) o with
    | Some c =>
        if ch_closed c then (st, Ok tt)
        else match ch_ctl_cb c with
             | Some k => callback (CtlCb k o d) st
             | None => (st, Ok tt)
             end
    | None => (st, Ok tt)
    end.

  (** wsclient.py:330-332 [sync_identity] *)
  Definition sync_identity : action := fun st => extern (SetIdent (st_ident st)) st.

  (** wsclient.py:221-229 [callback] *)
  Fixpoint run_cmd_cbs (cmd : Z) (result : option val) (ks : list nat) : action :=
    match ks with
    | [] => skip
    | k :: r => seq (guard (callback (CmdCb k cmd result))) (run_cmd_cbs cmd result r)
    end.
  Definition command_callback (cmd : Z) (result : val) : action := fun st =>
    match dict_get Z.eqb cmd (st_cbs st) with
    | None => (st, Ok tt)
    | Some ks =>
        seq (run_cmd_cbs cmd (Some result) ks)
            (fun st' => (with_cbs (dict_del Z.eqb cmd (st_cbs st')) st', Ok tt)) st
    end.
  (** wsclient.py:231-239 [clear_callbacks] *)
  Fixpoint clear_callbacks_over (l : list (Z * list nat)) : action :=
    match l with
    | [] => skip
    | (cmd, ks) :: r => seq (run_cmd_cbs cmd None ks) (clear_callbacks_over r)
    end.
  Definition clear_callbacks : action := fun st => clear_callbacks_over (st_cbs st) st.

  (** wsclient.py:254-257 [hard_close_channels]: the iteration fails as soon as the
      dictionary has changed its size. *)
  Fixpoint close_all (size : nat) (l : list (Z * nat)) : action :=
    match l with
    | [] => skip
    | (_, o) :: r =>
        seq (chan_on_close o)
            (fun st => if length (st_chans st) =? size then close_all size r st else (st, Raise EOther))
    end.
  Definition hard_close_channels : action := fun st =>
    close_all (length (st_chans st)) (st_chans st) st.

  (** An attribute declared as an integer. *)
  Definition as_int (v : val) : option Z :=
    match v with VInt z => Some z | VBool b => Some (if b then 1%Z else 0%Z) | _ => None end.

  (** wsclient.py:373-497, the handlers. Arguments of other shapes do not occur, see
      [meaning_spec] in Proof_Client.v. *)
  Definition run_handler (h : handler) (args : list val) : action := fun st =>
    match h, args with
    | HNull, [] => (st, Ok tt)
    | HSetIdentity, [VBytes i] => (* 378-384 *)
        if st_closed st then (st, Ok tt) else sync_identity (with_ident (Some i) st)
    | HPing, [VBytes d] => (* 386-389 *)
        send "pong" [] [("data"%string, VBytes (slice_to d 1024))] st
    | HWelcome, [] => (st, Ok tt)
    | HLog, [VBytes _] => (st, Ok tt)
    | HRoute, [c; VBytes d] => (* 401-410 *)
        match as_int c with
        | Some n => let '(o, st') := get_channel n st in chan_on_data o d st'
        | None => (st, Raise EType)
        end
    | HRouteControl, [c; VBytes d] => (* 412-421 *)
        match as_int c with
        | Some n => let '(o, st') := get_channel n st in chan_on_control o d st'
        | None => (st, Raise EType)
        end
    | HNotifyOpen, [c] => (* 423-427 *)
        match as_int c with
        | Some n => (snd (get_channel n st), Ok tt)
        | None => (st, Raise EType)
        end
    | HNotifyClose, [c] => (* 429-436 *)
        match as_int c with
        | Some n =>
            match dict_get Z.eqb n (st_chans st) with
            | None => (st, Ok tt)
            | Some o => seq (chan_on_close o)
                          (fun st' => (with_chans (dict_del Z.eqb n (st_chans st')) st', Ok tt)) st
            end
        | None => (st, Raise EType)
        end
    | HLoginSuccess, [u] => (with_user (Some u) st, Ok tt) (* 438-442 *)
    | HResponse, [c; r] => (* 444-447 *)
        match as_int c with
        | Some n => command_callback n r st
        | None => (st, Raise EType)
        end
    | HInstruction, [s; d] => guard (callback (Instruction s d)) st (* 449-455 *)
    | HOpenFile, [i; p] => callback (RdOpen i p) st (* 457-461 *)
    | HCloseFile, [i] => callback (RdClose i) st (* 463-467 *)
    | HReadFile, [i; o; s] => callback (RdRead i o s) st (* 469-473 *)
    | HScan, [] => (* 475-486 *)
        match callback RdScan st with
        | (st', Raise _) => send "scan_remote_directory_result" [VText (error_text (st_trace st'))] [] st'
        | r => r
        end
    | HWriteFile, [i; p; d; o; x; f] => callback (RdWrite i p d o x f) st (* 488-497 *)
    | _, _ => (st, Raise EType)
    end.

  (** wsclient.py:340-353 [on_packet] with dispatcher.py:71-109 *)
  Definition on_packet (v : val) : action := fun st =>
    match split_packet v with
    | None => (st, Ok tt)
    | Some (t, body) =>
        match resolve t body with
        | Ok None => (st, Ok tt)
        | Ok (Some (h, args)) => run_handler h args st
        | Raise e => (st, Raise e)
        | Hang => (st, Hang)
        end
    end.
  (** wsclient.py:320-328 [on_binary]: any exception of the decoder is caught. *)
  Definition on_binary (data : bytes) : action := fun st =>
    match decode data with
    | Ok v => on_packet v st
    | Raise _ => (st, Ok tt)
    | Hang => (st, Hang)
    end.
  (** wsclient.py:312-318 [on_ready] *)
  Definition on_ready : action := fun st =>
    match st_ident st with
    | None => send "request_join" [] [] st
    | Some i => send "request_identify" [] [("uuid"%string, VBytes i)] st
    end.
  (** wsclient.py:334-338 [on_disconnected] *)
  Definition on_disconnected : action := fun st =>
    seq clear_callbacks hard_close_channels (with_ident None st).

  Inductive event := EvReady | EvDisconnected | EvBinary (data : bytes) | EvPoll | EvOther.
  (** wsclient.py:275-284 [on_event] *)
  Definition on_event (e : event) : action :=
    match e with
    | EvReady => on_ready
    | EvDisconnected => on_disconnected
    | EvBinary d => on_binary d
    | EvPoll => sync_identity
    | EvOther => skip
    end.

  (** What can happen to a client, one thing at a time: a websocket event handled by the
      receive loop (wsclient.py:259-268), or another thread using the client. *)
  Inductive input :=
  | InEvent (e : event)
  | InOp (p : op)
  | InAddCb (cmd : Z) (k : nat)      (* client.add_callback(cmd, k) *)
  | InClose.                         (* client.close() *)
  (** wsclient.py:218-219 [add_callback] *)
  Definition add_callback (cmd : Z) (k : nat) (st : state) : state :=
    with_cbs (dict_set Z.eqb cmd (match dict_get Z.eqb cmd (st_cbs st) with Some l => l | None => [] end ++ [k])
                       (st_cbs st)) st.
  Definition step (i : input) : action := fun st =>
    match i with
    | InEvent e => guard (on_event e) st (* 265-268 *)
    | InOp p => guard (do_op p) st
    | InAddCb cmd k => (add_callback cmd k st, Ok tt)
    | InClose => (* 286-289 *)
        match extern WsClose st with
        | (st', Ok _) => (with_ident None (with_closed true st'), Ok tt)
        | (st', _) => (st', Ok tt)
        end
    end.
  (** The session: [None] once the receive loop hangs. *)
  Fixpoint run (l : list input) (st : state) : option state :=
    match l with
    | [] => Some st
    | i :: r => match step i st with
                | (st', Hang) => None
                | (st', _) => run r st'
                end
    end.
  (** wsclient.py:259-273, the receive loop and what follows it: [self.on_close] does
      not exist, so the thread ends with AttributeError. *)
  Fixpoint receive_loop (l : list event) (st : state) : state * outcome :=
    match l with
    | [] => (st, Ok tt)
    | e :: r => match guard (on_event e) st with
                | (st', Ok _) => receive_loop r st'
                | x => x
                end
    end.
  Definition thread_run (l : list event) (st : state) : state * outcome :=
    match receive_loop l st with
    | (st', Ok _) => (st', Raise EAttr)
    | x => x
    end.
End Client.
