(** * What the client properties mean *)
From Verif Require Import Py Model_Bencode Spec_Bencode Model_Packets Spec_Packets Model_Client.

(** ** Packets and handlers *)
(** The handler documented for each packet type (numbers of packets.py). *)
Definition handler_table : list (Z * handler) :=
  [(0, HNull); (3, HWelcome); (4, HLog); (6, HRoute); (7, HPing); (9, HSetIdentity); (14, HNotifyOpen);
   (16, HInstruction); (17, HLoginSuccess); (19, HNotifyClose); (21, HRouteControl); (24, HOpenFile);
   (26, HCloseFile); (27, HReadFile); (29, HScan); (31, HWriteFile); (100, HResponse)]%Z.

(** The argument types each handler is written for. *)
Definition handler_types (h : handler) : list atype :=
  match h with
  | HNull | HWelcome | HScan => []
  | HSetIdentity | HPing | HLog | HLoginSuccess | HCloseFile => [ABytes]
  | HRoute | HRouteControl => [AInt; ABytes]
  | HNotifyOpen | HNotifyClose => [AInt]
  | HResponse => [AInt; ADict]
  | HInstruction => [ABytes; ADict]
  | HOpenFile => [ABytes; ABytes]
  | HReadFile => [ABytes; AInt; AInt]
  | HWriteFile => [ABytes; ABytes; ABytes; AInt; ABytes; AInt]
  end.

(** [m] announces packet type [t] with body [body]: a list starting with the type, or -
    what the code also lets through - a byte string starting with the type. *)
Inductive announces (m : bytes) : Z -> list val -> Prop :=
| ann_list t body : decode m = Ok (VList (VInt t :: body)) -> In t (map snd packet_types) -> announces m t body
| ann_bytes x r : decode m = Ok (VBytes (x :: r)) -> In (Z.of_N (Byte.to_N x)) (map snd packet_types) ->
    announces m (Z.of_N (Byte.to_N x)) (map (fun y => VInt (Z.of_N (Byte.to_N y))) r).
(** A message that is no packet: undecodable, of unknown type or with a bad body. *)
Definition unusable (m : bytes) : Prop :=
  ~ stuck m /\ forall t body p, announces m t body -> create t body [] <> Ok p.

(** The wire message [m] is a packet of type [t] with exactly these leading values. *)
Definition carries (m : bytes) (t : Z) (vs : list val) : Prop :=
  exists rest, decode m = Ok (VList (VInt t :: vs ++ rest)).
(** Route, notify_open, notify_close, ping, set_identity, response messages. *)
Definition is_route (m : bytes) (n : Z) (d : bytes) : Prop := carries m 6 [VInt n; VBytes d].
Definition is_open (m : bytes) (n : Z) : Prop := carries m 14 [VInt n].
Definition is_notify_close (m : bytes) (n : Z) : Prop := carries m 19 [VInt n].
Definition is_ping (m : bytes) (d : bytes) : Prop := carries m 7 [VBytes d].
Definition is_set_identity (m : bytes) (i : bytes) : Prop := carries m 9 [VBytes i].
Definition is_response (m : bytes) (cmd : Z) (d : list (val * val)) : Prop := carries m 100 [VInt cmd; VDict d].

(** What the peer understands of a sent message. *)
Definition understood (b : bytes) (class : string) (attrs : list (string * val)) : Prop :=
  exists c, pc_name c = class /\ from_bytes b = Ok (Packet c attrs).

(** ** Traces (latest first in the state, read here in order of time) *)
Definition history (st : state) : list effect := rev (st_trace st).
(** [st'] continues [st] with the effects [new], in order of time. *)
Definition adds (st st' : state) (new : list effect) : Prop := history st' = history st ++ new.

(** Payloads delivered to channel object [o]: to its callback or into its buffer. *)
Definition delivery (e : effect) : option (nat * bytes) :=
  match e with DataCb _ o d => Some (o, d) | Buffered o d => Some (o, d) | _ => None end.
Fixpoint deliveries (l : list effect) : list (nat * bytes) :=
  match l with [] => [] | e :: r => match delivery e with Some x => x :: deliveries r | None => deliveries r end end.
Definition buffered_data (o : nat) (e : effect) : bytes :=
  match e with Buffered o' d => if Nat.eqb o' o then d else [] | _ => [] end.
Definition read_data (o : nat) (e : effect) : bytes :=
  match e with ReadRet o' _ d => if Nat.eqb o' o then d else [] | _ => [] end.

(** Something done for or through channel object [o] other than a read. *)
Definition touches (o : nat) (e : effect) : Prop :=
  match e with
  | DataCb _ o' _ | CloseCb _ o' | CtlCb _ o' _ | Buffered o' _ => o' = o
  | _ => False
  end.
Definition close_cbs (o : nat) (l : list effect) : nat :=
  length (filter (fun e => match e with CloseCb _ o' => Nat.eqb o' o | _ => false end) l).
Definition is_cmd (e : effect) : bool := match e with CmdCb _ _ _ => true | _ => false end.
Definition cmd_runs (k : nat) (l : list effect) : nat :=
  length (filter (fun e => match e with CmdCb k' _ _ => Nat.eqb k' k | _ => false end) l).

Definition chan_of (st : state) (o : nat) : option chan := nth_error (st_heap st) o.
Definition object_closed (st : state) (o : nat) : Prop := exists c, chan_of st o = Some c /\ ch_closed c = true.
Definition registered (st : state) (n : Z) : option nat := dict_get Z.eqb n (st_chans st).
Definition fresh_channel (c : chan) (n : Z) : Prop :=
  ch_no c = n /\ ch_closed c = false /\ ch_data_cb c = None /\ ch_close_cb c = None /\ ch_ctl_cb c = None /\
  ch_deque c = [] /\ ch_event c = false.

(** The payloads routed to channel [n] by a list of inputs; [None] for other inputs. *)
Definition route_of (i : input) : option (Z * bytes) :=
  match i with
  | InEvent (EvBinary m) =>
      match decode m with
      | Ok (VList (VInt t :: VInt n :: VBytes d :: _)) => if Z.eqb t 6 then Some (n, d) else None
      | _ => None
      end
  | _ => None
  end.
Fixpoint routed (n : Z) (l : list input) : list bytes :=
  match l with
  | [] => []
  | i :: r => match route_of i with
              | Some (n', d) => if Z.eqb n' n then d :: routed n r else routed n r
              | None => routed n r
              end
  end.
Inductive sublist {A} : list A -> list A -> Prop :=
| sub_nil : sublist [] []
| sub_skip x l m : sublist l m -> sublist l (x :: m)
| sub_keep x l m : sublist l m -> sublist (x :: l) (x :: m).
(** The payloads delivered to objects numbered [n]. *)
Definition delivered (n : Z) (st : state) : list bytes :=
  map snd (filter (fun x => match chan_of st (fst x) with Some c => Z.eqb (ch_no c) n | None => false end)
                  (deliveries (history st))).

(** The identity the client is expected to know after a list of inputs. [closed] tells
    whether [close] took effect. *)
Definition set_of (m : bytes) : option bytes :=
  match decode m with Ok (VList (VInt t :: VBytes i :: _)) => if Z.eqb t 9 then Some i else None | _ => None end.

(** Callback numbers registered by a list of inputs. *)
Fixpoint added (l : list input) : list nat :=
  match l with [] => [] | InAddCb _ k :: r => k :: added r | _ :: r => added r end.

(** No "disconnected" event among the inputs. *)
Definition no_disconnect (l : list input) : Prop := ~ In (InEvent EvDisconnected) l.
(** Data callback [k] is the [on_data] of an echo service (m2m/echoservice.py:26-28). *)
Definition echoes (env : list effect -> effect -> list (op * bool) * option exn) (k : nat) : Prop :=
  forall tr o d, env tr (DataCb k o d) = ([(OpWrite o d, false)], None).
(** What is sent to hand [d] to the peer's end of channel [n]. *)
Definition data_message (b : bytes) (n : Z) (d : bytes) : Prop :=
  understood b "RequestSendPacket" [("channel"%string, VInt n); ("data"%string, VBytes d)].

(** The call into the rest of the agent each such message stands for: the manager's
    on_instruction and the methods of the remote directory, arguments in order. *)
Inductive asks : Z -> list val -> effect -> Prop :=
| asks_instruction sender data : asks 16 [VBytes sender; VDict data] (Instruction (VBytes sender) (VDict data))
| asks_open id path : asks 24 [VBytes id; VBytes path] (RdOpen (VBytes id) (VBytes path))
| asks_close id : asks 26 [VBytes id] (RdClose (VBytes id))
| asks_read id offset size : asks 27 [VBytes id; VInt offset; VInt size] (RdRead (VBytes id) (VInt offset) (VInt size))
| asks_scan : asks 29 [] RdScan
| asks_write id path device_path offset data final :
    asks 31 [VBytes id; VBytes path; VBytes device_path; VInt offset; VBytes data; VInt final]
      (RdWrite (VBytes id) (VBytes path) (VBytes device_path) (VInt offset) (VBytes data) (VInt final)).
(** What the callee does with the client in the meantime: sending and reading. *)
Definition incidental (e : effect) : Prop := match e with Sent _ | ReadRet _ _ _ => True | _ => False end.
(** Control data for channel [n]. *)
Definition is_control (m : bytes) (n : Z) (d : bytes) : Prop := carries m 21 [VInt n; VBytes d].
(** No callee opens a channel by itself. *)
Definition never_opens (env : list effect -> effect -> list (op * bool) * option exn) : Prop :=
  forall tr e n s, ~ In (OpOpen n, s) (fst (env tr e)).
