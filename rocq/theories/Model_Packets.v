(** * Model of dataplicity/m2m/packetbase.py and dataplicity/m2m/packets.py *)
From Verif Require Import Py Model_Bencode.

(** Declared attribute types. *)
Inductive atype := ABytes | AInt | ADict | AList.

(** A packet class: name, numeric type, declared attributes in order. *)
Record pclass := PClass {
  pc_name : string;
  pc_type : Z;
  pc_attrs : list (string * atype)
}.

(** A packet object: its class and its instance attributes, in the order in which
    [init_params] set them. *)
Record packet := Packet {
  pk_class : pclass;
  pk_attrs : list (string * val)
}.

(** packets.py:12-133 [PacketType]: the enum members. *)
Definition packet_types : list (string * Z) :=
  [ ("null"%string, 0%Z)
  ; ("request_join"%string, 1%Z)
  ; ("request_identify"%string, 2%Z)
  ; ("welcome"%string, 3%Z)
  ; ("log"%string, 4%Z)
  ; ("request_send"%string, 5%Z)
  ; ("route"%string, 6%Z)
  ; ("ping"%string, 7%Z)
  ; ("pong"%string, 8%Z)
  ; ("set_identity"%string, 9%Z)
  ; ("request_open"%string, 10%Z)
  ; ("request_close"%string, 11%Z)
  ; ("request_close_all"%string, 12%Z)
  ; ("keep_alive"%string, 13%Z)
  ; ("notify_open"%string, 14%Z)
  ; ("request_login"%string, 15%Z)
  ; ("instruction"%string, 16%Z)
  ; ("notify_login_success"%string, 17%Z)
  ; ("notify_login_fail"%string, 18%Z)
  ; ("notify_close"%string, 19%Z)
  ; ("request_leave"%string, 20%Z)
  ; ("route_control"%string, 21%Z)
  ; ("request_send_control"%string, 22%Z)
  ; ("open_remote_file"%string, 24%Z)
  ; ("open_remote_file_result"%string, 25%Z)
  ; ("close_remote_file"%string, 26%Z)
  ; ("read_remote_file"%string, 27%Z)
  ; ("read_remote_file_result"%string, 28%Z)
  ; ("scan_remote_directory"%string, 29%Z)
  ; ("scan_remote_directory_result"%string, 30%Z)
  ; ("write_remote_file"%string, 31%Z)
  ; ("write_remote_file_result"%string, 32%Z)
  ; ("response"%string, 100%Z)
  ; ("command_add_route"%string, 101%Z)
  ; ("command_send_instruction"%string, 102%Z)
  ; ("command_log"%string, 103%Z)
  ; ("command_broadcast_log"%string, 104%Z)
  ; ("command_set_name"%string, 106%Z)
  ; ("command_check_nodes"%string, 107%Z)
  ; ("command_get_identities"%string, 108%Z)
  ; ("command_set_auth"%string, 109%Z)
  ; ("command_set_meta"%string, 110%Z)
  ; ("command_get_meta"%string, 111%Z)
  ; ("peer_add_route"%string, 200%Z)
  ; ("peer_forward"%string, 201%Z)
  ; ("peer_notify_disconnect"%string, 202%Z)
  ; ("peer_notify_name"%string, 203%Z)
  ; ("peer_close_port"%string, 204%Z) ].

(** packets.py:156-519, one entry per packet class, in source order.
    [int_types] and [int] are the same in Python 3. *)
Definition packet_classes : list pclass :=
  [ PClass "NullPacket" 0%Z [] (* null, packets.py:156-159 *)
  ; PClass "RequestJoinPacket" 1%Z [] (* request_join, packets.py:162-165 *)
  ; PClass "RequestIdentifyPacket" 2%Z [("uuid"%string, ABytes)] (* request_identify, packets.py:168-172 *)
  ; PClass "WelcomePacket" 3%Z [] (* welcome, packets.py:175-178 *)
  ; PClass "LogPacket" 4%Z [("text"%string, ABytes)] (* log, packets.py:181-185 *)
  ; PClass "RequestSendPacket" 5%Z [("channel"%string, AInt); ("data"%string, ABytes)] (* request_send, packets.py:188-192 *)
  ; PClass "KeepAlivePacket" 13%Z [] (* keep_alive, packets.py:195-198 *)
  ; PClass "RoutePacket" 6%Z [("channel"%string, AInt); ("data"%string, ABytes)] (* route, packets.py:201-205 *)
  ; PClass "RouteControlPacket" 21%Z [("channel"%string, AInt); ("data"%string, ABytes)] (* route_control, packets.py:208-212 *)
  ; PClass "RequestSendControlPacket" 22%Z [("channel"%string, AInt); ("data"%string, ABytes)] (* request_send_control, packets.py:215-219 *)
  ; PClass "PingPacket" 7%Z [("data"%string, ABytes)] (* ping, packets.py:222-226 *)
  ; PClass "PongPacket" 8%Z [("data"%string, ABytes)] (* pong, packets.py:229-233 *)
  ; PClass "SetIdentityPacket" 9%Z [("uuid"%string, ABytes)] (* set_identity, packets.py:236-245 *)
  ; PClass "NotifyOpenPacket" 14%Z [("channel"%string, AInt)] (* notify_open, packets.py:248-252 *)
  ; PClass "RequestLoginPacket" 15%Z [("username"%string, ABytes); ("password"%string, ABytes)] (* request_login, packets.py:255-259 *)
  ; PClass "NotifyLoginSuccessPacket" 17%Z [("user"%string, ABytes)] (* notify_login_success, packets.py:262-266 *)
  ; PClass "NotifyLoginFailPacket" 18%Z [("message"%string, ABytes)] (* notify_login_fail, packets.py:269-273 *)
  ; PClass "NotifyClosePacket" 19%Z [("port"%string, AInt)] (* notify_close, packets.py:276-280 *)
  ; PClass "RequestClosePacket" 11%Z [("port"%string, AInt)] (* request_close, packets.py:283-287 *)
  ; PClass "RequestLeavePacket" 20%Z [] (* request_leave, packets.py:290-293 *)
  ; PClass "InstructionPacket" 16%Z [("sender"%string, ABytes); ("data"%string, ADict)] (* instruction, packets.py:296-300 *)
  ; PClass "CommandResponsePacket" 100%Z [("command_id"%string, AInt); ("result"%string, ADict)] (* response, packets.py:303-307 *)
  ; PClass "CommandAddRoutePacket" 101%Z [("command_id"%string, AInt); ("node1"%string, ABytes); ("port1"%string, AInt); ("node2"%string, ABytes); ("port2"%string, AInt); ("requester"%string, ABytes); ("forwarded"%string, AInt)] (* command_add_route, packets.py:310-322 *)
  ; PClass "CommandSendInstructionPacket" 102%Z [("command_id"%string, AInt); ("node"%string, ABytes); ("data"%string, ADict)] (* command_send_instruction, packets.py:325-329 *)
  ; PClass "CommandLogPacket" 103%Z [("command_id"%string, AInt); ("node"%string, ABytes); ("text"%string, ABytes)] (* command_log, packets.py:332-336 *)
  ; PClass "CommandBroadcastLogPacket" 104%Z [("command_id"%string, AInt); ("text"%string, ABytes)] (* command_broadcast_log, packets.py:339-344 *)
  ; PClass "CommandSetName" 106%Z [("command_id"%string, AInt); ("node"%string, ABytes); ("name"%string, ABytes)] (* command_set_name, packets.py:347-351 *)
  ; PClass "CommandCheckNodes" 107%Z [("command_id"%string, AInt); ("nodes"%string, AList)] (* command_check_nodes, packets.py:354-358 *)
  ; PClass "CommandGetIdentities" 108%Z [("command_id"%string, AInt); ("nodes"%string, AList)] (* command_get_identities, packets.py:361-365 *)
  ; PClass "CommandSetAuth" 109%Z [("command_id"%string, AInt); ("expire"%string, AInt); ("value"%string, ABytes)] (* command_set_auth, packets.py:368-372 *)
  ; PClass "CommandSetMeta" 110%Z [("command_id"%string, AInt); ("requester"%string, ABytes); ("node"%string, ABytes); ("key"%string, ABytes); ("value"%string, ABytes)] (* command_set_meta, packets.py:375-385 *)
  ; PClass "CommandGetMeta" 111%Z [("command_id"%string, AInt); ("requester"%string, ABytes); ("node"%string, ABytes)] (* command_get_meta, packets.py:388-392 *)
  ; PClass "PeerAddRoutePacket" 200%Z [("command_id"%string, AInt); ("requester"%string, ABytes); ("node1"%string, ABytes); ("port1"%string, AInt); ("node2"%string, ABytes); ("port2"%string, AInt)] (* peer_add_route, packets.py:395-406 *)
  ; PClass "PeerForwardPacket" 201%Z [("recipient"%string, ABytes); ("packet"%string, ABytes)] (* peer_forward, packets.py:409-413 *)
  ; PClass "PeerNotifyDisconnect" 202%Z [("node"%string, ABytes)] (* peer_notify_disconnect, packets.py:416-420 *)
  ; PClass "PeerNotifyName" 203%Z [("node"%string, ABytes); ("name"%string, ABytes)] (* peer_notify_name, packets.py:423-427 *)
  ; PClass "PeerClosePort" 204%Z [("node"%string, ABytes); ("port"%string, AInt)] (* peer_close_port, packets.py:430-434 *)
  ; PClass "OpenRemoteFile" 24%Z [("upload_id"%string, ABytes); ("path"%string, ABytes)] (* open_remote_file, packets.py:437-441 *)
  ; PClass "OpenRemoteFileResult" 25%Z [("upload_id"%string, ABytes); ("size"%string, AInt); ("fail"%string, AInt); ("fail_reason"%string, ABytes)] (* open_remote_file_result, packets.py:444-453 *)
  ; PClass "CloseRemoteFile" 26%Z [("upload_id"%string, ABytes)] (* close_remote_file, packets.py:456-460 *)
  ; PClass "ReadRemoteFile" 27%Z [("upload_id"%string, ABytes); ("offset"%string, AInt); ("size"%string, AInt)] (* read_remote_file, packets.py:463-467 *)
  ; PClass "ReadRemoteFileResult" 28%Z [("upload_id"%string, ABytes); ("offset"%string, AInt); ("size"%string, AInt); ("data"%string, ABytes); ("fail"%string, AInt); ("fail_reason"%string, ABytes)] (* read_remote_file_result, packets.py:470-481 *)
  ; PClass "ScanRemoteDirectory" 29%Z [] (* scan_remote_directory, packets.py:484-488 *)
  ; PClass "ScanRemoteDirectoryResult" 30%Z [("error"%string, ABytes)] (* scan_remote_directory_result, packets.py:491-495 *)
  ; PClass "WriteRemoteFile" 31%Z [("id"%string, ABytes); ("path"%string, ABytes); ("device_path"%string, ABytes); ("offset"%string, AInt); ("data"%string, ABytes); ("final"%string, AInt)] (* write_remote_file, packets.py:498-507 *)
  ; PClass "WriteRemoteFileResult" 32%Z [("id"%string, ABytes); ("position"%string, AInt); ("chunk_size"%string, AInt); ("device_path"%string, ABytes); ("fail"%string, AInt); ("fail_reason"%string, ABytes)] (* write_remote_file_result, packets.py:510-519 *) ].

(** packetbase.py:28-38 [PacketMeta.__new__]: importing packets.py registers the
    classes one by one and asserts that no type is registered twice. *)
Fixpoint register_all (cs : list pclass) (reg : list (Z * pclass)) : res (list (Z * pclass)) :=
  match cs with
  | [] => Ok reg
  | c :: r =>
      if (0 <=? pc_type c)%Z then
        if dict_mem Z.eqb (pc_type c) reg then Raise EAssert
        else register_all r (dict_set Z.eqb (pc_type c) c reg)
      else register_all r reg
  end.
Definition registry : list (Z * pclass) :=
  match register_all packet_classes [] with Ok r => r | _ => [] end.

(** [isinstance(value, attrib_type)]; [bool] is a subclass of [int]. *)
Definition isinstance (v : val) (t : atype) : bool :=
  match t, v with
  | ABytes, VBytes _ => true
  | AInt, (VInt _ | VBool _) => true
  | ADict, VDict _ => true
  | AList, VList _ => true
  | _, _ => false
  end.

(** packetbase.py:137-138 and 141-142: text becomes UTF-8 bytes. *)
Definition coerce (v : val) : res val :=
  match v with
  | VText t => match utf8_encode t with Some b => Ok (VBytes b) | None => Raise EUnicodeEncode end
  | _ => Ok v
  end.

(** packetbase.py:136-139, the loop over the positional arguments; [zip] stops at
    the shorter of the two. *)
Fixpoint init_args (args : list val) (attrs : list (string * atype)) (params : list (string * val))
  : res (list (string * val)) :=
  match args, attrs with
  | a :: args', (name, _) :: attrs' =>
      v <- coerce a ;; init_args args' attrs' (dict_set String.eqb name v params)
  | _, _ => Ok params
  end.
(** packetbase.py:140-143, the loop over the keyword arguments. *)
Fixpoint init_kwargs (kwargs : list (string * val)) (params : list (string * val))
  : res (list (string * val)) :=
  match kwargs with
  | [] => Ok params
  | (k, a) :: r => v <- coerce a ;; init_kwargs r (dict_set String.eqb k v params)
  end.
(** packetbase.py:145-158, checking and setting the declared attributes. *)
Fixpoint init_attrs (attrs : list (string * atype)) (params : list (string * val))
  : res (list (string * val)) :=
  match attrs with
  | [] => Ok []
  | (name, t) :: r =>
      match dict_get String.eqb name params with
      | None => Raise EPacketFormat
      | Some v =>
          if isinstance v t then rest <- init_attrs r params ;; Ok ((name, v) :: rest)
          else Raise EPacketFormat
      end
  end.
(** packetbase.py:52-54 and 130-158: calling a packet class. [validate] does nothing. *)
Definition construct (c : pclass) (args : list val) (kwargs : list (string * val)) : res packet :=
  p1 <- init_args args (pc_attrs c) [] ;;
  p2 <- init_kwargs kwargs p1 ;;
  attrs <- init_attrs (pc_attrs c) p2 ;;
  Ok (Packet c attrs).

(** packetbase.py:80-86 [create] for a numeric type (packets.py:143-148 also accepts
    the name of a member, see [create_named]). *)
Definition create (t : Z) (args : list val) (kwargs : list (string * val)) : res packet :=
  match dict_get Z.eqb t registry with
  | None => Raise EValue
  | Some c => construct c args kwargs
  end.
(** packets.py:146-147: a name that is not a member raises KeyError. *)
Definition type_of_name (n : string) : option Z := dict_get String.eqb n packet_types.
Definition create_named (n : string) (args : list val) (kwargs : list (string * val)) : res packet :=
  match type_of_name n with None => Raise EKey | Some t => create t args kwargs end.

(** packetbase.py:108-114 [from_body] *)
Fixpoint body_params (attrs : list (string * atype)) (body : list val) (params : list (string * val))
  : list (string * val) :=
  match attrs, body with
  | (name, _) :: attrs', v :: body' => body_params attrs' body' (dict_set String.eqb name v params)
  | _, _ => params
  end.
Definition from_body (c : pclass) (body : list val) : res packet :=
  construct c [] (body_params (pc_attrs c) body []).

(** packetbase.py:88-106 [from_bytes]: only DecodeError is translated. *)
Definition from_bytes (s : bytes) : res packet :=
  match decode s with
  | Raise EDecode => Raise EPacketFormat
  | Raise e => Raise e
  | Hang => Hang
  | Ok (VList []) => Raise EIndex
  | Ok (VList (VInt t :: body)) =>
      match dict_get Z.eqb t registry with
      | None => Raise EUnknownPacket
      | Some c => from_body c body
      end
  | Ok _ => Raise EPacketFormat
  end.

(** [getattr(self, name)] *)
Definition get_attr (p : packet) (name : string) : res val :=
  match dict_get String.eqb name (pk_attrs p) with Some v => Ok v | None => Raise EAttr end.
Fixpoint get_attrs (p : packet) (attrs : list (string * atype)) : res (list val) :=
  match attrs with
  | [] => Ok []
  | (name, _) :: r => v <- get_attr p name ;; vs <- get_attrs p r ;; Ok (v :: vs)
  end.
(** packetbase.py:172-177 [encode] and 163-170 [as_bytes] *)
Definition packet_encode (p : packet) : res val :=
  vs <- get_attrs p (pc_attrs (pk_class p)) ;;
  Ok (VList (VInt (pc_type (pk_class p)) :: vs)).
Definition as_bytes (p : packet) : res bytes := v <- packet_encode p ;; encode v.

(** packetbase.py:116-128 [kwargs] and [get_method_args]: the first [n] declared
    attributes positionally, the others by name. *)
Definition method_args (p : packet) (n : nat) : res (list val * list (string * val)) :=
  vs <- get_attrs p (pc_attrs (pk_class p)) ;;
  Ok (firstn n vs, skipn n (combine (map fst (pc_attrs (pk_class p))) vs)).

(** ** [__repr__] (packetbase.py:56-75), the text that reaches the logs *)
Section Repr.
  (** Python's [repr] of attribute values is a parameter: the properties hold
      whatever it does. *)
  Variable repr : val -> text.

  (** packetbase.py:64-70 *)
  Definition summarize (key : string) (v : val) : text :=
    if String.eqb key "password" then T "********"
    else match v with
         | VBytes b =>
             if 32 <? length b
             then repr (VBytes (firstn 32 b)) ++ T " + " ++ dec_N (N.of_nat (length b - 32)) ++ T " bytes"
             else repr v
         | _ => repr v
         end.

  Fixpoint insert_name (x : string * val) (l : list (string * val)) : list (string * val) :=
    match l with
    | [] => [x]
    | y :: r => if String.ltb (fst y) (fst x) then y :: insert_name x r else x :: l
    end.
  Definition sort_names (l : list (string * val)) : list (string * val) :=
    fold_right insert_name [] l.

  (** packetbase.py:57-62: the declared attributes that are set. *)
  Fixpoint repr_data (attrs : list (string * atype)) (have : list (string * val)) : list (string * val) :=
    match attrs with
    | [] => []
    | (name, _) :: r =>
        match dict_get String.eqb name have with
        | Some v => (name, v) :: repr_data r have
        | None => repr_data r have
        end
    end.
  Fixpoint join_text (sep : text) (l : list text) : text :=
    match l with
    | [] => []
    | [x] => x
    | x :: r => x ++ sep ++ join_text sep r
    end.
  Definition packet_repr (p : packet) : text :=
    let data := sort_names (repr_data (pc_attrs (pk_class p)) (pk_attrs p)) in
    T (pc_name (pk_class p)) ++ T "(" ++
    join_text (T ", ") (map (fun kv => T (fst kv) ++ T "=" ++ summarize (fst kv) (snd kv)) data) ++
    T ")".
End Repr.
