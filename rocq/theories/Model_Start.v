(** * Start-up of the agent: dataplicity/client.py:31-99 with m2mmanager.py:88-109 [init],
      portforward.py:285-292 [init] and app.py:158-167 [make_client].  Logging is left out. *)
From Verif Require Import Py Model_Agent Model_Manager.

(** ** Credentials *)
(** A file, as [open(path, "rt")] and [read] meet it *)
Inductive file := Missing | Failing | Contents (b : bytes).
(** Text mode: CR and CRLF are read as LF *)
Fixpoint newlines (t : text) : text :=
  match t with
  | [] => []
  | 13%N :: r => match r with 10%N :: r' => 10%N :: newlines r' | _ => 10%N :: newlines r end
  | c :: r => c :: newlines r
  end.
(** client.py:56-62 [_read]; the two paths it is called with are absolute, so
    [expanduser] returns them; the locale's encoding is taken to be UTF-8 *)
Definition read (f : file) : res text :=
  match f with
  | Missing | Failing => Raise EOS
  | Contents b => match utf8_decode b with Some t => Ok (strip ws_text (newlines t)) | None => Raise EUnicodeDecode end
  end.
(** [given or self._read(location)] *)
Definition given_or_read (given : option text) (f : file) : res text :=
  match given with Some ((_ :: _) as v) => Ok v | _ => read f end.

(** ** Construction *)
(** app.py:158-167: what the command line gives, in the names of its options *)
Record options := Options {
  o_server_url : option text; o_m2m_url : option text; o_serial : option text; o_auth : option text; o_remote_dir : option text }.
(** constants.py:30-36, and the iteration order of M2M_FEATURES *)
Record defaults := Defaults { d_server_url : text; d_m2m_url : text; d_features : list text; d_remote_dir : text }.
Record client := Client {
  c_rpc_url : text; c_m2m_url : text; c_serial : text; c_auth : text; c_remote_dir : text }.
(** What becomes visible to the m2m thread, in order *)
Inductive visible := ThreadStarted (url : text) | TerminalAdded (name command : text) | M2mAssigned | ForwardAssigned.
(** What the host does: the two files, lomond's WebSocket(url) and Thread.start *)
Record host := Host { h_serial : file; h_auth : file; h_websocket : option exn; h_thread : option exn }.

(** client.py:64-99 [_init] after client.py:31-54 [__init__], called by
    app.py:158-167 [make_client].  The lines between client.py:75 and 91 cannot fail. *)
Definition construct (o : options) (d : defaults) (h : host) : res client * list visible :=
  let rpc_url := url_or (o_server_url o) (d_server_url d) in            (* client.py:40 *)
  let m2m := m2m_url (o_m2m_url o) (d_m2m_url d) (d_features d) in      (* client.py:41-44 *)
  match given_or_read (o_serial o) (h_serial h) with                     (* client.py:72 *)
  | Ok serial =>
      match given_or_read (o_auth o) (h_auth h) with                     (* client.py:73 *)
      | Ok auth =>
          let dir := url_or (o_remote_dir o) (d_remote_dir d) in         (* client.py:74-76 *)
          match h_websocket h, h_thread h with                           (* m2mmanager.py:98, 107 *)
          | Some e, _ | None, Some e => (Raise e, [])
          | None, None =>
              (Ok (Client rpc_url m2m serial auth dir),
               [ThreadStarted m2m; TerminalAdded (T "shell") (T "bash -i"); M2mAssigned; ForwardAssigned])
          end
      | Raise e => (Raise e, [])
      | Hang => (Hang, [])
      end
  | Raise e => (Raise e, [])
  | Hang => (Hang, [])
  end.

(** ** Instructions during the construction *)
(** What the m2m thread finds after the first events of the list above *)
Definition has (v : visible -> bool) (so_far : list visible) : bool := existsb v so_far.
Definition is_forward (v : visible) : bool := match v with ForwardAssigned => true | _ => false end.
Fixpoint terminal_names (l : list visible) : list text :=
  match l with [] => [] | TerminalAdded name _ :: r => name :: terminal_names r | _ :: r => terminal_names r end.
(** client.port_forward: without the attribute, AttributeError *)
Definition forward_of (so_far : list visible) : res manager :=
  if has is_forward so_far
  then Ok (Mgr (terminal_names so_far) (services default_manager) (ports default_manager)) else Raise EAttr.
(** m2mmanager.py:150-194 [on_instruction] run by the m2m thread at that moment *)
Definition on_instruction_at (so_far : list visible) (data : val) : res (list deed) :=
  match data with
  | VDict pairs =>
      kv <- decode_pairs pairs ;;
      let d := dict_of text_eqb kv in
      action <- item d "action" ;;
      if is_text action "open-portforward" then                      (* m2mmanager.py:178-181, 212-214 *)
        service <- item d "service" ;; route <- item d "route" ;; m <- forward_of so_far ;; open_service service route m
      else if is_text action "open-portredirect" then                (* m2mmanager.py:182-185 *)
        device_port <- item d "device_port" ;; m2m_port <- item d "m2m_port" ;; _ <- forward_of so_far ;;
        c <- get_channel m2m_port ;; Ok [Connect localhost device_port c]
      else on_instruction data (Mgr (terminal_names so_far) [] [])   (* no other action uses the services *)
  | _ => Raise EAttr
  end.
(** wsclient.py:449-455 *)
Definition packet_at (so_far : list visible) (data : val) : res (list deed) :=
  match on_instruction_at so_far data with Raise _ => Ok [] | r => r end.
