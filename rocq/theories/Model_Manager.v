(** * The M2M manager: dataplicity/m2mmanager.py, and the service table of
      dataplicity/portforward.py.  Logging is left out. *)
From Verif Require Import Py Model_Bencode.

(** ** What an instruction makes the agent do.  What happens afterwards (limits, threads)
    is in Model_Limiter.v, Model_Services.v and Model_Process.v. *)
Inductive deed :=
| Sync                                                        (* client.sync() *)
| LaunchTerminal (name : text) (channel : val) (size : option val)
| StartEcho (channel : val)
| Connect (host : text) (port : val) (channel : val)          (* a port forward Connection *)
| Reboot
| SendFile (channel path : val)
| RunCommand (channel command : val)
| Scan.

Record manager := Mgr {
  terminals : list text;                   (* names, m2mmanager.py:141-144 *)
  services : list (text * (text * Z));     (* PortForwardManager._services: host and port *)
  ports : list (Z * text) }.               (* PortForwardManager._ports *)

(** ** PortForwardManager, portforward.py:268-335 *)
(** portforward.py:314-319 *)
Definition add_service (name : text) (port : Z) (host : text) (m : manager) : manager :=
  Mgr (terminals m) (dict_set text_eqb name (host, port) (services m)) (dict_set Z.eqb port name (ports m)).
(** portforward.py:314, default of [host] *)
Definition localhost : text := T "127.0.0.1".
(** portforward.py:285-292 [init], on what m2mmanager.py:102-109 [init] sets up *)
Definition default_manager : manager :=
  add_service (T "alt") 8080 localhost (add_service (T "extalt") 8000 localhost
    (add_service (T "ext") 81 localhost (add_service (T "web") 80 localhost (Mgr [T "shell"] [] [])))).
(** portforward.py:303-308 *)
Definition get_service_on_port (port : Z) (m : manager) : res (option (text * Z)) :=
  match dict_get Z.eqb port (ports m) with
  | None => Ok None
  | Some name => match dict_get text_eqb name (services m) with Some s => Ok (Some s) | None => Raise EKey end
  end.
(** portforward.py:310-312; only text names are ever registered *)
Definition get_service (service : val) (m : manager) : res (option (text * Z)) :=
  if hashable service then
    Ok match service with VText t => dict_get text_eqb t (services m) | _ => None end
  else Raise EType.
(** wsclient.py:241-245 [get_channel]: a channel number must be hashable *)
Definition get_channel (port : val) : res val := if hashable port then Ok port else Raise EType.
(** portforward.py:251-265 [Service.connect] *)
Definition connect (s : text * Z) (m2m_port : val) : res (list deed) :=
  c <- get_channel m2m_port ;; Ok [Connect (fst s) (VInt (snd s)) c].
(** portforward.py:326-336 [open] *)
Definition open (m2m_port : val) (service : val) (port : option Z) (m : manager) : res (list deed) :=
  s <- (match service, port with
        | VNone, None => Raise EValue
        | _, Some p => get_service_on_port (if (p =? 0)%Z then 80%Z else p) m
        | _, None => get_service service m
        end) ;;
  match s with None => Ok [] | Some s => connect s m2m_port end.
(** portforward.py:323: unpacking of the route; the fourth item.  Text unpacks to its
    characters, a dictionary to its keys. *)
Definition route_port (route : val) : res val :=
  match route with
  | VList [_; _; _; p] | VTuple [_; _; _; p] => Ok p
  | VText [_; _; _; p] => Ok (VText [p])
  | VBytes [_; _; _; p] => Ok (VInt (Z.of_N (Byte.to_N p)))
  | VDict [_; _; _; (p, _)] => Ok p
  | VList _ | VTuple _ | VText _ | VBytes _ | VDict _ => Raise EValue
  | _ => Raise EType
  end.
(** portforward.py:321-324 *)
Definition open_service (service route : val) (m : manager) : res (list deed) :=
  p <- route_port route ;; open p service None m.

(** ** Instructions *)
(** m2mmanager.py:156-161 *)
Definition decode_string (v : val) : val :=
  match v with VBytes b => VText (utf8_ignore b) | _ => v end.
(** m2mmanager.py:163-166 *)
Fixpoint decode_pairs (d : list (val * val)) : res (list (text * val)) :=
  match d with
  | [] => Ok []
  | (VBytes k, v) :: r => rest <- decode_pairs r ;; Ok ((utf8_ignore k, decode_string v) :: rest)
  | _ :: _ => Raise EAttr
  end.
(** [data[name]] *)
Definition item (d : list (text * val)) (name : string) : res val :=
  match dict_get text_eqb (T name) d with Some v => Ok v | None => Raise EKey end.
Definition is_text (v : val) (s : string) : bool :=
  match v with VText t => text_eqb t (T s) | _ => false end.
(** m2mmanager.py:146-148, 196-204 [open_terminal] *)
Definition open_terminal (name port : val) (size : option val) (m : manager) : res (list deed) :=
  if hashable name then
    match name with
    | VText t => if existsb (text_eqb t) (terminals m)
                 then c <- get_channel port ;; Ok [LaunchTerminal t c size] else Ok []
    | _ => Ok []
    end
  else Raise EType.
(** m2mmanager.py:150-233 [on_instruction] and the functions it calls; None as a value of
    [size] is the same as no [size]. *)
Definition on_instruction (data : val) (m : manager) : res (list deed) :=
  match data with
  | VDict pairs =>
      kv <- decode_pairs pairs ;;
      let d := dict_of text_eqb kv in
      action <- item d "action" ;;
      if is_text action "sync" then Ok [Sync]
      else if is_text action "open-terminal" then
        port <- item d "port" ;; name <- item d "name" ;;
        open_terminal name port (dict_get text_eqb (T "size") d) m
      else if is_text action "open-echo" then
        port <- item d "port" ;; c <- get_channel port ;; Ok [StartEcho c]
      else if is_text action "open-portforward" then
        service <- item d "service" ;; route <- item d "route" ;; open_service service route m
      else if is_text action "open-portredirect" then
        device_port <- item d "device_port" ;; m2m_port <- item d "m2m_port" ;;
        c <- get_channel m2m_port ;; Ok [Connect localhost device_port c] (* portforward.py:338-359 *)
      else if is_text action "reboot-device" then Ok [Reboot]
      else if is_text action "read-file" then
        port <- item d "port" ;; path <- item d "path" ;; c <- get_channel port ;; Ok [SendFile c path]
      else if is_text action "run-command" then
        port <- item d "port" ;; command <- item d "command" ;; c <- get_channel port ;; Ok [RunCommand c command]
      else if is_text action "scan-directory" then Ok [Scan]
      else Ok []
  | _ => Raise EAttr
  end.
(** wsclient.py:449-455: what the agent does on an instruction packet; an exception is
    logged. *)
Definition on_instruction_packet (data : val) (m : manager) : res (list deed) :=
  match on_instruction data m with Raise _ => Ok [] | r => r end.

(** ** The identity: m2mmanager.py:120-125 with client.py:311-359 *)
(** What the API answers; client.py:318-359 makes no difference between kinds of failure. *)
Inductive api := Acknowledged | Failed.
Record istate := ISt { notified : option bytes; reports : list (bytes * api) }. (* latest first *)
Definition iinit : istate := ISt None [].
(** One call: the identity told by the M2M server, whether the agent has an auth token,
    what the API would answer. *)
Definition set_identity (identity : option bytes) (has_token : bool) (answer : api) (st : istate) : istate :=
  match identity with
  | None | Some [] => st
  | Some i =>
      if match notified st with Some n => bytes_eqb n i | None => false end then st
      else if has_token then
        match utf8_decode i with (* client.py:337, before the batch is sent *)
        | None => ISt None (reports st)
        | Some _ => ISt (match answer with Acknowledged => Some i | Failed => None end) ((i, answer) :: reports st)
        end
      else ISt None (reports st) (* client.py:317-318 *)
  end.
Definition irun (calls : list (option bytes * bool * api)) (st : istate) : istate :=
  fold_left (fun s c => set_identity (fst (fst c)) (snd (fst c)) (snd c) s) calls st.

(** ** Terminal: m2mmanager.py:20-86 *)
(** Processes are numbered in the order of launch; [t_closed] are those whose [is_closed] is
    true (remoteprocess.py:87-89). *)
Record tstate := TSt {
  t_next : nat;
  t_list : list nat;                   (* self.processes *)
  t_closed : list nat;
  t_calls : list nat }.                (* close() calls made by Terminal.close, latest first *)
Definition tinit : tstate := TSt 0 [] [] [].
Definition is_closed (st : tstate) (p : nat) : bool := existsb (Nat.eqb p) (t_closed st).
(** m2mmanager.py:33-37 *)
Definition prune (st : tstate) : tstate :=
  TSt (t_next st) (filter (fun p => negb (is_closed st p)) (t_list st)) (t_closed st) (t_calls st).
Inductive top :=
| Launch (ok : bool)          (* launch; ok: the process object and the thread could be made *)
| ProcessCloses (p : nat)     (* its channel closes *)
| CloseAll (fails : list nat). (* close(); the processes whose close() raises (and stay open) *)
(** m2mmanager.py:78-85, the loop; [is_closed] is tested again *)
Fixpoint close_loop (fails l : list nat) (st : tstate) : tstate :=
  match l with
  | [] => st
  | p :: r =>
      close_loop fails r
        (if is_closed st p then st
         else TSt (t_next st) (t_list st) (if existsb (Nat.eqb p) fails then t_closed st else p :: t_closed st) (p :: t_calls st))
  end.
Definition tstep (o : top) (st : tstate) : tstate :=
  match o with
  | Launch ok => (* 39-74 *)
      let st' := prune st in
      if ok then TSt (S (t_next st')) (t_list st' ++ [t_next st']) (t_closed st') (t_calls st')
      else TSt (S (t_next st')) (t_list st') (t_closed st') (t_calls st')
  | ProcessCloses p => TSt (t_next st) (t_list st) (p :: t_closed st) (t_calls st)
  | CloseAll fails => (* 76-86 *)
      let st' := prune st in
      let st2 := close_loop fails (t_list st') st' in
      TSt (t_next st2) [] (t_closed st2) (t_calls st2)
  end.
Definition trun (ops : list top) (st : tstate) : tstate := fold_left (fun s o => tstep o s) ops st.
