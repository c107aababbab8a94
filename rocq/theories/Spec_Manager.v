(** * What C26, C36, C40, C41 mean *)
From Verif Require Import Py Model_Manager.

(** ** C41 *)
(** The value an instruction gives for a name: the last key that reads as the name (bytes
    that are not UTF-8 are ignored), with bytes read as text. *)
Definition named (data : list (val * val)) (name : string) (v : val) : Prop :=
  exists before k raw after, data = before ++ (VBytes k, raw) :: after /\ utf8_ignore k = T name /\
    (forall k' raw', In (VBytes k', raw') after -> utf8_ignore k' <> T name) /\
    v = match raw with VBytes b => VText (utf8_ignore b) | _ => raw end.
(** Keys that are byte strings, as the wire should carry. *)
Definition byte_keys (data : list (val * val)) : Prop := forall k v, In (k, v) data -> exists b, k = VBytes b.
(** A channel number: anything that can be a dictionary key. *)
Definition channel_no (c : val) : Prop := (forall l, c <> VList l) /\ (forall d, c <> VDict d).
(** A route of four parts ending in [c]. *)
Inductive route_to (c : val) : val -> Prop :=
| route_list a b x : route_to c (VList [a; b; x; c])
| route_tuple a b x : route_to c (VTuple [a; b; x; c])
| route_dict a b x v : route_to c (VDict [a; b; x; (c, v)])
| route_text a b x y : c = VText [y] -> route_to c (VText [a; b; x; y]).
(** What an instruction asks for, given the terminals and services there are. *)
Inductive asks (terms : list text) (svc : list (text * (text * Z))) (data : list (val * val)) : deed -> Prop :=
| asks_sync : named data "action" (VText (T "sync")) -> asks terms svc data Sync
| asks_terminal name c : named data "action" (VText (T "open-terminal")) ->
    named data "name" (VText name) -> In name terms -> named data "port" c -> channel_no c ->
    forall size, (forall s, size = Some s <-> named data "size" s) -> asks terms svc data (LaunchTerminal name c size)
| asks_echo c : named data "action" (VText (T "open-echo")) -> named data "port" c -> channel_no c -> asks terms svc data (StartEcho c)
| asks_forward name route host port c : named data "action" (VText (T "open-portforward")) ->
    named data "service" (VText name) -> dict_get text_eqb name svc = Some (host, port) ->
    named data "route" route -> route_to c route -> channel_no c -> asks terms svc data (Connect host (VInt port) c)
| asks_redirect p c : named data "action" (VText (T "open-portredirect")) -> named data "device_port" p ->
    named data "m2m_port" c -> channel_no c -> asks terms svc data (Connect (T "127.0.0.1") p c)
| asks_reboot : named data "action" (VText (T "reboot-device")) -> asks terms svc data Reboot
| asks_file path c : named data "action" (VText (T "read-file")) -> named data "port" c -> channel_no c ->
    named data "path" path -> asks terms svc data (SendFile c path)
| asks_command cmd c : named data "action" (VText (T "run-command")) -> named data "port" c -> channel_no c ->
    named data "command" cmd -> asks terms svc data (RunCommand c cmd)
| asks_scan : named data "action" (VText (T "scan-directory")) -> asks terms svc data Scan.

(** ** C26.  A call tells an identity; it comes with whether the agent has a token and what
    the API answers if asked. *)
Definition call := (option bytes * bool * api)%type.
(** [i] was acknowledged and no other identity was told since. *)
Inductive settled : list call -> bytes -> Prop :=
| settled_now before i : i <> [] -> utf8_decode i <> None -> settled (before ++ [(Some i, true, Acknowledged)]) i
| settled_still calls c i : settled calls i -> fst (fst c) = None \/ fst (fst c) = Some [] \/ fst (fst c) = Some i ->
    settled (calls ++ [c]) i.

(** ** C40 *)
Definition is_launch (o : top) : bool := match o with Launch _ => true | _ => false end.
(** The launch number [p] succeeded. *)
Definition launched (ops : list top) (p : nat) : Prop :=
  exists before after, ops = before ++ Launch true :: after /\ length (filter is_launch before) = p.
(** ... and [close] was not called on the terminal since. *)
Definition launched_since_close (ops : list top) (p : nat) : Prop :=
  exists before after, ops = before ++ Launch true :: after /\ length (filter is_launch before) = p /\
    forall fails, ~ In (CloseAll fails) after.

(** ** C36: histories of registrations *)
Definition registered (regs : list (text * Z * text)) (m : manager) : manager :=
  fold_left (fun m r => add_service (fst (fst r)) (snd (fst r)) (snd r) m) regs m.
Definition no_services (terms : list text) : manager := Mgr terms [] [].
Definition reg_name (r : text * Z * text) := fst (fst r).
Definition reg_port (r : text * Z * text) := snd (fst r).
