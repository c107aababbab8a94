(** * What is asked of the agent's polling *)
From Verif Require Import Py Model_Rpc Spec_Rpc Model_Agent.

(** The methods a request calls *)
Definition method_of (c : json) : list text :=
  match c with JObj d => match member "method" d with Some (JStr m) => [m] | _ => [] end | _ => [] end.
Definition methods_of (request : json) : list text := match request with JArr l => flat_map method_of l | _ => [] end.

(** The server's reply acknowledges the call with this id: it is a list of well formed responses,
    one of which has the id and is no error. *)
Definition acknowledged (i : string) (r : reply) : Prop :=
  exists l, r = Answer (Some (JArr l)) /\ Forall ok_response l /\
    exists d, In (JObj d) l /\ member "id" d = Some (JStr (T i)) /\ member "error" d = None.

(** ** C66 *)
Definition metadata : list (string * string) :=
  [("set_agent_version_result", "device.set_agent_version"); ("set_machine_revision_result", "device.set_machine_revision");
   ("set_model_name_result", "device.set_model_name"); ("set_os_version_result", "device.set_os_version");
   ("set_uname_result", "device.set_uname"); ("set_ip_addresses_result", "device.set_ip_addresses")]%string.
(** The request of a sync *)
Definition check_auth (serial token : json) (extra : list (text * json)) : json :=
  wire_call (T "device.check_auth")
    ([(T "device_class", JStr (T "tuxtunnel")); (T "serial", serial); (T "auth_token", token)] ++ extra) (JStr (T "authenticate_result")).
Definition sync_request (serial token : json) (sync_id : text) (m : meta) : json :=
  JArr [check_auth serial token [(T "sync_id", JStr sync_id)];
        wire_call (T "device.set_agent_version") [(T "agent_version", agent_version m)] (JStr (T "set_agent_version_result"));
        wire_call (T "device.set_machine_revision") [(T "revision_code", machine_revision m)] (JStr (T "set_machine_revision_result"));
        wire_call (T "device.set_model_name") [(T "model_name", model_name m)] (JStr (T "set_model_name_result"));
        wire_call (T "device.set_os_version") [(T "os_version", os_version m)] (JStr (T "set_os_version_result"));
        wire_call (T "device.set_uname") [(T "uname", uname m)] (JStr (T "set_uname_result"));
        wire_call (T "device.set_ip_addresses") [(T "ip_list", ip_list m)] (JStr (T "set_ip_addresses_result"))].
(** Authentication and all six calls *)
Definition is_sync (request : json) : Prop := methods_of request = T "device.check_auth" :: map (fun p => T (snd p)) metadata.
Definition has_metadata (request : json) : Prop := exists p, In p metadata /\ In (T (snd p)) (methods_of request).
(** [r] is the reply to the n-th request *)
Definition all_acknowledged (r : reply) : Prop :=
  acknowledged "authenticate_result" r /\ forall p, In p metadata -> acknowledged (fst p) r.
(** A sync succeeded; [sent]: the requests, latest first *)
Definition metadata_accepted (net : nat -> reply) (sent : list json) : Prop :=
  exists newer request older, sent = newer ++ request :: older /\ is_sync request /\ all_acknowledged (net (length older)).
(** The metadata could be read in every sync *)
Definition readable (l : list gop) : Prop := forall sid, ~ In (GSync sid None) l.
(** The server acknowledges metadata calls only when it was asked *)
Definition honest (net : nat -> reply) (sent : list json) : Prop :=
  forall newer request older p, sent = newer ++ request :: older -> In p metadata -> acknowledged (fst p) (net (length older)) ->
    In (T (snd p)) (methods_of request).

(** ** C67 *)
Definition tags_in_call (c : json) : option json :=
  match c with
  | JObj d =>
      match member "method" d, member "params" d with
      | Some (JStr m), Some (JObj p) => if text_eqb m (T "device.set_machine_defined_tags") then member "tag_list" p else None
      | _, _ => None
      end
  | _ => None
  end.
Fixpoint tags_in_calls (l : list json) : option json :=
  match l with [] => None | c :: r => match tags_in_call c with Some t => Some t | None => tags_in_calls r end end.
Definition tags_in (request : json) : option json := match request with JArr l => tags_in_calls l | _ => None end.
(** The last list the server accepted; requests latest first *)
Inductive last_accepted (net : nat -> reply) : list json -> option json -> Prop :=
| LA_none : last_accepted net [] None
| LA_other request older t : tags_in request = None -> last_accepted net older t -> last_accepted net (request :: older) t
| LA_refused request older t t' : tags_in request = Some t' -> ~ acknowledged "set_machine_defined_tags_result" (net (length older)) ->
    last_accepted net older t -> last_accepted net (request :: older) t
| LA_accepted request older t' : tags_in request = Some t' -> acknowledged "set_machine_defined_tags_result" (net (length older)) ->
    last_accepted net (request :: older) (Some t').
Definition tags_request (serial token : json) (tags : list text) : json :=
  JArr [check_auth serial token [];
        wire_call (T "device.set_machine_defined_tags") [(T "tag_list", JArr (map JStr tags))] (JStr (T "set_machine_defined_tags_result"))].

(** ** C68 *)
Definition disk_request (serial token : json) (total used : Z) : json :=
  JArr [check_auth serial token [];
        wire_call (T "device.set_disk_space") [(T "disk_capacity", JInt total); (T "disk_used", JInt used)] (JStr (T "set_disk_space_result"))].
Definition has_disk (request : json) : Prop := In (T "device.set_disk_space") (methods_of request).

(** This disk poll sends a report *)
Definition sends_disk net serial token (now : Z) (disk : option (Z * Z)) (a : agent) : Prop :=
  exists total used, disk = Some (total, used) /\
    w_sent (g_world (fst (disk_poll net serial token now disk a))) = disk_request serial token total used :: w_sent (g_world a).

(** ** C70: the parts of a URL; the fragment starts at the first '#', the query at the first '?'
    before it *)
Definition char (s : string) : N := match T s with c :: _ => c | [] => 0%N end.
Fixpoint upto (c : N) (u : text) : text := match u with [] => [] | x :: r => if (x =? c)%N then [] else x :: upto c r end.
Fixpoint from (c : N) (u : text) : option text := match u with [] => None | x :: r => if (x =? c)%N then Some r else from c r end.
Definition query (u : text) : option text := from (char "?") (upto (char "#") u).
(** The default is used when none or an empty one is configured *)
Definition used_url (configured : option text) (default : text) : text :=
  match configured with Some u => match u with [] => default | _ => u end | None => default end.
(** No fragment *)
Definition clean (t : text) : Prop := ~ In (char "#") t.

(** ** C83 *)
Definition identity_request (serial token : json) (identity : text) : json :=
  JArr [check_auth serial token []; wire_call (T "m2m.associate") [(T "identity", JStr identity)] (JStr (T "associate_result"))].

(** ** C137 *)
(** Two requests that authenticate, first of all, with different credentials and are otherwise the same *)
Definition same_but_credentials (s1 t1 s2 t2 : json) (r1 r2 : json) : Prop :=
  exists extra rest, r1 = JArr (check_auth s1 t1 extra :: rest) /\ r2 = JArr (check_auth s2 t2 extra :: rest).
Definition alike (s1 t1 s2 t2 : json) (a1 a2 : agent) : Prop :=
  g_next a1 = g_next a2 /\ g_tags a1 = g_tags a2 /\ g_sent_meta a1 = g_sent_meta a2 /\ w_id (g_world a1) = w_id (g_world a2) /\
  Forall2 (same_but_credentials s1 t1 s2 t2) (w_sent (g_world a1)) (w_sent (g_world a2)).
