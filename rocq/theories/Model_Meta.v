(** * Syncs of the metadata together with the cache they read it from:
      dataplicity/client.py:219-309 with dataplicity/device_meta.py:16-32.

    Model_Agent.v takes the metadata of a sync as an input; here it comes from the cache of
    Model_Tools.v, which asks the host.  Nothing else in the agent calls [get_meta]. *)
From Coq Require Import QArith.
From Verif Require Import Py Model_Rpc Model_Agent.
From Verif Require Model_Tools.
Import Model_Tools.
Open Scope nat_scope.

(** A value of the dictionary as it is put into the request, jsonrpc.py *)
Definition shown (s : heap) (v : mval) : json :=
  match v with
  | Str None => JNull
  | Str (Some t) => JStr t
  | Ref i => JArr (map JStr (nth i (lists s) []))
  end.
Definition entry (s : heap) (n : nat) (key : string) : option json :=
  option_map (shown s) (dict_get text_eqb (T key) (nth n (dicts s) [])).
(** client.py:260-287: the six entries of the dictionary; [None]: KeyError *)
Definition meta_of (s : heap) (n : nat) : option meta :=
  match entry s n "agent_version", entry s n "machine_revision", entry s n "model_name", entry s n "os_version", entry s n "uname", entry s n "ip_list" with
  | Some a, Some b, Some c, Some d, Some e, Some f => Some (Meta a b c d e f)
  | _, _, _, _, _, _ => None
  end.

Section Meta.
  Variable net : nat -> reply.
  Variables serial auth_token : json.

  (** client.py:227-250: the host is only asked when the metadata have not been accepted.
      [hst]: what the host would answer now, [None] if asking it raises (258-259).  A
      KeyError leaves the batch, which is then not sent (jsonrpc.py), and is logged (225). *)
  Definition meta_sync (sync_id : text) (hst : option host) (y : heap * agent) : heap * agent :=
    let (s, a) := y in
    if g_sent_meta a then y
    else match get_meta hst s with
         | (s', None) => (s', fst (sync net serial auth_token sync_id None a))
         | (s', Some n) =>
             match meta_of s' n with
             | Some m => (s', fst (sync net serial auth_token sync_id (Some m) a))
             | None => (s', a)
             end
         end.
  (** Everything that uses the connection, in any order, as in Model_Agent.v *)
  Inductive dop :=
  | DDisk (now : Z) (disk : option (Z * Z))
  | DTags (tags : tags_outcome)
  | DSync (sync_id : text) (hst : option host)
  | DIdentity (identity : option bytes).
  Definition dstep (y : heap * agent) (o : dop) : heap * agent :=
    match o with
    | DDisk now disk => (fst y, gstep net serial auth_token (snd y) (GDisk now disk))
    | DTags tags => (fst y, gstep net serial auth_token (snd y) (GTags tags))
    | DSync sync_id hst => meta_sync sync_id hst y
    | DIdentity i => (fst y, gstep net serial auth_token (snd y) (GIdentity i))
    end.
  Definition drun (l : list dop) (y : heap * agent) : heap * agent := fold_left dstep l y.
End Meta.

(** ** What a poll finds on the device (client.py:191-205): the time, what statvfs("/") says
    ([None]: it raises), the tag script, the host. [fl] and [round1] as in Model_Tools.v. *)
Record device := Device { v_time : Z; v_disk : option statvfs; v_script : script; v_host : option host }.
(** client.py:127-147, disk_tools.py:24-69 *)
Definition disk_of (fl round1 : Q -> Q) (d : device) : option (Z * Z) :=
  option_map (fun st => let u := disk_usage fl round1 st in (total u, used u)) (v_disk d).
(** client.py:191-205.  Where the script never ends the code stays in tag_poll (C90); here the
    operations after it may follow, which only adds histories. *)
Definition polled (fl round1 : Q -> Q) (sync_id : text) (d : device) : list dop :=
  [DDisk (v_time d) (disk_of fl round1 d); DTags (get_tag_list (v_script d)); DSync sync_id (v_host d)].
