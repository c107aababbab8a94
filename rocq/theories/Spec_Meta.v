(** * What C141 and C142 mean *)
From Verif Require Import Py Model_Rpc Model_Agent Spec_Agent Model_Meta.
From Verif Require Model_Tools Spec_Tools.
Import Model_Tools.

(** What a sync should tell of a host *)
Definition told (h : host) : meta :=
  Meta (JStr (h_version h)) (match h_revision h with Some r => JStr r | None => JNull end) (JStr (h_model h)) (JStr (h_os h)) (JStr (h_uname h))
       (JArr (map JStr (h_ips h))).
(** The host as it was at the first sync that could ask it *)
Fixpoint first_answer (l : list dop) : option host :=
  match l with [] => None | DSync _ (Some h) :: _ => Some h | _ :: r => first_answer r end.
(** An agent that has just started *)
Definition started (t0 : Z) : heap * agent := (heap0, agent0 t0).
Definition requests (y : heap * agent) : list json := w_sent (g_world (snd y)).
(** Every sync that asks the host finds it as [h]. *)
Definition always (h : host) (l : list dop) : Prop :=
  Forall (fun o => match o with DSync _ (Some h') => h' = h | _ => True end) l.

(** ** C142 *)
(** An operation is part of a poll on [d], or the announcement of an identity at that time. *)
Definition happens fl round1 (d : device) (o : dop) : Prop := (exists sid, In o (polled fl round1 sid d)) \/ exists i, o = DIdentity i.
(** The tags of a device: the words the script prints, cut at 25 characters; none without a script *)
Inductive tagged (d : device) : list text -> Prop :=
| tagged_words output ws : v_script d = Prints output -> Spec_Tools.words (utf8_ignore output) ws -> tagged d (map (firstn 25) ws)
| tagged_none : v_script d = Absent \/ v_script d = CannotRun -> tagged d [].
(** What may be said of these devices (the same one at different times) after [l] *)
Inductive reported (serial token : json) (devs : list device) (l : list dop) : json -> Prop :=
| rep_disk d st : In d devs -> v_disk d = Some st ->
    reported serial token devs l (disk_request serial token (f_blocks st * f_frsize st) ((f_blocks st - f_bfree st) * f_frsize st))
| rep_tags d tags : In d devs -> tagged d tags -> reported serial token devs l (tags_request serial token tags)
| rep_meta d h sid : In d devs -> v_host d = Some h -> reported serial token devs l (sync_request serial token sid (told h))
| rep_auth sid : reported serial token devs l (JArr [check_auth serial token [(T "sync_id", JStr sid)]])
| rep_identity id t : In (DIdentity (Some id)) l -> utf8_decode id = Some t -> reported serial token devs l (identity_request serial token t).
