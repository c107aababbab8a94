(** * The agent's polling: dataplicity/client.py.  Logging is left out. *)
From Verif Require Import Py Model_Path Model_Rpc.

(** ** The m2m URL, client.py:41-44 *)
(** [m2m_url or M2M_URL]: None and "" are both false *)
Definition url_or (configured : option text) (default : text) : text :=
  match configured with Some ((_ :: _) as u) => u | _ => default end.
Fixpoint join_comma (l : list text) : text :=
  match l with [] => [] | [x] => x | x :: r => x ++ T "," ++ join_comma r end.
(** M2M_FEATURES is a set: [features] lists it in the order of its iteration. *)
Definition m2m_url (configured : option text) (default : text) (features : list text) : text :=
  let url := url_or configured default in
  if has_substring (T "?") url then url else url ++ T "?features=" ++ join_comma features.

(** ** What the host says *)
(** device_meta.get_meta, the six entries *)
Record meta := Meta { agent_version : json; machine_revision : json; model_name : json; os_version : json; uname : json; ip_list : json }.
(** tags.get_tag_list.  It waits for the tag script without a time limit (tags.py:28). *)
Inductive tags_outcome := TagList (l : list text) | TagError | TagRaise (e : exn) | TagHang.

(** ** State of a Client *)
Record agent := Agent {
  g_world : world;                    (* remote *)
  g_next : Z;                         (* next_disk_poll_time, in seconds: the code has floats *)
  g_tags : option (list text);        (* _tag_list *)
  g_sent_meta : bool }.               (* _sent_meta *)
(** client.py:46-54, 79-81; [now]: time.time() *)
Definition agent0 (now : Z) : agent := Agent world0 now None false.
(** client.py:80 *)
Definition disk_poll_rate : Z := 3600.

Section Agent.
  Variable net : nat -> reply.
  Variables serial auth_token : json.

  (** One of the calls in the with blocks below *)
  Definition auth (extra : list (text * json)) : bop :=
    BCallId (JStr (T "authenticate_result")) (T "device.check_auth")
      ([(T "device_class", JStr (T "tuxtunnel")); (T "serial", serial); (T "auth_token", auth_token)] ++ extra).
  Definition set_world (w : world) (a : agent) : agent := Agent w (g_next a) (g_tags a) (g_sent_meta a).

  (** client.py:127-147 [disk_poll]; [disk]: total and used, [None] if disk_usage raises *)
  Definition disk_poll (now : Z) (disk : option (Z * Z)) (a : agent) : agent * rres unit :=
    if (g_next a <=? now)%Z then
      let a := Agent (g_world a) (now + disk_poll_rate) (g_tags a) (g_sent_meta a) in
      match disk with
      | None => (a, RRaise (XPy EOS))
      | Some (total, used) =>
          let (w, r) := with_batch net
            [auth []; BCallId (JStr (T "set_disk_space_result")) (T "device.set_disk_space")
                        [(T "disk_capacity", JInt total); (T "disk_used", JInt used)]] (g_world a) in
          (set_world w a, snd r)
      end
    else (a, ROk tt).

  Definition tags_json (l : list text) : json := JArr (map JStr l).
  Definition tags_eqb (a b : list text) : bool := list_eqb text_eqb a b.
  (** client.py:156-173, inside the try *)
  Definition send_tags (l : list text) (a : agent) : agent * rres unit :=
    if match g_tags a with Some old => tags_eqb l old | None => false end then (a, ROk tt)
    else
      let (w, r) := with_batch net
        [auth []; BCallId (JStr (T "set_machine_defined_tags_result")) (T "device.set_machine_defined_tags") [(T "tag_list", tags_json l)]] (g_world a) in
      (set_world w a, _ <~ snd r;; _ <~ get_result (fst r) (JStr (T "set_machine_defined_tags_result")) None;; ROk tt).
  (** client.py:149-189 [tag_poll] *)
  Definition tag_poll (tags : tags_outcome) (a : agent) : agent * rres unit :=
    match tags with
    | TagError => (a, ROk tt)
    | TagRaise e => (a, RRaise (XPy e))
    | TagHang => (a, RHang)
    | TagList l =>
        match send_tags l a with
        | (a, ROk _) => (Agent (g_world a) (g_next a) (Some l) (g_sent_meta a), ROk tt)
        | (a, RRaise _) => (a, ROk tt)
        | (a, RHang) => (a, RHang)
        end
    end.

  (** client.py:252-287 [_sync_meta]; [None]: get_meta raises *)
  Definition sync_meta (m : option meta) : list bop :=
    match m with
    | None => []
    | Some m =>
        [BCallId (JStr (T "set_agent_version_result")) (T "device.set_agent_version") [(T "agent_version", agent_version m)];
         BCallId (JStr (T "set_machine_revision_result")) (T "device.set_machine_revision") [(T "revision_code", machine_revision m)];
         BCallId (JStr (T "set_model_name_result")) (T "device.set_model_name") [(T "model_name", model_name m)];
         BCallId (JStr (T "set_os_version_result")) (T "device.set_os_version") [(T "os_version", os_version m)];
         BCallId (JStr (T "set_uname_result")) (T "device.set_uname") [(T "uname", uname m)];
         BCallId (JStr (T "set_ip_addresses_result")) (T "device.set_ip_addresses") [(T "ip_list", ip_list m)]]
    end.
  (** client.py:289-309 [_check_meta] *)
  Definition check_meta (b : batch) (a : agent) : agent * rres unit :=
    if g_sent_meta a then (a, ROk tt)
    else match check b [JStr (T "set_agent_version_result"); JStr (T "set_machine_revision_result"); JStr (T "set_model_name_result");
                        JStr (T "set_os_version_result"); JStr (T "set_uname_result"); JStr (T "set_ip_addresses_result")] with
         | ROk _ => (Agent (g_world a) (g_next a) (g_tags a) true, ROk tt)
         | RRaise _ => (a, ROk tt)
         | RHang => (a, RHang)
         end.
  (** client.py:227-250 [_sync] *)
  Definition sync_ (sync_id : text) (m : option meta) (a : agent) : agent * rres unit :=
    if g_sent_meta a then (a, ROk tt)
    else
      match with_batch net (auth [(T "sync_id", JStr sync_id)] :: sync_meta m) (g_world a) with
      | (w, (b, r)) =>
          let a := set_world w a in
          match (_ <~ r;; get_result b (JStr (T "authenticate_result")) None) with
          | ROk _ => check_meta b a
          | RRaise e => (a, RRaise e)
          | RHang => (a, RHang)
          end
      end.
  (** client.py:219-225 [sync] *)
  Definition sync (sync_id : text) (m : option meta) (a : agent) : agent * rres unit :=
    match sync_ sync_id m a with
    | (a, RRaise _) => (a, ROk tt)
    | r => r
    end.

  (** client.py:191-205 [poll] *)
  Record surroundings := Env { e_now : Z; e_disk : option (Z * Z); e_tags : tags_outcome; e_sync_id : text; e_meta : option meta }.
  Definition poll (e : surroundings) (a : agent) : agent * rres unit :=
    match disk_poll (e_now e) (e_disk e) a with
    | (a, RHang) => (a, RHang)
    | (a, _) =>
        match tag_poll (e_tags e) a with
        | (a, RHang) => (a, RHang)
        | (a, _) => sync (e_sync_id e) (e_meta e) a
        end
    end.
  (** client.py:101-121 [run_forever]: the n-th poll happens in [envs n]; [exits n]: what exit_event.wait answers after it.
      SystemExit and KeyboardInterrupt, which only come from outside, are left out. *)
  Inductive ending := Running | Returned | Died (e : rexn) | Stuck.
  Fixpoint run_forever (envs : nat -> surroundings) (exits : nat -> bool) (fuel n : nat) (a : agent) : nat * ending :=
    match fuel with
    | O => (n, Running)
    | S fuel =>
        match poll (envs n) a with
        | (a, ROk _) => if exits n then (S n, Returned) else run_forever envs exits fuel (S n) a
        | (_, RRaise e) => (S n, Died e)
        | (_, RHang) => (n, Stuck)
        end
    end.

  (** client.py:311-359 [set_m2m_identity]; JNull: no auth_token.  The identity is bytes or None.
      The value returned: [None] or the identity. *)
  Definition set_m2m_identity (identity : option bytes) (a : agent) : agent * rres (option bytes) :=
    match auth_token with
    | JNull => (a, ROk None)
    | _ =>
        match identity with
        | None => (a, ROk None)               (* AttributeError: the batch is not sent *)
        | Some id =>
            match utf8_decode id with
            | None => (a, ROk None)           (* UnicodeDecodeError: the batch is not sent *)
            | Some t =>
                let (w, r) := with_batch net [auth []; BCallId (JStr (T "associate_result")) (T "m2m.associate") [(T "identity", JStr t)]] (g_world a) in
                (set_world w a,
                 match (_ <~ snd r;; _ <~ get_result (fst r) (JStr (T "authenticate_result")) None;;
                        get_result (fst r) (JStr (T "associate_result")) None) with
                 | ROk _ => ROk (Some id)
                 | RRaise _ => ROk None
                 | RHang => RHang
                 end)
            end
        end
    end.

  (** ** Everything that uses the connection, in any order: polls on the main thread, identities
      on the m2m thread *)
  Inductive gop :=
  | GDisk (now : Z) (disk : option (Z * Z))
  | GTags (tags : tags_outcome)
  | GSync (sync_id : text) (m : option meta)
  | GIdentity (identity : option bytes).
  Definition gstep (a : agent) (o : gop) : agent :=
    match o with
    | GDisk now disk => fst (disk_poll now disk a)
    | GTags tags => fst (tag_poll tags a)
    | GSync sync_id m => fst (sync sync_id m a)
    | GIdentity i => fst (set_m2m_identity i a)
    end.
  Definition grun (l : list gop) (a : agent) : agent := fold_left gstep l a.
End Agent.
