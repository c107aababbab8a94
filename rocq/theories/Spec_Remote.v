(** * Specification of the remote directory (C42-C52, C82). *)
From Verif Require Import Py Model_Packets Model_Path Model_Remote.
From Verif Require Spec_Bencode.

(** ** Paths *)
(** The place a path names by its text alone: "." and empty names are skipped, ".." goes up. *)
Fixpoint norm (cur : loc) (cs : list text) : loc :=
  match cs with
  | [] => cur
  | c :: r =>
      if text_eqb c [] || text_eqb c [dot] then norm cur r
      else if text_eqb c [dot; dot] then norm (removelast cur) r
      else norm (cur ++ [c]) r
  end.
Definition absolute (p : text) : Prop := exists r, p = slash :: r.
Definition place (cfg : config) (p : text) : loc :=
  norm (match p with c :: _ => if is_slash c then [] else cwd cfg | [] => cwd cfg end) (split_sep p).
Definition within (l l' : loc) : Prop := exists r, l' = l ++ r.
(** A path with a ".." component *)
Definition has_backref (p : text) : Prop := In [dot; dot] (split_sep p).
(** A single ordinary name *)
Definition plain (n : text) : Prop :=
  n <> [] /\ n <> [dot] /\ n <> [dot; dot] /\ ~ In slash n /\ ~ In 0%N n.

(** A tree: whatever has a name is in a directory *)
Definition tree (f : fs) : Prop := f [] = Some Dir /\ forall l n, f (l ++ [n]) <> None -> f l = Some Dir.

(** ** Runs *)
(** State after a request *)
Definition after {A} (m : M A) (w : world) : world := fst (m w).
Definition result {A} (m : M A) (w : world) : A + rexn := snd (m w).
Definition faultless (w : world) : Prop := w_faults w = [].

(** What else may happen between requests *)
Inductive event :=
| Request (q : request)
| Outside (f : fs).   (* other programs leave the file system like this *)
Definition event_step (cfg : config) (w : world) (e : event) : world :=
  match e with
  | Request q => after (handle cfg q) w
  | Outside f => with_fs w f
  end.
Definition events (cfg : config) (l : list event) (w : world) : world := fold_left (event_step cfg) l w.

(** ** Chunks of a content *)
Definition slice {A} (l : list A) (o n : nat) : list A := firstn n (skipn o l).
Definition chunk_of (content : bytes) (c : nat * bytes) : Prop :=
  fst c + length (snd c) <= length content /\ slice content (fst c) (length (snd c)) = snd c.
Definition covers (content : bytes) (cs : list (nat * bytes)) : Prop :=
  forall i, i < length content -> exists o d, In (o, d) cs /\ o <= i < o + length d.

(** ** Replies *)
Definition field (p : packet) (n : string) (v : val) : Prop := dict_get String.eqb n (pk_attrs p) = Some v.
(** [p] is a result packet for [q] *)
Definition answers (q : request) (p : packet) : Prop :=
  match q with
  | ROpen u _ => pc_name (pk_class p) = "OpenRemoteFileResult"%string /\ field p "upload_id" (VBytes u)
  | RRead u o s => pc_name (pk_class p) = "ReadRemoteFileResult"%string /\ field p "upload_id" (VBytes u) /\
                   field p "offset" (VInt o) /\ field p "size" (VInt s)
  | RWrite i _ _ _ d _ => pc_name (pk_class p) = "WriteRemoteFileResult"%string /\ field p "id" (VBytes i) /\
                   field p "chunk_size" (VInt (Z.of_nat (length d)))
  | RClose _ => False
  end.
(** One reply went out, reporting [fail] *)
Definition replied (cfg : config) (q : request) (w w' : world) (fail : Z) : Prop :=
  exists p, handle cfg q w = (w', inl tt) /\ w_sent w' = p :: w_sent w /\ answers q p /\ field p "fail" (VInt fail) /\
    exists b, as_bytes p = Ok b.
(** Text that UTF-8 can encode *)
Definition encodable (t : text) : Prop := utf8_encode t <> None.

(** Nothing in the reply is longer than sys.maxsize; messages of the agent's own exceptions
    have no lone surrogates *)
Notation short := Spec_Bencode.short.
Definition messages_ok (cfg : config) : Prop := forall e,
  short (encode_replace (err_text cfg e)) /\
  (is_remote e = true -> exists b, utf8_encode (err_text cfg e) = Some b /\ short b).
Definition reply_fits (cfg : config) (q : request) (w : world) : Prop :=
  match q with
  | ROpen u _ => short u
  | RRead u _ s => short u /\ (s = (-1)%Z -> forall l b, w_fs w l = Some (File b) -> short b)
  | RWrite i _ d _ _ _ => short i /\ short d /\
      forall t b, utf8_decode i = Some t -> utf8_encode (join (download_dir cfg) t) = Some b -> short b
  | RClose _ => True
  end.

(** ** What does not concern a file of the agent *)
(** No ".." and no NUL, from the root directory *)
Definition normal (p : text) : Prop := absolute p /\ ~ has_backref p /\ ~ In 0%N p.
(** The event names neither [l] nor anything above it *)
Definition spares (cfg : config) (l : loc) (w : world) (e : event) : Prop :=
  let snapshot u := forall t, utf8_decode u = Some t -> place cfg (join (snapshot_dir cfg) t) <> l in
  match e with
  | Request (RRead _ _ _) => True
  | Request (ROpen u _) | Request (RClose u) => snapshot u
  | Request (RWrite i _ d _ _ _) =>
      (utf8_decode d = Some [] -> forall t, utf8_decode i = Some t -> ~ within (place cfg (join (download_dir cfg) t)) l) /\
      (forall t, utf8_decode d = Some t -> t <> [] -> ~ within (place cfg t) l)
  | Outside f => tree f /\ f l = w_fs w l
  end.
Fixpoint spared (cfg : config) (l : loc) (es : list event) (w : world) : Prop :=
  match es with [] => True | e :: r => spares cfg l w e /\ spared cfg l r (event_step cfg w e) end.

(** ** Reading an upload in chunks, until a short one; [ok] are the events that may happen
       between the reads *)
Inductive reading (cfg : config) (ok : world -> event -> Prop) (t : text) (size : nat) : nat -> world -> bytes -> world -> Prop :=
| rd_other o w e d w' : ok w e -> reading cfg ok t size o (event_step cfg w e) d w' -> reading cfg ok t size o w d w'
| rd_short o w d w' : read_upload cfg t (Z.of_nat o) (Z.of_nat size) w = (w', inl d) -> length d < size -> reading cfg ok t size o w d w'
| rd_more o w d w1 d' w' : read_upload cfg t (Z.of_nat o) (Z.of_nat size) w = (w1, inl d) -> length d = size ->
    reading cfg ok t size (o + size) w1 d' w' -> reading cfg ok t size o w (d ++ d') w'.

(** ** Writing chunks, with other events in between; every packet is reported as a success *)
Inductive writing (cfg : config) (l : loc) (i dp : bytes) : list (nat * bytes) -> world -> world -> Prop :=
| wr_nil w : writing cfg l i dp [] w w
| wr_chunk o d p cs w w1 w' : replied cfg (RWrite i p dp (Z.of_nat o) d 0) w w1 0 -> writing cfg l i dp cs w1 w' ->
    writing cfg l i dp ((o, d) :: cs) w w'
| wr_other e cs w w' : spares cfg l w e -> writing cfg l i dp cs (event_step cfg w e) w' -> writing cfg l i dp cs w w'.

(** ** Names for stored files *)
(** A path is a folder and a name *)
Definition splits (p dir name : text) : Prop :=
  ~ In slash name /\ exists k, p = dir ++ repeat slash k ++ name /\ (Forall (eq slash) dir /\ k = 0 \/ 0 < k /\ last dir slash <> slash).
(** A name is a base and an extension: the last dot, unless only dots precede it *)
Definition extension (name base ext : text) : Prop :=
  name = base ++ ext /\
  (ext = [] /\ (~ In dot name \/ exists k r, name = repeat dot k ++ r /\ ~ In dot r) \/
   exists r, ext = dot :: r /\ ~ In dot r /\ exists c, In c base /\ c <> dot).
(** dir/base(N).ext *)
Definition numbered (dir base ext : text) (n : nat) : text := dir ++ T "/" ++ base ++ T "(" ++ dec_N (N.of_nat n) ++ T ")" ++ ext.

(** Where a download for [p] is to be stored *)
Definition dest (cfg : config) (p : text) : text := join (root cfg) (lstrip_slash p).
(** The name chosen: free, and the one asked for or the one with the smallest free number *)
Definition chosen (cfg : config) (f : fs) (p q : text) : Prop :=
  path_exists f (cwd cfg) q = false /\
  (q = dest cfg p \/
   exists dir name base ext n, splits (dest cfg p) dir name /\ extension name base ext /\
     let dir' := if path_isdir f (cwd cfg) dir then dir else root cfg in
     path_exists f (cwd cfg) (dest cfg p) = true /\ 0 < n <= 100 /\ q = numbered dir' base ext n /\
     forall k, 0 < k < n -> path_exists f (cwd cfg) (numbered dir' base ext k) = true).
(** No name is free *)
Definition all_taken (cfg : config) (f : fs) (p : text) : Prop :=
  exists dir name base ext, splits (dest cfg p) dir name /\ extension name base ext /\
    let dir' := if path_isdir f (cwd cfg) dir then dir else root cfg in
    path_exists f (cwd cfg) (dest cfg p) = true /\ forall k, 0 < k <= 100 -> path_exists f (cwd cfg) (numbered dir' base ext k) = true.

(** Files that may be sent to the server: the scan result, for the special path, and the file
    named, if it is inside the remote directory *)
Definition may_serve (cfg : config) (p : text) (l : loc) : Prop :=
  (p = 0%N :: T "scan.json" /\ l = place cfg (join (tmpdir cfg) (T "__dataplicity_remote_directory_scan___.json"))) \/
  (l = place cfg (dest cfg p) /\ within (place cfg (root cfg)) l).
(** The upload id of a request *)
Definition upload_request (q : request) (u : bytes) : Prop :=
  match q with ROpen u' _ | RRead u' _ _ | RClose u' => u' = u | RWrite _ _ _ _ _ _ => False end.
(** The path of the file to copy for [p] *)
Definition source (cfg : config) (p fp : text) : Prop :=
  (p = 0%N :: T "scan.json" /\ fp = join (tmpdir cfg) (T "__dataplicity_remote_directory_scan___.json")) \/
  (hd_error p <> Some 0%N /\ fp = dest cfg p /\ ~ has_backref fp).
(** What may happen during upload [t]: other uploads with ordinary ids, downloads with an
    ordinary id to the path the agent gave for it, other programs that leave the snapshot *)
Definition polite (cfg : config) (t : text) (w : world) (e : event) : Prop :=
  match e with
  | Request (RRead _ _ _) => True
  | Request (ROpen u _) | Request (RClose u) => exists t', utf8_decode u = Some t' /\ plain t' /\ t' <> t
  | Request (RWrite i _ d _ _ _) => exists t', plain t' /\ utf8_decode i = Some t' /\
      (utf8_decode d = Some [] \/ utf8_decode d = Some (join (download_dir cfg) t'))
  | Outside f => tree f /\ f (place cfg (snapshot_dir cfg) ++ [t]) = w_fs w (place cfg (snapshot_dir cfg) ++ [t])
  end.
Fixpoint all_polite (cfg : config) (t : text) (es : list event) (w : world) : Prop :=
  match es with [] => True | e :: r => polite cfg t w e /\ all_polite cfg t r (event_step cfg w e) end.

(** ** What replies say *)
(** The request was carried out as asked, with this outcome, or not. *)
Definition open_outcome (cfg : config) (u p : bytes) (w : world) : option Z :=
  match utf8_decode p, utf8_decode u with
  | Some pt, Some t => match result (add_upload cfg pt t) w with inl n => Some n | inr _ => None end
  | _, _ => None
  end.
Definition read_outcome (cfg : config) (u : bytes) (o s : Z) (w : world) : option bytes :=
  match utf8_decode u with
  | Some t => match result (read_upload cfg t o s) w with inl d => Some d | inr _ => None end
  | None => None
  end.
(** The steps of a write: finding the file to write to, writing to it, storing it at the end *)
Definition device_file (cfg : config) (i d : bytes) (w : world) (w' : world) (r : text + rexn) : Prop :=
  match utf8_decode d with
  | Some [] => match utf8_decode i with Some t => add_download cfg t w = (w', r) | None => w' = w /\ r = inr (RPy EUnicodeDecode) end
  | Some t => w' = w /\ r = inl t
  | None => False
  end.
Definition data_written (cfg : config) (s : text) (o : Z) (x : bytes) (w w' : world) (r : unit + rexn) : Prop :=
  match x with [] => w' = w /\ r = inl tt | _ => write_file cfg s o x w = (w', r) end.
Definition final_stored (cfg : config) (s : text) (p : bytes) (f : Z) (w w' : world) (r : unit + rexn) : Prop :=
  if (f =? 0)%Z then w' = w /\ r = inl tt else copy_download cfg s p w = (w', r).
(** [k]: the number of the step that failed, 0 if none did; [s]: the path of the file *)
Inductive write_outcome (cfg : config) (i p d : bytes) (o : Z) (x : bytes) (f : Z) (w : world) : Z -> option text -> Prop :=
| out_1 w1 e : device_file cfg i d w w1 (inr e) -> write_outcome cfg i p d o x f w 1 None
| out_2 w1 s w2 e : device_file cfg i d w w1 (inl s) -> data_written cfg s o x w1 w2 (inr e) -> write_outcome cfg i p d o x f w 2 (Some s)
| out_3 w1 s w2 w3 e : device_file cfg i d w w1 (inl s) -> data_written cfg s o x w1 w2 (inl tt) -> final_stored cfg s p f w2 w3 (inr e) ->
    write_outcome cfg i p d o x f w 3 (Some s)
| out_0 w1 s w2 w3 : device_file cfg i d w w1 (inl s) -> data_written cfg s o x w1 w2 (inl tt) -> final_stored cfg s p f w2 w3 (inl tt) ->
    write_outcome cfg i p d o x f w 0 (Some s).
(** What the reply to a request says *)
Definition truthful (cfg : config) (q : request) (w : world) (pk : packet) : Prop :=
  match q with
  | ROpen u p => match open_outcome cfg u p w with
                 | Some n => field pk "fail" (VInt 0) /\ field pk "size" (VInt n)
                 | None => field pk "fail" (VInt 1)
                 end
  | RRead u o s => match read_outcome cfg u o s w with
                   | Some x => field pk "fail" (VInt 0) /\ field pk "data" (VBytes x)
                   | None => field pk "fail" (VInt 1)
                   end
  | RWrite i p d o x f => exists k s, write_outcome cfg i p d o x f w k s /\ field pk "fail" (VInt k) /\
      field pk "position" (VInt (if (k =? 0)%Z then o + Z.of_nat (length x) else o)%Z) /\
      exists b, field pk "device_path" (VBytes b) /\ match s with Some t => utf8_decode b = Some t | None => b = d end
  | RClose _ => False
  end.

(** ** Fetching a file with packets: open reported success with size [n]; then reads until a
       short one, each reported as a success with some data *)
Definition opened_with (cfg : config) (u p : bytes) (w w' : world) (n : Z) : Prop :=
  exists pk, handle cfg (ROpen u p) w = (w', inl tt) /\ w_sent w' = pk :: w_sent w /\ field pk "fail" (VInt 0) /\ field pk "size" (VInt n).
Definition fetched (cfg : config) (u : bytes) (o s : nat) (w w' : world) (d : bytes) : Prop :=
  exists pk, handle cfg (RRead u (Z.of_nat o) (Z.of_nat s)) w = (w', inl tt) /\ w_sent w' = pk :: w_sent w /\
    field pk "fail" (VInt 0) /\ field pk "data" (VBytes d).
Inductive fetching (cfg : config) (l : loc) (u : bytes) (size : nat) : nat -> world -> bytes -> world -> Prop :=
| ft_other o w e d w' : spares cfg l w e -> fetching cfg l u size o (event_step cfg w e) d w' -> fetching cfg l u size o w d w'
| ft_short o w d w' : fetched cfg u o size w w' d -> length d < size -> fetching cfg l u size o w d w'
| ft_more o w d w1 d' w' : fetched cfg u o size w w1 d -> length d = size ->
    fetching cfg l u size (o + size) w1 d' w' -> fetching cfg l u size o w (d ++ d') w'.
