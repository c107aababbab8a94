(** * Properties C42-C52, C82 and C84: the remote directory (dataplicity/remote_directory.py) *)
From Verif Require Import Py Model_Packets Model_Path Model_Remote Spec_Remote
  Proof_Remote Proof_Remote2 Proof_Remote3 Proof_Remote4 Proof_Remote5 Proof_Remote6 Proof_Remote7 Proof_Remote8 Proof_Remote9.

(** ** The device of the examples *)
Definition dev : config :=
  Config (T "/home/pi/remote") (T "/var/tmp") (T "/tmp") [] (Some (1000000, 4096, 500000)%Z) (fun _ => T "error").
Definition home : loc := [T "home"; T "pi"; T "remote"].
Definition files : list (loc * node) :=
  [([T "home"], Dir); ([T "home"; T "pi"], Dir); (home, Dir); (home ++ [T "a.txt"], File (B "hello")); (home ++ [T "sub"], Dir);
   (home ++ [T "sub"; T "b"], File (B "bb")); ([T "var"], Dir); ([T "var"; T "tmp"], Dir);
   ([T "etc"], Dir); ([T "etc"; T "passwd"], File (B "root:x")); ([T "tmp"], Dir);
   ([T "tmp"; T "__dataplicity_remote_directory_scan___.json"], File (B "{}"))].
Definition w0 : world := W (fs_of files) [] [].
Definition snaps : loc := [T "var"; T "tmp"; T "dataplicity_remote"].
Definition downs : loc := [T "var"; T "tmp"; T "dataplicity_remote_downloads"].
(** With the two directories of the agent and a snapshot *)
Definition files1 : list (loc * node) := files ++ [(snaps, Dir); (snaps ++ [T "u"], File (B "hello")); (downs, Dir)].
Definition w1 : world := W (fs_of files1) [] [].
Lemma tree0 : tree (w_fs w0). Proof. apply fs_of_tree. vm_compute. reflexivity. Qed.
Lemma tree1 : tree (w_fs w1). Proof. apply fs_of_tree. vm_compute. reflexivity. Qed.
Lemma dev_root : absolute (root dev). Proof. now eexists. Qed.
Lemma dev_temp : normal (temp dev).
Proof.
  split; [now eexists|]. split; [unfold has_backref; vm_compute; intros H; repeat destruct H as [H|H]; discriminate || contradiction|].
  vm_compute. intros H. repeat destruct H as [H|H]; discriminate || contradiction.
Qed.
Ltac plain_tac := unfold plain; vm_compute; repeat split; intros H; try discriminate; repeat destruct H as [H|H]; try discriminate; try contradiction.
Lemma plain_u : plain (T "u"). Proof. plain_tac. Qed.

(** ** C42 *)
(** Whatever happens, a request to open changes nothing but the snapshot directory, which may
    be created, and the snapshot, which then has the first bytes of a permitted file. *)
Theorem C42_only_permitted_files_copied : forall cfg p u w l, absolute (root cfg) ->
  let w' := after (add_upload cfg p u) w in
  w_fs w' l = w_fs w l \/
  (l = place cfg (snapshot_dir cfg) /\ w_fs w l = None /\ w_fs w' l = Some Dir) \/
  (l = place cfg (join (snapshot_dir cfg) u) /\
   exists src b k, may_serve cfg p src /\ w_fs w src = Some (File b) /\ w_fs w' l = Some (File (firstn k b))).
Proof. exact copied. Qed.
Print Assumptions C42_only_permitted_files_copied.
(** When it succeeds the snapshot is a permitted file and the answer is its size. *)
Theorem C42_success_copies_permitted_file : forall cfg p u w w' n, absolute (root cfg) -> add_upload cfg p u w = (w', inl n) ->
  exists src b, may_serve cfg p src /\ w_fs w src = Some (File b) /\
    w_fs w' (place cfg (join (snapshot_dir cfg) u)) = Some (File b) /\ n = Z.of_nat (length b).
Proof. exact announced. Qed.
Print Assumptions C42_success_copies_permitted_file.
Theorem C42_backrefs_refused : forall cfg p w u, root cfg <> [] -> has_backref p -> add_upload cfg p u w = (w, inr RIllegal).
Proof. exact backref_refused. Qed.
Print Assumptions C42_backrefs_refused.
Theorem C42_backref_request_changes_no_file : forall cfg p pt u w, root cfg <> [] -> utf8_decode p = Some pt -> has_backref pt ->
  w_fs (after (handle cfg (ROpen u p)) w) = w_fs w.
Proof. exact backref_open. Qed.
Print Assumptions C42_backref_request_changes_no_file.

Example C42_case : absolute (root dev) /\ result (add_upload dev (T "//sub/b") (T "u")) w0 = inl 2%Z /\
  w_fs (after (add_upload dev (T "//sub/b") (T "u")) w0) (snaps ++ [T "u"]) = Some (File (B "bb")) /\
  result (add_upload dev (0%N :: T "scan.json") (T "u")) w0 = inl 2%Z.
Proof. split; [exact dev_root|]. split; vm_compute; auto. Qed.
Example C42_backref_case : has_backref (T "sub/../../../../etc/passwd").
Proof. unfold has_backref. vm_compute. auto. Qed.

(** ** C43 *)
(** For ids that are ordinary names only the snapshot directory and that snapshot change,
    and data come from it. *)
Theorem C43_plain_ids_confined_partial : forall cfg q u t w l, normal (temp cfg) -> upload_request q u -> utf8_decode u = Some t -> plain t ->
  w_fs (after (handle cfg q) w) l <> w_fs w l ->
  l = place cfg (snapshot_dir cfg) \/ l = place cfg (snapshot_dir cfg) ++ [t].
Proof. exact ids_confined. Qed.
Print Assumptions C43_plain_ids_confined_partial.
Theorem C43_plain_ids_read_snapshot_partial : forall cfg t o s w w' d, normal (temp cfg) -> plain t -> read_upload cfg t o s w = (w', inl d) ->
  exists b, w_fs w (place cfg (snapshot_dir cfg) ++ [t]) = Some (File b) /\ read_slice b o s = Ok d.
Proof. exact data_from_snapshot. Qed.
Print Assumptions C43_plain_ids_read_snapshot_partial.
Theorem C43_undecodable_ids_partial : forall cfg q u w, upload_request q u -> utf8_decode u = None -> w_fs (after (handle cfg q) w) = w_fs w.
Proof. exact upload_undecoded. Qed.
Print Assumptions C43_undecodable_ids_partial.
(** The id is not checked: the absolute path of any file on the device is an id that reads
    that file and whose close removes it. *)
Theorem C43_absolute_ids_refuted : forall cfg t l b w, faultless w -> path_isdir (w_fs w) (cwd cfg) (snapshot_dir cfg) = true ->
  absolute t -> resolve (w_fs w) (cwd cfg) t = Ok l -> w_fs w l = Some (File b) ->
  (forall o n, (Z.of_nat o < 2 ^ 63)%Z -> (Z.of_nat n < 2 ^ 63)%Z -> result (read_upload cfg t (Z.of_nat o) (Z.of_nat n)) w = inl (slice b o n)) /\
  w_fs (after (close_upload cfg t) w) l = None.
Proof. exact absolute_ids. Qed.
Print Assumptions C43_absolute_ids_refuted.

Example C43_case : normal (temp dev) /\ plain (T "u") /\ utf8_decode (B "u") = Some (T "u") /\
  result (read_upload dev (T "u") 1 3) w1 = inl (B "ell") /\
  w_fs (after (handle dev (RClose (B "u"))) w1) (snaps ++ [T "u"]) <> w_fs w1 (snaps ++ [T "u"]).
Proof. split; [exact dev_temp|]. split; [exact plain_u|]. split; [reflexivity|]. split; vm_compute; [reflexivity|discriminate]. Qed.
Example C43_undecodable_case : utf8_decode [xff] = None. Proof. reflexivity. Qed.
Example C43_absolute_case : let t := T "/etc/passwd" in absolute t /\ path_isdir (w_fs w1) [] (snapshot_dir dev) = true /\
  resolve (w_fs w1) [] t = Ok [T "etc"; T "passwd"] /\ w_fs w1 [T "etc"; T "passwd"] = Some (File (B "root:x")).
Proof. split; [now eexists|]. vm_compute. auto. Qed.
(** Opening: an id that starts like the temporary directory is written outside it *)
Example C43_open_case : w_fs (after (add_upload dev (T "a.txt") (T "/var/tmp/../../etc/passwd")) w1) [T "etc"; T "passwd"] = Some (File (B "hello")).
Proof. vm_compute. reflexivity. Qed.

(** ** C44 *)
(** For an id that is an ordinary name, as long as no request and no other program names the
    snapshot or a directory above it. *)
Theorem C44_snapshot_isolation_partial : forall cfg p t w w1 n es, normal (temp cfg) -> absolute (root cfg) -> plain t -> tree (w_fs w) ->
  add_upload cfg p t w = (w1, inl n) -> spared cfg (place cfg (snapshot_dir cfg) ++ [t]) es w1 ->
  exists src b, may_serve cfg p src /\ w_fs w src = Some (File b) /\ n = Z.of_nat (length b) /\
    let w2 := events cfg es w1 in
    (forall o s w3 d, read_upload cfg t (Z.of_nat o) (Z.of_nat s) w2 = (w3, inl d) -> d = slice b o s) /\
    (forall o s, faultless w2 -> (Z.of_nat o < 2 ^ 63)%Z -> (Z.of_nat s < 2 ^ 63)%Z ->
       read_upload cfg t (Z.of_nat o) (Z.of_nat s) w2 = (w2, inl (slice b o s))).
Proof. exact frozen. Qed.
Print Assumptions C44_snapshot_isolation_partial.
(** That is so for a server that uses ordinary names as ids and the device paths it was given. *)
Theorem C44_well_behaved_server_partial : forall cfg p t w w1 n es, normal (temp cfg) -> absolute (root cfg) -> plain t -> tree (w_fs w) ->
  add_upload cfg p t w = (w1, inl n) -> all_polite cfg t es w1 ->
  exists src b, may_serve cfg p src /\ w_fs w src = Some (File b) /\ n = Z.of_nat (length b) /\
    let w2 := events cfg es w1 in
    (forall o s w3 d, read_upload cfg t (Z.of_nat o) (Z.of_nat s) w2 = (w3, inl d) -> d = slice b o s) /\
    (forall o s, faultless w2 -> (Z.of_nat o < 2 ^ 63)%Z -> (Z.of_nat s < 2 ^ 63)%Z ->
       read_upload cfg t (Z.of_nat o) (Z.of_nat s) w2 = (w2, inl (slice b o s))).
Proof. exact frozen_polite. Qed.
Print Assumptions C44_well_behaved_server_partial.
(** The same for what is sent: the open was reported as a success with size [n]. *)
Theorem C44_packets_carry_snapshot_partial : forall cfg, messages_ok cfg -> forall u p t pt w w1 n es, short u ->
  normal (temp cfg) -> absolute (root cfg) -> plain t -> tree (w_fs w) ->
  utf8_decode u = Some t -> utf8_decode p = Some pt -> opened_with cfg u p w w1 n -> spared cfg (place cfg (snapshot_dir cfg) ++ [t]) es w1 ->
  exists src b, may_serve cfg pt src /\ w_fs w src = Some (File b) /\ n = Z.of_nat (length b) /\
    let w2 := events cfg es w1 in
    (forall o s w3 d, fetched cfg u o s w2 w3 d -> d = slice b o s) /\
    (forall o s, faultless w2 -> (Z.of_nat o < 2 ^ 63)%Z -> (Z.of_nat s < 2 ^ 63)%Z -> exists w3, fetched cfg u o s w2 w3 (slice b o s)).
Proof. exact served. Qed.
Print Assumptions C44_packets_carry_snapshot_partial.
(** Another upload whose id is another name of the same file replaces the snapshot. *)
Lemma C44_alias : exists cfg p t w w1 n q u, normal (temp cfg) /\ absolute (root cfg) /\ plain t /\ tree (w_fs w) /\ faultless w /\
  add_upload cfg p t w = (w1, inl n) /\ utf8_decode u <> Some t /\
  result (read_upload cfg t 0 10) w1 <> result (read_upload cfg t 0 10) (events cfg [Request (ROpen u q)] w1).
Proof.
  exists dev, (T "a.txt"), (T "u"), w0, (after (add_upload dev (T "a.txt") (T "u")) w0), 5%Z, (B "sub/b"), (B "./u").
  split; [exact dev_temp|]. split; [exact dev_root|]. split; [exact plain_u|]. split; [exact tree0|]. split; [reflexivity|].
  split; [|split; vm_compute; discriminate].
  unfold after. rewrite (surjective_pairing (add_upload dev (T "a.txt") (T "u") w0)) at 1. f_equal. 
Qed.
Theorem C44_other_name_refuted : exists cfg p t w w1 n q u, normal (temp cfg) /\ absolute (root cfg) /\ plain t /\ tree (w_fs w) /\ faultless w /\
  add_upload cfg p t w = (w1, inl n) /\ utf8_decode u <> Some t /\
  result (read_upload cfg t 0 10) w1 <> result (read_upload cfg t 0 10) (events cfg [Request (ROpen u q)] w1).
Proof. exact C44_alias. Qed.
Print Assumptions C44_other_name_refuted.

(** The original is replaced by another program, another upload opened and a download written
    and stored in between. *)
Definition C44_events : list event :=
  [Outside (fs_of (filter (fun x => negb (loc_eqb (fst x) (home ++ [T "a.txt"]))) files1));
   Request (ROpen (B "v") (B "sub/b")); Request (RWrite (B "v") (B "new") [] 0 (B "xyz") 1); Request (RClose (B "v"))].
Example C44_case : exists w1 n, add_upload dev (T "a.txt") (T "u") w0 = (w1, inl n) /\ all_polite dev (T "u") C44_events w1 /\
  w_fs (events dev C44_events w1) (home ++ [T "a.txt"]) = None /\ w_fs (events dev C44_events w1) (home ++ [T "new"]) = Some (File (B "xyz")).
Proof.
  exists (after (add_upload dev (T "a.txt") (T "u")) w0), 5%Z. split.
  { unfold after. rewrite (surjective_pairing (add_upload dev (T "a.txt") (T "u") w0)) at 1. f_equal. }
  assert (PV : plain (T "v")) by plain_tac.
  assert (NE : T "v" <> T "u") by (vm_compute; discriminate).
  split; [|vm_compute; auto].
  unfold C44_events. cbn [all_polite]. split; [split; [apply fs_of_tree; vm_compute; reflexivity|vm_compute; reflexivity]|].
  split; [exists (T "v"); auto|]. split; [exists (T "v"); split; [exact PV|]; split; [reflexivity|left; reflexivity]|]. split; [exists (T "v"); auto|exact I].
Qed.

(** ** C45 *)
(** With nothing else going on, for any id. *)
Theorem C45_chunks_reassemble : forall cfg p t w w1 n size d w2, add_upload cfg p t w = (w1, inl n) ->
  reading cfg (fun _ _ => False) t size 0 w1 d w2 ->
  w_fs w1 (place cfg (join (snapshot_dir cfg) t)) = Some (File d) /\ n = Z.of_nat (length d).
Proof. exact chunks_sound. Qed.
Print Assumptions C45_chunks_reassemble.
(** With other requests and programs that do not name the snapshot, for ordinary ids. *)
Theorem C45_chunks_reassemble_among_others : forall cfg p t w w1 n size d w2, normal (temp cfg) -> plain t -> tree (w_fs w) ->
  add_upload cfg p t w = (w1, inl n) ->
  reading cfg (spares cfg (place cfg (snapshot_dir cfg) ++ [t])) t size 0 w1 d w2 ->
  w_fs w1 (place cfg (snapshot_dir cfg) ++ [t]) = Some (File d) /\ n = Z.of_nat (length d).
Proof. exact chunks_sound_events. Qed.
Print Assumptions C45_chunks_reassemble_among_others.
(** Without I/O errors the reads get to the end. *)
Theorem C45_reading_ends : forall cfg p t w w1 n size, add_upload cfg p t w = (w1, inl n) -> faultless w1 -> 0 < size ->
  (Z.of_nat size < 2 ^ 63)%Z -> (n < 2 ^ 63)%Z -> exists d w2, reading cfg (fun _ _ => False) t size 0 w1 d w2.
Proof. exact chunks_complete. Qed.
Print Assumptions C45_reading_ends.

Example C45_case : exists w1, add_upload dev (T "a.txt") (T "u") w0 = (w1, inl 5%Z) /\ faultless w1 /\
  reading dev (fun _ _ => False) (T "u") 2 0 w1 (B "hello") w1.
Proof.
  exists (after (add_upload dev (T "a.txt") (T "u")) w0). 
  assert (E : add_upload dev (T "a.txt") (T "u") w0 = (after (add_upload dev (T "a.txt") (T "u")) w0, inl 5%Z)).
  { unfold after. rewrite (surjective_pairing (add_upload dev (T "a.txt") (T "u") w0)) at 1. f_equal. }
  split; [exact E|]. assert (FL : faultless (after (add_upload dev (T "a.txt") (T "u")) w0)) by (vm_compute; reflexivity). split; [exact FL|].
  destruct (opened dev _ _ _ _ _ E) as (fp & b & _ & _ & _ & SH). 
  assert (b = B "hello") as ->.
  { destruct SH as (_ & _ & F). assert (X : w_fs (after (add_upload dev (T "a.txt") (T "u")) w0) (place dev (join (snapshot_dir dev) (T "u"))) = Some (File (B "hello"))) by (vm_compute; reflexivity). congruence. }
  change (B "hello") with (skipn 0 (B "hello")). apply (reading_complete dev (fun _ _ => False) (T "u") 2 (B "hello") _ SH FL) with (k := 6); cbn; lia.
Qed.

(** The same with packets only: what the server puts together is the file it asked for, of the
    size announced. *)
Theorem C45_packets_reassemble : forall cfg, messages_ok cfg -> forall u p t pt w w1 n size d w2, short u ->
  normal (temp cfg) -> absolute (root cfg) -> plain t -> tree (w_fs w) ->
  utf8_decode u = Some t -> utf8_decode p = Some pt -> opened_with cfg u p w w1 n ->
  fetching cfg (place cfg (snapshot_dir cfg) ++ [t]) u size 0 w1 d w2 ->
  n = Z.of_nat (length d) /\ exists src, may_serve cfg pt src /\ w_fs w src = Some (File d).
Proof. exact fetched_whole. Qed.
Print Assumptions C45_packets_reassemble.
Theorem C45_fetching_ends : forall cfg, messages_ok cfg -> forall u p t pt w w1 n size, short u ->
  normal (temp cfg) -> absolute (root cfg) -> plain t -> tree (w_fs w) ->
  utf8_decode u = Some t -> utf8_decode p = Some pt -> opened_with cfg u p w w1 n -> faultless w1 ->
  0 < size -> (Z.of_nat size < 2 ^ 63)%Z -> (n < 2 ^ 63)%Z ->
  exists d w2, fetching cfg (place cfg (snapshot_dir cfg) ++ [t]) u size 0 w1 d w2.
Proof. exact fetching_ends. Qed.
Print Assumptions C45_fetching_ends.
Example C45_packets_case : exists w1, opened_with dev (B "u") (B "a.txt") w0 w1 5 /\ faultless w1 /\
  exists w2, fetched dev (B "u") 1 3 w1 w2 (B "ell").
Proof.
  exists (after (handle dev (ROpen (B "u") (B "a.txt"))) w0). split.
  - exists (hd (Packet (PClass "" 0 []) []) (w_sent (after (handle dev (ROpen (B "u") (B "a.txt"))) w0))).
    split; [unfold after; rewrite (surjective_pairing (handle dev (ROpen (B "u") (B "a.txt")) w0)) at 1; f_equal; vm_compute; reflexivity|].
    repeat split; vm_compute; reflexivity.
  - split; [vm_compute; reflexivity|]. set (v := after (handle dev (ROpen (B "u") (B "a.txt"))) w0).
    exists (after (handle dev (RRead (B "u") 1 3)) v). exists (hd (Packet (PClass "" 0 []) []) (w_sent (after (handle dev (RRead (B "u") 1 3)) v))).
    split; [unfold after; change (Z.of_nat 1) with 1%Z; change (Z.of_nat 3) with 3%Z; rewrite (surjective_pairing (handle dev (RRead (B "u") 1 3) v)) at 1; f_equal; vm_compute; reflexivity|].
    repeat split; vm_compute; reflexivity.
Qed.

(** ** C46 *)
(** Exactly one reply, for every pattern of I/O failures, if no string in the reply is longer
    than sys.maxsize, the message of the exception can be encoded and, for writes, the device
    path is UTF-8. *)
Theorem C46_one_reply_partial : forall cfg, messages_ok cfg -> forall q w, encodable (temp cfg) -> reply_fits cfg q w ->
  match q with RClose _ => False | RWrite _ _ d _ _ _ => utf8_decode d <> None | _ => True end ->
  exists w' fail, replied cfg q w w' fail.
Proof. exact one_reply. Qed.
Print Assumptions C46_one_reply_partial.
(** The reply says what was done: for an open the size, for a read the data, for a write which
    step failed, if any, how far the file is written and where it is. *)
Theorem C46_reply_says_what_happened_partial : forall cfg, messages_ok cfg -> forall q w, encodable (temp cfg) -> reply_fits cfg q w ->
  match q with RClose _ => False | RWrite _ _ d _ _ _ => utf8_decode d <> None | _ => True end ->
  exists w' pk, handle cfg q w = (w', inl tt) /\ w_sent w' = pk :: w_sent w /\ truthful cfg q w pk.
Proof. exact says. Qed.
Print Assumptions C46_reply_says_what_happened_partial.
(** A device path that is not UTF-8 raises out of the handler, before the first try. *)
Theorem C46_undecodable_device_path_refuted : forall cfg i p d o x f w, utf8_decode d = None ->
  handle cfg (RWrite i p d o x f) w = (w, inr (RPy EUnicodeDecode)).
Proof. exact no_reply. Qed.
Print Assumptions C46_undecodable_device_path_refuted.

Lemma short_of b : (Z.of_nat (length b) <= 1000)%Z -> short b.
Proof. intros H. unfold short. lia. Qed.
Lemma dev_messages : messages_ok dev.
Proof. intros e. cbn. split; [apply short_of; vm_compute; discriminate|]. intros _. exists (B "error"). split; [reflexivity|apply short_of; vm_compute; discriminate]. Qed.
Example C46_case : messages_ok dev /\ encodable (temp dev) /\
  let q := RWrite (B "d") (B "x") [] 0 (B "data") 0 in
  reply_fits dev q (W (w_fs w0) [None; None; Some 2] []) /\
  length (w_sent (after (handle dev q) (W (w_fs w0) [None; None; Some 2] []))) = 1.
Proof.
  split; [exact dev_messages|]. split; [vm_compute; discriminate|]. cbv zeta. split; [|vm_compute; reflexivity].
  split; [apply short_of; vm_compute; discriminate|]. split; [apply short_of; vm_compute; discriminate|].
  intros t b E E'. vm_compute in E. injection E as <-. vm_compute in E'. injection E' as <-. apply short_of. vm_compute. discriminate.
Qed.

Example C46_says_case :
  open_outcome dev (B "u") (B "a.txt") w0 = Some 5%Z /\ open_outcome dev (B "u") (B "nothing") w0 = None /\
  read_outcome dev (B "u") 1 3 w1 = Some (B "ell") /\ read_outcome dev (B "v") 1 3 w1 = None /\
  exists k s, write_outcome dev (B "d") (B "x") [] 0 (B "data") 0 (W (w_fs w0) [None; None; Some 2] []) k s /\ k = 2%Z.
Proof.
  do 4 (split; [vm_compute; reflexivity|]). do 2 eexists. split; [|reflexivity].
  set (v := W (w_fs w0) [None; None; Some 2] []). set (s := join (download_dir dev) (T "d")).
  apply (out_2 dev _ _ _ _ _ _ v (after (add_download dev (T "d")) v) s (after (write_file dev s 0 (B "data")) (after (add_download dev (T "d")) v)) (RPy EOS)); vm_compute; reflexivity.
Qed.

(** ** C47 *)
(** The first packet comes without device path and the others with the path of the download
    file, as the agent reported it; chunks may come in any order and repeatedly, other
    requests and programs may do anything that does not name the download file; each packet is
    reported as success.  Then the file stored is the content, under a name that was free. *)
Theorem C47_chunked_writes_assemble : forall cfg i p0 o0 d0 dp t content cs p pt o d f w0 w1 w2 w3,
  utf8_decode i = Some t -> utf8_decode p = Some pt -> utf8_encode (join (download_dir cfg) t) = Some dp ->
  place cfg (join (download_dir cfg) t) <> place cfg (snapshot_dir cfg) ->
  place cfg (join (download_dir cfg) t) <> place cfg (download_dir cfg) -> tree (w_fs w0) -> f <> 0%Z ->
  replied cfg (RWrite i p0 [] (Z.of_nat o0) d0 0) w0 w1 0 ->
  writing cfg (place cfg (join (download_dir cfg) t)) i dp cs w1 w2 ->
  replied cfg (RWrite i p dp (Z.of_nat o) d f) w2 w3 0 ->
  Forall (chunk_of content) ((o0, d0) :: cs ++ [(o, d)]) -> covers content ((o0, d0) :: cs ++ [(o, d)]) ->
  exists q, chosen cfg (w_fs w2) pt q /\ w_fs w2 (place cfg q) = None /\ w_fs w3 (place cfg q) = Some (File content) /\
    w_fs w3 (place cfg (join (download_dir cfg) t)) = None /\
    forall l, l <> place cfg (join (download_dir cfg) t) -> l <> place cfg q -> w_fs w3 l = w_fs w2 l.
Proof. exact assemble. Qed.
Print Assumptions C47_chunked_writes_assemble.
(** The same for a file that fits in one packet. *)
Theorem C47_single_packet : forall cfg i p pt t content f w w', utf8_decode i = Some t -> utf8_decode p = Some pt -> tree (w_fs w) -> f <> 0%Z ->
  replied cfg (RWrite i p [] 0 content f) w w' 0 ->
  exists g q, (forall l, l <> place cfg (join (download_dir cfg) t) -> l <> place cfg (download_dir cfg) -> g l = w_fs w l) /\
    chosen cfg g pt q /\ g (place cfg q) = None /\
    w_fs w' (place cfg q) = Some (File content) /\ w_fs w' (place cfg (join (download_dir cfg) t)) = None /\
    forall l, l <> place cfg (join (download_dir cfg) t) -> l <> place cfg q -> w_fs w' l = g l.
Proof. exact single. Qed.
Print Assumptions C47_single_packet.
(** Without I/O errors, for an ordinary id and a free destination in an existing folder, every
    such sequence of packets succeeds and the content is at the destination. *)
Theorem C47_writes_succeed : forall cfg i p0 o0 d0 dp t content cs p pt o d f w0 ld,
  messages_ok cfg -> encodable (temp cfg) -> normal (temp cfg) -> plain t -> short i -> short dp ->
  utf8_decode i = Some t -> utf8_decode p = Some pt -> utf8_encode (join (download_dir cfg) t) = Some dp ->
  faultless w0 -> tree (w_fs w0) -> w_fs w0 (place cfg (temp cfg)) = Some Dir ->
  w_fs w0 (place cfg (download_dir cfg)) = None \/ w_fs w0 (place cfg (download_dir cfg)) = Some Dir ->
  w_fs w0 (place cfg (download_dir cfg) ++ [t]) <> Some Dir ->
  resolve (w_fs w0) (cwd cfg) (dest cfg pt) = Ok ld -> w_fs w0 ld = None ->
  ld <> place cfg (download_dir cfg) -> ld <> place cfg (download_dir cfg) ++ [t] -> f <> 0%Z ->
  Forall (chunk_of content) ((o0, d0) :: cs ++ [(o, d)]) -> covers content ((o0, d0) :: cs ++ [(o, d)]) -> (Z.of_nat (length content) < 2 ^ 63)%Z ->
  exists w1 w2 w3, replied cfg (RWrite i p0 [] (Z.of_nat o0) d0 0) w0 w1 0 /\
    writing cfg (place cfg (join (download_dir cfg) t)) i dp cs w1 w2 /\ replied cfg (RWrite i p dp (Z.of_nat o) d f) w2 w3 0 /\
    w_fs w3 ld = Some (File content).
Proof. exact assemble_succeeds. Qed.
Print Assumptions C47_writes_succeed.

(** Out of order and with a repeat; all hypotheses of both theorems hold. *)
Example C47_case : exists v1 v2 v3, let dp := B "/var/tmp/dataplicity_remote_downloads/d" in
  replied dev (RWrite (B "d") (B "new.txt") [] 4 (B "o w") 0) w0 v1 0 /\
  writing dev (place dev (join (download_dir dev) (T "d"))) (B "d") dp [(0, B "hell"); (4, B "o w")] v1 v2 /\
  replied dev (RWrite (B "d") (B "new.txt") dp 7 (B "orld") 1) v2 v3 0 /\
  w_fs v3 (home ++ [T "new.txt"]) = Some (File (B "hello world")).
Proof.
  refine (C47_writes_succeed dev (B "d") (B "new.txt") 4 (B "o w") (B "/var/tmp/dataplicity_remote_downloads/d") (T "d") (B "hello world") [(0, B "hell"); (4, B "o w")]
    (B "new.txt") (T "new.txt") 7 (B "orld") 1 w0 (home ++ [T "new.txt"]) dev_messages _ dev_temp _ _ _ _ _ _ _ tree0 _ _ _ _ _ _ _ _ _ _ _).
  - vm_compute. discriminate.
  - plain_tac.
  - apply short_of. vm_compute. discriminate.
  - apply short_of. vm_compute. discriminate.
  - vm_compute. reflexivity.
  - vm_compute. reflexivity.
  - vm_compute. reflexivity.
  - reflexivity.
  - vm_compute. reflexivity.
  - left. vm_compute. reflexivity.
  - vm_compute. discriminate.
  - vm_compute. reflexivity.
  - vm_compute. reflexivity.
  - vm_compute. discriminate.
  - vm_compute. discriminate.
  - discriminate.
  - repeat constructor; cbn; lia.
  - intros i H. change (length (B "hello world")) with 11 in H. destruct (Nat.ltb_spec i 4); [exists 0, (B "hell"); split; [right; left; reflexivity|cbn; lia]|].
    destruct (Nat.ltb_spec i 7); [exists 4, (B "o w"); split; [left; reflexivity|cbn; lia]|]. exists 7, (B "orld"). split; [do 3 right; left; reflexivity|cbn; lia].
  - cbn. lia.
Qed.

(** ** C48 *)
(** Nothing that existed changes, except the download file itself, whatever fails. *)
Theorem C48_existing_files_kept : forall cfg s p w l, tree (w_fs w) -> ~ within (place cfg s) l -> w_fs w l <> None ->
  w_fs (after (copy_download cfg s p) w) l = w_fs w l.
Proof. exact others_kept. Qed.
Print Assumptions C48_existing_files_kept.
(** On success the name is the one asked for, or the free one with the smallest number. *)
Theorem C48_smallest_free_name : forall cfg s p pt w w', utf8_decode p = Some pt -> copy_download cfg s p w = (w', inl tt) ->
  exists q, chosen cfg (w_fs w) pt q /\ w_fs w (place cfg q) = None /\
    forall b, tree (w_fs w) -> w_fs w (place cfg s) = Some (File b) ->
      w_fs w' (place cfg q) = Some (File b) /\ w_fs w' (place cfg s) = None /\
      forall l, l <> place cfg s -> l <> place cfg q -> w_fs w' l = w_fs w l.
Proof. exact stores. Qed.
Print Assumptions C48_smallest_free_name.
Theorem C48_hundred_taken_names_fail : forall cfg s p pt w, utf8_decode p = Some pt -> all_taken cfg (w_fs w) pt ->
  copy_download cfg s p w = (w, inr RTooMany).
Proof. exact too_many. Qed.
Print Assumptions C48_hundred_taken_names_fail.
Theorem C48_undecodable_path : forall cfg s p w, utf8_decode p = None -> copy_download cfg s p w = (w, inr (RPy EUnicodeDecode)).
Proof. exact copy_undecodable. Qed.
Print Assumptions C48_undecodable_path.

Definition C48_world : world := W (fs_of (files1 ++ [(downs ++ [T "d"], File (B "new")); (home ++ [T "a(1).txt"], Dir); (home ++ [T "a(3).txt"], File [])])) [] [].
Example C48_case : tree (w_fs C48_world) /\ result (copy_download dev (T "/var/tmp/dataplicity_remote_downloads/d") (B "a.txt")) C48_world = inl tt /\
  w_fs (after (copy_download dev (T "/var/tmp/dataplicity_remote_downloads/d") (B "a.txt")) C48_world) (home ++ [T "a(2).txt"]) = Some (File (B "new")).
Proof. split; [apply fs_of_tree; vm_compute; reflexivity|]. split; vm_compute; reflexivity. Qed.
Definition C48_full : world := W (fs_of (files1 ++ map (fun n => (home ++ [T "a(" ++ dec_N (N.of_nat n) ++ T ").txt"], File [])) (seq 1 100))) [] [].
Example C48_full_case : all_taken dev (w_fs C48_full) (T "a.txt").
Proof.
  exists (T "/home/pi/remote"), (T "a.txt"), (T "a"), (T ".txt"). split.
  { split; [vm_compute; intros H; repeat destruct H as [H|H]; discriminate || contradiction|]. exists 1. split; [reflexivity|]. right. split; [lia|vm_compute; discriminate]. }
  split.
  { split; [reflexivity|]. right. exists (T "txt"). split; [reflexivity|]. split; [vm_compute; intros H; repeat destruct H as [H|H]; discriminate || contradiction|].
    exists 97%N. split; [left; reflexivity|vm_compute; discriminate]. }
  cbv zeta. split; [vm_compute; reflexivity|]. intros k H.
  assert (X : forallb (fun k => path_exists (w_fs C48_full) (cwd dev) (numbered (if path_isdir (w_fs C48_full) (cwd dev) (T "/home/pi/remote") then T "/home/pi/remote" else root dev) (T "a") (T ".txt") k)) (seq 1 100) = true) by (vm_compute; reflexivity).
  rewrite forallb_forall in X. apply X. apply in_seq. lia.
Qed.

(** ** C49 *)
(** For paths without ".." nothing outside the remote directory changes but the download file. *)
Theorem C49_stored_inside_partial : forall cfg s p pt w l, absolute (root cfg) -> utf8_decode p = Some pt -> ~ has_backref pt ->
  ~ within (place cfg (root cfg)) l -> ~ within (place cfg s) l ->
  w_fs (after (copy_download cfg s p) w) l = w_fs w l.
Proof. exact stored_inside. Qed.
Print Assumptions C49_stored_inside_partial.
(** [copy_download] does not check the path, as [add_upload] does. *)
Lemma C49_escapes : exists cfg s p w l b, absolute (root cfg) /\ tree (w_fs w) /\ result (copy_download cfg s p) w = inl tt /\
  ~ within (place cfg (root cfg)) l /\ w_fs w l = None /\ w_fs w (place cfg s) = Some (File b) /\ w_fs (after (copy_download cfg s p) w) l = Some (File b).
Proof.
  exists dev, (T "/var/tmp/dataplicity_remote_downloads/d"), (B "../../../etc/cron"), C48_world, [T "etc"; T "cron"], (B "new").
  split; [exact dev_root|]. split; [apply fs_of_tree; vm_compute; reflexivity|]. split; [vm_compute; reflexivity|].
  split; [intros [r H]; vm_compute in H; discriminate|]. vm_compute. auto.
Qed.
Theorem C49_backref_escapes_refuted : exists cfg s p w l b, absolute (root cfg) /\ tree (w_fs w) /\ result (copy_download cfg s p) w = inl tt /\
  ~ within (place cfg (root cfg)) l /\ w_fs w l = None /\ w_fs w (place cfg s) = Some (File b) /\ w_fs (after (copy_download cfg s p) w) l = Some (File b).
Proof. exact C49_escapes. Qed.
Print Assumptions C49_backref_escapes_refuted.
Example C49_case : ~ has_backref (T "sub/c") /\
  w_fs (after (copy_download dev (T "/var/tmp/dataplicity_remote_downloads/d") (B "sub/c")) C48_world) (home ++ [T "sub"; T "c"]) = Some (File (B "new")).
Proof. split; [unfold has_backref; vm_compute; intros H; repeat destruct H as [H|H]; discriminate || contradiction|vm_compute; reflexivity]. Qed.

(** ** C50 *)
(** The folder is replaced by the root only in the names tried when the destination exists,
    which it does not if its folder is missing: every such download fails. *)
Theorem C50_missing_folder_refuted : forall cfg s p pt dir name w, absolute (root cfg) -> utf8_decode p = Some pt ->
  splits (dest cfg pt) dir name -> path_isdir (w_fs w) (cwd cfg) dir = false ->
  w_fs (after (copy_download cfg s p) w) = w_fs w /\ exists e, result (copy_download cfg s p) w = inr e.
Proof. exact folder_missing. Qed.
Print Assumptions C50_missing_folder_refuted.
Theorem C50_missing_folder_never_succeeds_refuted : forall cfg i p pt d o x f dir name w w', absolute (root cfg) -> utf8_decode p = Some pt ->
  splits (dest cfg pt) dir name -> path_isdir (w_fs w) (cwd cfg) dir = false -> utf8_decode d <> Some [] -> f <> 0%Z ->
  ~ replied cfg (RWrite i p d o x f) w w' 0.
Proof. exact folder_missing_reply. Qed.
Print Assumptions C50_missing_folder_never_succeeds_refuted.
Example C50_case : splits (dest dev (T "none/c")) (T "/home/pi/remote/none") (T "c") /\
  path_isdir (w_fs C48_world) (cwd dev) (T "/home/pi/remote/none") = false.
Proof.
  split; [|vm_compute; reflexivity]. split; [vm_compute; intros H; repeat destruct H as [H|H]; discriminate || contradiction|].
  exists 1. split; [reflexivity|]. right. split; [lia|vm_compute; discriminate].
Qed.

(** ** C51 *)
(** [statvfs] gives blocks, block size and free blocks; unused is what is free. *)
Theorem C51_disk_space_margin : forall cfg p u fp w blocks frsize bfree b l, source cfg p fp ->
  statvfs cfg = Some (blocks, frsize, bfree) -> hd None (w_faults w) = None ->
  resolve (w_fs w) (cwd cfg) fp = Ok l -> w_fs w l = Some (File b) ->
  (result (add_upload cfg p u) w = inr RLowDisk <-> (bfree * frsize - Z.of_nat (length b) < 50000000)%Z) /\
  (result (add_upload cfg p u) w = inr RLowDisk -> w_fs (after (add_upload cfg p u) w) = w_fs w).
Proof. exact space_margin. Qed.
Print Assumptions C51_disk_space_margin.
Theorem C51_without_usage_information : forall cfg p u fp w, source cfg p fp -> statvfs cfg = None ->
  result (add_upload cfg p u) w <> inr RLowDisk.
Proof. exact space_unknown. Qed.
Print Assumptions C51_without_usage_information.
Definition full_dev (free : Z) : config := Config (root dev) (temp dev) (tmpdir dev) [] (Some (100000000, 1, free)%Z) (err_text dev).
Example C51_case : source (full_dev 50000004) (T "a.txt") (T "/home/pi/remote/a.txt") /\
  result (add_upload (full_dev 50000004) (T "a.txt") (T "u")) w0 = inr RLowDisk /\
  result (add_upload (full_dev 50000005) (T "a.txt") (T "u")) w0 = inl 5%Z.
Proof.
  split; [|vm_compute; auto]. right. split; [vm_compute; discriminate|]. split; [reflexivity|].
  unfold has_backref. vm_compute. intros H. repeat destruct H as [H|H]; discriminate || contradiction.
Qed.

(** ** C52 *)
Theorem C52_close_never_fails : forall cfg u w, result (handle cfg (RClose u)) w = inl tt.
Proof. exact close_result. Qed.
Print Assumptions C52_close_never_fails.
(** Whatever fails, only that snapshot may go (and the snapshot directory may be created). *)
Theorem C52_other_files_kept : forall cfg u t w l, utf8_decode u = Some t -> let w' := after (handle cfg (RClose u)) w in
  w_fs w' l = w_fs w l \/
  (l = place cfg (snapshot_dir cfg) /\ w_fs w l = None /\ w_fs w' l = Some Dir) \/
  (l = place cfg (join (snapshot_dir cfg) t) /\ (exists b, w_fs w l = Some (File b)) /\ w_fs w' l = None).
Proof. exact close_changes. Qed.
Print Assumptions C52_other_files_kept.
Theorem C52_snapshot_removed : forall cfg u t b w, normal (temp cfg) -> utf8_decode u = Some t -> plain t -> tree (w_fs w) ->
  w_fs w (place cfg (snapshot_dir cfg) ++ [t]) = Some (File b) -> faultless w ->
  w_fs (after (handle cfg (RClose u)) w) (place cfg (snapshot_dir cfg) ++ [t]) = None.
Proof. exact close_removes. Qed.
Print Assumptions C52_snapshot_removed.
Theorem C52_idempotent : forall cfg u w, faultless w -> let w' := after (handle cfg (RClose u)) w in
  w_fs (after (handle cfg (RClose u)) w') = w_fs w'.
Proof. exact close_again. Qed.
Print Assumptions C52_idempotent.
Example C52_case : plain (T "u") /\ tree (w_fs w1) /\ w_fs w1 (place dev (snapshot_dir dev) ++ [T "u"]) = Some (File (B "hello")) /\ faultless w1.
Proof. split; [exact plain_u|]. split; [exact tree1|]. vm_compute. auto. Qed.

(** ** C82 *)
(** Without ".." in the path, only the remote directory, the directory for downloads and the
    download file, or the device path named by the server, change. *)
Theorem C82_writes_confined_partial : forall cfg i p d o x f w l, absolute (root cfg) ->
  (forall pt, utf8_decode p = Some pt -> ~ has_backref pt) ->
  ~ within (place cfg (root cfg)) l -> l <> place cfg (download_dir cfg) ->
  (forall t, utf8_decode i = Some t -> utf8_decode d = Some [] -> ~ within (place cfg (join (download_dir cfg) t)) l) ->
  (forall t, utf8_decode d = Some t -> t <> [] -> ~ within (place cfg t) l) ->
  w_fs (after (handle cfg (RWrite i p d o x f)) w) l = w_fs w l.
Proof. exact write_touches. Qed.
Print Assumptions C82_writes_confined_partial.
(** The device path is used as it comes: any file of the device is overwritten, or removed
    when the offset is negative or too big. *)
Theorem C82_any_file_written_refuted : forall cfg i p d t l b o x w, messages_ok cfg -> encodable (temp cfg) -> reply_fits cfg (RWrite i p d o x 0) w ->
  utf8_decode d = Some t -> t <> [] -> faultless w -> resolve (w_fs w) (cwd cfg) t = Ok l -> w_fs w l = Some (File b) -> x <> [] ->
  w_fs (after (handle cfg (RWrite i p d o x 0)) w) l =
  if (o <? 0)%Z || (max_off <=? o)%Z then None else Some (File (write_bytes b (Z.to_nat o) x)).
Proof. exact write_anywhere. Qed.
Print Assumptions C82_any_file_written_refuted.
Example C82_case : let q o := RWrite (B "d") [] (B "/etc/passwd") o (B "pi:") 0 in
  reply_fits dev (q 0%Z) w0 /\ w_fs (after (handle dev (q 0%Z)) w0) [T "etc"; T "passwd"] = Some (File (B "pi:t:x")) /\
  w_fs (after (handle dev (q (-1)%Z)) w0) [T "etc"; T "passwd"] = None.
Proof.
  cbv zeta. split; [|vm_compute; auto].
  split; [apply short_of; vm_compute; discriminate|]. split; [apply short_of; vm_compute; discriminate|].
  intros t b E E'. vm_compute in E. injection E as <-. vm_compute in E'. injection E' as <-. apply short_of. vm_compute. discriminate.
Qed.
Example C82_confined_case : forall l, l = [T "etc"; T "passwd"] -> ~ within (place dev (root dev)) l /\ l <> place dev (download_dir dev) /\
  ~ within (place dev (join (download_dir dev) (T "d"))) l.
Proof.
  intros l ->. split; [intros [r H]; vm_compute in H; discriminate|]. split; [vm_compute; discriminate|]. intros [r H]. vm_compute in H. discriminate.
Qed.

(** ** C84 *)
(** [w2]: the state after the data could not be written, or not all of it.  If the agent can
    remove the file, it is gone, and nothing else changed. *)
Theorem C84_partial_data_removed_partial : forall cfg, messages_ok cfg -> forall i p d o x f w w1 s w2 e l,
  encodable (temp cfg) -> reply_fits cfg (RWrite i p d o x f) w ->
  device_file cfg i d w w1 (inl s) -> data_written cfg s o x w1 w2 (inr e) -> hd None (w_faults w2) = None ->
  resolve (w_fs w2) (cwd cfg) s = Ok l ->
  let w' := after (handle cfg (RWrite i p d o x f)) w in
  (forall b, w_fs w' l <> Some (File b)) /\ forall l', l' <> l -> w_fs w' l' = w_fs w2 l'.
Proof. exact partial_removed. Qed.
Print Assumptions C84_partial_data_removed_partial.
(** A download that cannot be stored stays in the directory for downloads: here the path is not
    UTF-8. *)
Theorem C84_unstored_download_kept_refuted : forall cfg, messages_ok cfg -> forall i p d o x f w w1 s w2,
  encodable (temp cfg) -> reply_fits cfg (RWrite i p d o x f) w -> utf8_decode p = None -> f <> 0%Z ->
  device_file cfg i d w w1 (inl s) -> data_written cfg s o x w1 w2 (inl tt) ->
  w_fs (after (handle cfg (RWrite i p d o x f)) w) = w_fs w2.
Proof. exact unstored_kept. Qed.
Print Assumptions C84_unstored_download_kept_refuted.
Example C84_case : let w := W (w_fs w1) [None; Some 3] [] in let q := RWrite (B "d") (B "x") [] 0 (B "data") 0 in
  w_fs (after (write_file dev (join (download_dir dev) (T "d")) 0 (B "data")) (after (add_download dev (T "d")) w)) (downs ++ [T "d"]) = Some (File (B "da")) /\
  w_fs (after (handle dev q) w) (downs ++ [T "d"]) = None /\
  w_fs (after (handle dev (RWrite (B "d") (n2b [255%N]) [] 0 (B "data") 1)) w1) (downs ++ [T "d"]) = Some (File (B "data")).
Proof. vm_compute. auto. Qed.
