(** * Properties C98 to C102: the client with the remote directory and the manager
      (dataplicity/m2m/wsclient.py with dataplicity/remote_directory.py and dataplicity/m2mmanager.py) *)
From Verif Require Import Py Model_Bencode Model_Packets Model_Client Spec_Client Model_Path Model_Remote Spec_Remote Model_Manager
  Model_System Spec_System Proof_System Proof_System2 Proof_System3 Proof_System4 Proof_System5 Prop_Remote.

(** ** C98 *)
(** Over a session the manager's on_instruction and the methods of the remote directory are called
    for the messages that ask for it, in order, once each with the values they carry, and for
    nothing else. *)
Theorem C98_called_for_messages : forall env error_text u l st, run env error_text l (init_state u) = Some st ->
  each calls_for l (filter is_call (history st)).
Proof. exact c98. Qed.
Print Assumptions C98_called_for_messages.
Theorem C98_one_call_each : functional calls_for.
Proof. exact calls_for_functional. Qed.
Print Assumptions C98_one_call_each.
(** The call comes first: while it lasts the client only sends and reads. *)
Theorem C98_call_comes_first : forall env error_text i e st st' r, calls_for i e -> step env error_text i st = (st', r) ->
  exists rest, adds st st' (e :: rest) /\ Forall incidental rest.
Proof. exact called_first. Qed.
Print Assumptions C98_call_comes_first.

Definition opening : bytes := B "li24e1:u5:a.txte".
Definition reading : bytes := B "li27e1:ui1ei3ee".
Definition rebooting : bytes := B "li16e1:sd6:action13:reboot-deviceee".
Definition nobody (tr : list effect) (e : effect) : list (op * bool) * option exn := ([], None).
Definition quietly (n : nat) (f : fs) : fs * list (option nat) := (f, []).
Definition session : list input := [InEvent EvReady; InEvent (EvBinary opening); InOp (OpOpen 7); InEvent (EvBinary reading);
  InEvent (EvBinary (B "3:abc")); InEvent (EvBinary rebooting)].
Definition device := agent_env dev quietly (w_fs w0) nobody.
Example C98_case : match run device (fun _ => []) session (init_state None) with
  | Some st => filter is_call (history st) =
      [RdOpen (VBytes (B "u")) (VBytes (B "a.txt")); RdRead (VBytes (B "u")) (VInt 1) (VInt 3);
       Instruction (VBytes (B "s")) (VDict [(VBytes (B "action"), VBytes (B "reboot-device"))])]
  | None => False
  end.
Proof. vm_compute. reflexivity. Qed.
Lemma opening_wants : wants (InEvent (EvBinary opening)) (ROpen (B "u") (B "a.txt")).
Proof. constructor. exists []. vm_compute. reflexivity. Qed.
Lemma reading_wants : wants (InEvent (EvBinary reading)) (RRead (B "u") 1 3).
Proof. constructor. exists []. vm_compute. reflexivity. Qed.

(** ** C99 *)
(** [qs]: the requests of files among the messages so far.  The next one is answered by one
    message that the peer understands and that says what happened, to the files that [qs] and
    whatever happened meanwhile left. *)
Theorem C99_answered_on_the_wire_partial : forall cfg meanwhile start rest error_text, messages_ok cfg -> forall l u st, encodable (temp cfg) ->
  run (agent_env cfg meanwhile start rest) error_text l (init_state u) = Some st ->
  exists qs, each wants l qs /\
  let w := met_after cfg meanwhile start qs in
  forall i q st' r, wants i q -> step (agent_env cfg meanwhile start rest) error_text i st = (st', r) -> reply_fits cfg q w ->
  match q with RClose _ => False | RWrite _ _ d _ _ _ => utf8_decode d <> None | _ => True end ->
  exists b pk, adds st st' [call_of q; Sent b] /\ from_bytes b = Ok pk /\ answers q pk /\ truthful cfg q w pk.
Proof. exact c99. Qed.
Print Assumptions C99_answered_on_the_wire_partial.
Theorem C99_one_request_each_partial : functional wants.
Proof. exact wants_functional. Qed.
Print Assumptions C99_one_request_each_partial.
Theorem C99_every_request_has_a_message_partial : forall q, brief q -> exists m, wants (InEvent (EvBinary m)) q.
Proof. exact askable. Qed.
Print Assumptions C99_every_request_has_a_message_partial.
(** Nothing is sent for a write whose device path is not UTF-8, nor for a close. *)
Theorem C99_silence_refuted : forall cfg meanwhile start rest error_text i q st st' r, wants i q ->
  match q with RClose _ => True | RWrite _ _ d _ _ _ => utf8_decode d = None | _ => False end ->
  step (agent_env cfg meanwhile start rest) error_text i st = (st', r) -> adds st st' [call_of q].
Proof. exact unanswered. Qed.
Print Assumptions C99_silence_refuted.
Example C99_case : match run device (fun _ => []) session (init_state None) with
  | Some st => map (fun e => match e with Sent b => match from_bytes b with Ok p => Some (pk_attrs p) | _ => None end | _ => None end) (history st) =
      [Some []; None;
       Some [("upload_id"%string, VBytes (B "u")); ("size"%string, VInt 5); ("fail"%string, VInt 0); ("fail_reason"%string, VBytes [])]; None;
       Some [("upload_id"%string, VBytes (B "u")); ("offset"%string, VInt 1); ("size"%string, VInt 3); ("data"%string, VBytes (B "ell"));
             ("fail"%string, VInt 0); ("fail_reason"%string, VBytes [])]; None]
  | None => False
  end.
Proof. vm_compute. reflexivity. Qed.
Example C99_fits_case : messages_ok dev /\ encodable (temp dev) /\ reply_fits dev (ROpen (B "u") (B "a.txt")) (met_after dev quietly (w_fs w0) []).
Proof. split; [exact dev_messages|]. split; [vm_compute; discriminate|]. apply short_of. vm_compute. discriminate. Qed.
Example C99_silence_case : wants (InEvent (EvBinary (B "li26e1:ue"))) (RClose (B "u")) /\
  exists d, utf8_decode d = None /\ wants (InEvent (EvBinary (B "li31e1:d0:1:" ++ d ++ B "i0e1:xi0ee"))) (RWrite (B "d") [] d 0 (B "x") 0).
Proof.
  split; [constructor; exists []; vm_compute; reflexivity|]. exists (n2b [255%N]). split; [reflexivity|]. constructor. exists []. vm_compute. reflexivity.
Qed.

(** ** C100 *)
(** What the manager does over a session - syncing, starting terminals, services and
    connections, rebooting, running commands - is what the instruction messages ask for, in
    order; nothing else that the server sends makes it do any of it. *)
Theorem C100_deeds_as_instructed : forall env error_text m u l st, run env error_text l (init_state u) = Some st ->
  each (deed_for m) l (deeds m (history st)).
Proof. exact c100. Qed.
Print Assumptions C100_deeds_as_instructed.
Theorem C100_one_deed_each : forall m, functional (deed_for m).
Proof. exact deed_functional. Qed.
Print Assumptions C100_one_deed_each.
Example C100_case : match run device (fun _ => []) session (init_state None) with
  | Some st => deeds default_manager (history st) = [Reboot] | None => False end.
Proof. vm_compute. reflexivity. Qed.
Example C100_deed_case : deed_for default_manager (InEvent (EvBinary rebooting)) Reboot /\ forall d, ~ deed_for default_manager (InEvent (EvBinary opening)) d.
Proof.
  split.
  - exists rebooting, (B "s"), [(VBytes (B "action"), VBytes (B "reboot-device"))]. split; [reflexivity|]. split; [exists []; vm_compute; reflexivity|].
    split; [intros k v [[= <- _]|[]]; eauto|]. apply Spec_Manager.asks_reboot.
    exists [], (B "action"), (VBytes (B "reboot-device")), []. repeat split. intros k' raw' [].
  - intros d (msg & s & data & [= <-] & [rest Hd] & _). vm_compute in Hd. discriminate.
Qed.

(** ** C101 *)
(** The server asks for a file and then for consecutive chunks of it until a short one, and is
    told each time of a success.  Whatever happens in between - other messages, other uses of
    the client, other programs - unless it touches the snapshot made for this upload, the
    chunks put together are the file that was asked for, as it was when it was asked for, of
    the size announced; and the file is one that the agent may serve. *)
Theorem C101_file_over_the_wire : forall cfg meanwhile start rest error_text, messages_ok cfg -> encodable (temp cfg) ->
  forall u t, utf8_decode u = Some t -> short u -> normal (temp cfg) -> plain t -> sane meanwhile ->
  let env := agent_env cfg meanwhile start rest in
  let snapshot := place cfg (snapshot_dir cfg) ++ [t] in
  forall l v st p pt i st1 r pk n size d st2 qs, absolute (root cfg) -> tree start -> utf8_decode p = Some pt ->
  run env error_text l (init_state v) = Some st -> each wants l qs ->
  (forall k f, length qs < k -> fst (meanwhile k f) snapshot = f snapshot) ->
  wants i (ROpen u p) -> step env error_text i st = (st1, r) -> told st st1 pk -> field pk "fail" (VInt 0) -> field pk "size" (VInt n) ->
  wire_fetch env error_text cfg snapshot u size 0 st1 d st2 ->
  n = Z.of_nat (length d) /\ exists src, may_serve cfg pt src /\ w_fs (met_after cfg meanwhile start qs) src = Some (File d).
Proof. exact c101. Qed.
Print Assumptions C101_file_over_the_wire.
(** Without interference the server gets to the end, whatever the size of the chunks. *)
Theorem C101_fetching_ends : forall cfg meanwhile start rest error_text, messages_ok cfg -> encodable (temp cfg) ->
  forall u t, utf8_decode u = Some t -> short u -> normal (temp cfg) -> plain t ->
  let env := agent_env cfg meanwhile start rest in
  forall l v st p pt i st1 r pk n size qs, absolute (root cfg) -> tree start -> sane meanwhile -> utf8_decode p = Some pt ->
  run env error_text l (init_state v) = Some st -> each wants l qs -> calm meanwhile (S (length qs)) ->
  wants i (ROpen u p) -> step env error_text i st = (st1, r) -> told st st1 pk -> field pk "fail" (VInt 0) -> field pk "size" (VInt n) ->
  0 < size -> (Z.of_nat size < 2 ^ 63)%Z -> (n < 2 ^ 63)%Z ->
  exists d st2, wire_fetch env error_text cfg (place cfg (snapshot_dir cfg) ++ [t]) u size 0 st1 d st2.
Proof. exact c101_ends. Qed.
Print Assumptions C101_fetching_ends.
Definition chunk0 : bytes := B "li27e1:ui0ei3ee".
Definition chunk1 : bytes := B "li27e1:ui3ei3ee".
Definition then_ (m : bytes) (st : state) : state := fst (step device (fun _ => []) (InEvent (EvBinary m)) st).
Definition said (m : bytes) (st : state) : packet :=
  match rev (history (then_ m st)) with Sent b :: _ => match from_bytes b with Ok p => p | _ => Packet (PClass "" 0 []) [] end | _ => Packet (PClass "" 0 []) [] end.
Definition begun : state := match run device (fun _ => []) [InEvent EvReady] (init_state None) with Some st => st | None => init_state None end.
Lemma told_case m st : (exists new b, history (then_ m st) = history st ++ new /\ In (Sent b) new /\ from_bytes b = Ok (said m st)) -> told st (then_ m st) (said m st).
Proof. intros (new & b & H). exists new, b. exact H. Qed.
Example C101_case :
  run device (fun _ => []) [InEvent EvReady] (init_state None) = Some begun /\ each wants [InEvent EvReady] [] /\ sane quietly /\
  told begun (then_ opening begun) (said opening begun) /\
  field (said opening begun) "fail" (VInt 0) /\ field (said opening begun) "size" (VInt 5) /\
  exists st2, wire_fetch device (fun _ => []) dev (place dev (snapshot_dir dev) ++ [T "u"]) (B "u") 3 0 (then_ opening begun) (B "hello") st2.
Proof.
  split; [vm_compute; reflexivity|]. split; [apply each_none; [intros q H; inversion H|constructor]|]. split; [intros n f H; exact H|].
  split.
  { apply told_case. do 2 eexists. split; [vm_compute; reflexivity|]. split; [right; left; reflexivity|]. vm_compute. reflexivity. }
  split; [vm_compute; reflexivity|]. split; [vm_compute; reflexivity|].
  exists (then_ chunk1 (then_ rebooting (then_ chunk0 (then_ opening begun)))).
  change (B "hello") with (B "hel" ++ B "lo").
  eapply (wf_more _ _ _ _ _ _ _ _ (InEvent (EvBinary chunk0)) _ _ (said chunk0 (then_ opening begun))).
  - change (RRead (B "u") (Z.of_nat 0) (Z.of_nat 3)) with (RRead (B "u") 0 3). constructor. exists []. vm_compute. reflexivity.
  - apply surjective_pairing.
  - apply told_case. do 2 eexists. split; [vm_compute; reflexivity|]. split; [right; left; reflexivity|]. vm_compute. reflexivity.
  - vm_compute. reflexivity.
  - vm_compute. reflexivity.
  - reflexivity.
  - eapply (wf_other _ _ _ _ _ _ _ _ (InEvent (EvBinary rebooting))).
    + intros q H. exfalso. inversion H as [m u p [rs C]|m u [rs C]|m u o s [rs C]|m i p d o x f [rs C]]; subst; vm_compute in C; discriminate.
    + apply surjective_pairing.
    + vm_compute. discriminate.
    + eapply (wf_short _ _ _ _ _ _ _ _ (InEvent (EvBinary chunk1)) _ _ (said chunk1 (then_ rebooting (then_ chunk0 (then_ opening begun))))).
      * change (RRead (B "u") (Z.of_nat (0 + 3)) (Z.of_nat 3)) with (RRead (B "u") 3 3). constructor. exists []. vm_compute. reflexivity.
      * apply surjective_pairing.
      * apply told_case. do 2 eexists. split; [vm_compute; reflexivity|]. split; [right; left; reflexivity|]. vm_compute. reflexivity.
      * vm_compute. reflexivity.
      * vm_compute. reflexivity.
      * vm_compute. lia.
Qed.

(** ** C102 *)
(** The server writes a file in chunks, in any order and repeatedly, the first without device
    path and the others to the device path it was told, the last marked as final, and is told each time of a
    success.  Whatever happens in between, unless it touches the download file, the file
    stored is the content, under a name that was free, and no other file changed with the final message. *)
Theorem C102_stored_over_the_wire : forall cfg meanwhile start rest error_text, messages_ok cfg -> encodable (temp cfg) ->
  forall u t, utf8_decode u = Some t -> short u -> (forall b, utf8_encode (join (download_dir cfg) t) = Some b -> short b) ->
  let env := agent_env cfg meanwhile start rest in
  let download := place cfg (join (download_dir cfg) t) in
  download <> place cfg (snapshot_dir cfg) -> download <> place cfg (download_dir cfg) -> sane meanwhile ->
  forall l v st qs0 p0 o0 d0 j0 st1 r1 pk1 dp js cs st2 qs content p pt o d f j st3 r3 pk3,
  tree start -> run env error_text l (init_state v) = Some st -> each wants l qs0 ->
  (forall k g, length qs0 < k -> fst (meanwhile k g) download = g download) ->
  wants j0 (RWrite u p0 [] (Z.of_nat o0) d0 0) -> step env error_text j0 st = (st1, r1) -> told st st1 pk1 ->
  field pk1 "fail" (VInt 0) -> field pk1 "device_path" (VBytes dp) ->
  wire_store env error_text cfg download u dp js cs st1 st2 -> each wants (l ++ j0 :: js) qs ->
  wants j (RWrite u p dp (Z.of_nat o) d f) -> f <> 0%Z -> utf8_decode p = Some pt ->
  step env error_text j st2 = (st3, r3) -> told st2 st3 pk3 -> field pk3 "fail" (VInt 0) ->
  Forall (chunk_of content) ((o0, d0) :: cs ++ [(o, d)]) -> covers content ((o0, d0) :: cs ++ [(o, d)]) ->
  let w := met_after cfg meanwhile start qs in
  let after := left_by cfg meanwhile 0 start (qs ++ [RWrite u p dp (Z.of_nat o) d f]) in
  exists q, chosen cfg (w_fs w) pt q /\ w_fs w (place cfg q) = None /\ after (place cfg q) = Some (File content) /\ after download = None /\
    forall x, x <> download -> x <> place cfg q -> after x = w_fs w x.
Proof. exact c102. Qed.
Print Assumptions C102_stored_over_the_wire.
(** The same for a file that fits in one message. *)
Theorem C102_single_message : forall cfg meanwhile start rest error_text, messages_ok cfg -> encodable (temp cfg) ->
  forall u t, utf8_decode u = Some t -> short u -> (forall b, utf8_encode (join (download_dir cfg) t) = Some b -> short b) ->
  let env := agent_env cfg meanwhile start rest in
  let download := place cfg (join (download_dir cfg) t) in
  sane meanwhile -> forall l v st qs p pt content f j st1 r pk,
  tree start -> run env error_text l (init_state v) = Some st -> each wants l qs ->
  wants j (RWrite u p [] 0 content f) -> f <> 0%Z -> utf8_decode p = Some pt ->
  step env error_text j st = (st1, r) -> told st st1 pk -> field pk "fail" (VInt 0) ->
  let w := met_after cfg meanwhile start qs in
  let after := left_by cfg meanwhile 0 start (qs ++ [RWrite u p [] 0 content f]) in
  exists g q, (forall x, x <> download -> x <> place cfg (download_dir cfg) -> g x = w_fs w x) /\ chosen cfg g pt q /\ g (place cfg q) = None /\
    after (place cfg q) = Some (File content) /\ after download = None /\ forall x, x <> download -> x <> place cfg q -> after x = g x.
Proof. exact c102_single. Qed.
Print Assumptions C102_single_message.
(** Without interference, for an ordinary id and a free destination in an existing folder, every
    such sequence of messages is answered with success and the content is at the destination. *)
Theorem C102_storing_succeeds : forall cfg meanwhile start rest error_text, messages_ok cfg -> encodable (temp cfg) ->
  forall u dp t pt ld, normal (temp cfg) -> plain t -> utf8_decode u = Some t -> utf8_encode (join (download_dir cfg) t) = Some dp -> short u -> short dp ->
  ld <> place cfg (download_dir cfg) -> ld <> place cfg (download_dir cfg) ++ [t] ->
  let env := agent_env cfg meanwhile start rest in
  forall l v st qs0 p0 o0 d0 j0 js cs content p o d f j,
  tree start -> sane meanwhile -> run env error_text l (init_state v) = Some st -> each wants l qs0 -> calm meanwhile (length qs0) ->
  let w0 := met_after cfg meanwhile start qs0 in
  w_fs w0 (place cfg (temp cfg)) = Some Dir ->
  w_fs w0 (place cfg (download_dir cfg)) = None \/ w_fs w0 (place cfg (download_dir cfg)) = Some Dir ->
  w_fs w0 (place cfg (download_dir cfg) ++ [t]) <> Some Dir ->
  resolve (w_fs w0) (cwd cfg) (dest cfg pt) = Ok ld -> w_fs w0 ld = None ->
  wants j0 (RWrite u p0 [] (Z.of_nat o0) d0 0) ->
  Forall2 (fun j c => exists p, wants j (RWrite u p dp (Z.of_nat (fst c)) (snd c) 0)) js cs ->
  wants j (RWrite u p dp (Z.of_nat o) d f) -> f <> 0%Z -> utf8_decode p = Some pt ->
  Forall (chunk_of content) ((o0, d0) :: cs ++ [(o, d)]) -> covers content ((o0, d0) :: cs ++ [(o, d)]) -> (Z.of_nat (length content) < 2 ^ 63)%Z ->
  exists st1 r1 pk1 st2 st3 r3 pk3, step env error_text j0 st = (st1, r1) /\ told st st1 pk1 /\ field pk1 "fail" (VInt 0) /\ field pk1 "device_path" (VBytes dp) /\
    wire_store env error_text cfg (place cfg (join (download_dir cfg) t)) u dp js cs st1 st2 /\
    step env error_text j st2 = (st3, r3) /\ told st2 st3 pk3 /\ field pk3 "fail" (VInt 0) /\
    forall qs, each wants (l ++ j0 :: js ++ [j]) qs -> left_by cfg meanwhile 0 start qs ld = Some (File content).
Proof. exact c102_succeeds. Qed.
Print Assumptions C102_storing_succeeds.

(** Out of order; all hypotheses of the first and the last theorem hold. *)
Example C102_case : let dp := B "/var/tmp/dataplicity_remote_downloads/d" in
  let j0 := InEvent (EvBinary (B "li31e1:d7:new.txt0:i4e3:o wi0ee")) in
  let js := [InEvent (EvBinary (B "li31e1:d7:new.txt39:/var/tmp/dataplicity_remote_downloads/di0e4:helli0ee"))] in
  let j := InEvent (EvBinary (B "li31e1:d7:new.txt39:/var/tmp/dataplicity_remote_downloads/di7e4:orldi1ee")) in
  exists st1 r1 pk1 st2 st3 r3 pk3, step device (fun _ => []) j0 begun = (st1, r1) /\ told begun st1 pk1 /\ field pk1 "fail" (VInt 0) /\ field pk1 "device_path" (VBytes dp) /\
    wire_store device (fun _ => []) dev (place dev (join (download_dir dev) (T "d"))) (B "d") dp js [(0, B "hell")] st1 st2 /\
    step device (fun _ => []) j st2 = (st3, r3) /\ told st2 st3 pk3 /\ field pk3 "fail" (VInt 0) /\
    forall qs, each wants ([InEvent EvReady] ++ j0 :: js ++ [j]) qs -> left_by dev quietly 0 (w_fs w0) qs (home ++ [T "new.txt"]) = Some (File (B "hello world")).
Proof.
  cbv zeta. refine (C102_storing_succeeds dev quietly (w_fs w0) nobody (fun _ => []) dev_messages _ (B "d") (B "/var/tmp/dataplicity_remote_downloads/d") (T "d") (T "new.txt") (home ++ [T "new.txt"])
    dev_temp _ _ _ _ _ _ _ [InEvent EvReady] None begun [] (B "new.txt") 4 (B "o w") _ _ [(0, B "hell")] (B "hello world") (B "new.txt") 7 (B "orld") 1 _ tree0 _ _ _ _ _ _ _ _ _ _ _ _ _ _ _ _ _).
  - vm_compute. discriminate.
  - plain_tac.
  - vm_compute. reflexivity.
  - vm_compute. reflexivity.
  - apply short_of. vm_compute. discriminate.
  - apply short_of. vm_compute. discriminate.
  - vm_compute. discriminate.
  - vm_compute. discriminate.
  - intros n f H. exact H.
  - vm_compute. reflexivity.
  - apply each_none; [intros q H; inversion H|constructor].
  - intros k f _. reflexivity.
  - vm_compute. reflexivity.
  - left. vm_compute. reflexivity.
  - vm_compute. discriminate.
  - vm_compute. reflexivity.
  - vm_compute. reflexivity.
  - constructor. exists []. vm_compute. reflexivity.
  - constructor; [|constructor]. exists (B "new.txt"). constructor. exists []. vm_compute. reflexivity.
  - constructor. exists []. vm_compute. reflexivity.
  - discriminate.
  - vm_compute. reflexivity.
  - repeat constructor; cbn; lia.
  - intros i H. change (length (B "hello world")) with 11 in H. destruct (Nat.ltb_spec i 4); [exists 0, (B "hell"); split; [right; left; reflexivity|cbn; lia]|].
    destruct (Nat.ltb_spec i 7); [exists 4, (B "o w"); split; [left; reflexivity|cbn; lia]|]. exists 7, (B "orld"). split; [do 2 right; left; reflexivity|cbn; lia].
  - cbn. lia.
Qed.
Example C102_single_case : exists st1 r pk, let j := InEvent (EvBinary (B "li31e1:d7:new.txt0:i0e5:helloi1ee")) in
  wants j (RWrite (B "d") (B "new.txt") [] 0 (B "hello") 1) /\
  step device (fun _ => []) j begun = (st1, r) /\ told begun st1 pk /\ field pk "fail" (VInt 0).
Proof.
  do 3 eexists. cbv zeta. split; [constructor; exists []; vm_compute; reflexivity|]. split; [apply surjective_pairing|].
  split; [apply (told_case (B "li31e1:d7:new.txt0:i0e5:helloi1ee") begun); do 2 eexists; split; [vm_compute; reflexivity|]; split; [right; left; reflexivity|vm_compute; reflexivity]|].
  vm_compute. reflexivity.
Qed.
