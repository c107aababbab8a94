(** * Properties C66-C70, C83, C89, C90, C137: the agent's polling (dataplicity/client.py) *)
From Coq Require Import Permutation.
From Verif Require Import Py Model_Path Model_Rpc Spec_Rpc Model_Agent Spec_Agent Proof_Agent Proof_Agent2 Proof_Agent3.
From Verif Require Model_Tools.

(** Servers and hosts for the examples *)
Definition acks (ids : list string) : reply :=
  Answer (Some (JArr (map (fun i => JObj [(T "jsonrpc", JStr (T "2.0")); (T "id", JStr (T i)); (T "result", JNull)]) ids))).
Definition meta1 : meta := Meta (JStr (T "0.5")) JNull (JStr (T "Pi")) (JStr (T "10")) (JStr (T "Linux")) (JArr []).
Definition all_ids : list string := "authenticate_result"%string :: map fst metadata.
Definition serial1 : json := JStr (T "s"). Definition token1 : json := JStr (T "t").
Lemma acks_ok ids : Forall ok_response (map (fun i => JObj [(T "jsonrpc", JStr (T "2.0")); (T "id", JStr (T i)); (T "result", JNull)]) ids).
Proof.
  apply Forall_forall. intros x H. apply in_map_iff in H as (i & <- & _). eexists. split; [reflexivity|]. split.
  - intros j E. assert (j = JStr (T i)) as -> by (now injection E). split; discriminate.
  - intros E. now destruct E.
Qed.
Lemma acks_acknowledge i ids : In i ids -> acknowledged i (acks ids).
Proof.
  intros H. eexists. split; [reflexivity|]. split; [apply acks_ok|]. eexists. split; [apply in_map_iff; eexists; split; [reflexivity|exact H]|]. split; reflexivity.
Qed.

(** ** C66 *)
(** [l]: any history of polls and identities, with metadata that could be read in every sync or a
    server that only acknowledges metadata it was sent.  Until a sync was accepted each sync sends
    authentication and the six calls; afterwards no sync sends anything. *)
Theorem C66_until_accepted_partial : forall net serial token t0 l a sid m,
  a = grun net serial token l (agent0 t0) -> readable l \/ honest net (w_sent (g_world a)) ->
  (~ metadata_accepted net (w_sent (g_world a)) ->
     w_sent (g_world (fst (sync net serial token sid (Some m) a))) = sync_request serial token sid m :: w_sent (g_world a)) /\
  (metadata_accepted net (w_sent (g_world a)) -> sync net serial token sid (Some m) a = (a, ROk tt)).
Proof. exact sync_sends. Qed.
Print Assumptions C66_until_accepted_partial.
(** No request after the accepted one has any of the six calls *)
Theorem C66_never_afterwards_partial : forall net serial token t0 l a newer request older,
  a = grun net serial token l (agent0 t0) -> readable l \/ honest net (w_sent (g_world a)) ->
  w_sent (g_world a) = newer ++ request :: older -> is_sync request -> all_acknowledged (net (length older)) ->
  Forall (fun r => ~ has_metadata r) newer.
Proof. exact never_afterwards. Qed.
Print Assumptions C66_never_afterwards_partial.
Theorem C66_request_partial : forall serial token sid m, is_sync (sync_request serial token sid m).
Proof. reflexivity. Qed.
Print Assumptions C66_request_partial.
(** If get_meta raises, a sync sends only authentication although nothing was accepted. *)
Theorem C66_unreadable_metadata_refuted : forall net serial token t0 sid,
  w_sent (g_world (fst (sync net serial token sid None (agent0 t0)))) = [JArr [check_auth serial token [(T "sync_id", JStr sid)]]] /\
  ~ metadata_accepted net (w_sent (g_world (agent0 t0))).
Proof. exact unreadable_sends. Qed.
Print Assumptions C66_unreadable_metadata_refuted.
(** Then a server that answers what it was not asked stops the agent from ever sending metadata. *)
Theorem C66_never_sent_refuted : exists net serial token sid a, a = fst (sync net serial token sid None (agent0 0)) /\
  ~ metadata_accepted net (w_sent (g_world a)) /\ forall sid m, sync net serial token sid m a = (a, ROk tt).
Proof.
  exists (fun _ => acks all_ids), serial1, token1, (T "0"). eexists. split; [reflexivity|]. split.
  - destruct (unreadable_sends (fun _ => acks all_ids) serial1 token1 0 (T "0")) as [-> _]. intros (newer & r & older & E & S0 & _).
    destruct newer as [|x newer]; [|destruct newer; discriminate]. injection E as <- _. discriminate S0.
  - intros sid m. apply sync_done. vm_compute. reflexivity.
Qed.
Print Assumptions C66_never_sent_refuted.
(** A sync that is refused, one that is accepted, one more *)
Example C66_case :
  let net := fun n => if (n =? 0)%nat then acks (tl all_ids) else if (n =? 1)%nat then acks (removelast all_ids) else acks all_ids in
  let l := [GSync (T "1") (Some meta1); GTags (TagList [T "x"]); GSync (T "2") (Some meta1)] in
  let a := grun net serial1 token1 l (agent0 0) in
  let b := fst (sync net serial1 token1 (T "3") (Some meta1) (fst (sync net serial1 token1 (T "3") (Some meta1) a))) in
  w_sent (g_world b) = [sync_request serial1 token1 (T "2") meta1; tags_request serial1 token1 [T "x"]; sync_request serial1 token1 (T "1") meta1] /\
  readable l /\ metadata_accepted net (w_sent (g_world b)).
Proof.
  cbn zeta. split; [vm_compute; reflexivity|]. split; [intros sid H; repeat destruct H as [H|H]; discriminate H || destruct H|].
  exists [], (sync_request serial1 token1 (T "2") meta1). eexists. split; [vm_compute; reflexivity|]. split; [reflexivity|].
  cbn [length Nat.eqb]. split; [apply acks_acknowledge; left; reflexivity|]. intros p H. apply acks_acknowledge. right. now apply in_map.
Qed.

(** ** C67 *)
(** After any history there is exactly one "last list the server accepted"; a poll that reads
    another list sends it, a poll that reads the same sends nothing. *)
Theorem C67_sent_iff_changed : forall net serial token t0 l a tags, a = grun net serial token l (agent0 t0) ->
  (last_accepted net (w_sent (g_world a)) (Some (JArr (map JStr tags))) ->
     w_sent (g_world (fst (tag_poll net serial token (TagList tags) a))) = w_sent (g_world a)) /\
  (~ last_accepted net (w_sent (g_world a)) (Some (JArr (map JStr tags))) ->
     w_sent (g_world (fst (tag_poll net serial token (TagList tags) a))) = tags_request serial token tags :: w_sent (g_world a)).
Proof. exact tags_sent. Qed.
Print Assumptions C67_sent_iff_changed.
Theorem C67_one_last_list : forall net serial token t0 l a, a = grun net serial token l (agent0 t0) ->
  (exists t, last_accepted net (w_sent (g_world a)) t) /\
  forall t t', last_accepted net (w_sent (g_world a)) t -> last_accepted net (w_sent (g_world a)) t' -> t = t'.
Proof. intros net serial token t0 l a H. split; [eapply tags_known; eassumption|]. intros t t'. apply last_accepted_det. Qed.
Print Assumptions C67_one_last_list.
(** If the list cannot be read nothing is sent. *)
Theorem C67_unreadable : forall net serial token a tags, (forall l, tags <> TagList l) ->
  w_sent (g_world (fst (tag_poll net serial token tags a))) = w_sent (g_world a).
Proof. exact no_list_no_tags. Qed.
Print Assumptions C67_unreadable.
(** Refused, accepted, unchanged, unreadable, changed *)
Example C67_case :
  let net := fun n => if (n =? 0)%nat then Unreachable else acks ["set_machine_defined_tags_result"%string] in
  let x := [T "x"] in let y := [T "x"; T "y"] in
  w_sent (g_world (grun net serial1 token1 [GTags (TagList x); GTags (TagList x); GTags (TagList x); GTags TagError; GTags (TagList y); GTags (TagList y)] (agent0 0))) =
  [tags_request serial1 token1 y; tags_request serial1 token1 x; tags_request serial1 token1 x].
Proof. vm_compute. reflexivity. Qed.

(** ** C68 *)
(** Between two reports the clock advances by an hour, whatever happens between them. *)
Theorem C68_an_hour_apart_partial : forall net serial token t0 l1 now1 disk1 l2 now2 disk2,
  sends_disk net serial token now1 disk1 (grun net serial token l1 (agent0 t0)) ->
  sends_disk net serial token now2 disk2 (grun net serial token (l1 ++ GDisk now1 disk1 :: l2) (agent0 t0)) -> (now1 + 3600 <= now2)%Z.
Proof. exact disk_hour. Qed.
Print Assumptions C68_an_hour_apart_partial.
(** The first disk poll reports unless the clock was set back since the agent started. *)
Theorem C68_first_poll_partial : forall net serial token t0 l now total used, (forall now disk, In (GDisk now disk) l -> (now < t0)%Z) -> (t0 <= now)%Z ->
  sends_disk net serial token now (Some (total, used)) (grun net serial token l (agent0 t0)).
Proof. exact disk_first. Qed.
Print Assumptions C68_first_poll_partial.
(** Nothing else reports disk space. *)
Theorem C68_only_disk_polls_partial : forall net serial token a o, (forall now disk, o <> GDisk now disk) ->
  exists new, w_sent (g_world (gstep net serial token a o)) = new ++ w_sent (g_world a) /\ Forall (fun r => ~ has_disk r) new.
Proof. exact disk_only. Qed.
Print Assumptions C68_only_disk_polls_partial.
(** The clock jumps: the poll at real time 0 reads 0, the one at real time 60 reads 3600. *)
Theorem C68_clock_jumps_refuted : exists (clock : Z -> Z) (real1 real2 : Z), (real1 < real2 < real1 + 3600)%Z /\
  forall net serial token disk1 disk2, disk1 <> None -> disk2 <> None ->
    let a := agent0 (clock real1) in
    sends_disk net serial token (clock real1) disk1 a /\
    sends_disk net serial token (clock real2) disk2 (gstep net serial token a (GDisk (clock real1) disk1)).
Proof.
  exists (fun r => if (r =? 60)%Z then 3600%Z else r), 0%Z, 60%Z. split; [lia|]. intros net serial token disk1 disk2 D1 D2. cbn zeta. split.
  - apply sends_disk_iff. split; [cbn; lia|auto].
  - apply sends_disk_iff. split; [|auto]. cbn [gstep]. match goal with |- context [disk_poll net serial token ?n disk1 ?a] => destruct (disk_sent net serial token n disk1 a) as (_ & -> & _) end.
    vm_compute. discriminate.
Qed.
Print Assumptions C68_clock_jumps_refuted.
Theorem C68_clock_set_back_refuted : forall net serial token t0 now disk, (now < t0)%Z ->
  w_sent (g_world (fst (disk_poll net serial token now disk (agent0 t0)))) = [].
Proof. exact disk_clock_set_back. Qed.
Print Assumptions C68_clock_set_back_refuted.
Example C68_case :
  let net := fun _ => Unreachable in
  w_sent (g_world (grun net serial1 token1 [GDisk 100 (Some (10, 4)); GDisk 160 (Some (10, 5)); GDisk 3699 (Some (10, 6)); GDisk 3700 (Some (10, 7))]%Z (agent0 100))) =
  [disk_request serial1 token1 10 7; disk_request serial1 token1 10 4].
Proof. vm_compute. reflexivity. Qed.

(** ** C69 *)
Theorem C69_never_raises_partial : forall net serial token e a x, snd (poll net serial token e a) <> RRaise x.
Proof. exact poll_no_raise. Qed.
Print Assumptions C69_never_raises_partial.
(** Unless the server holds a connection open in silence or the tag script never ends *)
Theorem C69_completes_partial : forall net serial token e a, (forall n, net n <> Silent) -> e_tags e <> TagHang -> snd (poll net serial token e a) = ROk tt.
Proof. exact poll_completes. Qed.
Print Assumptions C69_completes_partial.
(** ... polling goes on as long as exit is not requested, and returns when it is. *)
Theorem C69_until_exit_partial : forall net serial token envs exits, (forall n, net n <> Silent) -> (forall n, e_tags (envs n) <> TagHang) ->
  forall k n a, (forall j, n <= j < n + k -> exits j = false) ->
    (forall fuel, fuel <= k -> run_forever net serial token envs exits fuel n a = (n + fuel, Running)) /\
    (exits (n + k) = true -> forall fuel, k < fuel -> run_forever net serial token envs exits fuel n a = (S (n + k), Returned)).
Proof. exact polls_until_exit. Qed.
Print Assumptions C69_until_exit_partial.
(** urlopen and check_output have no time limit *)
Theorem C69_silent_server_refuted : forall serial token e, e_tags e = TagError -> snd (poll (fun _ => Silent) serial token e (agent0 (e_now e))) = RHang.
Proof. exact silent_hangs. Qed.
Print Assumptions C69_silent_server_refuted.
Theorem C69_endless_script_refuted : forall net serial token e a, e_tags e = TagHang -> snd (poll net serial token e a) = RHang.
Proof. exact script_hangs. Qed.
Print Assumptions C69_endless_script_refuted.
(** The disk raises, the tag script raises, the metadata raises; the server is away *)
Example C69_case :
  let bad := Env 0 None (TagRaise EOS) (T "") None in
  poll (fun _ => Unreachable) serial1 token1 bad (agent0 0) =
    (Agent (World 1 [JArr [check_auth serial1 token1 [(T "sync_id", JStr [])]]]) 3600 None false, ROk tt) /\
  run_forever (fun _ => Unreachable) serial1 token1 (fun _ => bad) (fun n => (n =? 4)%nat) 9 0 (agent0 0) = (5, Returned).
Proof. vm_compute. auto. Qed.

(** ** C70 *)
(** [features]: the set constants.M2M_FEATURES in any order; URLs without fragment *)
Theorem C70_query_partial : forall configured default features, Permutation features [T "scan"; T "downloads"] ->
  let u := used_url configured default in let v := m2m_url configured default features in clean u ->
  (exists rest, v = u ++ rest) /\ (query u <> None -> v = u) /\
  (query u = None -> query v = Some (T "features=scan,downloads") \/ query v = Some (T "features=downloads,scan")).
Proof. exact url_features. Qed.
Print Assumptions C70_query_partial.
(** Whatever the URL, it is kept as prefix *)
Theorem C70_prefix_partial : forall configured default features, exists rest, m2m_url configured default features = used_url configured default ++ rest.
Proof. exact url_prefix. Qed.
Print Assumptions C70_prefix_partial.
(** A fragment swallows the feature list *)
Theorem C70_fragment_refuted : exists u, forall features, query (m2m_url (Some u) [] features) = None.
Proof. exists (T "wss://example.com/m2m/#x"). intros features. vm_compute. reflexivity. Qed.
Print Assumptions C70_fragment_refuted.
Example C70_case :
  m2m_url (Some (T "ws://h/m2m/")) (T "d") [T "downloads"; T "scan"] = T "ws://h/m2m/?features=downloads,scan" /\
  m2m_url (Some (T "ws://h/m2m/?x=1")) (T "d") [T "downloads"; T "scan"] = T "ws://h/m2m/?x=1" /\
  query (T "ws://h/m2m/?x=1#f") = Some (T "x=1") /\
  m2m_url (Some []) (T "wss://d/") [T "downloads"; T "scan"] = T "wss://d/?features=downloads,scan" /\
  m2m_url None (T "wss://d/") [T "downloads"; T "scan"] = T "wss://d/?features=downloads,scan".
Proof. vm_compute. auto 10. Qed.

(** ** C83 *)
Theorem C83_returned_iff_acknowledged : forall net serial token i a id, token <> JNull ->
  snd (set_m2m_identity net serial token i a) = ROk (Some id) <->
  i = Some id /\ (exists t, utf8_decode id = Some t) /\
  acknowledged "authenticate_result" (net (length (w_sent (g_world a)))) /\ acknowledged "associate_result" (net (length (w_sent (g_world a)))).
Proof. exact identity_acknowledged. Qed.
Print Assumptions C83_returned_iff_acknowledged.
Theorem C83_sends : forall net serial token i a, token <> JNull -> forall id t, i = Some id -> utf8_decode id = Some t ->
  w_sent (g_world (fst (set_m2m_identity net serial token i a))) = identity_request serial token t :: w_sent (g_world a).
Proof. exact identity_sent. Qed.
Print Assumptions C83_sends.
Theorem C83_sends_nothing_else : forall net serial token i a, token = JNull \/ (forall id, i = Some id -> utf8_decode id = None) ->
  set_m2m_identity net serial token i a = (a, ROk None).
Proof. exact identity_unsent. Qed.
Print Assumptions C83_sends_nothing_else.
Theorem C83_never_raises : forall net serial token i a e, snd (set_m2m_identity net serial token i a) <> RRaise e.
Proof. exact identity_no_raise. Qed.
Print Assumptions C83_never_raises.
Example C83_case :
  let two := acks ["authenticate_result"; "associate_result"]%string in
  set_m2m_identity (fun _ => two) serial1 token1 (Some (B "id9")) (agent0 0) =
    (Agent (World 1 [identity_request serial1 token1 (T "id9")]) 0 None false, ROk (Some (B "id9"))) /\
  snd (set_m2m_identity (fun _ => acks ["associate_result"%string]) serial1 token1 (Some (B "id9")) (agent0 0)) = ROk None /\
  set_m2m_identity (fun _ => two) serial1 token1 None (agent0 0) = (agent0 0, ROk None) /\
  set_m2m_identity (fun _ => two) serial1 JNull (Some (B "id9")) (agent0 0) = (agent0 0, ROk None).
Proof. vm_compute. auto 10. Qed.

(** ** C89 *)
Theorem C89_no_script : Model_Tools.get_tag_list Model_Tools.Absent = TagList [] /\ Model_Tools.get_tag_list Model_Tools.CannotRun = TagList [] /\
  forall l, Model_Tools.get_tag_list Model_Tools.Fails <> TagList l.
Proof. repeat split. discriminate. Qed.
Print Assumptions C89_no_script.
(** While the script fails nothing happens; a list that was accepted before is not sent again afterwards. *)
Theorem C89_failing_script : forall net serial token t0 l a n, a = grun net serial token l (agent0 t0) ->
  grun net serial token (repeat (GTags (Model_Tools.get_tag_list Model_Tools.Fails)) n) a = a /\
  forall tags, last_accepted net (w_sent (g_world a)) (Some (JArr (map JStr tags))) ->
    w_sent (g_world (grun net serial token (repeat (GTags (Model_Tools.get_tag_list Model_Tools.Fails)) n ++ [GTags (TagList tags)]) a)) = w_sent (g_world a).
Proof. exact failing_script. Qed.
Print Assumptions C89_failing_script.
(** When the script goes away the empty list is sent, until it is accepted. *)
Theorem C89_script_removed : forall net serial token t0 l a, a = grun net serial token l (agent0 t0) ->
  ~ last_accepted net (w_sent (g_world a)) (Some (JArr [])) ->
  w_sent (g_world (gstep net serial token a (GTags (Model_Tools.get_tag_list Model_Tools.Absent)))) = tags_request serial token [] :: w_sent (g_world a).
Proof. exact script_removed. Qed.
Print Assumptions C89_script_removed.
(** Accepted, the script fails twice, the same list again, the script is removed *)
Example C89_case :
  let net := fun _ => acks ["set_machine_defined_tags_result"%string] in
  let x := Model_Tools.get_tag_list (Model_Tools.Prints (B "a b")) in
  let f := Model_Tools.get_tag_list Model_Tools.Fails in
  w_sent (g_world (grun net serial1 token1 [GTags x; GTags f; GTags f; GTags x; GTags (Model_Tools.get_tag_list Model_Tools.Absent)] (agent0 0))) =
    [tags_request serial1 token1 []; tags_request serial1 token1 [T "a"; T "b"]] /\
  last_accepted net (w_sent (g_world (grun net serial1 token1 [GTags x] (agent0 0)))) (Some (JArr (map JStr [T "a"; T "b"]))).
Proof.
  cbn zeta. split; [vm_compute; reflexivity|].
  match goal with |- last_accepted _ ?w _ => replace w with [tags_request serial1 token1 [T "a"; T "b"]] by (vm_compute; reflexivity) end.
  apply LA_accepted; [reflexivity|]. apply acks_acknowledge. now left.
Qed.

(** ** C90 *)
(** Unless something hangs (see C69) a poll is a disk poll, a tag poll and a sync, whatever they come to. *)
Theorem C90_all_three : forall net serial token e a, snd (poll net serial token e a) <> RHang ->
  fst (poll net serial token e a) = grun net serial token [GDisk (e_now e) (e_disk e); GTags (e_tags e); GSync (e_sync_id e) (e_meta e)] a.
Proof. exact poll_does. Qed.
Print Assumptions C90_all_three.
(** So every poll adds what C66-C68 say: here for a new agent and a server that cannot be reached. *)
Theorem C90_first_poll : forall serial token e total used tags m, e_disk e = Some (total, used) -> e_tags e = TagList tags -> e_meta e = Some m ->
  w_sent (g_world (fst (poll (fun _ => Unreachable) serial token e (agent0 (e_now e))))) =
    [sync_request serial token (e_sync_id e) m; tags_request serial token tags; disk_request serial token total used].
Proof. exact first_poll. Qed.
Print Assumptions C90_first_poll.
(** The disk fails, the script fails: the metadata are sent; the server refuses everything but the metadata *)
Example C90_case :
  let e := Env 0 None (TagRaise EOS) (T "q") (Some meta1) in
  let r := poll (fun _ => acks all_ids) serial1 token1 e (agent0 0) in
  snd r <> RHang /\ w_sent (g_world (fst r)) = [sync_request serial1 token1 (T "q") meta1] /\ g_sent_meta (fst r) = true.
Proof. cbn zeta. split; [vm_compute; discriminate|]. vm_compute. auto. Qed.

(** ** C137 *)
(** Every request, in any history, is a list of calls the first of which authenticates. *)
Theorem C137_authenticates : forall net serial token t0 l r, In r (w_sent (g_world (grun net serial token l (agent0 t0)))) ->
  exists extra rest, r = JArr (check_auth serial token extra :: rest).
Proof. exact authenticates. Qed.
Print Assumptions C137_authenticates.
(** With other credentials and the same answers the same history leads to the same state and to the same requests but for
    the credentials in that first call. A token that is None, which [Client] never has, tells nothing either but that it is None. *)
Theorem C137_nothing_else : forall net s1 t1 s2 t2 t0 l, (t1 = JNull <-> t2 = JNull) ->
  alike s1 t1 s2 t2 (grun net s1 t1 l (agent0 t0)) (grun net s2 t2 l (agent0 t0)).
Proof. exact grun_rel. Qed.
Print Assumptions C137_nothing_else.
(** ... and polls and announcements of identities come to the same. *)
Theorem C137_answers : forall net s1 t1 s2 t2 t0 l a1 a2, (t1 = JNull <-> t2 = JNull) ->
  a1 = grun net s1 t1 l (agent0 t0) -> a2 = grun net s2 t2 l (agent0 t0) ->
  (forall e, snd (poll net s1 t1 e a1) = snd (poll net s2 t2 e a2)) /\
  (forall i, snd (set_m2m_identity net s1 t1 i a1) = snd (set_m2m_identity net s2 t2 i a2)).
Proof. exact answers_rel. Qed.
Print Assumptions C137_answers.
(** A sync, a report of the disk and an identity, with two tokens *)
Example C137_case :
  let h t := grun (fun _ => acks all_ids) serial1 (JStr (T t)) [GSync (T "q") (Some meta1); GDisk 0 (Some (2, 1)%Z); GIdentity (Some (B "i"))] (agent0 0) in
  length (w_sent (g_world (h "t"%string))) = 3 /\ g_sent_meta (h "t"%string) = true /\ w_sent (g_world (h "t"%string)) <> w_sent (g_world (h "u"%string)).
Proof. cbn zeta. split; [vm_compute; reflexivity|]. split; [vm_compute; reflexivity|]. vm_compute. discriminate. Qed.
