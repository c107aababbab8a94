(** * Properties C13-C15, C17-C25, C32, C79: the websocket client
      (dataplicity/m2m/wsclient.py, dispatcher.py, echoservice.py) *)
From Verif Require Import Py Model_Bencode Spec_Bencode Model_Packets Spec_Packets Proof_Packets Model_Client Spec_Client
  Proof_Client Proof_Client3 Proof_Client4 Proof_Client5 Proof_Client6 Proof_Client7 Proof_Client8.

(** A peer that only listens, for the examples. *)
Definition calm_env : list effect -> effect -> list (op * bool) * option exn := fun _ _ => ([], None).
Definition no_text : list effect -> text := fun _ => [].
Definition session (l : list input) : option state := run calm_env no_text l (init_state None).
Definition msg (s : string) : input := InEvent (EvBinary (B s)).

(** C13. A packet accepted by its class is resolved to the handler documented for its
    type, with the values in declared order and of the declared types. *)
Theorem C13_packet_reaches_its_handler : forall t body p, create t body [] = Ok p ->
  (forall h, In (t, h) handler_table ->
     resolve t body = Ok (Some (h, map snd (pk_attrs p))) /\ Forall2 typed (map snd (pk_attrs p)) (handler_types h)) /\
  (~ In t (map fst handler_table) -> resolve t body = Ok None).
Proof. exact c13. Qed.
Print Assumptions C13_packet_reaches_its_handler.
(** Receiving the message is running that handler once. *)
Theorem C13_message_runs_handler_once : forall env error_text m t h vs st,
  carries m t vs -> In (t, h) handler_table -> Forall2 typed vs (handler_types h) ->
  on_binary env error_text m st = run_handler env error_text h vs st.
Proof. exact c13_message. Qed.
Print Assumptions C13_message_runs_handler_once.
(** Messages for the manager and the remote directory become one call each, with the
    values in order; what follows are only packets sent and reads made meanwhile. *)
Theorem C13_message_makes_its_call : forall env error_text m t vs e st st' r,
  carries m t vs -> asks t vs e -> step env error_text (InEvent (EvBinary m)) st = (st', r) ->
  exists rest, adds st st' (e :: rest) /\ Forall incidental rest.
Proof. exact c13_calls. Qed.
Print Assumptions C13_message_makes_its_call.
(** A failing scan is reported with the text of the error. *)
Theorem C13_failed_scan_is_reported : forall env error_text m e u st st' r,
  carries m 29 [] -> env (st_trace st) RdScan = ([], Some e) -> utf8_encode (error_text (RdScan :: st_trace st)) = Some u -> short u ->
  step env error_text (InEvent (EvBinary m)) st = (st', r) ->
  exists b, adds st st' [RdScan; Sent b] /\ understood b "ScanRemoteDirectoryResult" [("error"%string, VBytes u)].
Proof. exact c13_scan_error. Qed.
Print Assumptions C13_failed_scan_is_reported.
(** null, welcome and log change nothing, notify_login_success only the user. *)
Theorem C13_informing_messages : forall env error_text m t vs st st' r,
  carries m t vs -> t = 0%Z /\ vs = [] \/ t = 3%Z /\ vs = [] \/ t = 4%Z /\ (exists x, vs = [VBytes x]) ->
  step env error_text (InEvent (EvBinary m)) st = (st', r) -> st' = st.
Proof. exact c13_silent. Qed.
Print Assumptions C13_informing_messages.
Theorem C13_login_sets_user : forall env error_text m u st st' r,
  carries m 17 [VBytes u] -> step env error_text (InEvent (EvBinary m)) st = (st', r) -> st' = with_user (Some (VBytes u)) st.
Proof. exact c13_login. Qed.
Print Assumptions C13_login_sets_user.
Example C13_call_case : carries (B "li27e2:idi10ei5ee") 27 [VBytes (B "id"); VInt 10; VInt 5]
  /\ asks 27 [VBytes (B "id"); VInt 10; VInt 5] (RdRead (VBytes (B "id")) (VInt 10) (VInt 5))
  /\ exists st, run (fun _ e => match e with RdScan => ([], Some EOS) | _ => ([], None) end) (fun _ => T "gone")
       [msg "li27e2:idi10ei5ee"; msg "li29ee"; msg "li17e2:mee"] (init_state None) = Some st
     /\ history st = [RdRead (VBytes (B "id")) (VInt 10) (VInt 5); RdScan; Sent (B "li30e4:gonee")] /\ st_user st = Some (VBytes (B "me")).
Proof. split; [exists []; reflexivity|]. split; [constructor|]. eexists. split; [vm_compute; reflexivity|]. split; reflexivity. Qed.
Example C13_case : carries (B "li6ei5e2:hie") 6 [VInt 5; VBytes (B "hi")] /\ In (6%Z, HRoute) handler_table
  /\ Forall2 typed [VInt 5; VBytes (B "hi")] (handler_types HRoute)
  /\ create 6 [VInt 5; VBytes (B "hi")] [] = Ok (Packet (PClass "RoutePacket" 6 [("channel"%string, AInt); ("data"%string, ABytes)])
       [("channel"%string, VInt 5); ("data"%string, VBytes (B "hi"))]).
Proof. split; [exists []; reflexivity|]. split; [cbn; auto 6|]. split; [repeat constructor|reflexivity]. Qed.

(** C14 as stated is false: the message "5" makes the receive loop hang. *)
Theorem C14_receive_loop_hangs_refuted : exists m, forall env error_text l st,
  snd (receive_loop env error_text (EvBinary m :: l) st) = Hang.
Proof. exact (ex_intro _ (B "5") (fun _ _ _ _ => eq_refl)). Qed.
Print Assumptions C14_receive_loop_hangs_refuted.
(** The part that holds: no exception leaves the loop, and it hangs exactly on messages
    that hang the decoder. *)
Theorem C14_loop_never_raises_partial : forall env error_text l st st' r,
  receive_loop env error_text l st = (st', r) ->
  (forall e, r <> Raise e) /\ (r = Hang <-> exists m, In (EvBinary m) l /\ stuck m).
Proof. exact c14_loop. Qed.
Print Assumptions C14_loop_never_raises_partial.
Theorem C14_unusable_message_leaves_no_trace_partial : forall env error_text m l1 l2 st, unusable m ->
  run env error_text (l1 ++ InEvent (EvBinary m) :: l2) st = run env error_text (l1 ++ l2) st.
Proof. exact c14_as_if. Qed.
Print Assumptions C14_unusable_message_leaves_no_trace_partial.
Example C14_case : unusable (B "li77ee") /\ decode (B "li77ee") = Ok (VList [VInt 77]).
Proof.
  split; [|reflexivity]. split.
  - intros H. apply Proof_Bencode.decode_stuck in H. discriminate.
  - intros t body p H. inversion H as [t' b' Hd Hin|x r Hd Hin]; subst; [|discriminate Hd].
    injection Hd as <- <-. apply is_packet_type_in in Hin. discriminate Hin.
Qed.

(** C15 as stated is false: a bencoded byte string whose first byte is a packet type
    is dispatched too. *)
Theorem C15_only_lists_refuted : exists m b, decode m = Ok (VBytes b) /\
  exists st, session [InEvent (EvBinary m)] = Some st /\ registered st 5 <> None.
Proof.
  refine (ex_intro _ (B "2:" ++ ["014"; "005"]%byte) (ex_intro _ ["014"; "005"]%byte (conj eq_refl _))).
  eexists. split; [vm_compute; reflexivity|discriminate].
Qed.
Print Assumptions C15_only_lists_refuted.
Theorem C15_only_announced_packets_act_partial : forall env error_text m st st' r,
  step env error_text (InEvent (EvBinary m)) st = (st', r) -> st' <> st -> exists t body, announces m t body.
Proof. exact c15. Qed.
Print Assumptions C15_only_announced_packets_act_partial.
Example C15_case : exists st, session [msg "li14ei5ee"] = Some st /\ st <> init_state None /\ announces (B "li14ei5ee") 14 [VInt 5].
Proof. eexists. split; [vm_compute; reflexivity|]. split; [discriminate|]. apply ann_list; [reflexivity|]. vm_compute. tauto. Qed.

(** C17. Read bytes followed by buffered bytes are the bytes that arrived. *)
Theorem C17_read_stream_fidelity : forall env error_text l u st o c,
  run env error_text l (init_state u) = Some st -> chan_of st o = Some c ->
  concat (map (read_data o) (history st)) ++ concat (ch_deque c) = concat (map (buffered_data o) (history st)).
Proof. exact c17. Qed.
Print Assumptions C17_read_stream_fidelity.
Example C17_case : exists st c, session [msg "li6ei5e5:helloe"; InOp (OpRead 0 2); msg "li6ei5e1:!e"; InOp (OpRead 0 3)] = Some st
  /\ chan_of st 0 = Some c /\ map (read_data 0) (history st) = [[]; B "he"; []; B "llo"] /\ ch_deque c = [B "!"].
Proof. eexists. eexists. split; [vm_compute; reflexivity|]. repeat split. Qed.

(** C18. [read(count)] returns the first min(count, size) bytes and leaves the rest. *)
Theorem C18_read_returns_min : forall c n d c', (0 <= n)%Z -> chan_read n c = (d, c') ->
  d = firstn (Z.to_nat n) (concat (ch_deque c)) /\ concat (ch_deque c') = skipn (Z.to_nat n) (concat (ch_deque c)) /\
  Z.of_nat (length d) = Z.min n (Z.of_nat (chan_size c)) /\ chan_size c' = chan_size c - length d.
Proof. exact c18. Qed.
Print Assumptions C18_read_returns_min.
Example C18_case : fst (chan_read 3 (chan_push (B "cd") (chan_push (B "ab") (new_chan 1)))) = B "abc".
Proof. reflexivity. Qed.

(** C19 as stated is false: after an empty data message the channel is truthy although
    nothing can be read. *)
Theorem C19_readiness_exact_refuted : exists st c, session [msg "li6ei5e0:e"] = Some st /\ chan_of st 0 = Some c /\
  chan_ready c = true /\ chan_size c = 0.
Proof. eexists. eexists. split; [vm_compute; reflexivity|]. repeat split. Qed.
Print Assumptions C19_readiness_exact_refuted.
(** The part that holds: truthy exactly when a message is queued, hence exactly when
    there is data unless empty messages arrive. *)
Theorem C19_ready_iff_queued_partial : forall env error_text l u st o c,
  run env error_text l (init_state u) = Some st -> chan_of st o = Some c ->
  (chan_ready c = true <-> ch_deque c <> []) /\
  ((forall d, In (Buffered o d) (history st) -> d <> []) -> (chan_ready c = true <-> 0 < chan_size c)).
Proof. exact c19. Qed.
Print Assumptions C19_ready_iff_queued_partial.
Example C19_case : exists st c, session [msg "li6ei5e2:hie"; InOp (OpRead 0 2)] = Some st /\ chan_of st 0 = Some c /\ chan_ready c = false.
Proof. eexists. eexists. split; [vm_compute; reflexivity|]. repeat split. Qed.

(** C20. A closed channel object stays closed and silent whatever happens. *)
Theorem C20_closed_channel_silent : forall env error_text l st st' o, object_closed st o -> run env error_text l st = Some st' ->
  object_closed st' o /\ exists new, adds st st' new /\ Forall (fun e => ~ touches o e) new.
Proof. exact c20. Qed.
Print Assumptions C20_closed_channel_silent.
(** Writing, sending a control packet or closing through it sends nothing. *)
Theorem C20_closed_channel_sends_nothing : forall env st o p, object_closed st o ->
  (exists d, p = OpWrite o d) \/ (exists j, p = OpControl o j) \/ p = OpClose o -> do_op env p st = (st, Ok tt).
Proof. exact c20_ops. Qed.
Print Assumptions C20_closed_channel_sends_nothing.
Theorem C20_close_callback_at_most_once : forall env error_text l u st o,
  run env error_text l (init_state u) = Some st -> close_cbs o (history st) <= 1.
Proof. exact c20_once. Qed.
Print Assumptions C20_close_callback_at_most_once.
(** notify_close closes the object registered for the number and runs its close callback
    if it was open and has one. *)
Theorem C20_notify_close_closes : forall env error_text m n o c st st' r,
  is_notify_close m n -> registered st n = Some o -> chan_of st o = Some c ->
  step env error_text (InEvent (EvBinary m)) st = (st', r) ->
  object_closed st' o /\
  match ch_closed c, ch_close_cb c with
  | false, Some k => exists rest, adds st st' (CloseCb k o :: rest) /\ Forall incidental rest
  | _, _ => history st' = history st
  end.
Proof. exact c20_notify_close. Qed.
Print Assumptions C20_notify_close_closes.
(** A dropped connection closes every registered object, unless a callback opens a
    channel meanwhile. *)
Theorem C20_drop_closes_all : forall env error_text, never_opens env -> forall st st' r n o c,
  registered st n = Some o -> chan_of st o = Some c -> step env error_text (InEvent EvDisconnected) st = (st', r) -> object_closed st' o.
Proof. exact c20_drop. Qed.
Print Assumptions C20_drop_closes_all.
Example C20_close_case : never_opens calm_env /\
  exists st, session [msg "li14ei5ee"; msg "li14ei6ee"; InOp (OpSetCbs 0 (Some 1) (Some 2) None); InEvent EvDisconnected] = Some st
  /\ object_closed st 0 /\ object_closed st 1 /\ history st = [CloseCb 2 0].
Proof.
  split; [intros tr e n s []|]. eexists. split; [vm_compute; reflexivity|].
  split; [eexists; split; reflexivity|]. split; [eexists; split; reflexivity|reflexivity].
Qed.
Example C20_case : exists st, session [msg "li14ei5ee"; InOp (OpSetCbs 0 (Some 1) (Some 2) None); msg "li19ei5ee"; msg "li6ei5e2:hie"; InEvent EvDisconnected] = Some st
  /\ object_closed st 0 /\ close_cbs 0 (history st) = 1 /\ In (Buffered 1 (B "hi")) (history st).
Proof. eexists. split; [vm_compute; reflexivity|]. split; [eexists; split; reflexivity|]. split; [reflexivity|]. cbn. auto. Qed.

(** C21. Routed data goes to the object registered for the number (made if there is
    none) and nowhere else; anything else delivers nothing. *)
Theorem C21_routed_to_registered_object : forall env error_text l u i n d st st' r,
  run env error_text l (init_state u) = Some st -> route_of i = Some (n, d) -> step env error_text i st = (st', r) ->
  exists new, adds st st' new /\
    match registered st n with
    | Some o => exists c, chan_of st o = Some c /\ ch_no c = n /\ deliveries new = (if ch_closed c then [] else [(o, d)])
    | None => registered st' n = Some (length (st_heap st)) /\ deliveries new = [(length (st_heap st), d)]
    end.
Proof. exact (fun env error_text l u i n d st st' r H Hr => c21_step env error_text i n d st st' r Hr (run_numbered env error_text l u st H)). Qed.
Print Assumptions C21_routed_to_registered_object.
Theorem C21_nothing_else_delivers : forall env error_text i st st' r, step env error_text i st = (st', r) -> route_of i = None ->
  exists new, adds st st' new /\ deliveries new = [].
Proof. exact no_delivery_step. Qed.
Print Assumptions C21_nothing_else_delivers.
(** Over a session: what objects numbered [n] got are payloads routed to [n], in order. *)
Theorem C21_arrival_order : forall env error_text n l u st, run env error_text l (init_state u) = Some st ->
  sublist (delivered n st) (routed n l).
Proof. exact c21_history. Qed.
Print Assumptions C21_arrival_order.
(** Nothing is lost while the connection does not drop. *)
Theorem C21_all_delivered : forall env error_text n l u st, no_disconnect l -> run env error_text l (init_state u) = Some st ->
  delivered n st = routed n l.
Proof. exact c21_complete. Qed.
Print Assumptions C21_all_delivered.
Theorem C21_written_with_own_number : forall env error_text o c d st st' r,
  chan_of st o = Some c -> ch_closed c = false -> short d -> step env error_text (InOp (OpWrite o d)) st = (st', r) ->
  exists b, adds st st' [Sent b] /\ data_message b (ch_no c) d.
Proof. exact c21_write. Qed.
Print Assumptions C21_written_with_own_number.
(** Control data goes to the control callback of the open channel of that number; without
    callback, or if it is closed, nothing happens. *)
Theorem C21_control_to_registered_object : forall env error_text m n d o c st st' r,
  is_control m n d -> registered st n = Some o -> chan_of st o = Some c -> step env error_text (InEvent (EvBinary m)) st = (st', r) ->
  match ch_closed c, ch_ctl_cb c with
  | false, Some k => exists rest, adds st st' (CtlCb k o d :: rest) /\ Forall incidental rest
  | _, _ => st' = st
  end.
Proof. exact c21_control_in. Qed.
Print Assumptions C21_control_to_registered_object.
(** Control data and close requests carry the channel's own number. *)
Theorem C21_control_sent_with_own_number : forall env error_text o c j d st st' r,
  chan_of st o = Some c -> ch_closed c = false -> utf8_encode j = Some d -> short d ->
  step env error_text (InOp (OpControl o j)) st = (st', r) ->
  exists b, adds st st' [Sent b] /\ understood b "RequestSendControlPacket" [("channel"%string, VInt (ch_no c)); ("data"%string, VBytes d)].
Proof. exact c21_control. Qed.
Print Assumptions C21_control_sent_with_own_number.
Theorem C21_close_requested_with_own_number : forall env error_text o c st st' r,
  chan_of st o = Some c -> ch_closed c = false -> step env error_text (InOp (OpClose o)) st = (st', r) ->
  exists b, adds st st' [Sent b] /\ understood b "RequestClosePacket" [("port"%string, VInt (ch_no c))].
Proof. exact c21_close. Qed.
Print Assumptions C21_close_requested_with_own_number.
Example C21_control_case : is_control (B "li21ei5e2:hie") 5 (B "hi") /\
  exists st, session [msg "li14ei5ee"; InOp (OpSetCbs 0 None None (Some 4)); msg "li21ei5e2:hie"; InOp (OpControl 0 (T "{}")); InOp (OpClose 0)] = Some st
  /\ history st = [CtlCb 4 0 (B "hi"); Sent (B "li22ei5e2:{}e"); Sent (B "li11ei5ee")].
Proof. split; [exists []; reflexivity|]. eexists. split; [vm_compute; reflexivity|reflexivity]. Qed.
Example C21_case : exists st, session [msg "li6ei5e2:abe"; msg "li6ei7e2:xye"; msg "li6ei5e2:cde"; InOp (OpWrite 1 (B "z"))] = Some st
  /\ delivered 5 st = [B "ab"; B "cd"] /\ delivered 7 st = [B "xy"] /\ In (Sent (B "li5ei7e1:ze")) (history st).
Proof. eexists. split; [vm_compute; reflexivity|]. split; [reflexivity|]. split; [reflexivity|]. cbn. auto. Qed.

(** C22 as stated is false: after the connection dropped, the same number leads to the
    old, closed channel. *)
Theorem C22_reopen_after_drop_refuted : exists st, session [msg "li14ei5ee"; InEvent EvDisconnected; InEvent EvReady; msg "li14ei5ee"] = Some st /\
  exists o, registered st 5 = Some o /\ object_closed st o.
Proof. eexists. split; [vm_compute; reflexivity|]. eexists. split; [reflexivity|]. eexists. split; reflexivity. Qed.
Print Assumptions C22_reopen_after_drop_refuted.
(** The part that holds: after notify_close the number is free, and opening a free
    number gives an open, empty channel without callbacks. *)
Theorem C22_closed_number_is_free_partial : forall env error_text l u st m n st' r,
  run env error_text l (init_state u) = Some st -> is_notify_close m n ->
  step env error_text (InEvent (EvBinary m)) st = (st', r) -> registered st' n = None.
Proof. exact c22_closed. Qed.
Print Assumptions C22_closed_number_is_free_partial.
Theorem C22_free_number_opens_fresh_partial : forall env error_text n i st st' r, registered st n = None ->
  i = InOp (OpOpen n) \/ (exists m, i = InEvent (EvBinary m) /\ is_open m n) -> step env error_text i st = (st', r) ->
  registered st' n = Some (length (st_heap st)) /\ exists c, chan_of st' (length (st_heap st)) = Some c /\ fresh_channel c n.
Proof. exact c22_fresh. Qed.
Print Assumptions C22_free_number_opens_fresh_partial.
Example C22_case : is_notify_close (B "li19ei5ee") 5 /\ is_open (B "li14ei5ee") 5 /\
  exists st, session [msg "li14ei5ee"; msg "li19ei5ee"; msg "li14ei5ee"] = Some st /\ registered st 5 = Some 1.
Proof. split; [exists []; reflexivity|]. split; [exists []; reflexivity|]. eexists. split; [vm_compute; reflexivity|reflexivity]. Qed.

(** C23 as stated is false: after a dropped connection the callbacks stay registered
    and run again. *)
Theorem C23_once_across_drops_refuted : exists st, session [InAddCb 1 7; InEvent EvDisconnected; InEvent EvDisconnected] = Some st /\
  cmd_runs 7 (history st) = 2.
Proof. eexists. split; [vm_compute; reflexivity|reflexivity]. Qed.
Print Assumptions C23_once_across_drops_refuted.
Theorem C23_once_without_drops_partial : forall env error_text k l u st, no_disconnect l -> NoDup (added l) ->
  run env error_text l (init_state u) = Some st -> cmd_runs k (history st) <= 1.
Proof. exact c23_once. Qed.
Print Assumptions C23_once_without_drops_partial.
(** A response runs all callbacks pending for its id with its result, in order, whatever
    they raise, and removes them. *)
Theorem C23_response_runs_all_partial : forall env error_text m cmd d st st' r ks,
  is_response m cmd d -> dict_get Z.eqb cmd (st_cbs st) = Some ks -> step env error_text (InEvent (EvBinary m)) st = (st', r) ->
  st_cbs st' = dict_del Z.eqb cmd (st_cbs st) /\
  exists new, adds st st' new /\ filter is_cmd new = map (fun k => CmdCb k cmd (Some (VDict d))) ks.
Proof. exact c23_response. Qed.
Print Assumptions C23_response_runs_all_partial.
(** A dropped connection runs all pending callbacks with None. *)
Theorem C23_drop_runs_all_partial : forall env error_text st st' r, step env error_text (InEvent EvDisconnected) st = (st', r) ->
  exists new, adds st st' new /\ filter is_cmd new = flat_map (fun p => map (fun k => CmdCb k (fst p) None) (snd p)) (st_cbs st).
Proof. exact c23_disconnect. Qed.
Print Assumptions C23_drop_runs_all_partial.
Definition failing_env : list effect -> effect -> list (op * bool) * option exn :=
  fun _ e => match e with CmdCb 7 _ _ => ([], Some EOther) | _ => ([], None) end.
Example C23_case : exists st, run failing_env no_text [InAddCb 1 7; InAddCb 1 8; msg "li100ei1edee"] (init_state None) = Some st
  /\ history st = [CmdCb 7 1 (Some (VDict [])); CmdCb 8 1 (Some (VDict []))] /\ st_cbs st = [].
Proof. eexists. split; [vm_compute; reflexivity|]. split; reflexivity. Qed.

(** C24. A ping is answered by one pong with the first 1024 bytes, and nothing else. *)
Theorem C24_ping_pong : forall env error_text m d st st' r, is_ping m d -> step env error_text (InEvent (EvBinary m)) st = (st', r) ->
  exists b, adds st st' [Sent b] /\ understood b "PongPacket" [("data"%string, VBytes (firstn (Z.to_nat 1024) d))].
Proof. exact c24. Qed.
Print Assumptions C24_ping_pong.
Example C24_case : is_ping (B "li7e2:hie") (B "hi") /\ exists st, session [msg "li7e2:hie"] = Some st /\ history st = [Sent (B "li8e2:hie")].
Proof. split; [exists []; reflexivity|]. eexists. split; [vm_compute; reflexivity|reflexivity]. Qed.

(** C25. On "ready" exactly one packet is sent, according to the known identity. *)
Theorem C25_one_handshake_packet : forall env error_text st st' r, (forall i, st_ident st = Some i -> short i) ->
  step env error_text (InEvent EvReady) st = (st', r) ->
  exists b, adds st st' [Sent b] /\
    match st_ident st with
    | None => understood b "RequestJoinPacket" []
    | Some i => understood b "RequestIdentifyPacket" [("uuid"%string, VBytes i)]
    end.
Proof. exact c25_ready. Qed.
Print Assumptions C25_one_handshake_packet.
(** The identity after each input: forgotten by a drop, set by set_identity unless the
    client is closed, untouched by everything else. *)
Theorem C25_identity_rules : forall env error_text l u i st st' r, run env error_text l (init_state u) = Some st ->
  step env error_text i st = (st', r) ->
  st_ident st' = match i with
                 | InEvent EvDisconnected => None
                 | InEvent (EvBinary m) => match set_of m with
                                           | Some x => if st_closed st then st_ident st else Some x
                                           | None => st_ident st
                                           end
                 | InClose => match snd (env (st_trace st) WsClose) with None => None | Some _ => st_ident st end
                 | _ => st_ident st
                 end /\
  st_closed st' = match i with
                  | InClose => match snd (env (st_trace st) WsClose) with None => true | Some _ => st_closed st end
                  | _ => st_closed st
                  end.
Proof. exact (fun env error_text l u i st st' r H => c25_ident env error_text i st st' r (run_numbered env error_text l u st H)). Qed.
Print Assumptions C25_identity_rules.
(** The manager is told the identity when it is set, unless the client is closed, and on
    every poll. *)
Theorem C25_manager_told : forall env error_text m i st st' r, is_set_identity m i ->
  step env error_text (InEvent (EvBinary m)) st = (st', r) -> adds st st' (if st_closed st then [] else [SetIdent (Some i)]).
Proof. exact c25_told. Qed.
Print Assumptions C25_manager_told.
Theorem C25_manager_told_on_poll : forall env error_text st st' r,
  step env error_text (InEvent EvPoll) st = (st', r) -> adds st st' [SetIdent (st_ident st)].
Proof. exact c25_poll. Qed.
Print Assumptions C25_manager_told_on_poll.
Example C25_case : exists st, session [InEvent EvReady; msg "li9e3:abce"; InEvent EvReady; InEvent EvDisconnected; InEvent EvReady; InClose; msg "li9e3:xyze"] = Some st
  /\ history st = [Sent (B "li1ee"); SetIdent (Some (B "abc")); Sent (B "li2e3:abce"); Sent (B "li1ee"); WsClose] /\ st_ident st = None.
Proof. eexists. split; [vm_compute; reflexivity|]. split; reflexivity. Qed.

(** C32. Data routed to an open channel with an echo service is sent back, and nothing
    else is sent. *)
Theorem C32_echo_answers : forall env error_text k, echoes env k -> forall m n d st st' r o c,
  is_route m n d -> short d -> registered st n = Some o -> chan_of st o = Some c -> ch_no c = n ->
  ch_closed c = false -> ch_data_cb c = Some k -> step env error_text (InEvent (EvBinary m)) st = (st', r) ->
  exists b, adds st st' [DataCb k o d; Sent b] /\ data_message b n d.
Proof. exact c32_step. Qed.
Print Assumptions C32_echo_answers.
(** Over a session, each delivery to an echo service is directly followed by its answer
    on the same channel. *)
Theorem C32_echo_in_order : forall env error_text k, echoes env k -> forall l u st pre o d rest,
  (forall m, In (InEvent (EvBinary m)) l -> short m) -> run env error_text l (init_state u) = Some st ->
  history st = pre ++ DataCb k o d :: rest ->
  exists b post c, rest = Sent b :: post /\ chan_of st o = Some c /\ data_message b (ch_no c) d.
Proof. exact c32_history. Qed.
Print Assumptions C32_echo_in_order.
Definition echo_env : list effect -> effect -> list (op * bool) * option exn :=
  fun _ e => match e with DataCb 3 o d => ([(OpWrite o d, false)], None) | _ => ([], None) end.
Example C32_case : echoes echo_env 3 /\ exists st,
  run echo_env no_text [msg "li14ei5ee"; InOp (OpSetCbs 0 (Some 3) None None); msg "li6ei5e2:hie"] (init_state None) = Some st
  /\ history st = [DataCb 3 0 (B "hi"); Sent (B "li5ei5e2:hie")].
Proof. split; [intros tr o d; reflexivity|]. eexists. split; [vm_compute; reflexivity|reflexivity]. Qed.

(** C79 is false: whatever was received, the thread ends with AttributeError. *)
Theorem C79_thread_ends_cleanly_refuted : forall env error_text l st,
  (forall m, In (EvBinary m) l -> ~ stuck m) -> snd (thread_run env error_text l st) = Raise EAttr.
Proof. exact c79. Qed.
Print Assumptions C79_thread_ends_cleanly_refuted.
Example C79_case : ~ stuck (B "li14ei5ee").
Proof. intros H. apply Proof_Bencode.decode_stuck in H. discriminate. Qed.
