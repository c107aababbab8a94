(** * Property C132: a service keeps its channel until it is closed
      (dataplicity/m2mmanager.py, dataplicity/m2m/wsclient.py, remoteprocess.py, echoservice.py,
      dataplicity/portforward.py) *)
From Verif Require Import Py Model_Bencode Spec_Bencode Model_Limiter Model_Manager Model_Process Model_Client Spec_Client Spec_Early Spec_Outbound Spec_System
  Model_Relay Spec_Relay Model_Opening Spec_Opening Prop_Opening Spec_Takeover Proof_Takeover.
Local Open Scope nat_scope.

(** C132. As long as nobody replaces the callbacks of a channel object, they are those of the
    service that put them there.  Not if an instruction for the same channel number comes: see below. *)
Theorem C132_keeps_channel_partial : forall env et o kd kc c l st st', nobody_replaces env o -> perched st o kd kc c -> keeps_all o l -> run env et l st = Some st' ->
  exists c', chan_of st' o = Some c' /\ ch_no c' = ch_no c /\ ch_data_cb c' = Some kd /\ ch_close_cb c' = kc.
Proof. exact c132_kept. Qed.
Print Assumptions C132_keeps_channel_partial.
(** The first service on the channel gets the callbacks 1, 2, 3, later ones get 4, 5, 6. *)
Definition two_services (v : luck) : list effect -> effect -> list (op * bool) * option exn :=
  fun tr e => match e with
    | Instruction _ data =>
        if existsb (fun x => match x with Instruction _ _ => true | _ => false end) tr
        then manager_reply some_json (Cbs 4 5 6) default_manager v 0 data
        else manager_reply some_json some_cbs default_manager Starts 0 data
    | _ => ([], None)
    end.
(** A terminal on channel 7 gets a message. *)
Definition first_terminal : list input := fresh_start ++ [ask_terminal; wire "li6ei7e3:ls\e"].
Definition settled (v : luck) : state := match run (two_services v) (fun _ => []) first_terminal (init_state None) with Some st => st | None => init_state None end.
Lemma settled_run v : run (two_services v) (fun _ => []) first_terminal (init_state None) = Some (settled v).
Proof. destruct v; vm_compute; reflexivity. Qed.
Lemma settled_seated v : seated (settled v) 0 1 2 (match nth_error (st_heap (settled v)) 0 with Some c => c | None => new_chan 0 end).
Proof. split; [exists (two_services v), (fun _ => []), None, first_terminal; apply settled_run|]. repeat split; destruct v; vm_compute; reflexivity. Qed.
Lemma settled_obeys v i : obeys (two_services v) some_json (Cbs 4 5 6) default_manager v 7 (settled v) i.
Proof.
  intros s data _. replace (object_for 7 (settled v)) with 0 by (destruct v; vm_compute; reflexivity).
  assert (E : existsb (fun x => match x with Instruction _ _ => true | _ => false end) (st_trace (settled v)) = true) by (destruct v; vm_compute; reflexivity).
  unfold two_services. rewrite E. reflexivity.
Qed.
Definition C132_rest : list input := [wire "li6ei7e2:abe"; InOp (OpWrite 0 (B "x")); InEvent EvDisconnected; InEvent EvReady].
Example C132_keeps_case : exists c st', nobody_replaces nobody 0 /\ perched (settled Starts) 0 1 (Some 2) c /\ keeps_all 0 C132_rest /\
  run nobody (fun _ => []) C132_rest (settled Starts) = Some st' /\ In (DataCb 1 0 (B "ab")) (history st') /\ In (CloseCb 2 0) (history st').
Proof.
  eexists. eexists. split; [intros tr e; constructor|]. split; [apply settled_seated|].
  split; [intros p [E|[E|[E|[E|[]]]]]; inversion E; exact I|]. split; [vm_compute; reflexivity|]. split; vm_compute; auto 20.
Qed.

(** Other instructions for the number, and port forwards for which there is no slot, leave the
    channel as it is. *)
Theorem C132_undisturbed_partial : forall env et st i m d n v json ks o kd kc c st' r, registered st n = Some o -> perched st o kd kc c ->
  deed_for m i d -> on_channel n d -> ~ settles v d -> obeys env json ks m v n st i -> step env et i st = (st', r) -> chan_of st' o = Some c /\ registered st' n = Some o.
Proof. exact c132_undisturbed. Qed.
Print Assumptions C132_undisturbed_partial.
Example C132_undisturbed_case : exists c st' st2,
  perched (settled LimitFull) 0 1 (Some 2) c /\ registered (settled LimitFull) 7 = Some 0 /\
  deed_for default_manager ask_forward (Connect (T "127.0.0.1") (VInt 81) (VInt 7)) /\ ~ settles LimitFull (Connect (T "127.0.0.1") (VInt 81) (VInt 7)) /\
  obeys (two_services LimitFull) some_json (Cbs 4 5 6) default_manager LimitFull 7 (settled LimitFull) ask_forward /\
  step (two_services LimitFull) (fun _ => []) ask_forward (settled LimitFull) = (st', Ok tt) /\ heard 7 (history st') = [SData server_busy; SClose] /\
  ~ settles Starts (RunCommand (VInt 7) (VText (T "ls"))) /\ step (two_services Starts) (fun _ => []) ask_command (settled Starts) = (st2, Ok tt).
Proof.
  eexists. eexists. eexists. split; [apply settled_seated|]. split; [vm_compute; reflexivity|]. split; [apply asks_forward|].
  split; [intros H; inversion H; congruence|]. split; [apply settled_obeys|]. split; [vm_compute; reflexivity|]. split; [vm_compute; reflexivity|].
  split; [intros H; inversion H|vm_compute; reflexivity].
Qed.

(** After any session: an instruction that starts a terminal, an echo service or a port forward
    on a number whose open channel has a service leaves that channel open, and from then on the
    first service is by itself: no message and no closing of the channel reaches it, in no
    interleaving, whatever the services are. A terminal does this even when it is refused. *)
Theorem C132_taken_over_refuted : forall env et u l st i m d n v json ks o c kd kc st' r, run env et l (init_state u) = Some st -> registered st n = Some o -> perched st o kd kc c ->
  deed_for m i d -> on_channel n d -> settles v d -> obeys env json ks m v n st i -> for_data ks <> kd -> Some (for_close ks) <> kc -> step env et i st = (st', r) ->
  registered st' n = Some o /\ ~ object_closed st' o /\
  forall S X A busy on_data on_close act env' et' l' (s : S) st'' s'', never_back env' o kd kc -> @rest_never_back X A o kd kc l' ->
    move_run S X A busy on_data on_close act env' et' o kd kc l' (st', s) = Some (st'', s'') -> alone act s (own_steps l') s''.
Proof. exact c132_takeover. Qed.
Print Assumptions C132_taken_over_refuted.
(** So a terminal whose channel is taken over gets no input any more and is never told to hang
    up, not even when the channel is closed or the connection ends. *)
Theorem C132_deaf_terminal_refuted : forall env et u l st i m d n v json ks o c kd kc st' r, run env et l (init_state u) = Some st -> registered st n = Some o -> seated st o kd kc c ->
  deed_for m i d -> on_channel n d -> settles v d -> obeys env json ks m v n st i -> for_data ks <> kd -> for_close ks <> kc -> step env et i st = (st', r) ->
  ~ object_closed st' o /\
  forall env' et' limit l' p st'' p'', never_back env' o kd (Some kc) -> rest_never_back o kd (Some kc) l' -> Forall uncalled (own_steps l') -> waiters p = [] ->
    move_run pst term_os Model_Process.event term_busy term_data term_close (term_act limit) env' et' o kd (Some kc) l' (st', p) = Some (st'', p'') ->
    Model_Process.input p'' = Model_Process.input p /\ signals p'' = signals p.
Proof. exact c132_terminal. Qed.
Print Assumptions C132_deaf_terminal_refuted.
(** An echo service is started on the terminal's channel; the terminal goes on printing there,
    and outlives the channel. *)
Definition C132_before : list (@move term_os Model_Process.event) := [Own (Fork true); Own SetPid; Own (InitFd true); Rest (wire "li6ei7e3:ls\e") lets_write].
Definition C132_run : list (@move term_os Model_Process.event) :=
  [Rest (wire "li6ei7e2:abe") lets_write; Own (Prints (B "a b")); Own (Reads 3 false true); Rest (InOp (OpSetCbs 0 (Some 7) None None)) lets_write;
   Rest (wire "li19ei7ee") lets_write; Rest (InEvent EvDisconnected) lets_write; Own (Tick 1000)].
Example C132_case : exists st0 st' p st'' p'',
  run (two_services Starts) (fun _ => []) (fresh_start ++ [ask_terminal]) (init_state None) = Some st0 /\
  terminal_session nobody (fun _ => []) 0 1 2 100 C132_before st0 0 = Some (settled Starts, p) /\ Model_Process.input p = B "ls\" /\ waiters p = [] /\
  (exists c, seated (settled Starts) 0 1 2 c) /\ registered (settled Starts) 7 = Some 0 /\
  deed_for default_manager ask_echo (StartEcho (VInt 7)) /\ on_channel 7 (StartEcho (VInt 7)) /\ settles Starts (StartEcho (VInt 7)) /\
  obeys (two_services Starts) some_json (Cbs 4 5 6) default_manager Starts 7 (settled Starts) ask_echo /\
  step (two_services Starts) (fun _ => []) ask_echo (settled Starts) = (st', Ok tt) /\
  never_back nobody 0 1 (Some 2) /\ rest_never_back 0 1 (Some 2) C132_run /\ Forall uncalled (own_steps C132_run) /\
  move_run pst term_os Model_Process.event term_busy term_data term_close (term_act 100) nobody (fun _ => []) 0 1 (Some 2) C132_run (st', p) = Some (st'', p'') /\
  kid p'' = Running /\ Model_Process.input p'' = B "ls\" /\ signals p'' = [] /\ object_closed st'' 0 /\ heard 7 (history st'') = [SData (B "a b")].
Proof.
  eexists. eexists. eexists. eexists. eexists. split; [vm_compute; reflexivity|]. split; [vm_compute; reflexivity|]. split; [reflexivity|]. split; [reflexivity|].
  split; [eexists; apply settled_seated|]. split; [vm_compute; reflexivity|]. split; [apply asks_echo|]. split; [constructor|]. split; [constructor|]. split; [apply settled_obeys|].
  split; [vm_compute; reflexivity|]. split; [intros tr e p s []|].
  split; [intros p x [E|[E|[E|[E|[E|[E|[E|[]]]]]]]]; inversion E; cbn; intros _; split; [discriminate|now left]|].
  split; [repeat (constructor; [exact I|]); constructor|]. split; [vm_compute; reflexivity|]. split; [reflexivity|]. split; [reflexivity|]. split; [reflexivity|].
  split; [eexists; split; vm_compute; reflexivity|vm_compute; reflexivity].
Qed.
(** A second terminal that is refused takes the channel over as well. *)
Example C132_refused_case : exists st', settles LimitFull (LaunchTerminal (T "shell") (VInt 7) None) /\ deed_for default_manager ask_terminal (LaunchTerminal (T "shell") (VInt 7) None) /\
  obeys (two_services LimitFull) some_json (Cbs 4 5 6) default_manager LimitFull 7 (settled LimitFull) ask_terminal /\
  step (two_services LimitFull) (fun _ => []) ask_terminal (settled LimitFull) = (st', Ok tt) /\
  heard 7 (history st') = [SData (B "Failed to launch remote process" ++ NL); SClose] /\
  (exists c, chan_of st' 0 = Some c /\ ch_closed c = false /\ ch_data_cb c = Some 4 /\ ch_close_cb c = Some 5).
Proof.
  eexists. split; [constructor|]. split; [apply asks_terminal|]. split; [apply settled_obeys|]. split; [vm_compute; reflexivity|]. split; [vm_compute; reflexivity|].
  eexists. split; [vm_compute; reflexivity|]. auto.
Qed.
