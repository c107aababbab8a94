(** * Properties C110-C114 and C134: a port forward or a terminal, the client, and the peer of the channel
      (dataplicity/portforward.py, dataplicity/m2m/remoteprocess.py, dataplicity/m2m/proxy.py,
      dataplicity/m2m/wsclient.py) *)
From Verif Require Import Py Model_Process Spec_Process Model_Forward Spec_Forward Model_Client Spec_Client Spec_Early Spec_Outbound
  Model_Relay Spec_Relay Proof_Relay2 Proof_Relay3.

(** A client with two open channels, 7 and 8; the service uses the first. *)
Definition calm_env : list effect -> effect -> list (op * bool) * option exn :=
  fun tr e => match e with DataCb 5 _ _ => ([(OpWrite 1 (B "echo"), false)], None) | _ => ([], None) end.
Definition wired (s : string) : input := InEvent (EvBinary (B s)).
Definition seat_session : list input :=
  [wired "li14ei7ee"; wired "li14ei8ee"; InOp (OpSetCbs 1 (Some 5) None None); InOp (OpSetCbs 0 (Some 1) (Some 2) None)].
Definition seat_state : state := match run calm_env (fun _ => []) seat_session (init_state None) with Some st => st | None => init_state None end.
Definition seat_chan : chan := match chan_of seat_state 0 with Some c => c | None => new_chan 0 end.
Lemma seat_ok : respected calm_env 0 /\ seated seat_state 0 1 2 seat_chan /\ ch_no seat_chan = 7%Z.
Proof.
  split; [split|split; [|vm_compute; reflexivity]].
  - intros tr e p s H. destruct e; cbn in H; try tauto. destruct k as [|[|[|[|[|[|k]]]]]]; cbn in H; try tauto. destruct H as [[= <- _]|[]]. split; [exact I|discriminate].
  - intros tr e. destruct e; cbn; auto. destruct k as [|[|[|[|[|[|k]]]]]]; cbn; repeat constructor.
  - split; [exists calm_env, (fun _ => []), None, seat_session; vm_compute; reflexivity|]. vm_compute. auto.
Qed.

(** C110. In every interleaving of the connection's threads, the receiving thread and
    everything else, while the channel is open: the peer has heard exactly what was received
    from the local server, in non-empty pieces of at most [chunk] bytes, in order, and then at
    most one closing, which the end of the connection's thread says. *)
Theorem C110_stream_heard : forall env et o kd kc chunk l st c event stream st' t,
  (Z.of_nat chunk < 2 ^ 63)%Z -> respected env o -> seated st o kd kc c -> others o l ->
  forward_session env et o kd kc chunk l st event stream = Some (st', t) -> ~ object_closed st' o ->
  exists new ds cl, adds st st' new /\ heard (ch_no c) new = map SData ds ++ cl /\ concat ds ++ t_rest t = stream /\
    Forall (fun d : bytes => d <> [] /\ length d <= chunk) ds /\ (cl = [] \/ cl = [SClose] /\ t_loop t = LGone) /\
    (t_loop t = LGone -> ~ In (TLeave 0) (own_steps l) -> cl = [SClose]).
Proof. exact c110. Qed.
Print Assumptions C110_stream_heard.
Definition connecting : list (@move unit tunnel_step) :=
  Own (TConnects true) :: repeat (Own (TConnect None)) 7 ++ [Own (TEnter true)].
Definition taking (s : sendres) (k : nat) : list (@move unit tunnel_step) := repeat (Own (TCallback s)) k.
Definition pull (n : nat) : list (@move unit tunnel_step) := [Own TCheck; Own (TPoll (Some [1%Z])); Own (THandle (Some n) true)].
Definition C110_run : list (@move unit tunnel_step) :=
  connecting ++ pull 2 ++ [Rest (wired "li6ei7e2:abe") tt; Rest (InOp (OpWrite 1 (B "other"))) tt] ++ pull 9 ++ taking None 8 ++
  [Rest (wired "li6ei8e1:xe") tt] ++ pull 9 ++ [Own TCheck; Own (TPoll (Some [16%Z])); Own (THandle None true); Own TCheck; Own (TLeave 3)].
Example C110_case : others 0 C110_run /\ exists st' t,
  forward_session calm_env (fun _ => []) 0 1 2 4 C110_run seat_state false (B "helloworld") = Some (st', t) /\ ~ object_closed st' 0 /\
  heard 7 (history st') = [SData (B "hel"); SData (B "lowo"); SData (B "rld"); SClose] /\ t_rest t = [] /\
  heard 8 (history st') = [SData (B "other"); SData (B "echo")] /\ Model_Forward.delivered (t_in t) = B "ab".
Proof.
  split; [repeat (constructor; [try exact I; repeat split; auto; discriminate|]); constructor|].
  eexists. eexists. split; [vm_compute; reflexivity|]. split; [|repeat split; vm_compute; reflexivity].
  intros (c & Hc & Hcl). vm_compute in Hc. injection Hc as <-. discriminate.
Qed.

(** C111. The connection is handed exactly what the peer sent on the channel's number while
    the channel was open, and is told once it is closed; if no [sendall] failed, the local
    server has a prefix of that, and all of it when nothing is under way. *)
Theorem C111_local_server_gets_partial : forall env et o kd kc chunk l st c event stream st' t,
  (Z.of_nat chunk < 2 ^ 63)%Z -> respected env o -> seated st o kd kc c -> others o l ->
  forward_session env et o kd kc chunk l st event stream = Some (st', t) ->
  exists l1, open_part (fun l0 => forward_session env et o kd kc chunk l0 st event stream) o l l1 /\
    let got := routed (ch_no c) (rest_inputs l1) in
    arrived (t_in t) = got /\ (Model_Forward.chan_closed (t_in t) = true <-> object_closed st' o) /\
    (send_failed (t_in t) = false -> is_prefix (Model_Forward.delivered (t_in t)) (concat got) /\ (settled (t_in t) -> Model_Forward.delivered (t_in t) = concat got)).
Proof. exact c111. Qed.
Print Assumptions C111_local_server_gets_partial.
Definition C111_run : list (@move unit tunnel_step) :=
  [Rest (wired "li6ei7e2:abe") tt] ++ taking None 4 ++ connecting ++ [Rest (wired "li6ei8e1:xe") tt; Rest (wired "li6ei7e1:ce") tt] ++ taking None 7 ++
  pull 9 ++ [Rest (wired "li19ei7ee") tt] ++ taking None 6.
Example C111_case : others 0 C111_run /\ exists st' t,
  forward_session calm_env (fun _ => []) 0 1 2 4 C111_run seat_state false (B "hello") = Some (st', t) /\ object_closed st' 0 /\
  routed 7 (rest_inputs C111_run) = [B "ab"; B "c"] /\ send_failed (t_in t) = false /\ settled (t_in t) /\ Model_Forward.delivered (t_in t) = B "abc" /\ shut (t_in t) = true.
Proof.
  split; [repeat (constructor; [try exact I; repeat split; auto; discriminate|]); constructor|].
  eexists. eexists. split; [vm_compute; reflexivity|]. split; [eexists; split; vm_compute; reflexivity|]. repeat split; vm_compute; reflexivity.
Qed.
(** The sentence without its condition is false: a [sendall] that times out drops the rest of
    a message, and the next message follows. *)
Definition C111_hole : list (@move unit tunnel_step) :=
  connecting ++ [Rest (wired "li6ei7e2:abe") tt] ++ taking (Some 1) 6 ++ [Rest (wired "li6ei7e1:ce") tt] ++ taking None 7.
Theorem C111_timeout_hole_refuted : exists st' t, others 0 C111_hole /\
  forward_session calm_env (fun _ => []) 0 1 2 4 C111_hole seat_state false [] = Some (st', t) /\ ~ object_closed st' 0 /\ settled (t_in t) /\
  routed 7 (rest_inputs C111_hole) = [B "ab"; B "c"] /\ Model_Forward.delivered (t_in t) = B "ac".
Proof.
  eexists. eexists. split; [repeat (constructor; [try exact I; repeat split; auto; discriminate|]); constructor|].
  split; [vm_compute; reflexivity|]. split; [|repeat split; vm_compute; reflexivity].
  intros (c & Hc & Hcl). vm_compute in Hc. injection Hc as <-. discriminate.
Qed.
Print Assumptions C111_timeout_hole_refuted.

(** C112. In every interleaving of the process thread, the wait threads, the child, the
    receiving thread and everything else, while the channel is open: what the peer has heard,
    followed by what has not been read from the terminal yet, is what was printed on it; the
    rest of what it heard is the closings asked for. *)
Theorem C112_output_heard : forall env et o kd kc limit l st c t0 st' p,
  (Z.of_nat limit < 2 ^ 63)%Z -> respected env o -> seated st o kd kc c -> others o l ->
  terminal_session env et o kd kc limit l st t0 = Some (st', p) -> ~ object_closed st' o ->
  exists new, adds st st' new /\ concat (data_of (heard (ch_no c) new)) ++ pending p = terminal_output (own_steps l) /\
    closes_of (heard (ch_no c) new) = asked p /\ Forall (fun x => ~ is_control_said x) (heard (ch_no c) new).
Proof. exact c112. Qed.
Print Assumptions C112_output_heard.
Definition writes : term_os := (fun _ => Model_Process.Took 1, true, true).
Definition breaks : term_os := (fun n => if n =? 1 then WriteFails else Model_Process.Took 1, true, true).
Definition C112_run : list (@move term_os Model_Process.event) :=
  [Own (Fork true); Own SetPid; Own (InitFd true); Own (Prints (B "$ ")); Own (Reads 100 false true); Rest (wired "li6ei7e3:ls" ) writes;
   Rest (wired "li6ei7e2:lse") writes; Own (Prints (B "a b c")); Rest (InOp (OpWrite 1 (B "other"))) writes; Own (Reads 3 false true);
   Rest (wired "li6ei8e1:xe") writes; Rest (wired "li6ei7e4:quite") breaks; Own (Reads 1 false true)].
Example C112_case : others 0 C112_run /\ exists st' p,
  terminal_session calm_env (fun _ => []) 0 1 2 100 C112_run seat_state 0 = Some (st', p) /\ ~ object_closed st' 0 /\
  heard 7 (history st') = [SData (B "$ "); SData (B "a b"); SClose; SData (B " ")] /\ pending p = B "c" /\ asked p = 1 /\
  terminal_output (own_steps C112_run) = B "$ a b c" /\ Model_Process.input p = B "lsqu".
Proof.
  split; [repeat (constructor; [try exact I; repeat split; auto; discriminate|]); constructor|].
  eexists. eexists. split; [vm_compute; reflexivity|]. split; [|repeat split; vm_compute; reflexivity].
  intros (c & Hc & Hcl). vm_compute in Hc. injection Hc as <-. discriminate.
Qed.

(** C113. The terminal has got a prefix of each message the peer sent on the channel's number
    while it was open, in order; all of them if the channel is still open and its closing was
    not asked for. *)
Theorem C113_input_arrives_partial : forall env et o kd kc limit l st c t0 st' p,
  (Z.of_nat limit < 2 ^ 63)%Z -> respected env o -> seated st o kd kc c -> others o l ->
  terminal_session env et o kd kc limit l st t0 = Some (st', p) ->
  exists l1, open_part (fun l0 => terminal_session env et o kd kc limit l0 st t0) o l l1 /\
    (Model_Process.chan_closed p = true <-> object_closed st' o) /\
    let got := routed (ch_no c) (rest_inputs l1) in
    (exists parts, Model_Process.input p = concat parts /\ Forall2 Spec_Process.prefix parts got) /\
    (asked p = 0 -> ~ object_closed st' o -> Model_Process.input p = concat got).
Proof. exact c113. Qed.
Print Assumptions C113_input_arrives_partial.
Example C113_case : exists st' p,
  terminal_session calm_env (fun _ => []) 0 1 2 100 (firstn 11 C112_run) seat_state 0 = Some (st', p) /\ ~ object_closed st' 0 /\ asked p = 0 /\
  routed 7 (rest_inputs (firstn 11 C112_run)) = [B "ls"] /\ Model_Process.input p = B "ls".
Proof.
  eexists. eexists. split; [vm_compute; reflexivity|]. split; [|repeat split; vm_compute; reflexivity].
  intros (c & Hc & Hcl). vm_compute in Hc. injection Hc as <-. discriminate.
Qed.
(** It is false that the terminal gets all that is sent: what comes before the process is
    there is lost, and the peer is told to close. *)
Definition C113_early : list (@move term_os Model_Process.event) :=
  [Rest (wired "li6ei7e2:lse") writes; Own (Fork true); Own SetPid; Own (InitFd true); Rest (wired "li6ei7e1:xe") writes].
Theorem C113_early_input_refuted : exists st' p, others 0 C113_early /\
  terminal_session calm_env (fun _ => []) 0 1 2 100 C113_early seat_state 0 = Some (st', p) /\ ~ object_closed st' 0 /\ ph p = Copying /\
  routed 7 (rest_inputs C113_early) = [B "ls"; B "x"] /\ Model_Process.input p = B "x" /\ heard 7 (history st') = [SClose].
Proof.
  eexists. eexists. split; [repeat (constructor; [try exact I; repeat split; auto; discriminate|]); constructor|].
  split; [vm_compute; reflexivity|]. split; [|repeat split; vm_compute; reflexivity].
  intros (c & Hc & Hcl). vm_compute in Hc. injection Hc as <-. discriminate.
Qed.
Print Assumptions C113_early_input_refuted.

(** C114. Whatever closes the channel in the client - the peer, or the end of the connection -
    sends SIGHUP to the process, if its creation has been noted and nobody has closed it
    before, and kill works. *)
Theorem C114_closing_hangs_up_partial : forall env et o kd kc limit l i x st c t0 st1 p st2 p',
  (Z.of_nat limit < 2 ^ 63)%Z -> respected env o -> seated st o kd kc c -> others o (l ++ [Rest i x]) ->
  terminal_session env et o kd kc limit l st t0 = Some (st1, p) -> ~ object_closed st1 o ->
  terminal_session env et o kd kc limit (l ++ [Rest i x]) st t0 = Some (st2, p') -> object_closed st2 o ->
  kid p <> Unborn -> ph p <> Forked -> closed p = false -> snd (fst x) = true -> In (SIGHUP, now p, kid p) (signals p').
Proof. exact c114_hup. Qed.
Print Assumptions C114_closing_hangs_up_partial.
(** At most one SIGHUP and one SIGKILL, and only to the process itself *)
Theorem C114_signals_partial : forall env et o kd kc limit l st c t0 st' p,
  (Z.of_nat limit < 2 ^ 63)%Z -> respected env o -> seated st o kd kc c -> others o l ->
  terminal_session env et o kd kc limit l st t0 = Some (st', p) ->
  times SIGHUP (signals p) <= 1 /\ times SIGKILL (signals p) <= 1 /\ (forall s t k, In (s, t, k) (signals p) -> exists_ k).
Proof. exact c114_signals. Qed.
Print Assumptions C114_signals_partial.
(** A channel closed before the creation has been noted: no signal is ever sent. *)
Theorem C114_closed_too_early_refuted : forall env et o kd kc limit l i x l2 st c t0 st1 p st2 p2 st3 p',
  (Z.of_nat limit < 2 ^ 63)%Z -> respected env o -> seated st o kd kc c -> others o (l ++ Rest i x :: l2) ->
  terminal_session env et o kd kc limit l st t0 = Some (st1, p) -> ~ object_closed st1 o ->
  terminal_session env et o kd kc limit (l ++ [Rest i x]) st t0 = Some (st2, p2) -> object_closed st2 o ->
  pid p = false -> closed p = false -> terminal_session env et o kd kc limit (l ++ Rest i x :: l2) st t0 = Some (st3, p') -> signals p' = [].
Proof. exact c114_never. Qed.
Print Assumptions C114_closed_too_early_refuted.
Definition C114_run : list (@move term_os Model_Process.event) := firstn 11 C112_run ++ [Own (Tick 3)].
Example C114_case : exists st1 p st2 p', others 0 (C114_run ++ [Rest (InEvent EvDisconnected) writes]) /\
  terminal_session calm_env (fun _ => []) 0 1 2 100 C114_run seat_state 0 = Some (st1, p) /\ ~ object_closed st1 0 /\
  terminal_session calm_env (fun _ => []) 0 1 2 100 (C114_run ++ [Rest (InEvent EvDisconnected) writes]) seat_state 0 = Some (st2, p') /\ object_closed st2 0 /\
  kid p = Running /\ ph p = Copying /\ closed p = false /\ signals p' = [(SIGHUP, 3%Z, Running)].
Proof.
  eexists. eexists. eexists. eexists. split; [repeat (constructor; [try exact I; repeat split; auto; discriminate|]); constructor|].
  split; [vm_compute; reflexivity|]. split; [intros (c & Hc & Hcl); vm_compute in Hc; injection Hc as <-; discriminate|].
  split; [vm_compute; reflexivity|]. split; [eexists; split; vm_compute; reflexivity|]. repeat split; vm_compute; reflexivity.
Qed.
Example C114_early_case : exists st1 p st2 p2 st3 p', others 0 [Rest (wired "li19ei7ee") writes; Own (Fork true); Own SetPid; Own (InitFd true); Own (Tick 1000)] /\
  terminal_session calm_env (fun _ => []) 0 1 2 100 [] seat_state 0 = Some (st1, p) /\ ~ object_closed st1 0 /\
  terminal_session calm_env (fun _ => []) 0 1 2 100 [Rest (wired "li19ei7ee") writes] seat_state 0 = Some (st2, p2) /\ object_closed st2 0 /\
  pid p = false /\ closed p = false /\
  terminal_session calm_env (fun _ => []) 0 1 2 100 [Rest (wired "li19ei7ee") writes; Own (Fork true); Own SetPid; Own (InitFd true); Own (Tick 1000)] seat_state 0 = Some (st3, p') /\
  kid p' = Running /\ signals p' = [].
Proof.
  eexists. eexists. eexists. eexists. eexists. eexists. split; [repeat (constructor; [try exact I; repeat split; auto; discriminate|]); constructor|].
  split; [vm_compute; reflexivity|]. split; [intros (c & Hc & Hcl); vm_compute in Hc; injection Hc as <-; discriminate|].
  split; [vm_compute; reflexivity|]. split; [eexists; split; vm_compute; reflexivity|]. repeat split; vm_compute; reflexivity.
Qed.

(** C134. If the local server cannot be reached, nothing of its stream is taken and the peer
    hears nothing but the closing, which the end of the connection's thread says ... *)
Theorem C134_unreachable_server : forall env et o kd kc chunk l st c event stream st' t,
  (Z.of_nat chunk < 2 ^ 63)%Z -> respected env o -> seated st o kd kc c -> others o l ->
  forward_session env et o kd kc chunk l st event stream = Some (st', t) -> ~ object_closed st' o -> gave_up t ->
  exists new, adds st st' new /\ t_rest t = stream /\ (heard (ch_no c) new = [] \/ heard (ch_no c) new = [SClose]) /\
    (t_loop t = LGone -> ~ In (TLeave 0) (own_steps l) -> heard (ch_no c) new = [SClose]).
Proof. exact c134. Qed.
Print Assumptions C134_unreachable_server.
(** ... and nothing keeps the thread from ending. *)
Theorem C134_thread_ends : forall env et o kd kc chunk l st c event stream st' t ok elapsed,
  (Z.of_nat chunk < 2 ^ 63)%Z -> respected env o -> seated st o kd kc c -> others o l ->
  forward_session env et o kd kc chunk l st event stream = Some (st', t) -> gave_up t ->
  exists st2 t2, forward_session env et o kd kc chunk (l ++ [Own (TEnter ok); Own (TLeave elapsed)]) st event stream = Some (st2, t2) /\
    gave_up t2 /\ t_loop t2 = LGone.
Proof. exact c134_ends. Qed.
Print Assumptions C134_thread_ends.
Definition C134_run : list (@move unit tunnel_step) :=
  [Rest (wired "li6ei7e2:abe") tt; Own (TConnects false)] ++ taking None 8 ++ [Rest (wired "li6ei8e1:xe") tt].
Example C134_case : others 0 C134_run /\ exists st' t,
  forward_session calm_env (fun _ => []) 0 1 2 4 C134_run seat_state false (B "helloworld") = Some (st', t) /\ ~ object_closed st' 0 /\
  gave_up t /\ t_loop t = LConnecting /\ exists st2 t2,
  forward_session calm_env (fun _ => []) 0 1 2 4 (C134_run ++ [Own (TEnter true); Own (TLeave 5)]) seat_state false (B "helloworld") = Some (st2, t2) /\
  ~ object_closed st2 0 /\ heard 7 (history st2) = [SClose] /\ Model_Forward.delivered (t_in t2) = [].
Proof.
  split; [repeat (constructor; [try exact I; repeat split; auto; discriminate|]); constructor|].
  eexists. eexists. split; [vm_compute; reflexivity|]. split; [intros (c & Hc & Hcl); vm_compute in Hc; injection Hc as <-; discriminate|].
  split; [vm_compute; reflexivity|]. split; [vm_compute; reflexivity|]. eexists. eexists. split; [vm_compute; reflexivity|].
  split; [intros (c & Hc & Hcl); vm_compute in Hc; injection Hc as <-; discriminate|]. repeat split; vm_compute; reflexivity.
Qed.

(** C34 (Prop_Forward.v), seen by the peer. Wherever its stream is, a connection that is between
    two rounds when another one ends is closed too: the peer hears what had been received and
    the closing, and the rest of the stream is lost. *)
Theorem C34_heard_refuted : forall env et o kd kc chunk l st c event stream st' t elapsed,
  (Z.of_nat chunk < 2 ^ 63)%Z -> respected env o -> seated st o kd kc c -> others o l ->
  forward_session env et o kd kc chunk l st event stream = Some (st', t) -> t_loop t = LCheck -> elapsed <> 0%Z -> ~ In (TLeave 0) (own_steps l) ->
  exists st2 t2, forward_session env et o kd kc chunk (l ++ [Own TOtherEnds; Own TCheck; Own (TLeave elapsed)]) st event stream = Some (st2, t2) /\
    t_loop t2 = LGone /\ t_rest t2 = t_rest t /\ t_in t2 = t_in t /\
    (~ object_closed st2 o -> exists new ds, adds st st2 new /\ heard (ch_no c) new = map SData ds ++ [SClose] /\ concat ds ++ t_rest t = stream).
Proof. exact c34_heard. Qed.
Print Assumptions C34_heard_refuted.
Definition C34_run : list (@move unit tunnel_step) := connecting ++ pull 2.
Example C34_heard_case : others 0 C34_run /\ ~ In (TLeave 0) (own_steps C34_run) /\ exists st' t,
  forward_session calm_env (fun _ => []) 0 1 2 4 C34_run seat_state false (B "helloworld") = Some (st', t) /\ t_loop t = LCheck /\ exists st2 t2,
  forward_session calm_env (fun _ => []) 0 1 2 4 (C34_run ++ [Own TOtherEnds; Own TCheck; Own (TLeave 5)]) seat_state false (B "helloworld") = Some (st2, t2) /\
  ~ object_closed st2 0 /\ heard 7 (history st2) = [SData (B "hel"); SClose] /\ t_rest t2 = B "loworld".
Proof.
  split; [repeat (constructor; [try exact I; repeat split; auto; discriminate|]); constructor|].
  split; [intros X; vm_compute in X; repeat destruct X as [X|X]; discriminate || contradiction|].
  eexists. eexists. split; [vm_compute; reflexivity|]. split; [vm_compute; reflexivity|]. eexists. eexists. split; [vm_compute; reflexivity|].
  split; [intros (c & Hc & Hcl); vm_compute in Hc; injection Hc as <-; discriminate|]. repeat split; vm_compute; reflexivity.
Qed.
