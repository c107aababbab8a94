(** * Properties C115-C118: instructions that open services, and the peer of the channel
      (dataplicity/m2mmanager.py, dataplicity/portforward.py, dataplicity/limiter.py,
      dataplicity/m2m/wsclient.py, echoservice.py, fileservice.py, commandservice.py,
      remoteprocess.py) *)
From Verif Require Import Py Model_Bencode Spec_Bencode Model_Limiter Model_Manager Model_Process Model_Client Spec_Client Spec_Early Spec_Outbound Spec_System
  Model_Relay Spec_Relay Model_Opening Spec_Opening Proof_Opening Proof_Opening2.
Local Open Scope nat_scope.

(** ** Sessions for the cases *)
Definition wire (s : string) : input := InEvent (EvBinary (B s)).
Definition some_json (a b c : string) : text := T (a ++ " " ++ b ++ " " ++ c).
Definition some_cbs : callbacks := Cbs 1 2 3.
(** The callee of instructions is the manager; it gets channel object 0. *)
Definition managed (v : luck) : list effect -> effect -> list (op * bool) * option exn :=
  fun tr e => match e with Instruction _ data => manager_reply some_json some_cbs default_manager v 0 data | _ => ([], None) end.
Definition nobody : list effect -> effect -> list (op * bool) * option exn := fun _ _ => ([], None).
Lemma nobody_ok o : respected nobody o.
Proof. split; [intros tr e p s []|intros tr e; constructor]. Qed.
Lemma managed_civil v : civil (managed v).
Proof. intros tr b x. discriminate. Qed.
Definition after (v : luck) (l : list input) : state := match run (managed v) (fun _ => []) l (init_state None) with Some st => st | None => init_state None end.
(** Channel 7 is opened, then an instruction uses it. *)
Definition fresh_start : list input := [wire "li14ei7ee"].
(** Channel 7 is opened; the connection drops and is made again. *)
Definition dropped_start : list input := [wire "li14ei7ee"; InEvent EvDisconnected; InEvent EvReady].
Definition ask_terminal : input := wire "li16e6:serverd6:action13:open-terminal4:name5:shell4:porti7eee".
Definition ask_echo : input := wire "li16e6:serverd6:action9:open-echo4:porti7eee".
Definition ask_forward : input := wire "li16e6:serverd6:action17:open-portredirect11:device_porti81e8:m2m_porti7eee".
Definition ask_command : input := wire "li16e6:serverd6:action11:run-command7:command2:ls4:porti7eee".
Lemma asks_terminal : deed_for default_manager ask_terminal (LaunchTerminal (T "shell") (VInt 7) None).
Proof. eapply deed_by; [vm_compute; reflexivity|]. vm_compute. reflexivity. Qed.
Lemma asks_echo : deed_for default_manager ask_echo (StartEcho (VInt 7)).
Proof. eapply deed_by; [vm_compute; reflexivity|]. vm_compute. reflexivity. Qed.
Lemma asks_forward : deed_for default_manager ask_forward (Connect (T "127.0.0.1") (VInt 81) (VInt 7)).
Proof. eapply deed_by; [vm_compute; reflexivity|]. vm_compute. reflexivity. Qed.
Lemma asks_command : deed_for default_manager ask_command (RunCommand (VInt 7) (VText (T "ls"))).
Proof. eapply deed_by; [vm_compute; reflexivity|]. vm_compute. reflexivity. Qed.
Lemma fresh_alive v : ~ dead_number (after v fresh_start) 7.
Proof. intros (o & R & c & C & K). vm_compute in R. injection R as <-. vm_compute in C. injection C as <-. discriminate. Qed.
Lemma dropped_dead v : dead_number (after v dropped_start) 7.
Proof. exists 0. split; [destruct v; vm_compute; reflexivity|]. eexists. split; [destruct v; vm_compute; reflexivity|reflexivity]. Qed.
Lemma fresh_obeys v i : obeys (managed v) some_json some_cbs default_manager v 7 (after v fresh_start) i.
Proof. intros s data _. replace (object_for 7 (after v fresh_start)) with 0 by (destruct v; vm_compute; reflexivity). reflexivity. Qed.
Lemma dropped_obeys v i : obeys (managed v) some_json some_cbs default_manager v 7 (after v dropped_start) i.
Proof. intros s data _. replace (object_for 7 (after v dropped_start)) with 0 by (destruct v; vm_compute; reflexivity). reflexivity. Qed.

(** C115. After any session: an instruction that opens a service on channel [n], when the
    thread starts, leaves the channel registered under [n] and open, with the service's
    callbacks on it, and says nothing to the peer; so C110 to C114 and C117 hold from there on.
    Not if the number is that of a channel closed by the end of an earlier connection. *)
Theorem C115_service_connected_partial : forall env et u l st i m d n json ks st' r, run env et l (init_state u) = Some st -> deed_for m i d -> on_channel n d ->
  obeys env json ks m Starts n st i -> ~ dead_number st n -> step env et i st = (st', r) ->
  exists o c, registered st' n = Some o /\ ch_no c = n /\ connected ks d st' o c /\ forall new, adds st st' new -> heard n new = [].
Proof. exact c115. Qed.
Print Assumptions C115_service_connected_partial.
(** The terminal opened on channel 7 gets what the peer sends there. *)
Definition lets_write : term_os := (fun _ => Model_Process.Took 1, true, true).
Definition C115_run : list (@move term_os Model_Process.event) :=
  [Own (Fork true); Own SetPid; Own (InitFd true); Rest (wire "li6ei7e3:ls\e") lets_write; Own (Prints (B "a b")); Own (Reads 3 false true); Own (Tick 1000)].
Example C115_case : exists st' st'' p,
  run (managed Starts) (fun _ => []) fresh_start (init_state None) = Some (after Starts fresh_start) /\
  deed_for default_manager ask_terminal (LaunchTerminal (T "shell") (VInt 7) None) /\ on_channel 7 (LaunchTerminal (T "shell") (VInt 7) None) /\
  obeys (managed Starts) some_json some_cbs default_manager Starts 7 (after Starts fresh_start) ask_terminal /\ ~ dead_number (after Starts fresh_start) 7 /\
  step (managed Starts) (fun _ => []) ask_terminal (after Starts fresh_start) = (st', Ok tt) /\
  terminal_session nobody (fun _ => []) 0 1 2 100 C115_run st' 0 = Some (st'', p) /\ Model_Process.input p = B "ls\" /\ heard 7 (history st'') = [SData (B "a b")].
Proof.
  eexists. eexists. eexists. split; [vm_compute; reflexivity|]. split; [apply asks_terminal|]. split; [constructor|]. split; [apply fresh_obeys|].
  split; [apply fresh_alive|]. split; [vm_compute; reflexivity|]. split; [vm_compute; reflexivity|]. split; vm_compute; reflexivity.
Qed.
Example C115_others_case : exists st1 st2,
  step (managed Starts) (fun _ => []) ask_echo (after Starts fresh_start) = (st1, Ok tt) /\ step (managed Starts) (fun _ => []) ask_forward (after Starts fresh_start) = (st2, Ok tt) /\
  (exists c, connected some_cbs (StartEcho (VInt 7)) st1 0 c) /\ exists c, connected some_cbs (Connect (T "127.0.0.1") (VInt 81) (VInt 7)) st2 0 c.
Proof.
  eexists. eexists. split; [vm_compute; reflexivity|]. split; [vm_compute; reflexivity|]. split; eexists.
  - split. { split; [exists (managed Starts), (fun _ => []), None, (fresh_start ++ [ask_echo]); vm_compute; reflexivity|]. split; [vm_compute; reflexivity|]. auto. } reflexivity.
  - split. { split; [exists (managed Starts), (fun _ => []), None, (fresh_start ++ [ask_forward]); vm_compute; reflexivity|]. split; [vm_compute; reflexivity|]. auto. } reflexivity.
Qed.
(** With such a number, a terminal is started that nobody can reach: whatever arrives, it gets
    no input and no signal, and nothing it prints is sent to anybody. *)
Theorem C115_orphaned_terminal_refuted : forall env et u l st i m name size n json ks st' r, run env et l (init_state u) = Some st ->
  deed_for m i (LaunchTerminal name (VInt n) size) -> obeys env json ks m Starts n st i -> dead_number st n -> step env et i st = (st', r) ->
  exists o, registered st' n = Some o /\ object_closed st' o /\
    forall env' et' limit l' t0 st'' p, respected env' o -> others o l' -> Forall uncalled (own_steps l') ->
      terminal_session env' et' o (for_data ks) (for_close ks) limit l' st' t0 = Some (st'', p) ->
      Model_Process.input p = [] /\ signals p = [] /\ (rest_inputs l' = [] -> st'' = st').
Proof. exact c115_orphan. Qed.
Print Assumptions C115_orphaned_terminal_refuted.
Definition C115_orphan_run : list (@move term_os Model_Process.event) :=
  C115_run ++ [Rest (wire "li19ei7ee") lets_write; Rest (InEvent EvDisconnected) lets_write; Own (Tick 1000)].
Example C115_orphan_case : exists st' st'' p,
  run (managed Starts) (fun _ => []) dropped_start (init_state None) = Some (after Starts dropped_start) /\
  deed_for default_manager ask_terminal (LaunchTerminal (T "shell") (VInt 7) None) /\
  obeys (managed Starts) some_json some_cbs default_manager Starts 7 (after Starts dropped_start) ask_terminal /\ dead_number (after Starts dropped_start) 7 /\
  step (managed Starts) (fun _ => []) ask_terminal (after Starts dropped_start) = (st', Ok tt) /\ respected nobody 0 /\ others 0 C115_orphan_run /\
  Forall uncalled (own_steps C115_orphan_run) /\ terminal_session nobody (fun _ => []) 0 1 2 100 C115_orphan_run st' 0 = Some (st'', p) /\
  kid p = Running /\ Model_Process.input p = [] /\ signals p = [] /\ heard 7 (history st'') = [].
Proof.
  eexists. eexists. eexists. split; [vm_compute; reflexivity|]. split; [apply asks_terminal|]. split; [apply dropped_obeys|]. split; [apply dropped_dead|].
  split; [vm_compute; reflexivity|]. split; [apply nobody_ok|]. split; [repeat (constructor; [exact I|]); constructor|].
  split; [repeat (constructor; [exact I|]); constructor|]. split; [vm_compute; reflexivity|]. repeat split; vm_compute; reflexivity.
Qed.

(** C116. After any session: when the limit is reached or the thread cannot be started, the
    peer hears, on the channel it asked for, the refusal that belongs to the request and the
    closing, and nothing else.  Not on a channel closed by the end of an earlier connection,
    and if the websocket raises nothing but WebSocketError. *)
Theorem C116_refusal_heard_partial : forall env et u l st i m d n json ks v p st' r, civil env -> sound_errors json -> run env et l (init_state u) = Some st ->
  deed_for m i d -> on_channel n d -> under d p -> v <> Starts -> obeys env json ks m v n st i -> ~ dead_number st n -> step env et i st = (st', r) ->
  exists x new, no_for json d x /\ adds st st' new /\ heard n new = [x; SClose].
Proof. exact c116. Qed.
Print Assumptions C116_refusal_heard_partial.
Example C116_case : exists st' st2 st3, civil (managed LimitFull) /\
  run (managed LimitFull) (fun _ => []) fresh_start (init_state None) = Some (after LimitFull fresh_start) /\
  obeys (managed LimitFull) some_json some_cbs default_manager LimitFull 7 (after LimitFull fresh_start) ask_terminal /\ ~ dead_number (after LimitFull fresh_start) 7 /\
  step (managed LimitFull) (fun _ => []) ask_terminal (after LimitFull fresh_start) = (st', Ok tt) /\ deed_for default_manager ask_terminal (LaunchTerminal (T "shell") (VInt 7) None) /\
  heard 7 (history st') = [SData (B "Failed to launch remote process" ++ NL); SClose] /\
  step (managed StartFails) (fun _ => []) ask_forward (after StartFails fresh_start) = (st2, Ok tt) /\ deed_for default_manager ask_forward (Connect (T "127.0.0.1") (VInt 81) (VInt 7)) /\
  heard 7 (history st2) = [SData server_busy; SClose] /\
  step (managed LimitFull) (fun _ => []) ask_command (after LimitFull fresh_start) = (st3, Ok tt) /\ deed_for default_manager ask_command (RunCommand (VInt 7) (VText (T "ls"))) /\
  heard 7 (history st3) = [SControl (B "command error error"); SClose].
Proof.
  eexists. eexists. eexists. split; [apply managed_civil|]. split; [vm_compute; reflexivity|]. split; [apply fresh_obeys|]. split; [apply fresh_alive|].
  split; [vm_compute; reflexivity|]. split; [apply asks_terminal|]. split; [vm_compute; reflexivity|]. split; [vm_compute; reflexivity|].
  split; [apply asks_forward|]. split; [vm_compute; reflexivity|]. split; [vm_compute; reflexivity|]. split; [apply asks_command|vm_compute; reflexivity].
Qed.
(** On such a channel the peer hears nothing: neither success nor refusal. *)
Theorem C116_dead_number_refuted : forall env et st i m d n json ks v st' r, deed_for m i d -> on_channel n d ->
  obeys env json ks m v n st i -> dead_number st n -> step env et i st = (st', r) ->
  r = Ok tt /\ (exists o, registered st' n = Some o /\ object_closed st' o /\ o = object_for n st) /\ forall new, adds st st' new -> heard n new = [].
Proof. exact dead_mute. Qed.
Print Assumptions C116_dead_number_refuted.
Example C116_dead_case : exists st', dead_number (after LimitFull dropped_start) 7 /\
  obeys (managed LimitFull) some_json some_cbs default_manager LimitFull 7 (after LimitFull dropped_start) ask_terminal /\
  step (managed LimitFull) (fun _ => []) ask_terminal (after LimitFull dropped_start) = (st', Ok tt) /\ heard 7 (history st') = [].
Proof. eexists. split; [apply dropped_dead|]. split; [apply dropped_obeys|]. split; [vm_compute; reflexivity|]. vm_compute. reflexivity. Qed.

(** C117. In every interleaving, while the channel is open: the peer of an echo service has
    heard exactly the messages it sent on the channel, each once, in order. *)
Theorem C117_echo_heard : forall env et o kd l st c st', respected env o -> perched st o kd None c -> others o l -> Forall short (routed (ch_no c) (rest_inputs l)) ->
  echo_session env et o kd l st = Some (st', tt) -> ~ object_closed st' o ->
  exists new, adds st st' new /\ heard (ch_no c) new = map SData (routed (ch_no c) (rest_inputs l)).
Proof. exact c117. Qed.
Print Assumptions C117_echo_heard.
Definition C117_run : list (@move unit Empty_set) :=
  [Rest (wire "li6ei7e2:abe") tt; Rest (wire "li6ei8e1:xe") tt; Rest (InOp (OpWrite 1 (B "other"))) tt; Rest (wire "li6ei7e0:e") tt; Rest (wire "li6ei7e1:ce") tt].
Definition echo_start : state := after Starts (fresh_start ++ [ask_echo; wire "li14ei8ee"]).
Example C117_case : respected nobody 0 /\ others 0 C117_run /\ (exists c, perched echo_start 0 1 None c /\ ch_no c = 7%Z) /\
  Forall short (routed 7 (rest_inputs C117_run)) /\ exists st', echo_session nobody (fun _ => []) 0 1 C117_run echo_start = Some (st', tt) /\ ~ object_closed st' 0 /\
  heard 7 (history st') = [SData (B "ab"); SData []; SData (B "c")].
Proof.
  split; [apply nobody_ok|]. split; [repeat (constructor; [try exact I; repeat split; auto; discriminate|]); constructor|]. split; [|split].
  - eexists (Chan 7 false (Some 1) None None [] false). split; [|reflexivity]. split; [exists (managed Starts), (fun _ => []), None, (fresh_start ++ [ask_echo; wire "li14ei8ee"]); vm_compute; reflexivity|].
    split; [vm_compute; reflexivity|]. auto.
  - vm_compute routed. repeat constructor.
  - eexists. split; [vm_compute; reflexivity|]. split; [|vm_compute; reflexivity]. intros (c & Hc & Hcl). vm_compute in Hc. injection Hc as <-. discriminate.
Qed.

(** C118. Terminals and services do not take each other's slots. However requests and endings
    follow each other: neither limiter's count exceeds its limit; a request is refused as full
    exactly if its own limiter is full, and one without a limiter never; the count of a limiter
    is what it would be if only requests and endings under it had happened. *)
Theorem C118_within_limits : forall limit l p, taken p (happen_all limit l) <= limit p.
Proof. exact c118_bound. Qed.
Print Assumptions C118_within_limits.
Theorem C118_full_of_its_own : forall limit l d ok, luck_of limit d ok (happen_all limit l) = LimitFull <-> exists p, under d p /\ taken p (happen_all limit l) = limit p.
Proof. exact c118_full. Qed.
Print Assumptions C118_full_of_its_own.
Theorem C118_apart : forall limit l p, taken p (happen_all limit l) = taken p (happen_all limit (filter (of_pool p) l)).
Proof. exact c118_apart. Qed.
Print Assumptions C118_apart.
Theorem C118_counts_running : forall limit l p, count limit p l (taken p (happen_all limit l)).
Proof. exact c118_count. Qed.
Print Assumptions C118_counts_running.
Definition two_one (p : pool) : nat := match p with Services => 2 | Terminals => 1 end.
Definition C118_run : list happening :=
  [Asked (SendFile (VInt 1) VNone) true; Asked (RunCommand (VInt 2) VNone) true; Asked (Connect [] VNone (VInt 3)) true; Asked (LaunchTerminal [] (VInt 4) None) true;
   Ended Services; Asked (LaunchTerminal [] (VInt 5) None) true; Asked (Connect [] VNone (VInt 6)) false].
Example C118_case : happen_all two_one C118_run = Slots 1 1 /\ luck_of two_one (LaunchTerminal [] (VInt 7) None) true (happen_all two_one C118_run) = LimitFull /\
  luck_of two_one (SendFile (VInt 7) VNone) true (happen_all two_one C118_run) = Starts /\ luck_of two_one (StartEcho (VInt 7)) true (happen_all two_one C118_run) = Starts.
Proof. repeat split. Qed.
