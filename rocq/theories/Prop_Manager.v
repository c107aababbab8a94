(** * Properties C26, C36, C40, C41: the M2M manager
      (dataplicity/m2mmanager.py, service table of dataplicity/portforward.py) *)
From Verif Require Import Py Model_Manager Spec_Manager Proof_Manager.

(** C26. An identity is reported when told, unless it is the settled one. *)
Theorem C26_reported_until_acknowledged : forall calls i answer, i <> [] -> utf8_decode i <> None -> ~ settled calls i ->
  reports (irun (calls ++ [(Some i, true, answer)]) iinit) = (i, answer) :: reports (irun calls iinit).
Proof. exact reported_unless_settled. Qed.
Print Assumptions C26_reported_until_acknowledged.
Theorem C26_not_again_once_acknowledged : forall calls i token answer, settled calls i ->
  reports (irun (calls ++ [(Some i, token, answer)]) iinit) = reports (irun calls iinit).
Proof. exact settled_not_reported. Qed.
Print Assumptions C26_not_again_once_acknowledged.
(** Nothing else is ever reported; an empty or missing identity changes nothing. *)
Theorem C26_only_what_was_told : forall calls i a, In (i, a) (reports (irun calls iinit)) -> i <> [] /\ In (Some i, true, a) calls.
Proof. exact only_told. Qed.
Print Assumptions C26_only_what_was_told.
Theorem C26_blank_changes_nothing : forall calls token a t, t = None \/ t = Some [] -> irun (calls ++ [(t, token, a)]) iinit = irun calls iinit.
Proof. exact blank_not_reported. Qed.
Print Assumptions C26_blank_changes_nothing.
(** Failure, retry, acknowledgement, silence, another identity that fails, and the first again. *)
Example C26_case :
  let a := Some (B "A") in let b := Some (B "B") in
  reports (irun [(a, true, Failed); (a, false, Acknowledged); (a, true, Acknowledged); (None, true, Acknowledged); (a, true, Failed);
                 (b, true, Failed); (a, true, Acknowledged)] iinit) =
    [(B "A", Acknowledged); (B "B", Failed); (B "A", Acknowledged); (B "A", Failed)] /\
  settled ([(a, true, Failed)] ++ [(a, true, Acknowledged)]) (B "A") /\ ~ settled [(a, true, Failed)] (B "A").
Proof.
  split; [reflexivity|]. split; [apply settled_now; discriminate|].
  intros H. apply notified_settled in H. discriminate.
Qed.

(** C36. By name: the last registration of the name; an unknown name or port does nothing. *)
Theorem C36_open_by_name_partial : forall terms before n p h after c, ~ In n (map reg_name after) -> channel_no c ->
  open c (VText n) None (registered (before ++ (n, p, h) :: after) (no_services terms)) = Ok [Connect h (VInt p) c].
Proof. exact open_by_name. Qed.
Print Assumptions C36_open_by_name_partial.
Theorem C36_unknown_name_partial : forall terms regs n c, ~ In n (map reg_name regs) ->
  open c (VText n) None (registered regs (no_services terms)) = Ok [].
Proof. exact open_unknown_name. Qed.
Print Assumptions C36_unknown_name_partial.
Theorem C36_unknown_port_partial : forall terms regs p v c, p <> 0%Z -> ~ In p (map reg_port regs) ->
  open c v (Some p) (registered regs (no_services terms)) = Ok [].
Proof. exact open_unknown_port. Qed.
Print Assumptions C36_unknown_port_partial.
(** By port, if no name was registered twice. *)
Theorem C36_open_by_port_partial : forall terms before n p h after v c, p <> 0%Z ->
  NoDup (map reg_name (before ++ (n, p, h) :: after)) -> ~ In p (map reg_port after) -> channel_no c ->
  open c v (Some p) (registered (before ++ (n, p, h) :: after) (no_services terms)) = Ok [Connect h (VInt p) c].
Proof. exact open_by_port. Qed.
Print Assumptions C36_open_by_port_partial.
(** A name registered again leaves its old port behind: asking for port 80 connects to 81. *)
Theorem C36_stale_port_refuted : forall terms h c, channel_no c ->
  open c VNone (Some 80%Z) (registered [(T "web", 80%Z, h); (T "web", 81%Z, h)] (no_services terms)) = Ok [Connect h (VInt 81) c].
Proof. exact stale_port. Qed.
Print Assumptions C36_stale_port_refuted.
(** The default services. *)
Theorem C36_default_services_partial : forall name port, In (name, port) [("web"%string, 80); ("ext"%string, 81); ("extalt"%string, 8000); ("alt"%string, 8080)]%Z ->
  forall c, channel_no c -> open c (VText (T name)) None default_manager = Ok [Connect (T "127.0.0.1") (VInt port) c] /\
    open c VNone (Some port) default_manager = Ok [Connect (T "127.0.0.1") (VInt port) c].
Proof. exact defaults. Qed.
Print Assumptions C36_default_services_partial.
Example C36_case :
  open (VInt 5) (VText (T "db")) None (registered [(T "a", 1%Z, T "h1"); (T "db", 5432%Z, T "h2"); (T "b", 2%Z, T "h3")] (no_services [])) =
    Ok [Connect (T "h2") (VInt 5432) (VInt 5)] /\ channel_no (VInt 5).
Proof. split; [reflexivity|]. split; discriminate. Qed.

(** C40. A terminal lists processes it launched, without repetition, all that are open and
    were launched after the last [close]; a launch drops exactly the closed ones. *)
Theorem C40_lists_launched : forall ops st, st = trun ops tinit ->
  NoDup (t_list st) /\ (forall p, In p (t_list st) -> launched ops p) /\
  (forall p, launched_since_close ops p -> ~ In p (t_closed st) -> In p (t_list st)).
Proof. exact c40_lists. Qed.
Print Assumptions C40_lists_launched.
Theorem C40_launch_forgets_closed : forall ops ok st st', st = trun ops tinit -> st' = trun (ops ++ [Launch ok]) tinit ->
  forall p, In p (t_list st') <-> (In p (t_list st) /\ ~ In p (t_closed st)) \/ (ok = true /\ p = length (filter is_launch ops)).
Proof. exact c40_forgets. Qed.
Print Assumptions C40_launch_forgets_closed.
(** [close] closes each open listed process once, in spite of failures, and empties the list. *)
Theorem C40_close_closes_all : forall ops fails st st', st = trun ops tinit -> st' = trun (ops ++ [CloseAll fails]) tinit ->
  t_list st' = [] /\
  (exists calls, t_calls st' = rev calls ++ t_calls st /\ NoDup calls /\ forall p, In p calls <-> In p (t_list st) /\ ~ In p (t_closed st)) /\
  (forall p, In p (t_list st) -> ~ In p fails -> In p (t_closed st')).
Proof. exact c40_close. Qed.
Print Assumptions C40_close_closes_all.
Example C40_case :
  let ops := [Launch true; Launch false; Launch true; ProcessCloses 0; Launch true; ProcessCloses 2; Launch true] in
  t_list (trun ops tinit) = [3; 4] /\ t_calls (trun (ops ++ [CloseAll [3]]) tinit) = [4; 3] /\
  t_closed (trun (ops ++ [CloseAll [3]]) tinit) = [4; 2; 0].
Proof. vm_compute. auto. Qed.

(** C41. An instruction is answered by exactly what it asks for, or by nothing; no
    exception leaves the handler. *)
Theorem C41_does_what_is_asked : forall data m, exists deeds, on_instruction_packet (VDict data) m = Ok deeds /\ length deeds <= 1 /\
  forall e, In e deeds <-> byte_keys data /\ asks (terminals m) (services m) data e.
Proof. exact c41. Qed.
Print Assumptions C41_does_what_is_asked.
Theorem C41_not_a_dictionary : forall data m, (forall d, data <> VDict d) -> on_instruction_packet data m = Ok [].
Proof. exact c41_other. Qed.
Print Assumptions C41_not_a_dictionary.
Example C41_case :
  let d := [(VBytes (B "name"), VBytes (B "shell")); (VBytes (B "port"), VInt 7); (VBytes (B "size"), VList [VInt 80; VInt 24]);
            (VBytes (B "action"), VBytes (B "open-terminal"))] in
  on_instruction_packet (VDict d) default_manager = Ok [LaunchTerminal (T "shell") (VInt 7) (Some (VList [VInt 80; VInt 24]))] /\
  on_instruction_packet (VDict [(VBytes (B "service"), VBytes (B "ext")); (VBytes (B "action"), VBytes (B "open-portforward"));
     (VBytes (B "route"), VList [VBytes (B "n1"); VInt 1; VBytes (B "n2"); VInt 9])]) default_manager = Ok [Connect (T "127.0.0.1") (VInt 81) (VInt 9)] /\
  on_instruction_packet (VDict [(VBytes (B "action"), VBytes (B "read-file")); (VBytes (B "port"), VInt 3)]) default_manager = Ok [].
Proof. vm_compute. auto. Qed.
