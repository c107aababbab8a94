(** * C94 and C95: the start of the agent (client.py, m2mmanager.py, portforward.py) *)
From Verif Require Import Py Model_Agent Model_Manager Spec_Manager Model_Start Spec_Start Proof_Start.

(** C94. The agent runs with what the command line says, else with the trimmed text of the
    file, and connects to nothing before it has both credentials. *)
Theorem C94_uses_what_is_meant : forall o d h c shown, construct o d h = (Ok c, shown) ->
  meant (h_serial h) (o_serial o) (c_serial c) /\ meant (h_auth h) (o_auth o) (c_auth c) /\
  or_default (d_server_url d) (o_server_url o) (c_rpc_url c) /\ or_default (d_remote_dir d) (o_remote_dir o) (c_remote_dir c) /\
  c_m2m_url c = m2m_url (o_m2m_url o) (d_m2m_url d) (d_features d) /\
  shown = [ThreadStarted (c_m2m_url c); TerminalAdded (T "shell") (T "bash -i"); M2mAssigned; ForwardAssigned].
Proof. exact constructed. Qed.
Print Assumptions C94_uses_what_is_meant.
Theorem C94_one_meaning : forall f given v w, meant f given v -> meant f given w -> v = w.
Proof. exact meant_unique. Qed.
Print Assumptions C94_one_meaning.
Theorem C94_starts : forall o d h s a, meant (h_serial h) (o_serial o) s -> meant (h_auth h) (o_auth o) a ->
  h_websocket h = None -> h_thread h = None -> exists c shown, construct o d h = (Ok c, shown).
Proof. exact started. Qed.
Print Assumptions C94_starts.
Theorem C94_refuses : forall o d h, (forall v, ~ meant (h_serial h) (o_serial o) v) \/ (forall v, ~ meant (h_auth h) (o_auth o) v) \/
  h_websocket h <> None \/ h_thread h <> None -> exists e, construct o d h = (Raise e, []).
Proof. exact refused. Qed.
Print Assumptions C94_refuses.
(** With the exception of what failed, and nothing has become visible. *)
Theorem C94_refuses_why : forall o d h e shown, construct o d h = (Raise e, shown) -> shown = [] /\
  (unreadable (h_serial h) (o_serial o) e \/ unreadable (h_auth h) (o_auth o) e \/ h_websocket h = Some e \/ h_thread h = Some e).
Proof. exact refused_why. Qed.
Print Assumptions C94_refuses_why.
Definition some_defaults : defaults := Defaults (T "https://api") (T "wss://m2m/") [T "scan"] (T "/home/remote").
Definition some_options : options := Options None None None (Some (T "secret")) (Some []).
Definition some_host : host := Host (Contents (B " abc 1" ++ [Byte.x0d; Byte.x0a])) Missing None None.
Example C94_case : construct some_options some_defaults some_host =
    (Ok (Client (T "https://api") (T "wss://m2m/?features=scan") (T "abc 1") (T "secret") (T "/home/remote")),
     [ThreadStarted (T "wss://m2m/?features=scan"); TerminalAdded (T "shell") (T "bash -i"); M2mAssigned; ForwardAssigned]) /\
  construct some_options some_defaults (Host Missing Missing None None) = (Raise EOS, []) /\
  construct some_options some_defaults (Host (Contents [Byte.xff]) Missing None None) = (Raise EUnicodeDecode, []).
Proof. vm_compute. auto. Qed.

(** C95 as stated is false: the m2m thread runs before its surroundings are complete, and
    instructions for a terminal or a port forward are dropped. *)
Definition ask_terminal : list (val * val) :=
  [(VBytes (B "action"), VBytes (B "open-terminal")); (VBytes (B "name"), VBytes (B "shell")); (VBytes (B "port"), VInt 7)].
Definition ask_redirect : list (val * val) :=
  [(VBytes (B "action"), VBytes (B "open-portredirect")); (VBytes (B "device_port"), VInt 22); (VBytes (B "m2m_port"), VInt 7)].
Theorem C95_early_instruction_refuted : exists l l', startup l /\ startup l' /\
  packet_at l (VDict ask_terminal) = Ok [] /\
  on_instruction_packet (VDict ask_terminal) default_manager = Ok [LaunchTerminal (T "shell") (VInt 7) None] /\
  packet_at l' (VDict ask_redirect) = Ok [] /\
  on_instruction_packet (VDict ask_redirect) default_manager = Ok [Connect (T "127.0.0.1") (VInt 22) (VInt 7)].
Proof.
  exists [ThreadStarted (T "wss://m2m/?features=scan")],
    [ThreadStarted (T "wss://m2m/?features=scan"); TerminalAdded (T "shell") (T "bash -i"); M2mAssigned].
  split; [|split]; [exists some_options, some_defaults, some_host; do 2 eexists; (split; [vm_compute; reflexivity|]);
    eexists; split; [reflexivity|discriminate]..|]. vm_compute. auto.
Qed.
Print Assumptions C95_early_instruction_refuted.
(** At any moment an instruction whose part is there is carried out as ever, the others do
    nothing at all. *)
Theorem C95_its_part_is_there_partial : forall l data, startup l -> (opens_terminal data -> exists n c, In (TerminalAdded n c) l) ->
  (opens_forward data -> In ForwardAssigned l) -> packet_at l (VDict data) = on_instruction_packet (VDict data) default_manager.
Proof. exact at_served. Qed.
Print Assumptions C95_its_part_is_there_partial.
Theorem C95_dropped_partial : forall l data, startup l ->
  (opens_terminal data /\ (forall n c, ~ In (TerminalAdded n c) l)) \/ (opens_forward data /\ ~ In ForwardAssigned l) ->
  packet_at l (VDict data) = Ok [].
Proof. exact at_unserved. Qed.
Print Assumptions C95_dropped_partial.
Theorem C95_once_started_partial : forall l data, finished l -> packet_at l (VDict data) = on_instruction_packet (VDict data) default_manager.
Proof. exact at_end. Qed.
Print Assumptions C95_once_started_partial.
Example C95_case : exists l, startup l /\ ~ In ForwardAssigned l /\ opens_terminal ask_terminal /\ ~ opens_forward ask_terminal /\
  packet_at l (VDict ask_terminal) = Ok [LaunchTerminal (T "shell") (VInt 7) None] /\ finished (l ++ [ForwardAssigned]).
Proof.
  exists [ThreadStarted (T "wss://m2m/?features=scan"); TerminalAdded (T "shell") (T "bash -i"); M2mAssigned].
  split; [exists some_options, some_defaults, some_host; do 2 eexists; (split; [vm_compute; reflexivity|]); eexists; split; [reflexivity|discriminate]|].
  split; [intros [H|[H|[H|[]]]]; discriminate|].
  assert (N : named ask_terminal "action" (VText (T "open-terminal"))).
  { exists [], (B "action"), (VBytes (B "open-terminal")). eexists. split; [reflexivity|]. split; [reflexivity|]. split; [|reflexivity].
    intros k r [H|[H|[]]]; injection H as <- <-; vm_compute; discriminate. }
  assert (K : Spec_Manager.byte_keys ask_terminal) by (intros k v [H|[H|[H|[]]]]; injection H as <- <-; eauto).
  split; [exact N|]. split; [|split; [vm_compute; reflexivity|exists some_options, some_defaults, some_host; eexists; vm_compute; reflexivity]].
  intros [H|H]; pose proof (Proof_Manager.named_fun _ _ _ _ K N H) as X; vm_compute in X; discriminate.
Qed.
