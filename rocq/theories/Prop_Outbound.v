(** * Properties C108, C109: what the peer of a channel hears (dataplicity/m2m/wsclient.py) *)
From Verif Require Import Py Model_Bencode Spec_Bencode Model_Packets Model_Client Spec_Client Model_Services Spec_Services
  Spec_Outbound Proof_Outbound Proof_Outbound2.

(** ** C108 *)
(** While a channel is open the messages for its number are exactly what is said through it,
    in order, whatever else the client does and receives in the meantime. *)
Theorem C108_heard_is_what_is_said : forall env error_text l st st' o c, leave_alone env o -> reached st -> chan_of st o = Some c ->
  Forall (fun i => match i with InOp p => by_channels_only p /\ speakable o p | _ => True end) l ->
  run env error_text l st = Some st' -> ~ object_closed st' o ->
  exists new, adds st st' new /\ heard (ch_no c) new = spoken o l.
Proof. exact c108. Qed.
Print Assumptions C108_heard_is_what_is_said.

(** Channel 7 is object 0, channel 8 object 1.  The data callback of channel 8 answers on
    channel 8, and what is sent for the answer raises. *)
Definition chatty : list effect -> effect -> list (op * bool) * option exn := fun _ e =>
  match e with
  | DataCb _ _ d => ([(OpWrite 1 d, false); (OpOpen 9%Z, false)], None)
  | Sent _ => ([], Some EWebSocket)
  | _ => ([], None)
  end.
Definition opening : list input := [InOp (OpOpen 7%Z); InOp (OpOpen 8%Z); InOp (OpSetCbs 1 (Some 4) None None)].
Definition start_of (l : list input) : state := match run chatty (fun _ => []) l (init_state None) with Some s => s | None => init_state None end.
Definition conversation : list input :=
  [InOp (OpWrite 0 (B "one")); InEvent (EvBinary (B "li6ei8e4:echoe")); InOp (OpWrite 1 (B "other"));
   InOp (OpControl 0 (T "{}")); InEvent (EvBinary (B "li7e1:xe")); InOp (OpWrite 0 []); InEvent (EvBinary (B "li19ei8ee"));
   InOp (OpOpen 8%Z); InOp (OpSend "request_open" [] [("port"%string, VInt 7)]); InOp (OpClose 0)].
Example C108_case : leave_alone chatty 0 /\ reached (start_of opening) /\ chan_of (start_of opening) 0 = Some (new_chan 7) /\
  Forall (fun i => match i with InOp p => by_channels_only p /\ speakable 0 p | _ => True end) conversation /\
  (exists st', run chatty (fun _ => []) conversation (start_of opening) = Some st' /\ ~ object_closed st' 0 /\ object_closed st' 1 /\
     heard 8 (history st') = [SData (B "echo"); SData (B "other")]) /\
  spoken 0 conversation = [SData (B "one"); SControl (B "{}"); SData []; SClose].
Proof.
  split; [|split; [|split; [|split; [|split]]]].
  - intros tr e p s. destruct e; cbn; try tauto. intros [[= <- _]|[[= <- _]|[]]]; cbn; auto.
  - exists chatty, (fun _ => []), None, opening. vm_compute. reflexivity.
  - vm_compute. reflexivity.
  - repeat (constructor; [try exact I; try (split; [try exact I; cbn; intuition discriminate|unfold speakable; cbn; repeat constructor])|]). constructor.
  - eexists. split; [vm_compute; reflexivity|]. split; [|split].
    + intros (c & Hc & Hcl). vm_compute in Hc. injection Hc as <-. discriminate.
    + eexists. split; [vm_compute; reflexivity|reflexivity].
    + vm_compute. reflexivity.
  - vm_compute. reflexivity.
Qed.

(** ** C109 *)
(** While the file service runs, and whatever fails, the data heard on the number of its
    channel are a prefix of the file. *)
Theorem C109_prefix_of_the_file : forall env error_text l st st' o c json w chunk path content fs r, leave_alone env o -> reached st -> chan_of st o = Some c ->
  Forall (fun i => match i with InOp p => by_channels_only p | _ => True end) l -> run env error_text l st = Some st' -> ~ object_closed st' o -> sound_json json ->
  0 < chunk -> (Z.of_nat chunk < 2 ^ 63)%Z -> file_run w chunk path content sinit = (fs, r) -> prefix (ops_on o l) (flat_map (op_of json o) (sent fs)) ->
  exists new, adds st st' new /\ prefix (concat (data_of (heard (ch_no c) new))) content.
Proof. exact c109_prefix. Qed.
Print Assumptions C109_prefix_of_the_file.
(** When it has ended without finding its channel closed, the whole file was heard and then
    the close, or a part of it, one error and the close. *)
Theorem C109_whole_file_or_error : forall env error_text l st st' o c json w chunk path content fs r, leave_alone env o -> reached st -> chan_of st o = Some c ->
  Forall (fun i => match i with InOp p => by_channels_only p | _ => True end) l -> run env error_text l st = Some st' -> ~ object_closed st' o -> sound_json json ->
  0 < chunk -> (Z.of_nat chunk < 2 ^ 63)%Z -> polite w -> sane_os w -> file_run w chunk (VText path) content sinit = (fs, r) -> s_closed fs = false ->
  ops_on o l = flat_map (op_of json o) (sent fs) ->
  exists new ds, adds st st' new /\
    (heard (ch_no c) new = map SData ds ++ [SClose] /\ concat ds = content \/
     prefix (concat ds) content /\ exists status msg b, utf8_encode (json (OControl "remote-file" "error" status msg)) = Some b /\
       heard (ch_no c) new = map SData ds ++ [SControl b; SClose]).
Proof. exact c109_whole. Qed.
Print Assumptions C109_whole_file_or_error.
(** The same for the output of a command. *)
Theorem C109_prefix_of_the_output : forall env error_text l st st' o c json w chunk polls stdout rc1 rc2 fs r, leave_alone env o -> reached st -> chan_of st o = Some c ->
  Forall (fun i => match i with InOp p => by_channels_only p | _ => True end) l -> run env error_text l st = Some st' -> ~ object_closed st' o -> sound_json json ->
  0 < chunk -> (Z.of_nat chunk < 2 ^ 63)%Z -> command_run w chunk polls stdout rc1 rc2 sinit = (fs, r) -> prefix (ops_on o l) (flat_map (op_of json o) (sent fs)) ->
  exists new, adds st st' new /\ prefix (concat (data_of (heard (ch_no c) new))) stdout.
Proof. exact c109_command. Qed.
Print Assumptions C109_prefix_of_the_output.

Definition smooth : nat -> ans := fun _ => Ans false None None.
Definition sending : list input :=
  [InOp (OpWrite 0 (B "abc")); InOp (OpWrite 1 (B "zz")); InOp (OpWrite 0 (B "def")); InEvent (EvBinary (B "li6ei7e1:xe"));
   InOp (OpWrite 0 (B "g")); InOp (OpClose 0)].
Example C109_case : sound_json (fun _ => T "{}") /\ polite smooth /\ sane_os smooth /\
  (exists fs, file_run smooth 3 (VText (T "etc/x")) (B "abcdefg") sinit = (fs, Ok tt) /\ s_closed fs = false /\
     ops_on 0 sending = flat_map (op_of (fun _ => T "{}") 0) (sent fs)) /\
  exists st', run chatty (fun _ => []) sending (start_of opening) = Some st' /\ ~ object_closed st' 0 /\
    heard 7 (history st') = [SData (B "abc"); SData (B "def"); SData (B "g"); SClose].
Proof.
  split; [|split; [|split; [|split]]].
  - intros m. exists (B "{}"). split; [reflexivity|]. unfold short. cbn. lia.
  - intros n. auto.
  - intros n. discriminate.
  - eexists. split; [vm_compute; reflexivity|]. split; vm_compute; reflexivity.
  - eexists. split; [vm_compute; reflexivity|]. split; [|vm_compute; reflexivity].
    intros (c & Hc & Hcl). vm_compute in Hc. injection Hc as <-. discriminate.
Qed.
