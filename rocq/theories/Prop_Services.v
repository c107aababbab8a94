(** * Properties C30, C31: the file and command services
      (dataplicity/m2m/fileservice.py, dataplicity/m2m/commandservice.py) *)
From Verif Require Import Py Model_Services Spec_Services Proof_Services Proof_Services2 Proof_Services3.

(** C30. Whatever fails and whenever the channel closes, the messages written are a prefix
    of the file, non-empty and at most a chunk long, and the service ends. *)
Theorem C30_prefix_in_chunks : forall w chunk path content st r, 0 < chunk ->
  file_run w chunk path content sinit = (st, r) ->
  r <> Hang /\ Forall (fun d => d <> [] /\ length d <= chunk) (messages (sent st)) /\
  prefix (concat (messages (sent st))) content.
Proof. exact file_run_spec. Qed.
Print Assumptions C30_prefix_in_chunks.
(** If the channel stays open, either the whole file was written or one error control
    follows what was written; then the channel is closed, and that is all. *)
Theorem C30_whole_file_or_one_error : forall w chunk path content st r, 0 < chunk -> polite w -> sane_os w ->
  file_run w chunk (VText path) content sinit = (st, r) ->
  exists ds tail, sent st = map OData ds ++ tail /\
    (s_closed st = false -> tail = [OClose] /\ concat ds = content \/
       exists status msg, tail = [OControl "remote-file" "error" status msg; OClose]) /\
    (s_closed st = true -> tail = [] \/ exists status msg, tail = [OControl "remote-file" "error" status msg]).
Proof. exact file_run_polite. Qed.
Print Assumptions C30_whole_file_or_one_error.
(** A path that is not text (an instruction can carry any value) is reported, but the
    channel is left open. *)
Theorem C30_other_path_leaves_channel_open : forall w chunk z content, calm w ->
  exists st r, file_run w chunk (VInt z) content sinit = (st, r) /\
    sent st = [OControl "remote-file" "error" "error" "internal error, see agent logs"].
Proof. exact other_path. Qed.
Print Assumptions C30_other_path_leaves_channel_open.
Definition calm_w : nat -> ans := fun _ => Ans false None None.
(** The disk fails at the fourth step. *)
Definition bad_disk : nat -> ans := fun n => Ans false (if n =? 4 then Some EOS else None) None.
Example C30_case :
  sent (fst (file_run calm_w 3 (VText (T "etc/x")) (B "abcdefg") sinit)) = [OData (B "abc"); OData (B "def"); OData (B "g"); OClose] /\
  sent (fst (file_run bad_disk 3 (VText (T "etc/x")) (B "abcdefg") sinit)) =
    [OData (B "abc"); OControl "remote-file" "error" "ioerror" "unable to open file"; OClose] /\
  polite bad_disk /\ sane_os bad_disk.
Proof. split; [reflexivity|]. split; [reflexivity|]. split; intros n; cbn; auto. destruct (n =? 4); discriminate. Qed.

(** C31 as stated is false: poll(2) reports a finished command as a hang-up only, which
    the loop ignores; it goes on for any number of polls and sends nothing. *)
Theorem C31_command_never_completes_refuted : forall w chunk rc1 rc2 n, calm w ->
  exists st, command_run w chunk (repeat command_over n) [] rc1 rc2 sinit = (st, Ok None) /\ sent st = [].
Proof. exact never_completes. Qed.
Print Assumptions C31_command_never_completes_refuted.
(** What holds: the data are a prefix of stdout in order, whatever happens. *)
Theorem C31_prefix_of_stdout_partial : forall w chunk, 0 < chunk -> forall polls stdout rc1 rc2 st r,
  command_run w chunk polls stdout rc1 rc2 sinit = (st, r) ->
  r <> Hang /\ Forall (fun d => d <> [] /\ length d <= chunk) (messages (sent st)) /\
  prefix (concat (messages (sent st))) stdout.
Proof. exact command_run_data. Qed.
Print Assumptions C31_prefix_of_stdout_partial.
(** When the loop does end: at most one error control, one complete control, the close,
    and a kill if the process still runs; a closed channel does not prevent the kill. *)
Theorem C31_ending_partial : forall w chunk, 0 < chunk -> forall polls stdout rc1 rc2 st r,
  polite w -> os_errors w -> a_os (w 0) = None -> command_run w chunk polls stdout rc1 rc2 sinit = (st, r) ->
  exists ds, (r = Ok None /\ sent st = map OData ds) \/
    (r = Ok (Some tt) /\ exists errs fin, sent st = map OData ds ++ errs ++ fin /\
       (errs = [] \/ errs = [OControl "command" "error" "error" "error running command"]) /\
       (s_closed st = false -> fin = [OComplete rc1; OClose] ++ match rc2 with None => [OKill] | Some _ => [] end) /\
       (rc2 = None -> In OKill fin)).
Proof. exact command_run_end. Qed.
Print Assumptions C31_ending_partial.
(** A closed channel ends the loop at the next poll; so does end of stream reported as
    readable. *)
Theorem C31_closed_channel_ends_loop_partial : forall w chunk l more rest st st' r, s_closed st = true ->
  command_loop w chunk (PollEvents l :: more) rest st = (st', r) -> r <> Ok None.
Proof. exact closing_ends. Qed.
Print Assumptions C31_closed_channel_ends_loop_partial.
Theorem C31_readable_end_completes_partial : forall w chunk rc1 rc2 n more, calm w ->
  exists st, command_run w chunk (PollEvents [(true, 1%Z, n)] :: more) [] rc1 rc2 sinit = (st, Ok (Some tt)) /\
    sent st = [OComplete rc1; OClose] ++ match rc2 with None => [OKill] | Some _ => [] end.
Proof. exact readable_eof_completes. Qed.
Print Assumptions C31_readable_end_completes_partial.
(** While polls report only readable descriptors, each read of stdout is forwarded, however
    many descriptors a poll reports and in whatever order. *)
Theorem C31_forwards_what_is_read_partial : forall w chunk polls stdout rc1 rc2 st r, calm w -> 0 < chunk -> Forall only_ready polls ->
  command_run w chunk polls stdout rc1 rc2 sinit = (st, r) ->
  concat (messages (sent st)) = firstn (offered chunk polls) stdout.
Proof. exact forwards. Qed.
Print Assumptions C31_forwards_what_is_read_partial.
Example C31_forwards_case : let polls := [PollEvents [(false, 1%Z, 3); (true, 1%Z, 1)]; PollEvents [(true, 1%Z, 90)]] in
  Forall only_ready polls /\ offered 4 polls = 6 /\
  messages (sent (fst (command_run calm_w 4 polls (B "hello, world") None None sinit))) = [B "he"; B "llo,"].
Proof. split; [repeat constructor|split; reflexivity]. Qed.
(** Output in two reads, some stderr, then the channel is closed by the peer. *)
Definition peer_leaves : nat -> ans := fun n => Ans (n =? 9) None None.
Example C31_case :
  let polls := [PollEvents [(true, 1%Z, 1)]; PollEvents [(false, 1%Z, 4); (true, 17%Z, 9)]; command_over; command_over] in
  let '(st, r) := command_run peer_leaves 100 polls (B "hello") (Some 0%Z) (Some 0%Z) sinit in
  sent st = [OData (B "he"); OData (B "llo")] /\ r = Ok (Some tt) /\ s_closed st = true /\
  command_run calm_w 100 polls (B "hello") None None sinit = (SSt 10 false [OData (B "llo"); OData (B "he")], Ok None).
Proof. vm_compute. auto. Qed.
