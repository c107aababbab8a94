(** * Property C143: services that have ended and their channels
      (dataplicity/m2m/commandservice.py:55-127, dataplicity/m2m/fileservice.py:65-102) *)
From Verif Require Import Py Model_Services Spec_Services Spec_Ending Proof_Ending.

(** C143 as stated is false.  If the process of a command cannot be started the service tells
    so and ends, and the channel stays open; *)
Theorem C143_not_started_refuted : forall w chunk polls stdout rc1 rc2 e, a_os (w 0) = Some e -> undisturbed w 2 ->
  exists st, command_run w chunk polls stdout rc1 rc2 sinit = (st, Ok (Some tt)) /\ ~ let_go st /\
    sent st = [OControl "command" "error" "error" "error running command"].
Proof. exact not_started. Qed.
Print Assumptions C143_not_started_refuted.
(** likewise for a file whose path is not a text. *)
Theorem C143_no_text_refuted : forall w chunk path content, (forall t, path <> VText t) -> undisturbed w 1 ->
  exists st, file_run w chunk path content sinit = (st, Ok tt) /\ ~ let_go st /\
    sent st = [OControl "remote-file" "error" "error" "internal error, see agent logs"].
Proof. exact no_text. Qed.
Print Assumptions C143_no_text_refuted.
(** Otherwise they let go of it, whatever the operating system does and whenever the channel
    is closed by the other side. *)
Theorem C143_command_partial : forall w chunk polls stdout rc1 rc2 st, 0 < chunk -> polite w -> os_errors w -> a_os (w 0) = None ->
  command_run w chunk polls stdout rc1 rc2 sinit = (st, Ok (Some tt)) -> let_go st.
Proof. exact command_lets_go. Qed.
Print Assumptions C143_command_partial.
Theorem C143_file_partial : forall w chunk t content st r, 0 < chunk -> polite w -> sane_os w ->
  file_run w chunk (VText t) content sinit = (st, r) -> let_go st.
Proof. exact file_lets_go. Qed.
Print Assumptions C143_file_partial.
(** No process can be started; reading fails after the first piece. *)
Definition no_process : nat -> ans := fun _ => Ans false (Some EOS) None.
Definition fails_later : nat -> ans := fun n => Ans false (if n =? 4 then Some EOS else None) None.
Example C143_case :
  a_os (no_process 0) = Some EOS /\ undisturbed no_process 2 /\ (forall t, VInt 3 <> VText t) /\
  polite fails_later /\ os_errors fails_later /\ sane_os fails_later /\ a_os (fails_later 0) = None /\
  (let (st, r) := command_run fails_later 4 [PollEvents [(true, 1%Z, 2)]; PollEvents [(true, 1%Z, 2)]] (B "abcdef") None None sinit in
   r = Ok (Some tt) /\ sent st = [OData (B "abc"); OControl "command" "error" "error" "error running command"; OComplete None; OClose; OKill]) /\
  sent (fst (file_run fails_later 3 (VText (T "x")) (B "abcdefg") sinit)) =
    [OData (B "abc"); OControl "remote-file" "error" "ioerror" "unable to open file"; OClose].
Proof.
  split; [reflexivity|]. split; [intros k _; split; reflexivity|]. split; [discriminate|].
  split; [intros n; left; reflexivity|]. split; [intros n; cbn; destruct (n =? 4); auto|]. split; [intros n; cbn; destruct (n =? 4); discriminate|].
  split; [reflexivity|]. split; [|vm_compute; reflexivity]. vm_compute. split; reflexivity.
Qed.
