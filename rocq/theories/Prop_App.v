(** * Property C78: the exit status (dataplicity/app.py) *)
From Verif Require Import Py Model_App Spec_App Proof_App.

(** ** C78 *)
(** In what follows logging can be set up: the level is known and the log file, if any, works. *)
Theorem C78_no_command_partial : forall upper file_config stderr a, known_level upper a -> log_file_works file_config a -> sub a = None ->
  main upper file_config stderr (Parsed a) = Exit 1.
Proof. exact no_command. Qed.
Print Assumptions C78_no_command_partial.
Theorem C78_success_partial : forall upper file_config stderr a c, known_level upper a -> log_file_works file_config a -> sub a = Some c ->
  (main upper file_config stderr (Parsed a) = Exit 0 <-> succeeds c).
Proof. exact success_iff. Qed.
Print Assumptions C78_success_partial.
(** Without --debug, and if stderr can be written *)
Theorem C78_failure_partial : forall upper file_config a c, known_level upper a -> log_file_works file_config a -> sub a = Some c -> debug a = false ->
  (main upper file_config None (Parsed a) = Exit (-1) <-> fails c).
Proof. exact failure_iff. Qed.
Print Assumptions C78_failure_partial.
(** The system sees -1 as 255. *)
Theorem C78_status_partial : status (Exit 0) = Some 0%Z /\ status (Exit 1) = Some 1%Z /\ status (Exit (-1)) = Some 255%Z.
Proof. repeat split. Qed.
Print Assumptions C78_status_partial.
(** An unknown level always gives a traceback of a KeyError. *)
Theorem C78_unknown_level_refuted : forall upper file_config stderr a, ~ known_level upper a ->
  main upper file_config stderr (Parsed a) = Traceback EKey /\ status (main upper file_config stderr (Parsed a)) = Some 1%Z.
Proof. exact unknown_level. Qed.
Print Assumptions C78_unknown_level_refuted.
(** With --debug a failure gives a traceback, and status 1. *)
Theorem C78_debug_refuted : forall upper file_config stderr a c, known_level upper a -> log_file_works file_config a -> sub a = Some c -> debug a = true -> fails c ->
  exists e, main upper file_config stderr (Parsed a) = Traceback e /\ status (main upper file_config stderr (Parsed a)) = Some 1%Z.
Proof. exact debug_fails. Qed.
Print Assumptions C78_debug_refuted.
(** So does a log file that cannot be used, whatever the sub-command. *)
Theorem C78_log_file_refuted : forall upper file_config stderr a path e, known_level upper a -> log_file a = Some path -> path <> [] -> file_config path = Some e ->
  main upper file_config stderr (Parsed a) = Traceback e /\ status (main upper file_config stderr (Parsed a)) = Some 1%Z.
Proof. exact log_file_fails. Qed.
Print Assumptions C78_log_file_refuted.
(** An interrupt that comes before the polls ends the agent with a third status. *)
Theorem C78_interrupted_refuted : forall upper file_config stderr a c, known_level upper a -> log_file_works file_config a -> sub a = Some c -> cut_short c ->
  status (main upper file_config stderr (Parsed a)) = Some 130%Z.
Proof. exact interrupted. Qed.
Print Assumptions C78_interrupted_refuted.
(** info, as the level of two sub-commands; an unknown level *)
Definition up (s : text) : text := map (fun c => if (97 <=? c)%N && (c <=? 122)%N then (c - 32)%N else c) s.
Definition info (c : option command) : args := Args (T "info") None false false c.
Example C78_case : known_level up (info None) /\ log_file_works (fun _ => Some EOS) (info None) /\
  succeeds (Run None [(PollOk, Timeout); (PollOk, ExitSet)]) /\ fails (Run (Some (Stop EOS)) []) /\
  main up (fun _ => None) None (Parsed (info (Some (Run None [(PollOk, Timeout); (PollOk, ExitSet)])))) = Exit 0 /\
  main up (fun _ => None) None (Parsed (info (Some (Run (Some (Stop EOS)) [])))) = Exit (-1) /\ cut_short (Run (Some StopInterrupt) []) /\
  ~ known_level up (Args (T "loud") None false false None) /\
  main up (fun _ => None) None (Parsed (Args (T "loud") None false false None)) = Traceback EKey.
Proof.
  split; [right; vm_compute; tauto|]. split; [discriminate|]. split.
  { split; [reflexivity|]. exists [(PollOk, Timeout)], PollOk, ExitSet, []. split; [reflexivity|]. split; [now constructor|]. right. right. split; [reflexivity|discriminate]. }
  split; [left; now exists EOS|]. split; [reflexivity|]. split; [reflexivity|]. split; [reflexivity|]. split; [|reflexivity].
  intros [H|H]; vm_compute in H; [discriminate|]. intuition discriminate.
Qed.
