(** * C123-C125: how the agent ends *)
From Verif Require Import Py Model_Shutdown Spec_Shutdown Proof_Shutdown.

(** ** C123 An interrupt ends the agent *)
(** Wherever the user interrupts it, except while it gathers the metadata, the agent does nothing but
    clean up and ends: with status 0, or with the interrupt itself if that came while it was
    starting or cleaning up. Missing: the two refutations below. *)
Theorem C123_interrupt_ends_partial : forall env exits fuel tr o p after, agent env exits fuel [] = (tr, o) ->
  interrupted tr p after -> p <> PMeta -> no_failure after ->
  Forall (fun e => cleanup (fst e)) after /\ (o = Int \/ o = Val 0%Z).
Proof. exact good_agent. Qed.
Print Assumptions C123_interrupt_ends_partial.

(** In a poll or between polls, undisturbed, it does clean up and the status is 0. *)
Theorem C123_cleans_up_partial : forall env exits fuel tr o p after, agent env exits fuel [] = (tr, o) ->
  interrupted tr p after -> p <> PMeta -> while_polling p -> undisturbed after ->
  o = Val 0%Z /\ exists rest, map fst after = [PBye; PJoin; PStop; PUserExit] ++ rest.
Proof. exact agent_cleans. Qed.
Print Assumptions C123_cleans_up_partial.

(** An interrupt while the metadata is gathered is swallowed by the bare except of _sync_meta: the
    agent finishes the sync and polls for ever. *)
Theorem C123_swallowed_refuted : exists env, forall fuel, exists after before,
  agent env (fun _ => false) fuel [] = (after ++ (PMeta, Interrupt) :: before, Endless) /\ no_failure after /\ polls after = fuel.
Proof. exact (ex_intro _ meta_env meta_swallowed). Qed.
Print Assumptions C123_swallowed_refuted.

(** If the connection cannot be closed after an interrupt, that error takes the place of the
    interrupt and is logged: the agent polls for ever. *)
Theorem C123_replaced_refuted : exists env, forall fuel, exists after before,
  agent env (fun _ => false) fuel [] = (after ++ (PClose, Fails) :: (PRead, Interrupt) :: before, Endless) /\ no_failure after /\ polls after = fuel.
Proof. exact (ex_intro _ close_env close_replaces). Qed.
Print Assumptions C123_replaced_refuted.

(** An interrupt while a reply is read in the second poll: the connection is closed, the sync
    thread is told to stop and the agent ends with status 0. *)
Example C123_case : exists tr after, agent (fun n => if n =? 16 then Interrupt else if n =? 11 then Goes true else Goes false) (fun _ => false) 5 [] = (tr, Val 0%Z) /\
  interrupted tr PRead after /\ undisturbed after /\ map fst (rev after) = [PClose; PUserExit; PStop; PJoin; PBye].
Proof.
  set (env := fun n : nat => if n =? 16 then _ else _). exists (fst (agent env (fun _ => false) 5 [])), (firstn 5 (fst (agent env (fun _ => false) 5 []))).
  split; [vm_compute; reflexivity|]. split; [|split].
  - exists (skipn 6 (fst (agent env (fun _ => false) 5 []))). vm_compute. reflexivity.
  - vm_compute. repeat (constructor; [eexists; reflexivity|]). constructor.
  - vm_compute. reflexivity.
Qed.

(** ** C124 exit() ends the agent after the poll it is in *)
Theorem C124_exit_ends : forall env exits t fuel tr o, exit_from t exits -> agent env exits fuel [] = (tr, o) ->
  (forall n, polls_again tr n -> n <= t) /\ (t < fuel -> ended o).
Proof. exact exit_ends. Qed.
Print Assumptions C124_exit_ends.

(** exit() during the second poll (statements 10-16): the agent polls no third time. *)
Example C124_case : exit_from 12 (fun n => 12 <=? n) /\
  exists tr, agent (fun _ => Goes false) (fun n => 12 <=? n) 13 [] = (tr, Val 0%Z) /\ polls_again tr 10 /\ polls tr = 2.
Proof.
  split; [intros n H; now apply Nat.leb_le|]. set (tr := fst (agent (fun _ => Goes false) (fun n => 12 <=? n) 13 [])).
  exists tr. split; [vm_compute; reflexivity|]. split; [|vm_compute; reflexivity].
  exists (firstn 10 tr), (Goes false), (skipn 11 tr). split; [vm_compute; reflexivity|]. split; [vm_compute; reflexivity|]. vm_compute. discriminate.
Qed.

(** ** C125 No thread but the main one keeps the agent's process alive *)
Theorem C125_only_main : forall evs t, kept_by (trun evs) t -> t_kind t = Main.
Proof. exact only_main. Qed.
Print Assumptions C125_only_main.
Theorem C125_process_ends : forall evs, process_over (trun evs) = true <-> ~ main_alive (trun evs).
Proof. exact over_main. Qed.
Print Assumptions C125_process_ends.

(** The m2m thread starts a terminal, which starts its wait thread; the main thread ends. *)
Example C125_case : let l := trun [Starts 0 M2M; Starts 0 Clock; Starts 1 Terminal; Starts 3 PidWait; Ends 0] in
  map t_alive l = [false; true; true; true; true] /\ process_over l = true.
Proof. split; reflexivity. Qed.
