(** * C96 and C97: syncs by several threads (client.py) *)
From Verif Require Import Py Model_Sync Spec_Sync Proof_Sync.

(** C96. Requests of syncs never overlap, none is made once the metadata were acknowledged,
    every sync before that makes one, and the lock is given back however the request ends. *)
Theorem C96_no_overlap : forall l st t t', st = srun l sinit -> under_way (s_seen st) t -> under_way (s_seen st) t' -> t = t'.
Proof. exact no_overlap. Qed.
Print Assumptions C96_no_overlap.
Theorem C96_not_after_acknowledged : forall l later t earlier, s_seen (srun l sinit) = later ++ Began t :: earlier -> ~ acknowledged earlier.
Proof. exact never_again. Qed.
Print Assumptions C96_not_after_acknowledged.
Theorem C96_until_acknowledged : forall l t st, st = srun l sinit -> place_of st t = Holding -> ~ acknowledged (s_seen st) ->
  s_seen (sstep st (Test t)) = Began t :: s_seen st.
Proof. exact tries. Qed.
Print Assumptions C96_until_acknowledged.
Theorem C96_lock_returned : forall l st t a, st = srun l sinit -> s_lock st = Some t ->
  exists l', Forall (step_or_answer t a) l' /\ length l' <= 4 /\ s_lock (srun l' st) = None /\ ~ in_sync (srun l' st) t.
Proof. exact lock_returned. Qed.
Print Assumptions C96_lock_returned.
Example C96_case : exists st, st = srun [Call 1; Call 2; Acquire 1; Acquire 2; Test 1; Reply 1 (Answered false); Record 1; Release 1;
    Acquire 2; Test 2; Reply 2 (Answered true)] sinit /\
  s_seen st = [Ended 2 (Answered true); Began 2; Over 1; Ended 1 (Answered false); Began 1] /\ s_lock st = Some 2 /\
  s_seen (srun [Record 2; Release 2; Call 1; Acquire 1; Test 1; Release 1] st) = [Over 1; Over 2; Recorded 2] ++ s_seen st.
Proof. eexists. split; [reflexivity|]. vm_compute. auto. Qed.
Example C96_way_case : let st := srun [Call 1; Call 2; Acquire 1] sinit in place_of st 1 = Holding /\ ~ acknowledged (s_seen st) /\
  under_way (s_seen (sstep st (Test 1))) 1.
Proof. split; [reflexivity|]. split; [intros [t []]|]. exists [], []. split; [reflexivity|]. intros a []. Qed.

(** C97 as stated is false: while another thread's request is unanswered, the thread that is
    told to sync waits, whatever else happens. *)
Theorem C97_waits_for_another_refuted : exists l t, let st := srun l sinit in in_sync st t /\ forall l', server_silent l' -> in_sync (srun l' st) t.
Proof. exact blocked. Qed.
Print Assumptions C97_waits_for_another_refuted.
(** It holds once the metadata were acknowledged. *)
Theorem C97_after_acknowledgement_partial : forall l st t, st = srun l sinit -> acknowledged (s_seen st) ->
  exists l', server_silent l' /\ ~ in_sync (srun l' st) t.
Proof. exact unblocked. Qed.
Print Assumptions C97_after_acknowledgement_partial.
Example C97_case : exists st, st = srun [Call 1; Acquire 1; Test 1; Call 2; Reply 1 (Answered true)] sinit /\ acknowledged (s_seen st) /\ in_sync st 2.
Proof. eexists. split; [reflexivity|]. split; [exists 1; cbn; auto|discriminate]. Qed.
