(** * Properties C27-C29: the limiter (dataplicity/limiter.py) *)
From Verif Require Import Py Model_Limiter Spec_Limiter Proof_Limiter.
Open Scope Z_scope.

(** A busy hour with room for one service: thread 0 launches a file service (thread 2),
    thread 1 is refused a terminal; the service ends; thread 3 fails to start a command. *)
Definition steps (t n : nat) : list action := repeat (Step t false) n.
Definition busy_hour : list action :=
  [Request KFile; Request KTerminal] ++ steps 0 3 ++ steps 0 6 ++ steps 1 5 ++ steps 2 6
  ++ [Request KCommand] ++ steps 3 7 ++ [Step 3 true] ++ steps 3 8.

(** C27. In every state reachable under any schedule the counter is within bounds and
    equals the launches in progress plus the running services; no assignment is lost; no
    decrement fails. *)
Theorem C27_limiter_exact : forall limit l st, 0 < limit -> run limit l linit = Some st ->
  0 <= l_value st <= limit /\ l_value st = count launching st + count serving st /\
  chained (l_log st) (l_value st) /\ (forall t, ~ In (Underflow t) (l_log st)).
Proof. exact (fun limit l st H => c27 limit H l st). Qed.
Print Assumptions C27_limiter_exact.
(** The lock is always given back: while any thread has work left, some thread can run. *)
Theorem C27_no_deadlock : forall limit l st, 0 < limit -> run limit l linit = Some st ->
  (exists p, In p (l_threads st) /\ p <> Done) -> exists t, forall fails, tstep limit t fails st <> None.
Proof. exact (fun limit l st H => no_deadlock limit H l st). Qed.
Print Assumptions C27_no_deadlock.
Example C27_case : exists st, run 2 ([Request KFile; Request KForward] ++ steps 0 8 ++ [Step 1 false] ++ steps 2 1) linit = None /\
  run 2 ([Request KFile; Request KForward] ++ steps 0 9 ++ steps 1 8 ++ steps 2 1) linit = Some st /\
  l_value st = 2 /\ count launching st = 0 /\ count serving st = 2 /\ l_lock st = Some (1%nat, 1%nat).
Proof. eexists. split; [vm_compute; reflexivity|]. split; [vm_compute; reflexivity|]. repeat split. Qed.

(** C28. With no launch in progress and no service running the counter is zero. *)
Theorem C28_no_slot_leaks : forall limit l st, 0 < limit -> run limit l linit = Some st ->
  (forall p, In p (l_threads st) -> launching p = false /\ serving p = false) -> l_value st = 0.
Proof. exact (fun limit l st H => c28 limit H l st). Qed.
Print Assumptions C28_no_slot_leaks.
Theorem C28_quiet_system_is_empty : forall limit l st, 0 < limit -> run limit l linit = Some st ->
  Forall (fun p => p = Done) (l_threads st) -> l_value st = 0.
Proof. exact (fun limit l st H => c28_done limit H l st). Qed.
Print Assumptions C28_quiet_system_is_empty.
Example C28_case : exists st, run 1 busy_hour linit = Some st /\ Forall (fun p => p = Done) (l_threads st) /\
  length (l_threads st) = 4%nat /\ In (Began 0 2) (l_log st) /\ In (HungUp 1) (l_log st) /\ In (HungUp 3) (l_log st).
Proof. eexists. split; [vm_compute; reflexivity|]. split; [repeat constructor|]. split; [reflexivity|]. cbn. tauto. Qed.

(** C29. A launch function that returned without starting a service left the counter as it
    was, told the peer once and then asked for the channel to be closed, and did nothing
    else (unless the websocket raised an exception that is not a WebSocketError). *)
Theorem C29_refused_cleanly : forall limit l st t k, 0 < limit -> run limit l linit = Some st ->
  In (Asked t k) (l_log st) -> nth_error (l_threads st) t = Some Done -> ~ began t st ->
  net (deeds t st) = 0 /\
  (~ In (SendRaised t) (l_log st) -> visible (deeds t st) = [Asked t k; Told t (refusal k); HungUp t]).
Proof. exact (fun limit l st t k H => c29 limit H l st t k). Qed.
Print Assumptions C29_refused_cleanly.
Theorem C29_refusal_message : forall k, informs k (refusal k).
Proof. exact refusal_informs. Qed.
Print Assumptions C29_refusal_message.
(** A full limiter refuses, and does not touch the counter. *)
Theorem C29_full_limiter_refuses : forall limit st t k st' fails, nth_error (l_threads st) t = Some (IncTest k) ->
  limit <= l_value st -> tstep limit t fails st = Some st' ->
  l_value st' = l_value st /\ nth_error (l_threads st') t = Some (IncRefused k).
Proof. exact c29_full. Qed.
Print Assumptions C29_full_limiter_refuses.
(** A launch function that did start a service was counted once and said nothing. *)
Theorem C29_started_is_silent : forall limit l st t, 0 < limit -> run limit l linit = Some st ->
  nth_error (l_threads st) t = Some Done -> began t st ->
  exists k v s, deeds t st = [Asked t k; Wrote t v (v + 1); Began t s].
Proof. exact (fun limit l st t H => c29_started limit H l st t). Qed.
Print Assumptions C29_started_is_silent.
Example C29_case : exists st, run 1 busy_hour linit = Some st /\
  In (Asked 1 KTerminal) (l_log st) /\ nth_error (l_threads st) 1 = Some Done /\ ~ In (SendRaised 1) (l_log st) /\
  deeds 3 st = [Asked 3 KCommand; Wrote 3 0 1; Wrote 3 1 0; Told 3 (PControl "command" "error" "error"); HungUp 3].
Proof.
  eexists. split; [vm_compute; reflexivity|]. split; [cbn; tauto|]. split; [reflexivity|]. split; [|reflexivity].
  cbn. intros H. repeat (destruct H as [H|H]; [discriminate|]). destruct H.
Qed.
