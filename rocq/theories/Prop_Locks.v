(** * C126-C127, C136: the locks of the agent *)
From Verif Require Import Py Model_Locks Spec_Locks Proof_Locks.
From Coq Require Import Lia.

(** ** C126 The locks never deadlock *)
(** At any time every thread has ended, can go on, or waits for a lock of a thread for which the same holds. *)
Theorem C126_no_deadlock : forall st i, reachable st -> i < length (threads st) -> finished st i \/ live st i.
Proof. exact live_all. Qed.
Print Assumptions C126_no_deadlock.

(** No two threads are inside the same lock. *)
Theorem C126_exclusive : forall st i j l, reachable st -> inside st i l -> inside st j l -> i = j.
Proof. exact exclusive. Qed.
Print Assumptions C126_exclusive.

(** A lock that no thread is inside of can be had; so a thread that has ended, even by an
    exception, keeps none. *)
Theorem C126_released : forall st l, reachable st -> (forall i, ~ inside st i l) -> forall i, acquire l i st <> None.
Proof. exact released. Qed.
Print Assumptions C126_released.

(** The main thread is in a sync and the other thread, told to sync, waits for it. *)
Example C126_case : let st := run busy init in
  reachable st /\ 1 < length (threads st) /\ wants st 1 LSync /\ ~ can_go st 1 /\ inside st 0 LSync /\ can_go st 0.
Proof.
  intros st. split; [now exists busy|]. split; [vm_compute; lia|]. split; [eexists _, _; vm_compute; reflexivity|].
  split; [intros N; apply N; vm_compute; reflexivity|]. split; [eexists; split; [vm_compute; reflexivity|cbn; auto 10]|].
  vm_compute. discriminate.
Qed.
(** The sync raises: the lock is free again. *)
Example C126_raises : let st := run (busy ++ [(0, 0); (0, 1); (0, 0); (0, 0); (0, 0); (0, 0)]) init in
  reachable st /\ (forall i, ~ inside st i LSync) /\ can_go st 1.
Proof.
  intros st. split; [eexists; reflexivity|]. split; [|vm_compute; discriminate].
  intros i (t & E & H). do 3 (destruct i as [|i]; [vm_compute in E; injection E as <-; cbn in H; intuition discriminate|]).
  vm_compute in E. now destruct i.
Qed.

(** ** C127 No thread keeps a lock for ever by itself *)
(** A thread that does not stay for ever at one place is, again and again, inside no lock; a scan, a sync, a flush or a send
    inside a lock may take any number of steps. *)
Theorem C127_leaves : forall who choice st i, execution who choice st -> goes_on st i ->
  again_and_again (fun n => forall l, ~ inside (st n) i l).
Proof. exact leaves. Qed.
Print Assumptions C127_leaves.

(** The main thread syncs for ever. *)
Example C127_case : execution (fun _ => 0) (fun n => if n mod 11 =? 0 then 1 else 0) syncs /\ goes_on syncs 0 /\ again_and_again (fun n => inside (syncs n) 0 LSync).
Proof. destruct syncs_for_ever as [E A]. exact (conj E (conj syncs_go_on A)). Qed.

(** ** C136 A sync that waits for the server stops no other thread *)
(** Any thread that has not ended and does not want to sync itself can go on, or waits for threads that can, none of them
    the one that syncs. *)
Theorem C136_others_partial : forall st k i, reachable st -> inside st k LSync -> i <> k -> i < length (threads st) ->
  finished st i \/ wants st i LSync \/ live_without k st i.
Proof. exact others. Qed.
Print Assumptions C136_others_partial.

(** Who syncs has no other lock. *)
Theorem C136_alone_partial : forall st k l, reachable st -> inside st k LSync -> inside st k l -> l = LSync.
Proof. exact alone. Qed.
Print Assumptions C136_alone_partial.

(** The thread that handles all packets (thread 1) can be told to sync.  If it is told so during a sync of the main
    thread (0) that the server never answers, it makes no step any more. *)
Theorem C136_packets_refuted : exists st0, (exists p r, nth_error (threads st0) 1 = Some (Th false (FDo (With LSync p) :: r))) /\
  (forall n, execution (fun _ => 0) (fun _ => 2) (fun _ => st0) /\ step n 1 st0 = None) /\
  forall who choice st, execution who choice st -> st 0 = st0 -> (forall n, who n = 0 -> 2 <= choice n) ->
    forall n, who n <> 1 /\ inside (st n) 0 LSync /\ wants (st n) 1 LSync.
Proof. exact packets_stop. Qed.
Print Assumptions C136_packets_refuted.

(** The clock thread can go on while the main thread syncs. *)
Example C136_case : let st := run busy init in
  reachable st /\ inside st 0 LSync /\ 2 < length (threads st) /\ live_without 0 st 2 /\ wants st 1 LSync.
Proof.
  intros st. split; [now exists busy|]. split; [eexists; split; [vm_compute; reflexivity|cbn; auto 10]|]. split; [vm_compute; lia|].
  split; [apply Goes_without; [discriminate|vm_compute; discriminate]|eexists _, _; vm_compute; reflexivity].
Qed.
