(** * C91 and C92: channels used by several threads *)
From Verif Require Import Py Model_Threads Spec_Threads Proof_Threads.

(** For the examples: a condition on each of finitely many events *)
Ltac each := unfold only_reader, blocking_reads;
  match goal with |- forall e, In e ?l -> @?P e => apply (proj1 (Forall_forall P l)) end; repeat constructor.

(** C91 as stated is false: between the test of [is_closed] and the sending the channel can be
    closed and its number given to a new channel.  Data, control data and closing alike. *)
Theorem C91_reused_number_refuted : forall r, exists l t p, let st := trun l tinit in
  t_sent (tstep st (Send t)) = p :: t_sent st /\ p_request p = r /\ stray st p.
Proof. exact race. Qed.
Print Assumptions C91_reused_number_refuted.
(** It holds for calls during which the channel's close is not notified. *)
Theorem C91_undisturbed_call_partial : forall l1 t o n r l2 st1 st2, st1 = trun l1 tinit -> ~ busy st1 t -> open_object st1 o n ->
  ~ In (Closed n) l2 -> ~ In (Send t) l2 -> st2 = trun (Ask t o r :: l2) st1 ->
  t_sent (tstep st2 (Send t)) = Pk t o n r :: t_sent st2 /\ ~ stray st2 (Pk t o n r).
Proof. exact undisturbed. Qed.
Print Assumptions C91_undisturbed_call_partial.
(** After a channel closed, a thread sends at most one more packet for it, and none unless it
    was already inside a call. *)
Theorem C91_after_the_close_partial : forall l1 l2 t o st, st = trun l1 tinit -> closed_object st o ->
  packets t o st <= packets t o (trun l2 st) <= packets t o st + 1 /\
  (~ inside st t o -> packets t o (trun l2 st) = packets t o st).
Proof. exact late. Qed.
Print Assumptions C91_after_the_close_partial.
(** Every packet has the number of the channel it was sent through. *)
Theorem C91_own_number_partial : forall l p, In p (t_sent (trun l tinit)) ->
  exists b, nth_error (t_heap (trun l tinit)) (p_object p) = Some (p_number p, b).
Proof. exact numbered. Qed.
Print Assumptions C91_own_number_partial.
Example C91_case : exists st1 st2, st1 = trun [Opened 5; Opened 7] tinit /\ ~ busy st1 3 /\ open_object st1 1 7 /\
  st2 = trun (Ask 3 1 (Data (B "x")) :: [Closed 5; Deleted; Opened 5; Dropped]) st1 /\
  t_sent (tstep st2 (Send 3)) = [Pk 3 1 7 (Data (B "x"))] /\ closed_object st2 0 /\ inside st2 3 1.
Proof.
  eexists. eexists. split; [reflexivity|]. split; [intros (o & r & [])|]. split; [reflexivity|]. split; [reflexivity|].
  split; [reflexivity|]. split; [exists 5%Z; reflexivity|]. eexists. left. reflexivity.
Qed.

(** C92 as stated is false: with two readers, or if an empty message arrives, a read that did
    not time out returns nothing. *)
Theorem C92_two_readers_refuted : exists l t, no_empty_message l /\ blocking_reads l /\ reading (brun l binit) t (Leaving []).
Proof.
  exists [Arrive (B "x"); Append; Signal; Read 1 1 true; Read 2 1 true; Wake 1; Wake 2; Enter 1; Take 1; Leave 1; Enter 2; Take 2], 2.
  split; [unfold no_empty_message; cbn; intuition discriminate|]. split; [each|vm_compute; auto].
Qed.
Print Assumptions C92_two_readers_refuted.
Theorem C92_empty_message_refuted : exists l t, only_reader t l /\ blocking_reads l /\ reading (brun l binit) t (Leaving []).
Proof.
  exists [Arrive []; Append; Signal; Read 1 1 true; Wake 1; Enter 1; Take 1], 1.
  split; [each|]. split; [each|vm_compute; auto].
Qed.
Print Assumptions C92_empty_message_refuted.
(** It holds for a single reader and messages that are not empty. *)
Theorem C92_single_reader_partial : forall t l st out, st = brun l binit -> only_reader t l -> no_empty_message l -> blocking_reads l ->
  reading st t (Leaving out) -> out <> [].
Proof. exact lone_reader. Qed.
Print Assumptions C92_single_reader_partial.
(** Whatever the threads do, nothing is lost, duplicated or reordered. *)
Theorem C92_stream_partial : forall l st, st = brun l binit -> incoming st = outgoing st ++ concat (b_deque st).
Proof. exact stream. Qed.
Print Assumptions C92_stream_partial.
(** No wake-up is lost: whenever the lock is free the event tells whether there is data, the
    lock always becomes free, and then a waiting read can be served. *)
Theorem C92_event_exact_partial : forall l st, st = brun l binit -> b_lock st = None -> (b_flag st = true <-> b_deque st <> []).
Proof. exact flag_exact. Qed.
Print Assumptions C92_event_exact_partial.
Theorem C92_lock_released_partial : forall l st, st = brun l binit -> exists l', continues l' /\ length l' <= 2 /\ b_lock (brun l' st) = None.
Proof. exact lock_given_back. Qed.
Print Assumptions C92_lock_released_partial.
Theorem C92_waiting_served_partial : forall l st t c, st = brun l binit -> b_lock st = None -> b_deque st <> [] -> reading st t (Waiting c) ->
  exists l' out, continues l' /\ Model_Client.read_loop (b_deque st) c = (out, b_deque (brun l' st)) /\
    b_returned (brun l' st) = (t, out) :: b_returned st.
Proof. exact waiting_served. Qed.
Print Assumptions C92_waiting_served_partial.
Example C92_case : exists l st, l = [Read 1 3 true; Arrive (B "ab"); Append; Signal; Arrive (B "cd"); Append; Wake 1; Signal; Enter 1; Take 1] /\
  st = brun l binit /\ only_reader 1 l /\ no_empty_message l /\ blocking_reads l /\ reading st 1 (Leaving (B "abc")) /\
  b_lock st <> None /\ outgoing st = B "abc" /\ b_deque st = [B "d"].
Proof.
  eexists. eexists. split; [reflexivity|]. split; [reflexivity|]. split; [each|].
  split; [unfold no_empty_message; cbn; intuition discriminate|]. split; [each|].
  split; [vm_compute; auto|]. split; [vm_compute; discriminate|]. split; vm_compute; reflexivity.
Qed.
Example C92_waiting_case : exists l st, l = [Read 1 3 true; Arrive (B "ab"); Append; Signal] /\ st = brun l binit /\
  b_lock st = None /\ b_deque st <> [] /\ reading st 1 (Waiting 3).
Proof. eexists. eexists. split; [reflexivity|]. split; [reflexivity|]. split; [reflexivity|]. split; [vm_compute; discriminate|vm_compute; auto]. Qed.
