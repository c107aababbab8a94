(** * Properties C130, C131: the data the client keeps (dataplicity/m2m/wsclient.py) *)
From Verif Require Import Py Model_Bencode Spec_Bencode Model_Packets Spec_Packets Model_Client Spec_Client Spec_Queue Proof_Queue.

(** C130. Every byte queued in a channel object and every byte read from one is accounted
    for: what waits in all objects ever made, plus what was read, is what was queued. *)
Theorem C130_conserved : forall env error_text l u st, run env error_text l (init_state u) = Some st ->
  queued st + list_sum (map taken (history st)) = list_sum (map put_in (history st)).
Proof. exact c130_conserved. Qed.
Print Assumptions C130_conserved.
(** What waits is never more than what was routed to channels, and that never more than
    the messages received. *)
Theorem C130_no_more_than_received : forall env error_text l u st, run env error_text l (init_state u) = Some st ->
  queued st <= total payload l /\ total payload l <= total message_size l.
Proof. exact c130. Qed.
Print Assumptions C130_no_more_than_received.
(** There are never more channel objects than messages received and explicit openings,
    when the callees themselves open no channel. *)
Theorem C130_objects : forall env error_text l u st, never_opens env -> run env error_text l (init_state u) = Some st ->
  length (st_heap st) <= total can_open l.
Proof. exact c130_objects. Qed.
Print Assumptions C130_objects.
Example C130_case : never_opens listener /\ exists st,
  run listener nothing [InEvent (EvBinary (B "li6ei5e5:helloe")); InOp (OpRead 0 2); InEvent (EvBinary (B "li6ei7e1:!e"))] (init_state None) = Some st
  /\ queued st = 4 /\ list_sum (map taken (history st)) = 2 /\ length (st_heap st) = 2.
Proof. split; [intros tr e n s []|]. eexists. split; [vm_compute; reflexivity|]. repeat split. Qed.

(** C131 is false: for every number of bytes there is a session of messages, a drop of the
    connection and a new connection after which closed channels still hold as many. *)
Theorem C131_released_after_drop_refuted : forall n, exists st,
  run listener nothing (repeat knock (S n) ++ [InEvent EvDisconnected; InEvent EvReady]) (init_state None) = Some st /\
  held st = S n /\ (forall o c, chan_of st o = Some c -> ch_closed c = true).
Proof. exact c131. Qed.
Print Assumptions C131_released_after_drop_refuted.
(** What is true: a registered channel stays registered, whatever happens, until a message
    announces its closing. *)
Theorem C131_registered_until_closed_partial : forall env error_text n o l st st', run env error_text l st = Some st' ->
  not_closed_by n l -> registered st n = Some o -> registered st' n = Some o.
Proof. exact c131_stays. Qed.
Print Assumptions C131_registered_until_closed_partial.
Example C131_case : not_closed_by 5 [knock; InEvent EvDisconnected] /\ exists st,
  run listener nothing [knock] (init_state None) = Some st /\ registered st 5 = Some 0.
Proof.
  split; [|eexists; split; [vm_compute; reflexivity|reflexivity]].
  intros m rest [[= <-]|[[=]|[]]] A. inversion A as [t body D _|x r D _]; vm_compute in D; discriminate.
Qed.
