(** * C93: data that arrives around the start of a service
      (wsclient.py:85-99, the callbacks of echoservice.py, portforward.py, remoteprocess.py) *)
From Verif Require Import Py Model_Bencode Model_Packets Model_Client Spec_Client Spec_Early Proof_Early.

Definition silent_env : list effect -> effect -> list (op * bool) * option exn := fun _ _ => ([], None).
Definition quiet_session (l : list input) : option state := run silent_env (fun _ => []) l (init_state None).
Definition wire (s : string) : input := InEvent (EvBinary (B s)).

(** C93 as stated is false: what was routed to the channel before the service installed its
    callback stays in the buffer, and later data overtakes it. *)
Theorem C93_early_data_refuted : exists st c, quiet_session [wire "li14ei5ee"; wire "li6ei5e2:hie"; InOp (OpSetCbs 0 (Some 3) (Some 4) None); wire "li6ei5e2:yoe"] = Some st /\
  served_by st 5 0 3 /\ handed 0 (history st) = [(None, B "hi"); (Some 3, B "yo")] /\ chan_of st 0 = Some c /\ ch_deque c = [B "hi"].
Proof.
  eexists. eexists. split; [vm_compute; reflexivity|]. split; [split; [reflexivity|eexists; split; [reflexivity|split; reflexivity]]|].
  split; [reflexivity|]. split; reflexivity.
Qed.
Print Assumptions C93_early_data_refuted.
(** From the installation on, exactly the data routed to the channel goes to the callback, in
    order and nowhere else (the buffer only shrinks, by reads), as long as connection, channel and callbacks stay. *)
Theorem C93_from_then_on_partial : forall env error_text n o k, nobody_replaces env o -> forall l0 u st l st',
  run env error_text l0 (init_state u) = Some st -> served_by st n o k -> undisturbed n o l -> run env error_text l st = Some st' ->
  (exists new, adds st st' new /\ handed o new = map (fun d => (Some k, d)) (routed n l)) /\ served_by st' n o k /\
  exists taken, buffered st o = taken ++ buffered st' o.
Proof. exact from_then_on. Qed.
Print Assumptions C93_from_then_on_partial.
(** Installing callbacks sets these three and changes nothing else, in particular not the buffer. *)
Theorem C93_installing_partial : forall env error_text o d x t c st st' r, chan_of st o = Some c ->
  step env error_text (InOp (OpSetCbs o d x t)) st = (st', r) ->
  exists c', chan_of st' o = Some c' /\ ch_deque c' = ch_deque c /\ ch_data_cb c' = d /\ ch_close_cb c' = x /\ ch_ctl_cb c' = t /\
    ch_no c' = ch_no c /\ ch_closed c' = ch_closed c /\ history st' = history st.
Proof. exact c93_install. Qed.
Print Assumptions C93_installing_partial.
Example C93_case : exists st st', nobody_replaces silent_env 0 /\
  quiet_session [wire "li14ei5ee"; InOp (OpSetCbs 0 (Some 3) None None)] = Some st /\ served_by st 5 0 3 /\
  undisturbed 5 0 [wire "li6ei5e2:hie"; wire "li6ei7e1:xe"; wire "li6ei5e2:yoe"] /\
  run silent_env (fun _ => []) [wire "li6ei5e2:hie"; wire "li6ei7e1:xe"; wire "li6ei5e2:yoe"] st = Some st' /\
  handed 0 (history st') = [(Some 3, B "hi"); (Some 3, B "yo")].
Proof.
  eexists. eexists. split; [intros tr e; constructor|]. split; [vm_compute; reflexivity|].
  split; [split; [reflexivity|eexists; split; [reflexivity|split; reflexivity]]|]. split; [|split; [vm_compute; reflexivity|reflexivity]].
  split; [|split].
  - intros [H|[H|[H|[]]]]; discriminate H.
  - intros m H (rest & Ha). inversion Ha as [t b Hd _|y s Hd _]; subst; clear Ha; destruct H as [H|[H|[H|[]]]]; injection H as <-; vm_compute in Hd; discriminate Hd.
  - intros p [H|[H|[H|[]]]]; discriminate H.
Qed.
