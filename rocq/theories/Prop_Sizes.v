(** * Property C140: the size of what services send
      (dataplicity/constants.py:39, dataplicity/portforward.py, dataplicity/m2m/proxy.py,
      dataplicity/m2m/fileservice.py, dataplicity/m2m/commandservice.py, dataplicity/m2m/wsclient.py) *)
From Verif Require Import Py Model_Bencode Model_Process Model_Forward Model_Client Spec_Client Model_Services Spec_Services Model_Relay Spec_Outbound
  Spec_Relay Prop_Relay Spec_Sizes Proof_Sizes.

(** C140. Writing [d] to a channel hands the websocket at most one message, longer than [d]
    by the digits of its length and of the channel's number and at most 9 bytes more. *)
Theorem C140_wire : forall env o d st st' r c k j,
  chan_of st o = Some c -> digits_at_most k (ch_no c) -> digits_at_most j (Z.of_nat (length d)) ->
  do_op env (OpWrite o d) st = (st', r) ->
  exists new, st_trace st' = new ++ st_trace st /\ (length (handed new) <= 1)%nat /\
    Forall (fun b => (length b <= length d + k + j + 9)%nat) (handed new).
Proof. exact write_size. Qed.
Print Assumptions C140_wire.
Theorem C140_services : forall d, service_writes d -> (Z.of_nat (length d) <= MiB)%Z.
Proof. exact service_size. Qed.
Print Assumptions C140_services.
(** A port forward writes no empty message, whatever the size of a chunk. *)
Theorem C140_forward : forall chunk a closed t t' ws d, tunnel_act chunk a closed t = (t', ws) -> In (WData d) ws -> d <> [] /\ (length d <= chunk)%nat.
Proof. exact forward_size. Qed.
Print Assumptions C140_forward.
(** So on a channel whose number has at most [k] digits no message of a service takes more
    than 1 MiB and [k + 16] bytes on the websocket. *)
Theorem C140_on_the_wire : forall env o d st st' r c k, service_writes d -> chan_of st o = Some c -> digits_at_most k (ch_no c) ->
  do_op env (OpWrite o d) st = (st', r) ->
  exists new, st_trace st' = new ++ st_trace st /\ (length (handed new) <= 1)%nat /\
    Forall (fun b => (Z.of_nat (length b) <= MiB + Z.of_nat k + 16)%Z) (handed new).
Proof. exact service_wire. Qed.
Print Assumptions C140_on_the_wire.
(** The bound is reached: a local server that has sent more than a chunk. *)
Theorem C140_reached : exists d, service_writes d /\ Z.of_nat (length d) = MiB.
Proof. exact size_reached. Qed.
Print Assumptions C140_reached.
(** A terminal that is being copied; "hello" has been printed. *)
Definition printed : pst := P 0 Copying true true false Running [] [] false 0 [] (B "hello") [].
Example C140_case : service_writes (B "hello") /\
  chan_of seat_state 0 = Some seat_chan /\ digits_at_most 1 (ch_no seat_chan) /\ digits_at_most 1 (Z.of_nat (length (B "hello"))) /\
  exists st', do_op calm_env (OpWrite 0 (B "hello")) seat_state = (st', Ok tt) /\
    st_trace st' = Sent (B "li5ei7e5:helloe") :: st_trace seat_state.
Proof.
  split; [|split; [vm_compute; reflexivity|split; [|split]]].
  - apply (by_terminal _ (Reads 5 false true) false printed (pstep (Reads 5 false true) printed) [WData (B "hello")]); [|left; reflexivity].
    unfold term_act. replace (5 <=? Z.to_nat (1024 * 1024))%nat with true; [reflexivity|]. symmetry. apply Nat.leb_le.
    apply Nat2Z.inj_le. rewrite Z2Nat.id; vm_compute; discriminate.
  - split; [lia|]. vm_compute. reflexivity.
  - split; [lia|]. vm_compute. reflexivity.
  - eexists. split; vm_compute; reflexivity.
Qed.
