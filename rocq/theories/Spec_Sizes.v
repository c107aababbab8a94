(** * What C140 means *)
From Verif Require Import Py Model_Process Model_Forward Model_Client Model_Services Spec_Services Model_Relay.

(** 1024 * 1024 bytes, constants.py:39 and proxy.py:149 *)
Definition MiB : Z := 1048576.
(** [z] is written with at most [k] decimal digits. *)
Definition digits_at_most (k : nat) (z : Z) : Prop := (1 <= k)%nat /\ (Z.abs z < 10 ^ Z.of_nat k)%Z.
(** What the services that read from the device itself write to their channels, one
    message: a port forward, a terminal, the file service, the command service.  In the
    agent's configuration: a chunk is [chunk_size], a terminal is read 1024 * 1024 bytes at
    a time. *)
Inductive service_writes (d : bytes) : Prop :=
| by_forward a closed t t' ws : tunnel_act chunk_size a closed t = (t', ws) -> In (WData d) ws -> service_writes d
| by_terminal e closed p p' ws : term_act (Z.to_nat (1024 * 1024)) e closed p = (p', ws) -> In (WData d) ws -> service_writes d
| by_file w path content st r : file_run w chunk_size path content sinit = (st, r) -> In (OData d) (sent st) -> service_writes d
| by_command w polls stdout rc1 rc2 st r :
    command_run w chunk_size polls stdout rc1 rc2 sinit = (st, r) -> In (OData d) (sent st) -> service_writes d.
(** The messages handed to the websocket among effects *)
Definition handed (l : list effect) : list bytes := flat_map (fun e => match e with Sent b => [b] | _ => [] end) l.
