(** * What C132 means: a service keeps its channel *)
From Verif Require Import Py Model_Process Model_Bencode Model_Client Spec_Client Spec_Early Spec_Outbound Model_Manager Spec_System Model_Relay Spec_Relay
  Model_Opening Spec_Opening.

(** Requests that put callbacks on the channel, with the luck they have at starting a thread:
    a terminal does so even if it is refused. *)
Inductive settles : luck -> deed -> Prop :=
| settles_terminal v name c size : settles v (LaunchTerminal name c size)
| settles_echo v c : settles v (StartEcho c)
| settles_forward v host port c : v <> LimitFull -> settles v (Connect host port c).

(** Nobody puts the callbacks [kd] and [kc] on object [o]: no other service has these. *)
Definition not_back (o kd : nat) (kc : option nat) (p : op) : Prop :=
  match p with OpSetCbs o' d x t => o' = o -> d <> Some kd /\ (x = None \/ x <> kc) | _ => True end.
Definition never_back (env : list effect -> effect -> list (op * bool) * option exn) (o kd : nat) (kc : option nat) : Prop :=
  forall tr e p s, In (p, s) (fst (env tr e)) -> not_back o kd kc p.
Definition rest_never_back {X A} (o kd : nat) (kc : option nat) (l : list (@move X A)) : Prop :=
  forall p x, In (Rest (InOp p) x) l -> not_back o kd kc p.

(** A service by itself: only its own threads take steps; each finds the channel open or closed. *)
Inductive alone {S A} (act : A -> bool -> S -> S * list word) : S -> list A -> S -> Prop :=
| alone_nil s : alone act s [] s
| alone_step s a l s' shut : alone act (fst (act a shut s)) l s' -> alone act s (a :: l) s'.

(** Inputs of the client that do not replace the callbacks of [o] *)
Definition keeps_all (o : nat) (l : list input) : Prop := forall p, In (InOp p) l -> keeps_callbacks o p.
