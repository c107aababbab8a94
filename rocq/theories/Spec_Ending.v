(** * What C143 means *)
From Verif Require Import Py Model_Services.

(** The channel was closed by the other side, or the service has asked for its closing. *)
Definition let_go (st : sst) : Prop := s_closed st = true \/ In OClose (sent st).
(** For the first [n] steps nobody closes the channel and the websocket takes what it is given. *)
Definition undisturbed (w : nat -> ans) (n : nat) : Prop := forall k, k < n -> a_closed (w k) = false /\ a_send (w k) = None.
