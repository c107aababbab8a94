(** * What C96 and C97 mean *)
From Verif Require Import Py Model_Sync.

(** Thread [t] has a request under way: begun and not ended (histories: latest first). *)
Definition under_way (seen : list sight) (t : nat) : Prop :=
  exists later earlier, seen = later ++ Began t :: earlier /\ forall a, ~ In (Ended t a) later.
(** An acknowledgement of all metadata was received before this point. *)
Definition acknowledged (seen : list sight) : Prop := exists t, In (Ended t (Answered true)) seen.
(** No event in the list is an answer of the server. *)
Definition server_silent (l : list sevent) : Prop := forall t a, ~ In (Reply t a) l.
(** Thread [t] is in [sync]; it has got the lock. *)
Definition in_sync (st : sstate) (t : nat) : Prop := place_of st t <> Out.
(** The event is one of thread [t]'s own steps, or the server's answer [a] to it. *)
Definition step_of (t : nat) (e : sevent) : Prop := In e [Acquire t; Test t; Record t; Release t].
Definition step_or_answer (t : nat) (a : answer) (e : sevent) : Prop := step_of t e \/ e = Reply t a.
