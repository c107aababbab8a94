(** * What C91 and C92 mean *)
From Verif Require Import Py Model_Threads.

(** ** C91 *)
(** At this moment channel number [n] belongs to the channel object [o]. *)
Definition belongs (st : tstate) (n : Z) (o : nat) : Prop := In (n, o) (t_reg st).
(** Sent now, the packet would reach the peer of another channel. *)
Definition stray (st : tstate) (p : packet) : Prop := exists o, belongs st (p_number p) o /\ o <> p_object p.
(** The channel object exists and is open, or is closed. *)
Definition open_object (st : tstate) (o : nat) (n : Z) : Prop := nth_error (t_heap st) o = Some (n, false).
Definition closed_object (st : tstate) (o : nat) : Prop := exists n, nth_error (t_heap st) o = Some (n, true).
(** Thread [t] is inside a call on [o]: it has found it open and has not sent yet. *)
Definition inside (st : tstate) (t o : nat) : Prop := exists r, In (t, (o, r)) (t_asked st).
Definition busy (st : tstate) (t : nat) : Prop := exists o, inside st t o.
(** How many packets thread [t] sent for [o]. *)
Definition packets (t o : nat) (st : tstate) : nat :=
  length (filter (fun p => Nat.eqb (p_thread p) t && Nat.eqb (p_object p) o) (t_sent st)).

(** ** C92 *)
(** What came in, what was read, in order *)
Definition incoming (st : bstate) : bytes := concat (rev (b_arrived st)).
Definition outgoing (st : bstate) : bytes := concat (rev (map snd (b_taken st))).
Definition reading (st : bstate) (t : nat) (p : rpc) : Prop := In (t, p) (b_readers st).
(** Only thread [t] reads. *)
Definition only_reader (t : nat) (l : list bevent) : Prop :=
  forall e, In e l -> match e with Read u _ _ => u = t | _ => True end.
(** Every read asks for something and waits for it, every message has something in it. *)
Definition no_empty_message (l : list bevent) : Prop := ~ In (Arrive []) l.
Definition blocking_reads (l : list bevent) : Prop :=
  forall e, In e l -> match e with Read _ c b => (0 < c)%Z /\ b = true | _ => True end.
(** Steps of calls that have begun: nothing arrives, nobody calls [read], no time runs out. *)
Definition continues (l : list bevent) : Prop :=
  forall e, In e l -> match e with Arrive _ | Read _ _ _ | Expire _ => False | _ => True end.
