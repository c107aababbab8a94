(** * Specification of port forwarding (C33-C35). *)
From Verif Require Import Py Model_Forward.

Definition is_prefix {A} (p l : list A) : Prop := exists r, l = p ++ r.

(** ** Inbound *)
(** Nothing is under way in either thread, and the connection was made. *)
Definition settled (st : cst) : Prop := m_pc st = MIdle /\ c_pc st = CConnected.
(** The result an action gives to [sendall]. *)
Definition result (a : action) : sendres := match a with StepM s | StepC s => s | _ => None end.
(** The socket breaks once: after a failed send every send fails accepting nothing. *)
Fixpoint breaks_once (l : list action) (st : cst) : Prop :=
  match l with
  | [] => True
  | a :: r => (send_failed st = true -> result a = Some 0) /\ breaks_once r (cstep a st)
  end.
(** The channel is closed only when the attempt to connect is over. *)
Fixpoint late_close (l : list action) (st : cst) : Prop :=
  match l with
  | [] => True
  | a :: r => (a = Closes -> c_pc st = CConnected \/ c_pc st = CFailed) /\ late_close r (cstep a st)
  end.
Definition no_failure (l : list action) : Prop := Forall (fun a => result a = None) l.

(** ** Outbound *)
Definition stream_of (i : nat) (l : list oaction) : bytes :=
  nth i (flat_map (fun a => match a with New s => [s] | _ => [] end) l) [].
(** The action concerns connection i. *)
Definition subject (a : oaction) : option nat :=
  match a with
  | New _ => None
  | OConnects i _ | CheckEvent i | Polls i _ | ChannelCloses i | Leaves i _ => Some i
  end.
(** No poll reports an error or hang-up *)
Definition quiet (a : oaction) : Prop :=
  match a with Polls _ (PollResult l) => Forall (fun e => failed (fst e) = false) l | _ => True end.
(** Polls of a socket whose peer has closed the connection: readable, and recv returns
    nothing as the stream is used up. *)
Definition eof_polls (i k : nat) : list oaction :=
  concat (repeat [CheckEvent i; Polls i (PollResult [(1%Z, Some 0)])] k).
