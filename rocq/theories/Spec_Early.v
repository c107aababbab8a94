(** * What C93 means: data that arrives around the start of a service *)
From Verif Require Import Py Model_Bencode Model_Packets Model_Client Spec_Client.

(** The operation does not change the callbacks of channel object [o]. *)
Definition keeps_callbacks (o : nat) (p : op) : Prop := match p with OpSetCbs o' _ _ _ => o' <> o | _ => True end.
(** Nothing called by the client changes the callbacks of [o] either. *)
Definition nobody_replaces (env : list effect -> effect -> list (op * bool) * option exn) (o : nat) : Prop :=
  forall tr e, Forall (fun p => keeps_callbacks o (fst p)) (fst (env tr e)).
(** [m] tells that channel [n] was closed. *)
Definition closes (m : bytes) (n : Z) : Prop := exists rest, announces m 19 (VInt n :: rest).
(** The inputs neither end the connection nor channel [n] and leave the callbacks of [o] alone. *)
Definition undisturbed (n : Z) (o : nat) (l : list input) : Prop :=
  no_disconnect l /\ (forall m, In (InEvent (EvBinary m)) l -> ~ closes m n) /\
  (forall p, In (InOp p) l -> keeps_callbacks o p).
(** What was handed to object [o], in order: to which callback, or to its buffer. *)
Fixpoint handed (o : nat) (l : list effect) : list (option nat * bytes) :=
  match l with
  | [] => []
  | DataCb k o' d :: r => if Nat.eqb o' o then (Some k, d) :: handed o r else handed o r
  | Buffered o' d :: r => if Nat.eqb o' o then (None, d) :: handed o r else handed o r
  | _ :: r => handed o r
  end.
(** [o] is the open object of channel [n], served by callback [k]. *)
Definition served_by (st : state) (n : Z) (o k : nat) : Prop :=
  registered st n = Some o /\ exists c, chan_of st o = Some c /\ ch_closed c = false /\ ch_data_cb c = Some k.
(** What is in the buffer of [o]. *)
Definition buffered (st : state) (o : nat) : bytes := match chan_of st o with Some c => concat (ch_deque c) | None => [] end.
