(** * What the service properties mean *)
From Verif Require Import Py Model_Services.

Definition prefix {A} (a b : list A) : Prop := exists c, b = a ++ c.
(** The data written to the channel, message by message. *)
Definition messages (l : list out) : list bytes :=
  flat_map (fun o => match o with OData d => [d] | _ => [] end) l.
Definition is_data (o : out) : bool := match o with OData _ => true | _ => false end.
Definition is_control (o : out) : bool := match o with OControl _ _ _ _ => true | _ => false end.
Definition is_complete (o : out) : bool := match o with OComplete _ => true | _ => false end.
Definition how_many (f : out -> bool) (l : list out) : nat := length (filter f l).

(** The channel stays open and nothing fails. *)
Definition calm (w : nat -> ans) : Prop := forall n, w n = Ans false None None.
(** The websocket raises nothing but WebSocketError. *)
Definition polite (w : nat -> ans) : Prop := forall n, a_send (w n) = None \/ a_send (w n) = Some EWebSocket.
(** The operating system does not raise WebSocketError. *)
Definition sane_os (w : nat -> ans) : Prop := forall n, a_os (w n) <> Some EWebSocket.

(** What poll(2) reports for the pipes of a command that has ended, once its output has
    been read: hang-up and nothing else. *)
Definition POLLHUP : Z := 16.
Definition command_over : poll_ans := PollEvents [(true, POLLHUP, 0); (false, POLLHUP, 0)].
(** Operations of the operating system fail with OSError if at all. *)
Definition os_errors (w : nat -> ans) : Prop := forall n, a_os (w n) = None \/ a_os (w n) = Some EOS.
(** poll(2) reports only descriptors with data to read (or at their end). *)
Definition POLLIN : Z := 1.
Definition only_ready (p : poll_ans) : Prop :=
  match p with PollEvents l => Forall (fun e : bool * Z * nat => snd (fst e) = POLLIN) l | PollRaise => False end.
(** How many bytes of stdout the reads of these polls can take. *)
Definition offered_by (chunk : nat) (l : list (bool * Z * nat)) : nat :=
  list_sum (map (fun e : bool * Z * nat => if fst (fst e) then Nat.min chunk (S (snd e)) else 0) l).
Definition offered (chunk : nat) (polls : list poll_ans) : nat :=
  list_sum (map (fun p => match p with PollEvents l => offered_by chunk l | PollRaise => 0 end) polls).
