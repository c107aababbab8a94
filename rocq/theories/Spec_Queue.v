(** * What the client keeps of the data it received *)
From Verif Require Import Py Model_Bencode Spec_Bencode Model_Packets Spec_Packets Model_Client Spec_Client.

(** Bytes waiting in all channel objects ever made, registered or not. *)
Definition queued (st : state) : nat := list_sum (map (fun c => length (concat (ch_deque c))) (st_heap st)).
(** Bytes waiting in the objects the client still holds in its dictionary of channels. *)
Definition held (st : state) : nat :=
  list_sum (map (fun x => match chan_of st (snd x) with Some c => length (concat (ch_deque c)) | None => 0 end) (st_chans st)).

(** Bytes put into and taken from queues. *)
Definition put_in (e : effect) : nat := match e with Buffered _ d => length d | _ => 0 end.
Definition taken (e : effect) : nat := match e with ReadRet _ _ d => length d | _ => 0 end.

(** The inputs: bytes routed to channels, bytes of messages, messages, explicit openings. *)
Definition payload (i : input) : nat := match route_of i with Some (_, d) => length d | None => 0 end.
Definition message_size (i : input) : nat := match i with InEvent (EvBinary m) => length m | _ => 0 end.
Definition can_open (i : input) : nat :=
  match i with InEvent (EvBinary _) | InOp (OpOpen _) => 1 | _ => 0 end.
Definition total (f : input -> nat) (l : list input) : nat := list_sum (map f l).

(** No message among the inputs announces the closing of channel [n] (type 19). *)
Definition not_closed_by (n : Z) (l : list input) : Prop :=
  forall m rest, In (InEvent (EvBinary m)) l -> ~ announces m 19 (VInt n :: rest).

(** A peer that only listens, and a message with one byte for channel 5. *)
Definition listener : list effect -> effect -> list (op * bool) * option exn := fun _ _ => ([], None).
Definition nothing : list effect -> text := fun _ => [].
Definition knock : input := InEvent (EvBinary (B "li6ei5e1:xe")).
