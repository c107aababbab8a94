(** * What C108 and C109 mean *)
From Verif Require Import Py Model_Bencode Spec_Bencode Model_Client Spec_Client Model_Services Spec_Services.

(** What can be said to the peer through a channel *)
Inductive said := SData (d : bytes) | SControl (d : bytes) | SClose.
(** What the peer reads in a message handed to the websocket: the number of the channel, and
    what is said on it.  The numbers of the packet types are those of packets.py:32, 80 and 50. *)
Definition heard_of (e : effect) : option (Z * said) :=
  match e with
  | Sent b =>
      match decode b with
      | Ok (VList (VInt t :: VInt n :: rest)) =>
          if (t =? 5)%Z then match rest with VBytes d :: _ => Some (n, SData d) | _ => None end
          else if (t =? 22)%Z then match rest with VBytes d :: _ => Some (n, SControl d) | _ => None end
          else if (t =? 11)%Z then Some (n, SClose) else None
      | _ => None
      end
  | _ => None
  end.
(** What the peer hears on channel number [n], in order *)
Definition heard (n : Z) (l : list effect) : list said :=
  flat_map (fun e => match heard_of e with Some (m, x) => if (m =? n)%Z then [x] else [] | None => [] end) l.
(** What users of channel object [o] say *)
Definition says (o : nat) (p : op) : list said :=
  match p with
  | OpWrite o' d => if (o' =? o)%nat then [SData d] else []
  | OpControl o' j => if (o' =? o)%nat then match utf8_encode j with Some b => [SControl b] | None => [] end else []
  | OpClose o' => if (o' =? o)%nat then [SClose] else []
  | _ => []
  end.
Definition spoken (o : nat) (l : list input) : list said :=
  flat_map (fun i => match i with InOp p => says o p | _ => [] end) l.

(** Nobody but channels sends the three kinds of packets channels send. *)
Definition by_channels_only (p : op) : Prop :=
  match p with
  | OpSend name _ _ => ~ In name ["request_send"; "request_send_control"; "request_close"]%string
  | _ => True
  end.
(** An operation that says nothing through channel object [o] *)
Definition elsewhere (o : nat) (p : op) : Prop :=
  match p with OpWrite o' _ | OpControl o' _ | OpClose o' => o' <> o | _ => True end.
(** What is said through [o] has a length a decoder accepts. *)
Definition speakable (o : nat) (p : op) : Prop :=
  Forall (fun x => match x with SData d | SControl d => short d | SClose => True end) (says o p).
(** Callbacks say nothing through [o].  (Those of the agent's services do not, but for the
    echo service; see C21.) *)
Definition leave_alone (env : list effect -> effect -> list (op * bool) * option exn) (o : nat) : Prop :=
  forall tr e p s, In (p, s) (fst (env tr e)) -> by_channels_only p /\ elsewhere o p.
(** A state some session leads to, with whatever callbacks *)
Definition reached (st : state) : Prop :=
  exists env error_text u l, run env error_text l (init_state u) = Some st.

(** ** C109: the operations of a service on its channel [o]; [json] writes control messages *)
Definition op_of (json : out -> text) (o : nat) (m : out) : list op :=
  match m with
  | OData d => [OpWrite o d]
  | OControl _ _ _ _ | OComplete _ => [OpControl o (json m)]
  | OClose => [OpClose o]
  | OKill => []
  end.
(** The operations on [o] among the inputs *)
Definition ops_on (o : nat) (l : list input) : list op :=
  flat_map (fun i => match i with
                     | InOp p => match p with
                                 | OpWrite o' _ | OpControl o' _ | OpClose o' => if (o' =? o)%nat then [p] else []
                                 | _ => []
                                 end
                     | _ => []
                     end) l.
(** The data among what is heard *)
Definition data_of (l : list said) : list bytes := flat_map (fun x => match x with SData d => [d] | _ => [] end) l.
(** Control messages are text of a length a decoder accepts. *)
Definition sound_json (json : out -> text) : Prop := forall m, exists b, utf8_encode (json m) = Some b /\ short b.
