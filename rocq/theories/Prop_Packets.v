(** * Properties C09-C12 and C16: packets (dataplicity/m2m/packetbase.py, packets.py) *)
From Verif Require Import Py Model_Bencode Spec_Bencode Model_Packets Spec_Packets Proof_Packets.

Definition route_class : pclass := PClass "RoutePacket" 6 [("channel"%string, AInt); ("data"%string, ABytes)].
Example route_registered : In route_class packet_classes.
Proof. cbn. repeat (first [left; reflexivity|right]). Qed.

(** C09. A packet that could be built and encoded is parsed by the peer as a packet of
    the same class carrying the same data. *)
Theorem C09_packet_round_trip : forall c args kwargs p b, In c packet_classes -> NoDup (map fst kwargs) ->
  construct c args kwargs = Ok p -> Forall (fun a => py_object (snd a)) (pk_attrs p) -> as_bytes p = Ok b ->
  exists q, from_bytes b = Ok q /\ same_packet p q.
Proof. exact c09_full. Qed.
Print Assumptions C09_packet_round_trip.
Example C09_case : exists p, construct route_class [VInt 5] [("data"%string, VText (T "hi"))] = Ok p /\
  as_bytes p = Ok (B "li6ei5e2:hie") /\ from_bytes (B "li6ei5e2:hie") = Ok p.
Proof. eexists. repeat split. Qed.

(** C10. Construction yields the one completely initialised packet, or refuses with a
    reason. *)
Theorem C10_never_half_initialised : forall c args kwargs, In c packet_classes -> NoDup (map fst kwargs) ->
  (exists p, construct c args kwargs = Ok p /\ complete c args kwargs p /\
             (forall q, complete c args kwargs q -> q = p) /\
             forall v, considered c args kwargs v -> ~ bad_text v) \/
  (construct c args kwargs = Raise EPacketFormat /\ refused c args kwargs /\
             forall v, considered c args kwargs v -> ~ bad_text v) \/
  (construct c args kwargs = Raise EUnicodeEncode /\ exists v, considered c args kwargs v /\ bad_text v).
Proof. exact c10_full. Qed.
Print Assumptions C10_never_half_initialised.
Example C10_case : construct route_class [VInt 1; VBytes (B "x"); VNone] [("channel"%string, VInt 2)]
    = Ok (Packet route_class [("channel"%string, VInt 2); ("data"%string, VBytes (B "x"))])
  /\ construct route_class [VInt 1] [] = Raise EPacketFormat
  /\ construct route_class [VBytes []; VBytes []] [] = Raise EPacketFormat
  /\ construct route_class [VInt 1; VText [55296%N]] [] = Raise EUnicodeEncode.
Proof. repeat split. Qed.

(** C11. Every integer selects at most one class; the rest is refused. *)
Theorem C11_one_class_per_type : forall t,
  (exists c, In c packet_classes /\ pc_type c = t /\
     (forall c', In c' packet_classes -> pc_type c' = t -> c' = c) /\
     (forall args kwargs, create t args kwargs = construct c args kwargs) /\
     (forall s body, decode s = Ok (VList (VInt t :: body)) -> from_bytes s = from_body c body)) \/
  ((forall c, In c packet_classes -> pc_type c <> t) /\
     (forall args kwargs, create t args kwargs = Raise EValue) /\
     (forall s body, decode s = Ok (VList (VInt t :: body)) -> from_bytes s = Raise EUnknownPacket)).
Proof. exact c11. Qed.
Print Assumptions C11_one_class_per_type.
(** The assertion in the metaclass holds for the classes of packets.py. *)
Theorem C11_registration_succeeds : register_all packet_classes [] = Ok registry.
Proof. exact registry_ok. Qed.
Print Assumptions C11_registration_succeeds.
Example C11_case : create 6 [VInt 1; VBytes []] [] = construct route_class [VInt 1; VBytes []] []
  /\ create 10 [] [] = Raise EValue /\ from_bytes (B "li10ee") = Raise EUnknownPacket.
Proof. repeat split. Qed.

(** C12 as stated - [from_bytes] returns a packet or raises a PacketError - is false. *)
Theorem C12_from_bytes_only_packet_error_refuted : ~ forall s,
  (exists p, from_bytes s = Ok p) \/ from_bytes s = Raise EPacketFormat \/ from_bytes s = Raise EUnknownPacket.
Proof. intros H. destruct (H (B "le")) as [[p Hp]|[Hp|Hp]]; discriminate Hp. Qed.
Print Assumptions C12_from_bytes_only_packet_error_refuted.
(** What holds: the other outcomes are IndexError, exactly for the empty list, the
    ValueError, TypeError or OverflowError of the decoder, and a hang, only for the
    inputs on which the decoder hangs. *)
Theorem C12_from_bytes_outcomes_partial : forall s,
  (exists p, from_bytes s = Ok p) \/
  (exists e, from_bytes s = Raise e /\ packet_error e) \/
  (exists e, from_bytes s = Raise e /\ decode s = Raise e /\ (e = EValue \/ e = EType \/ e = EOverflow)) \/
  (from_bytes s = Raise EIndex /\ decode s = Ok (VList [])) \/
  (from_bytes s = Hang /\ stuck s).
Proof. exact c12_outcome. Qed.
Print Assumptions C12_from_bytes_outcomes_partial.
Example C12_case : from_bytes (B "le") = Raise EIndex /\ from_bytes (B "ie") = Raise EValue
  /\ from_bytes (B "5") = Hang /\ from_bytes (B "li6ee") = Raise EPacketFormat /\ from_bytes (B "i1e") = Raise EPacketFormat.
Proof. repeat split. Qed.

(** C16. The logged text does not depend on a password, nor on anything after the
    first 32 bytes of a binary attribute except its length. *)
Theorem C16_password_not_logged : forall repr p q, pk_class p = pk_class q ->
  Forall2 (fun a b => fst a = fst b /\ alike (fst a) (snd a) (snd b)) (pk_attrs p) (pk_attrs q) ->
  packet_repr repr p = packet_repr repr q.
Proof. exact c16. Qed.
Print Assumptions C16_password_not_logged.
Definition login (pw : string) : res packet := create 15 [VBytes (B "me"); VText (T pw)] [].
Example C16_case : exists p q, login "secret" = Ok p /\ login "other" = Ok q /\ p <> q /\
  packet_repr (fun _ => T "R") p = T "RequestLoginPacket(password=********, username=R)" /\
  Forall2 (fun a b => fst a = fst b /\ alike (fst a) (snd a) (snd b)) (pk_attrs p) (pk_attrs q).
Proof.
  eexists; eexists. repeat split; try discriminate.
  repeat (apply Forall2_cons); try apply Forall2_nil; split; try reflexivity; [right; left; reflexivity|left; reflexivity].
Qed.
