(** * What the packet properties mean *)
From Verif Require Import Py Model_Packets Spec_Bencode.

(** Text is stored as its UTF-8 bytes, everything else unchanged. *)
Inductive stored : val -> val -> Prop :=
| sto_text t b : utf8_encode t = Some b -> stored (VText t) (VBytes b)
| sto_other v : (forall t, v <> VText t) -> stored v v.

(** [v] is an instance of the declared type (bools are ints in Python). *)
Inductive typed : val -> atype -> Prop :=
| ty_bytes b : typed (VBytes b) ABytes
| ty_int z : typed (VInt z) AInt
| ty_bool b : typed (VBool b) AInt
| ty_dict d : typed (VDict d) ADict
| ty_list l : typed (VList l) AList.

(** The argument that is meant for attribute number [i], called [name]: the keyword
    argument if there is one, else the positional argument in that place. *)
Definition supplied (args : list val) (kwargs : list (string * val)) (i : nat) (name : string) (v : val) : Prop :=
  In (name, v) kwargs \/ (~ In name (map fst kwargs) /\ nth_error args i = Some v).

(** The arguments the constructor looks at: surplus positional ones are ignored. *)
Definition considered (c : pclass) (args : list val) (kwargs : list (string * val)) (v : val) : Prop :=
  In v (firstn (length (pc_attrs c)) args) \/ In v (map snd kwargs).
Definition bad_text (v : val) : Prop := exists t, v = VText t /\ utf8_encode t = None.

(** A completely initialised packet: exactly the declared attributes, in order, each
    from its argument and of its declared type. *)
Definition complete (c : pclass) (args : list val) (kwargs : list (string * val)) (p : packet) : Prop :=
  pk_class p = c /\ length (pk_attrs p) = length (pc_attrs c) /\
  forall i name t, nth_error (pc_attrs c) i = Some (name, t) ->
    exists v w, supplied args kwargs i name v /\ stored v w /\ typed w t /\
                nth_error (pk_attrs p) i = Some (name, w).

(** A reason to refuse: a declared attribute without argument or of the wrong type. *)
Definition refused (c : pclass) (args : list val) (kwargs : list (string * val)) : Prop :=
  exists i name t, nth_error (pc_attrs c) i = Some (name, t) /\
    ((forall v, ~ supplied args kwargs i name v) \/
     (exists v w, supplied args kwargs i name v /\ stored v w /\ ~ typed w t)).

(** Two packets of one class carrying the same data. *)
Definition same_packet (p q : packet) : Prop :=
  pk_class p = pk_class q /\
  Forall2 (fun a b => fst a = fst b /\ same_data (snd a) (snd b)) (pk_attrs p) (pk_attrs q).

(** Two attribute values a log reader cannot tell apart. *)
Definition alike (name : string) (v w : val) : Prop :=
  name = "password"%string \/ v = w \/
  exists a b, v = VBytes a /\ w = VBytes b /\ 32 < length a /\ length a = length b /\ firstn 32 a = firstn 32 b.

(** Subclasses of PacketError. *)
Definition packet_error (e : exn) : Prop := e = EPacketFormat \/ e = EUnknownPacket.
