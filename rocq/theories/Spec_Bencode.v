(** * What the bencode properties mean, independently of the codec *)
From Coq Require Import Permutation.
From Verif Require Import Py Model_Bencode.

(** The byte string a bytes or text object stands for. *)
Inductive octets : val -> bytes -> Prop :=
| oct_bytes b : octets (VBytes b) b
| oct_text t b : utf8_encode t = Some b -> octets (VText t) b.

(** The elements of a list or tuple. *)
Inductive items : val -> list val -> Prop :=
| items_list l : items (VList l) l
| items_tuple l : items (VTuple l) l.

(** The values the format can carry. *)
Inductive Encodable : val -> Prop :=
| en_octets v b : octets v b -> Encodable v
| en_int z : Encodable (VInt z)
| en_seq v l : items v l -> Forall Encodable l -> Encodable v
| en_dict d :
    Forall (fun p => (exists k, fst p = VBytes k) /\ Encodable (snd p)) d ->
    Encodable (VDict d).

(** Two values carry the same data: text counts as its UTF-8 bytes, tuples as
    lists, dictionaries are compared without regard to order. *)
Inductive same_data : val -> val -> Prop :=
| sd_octets v w b : octets v b -> octets w b -> same_data v w
| sd_int z : same_data (VInt z) (VInt z)
| sd_seq v w l l' : items v l -> items w l' -> Forall2 same_data l l' -> same_data v w
| sd_dict d d' d'' :
    Permutation d' d'' ->
    Forall2 (fun p q => fst p = fst q /\ same_data (snd p) (snd q)) d d'' ->
    same_data (VDict d) (VDict d').

(** Values in the form the decoder produces for an encoding: bytes, ints, lists
    and dicts with bytes keys only. *)
Inductive Wire : val -> Prop :=
| wi_bytes b : Wire (VBytes b)
| wi_int z : Wire (VInt z)
| wi_list l : Forall Wire l -> Wire (VList l)
| wi_dict d :
    Forall (fun p => (exists k, fst p = VBytes k) /\ Wire (snd p)) d ->
    NoDup (map fst d) -> Wire (VDict d).

(** Objects that can exist in CPython: dictionary keys are distinct and no bytes
    object is longer than [sys.maxsize] = 2^63 - 1. *)
Definition short (b : bytes) : Prop := (Z.of_nat (length b) < 2 ^ 63)%Z.
Inductive py_object : val -> Prop :=
| po_bytes b : short b -> py_object (VBytes b)
| po_text t : (forall b, utf8_encode t = Some b -> short b) -> py_object (VText t)
| po_int z : py_object (VInt z)
| po_bool b : py_object (VBool b)
| po_none : py_object VNone
| po_other n : py_object (VOther n)
| po_list l : Forall py_object l -> py_object (VList l)
| po_tuple l : Forall py_object l -> py_object (VTuple l)
| po_dict d :
    NoDup (map fst d) ->
    Forall (fun p => py_object (fst p) /\ py_object (snd p)) d ->
    py_object (VDict d).

(** Number of nodes plus number of content bytes of a decoded value. *)
Fixpoint weight (v : val) : nat :=
  match v with
  | VBytes b => 1 + length b
  | VText t => 1 + length t
  | VList l | VTuple l => 1 + list_sum (map weight l)
  | VDict d => 1 + list_sum (map (fun p => weight (fst p) + weight (snd p)) d)
  | VInt _ | VBool _ | VNone | VOther _ => 1
  end.

(** [p] is a proper prefix of [b]. *)
Definition proper_prefix (p b : bytes) : Prop := exists q, q <> [] /\ b = p ++ q.

(** The inputs on which the decoder never returns: somewhere, after complete
    values, a string size starts and no colon follows before the end of the input.
    ([decode_rest] only describes the complete values skipped before that point.) *)
Definition type_byte (c : byte) : Prop :=
  c = "e"%byte \/ c = "i"%byte \/ c = "l"%byte \/ c = "d"%byte.
Inductive stuck : bytes -> Prop :=
| st_size c s : ~ type_byte c -> ~ In ":"%byte s -> stuck (c :: s)
| st_list s : stuck_list s -> stuck ("l"%byte :: s)
| st_dict s : stuck_dict s -> stuck ("d"%byte :: s)
with stuck_list : bytes -> Prop :=
| sl_here s : stuck s -> stuck_list s
| sl_next s v r : decode_rest s = Ok (v, r) -> v <> VNone -> stuck_list r -> stuck_list s
with stuck_dict : bytes -> Prop :=
| sk_key s : stuck s -> stuck_dict s
| sk_val s k r : decode_rest s = Ok (k, r) -> k <> VNone -> stuck r -> stuck_dict s
| sk_next s k r v r' :
    decode_rest s = Ok (k, r) -> k <> VNone -> decode_rest r = Ok (v, r') ->
    stuck_dict r' -> stuck_dict s.
