(** * What the limits may change *)
From Verif Require Import Py Model_Bencode Model_Client Model_Depth.

(** Bytes that may open a list or a dictionary *)
Definition nesting (s : bytes) : nat := count_occ Byte.byte_eq_dec s "l"%byte + count_occ Byte.byte_eq_dec s "d"%byte.
Definition digits (s : bytes) : nat := length (filter (fun c => is_digit (Byte.to_N c)) s).
Definition within (L : limits) (s : bytes) : Prop := nesting s < frames L /\ forall k, max_digits L = Some k -> digits s <= k.
(** RecursionError, ValueError *)
Definition refused {A} (r : res A) : Prop := r = Raise EOther \/ r = Raise EValue.

(** The inputs that are left when refused messages are taken out *)
Inductive without_refused : list (limits * input) -> list input -> Prop :=
| WNil : without_refused [] []
| WKeep L i l k : (forall d, i = InEvent (EvBinary d) -> ldecode L d = decode d) -> without_refused l k -> without_refused ((L, i) :: l) (i :: k)
| WDrop L d l k : refused (ldecode L d) -> without_refused l k -> without_refused ((L, InEvent (EvBinary d)) :: l) k.
