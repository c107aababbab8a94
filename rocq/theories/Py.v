(** * Python run-time notions shared by all models.

    Exceptions are values, bytes and text are distinct types (CPython 3).
    Nothing in this file models agent code; it models the parts of the Python
    language and library the agent code is written in. *)
From Coq Require Export Strings.Byte Strings.String.
From Coq Require Export List NArith ZArith Lia Bool Arith.
From Coq Require Export ZifyBool ZifyNat ZifyN.
Export ListNotations.

(** ** Exceptions and results *)

(** The exception classes the modelled code can raise or distinguishes. *)
Inductive exn :=
| EDecode            (* m2m.bencode.DecodeError *)
| EEncoding          (* m2m.bencode.EncodingError *)
| EValue             (* ValueError *)
| EType              (* TypeError *)
| EKey               (* KeyError *)
| EIndex             (* IndexError *)
| EAttr              (* AttributeError *)
| EOverflow          (* OverflowError *)
| EUnicodeDecode     (* UnicodeDecodeError *)
| EUnicodeEncode     (* UnicodeEncodeError *)
| EAssert            (* AssertionError *)
| EZeroDiv           (* ZeroDivisionError *)
| EPacketFormat      (* m2m.packetbase.PacketFormatError *)
| EUnknownPacket     (* m2m.packetbase.UnknownPacketError *)
| EDispatchFormat    (* m2m.dispatcher.PacketFormatError *)
| ELimitReached      (* limiter.LimitReached *)
| ELimiter           (* limiter.LimiterError *)
| EOS                (* OSError / IOError *)
| EWebSocket         (* lomond WebSocketError *)
| EOther.            (* any other Exception subclass *)

(** Outcome of running a Python function: it returns, raises, or never ends. *)
Inductive res (A : Type) :=
| Ok (a : A)
| Raise (e : exn)
| Hang.
Arguments Ok {A} a.
Arguments Raise {A} e.
Arguments Hang {A}.

Definition bind {A B} (r : res A) (k : A -> res B) : res B :=
  match r with Ok a => k a | Raise e => Raise e | Hang => Hang end.
Notation "x <- r ;; k" := (bind r (fun x => k))
  (at level 61, r at next level, right associativity).

(** ** Bytes and text *)

(** Python [bytes]. *)
Definition bytes := list byte.
(** Python [str]: a sequence of code points (0 .. 0x10FFFF, lone surrogates allowed). *)
Definition text := list N.

(** ASCII literals. *)
Definition B (s : string) : bytes := list_byte_of_string s.
Definition T (s : string) : text := map Byte.to_N (list_byte_of_string s).

(** Byte values as numbers, and back (numbers above 255 never occur). *)
Definition b2n (s : bytes) : list N := map Byte.to_N s.
Definition byte_of (n : N) : byte :=
  match Byte.of_N n with Some b => b | None => x00 end.
Definition n2b (s : list N) : bytes := map byte_of s.

Definition beqb (a b : byte) : bool := Byte.eqb a b.

Fixpoint list_eqb {A} (eqb : A -> A -> bool) (l1 l2 : list A) : bool :=
  match l1, l2 with
  | [], [] => true
  | a :: l1', b :: l2' => eqb a b && list_eqb eqb l1' l2'
  | _, _ => false
  end.
Definition bytes_eqb : bytes -> bytes -> bool := list_eqb beqb.
Definition text_eqb : text -> text -> bool := list_eqb N.eqb.

(** Lexicographic order on bytes, the order of [sorted] on [bytes] keys. *)
Fixpoint bytes_ltb (a b : bytes) : bool :=
  match a, b with
  | _, [] => false
  | [], _ :: _ => true
  | x :: a', y :: b' =>
      (Byte.to_N x <? Byte.to_N y)%N || (beqb x y && bytes_ltb a' b')
  end.

(** ** Slices  [s[:i]] and [s[i:]] for a possibly negative integer [i] *)
Definition slice_to {A} (s : list A) (i : Z) : list A :=
  if (i <? 0)%Z then firstn (Z.to_nat (Z.of_nat (List.length s) + i)) s
  else firstn (Z.to_nat i) s.
Definition slice_from {A} (s : list A) (i : Z) : list A :=
  if (i <? 0)%Z then skipn (Z.to_nat (Z.of_nat (List.length s) + i)) s
  else skipn (Z.to_nat i) s.

(** ** Decimal numbers *)

(** [str(n)] for a natural number, as ASCII codes. *)
Fixpoint digits_fuel (fuel : nat) (n : N) (acc : list N) : list N :=
  match fuel with
  | O => acc
  | S f =>
      let acc' := (48 + n mod 10)%N :: acc in
      if (n / 10 =? 0)%N then acc' else digits_fuel f (n / 10) acc'
  end.
Definition dec_N (n : N) : list N := digits_fuel (S (N.size_nat n)) n [].
(** [str(z)] for an integer. *)
Definition dec_Z (z : Z) : list N :=
  if (z <? 0)%Z then 45%N :: dec_N (Z.to_N (- z)) else dec_N (Z.to_N z).

Definition is_digit (c : N) : bool := (48 <=? c)%N && (c <=? 57)%N.

(** Digits with single underscores between them, as accepted by [int()]. *)
Fixpoint digits_us (s : list N) (prev : bool) (acc : N) : option N :=
  match s with
  | [] => if prev then Some acc else None
  | c :: r =>
      if is_digit c then digits_us r true (10 * acc + (c - 48))%N
      else if (c =? 95)%N && prev then digits_us r false acc
      else None
  end.

Fixpoint lstrip (ws : N -> bool) (s : list N) : list N :=
  match s with
  | [] => []
  | c :: r => if ws c then lstrip ws r else s
  end.
Definition rstrip (ws : N -> bool) (s : list N) : list N := rev (lstrip ws (rev s)).
Definition strip (ws : N -> bool) (s : list N) : list N := rstrip ws (lstrip ws s).

(** White space for [bytes] (also what [int()] skips in [bytes]). *)
Definition ws_bytes (c : N) : bool :=
  ((9 <=? c) && (c <=? 13) || (c =? 32))%N.
(** White space for [str] ([str.isspace], [str.strip] and regex [\s] agree on it). *)
Definition ws_text (c : N) : bool :=
  ((9 <=? c) && (c <=? 13) || (28 <=? c) && (c <=? 32) || (c =? 133) || (c =? 160)
   || (c =? 5760) || (8192 <=? c) && (c <=? 8202) || (c =? 8232) || (c =? 8233)
   || (c =? 8239) || (c =? 8287) || (c =? 12288))%N.

(** [int(s)] in base 10: [None] is ValueError. CPython's limit of 4300 digits
    (added in 3.11 and in security releases) is not modelled; non-ASCII decimal
    digits in [str] arguments are not recognised. *)
Definition py_int (ws : N -> bool) (s : list N) : option Z :=
  match strip ws s with
  | 45%N :: r => option_map (fun n => (- Z.of_N n)%Z) (digits_us r false 0)
  | 43%N :: r => option_map Z.of_N (digits_us r false 0)
  | r => option_map Z.of_N (digits_us r false 0)
  end.
Definition int_of_bytes (s : bytes) : option Z := py_int ws_bytes (b2n s).
Definition bytes_of_int (z : Z) : bytes := n2b (dec_Z z).

(** ** UTF-8 *)

(** One code point; [None] for lone surrogates (UnicodeEncodeError). *)
Definition utf8_enc1 (c : N) : option (list N) :=
  (if c <? 128 then Some [c]
   else if c <? 2048 then Some [192 + c / 64; 128 + c mod 64]
   else if c <? 65536 then
     if (55296 <=? c) && (c <=? 57343) then None
     else Some [224 + c / 4096; 128 + (c / 64) mod 64; 128 + c mod 64]
   else if c <? 1114112 then
     Some [240 + c / 262144; 128 + (c / 4096) mod 64; 128 + (c / 64) mod 64; 128 + c mod 64]
   else None)%N.

Fixpoint utf8_enc (t : text) : option (list N) :=
  match t with
  | [] => Some []
  | c :: r =>
      match utf8_enc1 c, utf8_enc r with
      | Some a, Some b => Some (a ++ b)
      | _, _ => None
      end
  end.

Definition is_cont (c : N) : bool := ((128 <=? c) && (c <=? 191))%N.

(** Strict decoding; [None] is UnicodeDecodeError. *)
Fixpoint utf8_dec (s : list N) : option text :=
  match s with
  | [] => Some []
  | a :: s1 =>
      if (a <? 128)%N then option_map (cons a) (utf8_dec s1)
      else if ((194 <=? a) && (a <=? 223))%N then
        match s1 with
        | b :: s2 =>
            if is_cont b
            then option_map (cons ((a - 192) * 64 + (b - 128))%N) (utf8_dec s2)
            else None
        | _ => None
        end
      else if ((224 <=? a) && (a <=? 239))%N then
        match s1 with
        | b :: c :: s2 =>
            let cp := ((a - 224) * 4096 + (b - 128) * 64 + (c - 128))%N in
            if is_cont b && is_cont c && (2048 <=? cp)%N
               && negb ((55296 <=? cp) && (cp <=? 57343))%N
            then option_map (cons cp) (utf8_dec s2)
            else None
        | _ => None
        end
      else if ((240 <=? a) && (a <=? 244))%N then
        match s1 with
        | b :: c :: d :: s2 =>
            let cp := ((a - 240) * 262144 + (b - 128) * 4096 + (c - 128) * 64 + (d - 128))%N in
            if is_cont b && is_cont c && is_cont d && (65536 <=? cp)%N && (cp <? 1114112)%N
            then option_map (cons cp) (utf8_dec s2)
            else None
        | _ => None
        end
      else None
  end.

(** [t.encode("utf-8")] and [b.decode("utf-8")]. *)
Definition utf8_encode (t : text) : option bytes := option_map n2b (utf8_enc t).
Definition utf8_decode (b : bytes) : option text := utf8_dec (b2n b).

(** [b.decode("utf-8", "ignore")]: bytes that start no valid sequence are dropped.  (CPython
    drops the longest valid beginning of a sequence at once; the bytes after the first are
    continuation bytes, which start no sequence either.) *)
Fixpoint utf8_ign (s : list N) : text :=
  match s with
  | [] => []
  | a :: s1 =>
      if (a <? 128)%N then a :: utf8_ign s1
      else if ((194 <=? a) && (a <=? 223))%N then
        match s1 with
        | b :: s2 => if is_cont b then ((a - 192) * 64 + (b - 128))%N :: utf8_ign s2 else utf8_ign s1
        | _ => utf8_ign s1
        end
      else if ((224 <=? a) && (a <=? 239))%N then
        match s1 with
        | b :: c :: s2 =>
            let cp := ((a - 224) * 4096 + (b - 128) * 64 + (c - 128))%N in
            if is_cont b && is_cont c && (2048 <=? cp)%N
               && negb ((55296 <=? cp) && (cp <=? 57343))%N
            then cp :: utf8_ign s2
            else utf8_ign s1
        | _ => utf8_ign s1
        end
      else if ((240 <=? a) && (a <=? 244))%N then
        match s1 with
        | b :: c :: d :: s2 =>
            let cp := ((a - 240) * 262144 + (b - 128) * 4096 + (c - 128) * 64 + (d - 128))%N in
            if is_cont b && is_cont c && is_cont d && (65536 <=? cp)%N && (cp <? 1114112)%N
            then cp :: utf8_ign s2
            else utf8_ign s1
        | _ => utf8_ign s1
        end
      else utf8_ign s1
  end.
Definition utf8_ignore (b : bytes) : text := utf8_ign (b2n b).

(** ** Dictionaries: insertion-ordered association lists with distinct keys *)
Section Dict.
  Context {K V : Type} (keqb : K -> K -> bool).
  Fixpoint dict_get (k : K) (d : list (K * V)) : option V :=
    match d with
    | [] => None
    | (k', v) :: d' => if keqb k' k then Some v else dict_get k d'
    end.
  (** [d[k] = v]: an existing key keeps its position. *)
  Fixpoint dict_set (k : K) (v : V) (d : list (K * V)) : list (K * V) :=
    match d with
    | [] => [(k, v)]
    | (k', v') :: d' => if keqb k' k then (k', v) :: d' else (k', v') :: dict_set k v d'
    end.
  (** [del d[k]] *)
  Fixpoint dict_del (k : K) (d : list (K * V)) : list (K * V) :=
    match d with
    | [] => []
    | (k', v') :: d' => if keqb k' k then d' else (k', v') :: dict_del k d'
    end.
  Definition dict_mem (k : K) (d : list (K * V)) : bool :=
    match dict_get k d with Some _ => true | None => false end.
  (** [dict(pairs)] *)
  Definition dict_of (kv : list (K * V)) : list (K * V) :=
    fold_left (fun d p => dict_set (fst p) (snd p) d) kv [].
End Dict.

(** ** Python objects that can be handed to or come out of the wire codec *)
Inductive val : Type :=
| VBytes (b : bytes)
| VText (t : text)
| VInt (z : Z)
| VBool (b : bool)
| VNone
| VOther (tag : N)                 (* any other object: float, set, instance ... *)
| VList (l : list val)
| VTuple (l : list val)
| VDict (d : list (val * val)).    (* insertion order, distinct keys *)
