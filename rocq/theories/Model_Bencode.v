(** * Model of dataplicity/m2m/bencode.py *)
From Verif Require Import Py.

(** ** Decoder

    [read] in the Python code is the [read] method of an [io.BytesIO]; the model
    passes the unread bytes explicitly. [None] (returned for [b"e"]) is [VNone].
    CPython's recursion limit and the 4300 digit limit of [int()] are not modelled:
    the model behaves as if both were absent ([Model_Depth.v] has them). *)

(** bencode.py:113-122, the loop collecting the digits of [i...e].
    At end of input [c = b""], which is neither a digit nor [b"-"] nor [b"e"]. *)
Fixpoint dec_number (s acc : bytes) : res (val * bytes) :=
  match s with
  | [] => Raise EDecode
  | c :: r =>
      if negb (is_digit (Byte.to_N c)) && negb (beqb c "-") then
        if negb (beqb c "e") then Raise EDecode
        else match int_of_bytes acc with
             | Some z => Ok (VInt z, r)
             | None => Raise EValue
             end
      else dec_number r (acc ++ [c])
  end.

(** [read(size)] of io.BytesIO (bencode.py:149): a negative size reads everything,
    fewer bytes are returned silently when fewer remain, and sizes outside the
    range of a C [ssize_t] raise OverflowError. *)
Definition py_read (z : Z) (s : bytes) : res (bytes * bytes) :=
  if ((z <? - 2 ^ 63) || (2 ^ 63 <=? z))%Z then Raise EOverflow
  else if (z <? 0)%Z then Ok (s, [])
  else let n := Z.to_nat (Z.min z (Z.of_nat (length s))) in
       Ok (firstn n s, skipn n s).

(** bencode.py:142-149, the [while 1] loop collecting the size of a string.
    At end of input [c = b""]: the loop appends nothing and goes round again,
    which the fuelled model does literally. *)
Fixpoint dec_size (fuel : nat) (s acc : bytes) : res (val * bytes) :=
  match fuel with
  | O => Hang
  | S f =>
      match s with
      | [] => dec_size f [] (acc ++ [])
      | c :: r =>
          if beqb c ":" then
            match int_of_bytes acc with
            | Some size => x <- py_read size r ;; Ok (VBytes (fst x), snd x)
            | None => Raise EValue
            end
          else dec_size f r (acc ++ [c])
      end
  end.

(** Values a decoded dictionary can have as keys: lists and dicts are unhashable. *)
Definition hashable (v : val) : bool :=
  match v with VList _ | VDict _ => false | _ => true end.
(** Equality of hashable decoded keys. *)
Definition key_eqb (a b : val) : bool :=
  match a, b with
  | VBytes x, VBytes y => bytes_eqb x y
  | VInt x, VInt y => Z.eqb x y
  | _, _ => false
  end.

(** bencode.py:105-149 [_decode]; [Hang] stands for running out of fuel. *)
Fixpoint dec (fuel : nat) (s : bytes) : res (val * bytes) :=
  match fuel with
  | O => Hang
  | S f =>
      match s with
      | [] => Raise EDecode
      | c :: r =>
          if beqb c "e" then Ok (VNone, r)
          else if beqb c "i" then dec_number r []
          else if beqb c "l" then dec_list f r []
          else if beqb c "d" then dec_dict f r []
          else dec_size f r [c]
      end
  end
(** bencode.py:124-131 *)
with dec_list (fuel : nat) (s : bytes) (acc : list val) : res (val * bytes) :=
  match fuel with
  | O => Hang
  | S f =>
      x <- dec f s ;;
      match fst x with
      | VNone => Ok (VList (rev acc), snd x)
      | v => dec_list f (snd x) (v :: acc)
      end
  end
(** bencode.py:132-140; [dict(kv)] raises TypeError for unhashable keys. *)
with dec_dict (fuel : nat) (s : bytes) (acc : list (val * val)) : res (val * bytes) :=
  match fuel with
  | O => Hang
  | S f =>
      x <- dec f s ;;
      match fst x with
      | VNone =>
          if forallb (fun p => hashable (fst p)) (rev acc)
          then Ok (VDict (dict_of key_eqb (rev acc)), snd x)
          else Raise EType
      | k =>
          y <- dec f (snd x) ;;
          dec_dict f (snd y) ((k, fst y) :: acc)
      end
  end.

(** Enough fuel for every input on which the Python code finishes
    ([Proof_Bencode.decode_hang_iff]). *)
Definition decode_fuel (s : bytes) : nat := 2 * length s + 1.

(** [_decode] with the unread rest of the input. *)
Definition decode_rest (s : bytes) : res (val * bytes) := dec (decode_fuel s) s.

(** bencode.py:99-102 [decode]: what is left in the BytesIO is discarded. *)
Definition decode (s : bytes) : res val := x <- decode_rest s ;; Ok (fst x).

(** ** Encoder *)

(** A length-prefixed byte string (bencode.py:66-68). *)
Definition enc_bytes (b : bytes) : bytes :=
  bytes_of_int (Z.of_nat (length b)) ++ [":"%byte] ++ b.

(** [sorted] on the items, by their (distinct) bytes keys. *)
Fixpoint insert_key {A} (x : bytes * A) (l : list (bytes * A)) : list (bytes * A) :=
  match l with
  | [] => [x]
  | y :: r => if bytes_ltb (fst y) (fst x) then y :: insert_key x r else x :: l
  end.
Definition sort_keys {A} (l : list (bytes * A)) : list (bytes * A) :=
  fold_right insert_key [] l.

(** All keys as bytes, or [None]. *)
Fixpoint bytes_keys {A} (l : list (val * A)) : option (list (bytes * A)) :=
  match l with
  | [] => Some []
  | (VBytes k, a) :: r => option_map (cons (k, a)) (bytes_keys r)
  | _ => None
  end.

(** What [sorted(obj.keys())] plus the check on the first key raises when some key
    is not bytes (bencode.py:82-85): keys of one orderable type are sorted and the
    first one is refused with EncodingError, keys of different types make [sorted]
    raise TypeError. Tuples and other objects as keys are counted as unorderable
    when there are two or more keys (simplification: only which of the two
    exceptions is raised depends on it). *)
Definition is_text_key (v : val) : bool := match v with VText _ => true | _ => false end.
Definition is_num_key (v : val) : bool := match v with VInt _ | VBool _ => true | _ => false end.
Definition bad_keys_exn (keys : list val) : exn :=
  if (length keys <=? 1) || forallb is_text_key keys || forallb is_num_key keys
  then EEncoding else EType.

(** Running a sequence of encoding steps and joining the output. *)
Fixpoint join_res (l : list (res bytes)) : res bytes :=
  match l with
  | [] => Ok []
  | r :: l' => a <- r ;; b <- join_res l' ;; Ok (a ++ b)
  end.

(** One key and its value (bencode.py:86-87). *)
Definition enc_item (p : bytes * res bytes) : res bytes :=
  x <- snd p ;; Ok (enc_bytes (fst p) ++ x).

(** bencode.py:65-90 [add_encode]. A bool is an [int] whose format is
    [True]/[False] (bencode.py:73-74). *)
Fixpoint add_encode (v : val) : res bytes :=
  match v with
  | VBytes b => Ok (enc_bytes b)
  | VText t =>
      match utf8_encode t with
      | Some b => Ok (enc_bytes b)
      | None => Raise EUnicodeEncode
      end
  | VInt z => Ok (B "i" ++ bytes_of_int z ++ B "e")
  | VBool true => Ok (B "iTruee")
  | VBool false => Ok (B "iFalsee")
  | VList l | VTuple l =>
      b <- join_res (map add_encode l) ;;
      Ok (B "l" ++ b ++ B "e")
  | VDict d =>
      match bytes_keys (map (fun p => (fst p, add_encode (snd p))) d) with
      | None => Raise (bad_keys_exn (map fst d))
      | Some items =>
          b <- join_res (map enc_item (sort_keys items)) ;;
          Ok (B "d" ++ b ++ B "e")
      end
  | VNone | VOther _ => Raise EEncoding
  end.

(** bencode.py:60-96 [encode]: the result is decoded again as a self check
    ([assert decode(bencode_data) is not None]). *)
Definition encode (v : val) : res bytes :=
  b <- add_encode v ;;
  w <- decode b ;;
  match w with
  | VNone => Raise EAssert
  | _ => Ok b
  end.
