(** * The decoder under the limits of the interpreter

    [Model_Bencode.v] leaves out CPython's limit on nested calls and the limit on the digits given to
    [int()].  Here both are there.  The callbacks of a client are as in [Model_Client.v]. *)
From Verif Require Import Py Model_Bencode Model_Client.

(** How many nested calls are left when [decode] is entered, less what [_decode] itself needs to call
    [read]; and the digits [int()] takes ([sys.get_int_max_str_digits()]; none before Python 3.11). *)
Record limits := Limits { frames : nat; max_digits : option nat }.
(** [int(b)]: ValueError if there are too many digits, underscores and sign not counted. *)
Definition limited_int (m : option nat) (b : bytes) : option Z :=
  match m with
  | Some k => if k <? length (filter (fun c => is_digit (Byte.to_N c)) b) then None else int_of_bytes b
  | None => int_of_bytes b
  end.
(** bencode.py:113-122 *)
Fixpoint ldec_number (m : option nat) (s acc : bytes) : res (val * bytes) :=
  match s with
  | [] => Raise EDecode
  | c :: r =>
      if negb (is_digit (Byte.to_N c)) && negb (beqb c "-") then
        if negb (beqb c "e") then Raise EDecode
        else match limited_int m acc with
             | Some z => Ok (VInt z, r)
             | None => Raise EValue
             end
      else ldec_number m r (acc ++ [c])
  end.
(** bencode.py:142-149 *)
Fixpoint ldec_size (m : option nat) (fuel : nat) (s acc : bytes) : res (val * bytes) :=
  match fuel with
  | O => Hang
  | S f =>
      match s with
      | [] => ldec_size m f [] (acc ++ [])
      | c :: r =>
          if beqb c ":" then
            match limited_int m acc with
            | Some size => x <- py_read size r ;; Ok (VBytes (fst x), snd x)
            | None => Raise EValue
            end
          else ldec_size m f r (acc ++ [c])
      end
  end.
(** bencode.py:105-149 [_decode] with [d] calls left, this one included; RecursionError is [EOther]. *)
Fixpoint ldec (m : option nat) (fuel d : nat) (s : bytes) : res (val * bytes) :=
  match fuel with
  | O => Hang
  | S f =>
      match d with
      | O => Raise EOther
      | S d =>
          match s with
          | [] => Raise EDecode
          | c :: r =>
              if beqb c "e" then Ok (VNone, r)
              else if beqb c "i" then ldec_number m r []
              else if beqb c "l" then ldec_list m f d r []
              else if beqb c "d" then ldec_dict m f d r []
              else ldec_size m f r [c]
          end
      end
  end
(** bencode.py:124-131 *)
with ldec_list (m : option nat) (fuel d : nat) (s : bytes) (acc : list val) : res (val * bytes) :=
  match fuel with
  | O => Hang
  | S f =>
      x <- ldec m f d s ;;
      match fst x with
      | VNone => Ok (VList (rev acc), snd x)
      | v => ldec_list m f d (snd x) (v :: acc)
      end
  end
(** bencode.py:132-140 *)
with ldec_dict (m : option nat) (fuel d : nat) (s : bytes) (acc : list (val * val)) : res (val * bytes) :=
  match fuel with
  | O => Hang
  | S f =>
      x <- ldec m f d s ;;
      match fst x with
      | VNone =>
          if forallb (fun p => hashable (fst p)) (rev acc)
          then Ok (VDict (dict_of key_eqb (rev acc)), snd x)
          else Raise EType
      | k =>
          y <- ldec m f d (snd x) ;;
          ldec_dict m f d (snd y) ((k, fst y) :: acc)
      end
  end.
(** bencode.py:99-102 [decode] *)
Definition ldecode (L : limits) (s : bytes) : res val := x <- ldec (max_digits L) (decode_fuel s) (frames L) s ;; Ok (fst x).

(** ** The client with this decoder *)
Section Limited.
  Variable env : list effect -> effect -> list (op * bool) * option exn.
  Variable error_text : list effect -> text.
  (** wsclient.py:320-328 [on_binary]; the bare except *)
  Definition lon_binary (L : limits) (data : bytes) : action := fun st =>
    match ldecode L data with
    | Ok v => on_packet env error_text v st
    | Raise _ => (st, Ok tt)
    | Hang => (st, Hang)
    end.
  (** wsclient.py:259-268, 275-284 *)
  Definition lstep (L : limits) (i : input) : action := fun st =>
    match i with
    | InEvent (EvBinary d) => guard (lon_binary L d) st
    | i => step env error_text i st
    end.
  (** Every input with what is left of the limits when it comes *)
  Fixpoint lrun (l : list (limits * input)) (st : state) : option state :=
    match l with
    | [] => Some st
    | (L, i) :: r => match lstep L i st with
                     | (st', Hang) => None
                     | (st', _) => lrun r st'
                     end
    end.
End Limited.
