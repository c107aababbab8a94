(** * Properties C01-C08: the bencode codec (dataplicity/m2m/bencode.py) *)
From Verif Require Import Py Model_Bencode Spec_Bencode Proof_Bencode.

(** A concrete nested value used to show that hypotheses can be met. *)
Definition sample : val :=
  VTuple [VInt (-7); VText [8364%N]; VBytes (B "x"); VList [];
          VDict [(VBytes (B "b"), VInt 1); (VBytes (B "a"), VList [VBytes []])]].
Example sample_object : py_object sample /\ Encodable sample.
Proof.
  split.
  - repeat first [ apply po_tuple | apply po_list | apply po_int | apply po_bytes; reflexivity | apply po_text
                 | apply po_dict | apply Forall_nil | apply Forall_cons | split ];
      try (intros b [= <-]; reflexivity).
    cbn. apply NoDup_cons; [|apply NoDup_cons; [|apply NoDup_nil]]; cbn; intuition discriminate.
  - eapply en_seq; [apply items_tuple|].
    apply Forall_cons; [apply en_int|].
    apply Forall_cons; [eapply en_octets, oct_text; reflexivity|].
    apply Forall_cons; [eapply en_octets, oct_bytes|].
    apply Forall_cons; [eapply en_seq; [apply items_list|apply Forall_nil]|].
    apply Forall_cons; [|apply Forall_nil].
    apply en_dict. apply Forall_cons; [split; [eexists; reflexivity|apply en_int]|].
    apply Forall_cons; [|apply Forall_nil]. split; [eexists; reflexivity|].
    eapply en_seq; [apply items_list|]. apply Forall_cons; [|apply Forall_nil]. eapply en_octets, oct_bytes.
Qed.

(** C01. Decoding an encoding gives back the same data, in wire form. *)
Theorem C01_bencode_round_trip : forall v, py_object v -> Encodable v ->
  exists b w, encode v = Ok b /\ decode b = Ok w /\ same_data v w /\ Wire w.
Proof. exact c01. Qed.
Print Assumptions C01_bencode_round_trip.
Example C01_case : encode sample = Ok (B "li-7e3:" ++ [xe2; x82; xac] ++ B "1:xled1:al0:e1:bi1eee")
  /\ decode (B "d1:bi1e1:ai2ee") = Ok (VDict [(VBytes (B "b"), VInt 1); (VBytes (B "a"), VInt 2)]).
Proof. split; reflexivity. Qed.

(** C02. Equal encodings exactly for equal data. *)
Theorem C02_bencode_canonical : forall v w b c, py_object v -> py_object w ->
  encode v = Ok b -> encode w = Ok c -> (b = c <-> same_data v w).
Proof. exact c02. Qed.
Print Assumptions C02_bencode_canonical.
Example C02_case :
  encode (VDict [(VBytes (B "b"), VInt 1); (VBytes (B "a"), VText (T "q"))])
  = encode (VDict [(VBytes (B "a"), VBytes (B "q")); (VBytes (B "b"), VInt 1)])
  /\ encode (VInt 1) <> encode (VBytes (B "1")).
Proof. split; [reflexivity|discriminate]. Qed.

(** C03. An encoding followed by anything decodes to the same value and exactly the
    encoding is consumed; no encoding is a proper prefix of another. *)
Theorem C03_bencode_self_delimiting : forall v b t, py_object v -> encode v = Ok b ->
  exists w, decode b = Ok w /\ decode_rest (b ++ t) = Ok (w, t) /\ decode (b ++ t) = Ok w.
Proof. exact c03_stream. Qed.
Print Assumptions C03_bencode_self_delimiting.
Theorem C03_bencode_prefix_free : forall v w b t, py_object v -> py_object w ->
  encode v = Ok b -> encode w = Ok (b ++ t) -> t = [].
Proof. exact c03_prefix. Qed.
Print Assumptions C03_bencode_prefix_free.
Example C03_case : decode_rest (B "li1eeXYZ") = Ok (VList [VInt 1], B "XYZ").
Proof. reflexivity. Qed.

(** C04. [encode] returns bytes exactly for encodable values, and raises otherwise. *)
Theorem C04_bencode_domain : forall v, py_object v ->
  (Encodable v -> exists b, encode v = Ok b) /\ (~ Encodable v -> exists e, encode v = Raise e).
Proof. exact c04. Qed.
Print Assumptions C04_bencode_domain.
Example C04_case : encode (VList [VInt 1; VBool true]) = Raise EDecode
  /\ encode (VList [VNone]) = Raise EEncoding
  /\ encode (VText [55296%N]) = Raise EUnicodeEncode
  /\ encode (VDict [(VText (T "k"), VInt 1)]) = Raise EEncoding
  /\ (exists b, encode sample = Ok b).
Proof. repeat split; try reflexivity. eexists; reflexivity. Qed.

(** C05 as stated is false: a string size that is not terminated makes the size
    loop (bencode.py:143-147) run for ever at the end of the input. *)
Theorem C05_decode_finishes_refuted : exists s, forall fuel, dec fuel s = Hang.
Proof. exact (ex_intro _ (B "5") (proj1 (decode_hang_iff (B "5")) eq_refl)). Qed.
Print Assumptions C05_decode_finishes_refuted.
(** The part that holds: [decode] finishes on every input except exactly the
    inputs described by the grammar [stuck]; [Hang] really means that no amount of
    steps suffices. Missing for the full statement: the [stuck] inputs. *)
Theorem C05_decode_finishes_partial : forall s,
  (decode s = Hang <-> stuck s) /\ (decode_rest s = Hang <-> forall fuel, dec fuel s = Hang).
Proof. exact (fun s => conj (decode_stuck s) (decode_hang_iff s)). Qed.
Print Assumptions C05_decode_finishes_partial.
(** A hanging input ends in a string size without colon. *)
Theorem C05_hang_needs_open_size_partial : forall s, stuck s ->
  exists p c q, s = p ++ c :: q /\ ~ type_byte c /\ ~ In ":"%byte q.
Proof. exact stuck_suffix. Qed.
Print Assumptions C05_hang_needs_open_size_partial.
Example C05_case : stuck (B "li1e5e") /\ ~ stuck (B "li1e5:e").
Proof. split; [apply decode_stuck; reflexivity|]. intros H. apply decode_stuck in H. discriminate. Qed.

(** C06 as stated is false: ValueError, TypeError and OverflowError occur too. *)
Theorem C06_malformed_decode_error_refuted :
  decode (B "ie") = Raise EValue /\ decode (B "dlei1ee") = Raise EType
  /\ decode (B "9223372036854775808:") = Raise EOverflow.
Proof. exact (conj eq_refl (conj eq_refl eq_refl)). Qed.
Print Assumptions C06_malformed_decode_error_refuted.
(** The part that holds: the only exceptions are DecodeError and these three. *)
Theorem C06_malformed_exceptions_partial : forall s e, decode s = Raise e ->
  e = EDecode \/ e = EValue \/ e = EType \/ e = EOverflow.
Proof. exact c06_exns. Qed.
Print Assumptions C06_malformed_exceptions_partial.
Example C06_case : decode (B "li1e") = Raise EDecode.
Proof. reflexivity. Qed.

(** C07. No proper prefix of an encoded list decodes to anything. *)
Theorem C07_truncated_list_rejected : forall v l b p, py_object v -> items v l ->
  encode v = Ok b -> proper_prefix p b -> forall w, decode p <> Ok w.
Proof. exact c07. Qed.
Print Assumptions C07_truncated_list_rejected.
Example C07_case : encode (VList [VInt 6; VBytes (B "abc")]) = Ok (B "li6e3:abce")
  /\ proper_prefix (B "li6e3:ab") (B "li6e3:abce") /\ decode (B "li6e3:ab") = Raise EDecode.
Proof. split; [reflexivity|split; [|reflexivity]]. exists (B "ce"). split; [discriminate|reflexivity]. Qed.

(** C08. A decoded value has no more nodes and content bytes than the input has bytes. *)
Theorem C08_decode_no_amplification : forall s v, decode s = Ok v -> weight v <= length s.
Proof. exact c08. Qed.
Print Assumptions C08_decode_no_amplification.
Example C08_case : exists v, decode (B "l999999999:abe") = Raise EDecode
  /\ decode (B "999999999:ab") = Ok v /\ weight v = 3.
Proof. eexists; repeat split. Qed.
