(** * C128-C129: the limits of the interpreter *)
From Verif Require Import Py Model_Bencode Spec_Bencode Model_Client Model_Depth Spec_Depth Proof_Depth.
From Coq Require Import Lia.

(** ** C128 The interpreter's limits only refuse data *)
(** Whatever is left of the limits: the outcome is that of the decoder without limits, or RecursionError or ValueError. *)
Theorem C128_same_or_refused : forall L s, ldecode L s = decode s \/ refused (ldecode L s).
Proof. exact decode_same. Qed.
Print Assumptions C128_same_or_refused.

(** They refuse nothing that has fewer opening bytes than calls are left, and no more digits than are allowed. *)
Theorem C128_within : forall L s, within L s -> ldecode L s = decode s.
Proof. exact decode_within. Qed.
Print Assumptions C128_within.

(** As many nested lists as calls are left are refused, whatever follows; so are numbers with too many digits. *)
Theorem C128_deep_refused : forall L n s, frames L <= n -> ldecode L (repeat "l"%byte n ++ s) = Raise EOther.
Proof. exact deep_refused. Qed.
Print Assumptions C128_deep_refused.
Theorem C128_long_refused : forall L k ds s, frames L <> 0 -> max_digits L = Some k ->
  Forall (fun c => is_digit (Byte.to_N c) = true) ds -> k < length ds ->
  ldecode L ("i"%byte :: ds ++ "e"%byte :: s) = Raise EValue.
Proof. exact long_refused. Qed.
Print Assumptions C128_long_refused.

(** They make nothing hang that does not hang anyway; and more steps than the model allows change nothing. *)
Theorem C128_no_new_hang : forall L s, (ldecode L s = Hang -> stuck s) /\
  forall f, decode_fuel s <= f -> ldecode L s = (x <- ldec (max_digits L) f (frames L) s ;; Ok (fst x)).
Proof. exact (fun L s => conj (limited_hang L s) (limited_fuel L s)). Qed.
Print Assumptions C128_no_new_hang.

Example C128_case :
  let L := Limits 3 (Some 8) in
  within L (B "li12ee") /\ ldecode L (B "li12ee") = Ok (VList [VInt 12])
  /\ ldecode L (B "llleee") = Raise EOther /\ decode (B "llleee") = Ok (VList [VList [VList []]])
  /\ ldecode L (B "i123456789e") = Raise EValue /\ decode (B "i123456789e") = Ok (VInt 123456789)
  /\ within L (B "i12345678e") /\ ldecode L (B "i12345678e") = Ok (VInt 12345678)
  /\ ldecode L (B "llee") = Ok (VList [VList []]) /\ ldecode L (B "l5") = Hang.
Proof. cbn zeta. split; [split; [vm_compute; lia|intros k [= <-]; vm_compute; lia]|]. repeat split; try (vm_compute; reflexivity); [vm_compute; lia|intros k [= <-]; vm_compute; lia]. Qed.

(** ** C129 The limits change a session only by losing the messages they refuse *)
(** Whatever is left of the limits at each message, the client does what it does without limits when
    the refused messages never come.  So what is proved of all sessions holds with limits, too. *)
Theorem C129_loses_refused_only : forall env error_text l st, exists k,
  without_refused l k /\ lrun env error_text l st = run env error_text k st.
Proof. exact sessions. Qed.
Print Assumptions C129_loses_refused_only.

(** A ping between two lists that are nested too deep: it is answered. *)
Example C129_case : let calm := fun (_ : list effect) (_ : effect) => ([] : list (op * bool), @None exn) in
  let bomb := B "lllllleeeeee" in let L := Limits 4 None in
  lrun calm (fun _ => []) [(L, InEvent (EvBinary bomb)); (L, InEvent (EvBinary (B "li7e2:hie"))); (L, InEvent (EvBinary bomb))] (init_state None)
  = run calm (fun _ => []) [InEvent (EvBinary (B "li7e2:hie"))] (init_state None)
  /\ refused (ldecode L bomb) /\ ~ refused (decode bomb)
  /\ exists st, run calm (fun _ => []) [InEvent (EvBinary (B "li7e2:hie"))] (init_state None) = Some st /\ st_trace st <> [].
Proof.
  cbn zeta. split; [vm_compute; reflexivity|]. split; [left; vm_compute; reflexivity|].
  split; [intros [H|H]; vm_compute in H; discriminate|]. eexists. split; [vm_compute; reflexivity|]. discriminate.
Qed.
