(** * Property C135: the descriptor numbers of terminals (dataplicity/m2m/proxy.py) *)
From Verif Require Import Py Model_Handle Spec_Handle Proof_Handle.

(** What is done for a terminal whose descriptor is not closed yet is done to its own pty. *)
Theorem C135_while_open_partial : forall t0 l e i w u, let st := hrun l (hinit t0) in
  uses (hstep e st) = (i, w, u) :: uses st -> w = Pty i \/ has_closed st i.
Proof. exact misdirected. Qed.
Print Assumptions C135_while_open_partial.
(** Callbacks that start after the number is forgotten do nothing. *)
Theorem C135_forgotten_partial : forall t0 l i fd d, let st := hrun l (hinit t0) in
  t_pc (terms st i) = TForgot fd -> hstep (Input i d) st = st /\ hstep (Resize i) st = st.
Proof. exact forgotten. Qed.
Print Assumptions C135_forgotten_partial.
(** If closing and forgetting excluded the callbacks, the claim would hold. *)
Theorem C135_exclusive_partial : forall t0 l, exclusive l (hinit t0) -> own_only (hrun l (hinit t0)).
Proof. exact exclusive_own. Qed.
Print Assumptions C135_exclusive_partial.

(** Whatever happened before: if a new terminal is created after the descriptor is closed and
    before it is forgotten, it gets the number, and what the peer types into the old terminal
    is written to the new one. *)
Theorem C135_other_terminal_refuted : forall t0 l i j fd d, let st := hrun l (hinit t0) in
  t_pc (terms st i) = TCopy fd -> c_pc (terms st i) = CIdle -> t_pc (terms st j) = TNew -> d <> [] -> (forall k, k < fd -> table st k <> None) ->
  let evs := [CloseFd i; Fork j fd; Input i d; Step i (length d) true] in
  kernel_like evs st /\ uses (hrun evs st) = (i, Pty j, UWrite d) :: uses st.
Proof. exact reused. Qed.
Print Assumptions C135_other_terminal_refuted.
(** If a write is under way, the time is longer: forgetting the number does not help, and the
    data may get into a file or socket of the agent. *)
Theorem C135_under_way_refuted : forall t0 l i fd m d, let st := hrun l (hinit t0) in
  t_pc (terms st i) = TCopy fd -> c_pc (terms st i) = CWrite fd d -> d <> [] -> (forall k, k < fd -> table st k <> None) ->
  let evs := [CloseFd i; Forget i; Opens fd m; Step i (length d) true] in
  kernel_like evs st /\ uses (hrun evs st) = (i, Other m, UWrite d) :: uses st.
Proof. exact reused_other. Qed.
Print Assumptions C135_under_way_refuted.

(** Descriptors 0 to 4 are open. Terminal 7 types and is resized. *)
Definition five (fd : nat) : option nat := if fd <? 5 then Some fd else None.
Definition typing : list event := [Fork 7 5; SetFd 7; Reads 7; Input 7 (B "ls"); Step 7 0 true; Step 7 0 true; Step 7 0 true; Resize 7; Step 7 0 true; Step 7 0 true; Step 7 0 true].
Example C135_case : let st := hrun typing (hinit five) in
  kernel_like typing (hinit five) /\ exclusive (typing ++ [CloseFd 7; Opens 5 9; Forget 7; Input 7 (B "x"); Resize 7]) (hinit five) /\
  uses st = [(7, Pty 7, UResize); (7, Pty 7, UWrite (B "s")); (7, Pty 7, UWrite (B "l")); (7, Pty 7, URead)] /\
  t_pc (terms st 7) = TCopy 5 /\ c_pc (terms st 7) = CIdle /\ t_pc (terms st 8) = TNew /\ (forall k, k < 5 -> table st k <> None) /\
  (let st2 := hrun [Input 7 (B "exit"); Step 7 1 true] st in t_pc (terms st2 7) = TCopy 5 /\ c_pc (terms st2 7) = CWrite 5 (B "it") /\ (forall k, k < 5 -> table st2 k <> None)) /\
  t_pc (terms (hrun [CloseFd 7; Forget 7] st) 7) = TForgot 5.
Proof.
  assert (L : forall k, k < 5 -> k = 0 \/ k = 1 \/ k = 2 \/ k = 3 \/ k = 4) by (intros; lia).
  split; [cbn; repeat split; auto; intros k K; apply L in K; repeat destruct K as [K|K]; subst; discriminate|].
  split; [vm_compute; repeat split|]. split; [reflexivity|]. split; [reflexivity|]. split; [reflexivity|]. split; [reflexivity|].
  split; [intros k K; apply L in K; repeat destruct K as [K|K]; subst; discriminate|]. split; [|reflexivity].
  split; [reflexivity|]. split; [reflexivity|]. intros k K. apply L in K. repeat destruct K as [K|K]; subst; discriminate.
Qed.
