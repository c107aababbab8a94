(** * Properties C85 and C86: the window size of terminals (dataplicity/m2m/remoteprocess.py,
    dataplicity/m2m/proxy.py) *)
From Verif Require Import Py Model_Rpc Model_Window Spec_Window Proof_Window.

(** The messages of the examples *)
Definition message (s : json) : json := JObj [(T "type", JStr (T "window_resize")); (T "size", s)].
Definition wide : json := JArr [JInt 132; JInt 50].
Definition vast : json := JArr [JInt 132; JInt 50; JInt 1].

(** ** C85 *)
(** While the terminal runs and no message is being handled, its window has the latest proper
    size asked for, or the initial one, if no size came between reading the size and setting it
    at the start, and setting it never failed. *)
Theorem C85_window_has_latest_size_partial : forall s0 evs, Forall sets evs -> unhurried (winit s0) evs ->
  let st := wrun evs (winit s0) in phase_of st = Copying -> m2m_of st = Idle ->
  exists c l, latest (stored st ++ [initial s0]) c l /\ shows (window st) c l.
Proof. exact window_is_latest. Qed.
Print Assumptions C85_window_has_latest_size_partial.
(** A message for a running terminal is carried out at once, in any state. *)
Theorem C85_running_terminal_resized : forall j s c l st, phase_of st = Copying -> m2m_of st = Idle -> asks j s -> shape s c l ->
  let st' := wrun [Control (Some j); M2M true; M2M true; M2M true; M2M true] st in
  shows (window st') c l /\ m2m_of st' = Idle /\ phase_of st' = Copying.
Proof. exact resized. Qed.
Print Assumptions C85_running_terminal_resized.
(** A message that comes while the terminal starts can be undone by the start. *)
Theorem C85_start_undoes_resize_refuted : forall j s s0 c l c' l', asks j s -> shape s c l -> shape (initial s0) c' l' ->
  let st := wrun [Fork true; InitRead; Control (Some j); M2M true; M2M true; M2M true; M2M true; InitSet true] (winit s0) in
  phase_of st = Copying /\ m2m_of st = Idle /\ stored st = [s] /\ shows (window st) c' l'.
Proof. exact race. Qed.
Print Assumptions C85_start_undoes_resize_refuted.
(** A message before the start and one while the terminal starts, then one that is not proper *)
Example C85_case :
  let evs := [Control (Some (message (JArr [JInt 100; JInt 30]))); M2M true; Fork true; M2M true; InitRead; InitSet true; M2M true; M2M true;
              Control (Some (message wide)); M2M true; M2M true; M2M true; M2M true;
              Control (Some (message vast)); M2M true; M2M true; M2M true; Control None] in
  let st := wrun evs (winit JNull) in
  Forall sets evs /\ unhurried (winit JNull) evs /\ phase_of st = Copying /\ m2m_of st = Idle /\ window st = Some (50, 132)%Z /\
  stored st = [vast; wide; JArr [JInt 100; JInt 30]] /\ latest (stored st ++ [initial JNull]) 132 50.
Proof.
  cbv zeta. split; [repeat constructor|]. split; [vm_compute; tauto|]. do 4 (split; [vm_compute; reflexivity|]).
  apply latest_before; [intros (c & l & H); inversion H|]. apply latest_here. constructor; constructor; lia.
Qed.
Example C85_race_case : asks (message wide) wide /\ shape wide 132 50 /\ shape (initial JNull) 80 24.
Proof. split; [eexists; vm_compute; repeat split; auto|]. split; repeat constructor; lia. Qed.

(** ** C86 *)
(** Data that are no message, or not about a size, change nothing. *)
Theorem C86_other_data_ignored : forall data st, (forall j s, data = Some j -> ~ asks j s) -> wstep (Control data) st = st.
Proof. exact other_ignored. Qed.
Print Assumptions C86_other_data_ignored.
(** Nor does a size that is not proper, while the terminal runs, whatever fails. *)
Theorem C86_improper_size_ignored_partial : forall j s st ok1 ok2 ok3, phase_of st = Copying -> m2m_of st = Idle -> asks j s -> ~ proper s ->
  let st' := wrun [Control (Some j); M2M ok1; M2M ok2; M2M ok3] st in
  window st' = window st /\ m2m_of st' = Idle /\ phase_of st' = Copying.
Proof. exact improper_kept. Qed.
Print Assumptions C86_improper_size_ignored_partial.
(** It is stored, though: before the start it makes the terminal's thread fail. *)
Theorem C86_improper_size_ends_terminal_refuted : forall j s s0 ok1 ok2, asks j s -> ~ proper s ->
  phase_of (wrun [Control (Some j); M2M ok1; M2M ok2; Fork true; InitRead] (winit s0)) = Broken.
Proof. exact improper_kills. Qed.
Print Assumptions C86_improper_size_ends_terminal_refuted.
(** So does an improper size in the instruction that opens the terminal. *)
Theorem C86_improper_initial_size_refuted : forall s0, s0 <> JNull -> ~ proper s0 -> phase_of (wrun [Fork true; InitRead] (winit s0)) = Broken.
Proof. exact improper_start. Qed.
Print Assumptions C86_improper_initial_size_refuted.
(** In every run a window is set only while the terminal's descriptor is open. *)
Theorem C86_only_while_open : forall s0 evs e, let st := wrun evs (winit s0) in window (wstep e st) <> window st -> open_window (phase_of st).
Proof. exact only_open. Qed.
Print Assumptions C86_only_while_open.
(** A terminal whose start failed is still resized; a size for one that is over is stored only. *)
Example C86_open_case :
  let resize := [Control (Some (message wide)); M2M true; M2M true; M2M true] in
  let broken := wrun ([Fork true; InitRead; InitSet false] ++ resize) (winit JNull) in
  window broken = None /\ window (wstep (M2M true) broken) = Some (50, 132)%Z /\ phase_of broken = Broken /\
  let over := wrun ([Fork true; InitRead; InitSet true; CloseFd; ForgetFd] ++ resize ++ [M2M true]) (winit JNull) in
  window over = Some (24, 80)%Z /\ stored over = [wide].
Proof. vm_compute. auto 6. Qed.
Example C86_case : asks (message vast) vast /\ ~ proper vast /\ ~ proper (JArr [JInt 40000; JInt 50]) /\
  (forall s, ~ asks (JArr [wide]) s) /\ (forall s, ~ asks (JObj [(T "type", JStr (T "window_resize"))]) s) /\
  phase_of (wrun [Fork true; InitRead; InitSet true] (winit wide)) = Copying.
Proof.
  split; [eexists; vm_compute; repeat split; auto|]. split; [intros (c & l & H); inversion H|].
  split; [intros (c & l & H); inversion H as [a b c' l' A B]; subst; inversion A; lia|].
  split; [intros s (d & H & _); discriminate|]. split; [intros s (d & [= <-] & _ & H & _); discriminate|]. reflexivity.
Qed.
