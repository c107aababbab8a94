(** * C119-C122: the processes of terminals *)
From Verif Require Import Py Model_Child Model_Process Spec_Process Spec_Child Proof_Child.

(** ** C119: rights *)
(** With a known user the program has that user's ids, and nothing it does later gives it others. *)
Theorem C119_user_partial : forall passwd group_db shell exec held u uid group argv c p c', plain c -> passwd u = Some uid ->
  child_run passwd group_db shell exec held (Some u) group argv c = Executes p c' ->
  as_user uid c' /\ (uid <> 0%Z -> forall c'', later c' c'' -> as_user uid c'').
Proof. exact c119_user. Qed.
Print Assumptions C119_user_partial.
Theorem C119_group_partial : forall passwd group_db shell exec held user g gid argv c p c', plain c -> group_db g = Some gid ->
  child_run passwd group_db shell exec held user (Some g) argv c = Executes p c' -> as_group gid c'.
Proof. exact c119_group. Qed.
Print Assumptions C119_group_partial.
(** False: an unknown user is ignored, the program runs with the agent's rights. *)
Theorem C119_unknown_user_refuted : forall passwd group_db shell exec held u group argv c, passwd u = None ->
  child_run passwd group_db shell exec held (Some u) group argv c = child_run passwd group_db shell exec held None group argv c.
Proof. exact c119_unknown. Qed.
Print Assumptions C119_unknown_user_refuted.
(** So is an unknown group. *)
Theorem C119_unknown_group_refuted : forall passwd group_db shell exec held user g argv c, group_db g = None ->
  child_run passwd group_db shell exec held user (Some g) argv c = child_run passwd group_db shell exec held user None argv c.
Proof. exact c119_unknown_group. Qed.
Print Assumptions C119_unknown_group_refuted.
(** False: with a user and another group than the agent's nothing is ever executed, since the group
    is changed after the user. *)
Theorem C119_user_and_group_refuted : forall passwd group_db shell exec held u uid g gid argv c p c', plain c -> passwd u = Some uid -> uid <> 0%Z ->
  group_db g = Some gid -> gid <> egid c -> child_run passwd group_db shell exec held (Some u) (Some g) argv c <> Executes p c'.
Proof. exact c119_both. Qed.
Print Assumptions C119_user_and_group_refuted.
(** False: the groups of the agent are kept, without a configured group also its main group. *)
Theorem C119_groups_kept_refuted : forall passwd group_db shell exec held user argv c p c',
  child_run passwd group_db shell exec held user None argv c = Executes p c' ->
  groups c' = groups c /\ rgid c' = rgid c /\ egid c' = egid c /\ sgid c' = sgid c.
Proof. exact c119_groups. Qed.
Print Assumptions C119_groups_kept_refuted.
Theorem C119_other_groups_kept_refuted : forall passwd group_db shell exec held user group argv c p c',
  child_run passwd group_db shell exec held user group argv c = Executes p c' -> groups c' = groups c.
Proof. exact c119_extra. Qed.
Print Assumptions C119_other_groups_kept_refuted.
Definition root : creds := Creds 0 0 0 0 0 0 [0; 4; 27]%Z.
Definition users (u : text) : option Z := if text_eqb u (T "pi") then Some 1000%Z else None.
Definition bash : list text := [T "bash"; T "-i"].
Definition any (argv : list text) (c : creds) : option exn := None.
Example C119_case : plain root /\ users (T "pi") = Some 1000%Z /\ users (T "po") = None /\
  child_run users users None any false (Some (T "pi")) None bash root = Executes bash (Creds 1000 1000 1000 0 0 0 [0; 4; 27]%Z) /\
  child_run users users None any false None (Some (T "pi")) bash root = Executes bash (Creds 0 0 0 1000 1000 1000 [0; 4; 27]%Z) /\
  child_run users users None any false (Some (T "po")) None bash root = Executes bash root /\
  child_run users users None any false (Some (T "pi")) (Some (T "pi")) bash root = Ends EOS.
Proof. vm_compute. auto 12. Qed.

(** ** C120: the program *)
Theorem C120_program : forall passwd group_db shell exec held user group argv c p c',
  child_run passwd group_db shell exec held user group argv c = Executes p c' -> chosen shell argv p /\ exec p c' = None.
Proof. exact c120_only. Qed.
Print Assumptions C120_program.
Theorem C120_runs : forall passwd group_db shell exec held argv c p, chosen shell argv p -> exec p c = None ->
  child_run passwd group_db shell exec held None None argv c = Executes p c.
Proof. exact c120_runs. Qed.
Print Assumptions C120_runs.
(** Otherwise the child ends, if no other thread had the limiter's lock when it was forked. *)
Theorem C120_ends_partial : forall passwd group_db shell exec user group argv c,
  child_run passwd group_db shell exec false user group argv c <> Waits.
Proof. exact c120_ends. Qed.
Print Assumptions C120_ends_partial.
(** If one had, the child stays for ever instead of ending. *)
Theorem C120_child_stays_refuted : forall passwd group_db shell exec user group argv c e,
  child_run passwd group_db shell exec false user group argv c = Ends e -> child_run passwd group_db shell exec true user group argv c = Waits.
Proof. exact c120_waits. Qed.
Print Assumptions C120_child_stays_refuted.
Definition no_bash (argv : list text) (c : creds) : option exn := match argv with p :: _ => if text_eqb p (T "bash") then Some EOS else None | [] => None end.
Example C120_case : child_run users users None any true None None bash root = Executes bash root /\
  child_run users users (Some (T "sh")) any true None None [] root = Executes [T "sh"] root /\
  child_run users users None any false None None [] root = Ends EKey /\ child_run users users None no_bash false None None bash root = Ends EOS /\
  child_run users users None no_bash true None None bash root = Waits.
Proof. vm_compute. auto 12. Qed.

(** ** C121: finished processes are collected *)
(** False: as long as nobody closes the channel, nobody waits for the process. *)
Theorem C121_never_collected_refuted : forall t0 evs, Forall unclosed evs -> waiters (prun evs (pinit t0)) = [] /\ kid (prun evs (pinit t0)) <> Reaped.
Proof. exact c121_refuted. Qed.
Print Assumptions C121_never_collected_refuted.
Theorem C121_wait_collects_partial : forall t0 evs st w, st = prun evs (pinit t0) -> waiters st = [w] -> kid st = Zombie -> w_phase w <> Finished ->
  (w_phase w = StillRunning -> (now st < w_start w + 86400)%Z) -> kid (prun (round 0) st) = Reaped.
Proof. exact c121. Qed.
Print Assumptions C121_wait_collects_partial.
Theorem C121_closing_collects_partial : forall t0 evs st, st = prun evs (pinit t0) -> kid st = Zombie -> ph st <> Forked -> chan_closed st = false -> closed st = false ->
  kid (prun (CloseChannel true true :: round 0) st) = Reaped.
Proof. exact c121_close. Qed.
Print Assumptions C121_closing_collects_partial.
Definition logout : list event := [Fork true; SetPid; InitFd true; Prints (B "bye"); Exits; Reads 3 true true; CloseFd; ForgetFd; Tick 3600].
Example C121_case : Forall unclosed logout /\ kid (prun logout (pinit 0)) = Zombie /\ ph (prun logout (pinit 0)) = Over /\
  chan_closed (prun logout (pinit 0)) = false /\ closed (prun logout (pinit 0)) = false /\
  kid (prun (logout ++ CloseChannel true true :: round 0) (pinit 0)) = Reaped.
Proof. split; [repeat constructor|]. vm_compute. auto 6. Qed.
Example C121_wait_case : let st := prun ([Fork true; SetPid; InitFd true; CloseChannel true true; Begins 0; Tick 2; WaitPid 0; Exits]) (pinit 0) in
  waiters st = [W 0 warnings0 false StillRunning] /\ kid st = Zombie /\ (now st < 0 + 86400)%Z /\ kid (prun (round 0) st) = Reaped.
Proof. vm_compute. auto. Qed.

(** ** C122: the terminal's descriptor is closed *)
Theorem C122_released_partial : forall t0 evs st, st = prun evs (pinit t0) -> Forall untroubled evs -> ph st = Over -> kid st <> Unborn -> fd st = false.
Proof. exact c122. Qed.
Print Assumptions C122_released_partial.
(** False: it stays open for good if setting the window's size raises, or sending raises anything but an
    OSError. *)
Theorem C122_descriptor_kept_refuted : forall t0 before e more st st', st = prun before (pinit t0) ->
  (ph st = HavePid /\ e = InitFd false \/ ph st = Copying /\ exists n hangup, e = Reads n hangup false) ->
  st' = prun (e :: more) st -> ph st' = Over /\ fd st' = true.
Proof. exact c122_refuted. Qed.
Print Assumptions C122_descriptor_kept_refuted.
Example C122_case : Forall untroubled logout /\ ph (prun logout (pinit 0)) = Over /\ kid (prun logout (pinit 0)) = Zombie /\ fd (prun logout (pinit 0)) = false /\
  (let st := prun [Fork true; SetPid] (pinit 0) in ph st = HavePid /\ fd (prun [InitFd false; Exits; CloseChannel true true] st) = true) /\
  (let st := prun [Fork true; SetPid; InitFd true; Prints (B "x")] (pinit 0) in ph st = Copying /\ fd (prun [Reads 1 false false; Exits; Hangup; CloseFd; ForgetFd] st) = true).
Proof. split; [repeat constructor|]. vm_compute. auto 9. Qed.
