(** * Proofs of C143 *)
From Verif Require Import Py Model_Services Spec_Services Spec_Ending Proof_Services Proof_Services2 Proof_Services3.

Lemma not_started w chunk polls stdout rc1 rc2 e : a_os (w 0) = Some e -> undisturbed w 2 ->
  exists st, command_run w chunk polls stdout rc1 rc2 sinit = (st, Ok (Some tt)) /\ ~ let_go st /\
    sent st = [OControl "command" "error" "error" "error running command"].
Proof.
  intros O U. destruct (U 0) as [C0 _]; [lia|]. destruct (U 1) as [C1 S1]; [lia|].
  eexists. split; [|split].
  - unfold command_run, command_run_inner, command_error, ch_send, os_op, tryM, bindM, tick, sinit. cbn. rewrite O. cbn. rewrite C0, C1. cbn. rewrite S1. reflexivity.
  - intros [H|H]; [discriminate H|]. cbn in H. destruct H as [H|[]]. discriminate H.
  - reflexivity.
Qed.
Lemma no_text w chunk path content : (forall t, path <> VText t) -> undisturbed w 1 ->
  exists st, file_run w chunk path content sinit = (st, Ok tt) /\ ~ let_go st /\
    sent st = [OControl "remote-file" "error" "error" "internal error, see agent logs"].
Proof.
  intros N U. destruct (U 0) as [C0 S0]; [lia|]. assert (E : exists e, file_run_inner w chunk path content sinit = (sinit, Raise e)).
  { destruct path; try (eexists; reflexivity). all: exfalso; eapply N; reflexivity. }
  destruct E as (e & E). eexists. split; [|split].
  - unfold file_run, tryM. rewrite E. unfold file_error, ch_send, bindM, tick, sinit. cbn. rewrite C0. cbn. rewrite S0. reflexivity.
  - intros [H|H]; [discriminate H|]. cbn in H. destruct H as [H|[]]. discriminate H.
  - reflexivity.
Qed.
Lemma command_lets_go w chunk polls stdout rc1 rc2 st : 0 < chunk -> polite w -> os_errors w -> a_os (w 0) = None ->
  command_run w chunk polls stdout rc1 rc2 sinit = (st, Ok (Some tt)) -> let_go st.
Proof.
  intros C P O Z H. destruct (command_run_end w chunk C polls stdout rc1 rc2 st _ P O Z H) as (ds & [[X _]|(_ & errs & fin & S & _ & F & _)]); [discriminate X|].
  destruct (s_closed st) eqn:E; [left; exact E|]. right. rewrite S, F by reflexivity.
  apply in_or_app. right. apply in_or_app. right. right. left. reflexivity.
Qed.
Lemma file_lets_go w chunk t content st r : 0 < chunk -> polite w -> sane_os w -> file_run w chunk (VText t) content sinit = (st, r) -> let_go st.
Proof.
  intros C P O H. destruct (file_run_polite w chunk t content st r C P O H) as (ds & tail & S & F & _).
  destruct (s_closed st) eqn:E; [left; exact E|]. right. rewrite S. apply in_or_app. right.
  destruct (F eq_refl) as [[-> _]|(s0 & m & ->)]; [left; reflexivity|right; left; reflexivity].
Qed.
