From Verif Require Import Py Py_lemmas Model_App Spec_App Model_Logging Spec_Logging.
From Coq Require Import Lia.

Lemma known_asked upper a : known_level upper a <-> exists level, asked upper a level.
Proof.
  unfold known_level, asked. destruct (quiet a); [split; eauto|]. split.
  - intros [H|H]; [discriminate|]. cbn [In] in H. repeat (destruct H as [<-|H]; [eexists; constructor|]). destruct H.
  - intros [level H]. right. destruct H; cbn; tauto.
Qed.
Lemma by_name name level : stands_for name level -> dict_get text_eqb name level_names = Some level /\ dict_get text_eqb name name_to_level = Some level.
Proof. destruct 1; split; reflexivity. Qed.
Lemma unknown_name name : dict_get text_eqb name level_names <> None -> exists level, stands_for name level.
Proof.
  unfold level_names. cbn [dict_get].
  repeat match goal with |- context [text_eqb ?x name] => destruct (text_eqb x name) eqn:?E; [intros _; apply list_eqb_eq in E; [subst name; eexists; constructor|apply N.eqb_eq]|clear E] end.
  congruence.
Qed.
Lemma asked_level upper a level : asked upper a level ->
  let name := if quiet a then T "CRITICAL" else upper (log_level a) in stands_for name level.
Proof. unfold asked. destruct (quiet a); [intros ->; constructor|auto]. Qed.

Lemma emits place h r name n : (h = 0 \/ h = r)%Z -> emit name n (Logging r [(place, h)] []) = if ((0 <? n) && (r <=? n))%Z then [place] else [].
Proof.
  intros H. unfold emit. cbn [disabled existsb root_level root_handlers filter fst snd map].
  destruct (Z.leb_spec n 0), (Z.ltb_spec 0 n), (Z.ltb_spec n r), (Z.leb_spec r n), (Z.leb_spec h n); try reflexivity; lia.
Qed.
Lemma level_taken upper file_config existing a level : asked upper a level -> log_file_works file_config a ->
  exists l, configure upper file_config existing a logging0 = inl l /\
    forall name n, emit name n l = if ((0 <? n) && (level <=? n))%Z then [wanted a] else [].
Proof.
  intros H W. apply asked_level in H. apply by_name in H as [H1 H2]. unfold configure. cbn zeta. rewrite H1. unfold wanted.
  destruct (log_file a) as [[|c r]|] eqn:F; try (eexists; split; [reflexivity|]; intros name n; apply emits; auto).
  unfold dict_config. rewrite H2, (W (c :: r) F ltac:(discriminate)). eexists. split; [reflexivity|]. intros name n. apply emits. auto.
Qed.
(** It fails as the command line does (C78). *)
Lemma configure_fails upper file_config existing a e : (configure upper file_config existing a logging0 = inr e) <-> init_logging upper file_config a = Some e.
Proof.
  unfold configure, init_logging. cbn zeta. set (name := if quiet a then _ else _).
  destruct (dict_get text_eqb name level_names) as [level|] eqn:E; [|split; congruence].
  destruct (unknown_name name) as [level' H]; [congruence|]. apply by_name in H as [_ H].
  destruct (log_file a) as [[|c r]|]; try (split; discriminate). unfold dict_config. rewrite H. destruct (file_config (c :: r)); split; congruence.
Qed.
