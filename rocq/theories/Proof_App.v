(** * Proofs about the command line *)
From Verif Require Import Py Py_lemmas Dict_lemmas Model_App Spec_App.

Lemma run_forever_returned polls v : run_forever polls = Returned v -> v = None.
Proof. induction polls as [|[[| | |] [| |]] r IH]; cbn; auto; try discriminate; now intros [= <-]. Qed.
Lemma run_forever_stop polls : run_forever polls = Returned None <-> told_to_stop polls.
Proof.
  split.
  - induction polls as [|[p w] r IH]; [discriminate|]. destruct p as [|e| |].
    + destruct w; cbn; intros H.
      * destruct (IH H) as (idle & p & w & r' & -> & F & C). exists ((PollOk, Timeout) :: idle), p, w, r'. auto.
      * exists [], PollOk, ExitSet, r. repeat split; auto. right. right. split; [auto|discriminate].
      * exists [], PollOk, WaitInterrupt, r. repeat split; auto. right. right. split; [auto|discriminate].
    + discriminate.
    + intros _. exists [], PollSystemExit, w, r. auto.
    + intros _. exists [], PollInterrupt, w, r. auto.
  - intros (idle & p & w & r & -> & F & C). induction F as [|x idle -> F IH]; [|exact IH].
    cbn. destruct C as [->|[->|[-> H]]]; auto. destruct w; auto. now destruct H.
Qed.
Lemma run_forever_fail polls : (exists e, run_forever polls = Raised e) <-> poll_fails polls.
Proof.
  split.
  - intros (e & H). revert H. induction polls as [|[p w] r IH]; [discriminate|]. destruct p as [|e'| |].
    + destruct w; cbn; intros H; try discriminate. destruct (IH H) as (idle & e' & w & r' & -> & F). exists ((PollOk, Timeout) :: idle), e', w, r'. auto.
    + intros _. exists [], e', w, r. auto.
    + discriminate.
    + discriminate.
  - intros (idle & e & w & r & -> & F). induction F as [|x idle -> F IH]; [now exists e|exact IH].
Qed.
Lemma command_returned c v : run_command c = Returned v -> v = None.
Proof. destruct c as [[[e|]|] polls|[[e|]|]]; cbn; try discriminate; [apply run_forever_returned|now intros [= <-]]. Qed.
Lemma command_succeeds c : run_command c = Returned None <-> succeeds c.
Proof.
  destruct c as [[[e|]|] polls|[[e|]|]]; cbn; try (split; [discriminate|intros [H _]; discriminate H]); try (split; discriminate).
  - rewrite run_forever_stop. tauto.
  - tauto.
Qed.
Lemma command_fails c : (exists e, run_command c = Raised e) <-> fails c.
Proof.
  destruct c as [[[e|]|] polls|[[e|]|]]; cbn;
    try (split; [intros (e0 & H); discriminate|]; (intros [(e0 & H)|[H _]] || intros (e0 & H)); discriminate).
  - split; [left; now exists e|intros _; now exists e].
  - rewrite run_forever_fail. split; [now right|intros [(e & H)|[_ H]]; [discriminate|exact H]].
  - split; intros _; now exists e.
Qed.
Lemma level_known l : (exists n, dict_get text_eqb l level_names = Some n) <-> In l (map fst level_names).
Proof.
  assert (G : forall d : list (text * Z), (exists n, dict_get text_eqb l d = Some n) <-> In l (map fst d)).
  { induction d as [|[k v] d IH]; cbn [dict_get map fst In].
    - split; [intros (n & H); discriminate|intros []].
    - destruct (text_eqb k l) eqn:E.
      + apply text_eqb_eq in E. split; [intros _; left; congruence|intros _; now exists v].
      + rewrite IH. split; [now right|]. intros [->|H]; [|exact H]. rewrite (proj2 (text_eqb_eq l l) eq_refl) in E. discriminate. }
  apply G.
Qed.
Lemma init_ok upper file_config a : known_level upper a -> log_file_works file_config a -> init_logging upper file_config a = None.
Proof.
  intros K L. unfold init_logging. cbn zeta.
  assert (exists n, dict_get text_eqb (if quiet a then T "CRITICAL" else upper (log_level a)) level_names = Some n) as (n & ->).
  { apply level_known. destruct (quiet a) eqn:Q; [cbn; tauto|]. destruct K as [K|K]; [congruence|exact K]. }
  destruct (log_file a) as [[|c path]|] eqn:E; auto. apply (L _ E). discriminate.
Qed.
Theorem no_command upper file_config stderr a : known_level upper a -> log_file_works file_config a -> sub a = None ->
  main upper file_config stderr (Parsed a) = Exit 1.
Proof. intros K L S0. unfold main, app_run. now rewrite (init_ok _ _ _ K L), S0. Qed.
Theorem success_iff upper file_config stderr a c : known_level upper a -> log_file_works file_config a -> sub a = Some c ->
  (main upper file_config stderr (Parsed a) = Exit 0 <-> succeeds c).
Proof.
  intros K L S0. unfold main, app_run. rewrite (init_ok _ _ _ K L), S0, <- command_succeeds. destruct (run_command c) as [v|e| |] eqn:R.
  - rewrite (command_returned _ _ R). now cbn.
  - split; [|discriminate]. destruct (debug a); [discriminate|]. destruct stderr; discriminate.
  - split; discriminate.
  - split; discriminate.
Qed.
Theorem failure_iff upper file_config a c : known_level upper a -> log_file_works file_config a -> sub a = Some c -> debug a = false ->
  (main upper file_config None (Parsed a) = Exit (-1) <-> fails c).
Proof.
  intros K L S0 D. unfold main, app_run. rewrite (init_ok _ _ _ K L), S0, <- command_fails. destruct (run_command c) as [v|e| |] eqn:R.
  - rewrite (command_returned _ _ R). cbn. split; [discriminate|intros (e & H); discriminate].
  - rewrite D. cbn. split; [intros _; now exists e|reflexivity].
  - split; [discriminate|intros (e & H); discriminate].
  - split; [discriminate|intros (e & H); discriminate].
Qed.
Theorem unknown_level upper file_config stderr a : ~ known_level upper a ->
  main upper file_config stderr (Parsed a) = Traceback EKey /\ status (main upper file_config stderr (Parsed a)) = Some 1%Z.
Proof.
  intros K. enough (E : main upper file_config stderr (Parsed a) = Traceback EKey) by now rewrite E. unfold main, app_run, init_logging. cbn zeta. destruct (quiet a) eqn:Q; [destruct K; now left|].
  destruct (dict_get text_eqb (upper (log_level a)) level_names) as [n|] eqn:E; [|reflexivity].
  destruct K. right. change (In (upper (log_level a)) (map fst level_names)). apply level_known. now exists n.
Qed.
Theorem debug_fails upper file_config stderr a c : known_level upper a -> log_file_works file_config a -> sub a = Some c -> debug a = true -> fails c ->
  exists e, main upper file_config stderr (Parsed a) = Traceback e /\ status (main upper file_config stderr (Parsed a)) = Some 1%Z.
Proof.
  intros K L S0 D F. apply command_fails in F as (e & R). exists e. enough (E : main upper file_config stderr (Parsed a) = Traceback e) by now rewrite E. unfold main, app_run. now rewrite (init_ok _ _ _ K L), S0, R, D.
Qed.
Theorem log_file_fails upper file_config stderr a path e : known_level upper a -> log_file a = Some path -> path <> [] -> file_config path = Some e ->
  main upper file_config stderr (Parsed a) = Traceback e /\ status (main upper file_config stderr (Parsed a)) = Some 1%Z.
Proof.
  intros K P N F. enough (E : main upper file_config stderr (Parsed a) = Traceback e) by now rewrite E. unfold main, app_run, init_logging. cbn zeta.
  assert (exists n, dict_get text_eqb (if quiet a then T "CRITICAL" else upper (log_level a)) level_names = Some n) as (n & ->).
  { apply level_known. destruct (quiet a) eqn:Q; [cbn; tauto|]. destruct K as [K|K]; [congruence|exact K]. }
  rewrite P. destruct path; [now destruct N|]. now rewrite F.
Qed.
Theorem interrupted upper file_config stderr a c : known_level upper a -> log_file_works file_config a -> sub a = Some c -> cut_short c ->
  status (main upper file_config stderr (Parsed a)) = Some 130%Z.
Proof.
  intros K L S0 C. unfold main, app_run. rewrite (init_ok _ _ _ K L), S0. destruct c as [client polls|out]; cbn in C; subst; reflexivity.
Qed.
