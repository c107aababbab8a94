(** * Proofs of C37-C40, C80, C81 (terminal processes) *)
From Verif Require Import Py Model_Process Spec_Process.

(** Invariant of the signals *)
Definition okw (st : pst) (w : waiter) : Prop :=
  (exists t k, In (SIGHUP, t, k) (signals st) /\ (t <= w_start w)%Z) /\
  (w_sent_kill w = false -> times SIGKILL (signals st) = 0) /\
  (w_phase w = StillRunning -> kid st <> Reaped) /\
  (kid st = Reaped -> w_phase w = Finished) /\
  (w_phase w = Finished \/ w_warnings w <> []) /\
  (w_phase w = Launched -> w_sent_kill w = false) /\ (w_start w <= now st)%Z /\ kid st <> Unborn.
Record pinv (st : pst) : Prop := {
  I_pid : pid st = true -> kid st <> Unborn;
  I_ph : (kid st = Unborn -> ph st = Starting \/ ph st = Over) /\ (ph st = Starting -> kid st = Unborn);
  I_closed : closed st = false -> signals st = [] /\ waiters st = [];
  I_one : length (waiters st) <= 1;
  I_none : waiters st = [] -> times SIGKILL (signals st) = 0 /\ kid st <> Reaped;
  I_hup : times SIGHUP (signals st) <= 1;
  I_kill : times SIGKILL (signals st) <= 1;
  I_alive : forall s t k, In (s, t, k) (signals st) -> exists_ k;
  I_time : forall t k, In (SIGKILL, t, k) (signals st) -> exists t' k', In (SIGHUP, t', k') (signals st) /\ (t' + 15 <= t)%Z;
  I_w : forall w, In w (waiters st) -> okw st w;
  I_past : forall s t k, In (s, t, k) (signals st) -> (t <= now st)%Z }.

Lemma pinv_init t0 : pinv (pinit t0).
Proof. constructor; cbn; try tauto; try lia; try congruence; intuition congruence. Qed.

Lemma one_waiter st w i : length (waiters st) <= 1 -> nth_error (waiters st) i = Some w -> waiters st = [w] /\ i = 0.
Proof.
  destruct (waiters st) as [|a [|b r]]; cbn; try lia; destruct i; cbn; try discriminate.
  - intros _ [= <-]; auto.
  - destruct i; discriminate.
Qed.
Lemma in_one {A} (x a : A) : In x [a] -> x = a.
Proof. intros [H|[]]; auto. Qed.

(** Changes that touch neither the child nor the signals *)
Lemma pinv_same st st' :
  pid st' = pid st -> kid st' = kid st -> ph st' = ph st -> closed st' = closed st -> waiters st' = waiters st ->
  signals st' = signals st -> (now st <= now st')%Z -> pinv st -> pinv st'.
Proof.
  intros H1 H2 H3 H4 H5 H6 H7 [I1 [I2a I2b] I3 I4 I5 I6 I7 I8 I9 I10 I11].
  constructor; rewrite ?H1, ?H2, ?H3, ?H4, ?H5, ?H6; auto.
  - intros w Hw. destruct (I10 w Hw) as ((t&k&Ht&Hk)&X1&X2&X3&X4&X5&X6&X7).
    unfold okw. rewrite ?H2, ?H6. split; [eauto|]. repeat (split; auto). lia.
  - intros s t k Hin. specialize (I11 s t k Hin). lia.
Qed.
Ltac same := eapply pinv_same; [..|eassumption]; cbn; auto; try lia.

Lemma asked_same st : pid (ask_close st) = pid st /\ kid (ask_close st) = kid st /\ ph (ask_close st) = ph st /\
  closed (ask_close st) = closed st /\ waiters (ask_close st) = waiters st /\ signals (ask_close st) = signals st /\
  now (ask_close st) = now st /\ input (ask_close st) = input st /\ pending (ask_close st) = pending st /\ written (ask_close st) = written st /\ fd (ask_close st) = fd st /\ chan_closed (ask_close st) = chan_closed st.
Proof. unfold ask_close. destruct (chan_closed st) eqn:E; cbn; rewrite ?E; repeat split. Qed.

Lemma on_data_same d ws st : let st' := on_data d ws st in
  pid st' = pid st /\ kid st' = kid st /\ ph st' = ph st /\ closed st' = closed st /\ waiters st' = waiters st /\
  signals st' = signals st /\ now st' = now st /\ pending st' = pending st /\ written st' = written st /\ fd st' = fd st /\ chan_closed st' = chan_closed st.
Proof.
  cbn. unfold on_data. destruct (fd_open st).
  - destruct (write_loop _ _ _ _) as [acc ok]. destruct ok; cbn; [repeat split|].
    pose proof (asked_same (with_input st (input st ++ acc))) as A. cbn in A. tauto.
  - destruct (fd st) eqn:Ef; [destruct d; [repeat split; auto|]|]; pose proof (asked_same st); rewrite ?Ef in *; tauto.
Qed.

Lemma pinv_close k t st : pinv st -> pinv (close k t st).
Proof.
  intros I. unfold close. destruct (closed st) eqn:C; cbn [negb andb].
  - same.
  - destruct I as [I1 [I2a I2b] I3 I4 I5 I6 I7 I8 I9 I10 I11]. destruct (I3 C) as [S0 W0]. destruct (I5 W0) as [_ NR].
    destruct (pid st) eqn:P; [|constructor; cbn; rewrite ?S0, ?W0, ?P in *; auto; try discriminate; try tauto].
    destruct k; [|constructor; rewrite ?S0, ?W0, ?P in *; auto].
    specialize (I1 eq_refl).
    assert (exists_ (kid st)) as EX by (unfold exists_; destruct (kid st); auto; congruence).
    destruct t; constructor; cbn; rewrite ?S0, ?W0, ?P in *; cbn; auto; try lia; try discriminate; try tauto;
      try (now intros ? ? ? [[= <- <- <-]|[]]);
      try (now intros ? ? [[= <- <-]|[]]);
      try (now intros ? ? [?|[]]; discriminate);
      try (intros ? ? ? [[= <- <- <-]|[]]; auto; lia).
    intros w [<-|[]]. unfold okw. cbn. repeat split; auto; try discriminate; try lia.
    + exists (now st), (kid st). rewrite S0. split; [left; auto|lia].
    + rewrite S0. auto.
    + intros R. congruence.
    + right. discriminate.
Qed.

Lemma times_cons s x l : times s (x :: l) = (match s, fst (fst x) with SIGHUP, SIGHUP | SIGKILL, SIGKILL => 1 | _, _ => 0 end) + times s l.
Proof. unfold times. destruct s, x as [[[] ?] ?]; cbn; auto. Qed.

Lemma pinv_step e st : pinv st -> pinv (pstep e st).
Proof.
  intros I. pose proof I as I'. destruct I as [I1 [I2a I2b] I3 I4 I5 I6 I7 I8 I9 I10 I11].
  destruct e; cbn.
  - same.
  - destruct (ph st) eqn:E; auto. destruct ok.
    + specialize (I2b eq_refl).
      constructor; cbn; auto; try discriminate.
      * split; discriminate.
      * intros H. destruct (I5 H). split; auto. discriminate.
      * intros w Hw. destruct (I10 w Hw) as ((t&k&Ht&Hk)&X1&X2&X3&X4&X5&X6&X7). unfold okw; cbn.
        split; [eauto|]. repeat (split; auto); try discriminate.
    + constructor; cbn; auto; split; auto; discriminate.
  - destruct (ph st) eqn:E; auto. constructor; cbn; auto; try split; try discriminate; repeat intro; try discriminate; try (destruct I2a; auto; discriminate).
  - destruct (ph st) eqn:E; auto. constructor; cbn; auto; split; destruct ok; intros; try discriminate; destruct I2a; auto; discriminate.
  - destruct (kid st) eqn:K; auto; same.
  - destruct (kid st) eqn:K; auto. constructor; cbn; auto; try discriminate.
    + split; [discriminate|]. intros H. specialize (I2b H). discriminate.
    + intros H. split; [tauto|discriminate].
    + intros w Hw. destruct (I10 w Hw) as ((t&k&Ht&Hk)&X1&X2&X3&X4&X5&X6&X7). unfold okw; cbn.
      split; [eauto|]. repeat (split; auto); try discriminate.
  - destruct (ph st) eqn:E; auto.
    assert (kid st <> Unborn) as NU by (intros H; destruct (I2a H); discriminate).
    destruct send_ok; [destruct hangup|]; constructor; cbn; rewrite ?E; auto; split; try discriminate; intros; try congruence; tauto.
  - destruct (ph st) eqn:E; auto. constructor; cbn; auto; split; intros; try discriminate; destruct I2a; auto; discriminate.
  - destruct (ph st) eqn:E; auto. constructor; cbn; auto; split; intros; try discriminate; destruct I2a; auto; discriminate.
  - destruct (ph st) eqn:E; auto. constructor; cbn; auto; split; intros; try discriminate; destruct I2a; auto; discriminate.
  - destruct (chan_closed st); auto. pose proof (on_data_same d ws st) as H. cbn in H.
    eapply pinv_same; [..|eassumption]; try tauto. destruct H as (_&_&_&_&_&_&->&_). lia.
  - destruct (chan_closed st); auto. apply pinv_close. same.
  - now apply pinv_close.
  - destruct (nth_error (waiters st) i) as [w|] eqn:E; auto. destruct (one_waiter _ _ _ I4 E) as [WW ->].
    assert (In w (waiters st)) as Hw by (rewrite WW; left; auto).
    destruct (I10 w Hw) as ((t&k&Ht&Hk)&X1&X2&X3&X4&X5&X6&X7).
    destruct (w_phase w) eqn:PW; auto.
    constructor; cbn; rewrite ?WW; cbn; auto; try lia.
    { intros C. destruct (I3 C). rewrite WW in *. discriminate. }
    { discriminate. }
    intros w' [<-|[]]. unfold okw; cbn. split; [exists t, k; split; auto; lia|]. repeat (split; auto); try discriminate; try lia.
    { intros R. specialize (X3 R). discriminate. }
    destruct X4 as [X|X]; [discriminate X|auto].
  - destruct (nth_error (waiters st) i) as [w|] eqn:E; auto. destruct (one_waiter _ _ _ I4 E) as [WW ->].
    assert (In w (waiters st)) as Hw by (rewrite WW; left; auto).
    destruct (I10 w Hw) as ((t&k&Ht&Hk)&X1&X2&X3&X4&X5&X6&X7).
    destruct (w_phase w) eqn:PW; auto.
    assert (w_warnings w <> []) as NE by (destruct X4; [discriminate|auto]).
    assert (closed st = true) as C1.
    { destruct (closed st) eqn:C; auto. destruct (I3 eq_refl). rewrite WW in *. discriminate. }
    destruct (kid st) eqn:K; constructor; cbn; rewrite ?K, ?C1; rewrite ?WW; cbn; auto; try lia; try discriminate;
      try (now split; [auto|intros; try discriminate; auto; specialize (I2b H); congruence]);
      intros w' [<-|[]]; unfold okw; cbn; rewrite ?K; (split; [exists t, k; split; auto; lia|]); repeat (split; auto); try discriminate; try lia; auto; congruence.
  - destruct (nth_error (waiters st) i) as [w|] eqn:E; auto. destruct (one_waiter _ _ _ I4 E) as [WW ->].
    assert (In w (waiters st)) as Hw by (rewrite WW; left; auto).
    destruct (I10 w Hw) as ((t&k&Ht&Hk)&X1&X2&X3&X4&X5&X6&X7).
    destruct (w_phase w) eqn:PW; auto.
    assert (w_warnings w <> []) as NE by (destruct X4; [discriminate|auto]).
    assert (kid st <> Reaped) as NR by auto.
    assert (closed st = true) as C1.
    { destruct (closed st) eqn:C; auto. destruct (I3 eq_refl). rewrite WW in *. discriminate. }
    unfold act. rewrite WW. set (passed := (now st - w_start w)%Z).
    set (wrn := match w_warnings w with t :: r => if (t <=? passed)%Z then r else t :: r | [] => [] end).
    assert (forall sk ok, (sk = false -> times SIGKILL (signals st) = 0) -> pinv (with_waiters st (update 0 (W (w_start w) wrn sk (if ok : bool then match wrn with [] => Finished | _ => Sleeping end else Finished)) [w]))) as Plain.
    { intros sk ok Hsk. constructor; cbn; auto; try lia; try congruence; try discriminate.
      { intros w' [<-|[]]. unfold okw; cbn.
        split; [exists t, k; split; auto|]. repeat (split; auto); try congruence; try (destruct ok, wrn; auto; discriminate).
        destruct ok, wrn; auto; right; discriminate. } }
    destruct (w_sent_kill w) eqn:SK; cbn [negb andb].
    { apply (Plain true true). discriminate. }
    destruct (kill_time <=? passed)%Z eqn:KT; cycle 1.
    { apply (Plain false true). auto. }
    destruct kill_ok; [|apply (Plain true false); discriminate].
    assert (exists_ (kid st)) as EX by (unfold exists_; destruct (kid st); auto; congruence).
    pose proof (X1 eq_refl) as Z0.
    assert (t + 15 <= now st)%Z as T15 by (unfold kill_time in KT; subst passed; lia).
    constructor; cbn -[times]; rewrite ?C1; auto; try lia; try congruence; try discriminate.
    { rewrite times_cons. cbn. lia. }
    { intros s0 t0 k0 [[= <- <- <-]|Hin]; eauto. }
    { intros t0 k0 [[= <- <-]|Hin]; [exists t, k; auto|]. destruct (I9 t0 k0 Hin) as (t1&k1&Hin1&L). eauto. }
    { intros w' [<-|[]]. unfold okw; cbn -[times].
      split; [exists t, k; split; auto|]. repeat (split; auto); try congruence; try (destruct wrn; auto; discriminate).
      destruct wrn; auto; right; discriminate. }
    { intros s0 t0 k0 [[= <- <- <-]|Hin]; [lia|eauto]. }
Qed.

Lemma prun_app a b st : prun (a ++ b) st = prun b (prun a st).
Proof. unfold prun. apply fold_left_app. Qed.
Lemma pinv_run evs st : pinv st -> pinv (prun evs st).
Proof. revert st. induction evs as [|e evs IH]; cbn; auto. intros st I. apply IH, pinv_step, I. Qed.

Lemma c37 t0 evs st : st = prun evs (pinit t0) ->
  times SIGHUP (signals st) <= 1 /\ times SIGKILL (signals st) <= 1 /\
  (forall s t k, In (s, t, k) (signals st) -> exists_ k) /\
  (forall t k, In (SIGKILL, t, k) (signals st) -> exists t' k', In (SIGHUP, t', k') (signals st) /\ (t' + 15 <= t)%Z).
Proof. intros ->. destruct (pinv_run evs _ (pinv_init t0)). auto. Qed.

(** ** No SIGKILL once the exit is there to be seen *)
Definition gone st := (kid st = Zombie \/ kid st = Reaped) /\ forall w, In w (waiters st) -> w_phase w <> StillRunning.
Lemma update_in {A} i (x y : A) l : In y (update i x l) -> y = x \/ In y l.
Proof. revert i. induction l as [|a l IH]; cbn; [intros []; auto|]. intros [|i]; cbn; intros [H|H]; auto. apply IH in H as [H|H]; auto. Qed.
Lemma close_kills k t st : times SIGKILL (signals (close k t st)) = times SIGKILL (signals st).
Proof. unfold close. destruct (negb (closed st) && pid st); auto. destruct k; auto. destruct t; auto. Qed.
Lemma gone_close k t st : gone st -> gone (close k t st).
Proof.
  unfold close, gone. intros [K W]. destruct (negb (closed st) && pid st); auto. destruct k; auto. destruct t; cbn; auto.
  split; auto. intros w H. apply in_app_iff in H as [H|[<-|[]]]; auto. discriminate.
Qed.
Lemma gone_step e st : pinv st -> gone st -> gone (pstep e st) /\ times SIGKILL (signals (pstep e st)) = times SIGKILL (signals st).
Proof.
  intros I [K W]. assert (ph st <> Starting) as NS. { intros H. apply (proj2 (I_ph _ I)) in H. destruct K; congruence. }
  assert (gone st) as G by (split; auto).
  destruct e; cbn [pstep].
  - split; auto.
  - destruct (ph st); try congruence; auto.
  - destruct (ph st); auto.
  - destruct (ph st); auto.
  - destruct (kid st) eqn:E; split; auto; split; cbn; rewrite ?E; auto.
  - destruct K as [E|E]; rewrite E; auto.
  - destruct (ph st); auto. destruct send_ok, hangup; split; auto.
  - destruct (ph st); auto.
  - destruct (ph st); auto.
  - destruct (ph st); auto.
  - destruct (chan_closed st); auto. pose proof (on_data_same d ws st) as H. cbn in H. destruct H as (_&H1&_&_&H2&H3&_).
    unfold gone. rewrite H1, H2, H3. auto.
  - destruct (chan_closed st); auto. rewrite close_kills. split; auto. apply gone_close. auto.
  - rewrite close_kills. split; auto. apply gone_close. auto.
  - destruct (nth_error (waiters st) i) as [w|] eqn:E; auto. destruct (w_phase w); auto. split; auto. split; auto.
    cbn. intros x Hx. apply update_in in Hx as [->|Hx]; auto. discriminate.
  - destruct (nth_error (waiters st) i) as [w|] eqn:E; auto. destruct (w_phase w); auto.
    destruct K as [E1|E1]; rewrite E1; (split; [split; cbn; auto|auto]); intros x Hx; apply update_in in Hx as [->|Hx]; auto; discriminate.
  - destruct (nth_error (waiters st) i) as [w|] eqn:E; auto. apply nth_error_In in E. specialize (W w E).
    destruct (w_phase w); auto. congruence.
Qed.
Lemma gone_run evs st : pinv st -> gone st -> times SIGKILL (signals (prun evs st)) = times SIGKILL (signals st).
Proof.
  revert st. induction evs as [|e evs IH]; cbn [prun fold_left]; auto. intros st I G.
  destruct (gone_step e st I G) as [G' <-]. apply IH; auto. now apply pinv_step.
Qed.
Lemma no_kill_after_exit t0 before after st : st = prun before (pinit t0) ->
  (kid st = Zombie \/ kid st = Reaped) -> (forall w, In w (waiters st) -> w_phase w <> StillRunning) ->
  times SIGKILL (signals (prun (before ++ after) (pinit t0))) = times SIGKILL (signals st).
Proof. intros -> K W. rewrite prun_app. apply gone_run; [apply pinv_run, pinv_init|split; auto]. Qed.

(** ** The SIGKILL does come *)
Lemma kill_comes st w : waiters st = [w] -> w_phase w = Sleeping -> w_sent_kill w = false -> kid st = Running ->
  (w_start w + 15 <= now st)%Z -> In (SIGKILL, now st, Running) (signals (prun [WaitPid 0; Act 0 true] st)).
Proof.
  intros Hw Hp Hk K T. cbn. rewrite Hw; cbn. rewrite Hp, K. cbn. unfold act. cbn. rewrite Hk. cbn.
  assert (kill_time <=? now st - w_start w = true)%Z as -> by (unfold kill_time; lia). cbn. rewrite K. auto.
Qed.

(** ** The wait thread only gives up after trying SIGKILL *)
Definition patient st w := (w_phase w = Launched -> w_warnings w = warnings0 /\ w_sent_kill w = false) /\
  (w_warnings w = [] -> w_sent_kill w = true) /\ (w_warnings w <> [] -> last (w_warnings w) 0%Z = 86400%Z) /\
  (w_phase w = Finished -> kid st = Reaped \/ w_sent_kill w = true).
Definition all_patient st := forall w, In w (waiters st) -> patient st w.
Lemma patient_kid st st' w : (kid st = Reaped -> kid st' = Reaped) -> patient st w -> patient st' w.
Proof. unfold patient. intros H (A&B&C&D). repeat (split; auto). intros F. destruct (D F); auto. Qed.
Lemma patient_close k t st : all_patient st -> all_patient (close k t st).
Proof.
  unfold close, all_patient. intros A. destruct (negb (closed st) && pid st); auto. destruct k; auto. destruct t; auto.
  cbn. intros w H. apply in_app_iff in H as [H|[<-|[]]]; [apply A in H; auto|].
  repeat split; cbn; try discriminate; auto.
Qed.
Lemma last_tail {A} (a : A) r d : r <> [] -> last (a :: r) d = last r d.
Proof. destruct r; cbn; congruence. Qed.
Lemma patient_step e st : pinv st -> all_patient st -> all_patient (pstep e st).
Proof.
  intros I A. assert (forall st', waiters st' = waiters st -> (kid st = Reaped -> kid st' = Reaped) -> all_patient st') as Same.
  { intros st' H K w. rewrite H. intros Hw. eapply patient_kid; eauto. }
  destruct e; cbn [pstep].
  - apply Same; auto.
  - destruct (ph st) eqn:E; auto. assert (kid st = Unborn) as U by (apply I; auto). destruct ok; apply Same; auto. congruence.
  - destruct (ph st); auto.
  - destruct (ph st); auto.
  - destruct (kid st) eqn:E; auto; apply Same; cbn; auto; congruence.
  - destruct (kid st) eqn:E; auto; apply Same; cbn; auto; congruence.
  - destruct (ph st); auto. destruct send_ok, hangup; apply Same; auto.
  - destruct (ph st); auto.
  - destruct (ph st); auto.
  - destruct (ph st); auto.
  - destruct (chan_closed st); auto. pose proof (on_data_same d ws st) as H. cbn in H. apply Same; intuition congruence.
  - destruct (chan_closed st); auto. apply patient_close. apply Same; auto.
  - apply patient_close; auto.
  - destruct (nth_error (waiters st) i) as [w|] eqn:E; auto. destruct (w_phase w) eqn:P; auto.
    intros x Hx. cbn in Hx. apply update_in in Hx as [->|Hx]; [|apply A in Hx; auto].
    apply nth_error_In, A in E. destruct E as (Q1&Q2&Q3&Q4). unfold patient; cbn. repeat (split; auto); try discriminate.
  - destruct (nth_error (waiters st) i) as [w|] eqn:E; auto. destruct (w_phase w) eqn:P; auto.
    apply nth_error_In, A in E. destruct E as (Q1&Q2&Q3&Q4).
    destruct (kid st) eqn:K; intros x Hx; cbn in Hx; (apply update_in in Hx as [->|Hx]; [|apply A in Hx; unfold patient in *; cbn; rewrite ?K in *; intuition congruence]);
      unfold patient; cbn; rewrite ?K; repeat (split; auto); discriminate.
  - destruct (nth_error (waiters st) i) as [w|] eqn:E; auto. destruct (w_phase w) eqn:P; auto.
    apply nth_error_In, A in E. destruct E as (Q1&Q2&Q3&Q4).
    unfold act. set (passed := (now st - w_start w)%Z).
    set (wrn := match w_warnings w with t :: r => if (t <=? passed)%Z then r else t :: r | [] => [] end).
    assert (wrn <> [] -> last wrn 0%Z = 86400%Z) as L.
    { subst wrn. destruct (w_warnings w) as [|t r]; [congruence|]. destruct (t <=? passed)%Z; intros N; [|apply Q3; discriminate].
      rewrite <- (last_tail t r 0%Z N). apply Q3. discriminate. }
    assert (wrn = [] -> w_sent_kill w = true \/ (kill_time <=? passed = true)%Z) as Z0.
    { subst wrn. destruct (w_warnings w) as [|t r] eqn:EW; [auto|]. destruct (t <=? passed)%Z eqn:T; [|discriminate].
      intros ->. specialize (Q3 ltac:(discriminate)). cbn in Q3. right. unfold kill_time. lia. }
    destruct (w_sent_kill w) eqn:SK; cbn [negb andb]; [|destruct (kill_time <=? passed)%Z; [destruct kill_ok|]];
      intros x Hx; cbn in Hx; (apply update_in in Hx as [->|Hx]; [|apply A in Hx; auto]); unfold patient; cbn;
      repeat (split; auto); try (destruct wrn; discriminate); try (destruct wrn; intuition congruence).
Qed.
Lemma gives_up t0 evs st w : st = prun evs (pinit t0) -> In w (waiters st) -> w_phase w = Finished ->
  kid st = Reaped \/ w_sent_kill w = true.
Proof.
  intros -> Hw P. assert (all_patient (prun evs (pinit t0))) as H; [|apply H in Hw; unfold patient in Hw; tauto].
  clear Hw P w. assert (forall l st, pinv st -> all_patient st -> all_patient (prun l st)) as G.
  { induction l as [|e l IH]; cbn; auto. intros st I A. apply IH; [now apply pinv_step|now apply patient_step]. }
  apply G; [apply pinv_init|]. intros w [].
Qed.

(** ** C38 *)
Lemma quiet_step e st : closed st = true -> waiters st = [] -> let st' := pstep e st in closed st' = true /\ waiters st' = [] /\ signals st' = signals st.
Proof.
  intros C W. cbn. assert (forall k t s, closed s = true -> close k t s = with_closed s) as CL.
  { intros k t s H. unfold close. rewrite H. reflexivity. }
  destruct e; cbn [pstep]; try (rewrite W; destruct i; cbn; now auto).
  - auto.
  - destruct (ph st), ok; auto.
  - destruct (ph st); auto.
  - destruct (ph st); auto.
  - destruct (kid st); auto.
  - destruct (kid st); auto.
  - destruct (ph st), send_ok, hangup; auto.
  - destruct (ph st); auto.
  - destruct (ph st); auto.
  - destruct (ph st); auto.
  - destruct (chan_closed st); auto. pose proof (on_data_same d ws st) as H. cbn in H. intuition congruence.
  - destruct (chan_closed st); auto. rewrite CL; cbn; auto.
  - rewrite CL; cbn; auto.
Qed.
Lemma quiet_run evs st : closed st = true -> waiters st = [] -> signals (prun evs st) = signals st.
Proof.
  revert st. induction evs as [|e evs IH]; cbn [prun fold_left]; auto. intros st C W.
  destruct (quiet_step e st C W) as (C'&W'&<-). apply IH; auto.
Qed.
Lemma closed_too_early t0 before after k t st : st = prun before (pinit t0) -> pid st = false -> chan_closed st = false -> closed st = false ->
  signals (prun (before ++ CloseChannel k t :: after) (pinit t0)) = [].
Proof.
  intros -> P CC C. rewrite prun_app. set (st := prun before (pinit t0)) in *. cbn. rewrite CC.
  destruct (I_closed _ (pinv_run before _ (pinv_init t0)) C) as [S0 W0]. fold st in S0, W0.
  unfold close. cbn. rewrite C, P. cbn. change (fold_left _ after ?s) with (prun after s). rewrite quiet_run; cbn; auto.
Qed.
Lemma hup_on_close st t : pid st = true -> chan_closed st = false -> closed st = false ->
  In (SIGHUP, now st, kid st) (signals (pstep (CloseChannel true t) st)).
Proof. intros P CC C. cbn. rewrite CC. unfold close. cbn. rewrite C, P. cbn. destruct t; cbn; auto. Qed.

(** ** C39 *)
Lemma write_loop_spec ws : forall fuel k d acc ok, length d <= fuel -> write_loop fuel k ws d = (acc, ok) ->
  prefix acc d /\ (ok = true -> acc = d) /\ (ok = false -> exists i, ws i = WriteFails).
Proof.
  induction fuel as [|f IH]; intros k d acc ok L; cbn [write_loop].
  - destruct d; [|cbn in L; lia]. intros [= <- <-]. repeat split; try congruence. exists []; auto.
  - destruct d as [|b d]; [intros [= <- <-]; repeat split; try congruence; exists []; auto|].
    destruct (ws k) eqn:E.
    + destruct (write_loop f (S k) ws (skipn (S n) (b :: d))) as [acc' ok'] eqn:R.
      apply IH in R as [[c Hc] [H1 H2]]; [|rewrite skipn_length; cbn in *; lia].
      intros [= <- <-]. cbn [firstn skipn] in *.
      split; [|split; auto].
      * exists c. cbn. f_equal. rewrite <- app_assoc, <- Hc. now rewrite firstn_skipn.
      * intros O. rewrite (H1 O). cbn. f_equal. now rewrite firstn_skipn.
    + intros [= <- <-]. split; [exists (b :: d); auto|]. split; [discriminate|eauto].
Qed.
Definition fed (st : pst) (sentd : list bytes) : Prop :=
  (exists parts, input st = concat parts /\ Forall2 prefix parts sentd) /\
  (asked st = 0 -> chan_closed st = false -> input st = concat sentd).
Lemma prefix_nil d : prefix [] d.
Proof. exists d. auto. Qed.
Lemma fed_skip st l : input st = input st -> fed st l -> fed st l. Proof. auto. Qed.
Lemma close_io k t st : input (close k t st) = input st /\ asked (close k t st) = asked st /\ chan_closed (close k t st) = chan_closed st /\
  pending (close k t st) = pending st /\ written (close k t st) = written st /\ ph (close k t st) = ph st /\ kid (close k t st) = kid st.
Proof. unfold close. destruct (negb (closed st) && pid st); cbn; auto 10. destruct k; cbn; auto 10. destruct t; cbn; auto 10. Qed.
(** Events other than data leave the input alone. *)
Lemma step_input e st : (match e with Data _ _ => False | _ => True end) -> input (pstep e st) = input st /\ asked (pstep e st) = asked st /\ (chan_closed (pstep e st) = false -> chan_closed st = false).
Proof.
  intros H. destruct e; try (exfalso; exact H); cbn [pstep]; try (destruct (ph st); cbn; repeat split; auto; fail); try (destruct (kid st); cbn; repeat split; auto; fail).
  - destruct (ph st), ok; cbn; auto.
  - destruct (ph st), send_ok, hangup; cbn; auto.
  - destruct (chan_closed st) eqn:E; [rewrite E; auto|]. destruct (close_io kill_ok thread_ok (with_chan_closed st)) as (->&->&->&_). cbn. auto.
  - destruct (close_io kill_ok thread_ok st) as (->&->&->&_). auto.
  - destruct (nth_error _ _) as [w|]; auto. destruct (w_phase w); cbn; auto.
  - destruct (nth_error _ _) as [w|]; auto. destruct (w_phase w); cbn; auto. destruct (kid st); cbn; auto.
  - destruct (nth_error _ _) as [w|]; auto. destruct (w_phase w); cbn; auto. unfold act.
    destruct (negb (w_sent_kill w) && _)%bool; [destruct kill_ok|]; cbn; auto.
Qed.
Lemma asked_S st : chan_closed st = false -> asked (ask_close st) = S (asked st).
Proof. unfold ask_close. intros ->. auto. Qed.
Lemma forall2_snoc {A X} (R : A -> X -> Prop) l l' a b : Forall2 R l l' -> R a b -> Forall2 R (l ++ [a]) (l' ++ [b]).
Proof. intros. apply Forall2_app; auto. Qed.
Lemma datas_snoc evs e : datas (evs ++ [e]) = datas evs ++ match e with Data d _ => [d] | _ => [] end.
Proof. unfold datas. rewrite map_app, concat_app. cbn. now rewrite app_nil_r. Qed.
Lemma fed_run t0 evs : fed (prun evs (pinit t0)) (datas evs).
Proof.
  induction evs as [|e evs IH] using rev_ind.
  - split; cbn; auto. exists []; repeat split; auto.
  - rewrite prun_app, datas_snoc. set (st := prun evs (pinit t0)) in *. destruct IH as [(parts&Hp&HF) HC].
    change (prun [e] st) with (pstep e st).
    destruct e; try (match goal with |- fed (pstep ?x st) _ => destruct (step_input x st I) as (H1&H2&H3) end;
      rewrite app_nil_r; split; [exists parts; rewrite H1; auto|rewrite H1, H2; auto]; fail).
    cbn [pstep].
    assert (forall st', asked st' <> 0 \/ chan_closed st' = true \/ d = [] -> input st' = input st -> (asked st' = 0 -> asked st = 0) -> (chan_closed st' = false -> chan_closed st = false) -> fed st' (datas evs ++ [d])) as Lost.
    { intros st' N Hi Ha Hcc. split.
      - exists (parts ++ [[]]). rewrite concat_app. cbn. rewrite app_nil_r, Hi. split; auto. apply forall2_snoc; auto using prefix_nil.
      - intros A C. destruct N as [N|[N| ->]]; [congruence|congruence|]. rewrite Hi, concat_app. cbn. rewrite app_nil_r. auto. }
    destruct (chan_closed st) eqn:CC; [apply Lost; auto; congruence|].
    unfold on_data. destruct (fd_open st).
    + destruct (write_loop (length d) 0 ws d) as [acc ok] eqn:R. apply write_loop_spec in R as [R1 [R2 R3]]; auto.
      destruct ok.
      * rewrite R2 by auto. split.
        -- exists (parts ++ [d]). cbn. rewrite concat_app, Hp. cbn. rewrite app_nil_r. split; auto. apply forall2_snoc; auto. exists []. now rewrite app_nil_r.
        -- cbn. intros A C. rewrite concat_app. cbn. rewrite app_nil_r, HC; auto.
      * split.
        -- exists (parts ++ [acc]). destruct (asked_same (with_input st (input st ++ acc))) as (_&_&_&_&_&_&_&->&_). cbn.
           rewrite concat_app, Hp. cbn. rewrite app_nil_r. split; auto. apply forall2_snoc; auto.
        -- rewrite asked_S by auto. discriminate.
    + destruct (asked_same st) as (_&_&_&_&_&_&_&Hi&_).
      destruct (fd st); [destruct d|]; (apply Lost; [|rewrite ?Hi; auto|..]; rewrite ?asked_S by auto; auto; try (left; discriminate); try discriminate).
Qed.
Lemma no_data_no_change evs st : datas evs = [] -> input (prun evs st) = input st /\ asked (prun evs st) = asked st.
Proof.
  revert st. induction evs as [|e evs IH]; cbn [prun fold_left]; auto. intros st H.
  assert (match e with Data _ _ => False | _ => True end) as N. { destruct e; auto. discriminate. }
  assert (datas evs = []) as H'. { destruct e; auto. discriminate. }
  destruct (step_input e st N) as (<-&<-&_). apply IH. auto.
Qed.
Lemma early_input_lost t0 d ws evs : datas evs = [] ->
  input (prun (Data d ws :: evs) (pinit t0)) = [] /\ asked (prun (Data d ws :: evs) (pinit t0)) = 1.
Proof. intros H. change (prun (Data d ws :: evs) (pinit t0)) with (prun evs (pstep (Data d ws) (pinit t0))).
  destruct (no_data_no_change evs (pstep (Data d ws) (pinit t0)) H) as [-> ->]. auto. Qed.

(** ** Output *)
Fixpoint forked (evs : list event) : option bool :=
  match evs with [] => None | Fork ok :: _ => Some ok | _ :: r => forked r end.
Lemma prints_snoc a e : prints (a ++ [e]) = prints a ++ match e with Prints d => d | _ => [] end.
Proof. unfold prints. rewrite map_app, concat_app. cbn. now rewrite app_nil_r. Qed.
Lemma forked_snoc a e : forked (a ++ [e]) = match forked a with Some b => Some b | None => match e with Fork ok => Some ok | _ => None end end.
Proof. induction a as [|x a IH]; cbn; [destruct e; auto|]. destruct x; auto. Qed.
Lemma output_snoc a e : terminal_output (a ++ [e]) = terminal_output a ++ match forked a, e with Some true, Prints d => d | _, _ => [] end.
Proof.
  induction a as [|x a IH]; [destruct e; cbn; auto; destruct ok; auto|].
  destruct x; cbn; auto. destruct ok; auto. rewrite prints_snoc. destruct e; auto.
Qed.
Definition relayed st evs := exists lost, written st ++ lost ++ pending st = terminal_output evs /\ (chan_closed st = false -> lost = []).
Definition born st evs := (ph st = Starting <-> forked evs = None) /\ (kid st = Unborn <-> forked evs <> Some true).
Lemma act_same i k w st : let st' := act i k w st in ph st' = ph st /\ kid st' = kid st /\ written st' = written st /\ pending st' = pending st /\ chan_closed st' = chan_closed st.
Proof. cbn. unfold act. destruct (_ && _)%bool; [destruct k|]; cbn; auto. Qed.
Lemma born_run t0 evs : born (prun evs (pinit t0)) evs.
Proof.
  induction evs as [|e evs IH] using rev_ind; [split; cbn; intuition congruence|].
  rewrite prun_app. set (st := prun evs (pinit t0)) in *. change (prun [e] st) with (pstep e st). destruct IH as [H1 H2].
  unfold born. rewrite forked_snoc.
  assert (forall st', ph st' = ph st -> kid st' = kid st -> (forall ok, e <> Fork ok) -> (ph st' = Starting <-> match forked evs with Some b => Some b | None => match e with Fork ok => Some ok | _ => None end end = None) /\ (kid st' = Unborn <-> match forked evs with Some b => Some b | None => match e with Fork ok => Some ok | _ => None end end <> Some true)) as Same.
  { intros st' -> -> N. rewrite H1, H2. destruct (forked evs); [tauto|]. destruct e; try tauto. destruct (N ok); auto. }
  assert (forall st', ph st <> Starting -> ph st' <> Starting -> (kid st' = Unborn <-> kid st = Unborn) -> (ph st' = Starting <-> match forked evs with Some b => Some b | None => match e with Fork ok => Some ok | _ => None end end = None) /\ (kid st' = Unborn <-> match forked evs with Some b => Some b | None => match e with Fork ok => Some ok | _ => None end end <> Some true)) as Moved.
  { intros st' N N' ->. rewrite H2. destruct (forked evs); intuition congruence. }
  destruct e; cbn [pstep]; try (destruct (nth_error _ _) as [w|]; [|apply Same; auto; discriminate]; destruct (w_phase w); try (apply Same; cbn; auto; discriminate)).
  - apply Same; auto; discriminate.
  - destruct (ph st) eqn:E; try (apply Moved; rewrite ?E; auto; try discriminate; tauto).
    destruct H1 as [H1 _]. rewrite (H1 eq_refl) in *. destruct ok; cbn; intuition congruence.
  - destruct (ph st) eqn:E; try (apply Same; auto; discriminate). apply Moved; cbn; rewrite ?E; try discriminate; tauto.
  - destruct (ph st) eqn:E; try (apply Same; auto; discriminate). apply Moved; cbn; rewrite ?E; try tauto; try discriminate; destruct ok; discriminate.
  - destruct (kid st) eqn:E; apply Same; cbn; auto; discriminate.
  - destruct (kid st) eqn:E; try (apply Same; auto; discriminate).
    cbn. rewrite H1. destruct (forked evs) as [[]|]; intuition congruence.
  - destruct (ph st) eqn:E; try (apply Same; auto; discriminate). destruct send_ok, hangup; apply Moved; cbn; rewrite ?E; try tauto; discriminate.
  - destruct (ph st) eqn:E; try (apply Same; auto; discriminate). apply Moved; cbn; rewrite ?E; try tauto; discriminate.
  - destruct (ph st) eqn:E; try (apply Same; auto; discriminate). apply Moved; cbn; rewrite ?E; try tauto; discriminate.
  - destruct (ph st) eqn:E; try (apply Same; auto; discriminate). apply Moved; cbn; rewrite ?E; try tauto; discriminate.
  - destruct (chan_closed st); [apply Same; auto; discriminate|]. pose proof (on_data_same d ws st) as H. cbn in H. apply Same; try tauto. discriminate.
  - destruct (chan_closed st); [apply Same; auto; discriminate|]. destruct (close_io kill_ok thread_ok (with_chan_closed st)) as (_&_&_&_&_&A&B0). apply Same; auto; discriminate.
  - destruct (close_io kill_ok thread_ok st) as (_&_&_&_&_&A&B0). apply Same; auto; discriminate.
  - destruct (kid st) eqn:K; try (apply Same; cbn; auto; discriminate).
    cbn. rewrite H1. destruct (forked evs) as [[]|]; intuition congruence.
  - pose proof (act_same i kill_ok w st) as H. cbn in H. apply Same; try tauto. discriminate.
Qed.
Lemma relayed_run t0 evs : relayed (prun evs (pinit t0)) evs.
Proof.
  induction evs as [|e evs IH] using rev_ind; [exists []; auto|].
  rewrite prun_app. pose proof (born_run t0 evs) as [B1 B2]. set (st := prun evs (pinit t0)) in *. change (prun [e] st) with (pstep e st).
  destruct IH as (lost&HL&HO). unfold relayed. rewrite output_snoc.
  assert (forall st', (forall d, e <> Prints d) -> written st' = written st -> pending st' = pending st -> (chan_closed st' = false -> chan_closed st = false) ->
    exists lost0, written st' ++ lost0 ++ pending st' = terminal_output evs ++ match forked evs, e with Some true, Prints d => d | _, _ => [] end /\ (chan_closed st' = false -> lost0 = [])) as Same.
  { intros st' N -> -> C. exists lost. split; [|auto]. rewrite HL. destruct (forked evs) as [[]|], e; try now rewrite app_nil_r. destruct (N d); auto. }
  destruct e; cbn [pstep]; try (destruct (nth_error _ _) as [w|]; [|apply Same; auto; discriminate]; destruct (w_phase w); try (apply Same; cbn; auto; discriminate));
    try (destruct (ph st); apply Same; cbn; auto; discriminate).
  - destruct (ph st), ok; apply Same; cbn; auto; discriminate.
  - destruct (kid st) eqn:K.
    + assert (forked evs <> Some true) as F by tauto. exists lost. split; auto. rewrite HL. destruct (forked evs) as [[]|]; try congruence; now rewrite app_nil_r.
    + assert (forked evs = Some true) as F. { destruct (forked evs) as [[]|]; auto; destruct B2 as [_ B2]; now specialize (B2 ltac:(discriminate)). }
      rewrite F. exists lost. split; auto. cbn. rewrite <- HL, <- !app_assoc. auto.
    + assert (forked evs = Some true) as F. { destruct (forked evs) as [[]|]; auto; destruct B2 as [_ B2]; now specialize (B2 ltac:(discriminate)). }
      rewrite F. exists lost. split; auto. cbn. rewrite <- HL, <- !app_assoc. auto.
    + assert (forked evs = Some true) as F. { destruct (forked evs) as [[]|]; auto; destruct B2 as [_ B2]; now specialize (B2 ltac:(discriminate)). }
      rewrite F. exists lost. split; auto. cbn. rewrite <- HL, <- !app_assoc. auto.
  - destruct (kid st); apply Same; cbn; auto; discriminate.
  - assert (forall st', written st' = (if chan_closed st then written st else written st ++ firstn n (pending st)) -> pending st' = skipn n (pending st) -> chan_closed st' = chan_closed st ->
      exists lost0, written st' ++ lost0 ++ pending st' = terminal_output evs ++ match forked evs with Some true => [] | _ => [] end /\ (chan_closed st' = false -> lost0 = [])) as Rd.
    { intros st' -> -> ->. replace (match forked evs with Some true => [] | _ => [] end) with (@nil byte) by (destruct (forked evs) as [[]|]; auto).
      rewrite app_nil_r. destruct (chan_closed st).
      - exists (lost ++ firstn n (pending st)). split; [|discriminate]. rewrite <- app_assoc, firstn_skipn. auto.
      - exists []. split; auto. rewrite (HO eq_refl) in HL. cbn in *. now rewrite <- app_assoc, firstn_skipn. }
    destruct (ph st); try (apply Same; auto; discriminate). destruct send_ok; [destruct hangup|]; apply Rd; auto.
  - destruct (chan_closed st) eqn:CC; [apply Same; auto; try discriminate; congruence|]. pose proof (on_data_same d ws st) as H. cbn in H. apply Same; try tauto; try discriminate.
  - destruct (chan_closed st) eqn:CC; [apply Same; auto; try discriminate; congruence|]. destruct (close_io kill_ok thread_ok (with_chan_closed st)) as (_&_&A&C&D&_). apply Same; auto; try discriminate; congruence.
  - destruct (close_io kill_ok thread_ok st) as (_&_&A&C&D&_). apply Same; try discriminate; auto; congruence.
  - destruct (kid st); apply Same; cbn; auto; discriminate.
  - pose proof (act_same i kill_ok w st) as H. cbn in H. apply Same; try discriminate; try tauto. destruct H as (_&_&_&_&->). auto.
Qed.
Lemma output_prefix t0 evs : prefix (written (prun evs (pinit t0))) (terminal_output evs).
Proof. destruct (relayed_run t0 evs) as (l&H&_). eexists. symmetry. exact H. Qed.
Lemma output_complete t0 evs st : st = prun evs (pinit t0) -> chan_closed st = false -> pending st = [] -> written st = terminal_output evs.
Proof. intros -> C P. destruct (relayed_run t0 evs) as (l&H&L). rewrite (L C), P, app_nil_r in H. auto. Qed.
Lemma over_step e st : ph st = Over -> ph (pstep e st) = Over /\ written (pstep e st) = written st.
Proof.
  intros H. destruct e; cbn [pstep]; rewrite ?H; auto.
  - destruct (kid st); cbn; auto.
  - destruct (kid st); cbn; auto.
  - destruct (chan_closed st); auto. pose proof (on_data_same d ws st) as X. cbn in X. intuition congruence.
  - destruct (chan_closed st); auto. destruct (close_io kill_ok thread_ok (with_chan_closed st)) as (_&_&_&_&->&->&_). auto.
  - destruct (close_io kill_ok thread_ok st) as (_&_&_&_&->&->&_). auto.
  - destruct (nth_error _ _) as [w|]; auto. destruct (w_phase w); cbn; auto.
  - destruct (nth_error _ _) as [w|]; auto. destruct (w_phase w); cbn; auto. destruct (kid st); cbn; auto.
  - destruct (nth_error _ _) as [w|]; auto. destruct (w_phase w); cbn; auto. pose proof (act_same i kill_ok w st) as X. cbn in X. intuition congruence.
Qed.
Lemma over_writes_no_more st : ph st = Over -> forall more, written (prun more st) = written st.
Proof.
  intros H more. revert st H. induction more as [|e more IH]; cbn [prun fold_left]; auto. intros st H.
  destruct (over_step e st H) as [H' <-]. apply IH. auto.
Qed.
Lemma input_after_end st d ws : ph st = Over -> fd st = false -> chan_closed st = false -> asked (pstep (Data d ws) st) = S (asked st).
Proof. intros P F C. cbn [pstep]. rewrite C. unfold on_data, fd_open. rewrite P, F. now apply asked_S. Qed.
Lemma output_lost : exists evs, let st := prun evs (pinit 0) in
  chan_closed st = false /\ ph st = Over /\ kid st = Zombie /\ terminal_output evs = B "hello world" /\
  forall more, written (prun more st) = B "hello".
Proof.
  exists [Fork true; SetPid; InitFd true; Prints (B "hello world"); Exits; Reads 5 true true; CloseFd; ForgetFd].
  cbn zeta. repeat (split; [reflexivity|]). intros more. rewrite over_writes_no_more; reflexivity.
Qed.
