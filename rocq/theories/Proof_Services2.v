(** * Proofs about the command service *)
From Verif Require Import Py Model_Services Spec_Services Proof_Services.

Section S.
  Variable w : nat -> ans.
  Variable chunk : nat.
  Hypothesis chunk_pos : 0 < chunk.

  Definition sends (st st' : sst) (ds : list bytes) : Prop :=
    sent st' = sent st ++ map OData ds /\ pieces chunk ds /\ (s_closed st = true -> ds = []).

  Lemma sends_nil st st' : s_out st' = s_out st -> sends st st' [].
  Proof. intros H. unfold sends, sent. rewrite H. cbn. rewrite app_nil_r. repeat split; auto. constructor. Qed.
  Lemma sends_trans a b c d1 d2 : mono a b -> sends a b d1 -> sends b c d2 -> sends a c (d1 ++ d2).
  Proof.
    intros M [E1 [P1 C1]] [E2 [P2 C2]]. repeat split.
    - rewrite E2, E1, map_app, app_assoc. reflexivity.
    - apply Forall_app. auto.
    - intros H. rewrite (C1 H), (C2 (M H)). reflexivity.
  Qed.
  Lemma prefix_refl {A} (l : list A) : prefix l l. Proof. exists []. now rewrite app_nil_r. Qed.
  Lemma prefix_nil {A} (l : list A) : prefix [] l. Proof. now exists l. Qed.
  Lemma prefix_app {A} (a b c : list A) : prefix a b -> prefix a (b ++ c).
  Proof. intros [d ->]. exists (d ++ c). now rewrite app_assoc. Qed.
  Lemma prefix_app2 {A} (a b c : list A) : prefix b c -> prefix (a ++ b) (a ++ c).
  Proof. intros [d ->]. exists d. now rewrite app_assoc. Qed.

  Lemma handle_events_spec : forall l rest st st' r, handle_events w chunk l rest st = (st', r) ->
    mono st st' /\ r <> Hang /\ exists ds, sends st st' ds /\
      (forall rest' more, r = Ok (rest', more) -> exists taken, rest = taken ++ rest' /\ prefix (concat ds) taken /\
         (s_closed st' = false -> concat ds = taken)) /\
      (forall e, r = Raise e -> prefix (concat ds) rest) /\
      (polite w -> forall e, r = Raise e -> exists n, a_os (w n) = Some e).
  Proof.
    induction l as [|[[is_out mask] n] l IH]; intros rest st st' r.
    { cbn. intros [= <- <-]. repeat split; auto using mono_refl; try discriminate. exists []. repeat split; auto using sends_nil.
      - apply sends_nil; auto.
      - constructor.
      - intros rest' more [= <- _]. exists []. repeat split. apply prefix_nil.
      - discriminate.
      - discriminate. }
    cbn [handle_events].
    assert (forall (rest1 : bytes) st1 st2 r1, (if failed mask then ret (rest1, true) st1 else handle_events w chunk l rest1 st1) = (st2, r1) ->
      mono st1 st2 /\ r1 <> Hang /\ exists ds, sends st1 st2 ds /\
      (forall rest' more, r1 = Ok (rest', more) -> exists taken, rest1 = taken ++ rest' /\ prefix (concat ds) taken /\
         (s_closed st2 = false -> concat ds = taken)) /\
      (forall e, r1 = Raise e -> prefix (concat ds) rest1) /\
      (polite w -> forall e, r1 = Raise e -> exists n, a_os (w n) = Some e)) as Hafter.
    { intros rest1 st1 st2 r1. destruct (failed mask); [|apply IH].
      cbn. intros [= <- <-]. split; auto using mono_refl. split; [discriminate|]. exists []. split; [now apply sends_nil|].
      split; [|split; discriminate].
      intros rest' more [= <- _]. exists []. repeat split. apply prefix_nil. }
    destruct (readable mask).
    2:{ intros H. apply Hafter. now destruct (failed mask). }
    unfold bindM at 1. destruct (os_op w st) as [st1 r1] eqn:E1. apply os_op_spec in E1 as [M1 [O1 R1]].
    destruct R1 as [->|[e [k [-> He]]]].
    2:{ intros [= <- <-]. split; auto. split; [discriminate|]. exists []. split; [now apply sends_nil|].
        split; [discriminate|]. split; [intros; apply prefix_nil|]. intros _ e0 [= <-]. eauto. }
    pose proof (sends_nil _ _ O1) as S1.
    destruct is_out.
    2:{ intros H. destruct (Hafter rest st1 st' r) as [M [Hh [ds [Hs Hrest]]]]; [now destruct (failed mask)|].
        split; [eauto using mono_trans|]. split; auto. exists ds. split; auto.
        apply (sends_trans _ _ _ [] ds M1 S1 Hs). }
    remember (Nat.min chunk (S n)) as k eqn:Hk. assert (0 < k <= chunk) as Hkb by lia. clear Hk.
    destruct (firstn k rest) as [|x d] eqn:Ed.
    { intros [= <- <-]. split; auto. split; [discriminate|]. exists []. split; auto. split; [|split; discriminate].
      intros rest' more [= <- _]. exists []. repeat split. apply prefix_nil. }
    unfold bindM. destruct (ch_send w (OData (x :: d)) st1) as [st2 r2] eqn:E2. pose proof E2 as E2'.
    apply ch_send_spec in E2 as [M2 H2].
    assert (length (x :: d) <= chunk) as Hlen by (rewrite <- Ed; pose proof (firstn_le_length k rest); lia).
    assert (rest = (x :: d) ++ skipn k rest) as Hsplit by (rewrite <- Ed; symmetry; apply firstn_skipn).
    destruct H2 as [[C2 [O2 ->]]|[C2 [O2 R2]]].
    - (* closed meanwhile *)
      intros H. destruct (Hafter (skipn k rest) st2 st' r) as [M [Hh [ds [Hs [Hok [Hr He]]]]]]; [now destruct (failed mask)|].
      assert (ds = []) as -> by (apply Hs; auto).
      assert (s_closed st' = true) as C3 by (apply M; auto).
      split; [eauto using mono_trans|]. split; auto. exists []. split.
      { apply (sends_trans _ _ _ [] [] M1 S1). apply (sends_trans _ _ _ [] [] M2); auto. now apply sends_nil. }
      split; [|split]; auto.
      + intros rest' more Hr2. destruct (Hok _ _ Hr2) as [taken [Ht _]]. exists ((x :: d) ++ taken).
        rewrite <- app_assoc, <- Ht. split; auto. split; [apply prefix_nil|congruence].
      + intros; apply prefix_nil.
    - assert (sends st1 st2 [x :: d]) as S2.
      { split; [|split].
        - unfold sent. rewrite O2. reflexivity.
        - constructor; [split; [discriminate|auto]|constructor].
        - intros H. apply M2 in H. congruence. }
      destruct R2 as [->|[e [m [-> [He Hne]]]]].
      + intros H. destruct (Hafter (skipn k rest) st2 st' r) as [M [Hh [ds [Hs [Hok [Hr He]]]]]]; [now destruct (failed mask)|].
        split; [eauto using mono_trans|]. split; auto. exists ((x :: d) :: ds). split.
        { apply (sends_trans _ _ _ [] _ M1 S1). apply (sends_trans _ _ _ [x :: d] ds M2); auto. }
        split; [|split]; auto.
        * intros rest' more Hr2. destruct (Hok _ _ Hr2) as [taken [Ht [Hp Hc]]]. exists ((x :: d) ++ taken).
          rewrite <- app_assoc, <- Ht. split; auto. split; [now apply prefix_app2|].
          intros C. cbn [concat]. now rewrite Hc.
        * intros e Hr2. rewrite Hsplit. cbn [concat]. apply prefix_app2. eauto.
      + intros [= <- <-]. split; [eauto using mono_trans|]. split; [discriminate|]. exists [x :: d]. split.
        { apply (sends_trans _ _ _ [] _ M1 S1). auto. }
        split; [discriminate|]. split.
        * intros e0 _. rewrite Hsplit. cbn [concat]. rewrite app_nil_r. apply prefix_app, prefix_refl.
        * intros Hp. destruct (Hp m); congruence.
  Qed.

  Lemma command_loop_spec : forall polls rest st st' r, command_loop w chunk polls rest st = (st', r) ->
    mono st st' /\ r <> Hang /\ exists ds, sends st st' ds /\ prefix (concat ds) rest /\
      (polite w -> forall e, r = Raise e -> exists n, a_os (w n) = Some e).
  Proof.
    induction polls as [|[|l] polls IH]; intros rest st st' r; cbn [command_loop].
    - intros [= <- <-]. split; auto using mono_refl. split; [discriminate|]. exists []. split; [now apply sends_nil|].
      split; [apply prefix_nil|discriminate].
    - intros [= <- <-]. split; auto using mono_refl. split; [discriminate|]. exists []. split; [now apply sends_nil|].
      split; [apply prefix_nil|discriminate].
    - unfold bindM at 1. destruct (handle_events w chunk l rest st) as [st1 r1] eqn:E1.
      apply handle_events_spec in E1 as [M1 [Hh1 [ds [S1 [Hok [Hr He]]]]]].
      destruct r1 as [[rest' more]|e|]; [| |congruence].
      2:{ intros [= <- <-]. split; auto. split; [discriminate|]. exists ds. split; auto. split; [eauto|]. intros Hpo e0 [= <-]. eauto. }
      destruct (Hok _ _ eq_refl) as [taken [Ht [Hp Hc]]].
      unfold bindM. destruct (is_closed w st1) as [st2 r2] eqn:E2. apply is_closed_spec in E2 as [M2 [O2 ->]].
      pose proof (sends_nil _ _ O2) as S2.
      assert (sends st st2 ds) as S02 by (rewrite <- (app_nil_r ds); apply (sends_trans _ _ _ _ _ M1 S1 S2)).
      assert (mono st st2) as M02 by eauto using mono_trans.
      assert (prefix (concat ds) rest) as Hpr by (rewrite Ht; now apply prefix_app).
      destruct (s_closed st2 || negb more) eqn:Eb.
      { intros [= <- <-]. split; auto. split; [discriminate|]. exists ds. split; auto. split; auto. discriminate. }
      intros H. apply IH in H as [M3 [Hh [ds2 [S3 [Hp2 He2]]]]].
      apply orb_false_iff in Eb as [C2 _].
      split; [eauto using mono_trans|]. split; auto. exists (ds ++ ds2). split; [apply (sends_trans _ _ _ _ _ M02 S02 S3)|].
      split; auto. rewrite concat_app. rewrite Ht, <- (Hc (mono_open _ _ M2 C2)). now apply prefix_app2.
  Qed.

  (** The clauses after the loop: what they send. *)
  Definition kill_of (rc2 : option Z) : list out := match rc2 with None => [OKill] | Some _ => [] end.
  Lemma finish_spec rc1 rc2 st st' r : command_finish w rc1 rc2 st = (st', r) ->
    mono st st' /\ r <> Hang /\ exists fin, sent st' = sent st ++ fin /\ messages fin = [] /\
      (polite w -> os_errors w -> r = Ok tt) /\
      (polite w -> (s_closed st' = false -> fin = [OComplete rc1; OClose] ++ kill_of rc2) /\
                   exists a, fin = a ++ kill_of rc2 /\ (a = [] \/ a = [OComplete rc1] \/ a = [OComplete rc1; OClose])).
  Proof.
    unfold command_finish, bindM. destruct (ch_send w (OComplete rc1) st) as [st1 r1] eqn:E1. pose proof E1 as E1'.
    apply ch_send_adds in E1 as [M1 [H1 [l1 [L1 D1]]]].
    destruct r1 as [[]|e|]; [| |congruence].
    2:{ intros [= <- <-]. split; auto. split; [discriminate|]. exists l1. split; auto.
        split; [destruct D1 as [[-> _]|[-> _]]; reflexivity|]. split.
        - intros Hp _. apply (polite_send _ _ _ _ _ Hp E1').
        - intros Hp. pose proof (polite_send _ _ _ _ _ Hp E1'). discriminate. }
    destruct (ch_send w OClose st1) as [st2 r2] eqn:E2. pose proof E2 as E2'. apply ch_send_adds in E2 as [M2 [H2 [l2 [L2 D2]]]].
    destruct r2 as [[]|e|]; [| |congruence].
    2:{ intros [= <- <-]. split; [eauto using mono_trans|]. split; [discriminate|]. exists (l1 ++ l2). rewrite L2, L1, app_assoc. split; auto.
        split; [rewrite messages_app; destruct D1 as [[-> _]|[-> _]], D2 as [[-> _]|[-> _]]; reflexivity|]. split.
        - intros Hp _. apply (polite_send _ _ _ _ _ Hp E2').
        - intros Hp. pose proof (polite_send _ _ _ _ _ Hp E2'). discriminate. }
    assert (mono st st2) as M02 by eauto using mono_trans.
    assert (sent st2 = sent st ++ l1 ++ l2) as L02 by (rewrite L2, L1, app_assoc; reflexivity).
    assert (messages (l1 ++ l2) = []) as Hms
      by (rewrite messages_app; destruct D1 as [[-> _]|[-> _]], D2 as [[-> _]|[-> _]]; reflexivity).
    assert (s_closed st2 = false -> l1 ++ l2 = [OComplete rc1; OClose]) as Hopen.
    { intros C. destruct D2 as [[_ C2]|[-> _]]; [congruence|]. destruct D1 as [[_ C1]|[-> _]]; [|reflexivity].
      apply M2 in C1. congruence. }
    assert (l1 ++ l2 = [] \/ l1 ++ l2 = [OComplete rc1] \/ l1 ++ l2 = [OComplete rc1; OClose]) as Hsome.
    { destruct D1 as [[-> C1]|[-> C1]], D2 as [[-> C2]|[-> C2]]; cbn; auto; apply M2 in C1; congruence. }
    destruct rc2 as [z|].
    - intros [= <- <-]. split; auto. split; [discriminate|]. exists (l1 ++ l2). split; auto. split; auto. split; auto.
      intros _. cbn [kill_of]. split; [intros C; rewrite app_nil_r; auto|]. exists (l1 ++ l2). rewrite app_nil_r. auto.
    - unfold emit, tryM. destruct (os_op w _) as [st4 r4] eqn:E4. apply os_op_spec in E4 as [M4 [O4 R4]].
      assert (mono st2 st4) as M24 by exact M4.
      assert (sent st4 = sent st ++ (l1 ++ l2) ++ [OKill]) as S4.
      { unfold sent. rewrite O4. cbn. change (rev (s_out st2)) with (sent st2). rewrite L02, !app_assoc. reflexivity. }
      intros Heq.
      assert (st4 = st' /\ r <> Hang /\ (os_errors w -> r = Ok tt)) as [-> [Hr Hr2]].
      { destruct R4 as [->|[e [n [-> He]]]].
        - injection Heq as <- <-. repeat split; auto; discriminate.
        - destruct e; cbn in Heq; injection Heq as <- <-; repeat split; auto; try discriminate;
            intros Ho; destruct (Ho n); congruence. }
      split; [eauto using mono_trans|]. split; auto. exists ((l1 ++ l2) ++ [OKill]). split; auto.
      split; [rewrite messages_app, Hms; reflexivity|]. split; auto.
      intros _. cbn [kill_of]. split.
      + intros C. rewrite (Hopen (mono_open _ _ M24 C)). reflexivity.
      + exists (l1 ++ l2). auto.
  Qed.

  Lemma command_inner_spec polls stdout rc1 rc2 st r : command_run_inner w chunk polls stdout rc1 rc2 sinit = (st, r) ->
    r <> Hang /\ exists ds tail, sent st = map OData ds ++ tail /\ pieces chunk ds /\ prefix (concat ds) stdout /\ messages tail = [] /\
    (polite w -> os_errors w -> a_os (w 0) = None ->
       (r = Ok None /\ tail = []) \/
       (r = Ok (Some tt) /\ exists errs fin, tail = errs ++ fin /\ (errs = [] \/ errs = [OControl "command" "error" "error" "error running command"]) /\
          (s_closed st = false -> fin = [OComplete rc1; OClose] ++ kill_of rc2) /\
          exists a, fin = a ++ kill_of rc2 /\ (a = [] \/ a = [OComplete rc1] \/ a = [OComplete rc1; OClose]))).
  Proof.
    unfold command_run_inner, bindM at 1. destruct (os_op w sinit) as [st0 r0] eqn:E0. pose proof E0 as E0'.
    apply os_op_spec in E0 as [M0 [O0 R0]].
    destruct R0 as [->|[e [n [-> He]]]].
    2:{ intros [= <- <-]. split; [discriminate|]. exists [], []. unfold sent. rewrite O0. cbn. split; auto. split; [constructor|]. split; [apply prefix_nil|]. split; auto.
        intros _ _ Hz. exfalso. unfold os_op, bindM, tick in E0'. cbn in E0'. rewrite Hz in E0'. discriminate. }
    unfold finallyO, tryM. destruct (command_loop w chunk polls stdout st0) as [st1 r1] eqn:E1.
    apply command_loop_spec in E1 as [M1 [Hh1 [ds [S1 [Hp Hr]]]]].
    assert (sent st1 = map OData ds) as Hs1 by (destruct S1 as [-> _]; unfold sent; rewrite O0; reflexivity).
    assert (pieces chunk ds) as Hpc by apply S1.
    assert (forall st2 r2 errs, sent st2 = sent st1 ++ errs -> messages errs = [] -> r2 <> Hang -> r2 <> Ok None ->
       (polite w -> r2 = Ok (Some tt)) -> (errs = [] \/ errs = [OControl "command" "error" "error" "error running command"]) ->
       (match r2 with
        | Ok None => (st2, Ok None)
        | Ok (Some u) => finallyM (ret (Some u)) (command_finish w rc1 rc2) st2
        | Raise e => finallyM (raiseM e) (command_finish w rc1 rc2) st2
        | Hang => (st2, Hang)
        end) = (st, r) ->
       r <> Hang /\ exists ds tail, sent st = map OData ds ++ tail /\ pieces chunk ds /\ prefix (concat ds) stdout /\ messages tail = [] /\
       (polite w -> os_errors w -> a_os (w 0) = None ->
       (r = Ok None /\ tail = []) \/
       (r = Ok (Some tt) /\ exists errs fin, tail = errs ++ fin /\ (errs = [] \/ errs = [OControl "command" "error" "error" "error running command"]) /\
          (s_closed st = false -> fin = [OComplete rc1; OClose] ++ kill_of rc2) /\
          exists a, fin = a ++ kill_of rc2 /\ (a = [] \/ a = [OComplete rc1] \/ a = [OComplete rc1; OClose])))) as Hfin.
    { intros st2 r2 errs Hs2 Hm2 Hh2 Hn2 Hpol2 Herr Heq.
      destruct (command_finish w rc1 rc2 st2) as [st3 r3] eqn:E3.
      assert (st3 = st /\ r <> Hang /\ (r2 = Ok (Some tt) -> r3 = Ok tt -> r = Ok (Some tt))) as [-> [Hr1 Hr2]].
      { apply finish_spec in E3 as E4. destruct E4 as [_ [Hh3 _]].
        destruct r2 as [[[]|]|e|]; try congruence; unfold finallyM, ret, raiseM in Heq; rewrite E3 in Heq;
          destruct r3 as [[]|e3|]; try congruence; injection Heq as <- <-; repeat split; auto; discriminate. }
      apply finish_spec in E3 as [M3 [Hh3 [fin [L3 [Hm3 [Hok3 Hsh3]]]]]].
      split; auto. exists ds, (errs ++ fin). rewrite L3, Hs2, Hs1, app_assoc. split; auto. split; auto. split; auto.
      split; [rewrite messages_app, Hm2, Hm3; reflexivity|].
      intros Hpo Hos _. right. split; auto. exists errs, fin. split; auto. }
    destruct r1 as [[[]|]|e|]; [| | |congruence].
    - intros H. apply (Hfin st1 (Ok (Some tt)) []); auto; try discriminate. now rewrite app_nil_r.
    - intros [= <- <-]. split; [discriminate|]. exists ds, []. rewrite app_nil_r. repeat (split; auto).
    - assert (forall st2 r2, command_error w "error" "error running command" st1 = (st2, r2) ->
        exists errs, sent st2 = sent st1 ++ errs /\ messages errs = [] /\ r2 <> Hang /\ (polite w -> r2 = Ok tt) /\
        (errs = [] \/ errs = [OControl "command" "error" "error" "error running command"])) as Hce.
      { intros st2 r2 E2. unfold command_error in E2. pose proof E2 as E2'. apply ch_send_adds in E2 as [M2 [H2 [l2 [L2 D2]]]].
        exists l2. split; auto. split; [destruct D2 as [[-> _]|[-> _]]; reflexivity|]. split; auto. split.
        - intros Hpo. apply (polite_send _ _ _ _ _ Hpo E2').
        - destruct D2 as [[-> _]|[-> _]]; auto. }
      destruct (command_error w "error" "error running command" st1) as [st2 r2] eqn:E2.
      destruct (Hce _ _ eq_refl) as [errs [Hs2 [Hm2 [Hh2 [Hp2 Her]]]]].
      assert (forall x, (match x with EWebSocket => ret (Some tt) | _ => bindM (command_error w "error" "error running command") (fun _ => ret (Some tt)) end) st1
          = match x with EWebSocket => (st1, Ok (Some tt)) | _ => match r2 with Ok _ => (st2, Ok (Some tt)) | Raise e => (st2, Raise e) | Hang => (st2, Hang) end end) as Hx.
      { intros x. destruct x; try reflexivity; unfold bindM; rewrite E2; destruct r2; reflexivity. }
      rewrite Hx. destruct e;
        try (destruct r2 as [[]|e2|]; [| |congruence]; intros H;
             [apply (Hfin st2 (Ok (Some tt)) errs); auto; discriminate
             |apply (Hfin st2 (Raise e2) errs); auto; try discriminate; intros Hpo; discriminate (Hp2 Hpo)]).
      intros H. apply (Hfin st1 (Ok (Some tt)) []); auto; try discriminate. now rewrite app_nil_r.
  Qed.

  Lemma command_run_data polls stdout rc1 rc2 st r : command_run w chunk polls stdout rc1 rc2 sinit = (st, r) ->
    r <> Hang /\ pieces chunk (messages (sent st)) /\ prefix (concat (messages (sent st))) stdout.
  Proof.
    unfold command_run, tryM. destruct (command_run_inner w chunk polls stdout rc1 rc2 sinit) as [st1 r1] eqn:E.
    apply command_inner_spec in E as [Hh [ds [tail [E1 [Hp [Hpr [Hm _]]]]]]].
    assert (messages (sent st1) = ds) as Hms by (rewrite E1, messages_app, messages_data, Hm, app_nil_r; reflexivity).
    destruct r1 as [o|e|]; [| |congruence].
    - intros [= <- <-]. rewrite Hms. split; [discriminate|auto].
    - unfold bindM, command_error. destruct (ch_send w _ st1) as [st2 r2] eqn:E2. apply ch_send_adds in E2 as [M2 [H2 [l2 [L2 D2]]]].
      intros Heq. assert (messages (sent st2) = ds) as Hms2.
      { rewrite L2, messages_app, Hms. destruct D2 as [[-> _]|[-> _]]; apply app_nil_r. }
      destruct r2 as [[]|e2|]; [| |congruence]; injection Heq as <- <-; rewrite Hms2; split; auto; discriminate.
  Qed.
  Lemma command_run_end polls stdout rc1 rc2 st r : polite w -> os_errors w -> a_os (w 0) = None ->
    command_run w chunk polls stdout rc1 rc2 sinit = (st, r) ->
    exists ds, (r = Ok None /\ sent st = map OData ds) \/
      (r = Ok (Some tt) /\ exists errs fin, sent st = map OData ds ++ errs ++ fin /\
         (errs = [] \/ errs = [OControl "command" "error" "error" "error running command"]) /\
         (s_closed st = false -> fin = [OComplete rc1; OClose] ++ kill_of rc2) /\
         (rc2 = None -> In OKill fin)).
  Proof.
    intros Hpo Hos Hz. unfold command_run, tryM. destruct (command_run_inner w chunk polls stdout rc1 rc2 sinit) as [st1 r1] eqn:E.
    apply command_inner_spec in E as [Hh [ds [tail [E1 [Hp [Hpr [Hm H]]]]]]].
    destruct (H Hpo Hos Hz) as [[-> ->]|[-> [errs [fin [Ht [He [Hf [a [Ha _]]]]]]]]]; intros [= <- <-]; exists ds.
    - left. rewrite E1, app_nil_r. auto.
    - right. split; auto. exists errs, fin. rewrite E1, Ht. repeat split; auto. intros ->. rewrite Ha. apply in_app_iff. cbn. auto.
  Qed.
End S.

(** A command whose pipes report hang-up only is never completed while its channel is open. *)
Lemma over_step w chunk rest st more : calm w -> s_closed st = false ->
  command_loop w chunk (command_over :: more) rest st = command_loop w chunk more rest (SSt (S (s_pos st)) false (s_out st)).
Proof. intros H C. cbn. unfold bindM. cbn. unfold is_closed, bindM, tick. rewrite (H (s_pos st)), C. cbn. reflexivity. Qed.
Lemma over_loop w chunk rest n : calm w -> forall st, s_closed st = false ->
  command_loop w chunk (repeat command_over n) rest st = (SSt (n + s_pos st) false (s_out st), Ok None).
Proof.
  intros H. induction n as [|n IH]; intros st C.
  - cbn. destruct st; cbn in *; subst; reflexivity.
  - cbn [repeat]. rewrite over_step, IH by auto. cbn [s_pos s_out]. now rewrite Nat.add_succ_r.
Qed.
Lemma never_completes w chunk rc1 rc2 n : calm w ->
  exists st, command_run w chunk (repeat command_over n) [] rc1 rc2 sinit = (st, Ok None) /\ sent st = [].
Proof.
  intros H. unfold command_run, tryM, command_run_inner, bindM at 1.
  assert (os_op w sinit = (SSt 1 false [], Ok tt)) as -> by (unfold os_op, bindM, tick; cbn; rewrite (H 0); reflexivity).
  unfold finallyO, tryM. rewrite over_loop by auto. eexists. split; reflexivity.
Qed.
Lemma closing_ends w chunk l more rest st st' r : s_closed st = true ->
  command_loop w chunk (PollEvents l :: more) rest st = (st', r) -> r <> Ok None.
Proof.
  intros C. cbn [command_loop]. unfold bindM. destruct (handle_events w chunk l rest st) as [st1 r1] eqn:E1.
  destruct r1 as [[rest' m]|e|]; try (intros [= <- <-]; discriminate).
  destruct (is_closed w st1) as [st2 r2] eqn:E2. apply is_closed_spec in E2 as [M2 [_ ->]].
  assert (mono st st1) as M1.
  { clear -E1 C. revert rest st st1 C E1. induction l as [|[[o k] n] l IH]; intros rest st st1 C.
    - cbn. intros [= <- _]. apply mono_refl.
    - cbn [handle_events].
      assert (forall rest1 s1, mono st s1 -> (if failed k then ret (rest1, true) s1 else handle_events w chunk l rest1 s1) = (st1, Ok (rest', m)) -> mono st st1) as Hk.
      { intros rest1 s1 M. destruct (failed k); [intros [= <- _]; auto|]. intros H. apply IH in H; [eauto using mono_trans|auto]. }
      destruct (readable k).
      + unfold bindM at 1. destruct (os_op w st) as [s1 r1] eqn:Eo. apply os_op_spec in Eo as [M [_ [->|[e [i [-> _]]]]]]; [|discriminate].
        destruct o.
        * destruct (firstn (Nat.min chunk (S n)) rest); [intros [= <- _]; auto|].
          unfold bindM. destruct (ch_send w _ s1) as [s2 r2] eqn:Es. apply ch_send_spec in Es as [M3 [[_ [_ ->]]|[_ [_ [->|[e [i [-> _]]]]]]]]; try discriminate;
            intros H; apply (Hk (skipn (Nat.min chunk (S n)) rest) s2); try (now destruct (failed k)); eauto using mono_trans.
        * intros H. apply (Hk rest s1); auto. now destruct (failed k).
      + intros H. apply (Hk rest st); auto using mono_refl. now destruct (failed k). }
  rewrite (M2 (M1 C)). cbn. intros [= <- <-]. discriminate.
Qed.
Lemma readable_eof_completes w chunk rc1 rc2 n more : calm w ->
  exists st, command_run w chunk (PollEvents [(true, 1%Z, n)] :: more) [] rc1 rc2 sinit = (st, Ok (Some tt)) /\
    sent st = [OComplete rc1; OClose] ++ match rc2 with None => [OKill] | Some _ => [] end.
Proof.
  intros H. destruct rc2;
    unfold command_run, tryM, command_run_inner, finallyO, tryM, command_loop, handle_events, bindM, os_op, is_closed, bindM, tick;
    cbn; rewrite !H; cbn; rewrite firstn_nil; cbn; rewrite !H; cbn;
    unfold finallyM, ret, command_finish, bindM, ch_send, os_op, tryM, bindM, tick; cbn;
    repeat (rewrite !H; cbn); eexists; split; reflexivity.
Qed.
