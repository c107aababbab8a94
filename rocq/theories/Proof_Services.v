(** * Proofs about the file and command services *)
From Verif Require Import Py Model_Services Spec_Services.

Section S.
  Variable w : nat -> ans.
  Variable chunk : nat.

  Definition mono (st st' : sst) : Prop := s_closed st = true -> s_closed st' = true.
  Lemma mono_refl st : mono st st. Proof. unfold mono. auto. Qed.
  Lemma mono_trans a b c : mono a b -> mono b c -> mono a c. Proof. unfold mono. auto. Qed.
  Lemma mono_open a b : mono a b -> s_closed b = false -> s_closed a = false.
  Proof. unfold mono. destruct (s_closed a); auto. intros H1 H2. rewrite H1 in H2; auto. Qed.

  Lemma os_op_spec st st' r : os_op w st = (st', r) ->
    mono st st' /\ s_out st' = s_out st /\ (r = Ok tt \/ exists e n, r = Raise e /\ a_os (w n) = Some e).
  Proof.
    unfold os_op, bindM, tick. cbn. destruct (a_os (w (s_pos st))) as [e|] eqn:E; cbn; intros [= <- <-]; cbn;
      (split; [unfold mono; cbn; intros ->; reflexivity|]); split; auto.
    right. exists e, (s_pos st). auto.
  Qed.
  Lemma is_closed_spec st st' r : is_closed w st = (st', r) -> mono st st' /\ s_out st' = s_out st /\ r = Ok (s_closed st').
  Proof. unfold is_closed, bindM, tick. cbn. intros [= <- <-]. cbn. repeat split. unfold mono. cbn. intros ->. reflexivity. Qed.
  Lemma ch_send_spec m st st' r : ch_send w m st = (st', r) ->
    mono st st' /\
    (s_closed st' = true /\ s_out st' = s_out st /\ r = Ok tt \/
     s_closed st' = false /\ s_out st' = m :: s_out st /\
       (r = Ok tt \/ exists e n, r = Raise e /\ a_send (w n) = Some e /\ e <> EWebSocket)).
  Proof.
    unfold ch_send, bindM, tick. cbn. destruct (s_closed st || a_closed (w (s_pos st))) eqn:E; cbn.
    - intros [= <- <-]. cbn. split; [unfold mono; auto|]. auto.
    - assert (mono st (SSt (S (s_pos st)) false (s_out st))) as Hm.
      { unfold mono. intros H. rewrite H in E. discriminate. }
      destruct (a_send (w (s_pos st))) as [e|] eqn:Es.
      + destruct e; cbn; intros [= <- <-]; cbn; (split; [exact Hm|]); right; repeat split; auto;
          right; eexists; exists (s_pos st); repeat split; eauto; discriminate.
      + cbn. intros [= <- <-]. cbn. split; [exact Hm|]. right. auto.
  Qed.
  Lemma polite_send m st st' r : polite w -> ch_send w m st = (st', r) -> r = Ok tt.
  Proof.
    intros Hp H. apply ch_send_spec in H as [_ [[_ [_ H]]|[_ [_ [H|[e [n [_ [H Hn]]]]]]]]]; auto.
    destruct (Hp n); congruence.
  Qed.

  (** What is written by the copy loop. *)
  Definition pieces (l : list bytes) : Prop := Forall (fun d => d <> [] /\ length d <= chunk) l.
  Lemma firstn_piece (rest : bytes) d : 0 < chunk -> firstn chunk rest = d -> d <> [] -> d <> [] /\ length d <= chunk.
  Proof. intros _ <- H. split; auto. apply firstn_le_length. Qed.

  Lemma send_file_closed : forall fuel rest st st' r, s_closed st = true ->
    send_file w chunk fuel rest st = (st', r) -> s_out st' = s_out st.
  Proof.
    induction fuel as [|f IH]; intros rest st st' r Hc; cbn [send_file]; [now intros [= <- <-]|].
    unfold bindM at 1. destruct (os_op w st) as [st1 r1] eqn:E1.
    apply os_op_spec in E1 as [M1 [O1 R1]]. destruct R1 as [->|[e [n [-> He]]]]; [|now intros [= <- <-]].
    destruct (firstn chunk rest) as [|x d]; [now intros [= <- <-]|].
    unfold bindM at 1. destruct (is_closed w st1) as [st2 r2] eqn:E2. apply is_closed_spec in E2 as [M2 [O2 ->]].
    rewrite (M2 (M1 Hc)). intros [= <- <-]. congruence.
  Qed.

  Lemma send_file_spec : 0 < chunk -> forall fuel rest st st' r, length rest < fuel ->
    send_file w chunk fuel rest st = (st', r) ->
    mono st st' /\ exists ds, s_out st' = rev (map OData ds) ++ s_out st /\ pieces ds /\ prefix (concat ds) rest /\
      r <> Hang /\ (r = Ok tt -> s_closed st' = false -> concat ds = rest) /\
      (polite w -> forall e, r = Raise e -> exists n, a_os (w n) = Some e).
  Proof.
    intros Hc. induction fuel as [|f IH]; intros rest st st' r Hf; [lia|].
    cbn [send_file]. unfold bindM at 1. destruct (os_op w st) as [st1 r1] eqn:E1.
    apply os_op_spec in E1 as [M1 [O1 R1]]. destruct R1 as [->|[e [n [-> He]]]].
    2:{ intros [= <- <-]. split; auto. exists []. cbn. rewrite O1. repeat split; auto; try constructor; try discriminate.
        - now exists rest.
        - intros _ e0 [= <-]. eauto. }
    destruct (firstn chunk rest) as [|x d] eqn:Ed.
    { cbn. intros [= <- <-]. split; auto. exists []. cbn. rewrite O1. repeat split; auto; try constructor; try discriminate.
      - now exists rest.
      - intros _ _. destruct rest; auto. destruct chunk; [lia|discriminate]. }
    unfold bindM at 1. destruct (is_closed w st1) as [st2 r2] eqn:E2. apply is_closed_spec in E2 as [M2 [O2 ->]].
    assert (mono st st2) as M02 by eauto using mono_trans.
    destruct (s_closed st2) eqn:Ec.
    { cbn. intros [= <- <-]. split; auto. exists []. cbn. rewrite O2, O1. repeat split; auto; try constructor; try discriminate.
      - now exists rest.
      - congruence. }
    unfold bindM at 1. destruct (ch_send w (OData (x :: d)) st2) as [st3 r3] eqn:E3. pose proof E3 as E3'.
    apply ch_send_spec in E3 as [M3 H3]. assert (mono st st3) as M03 by eauto using mono_trans.
    assert (prefix (x :: d) rest) as Hpre by (exists (skipn chunk rest); rewrite <- Ed; symmetry; apply firstn_skipn).
    assert (length (x :: d) <= chunk) as Hlen by (rewrite <- Ed; apply firstn_le_length).
    destruct H3 as [[C3 [O3 ->]]|[C3 [O3 R3]]].
    - intros Hrun. pose proof Hrun as H. apply IH in H; [|rewrite skipn_length; destruct rest; [destruct chunk; discriminate|cbn [length] in *; lia]].
      destruct H as [M4 [ds [Ho [Hp [Hpr [Hh [Hr He]]]]]]]. split; [eauto using mono_trans|].
      assert (s_closed st' = true) as C4 by (apply M4; auto).
      assert (ds = []) as ->.
      { destruct ds as [|d0 ds]; auto. exfalso. rewrite (send_file_closed _ _ _ _ _ C3 Hrun) in Ho.
        apply (f_equal (@length out)) in Ho. rewrite app_length, rev_length, map_length in Ho. cbn [length] in Ho. lia. }
      exists []. cbn in *. rewrite Ho, O3, O2, O1. repeat split; auto; try constructor; try congruence.
      now exists rest.
    - destruct R3 as [->|[e [n [-> [He Hne]]]]].
      + intros H. apply IH in H; [|rewrite skipn_length; destruct rest; [destruct chunk; discriminate|cbn [length] in *; lia]].
        destruct H as [M4 [ds [Ho [Hp [Hpr [Hh [Hr He]]]]]]]. split; [eauto using mono_trans|].
        exists ((x :: d) :: ds). cbn [map rev concat]. rewrite Ho, O3, O2, O1, <- app_assoc. repeat split; auto.
        * constructor; auto. split; auto. discriminate.
        * destruct Hpr as [t Ht]. exists t. rewrite <- app_assoc, <- Ht, <- Ed. symmetry. apply firstn_skipn.
        * intros Hok Hcl. rewrite (Hr Hok Hcl), <- Ed. apply firstn_skipn.
      + intros [= <- <-]. split; auto. exists [x :: d]. cbn. rewrite O3, O2, O1. repeat split; auto; try discriminate.
        * constructor; [|constructor]. split; auto. discriminate.
        * now rewrite app_nil_r.
        * intros Hp e0 [= <-]. destruct (Hp n); congruence.
  Qed.

  Lemma messages_app a b : messages (a ++ b) = messages a ++ messages b.
  Proof. unfold messages. apply flat_map_app. Qed.
  Lemma messages_data ds : messages (map OData ds) = ds.
  Proof. induction ds as [|d ds IH]; cbn; auto. unfold messages in IH. now rewrite IH. Qed.
  Lemma sent_app st st' l : s_out st' = rev l ++ s_out st -> sent st' = sent st ++ l.
  Proof. unfold sent. intros ->. now rewrite rev_app_distr, rev_involutive. Qed.

  (** Everything a send can add. *)
  Lemma ch_send_adds m st st' r : ch_send w m st = (st', r) ->
    mono st st' /\ r <> Hang /\ exists l, sent st' = sent st ++ l /\ (l = [] /\ s_closed st' = true \/ l = [m] /\ s_closed st' = false).
  Proof.
    intros H. apply ch_send_spec in H as [Hm [[C [O ->]]|[C [O R]]]]; split; auto; split;
      try discriminate; try (destruct R as [->|[e [n [-> _]]]]; discriminate).
    - exists []. rewrite app_nil_r. unfold sent. rewrite O. auto.
    - exists [m]. unfold sent. rewrite O. cbn. auto.
  Qed.

  Lemma file_inner_spec t content st r : 0 < chunk -> file_run_inner w chunk (VText t) content sinit = (st, r) ->
    r <> Hang /\ exists ds tail, sent st = map OData ds ++ tail /\ pieces ds /\ prefix (concat ds) content /\ messages tail = [] /\
      (polite w -> r = Ok tt) /\
      (polite w -> sane_os w ->
      (s_closed st = false -> tail = [OClose] /\ concat ds = content \/ exists status msg, tail = [OControl "remote-file" "error" status msg; OClose]) /\
      (s_closed st = true -> tail = [] \/ exists status msg, tail = [OControl "remote-file" "error" status msg])).
  Proof.
    intros Hc. unfold file_run_inner, finallyM, tryM, bindM.
    destruct (os_op w sinit) as [st1 r1] eqn:E1. apply os_op_spec in E1 as [M1 [O1 R1]].
    assert (forall st2 r2, mono sinit st2 -> r2 <> Hang -> (exists ds, sent st2 = map OData ds /\ pieces ds /\ prefix (concat ds) content /\
      (r2 = Ok tt -> s_closed st2 = false -> concat ds = content) /\
      (polite w -> forall e, r2 = Raise e -> exists n, a_os (w n) = Some e)) ->
      match
        match (st2, r2) with
        | (st', Raise e) =>
            file_caught w e st'
        | (st', Ok a) => (st', Ok a)
        | (st', Hang) => (st', Hang)
        end
      with
      | (st', Ok a) => match ch_send w OClose st' with (st3, Ok _) => (st3, Ok a) | (st3, Raise e) => (st3, Raise e) | (st3, Hang) => (st3, Hang) end
      | (st', Raise e) => match ch_send w OClose st' with (st3, Ok _) => (st3, Raise e) | (st3, Raise e2) => (st3, Raise e2) | (st3, Hang) => (st3, Hang) end
      | (st', Hang) => (st', Hang)
      end = (st, r) ->
      r <> Hang /\ exists ds tail, sent st = map OData ds ++ tail /\ pieces ds /\ prefix (concat ds) content /\ messages tail = [] /\
        (polite w -> r = Ok tt) /\
        (polite w -> sane_os w ->
          (s_closed st = false -> tail = [OClose] /\ concat ds = content \/ exists status msg, tail = [OControl "remote-file" "error" status msg; OClose]) /\
          (s_closed st = true -> tail = [] \/ exists status msg, tail = [OControl "remote-file" "error" status msg]))) as Hgen.
    { intros st2 r2 M2 Hh [ds [Hs [Hp [Hpr [Hok He]]]]].
      assert (exists st3 r3 ctl, 
         match (st2, r2) with
         | (st', Raise e) =>
            file_caught w e st'
         | (st', Ok a) => (st', Ok a)
         | (st', Hang) => (st', Hang)
         end = (st3, r3) /\ mono st2 st3 /\ r3 <> Hang /\ sent st3 = sent st2 ++ ctl /\ (polite w -> r3 = Ok tt) /\
         (ctl = [] \/ exists status msg, ctl = [OControl "remote-file" "error" status msg]) /\
         (polite w -> sane_os w -> s_closed st3 = false -> ctl = [] -> concat ds = content)) as H.
      { destruct r2 as [[]|e|]; [| |congruence].
        - exists st2, (Ok tt), []. rewrite app_nil_r. repeat split; auto using mono_refl; try discriminate.
        - assert (forall status msg, exists st3 r3 ctl, file_error w status msg st2 = (st3, r3) /\
            mono st2 st3 /\ r3 <> Hang /\ sent st3 = sent st2 ++ ctl /\ (polite w -> r3 = Ok tt) /\
            (ctl = [] \/ exists status msg, ctl = [OControl "remote-file" "error" status msg]) /\
            (polite w -> sane_os w -> s_closed st3 = false -> ctl = [] -> concat ds = content)) as Hce.
          { intros status msg. unfold file_error. destruct (ch_send w _ st2) as [st3 r3] eqn:E3.
            pose proof E3 as E3'. apply ch_send_adds in E3 as [M3 [H3 [l [Hl Hd]]]]. exists st3, r3, l.
            repeat split; auto.
            - intros Hpol. now apply (polite_send _ _ _ _ Hpol E3').
            - destruct Hd as [[-> _]|[-> _]]; eauto.
            - intros _ _ C ->. destruct Hd as [[_ C2]|[C2 _]]; congruence. }
          destruct e; cbn [file_caught]; try apply Hce.
          exists st2, (Ok tt), []. rewrite app_nil_r. repeat split; auto using mono_refl; try discriminate.
          intros Hpol Hsane. exfalso. destruct (He Hpol _ eq_refl) as [n Hn]. now apply (Hsane n). }
      destruct H as [st3 [r3 [ctl [-> [M3 [H3 [S3 [P3 [C3 D3]]]]]]]]].
      destruct (ch_send w OClose st3) as [st4 r4] eqn:E4. pose proof E4 as E4'. apply ch_send_adds in E4 as [M4 [H4 [l [Hl Hd]]]].
      intros Heq.
      assert (st4 = st /\ r <> Hang /\ (r4 = Ok tt -> r3 = Ok tt -> r = Ok tt)) as [-> [Hr Hr2]].
      { destruct r3 as [[]|e3|]; try congruence; destruct r4 as [[]|e4|]; try congruence; injection Heq as <- <-; repeat split; auto; discriminate. }
      split; auto. exists ds, (ctl ++ l). rewrite Hl, S3, Hs, <- !app_assoc. repeat split; auto.
      - rewrite messages_app. destruct C3 as [->|[s1 [s2 ->]]], Hd as [[-> _]|[-> _]]; reflexivity.
      - intros Hpol. apply Hr2; auto. apply (polite_send _ _ _ _ Hpol E4').
      - intros C. destruct Hd as [[_ C2]|[-> _]]; [congruence|]. destruct C3 as [->|[s1 [s2 ->]]].
        + left. split; auto. apply D3; auto. now apply (mono_open _ _ M4).
        + right. cbn. eauto.
      - intros C. destruct Hd as [[-> _]|[_ C2]]; [|congruence]. rewrite app_nil_r. auto. }
    destruct R1 as [->|[e [n [-> He]]]].
    - destruct (send_file w chunk (S (length content)) content st1) as [st2 r2] eqn:E2.
      apply send_file_spec in E2; auto. destruct E2 as [M2 [ds [Ho [Hp [Hpr [Hh [Hok He]]]]]]].
      apply Hgen; [eauto using mono_trans|auto|]. exists ds. repeat split; auto.
      rewrite (sent_app st1 st2 (map OData ds) Ho). unfold sent. now rewrite O1.
    - apply (Hgen st1 (Raise e)); auto; [discriminate|]. exists []. cbn. unfold sent. rewrite O1. repeat split; auto; try constructor; try discriminate.
      + now exists content.
      + intros _ e0 [= <-]. eauto.
  Qed.

  Lemma file_run_spec path content st r : 0 < chunk -> file_run w chunk path content sinit = (st, r) ->
    r <> Hang /\ pieces (messages (sent st)) /\ prefix (concat (messages (sent st))) content.
  Proof.
    intros Hc. unfold file_run, tryM. destruct (file_run_inner w chunk path content sinit) as [st1 r1] eqn:E.
    assert (r1 <> Hang /\ pieces (messages (sent st1)) /\ prefix (concat (messages (sent st1))) content) as [Hh [Hp Hpr]].
    { destruct path; try (injection E as <- <-; cbn; split; [discriminate|]; split; [constructor|now exists content]).
      apply file_inner_spec in E; auto. destruct E as [Hh [ds [tail [-> [Hp [Hpr [Ht _]]]]]]].
      rewrite messages_app, Ht, app_nil_r, messages_data. auto. }
    destruct r1 as [[]|e|]; try congruence; [intros [= <- <-]; auto|].
    intros H. apply ch_send_adds in H as [M [H [l [Hl Hd]]]]. rewrite Hl, messages_app.
    assert (messages l = []) as -> by (destruct Hd as [[-> _]|[-> _]]; reflexivity). rewrite app_nil_r. auto.
  Qed.
  Lemma file_run_polite t content st r : 0 < chunk -> polite w -> sane_os w ->
    file_run w chunk (VText t) content sinit = (st, r) ->
    exists ds tail, sent st = map OData ds ++ tail /\
      (s_closed st = false -> tail = [OClose] /\ concat ds = content \/ exists status msg, tail = [OControl "remote-file" "error" status msg; OClose]) /\
      (s_closed st = true -> tail = [] \/ exists status msg, tail = [OControl "remote-file" "error" status msg]).
  Proof.
    intros Hc Hp Hs. unfold file_run, tryM. destruct (file_run_inner w chunk (VText t) content sinit) as [st1 r1] eqn:E.
    apply file_inner_spec in E; auto. destruct E as [Hh [ds [tail [E1 [_ [_ [_ [Hok H]]]]]]]]. rewrite (Hok Hp).
    intros [= <- <-]. exists ds, tail. split; auto.
  Qed.
End S.

Lemma calm_polite w : calm w -> polite w. Proof. intros H n. rewrite H. auto. Qed.
Lemma calm_sane w : calm w -> sane_os w. Proof. intros H n. rewrite H. discriminate. Qed.
Lemma other_path w chunk z content : calm w ->
  exists st r, file_run w chunk (VInt z) content sinit = (st, r) /\
    sent st = [OControl "remote-file" "error" "error" "internal error, see agent logs"].
Proof.
  intros H. destruct (file_run w chunk (VInt z) content sinit) as [st r] eqn:E. exists st, r. split; auto.
  revert E. unfold file_run, tryM, file_run_inner, bindM, raiseM, ch_send, bindM, tick. cbn. repeat (rewrite !H; cbn).
  intros [= <- <-]. reflexivity.
Qed.
