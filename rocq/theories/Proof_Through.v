From Verif Require Import Py Py_lemmas Dict_lemmas Model_Bencode Spec_Bencode Proof_Bencode Model_Packets
  Spec_Packets Proof_Packets Model_Client Spec_Client Proof_Client Proof_Client2 Proof_Client3 Proof_Client4 Proof_Client5 Proof_Client6 Proof_Client7.

(** ** A relation kept by the small changes is kept by everything the client does *)
Definition channel_packets : list string := ["request_send"; "request_send_control"; "request_close"]%string.
(** Effects that concern no channel and send nothing *)
Definition aside (e : effect) : Prop := match e with CmdCb _ _ _ => True | _ => neutral e end.
Definition shut_state (o : nat) (c : chan) (st : state) : state :=
  match ch_close_cb c with None => upd_chan o chan_shut st | Some k => emit (CloseCb k o) (upd_chan o chan_shut st) end.
Section Through.
  Variable env : list effect -> effect -> list (op * bool) * option exn.
  Variable error_text : list effect -> text.
  Notation step := (step env error_text).
  Notation run_handler := (run_handler env error_text).
  Variable hush : state -> state -> Prop.
  Hypothesis hush_refl : forall st, hush st st.
  Hypothesis hush_trans : forall a b c, hush a b -> hush b c -> hush a c.
  Hypothesis hush_numbered : forall st st', (numbered st -> hush st st') -> hush st st'.
  Hypothesis hush_emit : forall e st, aside e -> hush st (emit e st).
  Hypothesis hush_shut : forall o c st, chan_of st o = Some c -> ch_closed c = false -> hush st (shut_state o c st).
  Hypothesis hush_data : forall o c k d st, chan_of st o = Some c -> ch_closed c = false -> ch_data_cb c = Some k -> hush st (emit (DataCb k o d) st).
  Hypothesis hush_push : forall o c d st, chan_of st o = Some c -> ch_closed c = false -> ch_data_cb c = None ->
    hush st (emit (Buffered o d) (upd_chan o (chan_push d) st)).
  Hypothesis hush_ctl : forall o c k d st, chan_of st o = Some c -> ch_closed c = false -> hush st (emit (CtlCb k o d) st).
  Hypothesis hush_new : forall m st, dict_get Z.eqb m (st_chans st) = None -> hush st (new_state m st).
  Hypothesis hush_del : forall m o st, registered st m = Some o -> object_closed st o -> hush st (with_chans (dict_del Z.eqb m (st_chans st)) st).
  Hypothesis hush_rest : forall st st', st_heap st' = st_heap st -> st_chans st' = st_chans st -> st_trace st' = st_trace st -> hush st st'.
  Hypothesis hush_send : forall name args kw st st' r, ~ In name channel_packets -> send env name args kw st = (st', r) -> hush st st'.
  Hypothesis hush_ops : forall tr e p s st st' r, In (p, s) (fst (env tr e)) -> do_op env p st = (st', r) -> hush st st'.

  Lemma hush_get m st : hush st (snd (get_channel m st)).
  Proof. destruct (get_channel_spec m st) as [(o1 & _ & ->)|[H ->]]; cbn; [apply hush_refl|now apply hush_new]. Qed.
  Lemma ops_hush tr e l : (forall p s, In (p, s) l -> In (p, s) (fst (env tr e))) -> forall st st' r, do_ops env l st = (st', r) -> hush st st'.
  Proof.
    induction l as [|[p s] l IH]; intros Hl st st' r; cbn [do_ops].
    - intros [= <- _]. apply hush_refl.
    - pose proof (Hl p s (or_introl eq_refl)) as Hp. intros H.
      assert (G : forall s1 r1, (if s then guard (do_op env p) else do_op env p) st = (s1, r1) -> hush st s1).
      { intros s1 r1 H1. destruct s; [apply guard_spec in H1 as (r2 & H1 & _)|]; eapply hush_ops; eauto. }
      apply seq_spec in H as [(s1 & H1 & H2)|[H1 _]]; [|eapply G; eauto].
      eapply hush_trans; [eapply G; eauto|]. eapply IH; eauto. intros q t Hq. apply (Hl q t). now right.
  Qed.
  Lemma callback_hush e st0 st st' r : hush st0 (emit e st) -> callback env e st = (st', r) -> hush st0 st'.
  Proof.
    intros He. unfold callback. pose proof (ops_hush (st_trace st) e) as Ha. destruct (env (st_trace st) e) as [ops x]. cbn [fst] in Ha. intros H.
    eapply hush_trans; [exact He|].
    apply seq_spec in H as [(s & H1 & H2)|[H1 _]].
    - injection H2 as <- _. eapply Ha; eauto.
    - eapply Ha; eauto.
  Qed.
  Definition hushed (a : action) : Prop := forall st st' r, a st = (st', r) -> hush st st'.
  Lemma hushed_skip : hushed skip.
  Proof. intros st st' r [= <- _]. apply hush_refl. Qed.
  Lemma hushed_raise e : hushed (fun st => (st, Raise e)).
  Proof. intros st st' r [= <- _]. apply hush_refl. Qed.
  Lemma hushed_guard a : hushed a -> hushed (guard a).
  Proof. intros Ha st st' r H. apply guard_spec in H as (r' & H & _). eauto. Qed.
  Lemma hushed_seq a b : hushed a -> hushed b -> hushed (seq a b).
  Proof. intros Ha Hb st st' r H. apply seq_spec in H as [(s & H1 & H2)|[H1 _]]; eauto using hush_trans. Qed.
  Lemma hushed_cb e : aside e -> hushed (callback env e).
  Proof. intros He st st' r. apply callback_hush. now apply hush_emit. Qed.
  Lemma hushed_send name args kw : ~ In name channel_packets -> hushed (send env name args kw).
  Proof. intros Hn st st' r. now apply hush_send. Qed.
  Lemma hushed_on_close o1 : hushed (chan_on_close env o1).
  Proof.
    intros st st' r. unfold chan_on_close. destruct (nth_error (st_heap st) o1) as [c|] eqn:E; [|apply hushed_skip].
    destruct (ch_closed c) eqn:Ec; [apply hushed_skip|]. pose proof (hush_shut o1 c st E Ec) as G. unfold shut_state in G. destruct (ch_close_cb c) as [k|].
    - intros H. apply guard_spec in H as (r' & H & _). eapply callback_hush; eauto.
    - intros [= <- _]. exact G.
  Qed.
  Lemma hushed_on_data o1 d : hushed (chan_on_data env o1 d).
  Proof.
    intros st st' r. unfold chan_on_data. destruct (nth_error (st_heap st) o1) as [c|] eqn:E; [|apply hushed_skip].
    destruct (ch_closed c) eqn:Ec; [apply hushed_skip|]. destruct (ch_data_cb c) as [k|] eqn:Ek; [apply callback_hush; eapply hush_data; eauto|].
    intros [= <- _]. eapply hush_push; eauto.
  Qed.
  Lemma hushed_on_control o1 d : hushed (chan_on_control env o1 d).
  Proof.
    intros st st' r. unfold chan_on_control. destruct (nth_error (st_heap st) o1) as [c|] eqn:E; [|apply hushed_skip].
    destruct (ch_closed c) eqn:Ec; [apply hushed_skip|]. destruct (ch_ctl_cb c) as [k|]; [apply callback_hush; eapply hush_ctl; eauto|apply hushed_skip].
  Qed.
  Lemma hushed_sync : hushed (sync_identity env).
  Proof. intros st st' r [= <- _]. apply hush_emit. exact I. Qed.
  Lemma hushed_cmds cmd v ks : hushed (run_cmd_cbs env cmd v ks).
  Proof.
    induction ks as [|k ks IH]; cbn [run_cmd_cbs]; [apply hushed_skip|]. apply hushed_seq; auto. apply hushed_guard, hushed_cb. exact I.
  Qed.
  Lemma hushed_command cmd v : hushed (command_callback env cmd v).
  Proof.
    intros st st' r. unfold command_callback. destruct (dict_get _ _ _) as [ks|]; [|apply hushed_skip].
    revert st st' r. apply hushed_seq; [apply hushed_cmds|]. intros st st' r [= <- _]. now apply hush_rest.
  Qed.
  Lemma hushed_clear l : hushed (clear_callbacks_over env l).
  Proof. induction l as [|[cmd ks] l IH]; cbn; [apply hushed_skip|]. apply hushed_seq; auto using hushed_cmds. Qed.
  Lemma hushed_close_all size l : hushed (close_all env size l).
  Proof.
    induction l as [|[m o1] l IH]; cbn; [apply hushed_skip|]. apply hushed_seq; [apply hushed_on_close|].
    intros st st' r. destruct (_ =? _); [apply IH|apply hushed_raise].
  Qed.
  Lemma closed_after o1 m st s r : numbered st -> registered st m = Some o1 -> chan_on_close env o1 st = (s, r) ->
    registered s m = Some o1 /\ object_closed s o1.
  Proof.
    intros Hn Hr H. apply chan_on_close_spec in H as (_ & s0 & H0 & X). destruct (proj2 Hn _ _ Hr) as (c & Hc & _).
    assert (R0 : registered s0 m = Some o1) by (destruct H0 as [[-> _]|[->|[k ->]]]; exact Hr).
    assert (C0 : object_closed s0 o1).
    { destruct H0 as [[-> Hcl]|[->|[k ->]]].
      - exists c. split; auto.
      - exists (chan_shut c). split; auto. unfold chan_of, upd_chan, with_heap. cbn. rewrite nth_upd, Nat.eqb_refl, Hc. reflexivity.
      - exists (chan_shut c). split; auto. unfold chan_of, upd_chan, with_heap. cbn. rewrite nth_upd, Nat.eqb_refl, Hc. reflexivity. }
    split; [apply (ex_old _ _ _ X); exact R0|]. destruct C0 as (c0 & H1 & H2). destruct (ex_heap _ _ _ X _ _ H1) as (c' & H3 & _ & H4).
    exists c'. split; auto. congruence.
  Qed.
  Lemma hushed_handler h args : hushed (run_handler h args).
  Proof.
    intros st st' r.
    destruct h; cbn [Model_Client.run_handler]; destruct args as [|a1 args]; try apply hushed_raise; try apply hushed_skip.
    - destruct a1, args; try apply hushed_raise. destruct (st_closed st); [apply hushed_skip|]. intros H. apply hushed_sync in H.
      eapply hush_trans; [|exact H]. now apply hush_rest.
    - destruct a1, args; try apply hushed_raise. apply hushed_send. cbn. intuition discriminate.
    - destruct a1, args; try apply hushed_raise; apply hushed_skip.
    - destruct args as [|[] [|]]; try apply hushed_raise. destruct (as_int a1) as [m|]; [|apply hushed_raise].
      pose proof (hush_get m st) as G. destruct (get_channel m st) as [o1 s]. intros H. eapply hush_trans; [exact G|]. eapply hushed_on_data; exact H.
    - destruct args as [|[] [|]]; try apply hushed_raise. destruct (as_int a1) as [m|]; [|apply hushed_raise].
      pose proof (hush_get m st) as G. destruct (get_channel m st) as [o1 s]. intros H. eapply hush_trans; [exact G|]. eapply hushed_on_control; exact H.
    - destruct args; try apply hushed_raise. destruct (as_int a1) as [m|]; [|apply hushed_raise]. intros [= <- _]. apply hush_get.
    - destruct args; try apply hushed_raise. destruct (as_int a1) as [m|]; [|apply hushed_raise].
      destruct (dict_get Z.eqb m (st_chans st)) as [o1|] eqn:E; [|apply hushed_skip]. intros H. apply hush_numbered. intros F.
      apply seq_spec in H as [(s & H1 & H2)|[H1 _]]; [|eapply hushed_on_close; eauto].
      injection H2 as <- _. eapply hush_trans; [eapply hushed_on_close; exact H1|].
      destruct (closed_after o1 m st s _ F E H1) as [R C]. eapply hush_del; eauto.
    - destruct args; try apply hushed_raise. intros [= <- _]. now apply hush_rest.
    - destruct args as [|v [|]]; try apply hushed_raise. destruct (as_int a1) as [m|]; [|apply hushed_raise]. apply hushed_command.
    - destruct args as [|v [|]]; try apply hushed_raise. apply hushed_guard, hushed_cb. exact I.
    - destruct args as [|v [|]]; try apply hushed_raise. apply hushed_cb. exact I.
    - destruct args; try apply hushed_raise. apply hushed_cb. exact I.
    - destruct args as [|v [|w [|]]]; try apply hushed_raise. apply hushed_cb. exact I.
    - destruct (callback env RdScan st) as [s x] eqn:E. apply (hushed_cb RdScan I) in E.
      destruct x as [[]|e|]; try (intros [= <- _]; exact E). intros H. eapply hush_trans; [exact E|].
      refine (hushed_send _ _ _ _ _ _ _ H). cbn. intuition discriminate.
    - destruct args as [|a2 [|a3 [|a4 [|a5 [|a6 [|]]]]]]; try apply hushed_raise. apply hushed_cb. exact I.
  Qed.
  Lemma hushed_event e : hushed (on_event env error_text e).
  Proof.
    destruct e as [| |m| |]; cbn [on_event]; intros st st' r.
    - unfold on_ready. destruct (st_ident st); apply hushed_send; cbn; intuition discriminate.
    - unfold on_disconnected. intros H. eapply hush_trans; [apply (hush_rest st (with_ident None st)); reflexivity|].
      refine (hushed_seq _ _ _ _ _ _ _ H); intros s s' r'; [apply hushed_clear|apply hushed_close_all].
    - destruct (on_binary_eq env error_text m st) as (x & E & _). rewrite E. destruct (meaning m) as [[h args]|]; [apply hushed_handler|].
      intros [= <- _]. apply hush_refl.
    - apply hushed_sync.
    - apply hushed_skip.
  Qed.
  Lemma step_through i st st' r : match i with InOp p => forall s s' x, do_op env p s = (s', x) -> hush s s' | _ => True end ->
    step i st = (st', r) -> hush st st'.
  Proof.
    destruct i as [e|p|cmd k|]; cbn [Model_Client.step]; intros Hp.
    - apply hushed_guard, hushed_event.
    - apply hushed_guard. exact Hp.
    - intros [= <- _]. now apply hush_rest.
    - assert (W : hush st (emit WsClose st)) by (apply hush_emit; exact I).
      unfold extern. destruct (ret_exn _) as [[]|e|]; intros [= <- _]; [|exact W|exact W].
      eapply hush_trans; [exact W|]. now apply hush_rest.
  Qed.
End Through.
