From Verif Require Import Py Py_lemmas Dict_lemmas Model_Bencode Spec_Bencode Proof_Bencode Model_Packets
  Spec_Packets Proof_Packets Model_Client Spec_Client Proof_Client Proof_Client2 Proof_Client3 Proof_Client4 Proof_Client5 Proof_Client6 Proof_Client7.

Section Client.
  Variable env : list effect -> effect -> list (op * bool) * option exn.
  Variable error_text : list effect -> text.
  Notation step := (step env error_text).
  Notation run := (run env error_text).
  Notation run_handler := (run_handler env error_text).

  Lemma ext_adds e st st' : ext quiet (emit e st) st' -> exists rest, adds st st' (e :: rest) /\ Forall incidental rest.
  Proof.
    intros X. destruct (ex_trace _ _ _ X) as (q & Hq & Fq). exists (rev q). split; [|apply Forall_rev; exact Fq].
    unfold adds, history. rewrite Hq, rev_app_distr. cbn. now rewrite <- app_assoc.
  Qed.
  Lemma callback_adds e st st' r : callback env e st = (st', r) -> exists rest, adds st st' (e :: rest) /\ Forall incidental rest.
  Proof. intros H. apply callback_star in H as [H _]. apply ext_adds. now apply star_ext. Qed.

  (** ** Calls (C13) *)
  Lemma c13_calls m t vs e st st' r : carries m t vs -> asks t vs e -> step (InEvent (EvBinary m)) st = (st', r) ->
    exists rest, adds st st' (e :: rest) /\ Forall incidental rest.
  Proof.
    intros Hm Ha H. apply step_binary in H.
    destruct Ha;
      [rewrite (meaning_intro m _ HInstruction _ Hm) in H|rewrite (meaning_intro m _ HOpenFile _ Hm) in H
      |rewrite (meaning_intro m _ HCloseFile _ Hm) in H|rewrite (meaning_intro m _ HReadFile _ Hm) in H
      |rewrite (meaning_intro m _ HScan _ Hm) in H|rewrite (meaning_intro m _ HWriteFile _ Hm) in H];
      try (now apply in_table); try (repeat constructor; fail); destruct H as [r' H]; cbn [Model_Client.run_handler] in H.
    - apply guard_spec in H as (r2 & H & _). now apply callback_adds in H.
    - now apply callback_adds in H.
    - now apply callback_adds in H.
    - now apply callback_adds in H.
    - destruct (callback env RdScan st) as [s x] eqn:E. apply callback_star in E as [E _]. apply star_ext in E. apply ext_adds.
      destruct x as [u|e|]; [injection H as <- _; exact E| |injection H as <- _; exact E].
      eapply ext_trans; [exact E|]. eapply send_ext; [|exact H]. auto.
    - now apply callback_adds in H.
  Qed.
  Lemma c13_scan_error m e u st st' r : carries m 29 [] -> env (st_trace st) RdScan = ([], Some e) ->
    utf8_encode (error_text (RdScan :: st_trace st)) = Some u -> short u -> step (InEvent (EvBinary m)) st = (st', r) ->
    exists b, adds st st' [RdScan; Sent b] /\ understood b "ScanRemoteDirectoryResult" [("error"%string, VBytes u)].
  Proof.
    intros Hm He Hu Hs H. apply step_binary in H. rewrite (meaning_intro m _ HScan _ Hm) in H; [|now apply in_table|constructor].
    destruct H as [r' H]. cbn [Model_Client.run_handler] in H. unfold callback in H. rewrite He in H. cbn [do_ops seq skip] in H.
    unfold seq, skip, ret_exn in H. cbn [st_trace emit] in H.
    apply (send_once _ _ _ _ (Packet (PClass "ScanRemoteDirectoryResult" 30%Z [("error"%string, ABytes)]) [("error"%string, VBytes u)])) in H.
    - destruct H as (b & -> & Hb). exists b. split; [|exact Hb]. unfold adds, history. cbn. now rewrite <- app_assoc.
    - constructor.
    - cbv -[utf8_encode st_trace]. now rewrite Hu.
    - constructor; [exact Hs|constructor].
  Qed.
  (** Messages that only inform. *)
  Lemma c13_silent m t vs st st' r : carries m t vs -> t = 0%Z /\ vs = [] \/ t = 3%Z /\ vs = [] \/ t = 4%Z /\ (exists x, vs = [VBytes x]) ->
    step (InEvent (EvBinary m)) st = (st', r) -> st' = st.
  Proof.
    intros Hm Ht H. apply step_binary in H. destruct Ht as [[-> ->]|[[-> ->]|[-> [x ->]]]].
    - rewrite (meaning_intro m _ HNull _ Hm) in H; [|now apply in_table|constructor]. destruct H as [r' [= <- _]]. reflexivity.
    - rewrite (meaning_intro m _ HWelcome _ Hm) in H; [|now apply in_table|constructor]. destruct H as [r' [= <- _]]. reflexivity.
    - rewrite (meaning_intro m _ HLog _ Hm) in H; [|now apply in_table|repeat constructor]. destruct H as [r' [= <- _]]. reflexivity.
  Qed.
  Lemma c13_login m u st st' r : carries m 17 [VBytes u] -> step (InEvent (EvBinary m)) st = (st', r) -> st' = with_user (Some (VBytes u)) st.
  Proof.
    intros Hm H. apply step_binary in H.
    rewrite (meaning_intro m _ HLoginSuccess _ Hm) in H; [|now apply in_table|repeat constructor]. destruct H as [r' [= <- _]]. reflexivity.
  Qed.

  (** ** Control messages and closing (C21) *)
  Lemma c21_control_in m n d o c st st' r : is_control m n d -> registered st n = Some o -> chan_of st o = Some c ->
    step (InEvent (EvBinary m)) st = (st', r) ->
    match ch_closed c, ch_ctl_cb c with
    | false, Some k => exists rest, adds st st' (CtlCb k o d :: rest) /\ Forall incidental rest
    | _, _ => st' = st
    end.
  Proof.
    intros Hm Hn Hc H. apply step_binary in H.
    rewrite (meaning_intro m _ HRouteControl _ Hm) in H; [|now apply in_table|repeat constructor].
    destruct H as [r' H]. cbn [Model_Client.run_handler as_int] in H.
    destruct (get_channel_spec n st) as [(o' & Hg & E)|[Hg E]]; [|unfold registered in Hn; congruence].
    rewrite E in H. unfold registered in Hn. assert (o' = o) as -> by congruence. unfold chan_of in Hc.
    cbv beta iota in H. unfold chan_on_control in H. rewrite Hc in H.
    destruct (ch_closed c); [congruence|]. destruct (ch_ctl_cb c) as [k|]; [|congruence]. now apply callback_adds in H.
  Qed.
  Lemma c21_control o c j d st st' r : chan_of st o = Some c -> ch_closed c = false -> utf8_encode j = Some d -> short d ->
    step (InOp (OpControl o j)) st = (st', r) ->
    exists b, adds st st' [Sent b] /\ understood b "RequestSendControlPacket" [("channel"%string, VInt (ch_no c)); ("data"%string, VBytes d)].
  Proof.
    intros Hc Hcl Hj Hd. cbn [Model_Client.step do_op]. intros H. apply guard_spec in H as (r' & H & _).
    cbn [do_op] in H. unfold chan_control in H. unfold chan_of in Hc. rewrite Hc, Hcl in H.
    apply (send_once _ _ _ _ (Packet (PClass "RequestSendControlPacket" 22%Z [("channel"%string, AInt); ("data"%string, ABytes)]) [("channel"%string, VInt (ch_no c)); ("data"%string, VBytes d)])) in H.
    - destruct H as (b & -> & Hb). exists b. split; [reflexivity|exact Hb].
    - apply nodup_sb_ok. reflexivity.
    - cbv -[utf8_encode ch_no]. now rewrite Hj.
    - cbn [pk_attrs]. constructor; [exact I|]. constructor; [exact Hd|constructor].
  Qed.
  Lemma c21_close o c st st' r : chan_of st o = Some c -> ch_closed c = false -> step (InOp (OpClose o)) st = (st', r) ->
    exists b, adds st st' [Sent b] /\ understood b "RequestClosePacket" [("port"%string, VInt (ch_no c))].
  Proof.
    intros Hc Hcl. cbn [Model_Client.step do_op]. intros H. apply guard_spec in H as (r' & H & _).
    cbn [do_op] in H. unfold chan_close in H. unfold chan_of in Hc. rewrite Hc, Hcl in H.
    apply (send_once _ _ _ _ (Packet (PClass "RequestClosePacket" 11%Z [("port"%string, AInt)]) [("port"%string, VInt (ch_no c))])) in H; [| |reflexivity|].
    - destruct H as (b & -> & Hb). exists b. split; [reflexivity|exact Hb].
    - apply nodup_sb_ok. reflexivity.
    - constructor; [exact I|constructor].
  Qed.

  (** ** Closing from outside (C20) *)
  Lemma on_close_closes o c st s r : chan_of st o = Some c -> chan_on_close env o st = (s, r) ->
    object_closed s o /\
    match ch_closed c, ch_close_cb c with
    | false, Some k => exists rest, adds st s (CloseCb k o :: rest) /\ Forall incidental rest
    | false, None => s = upd_chan o chan_shut st
    | true, _ => s = st
    end.
  Proof.
    intros Hc H. unfold chan_on_close in H. unfold chan_of in Hc. rewrite Hc in H.
    assert (Hs : object_closed (upd_chan o chan_shut st) o).
    { exists (chan_shut c). split; auto. unfold chan_of. cbn. now rewrite nth_upd, Hc, Nat.eqb_refl. }
    destruct (ch_closed c) eqn:Ec.
    - injection H as <- _. split; auto. exists c. auto.
    - destruct (ch_close_cb c) as [k|]; [|injection H as <- _; auto]. apply guard_spec in H as (r' & H & _). split.
      + pose proof H as H'. apply callback_star in H' as [H' _]. apply ostar in H'.
        destruct (silent_star o _ _ H') as (_ & _ & _ & G); auto.
      + destruct (callback_adds _ _ _ _ H) as (rest & Ha & Hr). exists rest. split; auto.
  Qed.
  Lemma c20_notify_close m n o c st st' r : is_notify_close m n -> registered st n = Some o -> chan_of st o = Some c ->
    step (InEvent (EvBinary m)) st = (st', r) ->
    object_closed st' o /\
    match ch_closed c, ch_close_cb c with
    | false, Some k => exists rest, adds st st' (CloseCb k o :: rest) /\ Forall incidental rest
    | _, _ => history st' = history st
    end.
  Proof.
    intros Hm Hn Hc H. apply step_binary in H. rewrite (close_meaning _ _ Hm) in H. destruct H as [r' H].
    cbn [Model_Client.run_handler as_int] in H. unfold registered in Hn. rewrite Hn in H.
    apply seq_spec in H as [(s & H1 & H2)|[H1 H2]]; [|apply chan_on_close_spec in H1 as [-> _]; congruence].
    injection H2 as <- _. destruct (on_close_closes _ _ _ _ _ Hc H1) as [Hcl Hx]. split; [exact Hcl|].
    destruct (ch_closed c); [now subst|]. destruct (ch_close_cb c) as [k|]; [exact Hx|now subst].
  Qed.

  (** ** The manager is told (C25) *)
  Lemma c25_told m i st st' r : is_set_identity m i -> step (InEvent (EvBinary m)) st = (st', r) ->
    adds st st' (if st_closed st then [] else [SetIdent (Some i)]).
  Proof.
    intros Hm H. apply step_binary in H. rewrite (setid_meaning _ _ Hm) in H. destruct H as [r' H]. cbn [Model_Client.run_handler] in H.
    destruct (st_closed st); injection H as <- _; unfold adds, history; cbn; auto. now rewrite app_nil_r.
  Qed.
  Lemma c25_poll st st' r : step (InEvent EvPoll) st = (st', r) -> adds st st' [SetIdent (st_ident st)].
  Proof. cbn [Model_Client.step on_event]. intros H. apply guard_spec in H as (r' & [= <- _] & _). reflexivity. Qed.

  (** A dropped connection closes every registered object, unless a callee opens one. *)
  Definition opens (p : op) : Prop := match p with OpOpen _ => True | _ => False end.
  Lemma extern_chans e st st' r : extern env e st = (st', r) -> st_chans st' = st_chans st.
  Proof. intros [= <- _]. reflexivity. Qed.
  Lemma send_chans name args kw st st' r : send env name args kw st = (st', r) -> st_chans st' = st_chans st.
  Proof.
    unfold send, send_bytes. destruct (bind _ _); [|congruence|congruence]. destruct (extern env (Sent a) st) as [s x] eqn:E.
    apply extern_chans in E. destruct x as [|[]|]; intros [= <- _]; exact E.
  Qed.
  Lemma do_op_chans p st st' r : ~ opens p -> do_op env p st = (st', r) -> st_chans st' = st_chans st.
  Proof.
    destruct p; cbn [do_op opens]; intros Hp; try tauto.
    - unfold chan_write. destruct (nth_error _ _) as [c|]; [|congruence]. destruct (ch_closed c); [congruence|apply send_chans].
    - unfold chan_control. destruct (nth_error _ _) as [c|]; [|congruence]. destruct (ch_closed c); [congruence|apply send_chans].
    - unfold chan_close. destruct (nth_error _ _) as [c|]; [|congruence]. destruct (ch_closed c); [congruence|apply send_chans].
    - destruct (nth_error _ _) as [c|]; [|congruence]. destruct (chan_read _ _) as [d c']. intros [= <- _]. reflexivity.
    - intros [= <- _]. reflexivity.
    - apply send_chans.
  Qed.
  Lemma do_ops_chans l : forall st st' r, (forall n s, ~ In (OpOpen n, s) l) -> do_ops env l st = (st', r) -> st_chans st' = st_chans st.
  Proof.
    induction l as [|[p b] l IH]; cbn [do_ops]; intros st st' r Hl H; [injection H as <- _; reflexivity|].
    assert (Hp : ~ opens p). { destruct p; cbn; try tauto. intros _. apply (Hl n b). now left. }
    assert (G : forall s x, (if b then guard (do_op env p) else do_op env p) st = (s, x) -> st_chans s = st_chans st).
    { intros s x Hx. destruct b; [apply guard_spec in Hx as (x' & Hx & _)|]; eapply do_op_chans; eauto. }
    apply seq_spec in H as [(s & H1 & H2)|[H1 H2]]; [|now apply G in H1].
    apply G in H1. apply IH in H2; [congruence|]. intros n s' Hin. apply (Hl n s'). now right.
  Qed.
  Hypothesis calm : never_opens env.
  Lemma callback_chans e st st' r : callback env e st = (st', r) -> st_chans st' = st_chans st.
  Proof.
    unfold callback. pose proof (calm (st_trace st) e) as Hc. destruct (env (st_trace st) e) as [ops x]. intros H.
    apply seq_spec in H as [(s & H1 & H2)|[H1 H2]]; [|apply do_ops_chans in H1; auto].
    apply do_ops_chans in H1; auto. injection H2 as <- _. exact H1.
  Qed.
  Lemma on_close_chans o st s r : chan_on_close env o st = (s, r) -> st_chans s = st_chans st.
  Proof.
    unfold chan_on_close. destruct (nth_error _ _) as [c|]; [|congruence]. destruct (ch_closed c); [congruence|].
    destruct (ch_close_cb c) as [k|]; [|intros [= <- _]; reflexivity]. intros H. apply guard_spec in H as (r' & H & _).
    now apply callback_chans in H.
  Qed.
  Lemma run_cmd_chans cmd res ks : forall st st' r, run_cmd_cbs env cmd res ks st = (st', r) -> st_chans st' = st_chans st.
  Proof.
    induction ks as [|k ks IH]; cbn [run_cmd_cbs]; intros st st' r H; [injection H as <- _; reflexivity|].
    apply seq_spec in H as [(s & H1 & H2)|[H1 H2]]; apply guard_spec in H1 as (x & H1 & _); apply callback_chans in H1; auto.
    apply IH in H2. congruence.
  Qed.
  Lemma clear_chans l : forall st st' r, clear_callbacks_over env l st = (st', r) -> st_chans st' = st_chans st.
  Proof.
    induction l as [|[cmd ks] l IH]; cbn [clear_callbacks_over]; intros st st' r H; [injection H as <- _; reflexivity|].
    apply seq_spec in H as [(s & H1 & H2)|[H1 H2]]; apply run_cmd_chans in H1; auto. apply IH in H2. congruence.
  Qed.
  Lemma close_all_closes size l : forall st st' r, length (st_chans st) = size -> close_all env size l st = (st', r) ->
    st_chans st' = st_chans st /\ (forall n o, In (n, o) l -> (exists c, chan_of st o = Some c) -> object_closed st' o).
  Proof.
    induction l as [|[n o] l IH]; cbn [close_all]; intros st st' r Hs H; [injection H as <- _; split; [reflexivity|intros ? ? []]|].
    apply seq_spec in H as [(s & H1 & H2)|[H1 H2]]; [|apply chan_on_close_spec in H1 as [-> _]; congruence].
    pose proof (on_close_chans _ _ _ _ H1) as Hch. rewrite Hch, Hs, Nat.eqb_refl in H2.
    pose proof (close_all_good env size l _ _ _ H2) as [Hst _]. pose proof (chan_on_close_good env o _ _ _ H1) as [Hst1 _].
    assert (Hs2 : length (st_chans s) = size) by congruence.
    destruct (IH _ _ _ Hs2 H2) as [Hc2 Hi2]. split; [congruence|]. intros n' o' [[= -> ->]|Hin] [c Hc].
    - destruct (on_close_closes _ _ _ _ _ Hc H1) as [Hcl _]. destruct (silent_star o' _ _ Hst Hcl) as (_ & _ & _ & G). exact G.
    - apply (Hi2 n'); auto. destruct (numbers_star _ _ Hst1 _ _ Hc) as (c' & Hc' & _). eauto.
  Qed.
  Lemma c20_drop st st' r n o c : registered st n = Some o -> chan_of st o = Some c -> step (InEvent EvDisconnected) st = (st', r) ->
    object_closed st' o.
  Proof.
    intros Hn Hc. cbn [Model_Client.step on_event]. intros H. apply guard_spec in H as (r' & H & _).
    unfold on_disconnected, clear_callbacks, hard_close_channels in H.
    apply seq_spec in H as [(s & H1 & H2)|[H1 H2]]; [|apply clear_spec in H1 as [-> _]; congruence].
    pose proof (clear_chans _ _ _ _ H1) as Hch. pose proof (clear_spec env _ _ _ _ H1) as (_ & X & _).
    destruct (ex_heap _ _ _ X o c Hc) as (c' & Hc' & _). destruct (close_all_closes _ _ _ _ _ eq_refl H2) as [_ G].
    apply (G n o); [|exists c'; exact Hc']. rewrite Hch. cbn. unfold registered in Hn. now apply (get_in _ Z.eqb_spec) in Hn.
  Qed.
End Client.
