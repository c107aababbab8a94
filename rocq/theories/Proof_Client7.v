From Verif Require Import Py Py_lemmas Dict_lemmas Model_Bencode Spec_Bencode Proof_Bencode Model_Packets
  Spec_Packets Proof_Packets Model_Client Spec_Client Proof_Client Proof_Client2 Proof_Client3 Proof_Client4 Proof_Client5 Proof_Client6.

(** What a packet sent by the client means to the peer. *)
Lemma create_named_ok name args kw p : NoDup (map fst kw) -> create_named name args kw = Ok p ->
  In (pk_class p) packet_classes /\ well_formed p.
Proof.
  intros Hk. unfold create_named. destruct (type_of_name name) as [t|]; [|discriminate]. intros H.
  apply create_ok in H as (H1 & _ & H2 & _); auto.
Qed.

Section Client.
  Variable env : list effect -> effect -> list (op * bool) * option exn.
  Variable error_text : list effect -> text.
  Notation step := (step env error_text).
  Notation run := (run env error_text).
  Notation run_handler := (run_handler env error_text).

  Lemma close_handler args st st' r : numbered st -> run_handler HNotifyClose args st = (st', r) ->
    keeps st st' /\ (open_inv st -> open_inv st').
  Proof.
    intros Hn. destruct args as [|a [|]]; try (intros [= <- _]; split; [apply keeps_refl|auto]; fail).
    destruct (as_int a) as [n|] eqn:E.
    - intros H. apply (notify_close_spec env error_text n _ _ r Hn). rewrite <- H. cbn [Model_Client.run_handler]. rewrite E. reflexivity.
    - cbn [Model_Client.run_handler]. rewrite E. intros [= <- _]; split; [apply keeps_refl|auto].
  Qed.
  Lemma response_handler cmd v st st' r : run_handler HResponse [VInt cmd; v] st = (st', r) ->
    st_ident st' = st_ident st /\ st_closed st' = st_closed st /\ (open_inv st -> open_inv st') /\
    match dict_get Z.eqb cmd (st_cbs st) with
    | Some ks => st_cbs st' = dict_del Z.eqb cmd (st_cbs st) /\
        exists new, adds st st' new /\ filter is_cmd new = map (fun k => CmdCb k cmd (Some v)) ks
    | None => st' = st
    end.
  Proof.
    cbn [Model_Client.run_handler as_int]. unfold command_callback. destruct (dict_get Z.eqb cmd (st_cbs st)) as [ks|] eqn:E.
    - intros H. apply seq_spec in H as [(s & H1 & H2)|[H1 H2]]; [|apply run_cmd_spec in H1 as [-> _]; congruence].
      apply run_cmd_spec in H1 as (_ & X & new & Hn & Hf). injection H2 as <- _. destruct (ext_keeps _ _ _ X) as (K1 & K2 & K3). cbn.
      split; auto. split; auto. split; [intros Ho; exact (open_ext _ _ _ X Ho)|]. split; [congruence|]. exists new. split; auto.
    - intros [= <- _]. auto.
  Qed.
  Lemma response_args args st st' r : run_handler HResponse args st = (st', r) ->
    st' = st \/ exists cmd v, run_handler HResponse [VInt cmd; v] st = (st', r).
  Proof.
    destruct args as [|a [|v [|]]]; try (intros [= <- _]; now left). destruct (as_int a) as [n|] eqn:E.
    - intros H. right. exists n, v. rewrite <- H. cbn [Model_Client.run_handler]. now rewrite E.
    - cbn [Model_Client.run_handler]. rewrite E. intros [= <- _]. now left.
  Qed.

  Lemma step_open i st st' r : i <> InEvent EvDisconnected -> numbered st -> step i st = (st', r) -> open_inv st -> open_inv st'.
  Proof.
    intros Hi Hn H Ho. destruct i as [[| |m| |]|p|cmd k|].
    - cbn [Model_Client.step on_event] in H. apply guard_spec in H as (r' & H & _). unfold on_ready in H.
      destruct (st_ident st); apply send_star in H as [H _]; exact (open_ext _ _ _ (star_ext _ _ H) Ho).
    - congruence.
    - apply step_binary in H. destruct (meaning m) as [[h args]|]; [|now subst]. destruct H as [r' H].
      destruct h; try (refine (open_ext _ _ _ (mild_ext env error_text _ _ _ _ _ _ H) Ho); exact I).
      + cbn [Model_Client.run_handler] in H. destruct args as [|[] [|]]; try (injection H as <- _; exact Ho).
        destruct (st_closed st); injection H as <- _; exact Ho.
      + apply close_handler in H as [_ H]; auto.
      + cbn [Model_Client.run_handler] in H. destruct args as [|a [|]]; injection H as <- _; exact Ho.
      + apply response_args in H as [->|(cmd & v & H)]; auto. apply response_handler in H as (_ & _ & H & _). auto.
    - cbn [Model_Client.step on_event] in H. apply guard_spec in H as (r' & H & _). injection H as <- _. exact Ho.
    - injection H as <- _. exact Ho.
    - cbn [Model_Client.step] in H. apply guard_spec in H as (r' & H & _). apply do_op_star in H as [H _]. exact (open_ext _ _ _ (star_ext _ _ H) Ho).
    - injection H as <- _. exact Ho.
    - cbn [Model_Client.step] in H. unfold extern in H. destruct (ret_exn _); injection H as <- _; exact Ho.
  Qed.
  Lemma open_init u : open_inv (init_state u).
  Proof. intros n o. discriminate. Qed.
  Lemma run_open l : forall st st', no_disconnect l -> numbered st -> run l st = Some st' -> open_inv st -> open_inv st'.
  Proof.
    induction l as [|i l IH]; intros st st' Hl Hn; [intros [= <-]; auto|]. rewrite run_cons.
    destruct (step i st) as [s x] eqn:E. intros H. assert (H' : run l s = Some st') by (destruct x; congruence || discriminate). intros Ho.
    apply (IH s); auto.
    - intros Hin. apply Hl. now right.
    - eapply step_numbered; eauto.
    - eapply step_open; eauto. intros ->. apply Hl. now left.
  Qed.
  Lemma c21_all n l : forall st st', no_disconnect l -> numbered st -> deliverable st -> open_inv st -> run l st = Some st' ->
    delivered n st' = delivered n st ++ routed n l.
  Proof.
    induction l as [|i l IH]; intros st st' Hl Hn Hd Ho; [intros [= <-]; now rewrite app_nil_r|]. rewrite run_cons.
    destruct (step i st) as [s x] eqn:E. intros H. assert (H' : run l s = Some st') by (destruct x; congruence || discriminate).
    destruct (delivered_step env error_text i n _ _ _ Hn Hd E) as (Hd' & x1 & E1 & _ & A). rewrite (IH s); auto.
    - rewrite E1, (A Ho), <- app_assoc. f_equal. symmetry. apply routed_cons.
    - intros Hin. apply Hl. now right.
    - eapply step_numbered; eauto.
    - eapply step_open; eauto. intros ->. apply Hl. now left.
  Qed.
  Lemma c21_complete n l u st : no_disconnect l -> run l (init_state u) = Some st -> delivered n st = routed n l.
  Proof. intros Hl H. apply (c21_all n l _ _ Hl (numbered_init u) (Forall_nil _) (open_init u) H). Qed.

  (** Sending through a channel. *)
  Lemma send_once name args kw p st st' r : NoDup (map fst kw) -> create_named name args kw = Ok p ->
    Forall (fun a => plain (snd a)) (pk_attrs p) -> send env name args kw st = (st', r) ->
    exists b, st' = emit (Sent b) st /\ understood b (pc_name (pk_class p)) (pk_attrs p).
  Proof.
    intros Hk Hc Hp H. destruct (create_named_ok _ _ _ _ Hk Hc) as [Hi Hw].
    destruct (send_exact env name args kw p st st' r Hc Hi Hw Hp H) as (b & -> & Hb). exists b. split; auto. exists (pk_class p). destruct p; auto.
  Qed.
  Lemma write_spec o c d st st' r : chan_of st o = Some c -> ch_closed c = false -> short d -> chan_write env o d st = (st', r) ->
    exists b, st' = emit (Sent b) st /\ understood b "RequestSendPacket" [("channel"%string, VInt (ch_no c)); ("data"%string, VBytes d)].
  Proof.
    intros Hc Hcl Hd. unfold chan_write. unfold chan_of in Hc. rewrite Hc, Hcl. intros H.
    apply (send_once _ _ _ (Packet (PClass "RequestSendPacket" 5%Z [("channel"%string, AInt); ("data"%string, ABytes)]) [("channel"%string, VInt (ch_no c)); ("data"%string, VBytes d)])) in H; [exact H| |reflexivity|].
    - apply nodup_sb_ok. reflexivity.
    - cbn [pk_attrs]. constructor; [exact I|]. constructor; [exact Hd|constructor].
  Qed.
  Lemma c21_write o c d st st' r : chan_of st o = Some c -> ch_closed c = false -> short d -> step (InOp (OpWrite o d)) st = (st', r) ->
    exists b, adds st st' [Sent b] /\ understood b "RequestSendPacket" [("channel"%string, VInt (ch_no c)); ("data"%string, VBytes d)].
  Proof.
    intros Hc Hcl Hd. cbn [Model_Client.step do_op]. intros H. apply guard_spec in H as (r' & H & _).
    destruct (write_spec _ _ _ _ _ _ Hc Hcl Hd H) as (b & -> & Hb). exists b. split; auto. reflexivity.
  Qed.

  (** ** Reopening (C22) *)
  Lemma c22_closed l u st m n st' r : run l (init_state u) = Some st -> is_notify_close m n ->
    step (InEvent (EvBinary m)) st = (st', r) -> registered st' n = None.
  Proof.
    intros Hr Hm H. apply step_binary in H. rewrite (close_meaning _ _ Hm) in H. destruct H as [r' H].
    eapply notify_close_spec; [eapply run_numbered; exact Hr|exact H].
  Qed.
  Lemma c22_fresh n i st st' r : registered st n = None ->
    i = InOp (OpOpen n) \/ (exists m, i = InEvent (EvBinary m) /\ is_open m n) -> step i st = (st', r) ->
    registered st' n = Some (length (st_heap st)) /\ exists c, chan_of st' (length (st_heap st)) = Some c /\ fresh_channel c n.
  Proof.
    intros Hn Hi H. assert (st' = new_state n st) as ->.
    { destruct Hi as [->|(m & -> & Hm)].
      - cbn [Model_Client.step do_op] in H. apply guard_spec in H as (r' & H & _). injection H as <- _.
        destruct (get_channel_spec n st) as [(o & Hg & E)|[Hg E]]; [unfold registered in Hn; congruence|now rewrite E].
      - apply step_binary in H. rewrite (open_meaning _ _ Hm) in H. destruct H as [r' H]. cbn [Model_Client.run_handler as_int] in H. injection H as <- _.
        destruct (get_channel_spec n st) as [(o & Hg & E)|[Hg E]]; [unfold registered in Hn; congruence|now rewrite E]. }
    split; [unfold registered; cbn; apply (get_set_eq _ Z.eqb_spec)|]. exists (new_chan n). split; [unfold chan_of; cbn; apply nth_error_app_new|].
    repeat split.
  Qed.

  (** ** Command callbacks (C23) *)
  Lemma is_cmd_quiet e : quiet e -> is_cmd e = false.
  Proof. destruct e; cbn; tauto. Qed.
  Lemma own_not_cmd h e : h <> HResponse -> own h e -> is_cmd e = false.
  Proof. destruct h, e; cbn; tauto. Qed.
  Definition adds_cb (k : nat) (i : input) : nat := match i with InAddCb _ j => if Nat.eq_dec j k then 1 else 0 | _ => 0 end.
  Lemma trace_adds st st' new : adds st st' new -> st_trace st' = rev new ++ st_trace st.
  Proof. unfold adds, history. intros H. rewrite <- (rev_involutive (st_trace st')), H, rev_app_distr, rev_involutive. reflexivity. Qed.
  Lemma cmd_runs_rev k l : cmd_runs k (rev l) = cmd_runs k l.
  Proof. induction l as [|e l IH]; auto. cbn [rev]. rewrite cmd_runs_app, IH. change (e :: l) with ([e] ++ l). rewrite cmd_runs_app. lia. Qed.
  Lemma step_cmds k i st st' r : i <> InEvent EvDisconnected -> numbered st -> step i st = (st', r) ->
    cmd_runs k (st_trace st') + pend k (st_cbs st') = cmd_runs k (st_trace st) + pend k (st_cbs st) + adds_cb k i.
  Proof.
    intros Hi Hn H.
    assert (N : st_cbs st' = st_cbs st -> adds_cb k i = 0 -> (forall e, may_in i e -> is_cmd e = false) ->
      cmd_runs k (st_trace st') + pend k (st_cbs st') = cmd_runs k (st_trace st) + pend k (st_cbs st) + adds_cb k i).
    { intros -> -> Hm. apply step_grows in H as (q & -> & Fq). rewrite cmd_runs_app, (cmd_runs_none k q); [lia|]. eapply Forall_impl; eauto. }
    destruct i as [[| |m| |]|p|cmd j|].
    - cbn [Model_Client.step on_event] in H. apply guard_spec in H as (r' & H & _). unfold on_ready in H.
      apply N; auto using is_cmd_quiet. destruct (st_ident st); apply send_star in H as [H _]; apply (star_oext _ _ H).
    - congruence.
    - pose proof H as H0. apply step_binary in H. destruct (meaning m) as [[h args]|] eqn:Em; [|subst; cbn; lia]. destruct H as [r' H].
      assert (Hnr : h <> HResponse -> forall e, may_in (InEvent (EvBinary m)) e -> is_cmd e = false).
      { intros Hh e He. cbn [may_in] in He. rewrite Em in He. destruct He as [He|He]; [now apply is_cmd_quiet|now apply (own_not_cmd h)]. }
      destruct h; try (apply N; [|reflexivity|apply Hnr; discriminate];
                       refine (ex_cbs _ _ _ (mild_ext env error_text _ _ _ _ _ _ H)); exact I).
      + apply N; [|reflexivity|apply Hnr; discriminate]. cbn [Model_Client.run_handler] in H.
        destruct args as [|[] [|]]; try (injection H as <- _; reflexivity). destruct (st_closed st); injection H as <- _; reflexivity.
      + apply N; [|reflexivity|apply Hnr; discriminate]. apply close_handler in H as [(_ & _ & K) _]; auto.
      + apply N; [|reflexivity|apply Hnr; discriminate]. cbn [Model_Client.run_handler] in H.
        destruct args as [|a [|]]; injection H as <- _; reflexivity.
      + apply response_args in H as [->|(cmd & v & H)]; [cbn; lia|]. apply response_handler in H as (_ & _ & _ & H).
        destruct (dict_get Z.eqb cmd (st_cbs st)) as [ks|] eqn:Ek; [|subst; cbn; lia].
        destruct H as (-> & new & Ha & Hf). apply trace_adds in Ha. rewrite Ha, cmd_runs_app, cmd_runs_rev, (cmd_runs_filter k new), Hf, cmd_runs_map.
        pose proof (pend_del k _ _ _ Ek). cbn [adds_cb]. lia.
    - cbn [Model_Client.step on_event] in H. apply guard_spec in H as (r' & H & _). apply N; [injection H as <- _; auto|auto|].
      intros e [x ->]. reflexivity.
    - injection H as <- _. cbn. lia.
    - cbn [Model_Client.step] in H. apply guard_spec in H as (r' & H & _). apply do_op_star in H as [H _].
      apply N; auto using is_cmd_quiet. apply (star_oext _ _ H).
    - injection H as <- _. cbn [adds_cb add_callback with_cbs st_cbs st_trace]. rewrite pend_add. lia.
    - cbn [Model_Client.step] in H. apply N; auto.
      + unfold extern in H. destruct (ret_exn _); injection H as <- _; reflexivity.
      + intros e ->. reflexivity.
  Qed.
  Lemma run_cmds k l : forall st st', no_disconnect l -> numbered st -> run l st = Some st' ->
    cmd_runs k (st_trace st') + pend k (st_cbs st') = cmd_runs k (st_trace st) + pend k (st_cbs st) + count_occ Nat.eq_dec (added l) k.
  Proof.
    induction l as [|i l IH]; intros st st' Hl Hn; [intros [= <-]; cbn; lia|]. rewrite run_cons.
    destruct (step i st) as [s x] eqn:E. intros H. assert (H' : run l s = Some st') by (destruct x; congruence || discriminate).
    rewrite (IH s); auto.
    - rewrite (step_cmds k i _ _ _) with (2 := Hn) (3 := E); [|intros ->; apply Hl; now left].
      destruct i as [e|p|cmd j|]; cbn [adds_cb added count_occ]; try lia. destruct (Nat.eq_dec j k); lia.
    - intros Hin. apply Hl. now right.
    - eapply step_numbered; eauto.
  Qed.
  Lemma c23_once k l u st : no_disconnect l -> NoDup (added l) -> run l (init_state u) = Some st -> cmd_runs k (history st) <= 1.
  Proof.
    intros Hl Hd H. pose proof (run_cmds k l _ _ Hl (numbered_init u) H) as E. cbn in E. unfold history. rewrite cmd_runs_rev.
    rewrite (NoDup_count_occ Nat.eq_dec) in Hd. specialize (Hd k). lia.
  Qed.
  Lemma c23_response m cmd d st st' r ks : is_response m cmd d -> dict_get Z.eqb cmd (st_cbs st) = Some ks ->
    step (InEvent (EvBinary m)) st = (st', r) ->
    st_cbs st' = dict_del Z.eqb cmd (st_cbs st) /\
    exists new, adds st st' new /\ filter is_cmd new = map (fun k => CmdCb k cmd (Some (VDict d))) ks.
  Proof.
    intros Hm Hk H. apply step_binary in H. rewrite (response_meaning _ _ _ Hm) in H. destruct H as [r' H].
    apply response_handler in H as (_ & _ & _ & H). now rewrite Hk in H.
  Qed.
  Lemma c23_disconnect st st' r : step (InEvent EvDisconnected) st = (st', r) ->
    exists new, adds st st' new /\ filter is_cmd new = flat_map (fun p => map (fun k => CmdCb k (fst p) None) (snd p)) (st_cbs st).
  Proof.
    cbn [Model_Client.step on_event]. intros H. apply guard_spec in H as (r' & H & _). now apply disconnected_spec in H.
  Qed.

  (** ** Ping (C24) *)
  Lemma short_firstn n b : short b -> short (firstn n b).
  Proof. unfold short. rewrite firstn_length. lia. Qed.
  Lemma pong_spec x st st' r : short x -> send env "pong" [] [("data"%string, VBytes x)] st = (st', r) ->
    exists b, st' = emit (Sent b) st /\ understood b "PongPacket" [("data"%string, VBytes x)].
  Proof.
    intros Hx H. apply (send_once _ _ _ (Packet (PClass "PongPacket" 8%Z [("data"%string, ABytes)]) [("data"%string, VBytes x)])) in H; [exact H| |reflexivity|].
    - apply nodup_sb_ok. reflexivity.
    - constructor; [exact Hx|constructor].
  Qed.
  Lemma slice_to_pos {A} (d : list A) i : (0 <= i)%Z -> slice_to d i = firstn (Z.to_nat i) d.
  Proof. intros H. unfold slice_to. replace (i <? 0)%Z with false by lia. reflexivity. Qed.
  Lemma c24 m d st st' r : is_ping m d -> step (InEvent (EvBinary m)) st = (st', r) ->
    exists b, adds st st' [Sent b] /\ understood b "PongPacket" [("data"%string, VBytes (firstn (Z.to_nat 1024) d))].
  Proof.
    intros Hm H. apply step_binary in H. rewrite (ping_meaning _ _ Hm) in H. destruct H as [r' H]. cbn [Model_Client.run_handler] in H.
    rewrite (slice_to_pos d 1024) in H by lia. apply pong_spec in H.
    - destruct H as (b & -> & Hb). exists b. split; [reflexivity|exact Hb].
    - unfold short. rewrite firstn_length. lia.
  Qed.

  (** ** Handshake (C25) *)
  Lemma c25_ready st st' r : (forall i, st_ident st = Some i -> short i) -> step (InEvent EvReady) st = (st', r) ->
    exists b, adds st st' [Sent b] /\
      match st_ident st with
      | None => understood b "RequestJoinPacket" []
      | Some i => understood b "RequestIdentifyPacket" [("uuid"%string, VBytes i)]
      end.
  Proof.
    intros Hs. cbn [Model_Client.step on_event]. intros H. apply guard_spec in H as (r' & H & _). unfold on_ready in H. destruct (st_ident st) as [i|] eqn:E.
    - apply (send_once _ _ _ (Packet (PClass "RequestIdentifyPacket" 2%Z [("uuid"%string, ABytes)]) [("uuid"%string, VBytes i)])) in H; [| |reflexivity|].
      + destruct H as (b & -> & Hb). exists b. split; [reflexivity|exact Hb].
      + apply nodup_sb_ok. reflexivity.
      + constructor; [exact (Hs _ eq_refl)|constructor].
    - apply (send_once _ _ _ (Packet (PClass "RequestJoinPacket" 1%Z []) [])) in H; [| |reflexivity|].
      + destruct H as (b & -> & Hb). exists b. split; [reflexivity|exact Hb].
      + constructor.
      + constructor.
  Qed.
  Lemma c25_ident i st st' r : numbered st -> step i st = (st', r) ->
    st_ident st' = match i with
                   | InEvent EvDisconnected => None
                   | InEvent (EvBinary m) => match set_of m with
                                             | Some x => if st_closed st then st_ident st else Some x
                                             | None => st_ident st
                                             end
                   | InClose => match snd (env (st_trace st) WsClose) with None => None | Some _ => st_ident st end
                   | _ => st_ident st
                   end /\
    st_closed st' = match i with
                    | InClose => match snd (env (st_trace st) WsClose) with None => true | Some _ => st_closed st end
                    | _ => st_closed st
                    end.
  Proof.
    intros Hn H. destruct i as [[| |m| |]|p|cmd j|].
    - cbn [Model_Client.step on_event] in H. apply guard_spec in H as (r' & H & _). unfold on_ready in H.
      assert (X : oext st st') by (destruct (st_ident st); apply send_star in H as [H _]; now apply star_oext). exact (conj (oe_ident _ _ X) (oe_closed _ _ X)).
    - cbn [Model_Client.step on_event] in H. apply guard_spec in H as (r' & H & _). apply (disconnected_spec env error_text) in H as (_ & H1 & H2 & _). exact (conj H1 H2).
    - apply step_binary in H. destruct (set_of m) as [x|] eqn:Es.
      + apply set_of_spec in Es. rewrite (setid_meaning _ _ Es) in H. destruct H as [r' H]. cbn [Model_Client.run_handler] in H.
        destruct (st_closed st) eqn:Ec; injection H as <- _; cbn; auto.
      + destruct (meaning m) as [[h args]|] eqn:Em; [|subst; auto]. destruct H as [r' H].
        destruct h; try (pose proof (fun I => ext_keeps _ _ _ (mild_ext env error_text _ _ _ _ _ I H)) as K; destruct (K I) as (K1 & K2 & _); auto; fail).
        * exfalso. apply meaning_setid in Em as (i & _ & Em). apply set_of_spec in Em. congruence.
        * apply close_handler in H as [(K1 & K2 & _) _]; auto.
        * cbn [Model_Client.run_handler] in H. destruct args as [|a [|]]; injection H as <- _; auto.
        * apply response_args in H as [->|(cmd & v & H)]; auto. apply response_handler in H as (K1 & K2 & _). auto.
    - cbn [Model_Client.step on_event] in H. apply guard_spec in H as (r' & H & _). injection H as <- _. auto.
    - injection H as <- _. auto.
    - cbn [Model_Client.step] in H. apply guard_spec in H as (r' & H & _). apply do_op_star in H as [H _]. apply star_oext in H. exact (conj (oe_ident _ _ H) (oe_closed _ _ H)).
    - injection H as <- _. auto.
    - cbn [Model_Client.step] in H. unfold extern in H. destruct (snd (env (st_trace st) WsClose)) as [e|]; cbn in H; injection H as <- _; auto.
  Qed.

  (** ** Echo (C32) *)
  Section Echo.
    (** The echo service's callback (services/echo.py): write the data back. *)
    Variable k : nat.
    Hypothesis echo : forall tr o d, env tr (DataCb k o d) = ([(OpWrite o d, false)], None).
    Lemma c32_step m n d st st' r o c : is_route m n d -> short d -> registered st n = Some o -> chan_of st o = Some c -> ch_no c = n ->
      ch_closed c = false -> ch_data_cb c = Some k -> step (InEvent (EvBinary m)) st = (st', r) ->
      exists b, adds st st' [DataCb k o d; Sent b] /\ understood b "RequestSendPacket" [("channel"%string, VInt n); ("data"%string, VBytes d)].
    Proof.
      intros Hm Hd Ho Hc Hno Hcl Hk H. apply step_binary in H. rewrite (route_meaning _ _ _ Hm) in H. destruct H as [r' H].
      cbn [Model_Client.run_handler as_int] in H. unfold registered in Ho. unfold get_channel in H. rewrite Ho in H.
      unfold chan_on_data in H. unfold chan_of in Hc. rewrite Hc, Hcl, Hk in H. unfold callback in H. rewrite echo in H.
      assert (E : exists x, do_ops env [(OpWrite o d, false)] (emit (DataCb k o d) st) = (st', x)).
      { apply seq_spec in H as [(s & H1 & H2)|[H1 _]]; [injection H2 as <- _|]; eauto. }
      destruct E as [x E]. cbn [do_ops do_op] in E.
      assert (E' : exists x', chan_write env o d (emit (DataCb k o d) st) = (st', x')).
      { apply seq_spec in E as [(s & H1 & H2)|[H1 _]]; [injection H2 as <- _|]; eauto. }
      destruct E' as [x' E']. destruct (write_spec o c d (emit (DataCb k o d) st) _ _ Hc Hcl Hd E') as (b & -> & Hb). exists b. split; [|now rewrite <- Hno].
      unfold adds, history. cbn. now rewrite <- app_assoc.
    Qed.

    (** Every echo callback is directly followed by the answer. *)
    Definition answered (st : state) (o : nat) (d : bytes) (rest : list effect) : Prop :=
      exists b post c, rest = Sent b :: post /\ chan_of st o = Some c /\
        understood b "RequestSendPacket" [("channel"%string, VInt (ch_no c)); ("data"%string, VBytes d)].
    Definition echoed (st : state) (l : list effect) : Prop :=
      forall pre o d rest, l = pre ++ DataCb k o d :: rest -> answered st o d rest.
    Lemma echoed_app st a b : echoed st a -> echoed st b -> echoed st (a ++ b).
    Proof.
      intros Ha Hb pre o d rest E. revert pre E Ha. induction a as [|x a IH]; intros pre E Ha; [now apply (Hb pre)|].
      destruct pre as [|y pre]; injection E as -> E.
      - destruct (Ha [] o d a eq_refl) as (b' & post & c & Hp & H1 & H2). subst a. exists b', (post ++ b), c. split; auto.
      - apply (IH pre); auto. intros pre' o' d' rest' E'. apply (Ha (y :: pre') o' d' rest'). now rewrite E'.
    Qed.
    Lemma echoed_stable st st' l : same_numbers st st' -> echoed st l -> echoed st' l.
    Proof.
      intros Hs H pre o d rest E. destruct (H pre o d rest E) as (b & post & c & H1 & H2 & H3).
      destruct (Hs _ _ H2) as (c' & Hc' & En). exists b, post, c'. rewrite En. auto.
    Qed.
    Lemma echoed_none st l : Forall (fun e => forall o d, e <> DataCb k o d) l -> echoed st l.
    Proof.
      intros H pre o d rest E. rewrite Forall_forall in H. exfalso. apply (H (DataCb k o d)) with o d; auto. rewrite E. apply in_elt.
    Qed.
    Lemma route_short m n d : is_route m n d -> short m -> short d.
    Proof.
      intros [rest H] Hs. apply c08 in H. cbn in H. unfold short in *. lia.
    Qed.
    Lemma echo_step i st st' r : numbered st -> (forall m, i = InEvent (EvBinary m) -> short m) -> step i st = (st', r) ->
      exists new, adds st st' new /\ echoed st' new.
    Proof.
      intros Hn Hs H. destruct (route_of i) as [[n d]|] eqn:Er.
      - apply route_of_some in Er as (m & -> & Hm). pose proof (route_short _ _ _ Hm (Hs m eq_refl)) as Hd.
        pose proof H as H0. apply step_binary in H. rewrite (route_meaning _ _ _ Hm) in H. destruct H as [r' H].
        cbn [Model_Client.run_handler as_int] in H.
        assert (D : exists s o c, st_trace s = st_trace st /\ nth_error (st_heap s) o = Some c /\ chan_on_data env o d s = (st', r')).
        { destruct (get_channel_spec n st) as [(o & Hg & E)|[Hg E]]; rewrite E in H.
          - destruct (proj2 Hn _ _ Hg) as (c & Hc & _). exists st, o, c. auto.
          - exists (new_state n st), (length (st_heap st)), (new_chan n). split; auto. split; auto. cbn. apply nth_error_app_new. }
        clear H. destruct D as (s & o & c & Hts & Hc & D). unfold chan_on_data in D. rewrite Hc in D.
        destruct (ch_closed c) eqn:Ecl.
        + injection D as <- _. exists []. split; [unfold adds, history; now rewrite Hts, app_nil_r|]. apply echoed_none. constructor.
        + destruct (ch_data_cb c) as [k'|].
          * destruct (Nat.eq_dec k' k) as [->|Hk'].
            -- unfold callback in D. rewrite echo in D.
               assert (E : exists x, do_ops env [(OpWrite o d, false)] (emit (DataCb k o d) s) = (st', x)).
               { apply seq_spec in D as [(s1 & H1 & H2)|[H1 _]]; [injection H2 as <- _|]; eauto. }
               destruct E as [x E]. cbn [do_ops do_op] in E.
               assert (E' : exists x', chan_write env o d (emit (DataCb k o d) s) = (st', x')).
               { apply seq_spec in E as [(s1 & H1 & H2)|[H1 _]]; [injection H2 as <- _|]; eauto. }
               destruct E' as [x' E']. destruct (write_spec o c d (emit (DataCb k o d) s) _ _ Hc Ecl Hd E') as (b & -> & Hb).
               exists [DataCb k o d; Sent b]. split; [unfold adds, history; cbn; now rewrite Hts, <- app_assoc|].
               intros pre o' d' rest E2. destruct pre as [|y [|z [|w pre]]]; try discriminate.
               injection E2 as -> -> <-. exists b, [], c. auto.
            -- apply callback_star in D as [D _]. apply star_oext in D. destruct (oe_trace _ _ D) as (q & Hq & Fq).
               exists (DataCb k' o d :: rev q). split.
               ++ unfold adds, history. rewrite Hq, rev_app_distr. cbn. now rewrite Hts, <- app_assoc.
               ++ apply echoed_none. constructor; [congruence|]. apply Forall_rev. eapply Forall_impl; [|exact Fq].
                  intros e He o' d' ->. exact He.
          * injection D as <- _. exists [Buffered o d]. split; [unfold adds, history; cbn; now rewrite Hts|].
            apply echoed_none. repeat constructor. discriminate.
      - destruct (no_delivery_step _ _ _ _ _ _ H Er) as (new & Ha & Hr). exists new. split; auto. apply echoed_none.
        apply Forall_forall. intros e He o d ->. clear -Hr He. induction new as [|x new IH]; [destruct He|].
        cbn in Hr. destruct He as [->|He]; [discriminate|]. destruct (delivery x); [discriminate|auto].
    Qed.
    Lemma echo_run l : forall st st', numbered st -> (forall m, In (InEvent (EvBinary m)) l -> short m) -> run l st = Some st' ->
      echoed st (history st) -> echoed st' (history st').
    Proof.
      induction l as [|i l IH]; intros st st' Hn Hs; [intros [= <-]; auto|]. rewrite run_cons.
      destruct (step i st) as [s x] eqn:E. intros H He. assert (H' : run l s = Some st') by (destruct x; congruence || discriminate).
      apply (IH s); auto.
      - eapply step_numbered; eauto.
      - intros m Hm. apply Hs. now right.
      - destruct (echo_step _ _ _ _ Hn (fun m Em => Hs m (or_introl Em)) E) as (new & Ha & Hnew). rewrite Ha. apply echoed_app; auto.
        eapply echoed_stable; [|exact He]. apply numbers_star. now apply step_spec in E.
    Qed.
    Lemma c32_history l u st pre o d rest : (forall m, In (InEvent (EvBinary m)) l -> short m) -> run l (init_state u) = Some st ->
      history st = pre ++ DataCb k o d :: rest ->
      exists b post c, rest = Sent b :: post /\ chan_of st o = Some c /\
        understood b "RequestSendPacket" [("channel"%string, VInt (ch_no c)); ("data"%string, VBytes d)].
    Proof.
      intros Hs H. apply (echo_run l _ _ (numbered_init u) Hs H). intros pre' o' d' rest' E. destruct pre'; discriminate.
    Qed.
  End Echo.
End Client.

Lemma c79 env error_text l st : (forall m, In (EvBinary m) l -> ~ stuck m) -> snd (thread_run env error_text l st) = Raise EAttr.
Proof.
  intros H. unfold thread_run. destruct (receive_loop env error_text l st) as [s r] eqn:E. apply c14_loop in E as [H1 H2].
  destruct r as [[]|e|]; auto; [now destruct (H1 e)|]. destruct (proj1 H2 eq_refl) as (m & Hm & Hs). now destruct (H m).
Qed.
