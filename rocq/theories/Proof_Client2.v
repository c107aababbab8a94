From Verif Require Import Py Py_lemmas Dict_lemmas Model_Bencode Spec_Bencode Proof_Bencode Model_Packets
  Spec_Packets Proof_Packets Model_Client Spec_Client Proof_Client.

(** ** Small steps of the state *)
Definition new_state (n : Z) (st : state) : state :=
  with_chans (dict_set Z.eqb n (length (st_heap st)) (st_chans st)) (with_heap (st_heap st ++ [new_chan n]) st).

(** What operations on the client do. *)
Inductive omicro : state -> state -> Prop :=
| om_sent st b : omicro st (emit (Sent b) st)
| om_new st n : dict_get Z.eqb n (st_chans st) = None -> omicro st (new_state n st)
| om_read st o count c d c' : nth_error (st_heap st) o = Some c -> chan_read count c = (d, c') ->
    omicro st (emit (ReadRet o count d) (upd_chan o (fun _ => c') st))
| om_cbs st o d x t : omicro st (upd_chan o (chan_set_cbs d x t) st).

Definition neutral (e : effect) : Prop :=
  match e with
  | SetIdent _ | Instruction _ _ | RdOpen _ _ | RdClose _ | RdRead _ _ _ | RdScan | RdWrite _ _ _ _ _ _ | WsClose => True
  | _ => False
  end.
Inductive micro : state -> state -> Prop :=
| mi_op st st' : omicro st st' -> micro st st'
| mi_close st o c : nth_error (st_heap st) o = Some c -> ch_closed c = false ->
    micro st (match ch_close_cb c with None => upd_chan o chan_shut st | Some k => emit (CloseCb k o) (upd_chan o chan_shut st) end)
| mi_data st o c k d : nth_error (st_heap st) o = Some c -> ch_closed c = false -> ch_data_cb c = Some k ->
    micro st (emit (DataCb k o d) st)
| mi_buf st o c d : nth_error (st_heap st) o = Some c -> ch_closed c = false -> ch_data_cb c = None ->
    micro st (emit (Buffered o d) (upd_chan o (chan_push d) st))
| mi_ctl st o c k d : nth_error (st_heap st) o = Some c -> ch_closed c = false -> micro st (emit (CtlCb k o d) st)
| mi_del st n : micro st (with_chans (dict_del Z.eqb n (st_chans st)) st)
| mi_cmd st k cmd r : micro st (emit (CmdCb k cmd r) st)
| mi_cbs st c : micro st (with_cbs c st)
| mi_ident st i : micro st (with_ident i st)
| mi_closed st b : micro st (with_closed b st)
| mi_user st u : micro st (with_user u st)
| mi_ext st e : neutral e -> micro st (emit e st).

Section Client.
  Variable env : list effect -> effect -> list (op * bool) * option exn.
  Variable error_text : list effect -> text.

  Ltac inv2 H := injection H as <- <-.

  Lemma extern_eq e st : extern env e st = (emit e st, ret_exn (snd (env (st_trace st) e))).
  Proof. reflexivity. Qed.
  Lemma ret_exn_no_hang x : ret_exn x <> Hang.
  Proof. destruct x; discriminate. Qed.

  Lemma send_bytes_spec b st st' r : send_bytes env b st = (st', r) -> st' = emit (Sent b) st /\ r <> Hang.
  Proof.
    unfold send_bytes, extern. destruct (ret_exn _) as [[]|e|] eqn:E.
    - intros [= <- <-]. split; auto; discriminate.
    - destruct e; intros [= <- <-]; split; auto; discriminate.
    - exfalso. eapply ret_exn_no_hang; eauto.
  Qed.
  Lemma send_spec name args kw st st' r : send env name args kw st = (st', r) ->
    r <> Hang /\ (st' = st \/ exists b, st' = emit (Sent b) st).
  Proof.
    unfold send. destruct (bind _ _) as [b|e|] eqn:E.
    - intros H. apply send_bytes_spec in H as [-> H]. eauto.
    - intros [= <- <-]. split; auto; discriminate.
    - exfalso. revert E. apply bind_no_hang; [apply create_named_no_hang|apply as_bytes_no_hang].
  Qed.
  Lemma send_star name args kw st st' r : send env name args kw st = (st', r) -> star omicro st st' /\ r <> Hang.
  Proof.
    intros H. apply send_spec in H as [Hr [->|[b ->]]]; split; auto; [constructor|apply star_one; constructor].
  Qed.
  Lemma get_channel_spec n st :
    (exists o, dict_get Z.eqb n (st_chans st) = Some o /\ get_channel n st = (o, st)) \/
    (dict_get Z.eqb n (st_chans st) = None /\ get_channel n st = (length (st_heap st), new_state n st)).
  Proof. unfold get_channel. destruct (dict_get _ _ _) as [o|]; eauto. Qed.
  Lemma get_channel_star n st : star omicro st (snd (get_channel n st)).
  Proof. destruct (get_channel_spec n st) as [(o & _ & ->)|[H ->]]; cbn; [constructor|now apply star_one, om_new]. Qed.

  Lemma do_op_star p st st' r : do_op env p st = (st', r) -> star omicro st st' /\ r <> Hang.
  Proof.
    destruct p as [n|o d|o j|o|o count|o d x t|name args kw]; cbn [do_op]; unfold chan_write, chan_control, chan_close.
    - intros [= <- <-]. split; [apply get_channel_star|discriminate].
    - destruct (nth_error _ _) as [c|]; [|intros [= <- <-]; split; [constructor|discriminate]].
      destruct (ch_closed c); [intros [= <- <-]; split; [constructor|discriminate]|apply send_star].
    - destruct (nth_error _ _) as [c|]; [|intros [= <- <-]; split; [constructor|discriminate]].
      destruct (ch_closed c); [intros [= <- <-]; split; [constructor|discriminate]|apply send_star].
    - destruct (nth_error _ _) as [c|]; [|intros [= <- <-]; split; [constructor|discriminate]].
      destruct (ch_closed c); [intros [= <- <-]; split; [constructor|discriminate]|apply send_star].
    - destruct (nth_error _ _) as [c|] eqn:E; [|intros [= <- <-]; split; [constructor|discriminate]].
      destruct (chan_read count c) as [d c'] eqn:Ec. intros [= <- <-]. split; [|discriminate]. apply star_one. econstructor; eauto.
    - intros [= <- <-]. split; [apply star_one, om_cbs|discriminate].
    - apply send_star.
  Qed.
  Lemma guard_spec a st st' r : guard a st = (st', r) -> exists r', a st = (st', r') /\ (r' <> Hang -> r = Ok tt).
  Proof.
    unfold guard. destruct (a st) as [s [[]|e|]]; intros [= <- <-]; eexists; split; eauto. congruence.
  Qed.
  Lemma seq_spec a b st st' r : seq a b st = (st', r) ->
    (exists s, a st = (s, Ok tt) /\ b s = (st', r)) \/ (a st = (st', r) /\ r <> Ok tt).
  Proof.
    unfold seq. destruct (a st) as [s [[]|e|]] eqn:E; eauto; intros [= <- <-]; right; split; auto; discriminate.
  Qed.
  Lemma do_ops_star l : forall st st' r, do_ops env l st = (st', r) -> star omicro st st' /\ r <> Hang.
  Proof.
    induction l as [|[p b] l IH]; cbn [do_ops]; intros st st' r H.
    - injection H as <- <-. split; [constructor|discriminate].
    - apply seq_spec in H as [(s & H1 & H2)|[H1 H2]].
      + apply IH in H2 as [H2 H3]. split; auto. eapply star_trans; [|exact H2].
        destruct b; [apply guard_spec in H1 as (r' & H1 & _)|]; apply do_op_star in H1; tauto.
      + destruct b.
        * apply guard_spec in H1 as (r' & H1 & H3). apply do_op_star in H1 as [H1 H4]. split; auto.
        * apply do_op_star in H1. exact H1.
  Qed.
  Lemma callback_star e st st' r : callback env e st = (st', r) -> star omicro (emit e st) st' /\ r <> Hang.
  Proof.
    unfold callback. destruct (env (st_trace st) e) as [ops x]. intros H.
    apply seq_spec in H as [(s & H1 & H2)|[H1 H2]].
    - apply do_ops_star in H1 as [H1 _]. injection H2 as <- <-. split; auto. apply ret_exn_no_hang.
    - now apply do_ops_star in H1.
  Qed.

  Lemma ostar st st' : star omicro st st' -> star micro st st'.
  Proof. apply star_mono. apply mi_op. Qed.
  Lemma cb_star e st st' r : micro st (emit e st) -> callback env e st = (st', r) -> star micro st st' /\ r <> Hang.
  Proof. intros Hm H. apply callback_star in H as [H Hr]. split; auto. econstructor; [exact Hm|]. now apply ostar. Qed.
  Lemma cb_ext e st st' r : neutral e -> callback env e st = (st', r) -> star micro st st' /\ r <> Hang.
  Proof. intros Hn. apply cb_star. now apply mi_ext. Qed.
  Definition good_action (a : action) : Prop := forall st st' r, a st = (st', r) -> star micro st st' /\ r <> Hang.
  Lemma good_skip : good_action skip.
  Proof. intros st st' r [= <- <-]. split; [constructor|discriminate]. Qed.
  Lemma good_guard a : good_action a -> good_action (guard a).
  Proof.
    intros Ha st st' r H. apply guard_spec in H as (r' & H & Hr). apply Ha in H as [H H']. split; auto. rewrite Hr by auto. discriminate.
  Qed.
  Lemma good_seq a b : good_action a -> good_action b -> good_action (seq a b).
  Proof.
    intros Ha Hb st st' r H. apply seq_spec in H as [(s & H1 & H2)|[H1 H2]].
    - apply Ha in H1 as [H1 _]. apply Hb in H2 as [H2 Hr]. split; auto. eapply star_trans; eauto.
    - now apply Ha in H1.
  Qed.
  Lemma good_send name args kw : good_action (send env name args kw).
  Proof. intros st st' r H. apply send_star in H as [H Hr]. split; auto using ostar. Qed.
  Lemma chan_on_close_good o : good_action (chan_on_close env o).
  Proof.
    intros st st' r. unfold chan_on_close. destruct (nth_error (st_heap st) o) as [c|] eqn:E; [|apply good_skip].
    destruct (ch_closed c) eqn:Ec; [apply good_skip|]. pose proof (mi_close st o c E Ec) as Hm.
    destruct (ch_close_cb c) as [k|] eqn:Ek.
    - intros H. apply guard_spec in H as (r' & H & Hr). apply callback_star in H as [H H'].
      split; [econstructor; [exact Hm|now apply ostar]|]. rewrite Hr by auto. discriminate.
    - intros [= <- <-]. split; [now apply star_one|discriminate].
  Qed.
  Lemma chan_on_data_good o d : good_action (chan_on_data env o d).
  Proof.
    intros st st' r. unfold chan_on_data. destruct (nth_error (st_heap st) o) as [c|] eqn:E; [|apply good_skip].
    destruct (ch_closed c) eqn:Ec; [apply good_skip|]. destruct (ch_data_cb c) as [k|] eqn:Ek.
    - apply cb_star. eapply mi_data; eauto.
    - intros [= <- <-]. split; [eapply star_one, mi_buf; eauto|discriminate].
  Qed.
  Lemma chan_on_control_good o d : good_action (chan_on_control env o d).
  Proof.
    intros st st' r. unfold chan_on_control. destruct (nth_error (st_heap st) o) as [c|] eqn:E; [|apply good_skip].
    destruct (ch_closed c) eqn:Ec; [apply good_skip|]. destruct (ch_ctl_cb c) as [k|] eqn:Ek.
    - apply cb_star. eapply mi_ctl; eauto.
    - apply good_skip.
  Qed.
  Lemma sync_good : good_action (sync_identity env).
  Proof.
    intros st st' r [= <- <-]. split; [|apply ret_exn_no_hang]. apply star_one, mi_ext. exact I.
  Qed.
  Lemma run_cmd_good cmd res ks : good_action (run_cmd_cbs env cmd res ks).
  Proof.
    induction ks as [|k ks IH]; cbn [run_cmd_cbs]; [apply good_skip|]. apply good_seq; auto. apply good_guard.
    intros st st' r. apply cb_star. apply mi_cmd.
  Qed.
  Lemma command_callback_good cmd v : good_action (command_callback env cmd v).
  Proof.
    intros st st' r. unfold command_callback. destruct (dict_get _ _ _) as [ks|]; [|apply good_skip].
    revert st st' r. apply good_seq; [apply run_cmd_good|]. intros st st' r [= <- <-]. split; [apply star_one, mi_cbs|discriminate].
  Qed.
  Lemma clear_good l : good_action (clear_callbacks_over env l).
  Proof. induction l as [|[cmd ks] l IH]; cbn; [apply good_skip|]. apply good_seq; auto using run_cmd_good. Qed.
  Lemma close_all_good size l : good_action (close_all env size l).
  Proof.
    induction l as [|[n o] l IH]; cbn; [apply good_skip|]. apply good_seq; [apply chan_on_close_good|].
    intros st st' r. destruct (_ =? _); [apply IH|]. intros [= <- <-]. split; [constructor|discriminate].
  Qed.

  Lemma run_handler_good h args : good_action (run_handler env error_text h args).
  Proof.
    assert (EX : forall e, good_action (fun st => (st, Raise e))) by (intros e st st' r [= <- <-]; split; [constructor|discriminate]).
    intros st st' r.
    destruct h; cbn [run_handler]; destruct args as [|a1 args]; try apply EX; try apply good_skip.
    - destruct a1, args; try apply EX. destruct (st_closed st); [apply good_skip|]. intros H. apply sync_good in H as [H Hr].
      split; auto. econstructor; [apply mi_ident|exact H].
    - destruct a1, args; try apply EX. apply good_send.
    - destruct a1, args; try apply EX; apply good_skip.
    - destruct args as [|[] [|]]; try apply EX. destruct (as_int a1) as [n|]; [|apply EX].
      pose proof (get_channel_star n st) as G. destruct (get_channel n st) as [o s]. intros H.
      apply chan_on_data_good in H as [H Hr]. split; auto. eapply star_trans; [apply ostar, G|exact H].
    - destruct args as [|[] [|]]; try apply EX. destruct (as_int a1) as [n|]; [|apply EX].
      pose proof (get_channel_star n st) as G. destruct (get_channel n st) as [o s]. intros H.
      apply chan_on_control_good in H as [H Hr]. split; auto. eapply star_trans; [apply ostar, G|exact H].
    - destruct args; try apply EX. destruct (as_int a1) as [n|]; [|apply EX]. intros [= <- <-].
      split; [apply ostar, get_channel_star|discriminate].
    - destruct args; try apply EX. destruct (as_int a1) as [n|]; [|apply EX]. destruct (dict_get _ _ _) as [o|]; [|apply good_skip].
      revert st st' r. apply good_seq; [apply chan_on_close_good|]. intros st st' r [= <- <-]. split; [apply star_one, mi_del|discriminate].
    - destruct args; try apply EX. intros [= <- <-]. split; [apply star_one, mi_user|discriminate].
    - destruct args as [|v [|]]; try apply EX. destruct (as_int a1) as [n|]; [|apply EX]. apply command_callback_good.
    - destruct args as [|v [|]]; try apply EX. revert st st' r. apply good_guard. intros st st' r. apply cb_ext. exact I.
    - destruct args as [|v [|]]; try apply EX. apply cb_ext. exact I.
    - destruct args; try apply EX. apply cb_ext. exact I.
    - destruct args as [|v [|w [|]]]; try apply EX. apply cb_ext. exact I.
    - destruct (callback env RdScan st) as [s x] eqn:E. apply cb_ext in E as [E Er]; [|exact I].
      destruct x as [[]|e|]; [| |congruence].
      + intros [= <- <-]. split; auto.
      + intros H. apply good_send in H as [H Hr]. split; auto. eapply star_trans; eauto.
    - destruct args as [|a2 [|a3 [|a4 [|a5 [|a6 [|]]]]]]; try apply EX. apply cb_ext. exact I.
  Qed.
  Lemma on_binary_eq m st : exists r, on_binary env error_text m st =
    match meaning m with Some (h, args) => run_handler env error_text h args st | None => (st, r) end
    /\ (r = Hang <-> stuck m).
  Proof.
    unfold on_binary, meaning. destruct (decode m) as [v|e|] eqn:Ed.
    - assert (Hns : ~ stuck m) by (intros H; apply decode_stuck in H; congruence).
      unfold on_packet. destruct (split_packet v) as [[t body]|]; [|exists (Ok tt); split; auto; split; [discriminate|tauto]].
      destruct (resolve t body) as [[[h args]|]|e|] eqn:E.
      + exists (Ok tt). split; auto; split; [discriminate|tauto].
      + exists (Ok tt). split; auto; split; [discriminate|tauto].
      + exists (Raise e). split; auto; split; [discriminate|tauto].
      + exfalso. eapply resolve_no_hang; eauto.
    - exists (Ok tt). split; auto. split; [discriminate|]. intros H. apply decode_stuck in H. congruence.
    - exists Hang. split; auto. split; auto. intros _. now apply decode_stuck.
  Qed.
  Lemma on_event_spec e st st' r : on_event env error_text e st = (st', r) ->
    star micro st st' /\ (r = Hang <-> exists m, e = EvBinary m /\ stuck m).
  Proof.
    assert (NB : forall a, good_action a -> (forall m, e <> EvBinary m) -> a st = (st', r) ->
       star micro st st' /\ (r = Hang <-> exists m, e = EvBinary m /\ stuck m)).
    { intros a Ha Hn H. apply Ha in H as [H Hr]. split; auto. split; [tauto|]. intros (m & Hm & _). destruct (Hn m Hm). }
    destruct e as [| |m| |]; cbn [on_event].
    - unfold on_ready. destruct (st_ident st); (apply NB; [apply good_send|discriminate]).
    - apply (NB (on_disconnected env)); [|discriminate]. intros s s' r' H. unfold on_disconnected in H.
      assert (G : good_action (seq (clear_callbacks env) (hard_close_channels env))).
      { apply good_seq; intros ? ? ?; [apply clear_good|apply close_all_good]. }
      apply G in H as [H Hr]. split; auto. econstructor; [apply mi_ident|exact H].
    - destruct (on_binary_eq m st) as (x & E & Hx). rewrite E. destruct (meaning m) as [[h args]|] eqn:Em.
      + intros H. apply run_handler_good in H as [H Hr]. split; auto. split; [tauto|]. intros (m' & [= <-] & Hs).
        apply decode_stuck in Hs. unfold meaning in Em. rewrite Hs in Em. discriminate.
      + intros [= <- <-]. split; [constructor|]. rewrite Hx. split; [intros H; exists m; auto|]. intros (m' & [= <-] & H). auto.
    - apply NB; [apply sync_good|discriminate].
    - apply NB; [apply good_skip|discriminate].
  Qed.
  Lemma step_spec i st st' r : step env error_text i st = (st', r) ->
    star micro st st' /\ (forall e, r <> Raise e) /\ (r = Hang <-> exists m, i = InEvent (EvBinary m) /\ stuck m).
  Proof.
    destruct i as [e|p|cmd k|]; cbn [step].
    - intros H. unfold guard in H. destruct (on_event env error_text e st) as [s x] eqn:E.
      apply on_event_spec in E as [Hm Hx].
      assert (s = st' /\ (forall e, r <> Raise e) /\ (r = Hang <-> x = Hang)) as (-> & Hr & Hh).
      { destruct x as [[]|e'|]; injection H as <- <-; repeat split; auto; discriminate. }
      split; [|split]; auto. rewrite Hh, Hx. split; intros (m & Hm' & Hs); exists m; split; auto; congruence.
    - intros H. unfold guard in H. destruct (do_op env p st) as [s x] eqn:E. apply do_op_star in E as [Hm Hx].
      destruct x as [[]|e'|]; [| |congruence]; injection H as <- <-; (split; [now apply ostar|]); (split; [discriminate|]);
        split; [discriminate|intros (m & Hm' & _); discriminate|discriminate|intros (m & Hm' & _); discriminate].
    - intros [= <- <-]. split; [apply star_one, mi_cbs|]. split; [discriminate|]. split; [discriminate|intros (m & Hm' & _); discriminate].
    - unfold extern. destruct (ret_exn _) as [[]|e|] eqn:E.
      + intros [= <- <-]. split; [|split; [discriminate|split; [discriminate|intros (m & Hm' & _); discriminate]]].
        apply (star_step _ _ (emit WsClose st)); [apply mi_ext; exact I|]. econstructor; [apply mi_closed|]. apply star_one, mi_ident.
      + intros [= <- <-]. split; [|split; [discriminate|split; [discriminate|intros (m & Hm' & _); discriminate]]].
        apply star_one, mi_ext; exact I.
      + exfalso. eapply ret_exn_no_hang; eauto.
  Qed.
  Lemma run_star l : forall st st', run env error_text l st = Some st' -> star micro st st'.
  Proof.
    induction l as [|i l IH]; cbn [run]; intros st st'; [intros [= <-]; constructor|].
    destruct (step env error_text i st) as [s r] eqn:E. apply step_spec in E as [E _].
    destruct r; try discriminate; intros H; apply IH in H; eapply star_trans; eauto.
  Qed.
End Client.

(** ** Invariants *)
Lemma nth_upd {A} (f : A -> A) l : forall o i, nth_error (upd o f l) i =
  if Nat.eqb o i then option_map f (nth_error l i) else nth_error l i.
Proof.
  induction l as [|x l IH]; intros [|o] [|i]; cbn; auto.
  now destruct (o =? i).
Qed.
Lemma length_upd {A} (f : A -> A) l : forall o, length (upd o f l) = length l.
Proof. induction l as [|x l IH]; intros [|o]; cbn; auto. Qed.

(** Each registered number leads to an object with that number. *)
Definition numbered (st : state) : Prop :=
  NoDup (map fst (st_chans st)) /\
  forall n o, dict_get Z.eqb n (st_chans st) = Some o -> exists c, nth_error (st_heap st) o = Some c /\ ch_no c = n.
Lemma numbered_heap st h : numbered st ->
  (forall o c, nth_error (st_heap st) o = Some c -> exists c', nth_error h o = Some c' /\ ch_no c' = ch_no c) ->
  numbered (with_heap h st).
Proof.
  intros [Hn H] Hh. split; auto. cbn. intros n o Ho. destruct (H _ _ Ho) as (c & Hc & <-). apply Hh; auto.
Qed.
Lemma upd_no o f st : (forall c, ch_no (f c) = ch_no c) ->
  forall o' c, nth_error (st_heap st) o' = Some c -> exists c', nth_error (upd o f (st_heap st)) o' = Some c' /\ ch_no c' = ch_no c.
Proof. intros Hf o' c Hc. rewrite nth_upd, Hc. destruct (o =? o'); cbn; eauto. Qed.
Lemma chan_read_no count c d c' : chan_read count c = (d, c') -> ch_no c' = ch_no c /\ ch_closed c' = ch_closed c /\
   ch_data_cb c' = ch_data_cb c /\ ch_close_cb c' = ch_close_cb c /\ ch_ctl_cb c' = ch_ctl_cb c.
Proof. unfold chan_read. destruct (read_loop _ _). intros [= _ <-]. auto 6. Qed.
Lemma numbered_emit e st : numbered st -> numbered (emit e st).
Proof. intros H; exact H. Qed.

Lemma numbered_omicro st st' : omicro st st' -> numbered st -> numbered st'.
Proof.
  intros H Hn. destruct H as [st b|st n Hg|st o count c d c' Hc Hr|st o d x t].
  - exact Hn.
  - destruct Hn as [Hnd Hn]. split.
    + cbn. apply set_nodup; auto. apply Z.eqb_spec.
    + cbn. intros m o. rewrite (get_set _ Z.eqb_spec). destruct (Z.eqb_spec n m) as [->|].
      * intros [= <-]. exists (new_chan m). split; auto. apply nth_error_app_new.
      * intros Ho. destruct (Hn _ _ Ho) as (c & Hc & <-). exists c. split; auto. now apply nth_error_app_old.
  - apply numbered_emit, numbered_heap; auto. intros o' c0 Hc0. rewrite nth_upd, Hc0.
    destruct (Nat.eqb_spec o o') as [->|]; cbn; eauto. exists c'. split; auto. apply chan_read_no in Hr. destruct Hr as [-> _]. congruence.
  - apply numbered_heap; auto. apply upd_no. reflexivity.
Qed.
Lemma numbered_micro st st' : micro st st' -> numbered st -> numbered st'.
Proof.
  intros H Hn. destruct H; auto.
  - eapply numbered_omicro; eauto.
  - assert (G : numbered (upd_chan o chan_shut st)) by (apply numbered_heap; auto; apply upd_no; reflexivity).
    destruct (ch_close_cb c); auto.
  - apply numbered_emit, numbered_heap; auto. apply upd_no. reflexivity.
  - destruct Hn as [Hnd Hn]. split; [cbn; now apply del_nodup|]. cbn. intros m o.
    rewrite (get_del _ Z.eqb_spec) by auto. destruct (n =? m)%Z; [discriminate|]. apply Hn.
Qed.
Lemma numbered_star st st' : star micro st st' -> numbered st -> numbered st'.
Proof. intros H. eapply star_inv; [apply numbered_micro|exact H]. Qed.
Lemma numbered_init u : numbered (init_state u).
Proof. split; [constructor|]. cbn. discriminate. Qed.

(** ** What operations leave alone *)
Definition quiet (e : effect) : Prop := match e with Sent _ | ReadRet _ _ _ => True | _ => False end.
Record oext (st st' : state) : Prop := {
  oe_ident : st_ident st' = st_ident st;
  oe_closed : st_closed st' = st_closed st;
  oe_cbs : st_cbs st' = st_cbs st;
  oe_user : st_user st' = st_user st;
  oe_trace : exists new, st_trace st' = new ++ st_trace st /\ Forall quiet new;
  oe_heap : forall o c, nth_error (st_heap st) o = Some c ->
      exists c', nth_error (st_heap st') o = Some c' /\ ch_no c' = ch_no c /\ ch_closed c' = ch_closed c;
  oe_chans : forall n o, dict_get Z.eqb n (st_chans st) = Some o -> dict_get Z.eqb n (st_chans st') = Some o }.
Lemma oext_refl st : oext st st.
Proof. constructor; auto; [exists []; auto|eauto]. Qed.
Lemma oext_trans a b c : oext a b -> oext b c -> oext a c.
Proof.
  intros [A1 A2 A3 A4 (n1 & A5 & A5') A6 A7] [B1 B2 B3 B4 (n2 & B5 & B5') B6 B7]. constructor; try congruence; auto.
  - exists (n2 ++ n1). rewrite B5, A5, app_assoc. split; auto. now apply Forall_app.
  - intros o x Hx. destruct (A6 _ _ Hx) as (y & Hy & E1 & E2). destruct (B6 _ _ Hy) as (z & Hz & E3 & E4). exists z. repeat split; congruence.
Qed.
Lemma omicro_oext st st' : omicro st st' -> oext st st'.
Proof.
  intros H. destruct H as [st b|st n Hg|st o count c d c' Hc Hr|st o d x t]; constructor; cbn; auto; try (exists []; now auto).
  - exists [Sent b]. split; auto. constructor; [exact I|constructor].
  - eauto.
  - intros o c Hc. exists c. split; auto. now apply nth_error_app_old.
  - intros m o Ho. rewrite (get_set_neq _ Z.eqb_spec); auto. intros ->. congruence.
  - exists [ReadRet o count d]. split; auto. constructor; [exact I|constructor].
  - intros o' c0 Hc0. rewrite nth_upd, Hc0. destruct (Nat.eqb_spec o o') as [->|]; cbn; eauto.
    exists c'. split; auto. apply chan_read_no in Hr as (-> & -> & _). split; congruence.
  - intros o' c Hc. rewrite nth_upd, Hc. destruct (o =? o'); cbn; eauto.
Qed.
Lemma star_oext st st' : star omicro st st' -> oext st st'.
Proof. induction 1; [apply oext_refl|]. eapply oext_trans; [apply omicro_oext; eauto|auto]. Qed.
