From Verif Require Import Py Py_lemmas Dict_lemmas Model_Bencode Spec_Bencode Proof_Bencode Model_Packets
  Spec_Packets Proof_Packets Model_Client Spec_Client Proof_Client Proof_Client2 Proof_Client3.

(** ** Changes that close nothing *)
Record ext (P : effect -> Prop) (st st' : state) : Prop := {
  ex_ident : st_ident st' = st_ident st;
  ex_closed : st_closed st' = st_closed st;
  ex_cbs : st_cbs st' = st_cbs st;
  ex_trace : exists new, st_trace st' = new ++ st_trace st /\ Forall P new;
  ex_heap : forall o c, nth_error (st_heap st) o = Some c ->
      exists c', nth_error (st_heap st') o = Some c' /\ ch_no c' = ch_no c /\ ch_closed c' = ch_closed c;
  ex_old : forall n o, registered st n = Some o -> registered st' n = Some o;
  ex_new : forall n o, registered st n = None -> registered st' n = Some o ->
      exists c, nth_error (st_heap st') o = Some c /\ ch_closed c = false }.
Lemma ext_refl P st : ext P st st.
Proof. constructor; auto; [exists []; auto|eauto|congruence]. Qed.
Lemma ext_trans P a b c : ext P a b -> ext P b c -> ext P a c.
Proof.
  intros [A1 A2 A3 (n1 & A5 & A5') A6 A7 A8] [B1 B2 B3 (n2 & B5 & B5') B6 B7 B8]. constructor; try congruence; auto.
  - exists (n2 ++ n1). rewrite B5, A5, app_assoc. split; auto. now apply Forall_app.
  - intros o x Hx. destruct (A6 _ _ Hx) as (y & Hy & E1 & E2). destruct (B6 _ _ Hy) as (z & Hz & E3 & E4). exists z. repeat split; congruence.
  - intros n o Hn Ho. destruct (registered b n) as [o'|] eqn:E; [|eauto].
    destruct (A8 _ _ Hn E) as (x & Hx & Hc). pose proof (B7 _ _ E). assert (o' = o) as -> by congruence.
    destruct (B6 _ _ Hx) as (y & Hy & _ & E2). exists y. split; congruence.
Qed.
Lemma ext_mono (P Q : effect -> Prop) a b : (forall e, P e -> Q e) -> ext P a b -> ext Q a b.
Proof.
  intros H [A1 A2 A3 (n1 & A5 & A5') A6 A7 A8]. constructor; auto. exists n1. split; auto. eapply Forall_impl; eauto.
Qed.
Lemma omicro_ext st st' : omicro st st' -> ext quiet st st'.
Proof.
  intros H. destruct (omicro_oext _ _ H) as [A1 A2 A3 A4 A5 A6 A7]. constructor; auto.
  intros n o Hn Ho. destruct H as [st b|st n' Hg|st o' count c d c' Hc Hr|st o' d x t]; unfold registered in *; cbn in *; try congruence.
  rewrite (get_set _ Z.eqb_spec) in Ho. destruct (n' =? n)%Z; [|congruence]. injection Ho as <-. exists (new_chan n').
  split; auto. apply nth_error_app_new.
Qed.
Lemma star_ext st st' : star omicro st st' -> ext quiet st st'.
Proof. induction 1; [apply ext_refl|]. eapply ext_trans; [apply omicro_ext; eauto|auto]. Qed.
Lemma emit_ext (P : effect -> Prop) e st : P e -> ext P st (emit e st).
Proof. intros H. constructor; auto; [exists [e]; auto|cbn; eauto|unfold registered; cbn; congruence]. Qed.
Lemma push_ext P o d st : ext P st (upd_chan o (chan_push d) st).
Proof.
  constructor; auto; [exists []; auto| |unfold registered; cbn; congruence].
  intros o' c Hc. cbn. rewrite nth_upd, Hc. destruct (o =? o'); cbn; eauto.
Qed.

Lemma deliveries_app l m : deliveries (l ++ m) = deliveries l ++ deliveries m.
Proof. induction l as [|e l IH]; cbn; auto. destruct (delivery e); cbn; now rewrite IH. Qed.
Lemma deliveries_none l : Forall (fun e => delivery e = None) l -> deliveries l = [].
Proof. induction 1 as [|e l He Hl IH]; cbn; auto. now rewrite He. Qed.
Lemma quiet_no_delivery l : Forall quiet l -> deliveries l = [].
Proof. intros H. apply deliveries_none. eapply Forall_impl; [|exact H]. intros []; cbn; tauto || reflexivity. Qed.
Lemma adds_trace st st' new : st_trace st' = new ++ st_trace st -> adds st st' (rev new).
Proof. intros H. unfold adds, history. now rewrite H, rev_app_distr. Qed.

(** The effects proper to each handler. *)
Definition own (h : handler) (e : effect) : Prop :=
  match h, e with
  | HRoute, (DataCb _ _ _ | Buffered _ _) | HRouteControl, CtlCb _ _ _ | HNotifyClose, CloseCb _ _
  | HResponse, CmdCb _ _ _ | HSetIdentity, SetIdent _ | HInstruction, Instruction _ _
  | HOpenFile, RdOpen _ _ | HCloseFile, RdClose _ | HReadFile, RdRead _ _ _ | HScan, RdScan
  | HWriteFile, RdWrite _ _ _ _ _ _ => True
  | _, _ => False
  end.
Definition may (h : handler) (e : effect) : Prop := quiet e \/ own h e.
(** Handlers that neither unregister nor touch identity, callbacks. *)
Definition mild (h : handler) : Prop :=
  match h with HSetIdentity | HNotifyClose | HResponse | HLoginSuccess => False | _ => True end.

Section Client.
  Variable env : list effect -> effect -> list (op * bool) * option exn.
  Variable error_text : list effect -> text.
  Notation step := (step env error_text).
  Notation run := (run env error_text).
  Notation run_handler := (run_handler env error_text).

  Lemma callback_ext (P : effect -> Prop) e st st' r : (forall x, quiet x -> P x) -> P e ->
    callback env e st = (st', r) -> ext P st st'.
  Proof.
    intros Hq He H. apply callback_star in H as [H _]. apply star_ext in H.
    eapply ext_trans; [apply emit_ext; exact He|]. eapply ext_mono; eauto.
  Qed.
  Lemma send_ext (P : effect -> Prop) name args kw st st' r : (forall x, quiet x -> P x) -> send env name args kw st = (st', r) -> ext P st st'.
  Proof. intros Hq H. apply send_star in H as [H _]. eapply ext_mono; [exact Hq|now apply star_ext]. Qed.
  Lemma get_channel_ext (P : effect -> Prop) n st : (forall x, quiet x -> P x) -> ext P st (snd (get_channel n st)).
  Proof. intros Hq. eapply ext_mono; [exact Hq|]. apply star_ext, get_channel_star. Qed.

  Lemma mild_ext h args st st' r : mild h -> run_handler h args st = (st', r) -> ext (may h) st st'.
  Proof.
    intros Hm. assert (EX : forall x s r', (s, r') = (st', r) -> x = s -> ext (may h) x st').
    { intros x s r' [= -> _] ->. apply ext_refl. }
    assert (Q : forall x, quiet x -> may h x) by (now left).
    destruct h; cbn [Model_Client.run_handler]; try (destruct Hm; fail); destruct args as [|a1 args]; try (intros H; eapply EX; eauto; fail).
    - destruct a1, args; try (intros H; eapply EX; eauto; fail). now apply send_ext.
    - destruct a1, args; intros H; eapply EX; eauto.
    - destruct args as [|[] [|]]; try (intros H; eapply EX; eauto; fail). destruct (as_int a1) as [n|]; [|intros H; eapply EX; eauto].
      pose proof (get_channel_ext (may HRoute) n st Q) as G. destruct (get_channel n st) as [o s]. cbn [snd] in G.
      unfold chan_on_data. intros H. eapply ext_trans; [exact G|]. destruct (nth_error (st_heap s) o) as [c|]; [|eapply EX; eauto].
      destruct (ch_closed c); [eapply EX; eauto|]. destruct (ch_data_cb c) as [k|].
      + eapply callback_ext; eauto. right. exact I.
      + injection H as <- _. eapply ext_trans; [apply push_ext|]. apply emit_ext. right. exact I.
    - destruct args as [|[] [|]]; try (intros H; eapply EX; eauto; fail). destruct (as_int a1) as [n|]; [|intros H; eapply EX; eauto].
      pose proof (get_channel_ext (may HRouteControl) n st Q) as G. destruct (get_channel n st) as [o s]. cbn [snd] in G.
      unfold chan_on_control. intros H. eapply ext_trans; [exact G|]. destruct (nth_error (st_heap s) o) as [c|]; [|eapply EX; eauto].
      destruct (ch_closed c); [eapply EX; eauto|]. destruct (ch_ctl_cb c) as [k|]; [|eapply EX; eauto].
      eapply callback_ext; eauto. right. exact I.
    - destruct args; try (intros H; eapply EX; eauto; fail). destruct (as_int a1) as [n|]; [|intros H; eapply EX; eauto].
      intros [= <- _]. now apply get_channel_ext.
    - destruct args as [|v [|]]; try (intros H; eapply EX; eauto; fail). intros H. apply guard_spec in H as (r' & H & _).
      eapply callback_ext; eauto. right. exact I.
    - destruct args as [|v [|]]; try (intros H; eapply EX; eauto; fail). eapply callback_ext; eauto. right. exact I.
    - destruct args; try (intros H; eapply EX; eauto; fail). eapply callback_ext; eauto. right. exact I.
    - destruct args as [|v [|w [|]]]; try (intros H; eapply EX; eauto; fail). eapply callback_ext; eauto. right. exact I.
    - destruct (callback env RdScan st) as [s x] eqn:E.
      assert (G : ext (may HScan) st s) by (eapply callback_ext; eauto; right; exact I).
      destruct x as [[]|e|]; intros H; [injection H as <- _; auto| |injection H as <- _; auto].
      eapply ext_trans; [exact G|]. eapply send_ext; eauto.
    - destruct args as [|a2 [|a3 [|a4 [|a5 [|a6 [|]]]]]]; try (intros H; eapply EX; eauto; fail). eapply callback_ext; eauto. right. exact I.
  Qed.

  (** ** Messages and steps *)
  Lemma step_binary m st st' r : step (InEvent (EvBinary m)) st = (st', r) ->
    match meaning m with
    | Some (h, args) => exists r', run_handler h args st = (st', r')
    | None => st' = st
    end.
  Proof.
    cbn [Model_Client.step on_event]. intros H. apply guard_spec in H as (r' & H & _).
    destruct (on_binary_eq env error_text m st) as (x & E & _). rewrite E in H. destruct (meaning m) as [[h args]|]; [eauto|congruence].
  Qed.
  Lemma c14_skip m st : unusable m -> step (InEvent (EvBinary m)) st = (st, Ok tt).
  Proof.
    intros [Hs Hu]. cbn [Model_Client.step on_event]. unfold guard.
    destruct (on_binary_eq env error_text m st) as (x & E & Hx). rewrite E.
    assert (meaning m = None) as ->.
    { unfold meaning. destruct (decode m) as [v|e|] eqn:Ed; auto. destruct (split_packet v) as [[t body]|] eqn:Es; auto.
      destruct (resolve_fail t body) as [e ->]; auto. intros p. apply Hu. apply split_announces; eauto. }
    destruct x as [[]|e|]; auto. tauto.
  Qed.
  Lemma run_app l1 : forall l2 st, run (l1 ++ l2) st = match run l1 st with Some s => run l2 s | None => None end.
  Proof.
    induction l1 as [|i l1 IH]; cbn [app Model_Client.run]; intros l2 st; auto. destruct (step i st) as [s [x|e|]]; auto.
  Qed.
  Lemma c14_as_if m l1 l2 st : unusable m -> run (l1 ++ InEvent (EvBinary m) :: l2) st = run (l1 ++ l2) st.
  Proof.
    intros H. rewrite !run_app. destruct (run l1 st) as [s|]; auto. cbn [Model_Client.run]. now rewrite c14_skip.
  Qed.
  Lemma c14_loop l : forall st st' r, receive_loop env error_text l st = (st', r) ->
    (forall e, r <> Raise e) /\ (r = Hang <-> exists m, In (EvBinary m) l /\ stuck m).
  Proof.
    induction l as [|e l IH]; cbn [receive_loop]; intros st st' r H.
    - injection H as <- <-. split; [discriminate|]. split; [discriminate|intros (m & [] & _)].
    - destruct (guard (on_event env error_text e) st) as [s x] eqn:E.
      destruct (step_spec env error_text (InEvent e) st s x E) as (_ & Hr & Hh).
      destruct x as [[]|e'|].
      + destruct (IH _ _ _ H) as [H1 H2]. split; auto. rewrite H2. split; intros (m & Hm & Hs); exists m; split; auto; [now right|].
        destruct Hm as [->|Hm]; auto. exfalso. assert (Ok tt = @Hang unit) by (apply Hh; eauto). discriminate.
      + destruct (Hr e' eq_refl).
      + injection H as <- <-. split; [discriminate|]. split; auto. intros _. destruct (proj1 Hh eq_refl) as (m & Hm & Hs).
        injection Hm as ->. exists m. split; auto. now left.
  Qed.
  Lemma c15 m st st' r : step (InEvent (EvBinary m)) st = (st', r) -> st' <> st -> exists t body, announces m t body.
  Proof.
    intros H Hn. apply step_binary in H. destruct (meaning m) as [[h args]|] eqn:E; [|congruence].
    apply meaning_spec in E as (t & body & Ha & _). eauto.
  Qed.
  Lemma c13_message m t h vs st : carries m t vs -> In (t, h) handler_table -> Forall2 typed vs (handler_types h) ->
    on_binary env error_text m st = run_handler h vs st.
  Proof.
    intros Hc Ht HF. destruct (on_binary_eq env error_text m st) as (x & E & _). now rewrite E, (meaning_intro m t h vs).
  Qed.

  (** ** Sending *)
  Lemma send_exact name args kw p st st' r : create_named name args kw = Ok p -> In (pk_class p) packet_classes -> well_formed p ->
    Forall (fun a => plain (snd a)) (pk_attrs p) -> send env name args kw st = (st', r) ->
    exists b, st' = emit (Sent b) st /\ from_bytes b = Ok p.
  Proof.
    intros Hc Hi Hw Hp H. destruct (sent_understood p Hi Hw Hp) as (b & Hb & Hf). exists b. split; auto.
    unfold send in H. rewrite Hc in H. cbn [bind] in H. rewrite Hb in H. now apply send_bytes_spec in H.
  Qed.
End Client.
