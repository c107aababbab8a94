From Verif Require Import Py Py_lemmas Dict_lemmas Model_Bencode Spec_Bencode Proof_Bencode Model_Packets
  Spec_Packets Proof_Packets Model_Client Spec_Client Proof_Client Proof_Client2 Proof_Client3 Proof_Client4.

(** ** Messages with a non-integer argument are lists *)
Lemma typed_nobool args ts : Forall parsed args -> Forall2 typed args ts -> Forall (fun v => forall b, v <> VBool b) args.
Proof. intros H _. eapply Forall_impl; [|exact H]. intros v Hv b ->. inversion Hv. Qed.
Lemma meaning_carries m h args : meaning m = Some (h, args) -> (exists a, In a (handler_types h) /\ a <> AInt) ->
  exists t, In (t, h) handler_table /\ carries m t args /\ Forall2 typed args (handler_types h) /\ Forall (fun v => forall b, v <> VBool b) args.
Proof.
  intros H (a & Ha & Hn). apply meaning_spec in H as (t & body & Hann & Ht & E & HF). exists t.
  assert (Hp : Forall parsed args).
  { rewrite E. apply Forall_forall. intros v Hv. pose proof (announces_parsed _ _ _ Hann) as G. rewrite Forall_forall in G. apply G.
    rewrite <- (firstn_skipn (length (handler_types h)) body). apply in_or_app. now left. }
  split; auto. split; [|split; [auto|eapply typed_nobool; eauto]]. inversion Hann as [t' body' Hd Hin|x r Hd Hin]; subst t body.
  - exists (skipn (length (handler_types h)) body'). rewrite E, firstn_skipn. exact Hd.
  - exfalso. apply In_nth_error in Ha as [i Hi].
    assert (Hv : exists v, nth_error args i = Some v /\ typed v a).
    { clear -HF Hi. revert i Hi. induction HF as [|v t vs ts Hv HF IH]; intros [|i]; cbn; try discriminate; [intros [= ->]; eauto|auto]. }
    destruct Hv as (v & Hv & Hty). apply nth_error_In in Hv. rewrite E in Hv.
    assert (In v (map (fun y => VInt (Z.of_N (Byte.to_N y))) r)).
    { rewrite <- (firstn_skipn (length (handler_types h))). apply in_or_app. now left. }
    apply in_map_iff in H as (y & <- & _). inversion Hty; subst. tauto.
Qed.
Lemma table_route t : In (t, HRoute) handler_table -> t = 6%Z.
Proof. cbn. intuition congruence. Qed.
Lemma table_setid t : In (t, HSetIdentity) handler_table -> t = 9%Z.
Proof. cbn. intuition congruence. Qed.
Lemma meaning_route m args : meaning m = Some (HRoute, args) -> exists n d, args = [VInt n; VBytes d] /\ is_route m n d.
Proof.
  intros H. destruct (meaning_carries m HRoute args H) as (t & Ht & Hc & HF & Hb); [exists ABytes; cbn; split; [auto|discriminate]|].
  apply table_route in Ht. subst t. cbn in HF. inversion HF as [|v1 ? vs1 ? T1 HF1]; subst. inversion HF1 as [|v2 ? vs2 ? T2 HF2]; subst.
  inversion HF2; subst. inversion T2; subst. inversion Hb as [|? ? Hb1 _]; subst. inversion T1; subst; [|destruct (Hb1 b0); auto].
  exists z, b. auto.
Qed.
Lemma meaning_setid m args : meaning m = Some (HSetIdentity, args) -> exists i, args = [VBytes i] /\ is_set_identity m i.
Proof.
  intros H. destruct (meaning_carries m HSetIdentity args H) as (t & Ht & Hc & HF & Hb); [exists ABytes; cbn; split; [auto|discriminate]|].
  apply table_setid in Ht. subst t. cbn in HF. inversion HF as [|v1 ? vs1 ? T1 HF1]; subst. inversion HF1; subst. inversion T1; subst. eauto.
Qed.
Lemma in_table t h : dict_get Z.eqb t handler_table = Some h -> In (t, h) handler_table.
Proof. apply table_get. Qed.
Lemma route_meaning m n d : is_route m n d -> meaning m = Some (HRoute, [VInt n; VBytes d]).
Proof. intros H. eapply meaning_intro; [exact H|now apply in_table|repeat constructor]. Qed.
Lemma open_meaning m n : is_open m n -> meaning m = Some (HNotifyOpen, [VInt n]).
Proof. intros H. eapply meaning_intro; [exact H|now apply in_table|repeat constructor]. Qed.
Lemma close_meaning m n : is_notify_close m n -> meaning m = Some (HNotifyClose, [VInt n]).
Proof. intros H. eapply meaning_intro; [exact H|now apply in_table|repeat constructor]. Qed.
Lemma ping_meaning m d : is_ping m d -> meaning m = Some (HPing, [VBytes d]).
Proof. intros H. eapply meaning_intro; [exact H|now apply in_table|repeat constructor]. Qed.
Lemma setid_meaning m i : is_set_identity m i -> meaning m = Some (HSetIdentity, [VBytes i]).
Proof. intros H. eapply meaning_intro; [exact H|now apply in_table|repeat constructor]. Qed.
Lemma response_meaning m cmd d : is_response m cmd d -> meaning m = Some (HResponse, [VInt cmd; VDict d]).
Proof. intros H. eapply meaning_intro; [exact H|now apply in_table|repeat constructor]. Qed.
Lemma route_of_some i n d : route_of i = Some (n, d) -> exists m, i = InEvent (EvBinary m) /\ is_route m n d.
Proof.
  destruct i as [[| |m| |]| | |]; cbn; try discriminate.
  destruct (decode m) as [v|e|] eqn:E; try discriminate. destruct v as [| | | | | |l| |]; try discriminate.
  destruct l as [|[| |z| | | | | |] l]; try discriminate. destruct l as [|[| |n'| | | | | |] l]; try discriminate.
  destruct l as [|[b| | | | | | | |] rest]; try discriminate. destruct (Z.eqb_spec z 6) as [->|]; [|discriminate].
  intros [= -> ->]. exists m. split; auto. exists rest. exact E.
Qed.
Lemma is_route_of m n d : is_route m n d -> route_of (InEvent (EvBinary m)) = Some (n, d).
Proof. intros [rest H]. cbn. now rewrite H. Qed.
Lemma set_of_spec m i : set_of m = Some i <-> is_set_identity m i.
Proof.
  unfold set_of. split.
  - destruct (decode m) as [v|e|] eqn:E; try discriminate. destruct v as [| | | | | |l| |]; try discriminate.
    destruct l as [|[| |z| | | | | |] l]; try discriminate. destruct l as [|[b| | | | | | | |] rest]; try discriminate.
    destruct (Z.eqb_spec z 9) as [->|]; [|discriminate]. intros [= ->]. exists rest. exact E.
  - intros [rest H]. cbn. now rewrite H.
Qed.

(** ** What any step may emit *)
Definition may_in (i : input) (e : effect) : Prop :=
  match i with
  | InEvent EvReady | InOp _ => quiet e
  | InEvent EvDisconnected => quiet e \/ (exists k o, e = CloseCb k o) \/ (exists k cmd, e = CmdCb k cmd None)
  | InEvent (EvBinary m) => match meaning m with Some (h, _) => may h e | None => False end
  | InEvent EvPoll => exists i, e = SetIdent i
  | InClose => e = WsClose
  | InEvent EvOther | InAddCb _ _ => False
  end.
Definition grows (P : effect -> Prop) (st st' : state) : Prop := exists new, st_trace st' = new ++ st_trace st /\ Forall P new.
Lemma grows_refl P st st' : st_trace st' = st_trace st -> grows P st st'.
Proof. exists []. auto. Qed.
Lemma grows_trans P a b c : grows P a b -> grows P b c -> grows P a c.
Proof. intros (x & Hx & Fx) (y & Hy & Fy). exists (y ++ x). rewrite Hy, Hx, app_assoc. split; auto. now apply Forall_app. Qed.
Lemma grows_one (P : effect -> Prop) e st : P e -> grows P st (emit e st).
Proof. exists [e]. auto. Qed.
Lemma ext_grows P st st' : ext P st st' -> grows P st st'.
Proof. intros [A1 A2 A3 A4 A5 A6 A7]. exact A4. Qed.
Lemma grows_mono (P Q : effect -> Prop) a b : (forall e, P e -> Q e) -> grows P a b -> grows Q a b.
Proof. intros H (x & Hx & Fx). exists x. split; auto. eapply Forall_impl; eauto. Qed.

(** Identity, closed flag and callbacks untouched. *)
Definition keeps (st st' : state) : Prop := st_ident st' = st_ident st /\ st_closed st' = st_closed st /\ st_cbs st' = st_cbs st.
Lemma keeps_refl st : keeps st st.
Proof. unfold keeps; auto. Qed.
Lemma keeps_trans a b c : keeps a b -> keeps b c -> keeps a c.
Proof. unfold keeps; intuition congruence. Qed.
Lemma ext_keeps P st st' : ext P st st' -> keeps st st'.
Proof. intros [A1 A2 A3 A4 A5 A6 A7]. repeat split; auto. Qed.

Section Client.
  Variable env : list effect -> effect -> list (op * bool) * option exn.
  Variable error_text : list effect -> text.
  Notation step := (step env error_text).
  Notation run := (run env error_text).
  Notation run_handler := (run_handler env error_text).

  (** [Channel.on_close] never raises; the callback runs on the closed object. *)
  Lemma chan_on_close_spec o st s r : chan_on_close env o st = (s, r) -> r = Ok tt /\ exists s0,
    (s0 = st /\ (forall c, nth_error (st_heap st) o = Some c -> ch_closed c = true) \/
     s0 = upd_chan o chan_shut st \/ exists k, s0 = emit (CloseCb k o) (upd_chan o chan_shut st)) /\ ext quiet s0 s.
  Proof.
    unfold chan_on_close. destruct (nth_error (st_heap st) o) as [c|] eqn:E.
    - destruct (ch_closed c) eqn:Ec.
      + intros [= <- <-]. split; auto. exists st. split; [left; split; [auto|congruence]|apply ext_refl].
      + destruct (ch_close_cb c) as [k|].
        * intros H. apply guard_spec in H as (r' & H & Hr). apply callback_star in H as [H Hh]. split; auto.
          exists (emit (CloseCb k o) (upd_chan o chan_shut st)). split; eauto. now apply star_ext.
        * intros [= <- <-]. split; auto. exists (upd_chan o chan_shut st). split; eauto. apply ext_refl.
    - intros [= <- <-]. split; auto. exists st. split; [left; split; [auto|congruence]|apply ext_refl].
  Qed.
  Lemma chan_on_close_grows o st s r : chan_on_close env o st = (s, r) ->
    grows (fun e => quiet e \/ exists k o, e = CloseCb k o) st s /\ keeps st s.
  Proof.
    intros H. apply chan_on_close_spec in H as (_ & s0 & H0 & Hx).
    assert (G : grows (fun e => quiet e \/ exists k o, e = CloseCb k o) s0 s) by (eapply grows_mono; [|apply ext_grows; exact Hx]; auto).
    pose proof (ext_keeps _ _ _ Hx) as K. destruct H0 as [[-> _]|[->|[k ->]]].
    - auto.
    - split; [exact G|exact K].
    - split; [|exact K]. eapply grows_trans; [|exact G]. exists [CloseCb k o]. split; auto. constructor; eauto.
  Qed.

  (** Command callbacks: all run, in order, whatever they raise. *)
  Lemma run_cmd_spec cmd res ks : forall st st' r, run_cmd_cbs env cmd res ks st = (st', r) ->
    r = Ok tt /\ ext (fun e => quiet e \/ exists k, e = CmdCb k cmd res) st st' /\
    exists new, adds st st' new /\ filter is_cmd new = map (fun k => CmdCb k cmd res) ks.
  Proof.
    induction ks as [|k ks IH]; cbn [run_cmd_cbs]; intros st st' r H.
    - injection H as <- <-. split; auto. split; [apply ext_refl|]. exists []. split; auto. unfold adds. now rewrite app_nil_r.
    - assert (G : forall s r', guard (callback env (CmdCb k cmd res)) st = (s, r') -> r' = Ok tt /\ ext quiet (emit (CmdCb k cmd res) st) s).
      { intros s r' Hg. apply guard_spec in Hg as (r2 & Hg & Hr). apply callback_star in Hg as [Hg Hh]. split; auto. now apply star_ext. }
      apply seq_spec in H as [(s & H1 & H2)|[H1 H2]]; [|apply G in H1 as [-> _]; congruence].
      apply G in H1 as [_ H1]. apply IH in H2 as (-> & H2 & new & Hn & Hf). split; auto. split.
      + eapply ext_trans; [apply emit_ext; right; eauto|]. eapply ext_trans; [|exact H2]. eapply ext_mono; [|exact H1]. auto.
      + destruct (ex_trace _ _ _ H1) as (q & Hq & Fq). exists (CmdCb k cmd res :: rev q ++ new). split.
        * unfold adds, history in *. rewrite Hn, Hq. cbn. rewrite rev_app_distr. cbn. now rewrite <- !app_assoc.
        * cbn. rewrite filter_app, Hf. replace (filter is_cmd (rev q)) with (@nil effect); auto.
          symmetry. apply Forall_rev in Fq. clear -Fq. induction Fq as [|e l He F IH]; auto. destruct e; cbn in *; tauto.
  Qed.
  Lemma clear_spec l : forall st st' r, clear_callbacks_over env l st = (st', r) ->
    r = Ok tt /\ ext (fun e => quiet e \/ exists k cmd, e = CmdCb k cmd None) st st' /\
    exists new, adds st st' new /\ filter is_cmd new = flat_map (fun p => map (fun k => CmdCb k (fst p) None) (snd p)) l.
  Proof.
    induction l as [|[cmd ks] l IH]; cbn [clear_callbacks_over]; intros st st' r H.
    - injection H as <- <-. split; auto. split; [apply ext_refl|]. exists []. split; auto. unfold adds. now rewrite app_nil_r.
    - apply seq_spec in H as [(s & H1 & H2)|[H1 H2]]; [|apply run_cmd_spec in H1 as [-> _]; congruence].
      apply run_cmd_spec in H1 as (_ & H1 & n1 & Hn1 & Hf1). apply IH in H2 as (-> & H2 & n2 & Hn2 & Hf2). split; auto. split.
      + eapply ext_trans; [|exact H2]. eapply ext_mono; [|exact H1]. intros e [He|[k He]]; eauto.
      + exists (n1 ++ n2). unfold adds in *. rewrite Hn2, Hn1, app_assoc. split; auto. cbn. now rewrite filter_app, Hf1, Hf2.
  Qed.
  Lemma close_all_grows size l : forall st st' r, close_all env size l st = (st', r) ->
    grows (fun e => quiet e \/ exists k o, e = CloseCb k o) st st' /\ keeps st st'.
  Proof.
    induction l as [|[n o] l IH]; cbn [close_all]; intros st st' r H.
    - injection H as <- <-. split; [now apply grows_refl|apply keeps_refl].
    - apply seq_spec in H as [(s & H1 & H2)|[H1 H2]]; [|now apply chan_on_close_grows in H1].
      apply chan_on_close_grows in H1 as [G1 K1]. destruct (_ =? _).
      + apply IH in H2 as [G2 K2]. split; [eapply grows_trans; eauto|eapply keeps_trans; eauto].
      + injection H2 as <- _. auto.
  Qed.
  Lemma disconnected_spec st st' r : on_disconnected env st = (st', r) ->
    grows (may_in (InEvent EvDisconnected)) st st' /\ st_ident st' = None /\ st_closed st' = st_closed st /\ st_cbs st' = st_cbs st /\
    exists new, adds st st' new /\ filter is_cmd new = flat_map (fun p => map (fun k => CmdCb k (fst p) None) (snd p)) (st_cbs st).
  Proof.
    unfold on_disconnected, clear_callbacks, hard_close_channels. intros H.
    apply seq_spec in H as [(s & H1 & H2)|[H1 H2]]; [|apply clear_spec in H1 as [-> _]; congruence].
    apply clear_spec in H1 as (_ & X & n1 & Hn1 & Hf1). apply close_all_grows in H2 as [G2 (K1 & K2 & K3)].
    destruct (ext_keeps _ _ _ X) as (L1 & L2 & L3). cbn in L1, L2, L3, Hf1.
    split; [|split; [congruence|split; [congruence|split; [congruence|]]]].
    - eapply grows_trans; [|eapply grows_mono; [|exact G2]].
      + eapply grows_mono; [|apply (ext_grows _ _ _ X)]. cbn. tauto.
      + cbn. tauto.
    - destruct G2 as (q & Hq & Fq). exists (n1 ++ rev q). split.
      + unfold adds, history in *. rewrite Hq, rev_app_distr, Hn1. cbn. now rewrite app_assoc.
      + rewrite filter_app, Hf1. replace (filter is_cmd (rev q)) with (@nil effect); [now rewrite app_nil_r|].
        symmetry. apply Forall_rev in Fq. clear -Fq. induction Fq as [|e l He F IH]; auto.
        destruct He as [He|(k & o & ->)]; auto. destruct e; cbn in *; tauto.
  Qed.

  Lemma handler_grows h args st st' r : run_handler h args st = (st', r) -> grows (may h) st st'.
  Proof.
    intros H. destruct h; try (eapply ext_grows, mild_ext; [|exact H]; exact I); revert H; cbn [Model_Client.run_handler].
    - destruct args as [|[] [|]]; try (intros [= <- _]; now apply grows_refl). destruct (st_closed st); intros [= <- _]; [now apply grows_refl|].
      exists [SetIdent (Some b)]. split; auto. constructor; [right; exact I|constructor].
    - destruct args as [|a [|]]; try (intros [= <- _]; now apply grows_refl). destruct (as_int a) as [n|]; [|intros [= <- _]; now apply grows_refl].
      destruct (dict_get _ _ _) as [o|]; [|intros [= <- _]; now apply grows_refl]. intros H.
      assert (G : forall s x, chan_on_close env o st = (s, x) -> grows (may HNotifyClose) st s).
      { intros s x Hx. apply chan_on_close_grows in Hx as [Hx _]. eapply grows_mono; [|exact Hx]. intros e [He|(k & o' & ->)]; [now left|right; exact I]. }
      apply seq_spec in H as [(s & H1 & H2)|[H1 H2]]; [|eauto]. injection H2 as <- _. destruct (G _ _ H1) as (q & Hq & Fq). exists q. auto.
    - destruct args as [|a [|]]; intros [= <- _]; now apply grows_refl.
    - destruct args as [|a [|v [|]]]; try (intros [= <- _]; now apply grows_refl). destruct (as_int a) as [n|]; [|intros [= <- _]; now apply grows_refl].
      unfold command_callback. destruct (dict_get _ _ _) as [ks|]; [|intros [= <- _]; now apply grows_refl]. intros H.
      apply seq_spec in H as [(s & H1 & H2)|[H1 H2]]; [|apply run_cmd_spec in H1 as [-> _]; congruence].
      apply run_cmd_spec in H1 as (_ & X & _). injection H2 as <- _. apply ext_grows in X as (q & Hq & Fq). exists q. split; auto.
      eapply Forall_impl; [|exact Fq]. intros e [He|(k & ->)]; [now left|right; exact I].
  Qed.
  Lemma step_grows i st st' r : step i st = (st', r) -> grows (may_in i) st st'.
  Proof.
    destruct i as [[| |m| |]|p|cmd k|].
    - cbn [Model_Client.step on_event]. intros H. apply guard_spec in H as (r' & H & _). unfold on_ready in H.
      destruct (st_ident st); apply send_star in H as [H _]; apply ext_grows, (star_ext _ _ H).
    - cbn [Model_Client.step on_event]. intros H. apply guard_spec in H as (r' & H & _). now apply disconnected_spec in H.
    - intros H. apply step_binary in H. apply (grows_mono (fun e => match meaning m with Some (h, _) => may h e | None => False end)); [auto|].
      destruct (meaning m) as [[h args]|]; [|subst; now apply grows_refl].
      destruct H as [r' H]. eapply grows_mono; [|eapply handler_grows; exact H]. auto.
    - cbn [Model_Client.step on_event]. intros H. apply guard_spec in H as (r' & H & _). injection H as <- _. apply grows_one. cbn. eauto.
    - intros [= <- _]. now apply grows_refl.
    - cbn [Model_Client.step]. intros H. apply guard_spec in H as (r' & H & _). apply do_op_star in H as [H _]. apply ext_grows, (star_ext _ _ H).
    - intros [= <- _]. now apply grows_refl.
    - cbn [Model_Client.step]. unfold extern. destruct (ret_exn _); intros [= <- _]; exists [WsClose]; split; auto; repeat constructor.
  Qed.

  (** ** Delivery (C21) *)
  Lemma no_delivery_step i st st' r : step i st = (st', r) -> route_of i = None ->
    exists new, adds st st' new /\ deliveries new = [].
  Proof.
    intros H Hr. apply step_grows in H as (q & Hq & Fq). exists (rev q). split; [now apply adds_trace|]. apply deliveries_none, Forall_rev.
    eapply Forall_impl; [|exact Fq]. intros e He.
    assert (Q : quiet e -> delivery e = None) by (destruct e; cbn; tauto).
    destruct i as [[| |m| |]|p|cmd k|]; cbn [may_in] in He; auto; try tauto.
    - destruct He as [He|[(k & o & ->)|(k & cmd & ->)]]; auto.
    - destruct (meaning m) as [[h args]|] eqn:E; [|tauto]. destruct He as [He|He]; auto.
      destruct h; try (destruct e; cbn in *; tauto).
      exfalso. apply meaning_route in E as (n & d & _ & E). rewrite (is_route_of _ _ _ E) in Hr. discriminate.
    - destruct He as [x ->]. reflexivity.
    - subst e. reflexivity.
  Qed.
  Lemma c21_step i n d st st' r : route_of i = Some (n, d) -> numbered st -> step i st = (st', r) ->
    exists new, adds st st' new /\
      match registered st n with
      | Some o => exists c, chan_of st o = Some c /\ ch_no c = n /\ deliveries new = (if ch_closed c then [] else [(o, d)])
      | None => registered st' n = Some (length (st_heap st)) /\ deliveries new = [(length (st_heap st), d)]
      end.
  Proof.
    intros Hi Hn H. apply route_of_some in Hi as (m & -> & Hm). apply step_binary in H. rewrite (route_meaning _ _ _ Hm) in H.
    destruct H as [r' H]. cbn [Model_Client.run_handler as_int] in H.
    assert (D : forall o s c, nth_error (st_heap s) o = Some c -> ch_closed c = false -> chan_on_data env o d s = (st', r') ->
       exists new, adds s st' new /\ deliveries new = [(o, d)] /\ forall k o', registered s k = Some o' -> registered st' k = Some o').
    { intros o s c Hc Hcl Hd. unfold chan_on_data in Hd. rewrite Hc, Hcl in Hd. destruct (ch_data_cb c) as [k|].
      - apply callback_star in Hd as [Hd _]. apply star_oext in Hd. destruct Hd as [_ _ _ _ (q & Hq & Fq) _ A7].
        exists (DataCb k o d :: rev q). split; [|split; [|exact A7]].
        + unfold adds, history. rewrite Hq, rev_app_distr. cbn. now rewrite <- app_assoc.
        + cbn. apply Forall_rev in Fq. now rewrite (quiet_no_delivery _ Fq).
      - injection Hd as <- _. exists [Buffered o d]. split; [reflexivity|]. split; auto. }
    unfold registered. destruct (get_channel_spec n st) as [(o & Hg & E)|[Hg E]]; rewrite E in H; rewrite Hg.
    - destruct (proj2 Hn _ _ Hg) as (c & Hc & Hno). destruct (ch_closed c) eqn:Ecl.
      + unfold chan_on_data in H. rewrite Hc, Ecl in H. injection H as <- _. exists []. split; [unfold adds; now rewrite app_nil_r|].
        exists c. rewrite Ecl. auto.
      + destruct (D o st c Hc Ecl H) as (new & Ha & Hd & _). exists new. split; auto. exists c. rewrite Ecl. auto.
    - destruct (D (length (st_heap st)) (new_state n st) (new_chan n)) as (new & Ha & Hd & Hreg); auto; [cbn; apply nth_error_app_new|].
      exists new. split; [exact Ha|]. split; auto. apply Hreg. unfold registered. cbn. apply (get_set_eq _ Z.eqb_spec).
  Qed.

  (** Numbers of objects never change. *)
  Definition same_numbers (st st' : state) : Prop := forall o c, chan_of st o = Some c -> exists c', chan_of st' o = Some c' /\ ch_no c' = ch_no c.
  Lemma numbers_micro st st' : micro st st' -> same_numbers st st'.
  Proof.
    intros H o c Hc. destruct H; eauto; unfold chan_of in *; cbn in *.
    - apply omicro_oext in H. destruct (oe_heap _ _ H _ _ Hc) as (c' & Hc' & E & _). eauto.
    - assert (G : exists c', nth_error (st_heap (upd_chan o0 chan_shut st)) o = Some c' /\ ch_no c' = ch_no c) by (apply (upd_no o0 chan_shut); auto).
      destruct (ch_close_cb c0); exact G.
    - apply (upd_no o0 (chan_push d)); auto.
  Qed.
  Lemma numbers_star st st' : star micro st st' -> same_numbers st st'.
  Proof.
    induction 1 as [|x y z Hm Hs IH]; [intros o c Hc; eauto|]. intros o c Hc. destruct (numbers_micro _ _ Hm _ _ Hc) as (c1 & Hc1 & E1).
    destruct (IH _ _ Hc1) as (c2 & Hc2 & E2). exists c2. split; congruence.
  Qed.
  (** Everything delivered went to an existing object. *)
  Definition deliverable (st : state) : Prop := Forall (fun x => exists c, chan_of st (fst x) = Some c) (deliveries (history st)).

  Definition select (st : state) (n : Z) (x : nat * bytes) : bool :=
    match chan_of st (fst x) with Some c => Z.eqb (ch_no c) n | None => false end.
  Lemma select_stable st st' n l : same_numbers st st' -> Forall (fun x => exists c, chan_of st (fst x) = Some c) l ->
    filter (select st' n) l = filter (select st n) l.
  Proof.
    intros H. induction 1 as [|x l (c & Hx) Hl IH]; auto. cbn [filter].
    assert (select st' n x = select st n x) as ->; [|now rewrite IH].
    unfold select. rewrite Hx. destruct (H _ _ Hx) as (c' & -> & ->). reflexivity.
  Qed.
End Client.
