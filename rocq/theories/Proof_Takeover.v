From Verif Require Import Py Py_lemmas Dict_lemmas Model_Bencode Spec_Bencode Model_Packets Model_Limiter Model_Manager Model_Process Model_Client Spec_Client
  Proof_Client Proof_Client2 Proof_Client4 Proof_Client6 Spec_Early Spec_Outbound Proof_Through Proof_Outbound Spec_System
  Model_Relay Spec_Relay Proof_Relay Proof_Relay2 Model_Opening Spec_Opening Proof_Opening Proof_Opening2 Spec_Takeover.
Local Open Scope nat_scope.

(** ** A service whose callbacks are not on the channel object *)
Section Away.
  Variable env : list effect -> effect -> list (op * bool) * option exn.
  Variable error_text : list effect -> text.
  Variables (o kd : nat) (kc : option nat).
  Hypothesis Henv : never_back env o kd kc.
  Notation step := (step env error_text).
  Notation run := (run env error_text).
  Notation told := (told o kd kc).
  Notation fed := (fed o kd kc).

  Definition off (c : chan) : Prop := ch_data_cb c <> Some kd /\ (ch_close_cb c = None \/ ch_close_cb c <> kc).
  Definition away (st : state) : Prop := exists c, chan_of st o = Some c /\ off c.
  Definition ignored (st st' : state) : Prop := away st -> away st' /\ exists new, st_trace st' = new ++ st_trace st /\ fed (rev new) = [].
  Lemma ig_refl st : ignored st st.
  Proof. intros W. split; auto. exists []. auto. Qed.
  Lemma ig_trans a b c : ignored a b -> ignored b c -> ignored a c.
  Proof.
    intros A X W. destruct (A W) as (Wb & n1 & T1 & F1). destruct (X Wb) as (Wc & n2 & T2 & F2). split; auto.
    exists (n2 ++ n1). split; [rewrite T2, T1; apply app_assoc|]. now rewrite rev_app_distr, fed_app, F1, F2.
  Qed.
  Lemma ig_emit e st : told e = [] -> ignored st (emit e st).
  Proof. intros He W. split; [exact W|]. exists [e]. split; [reflexivity|]. cbn. now rewrite He. Qed.
  Lemma ig_rest st st' : st_heap st' = st_heap st -> st_trace st' = st_trace st -> ignored st st'.
  Proof. intros Hh Ht (c & C & O). split; [exists c; unfold chan_of in *; rewrite Hh; auto|]. exists []. auto. Qed.
  Lemma ig_upd o1 f st : (forall c, chan_of st o1 = Some c -> o1 = o -> off c -> off (f c)) -> ignored st (upd_chan o1 f st).
  Proof.
    intros Hf (c & C & O). split; [|exists []; auto]. unfold away, chan_of, upd_chan, with_heap in *. cbn. rewrite nth_upd, C.
    destruct (Nat.eqb_spec o1 o) as [->|]; cbn; eauto.
  Qed.
  Lemma ig_new m st : ignored st (new_state m st).
  Proof. intros (c & C & O). split; [|exists []; auto]. exists c. split; auto. now apply nth_error_app_old. Qed.
  Lemma ig_send name args kw st st' r : send env name args kw st = (st', r) -> ignored st st'.
  Proof.
    unfold send. destruct (p <- create_named name args kw ;; as_bytes p) as [b|e|].
    - intros H. apply send_bytes_spec in H as [-> _]. now apply ig_emit.
    - intros [= <- _]. apply ig_refl.
    - intros [= <- _]. apply ig_refl.
  Qed.
  Lemma ig_op p st st' r : not_back o kd kc p -> do_op env p st = (st', r) -> ignored st st'.
  Proof.
    intros Hk. destruct p as [m|o1 d|o1 j|o1|o1 count|o1 d x t|name args kw]; cbn [do_op].
    - intros [= <- _]. destruct (get_channel_spec m st) as [(o1 & _ & ->)|[H ->]]; cbn; [apply ig_refl|now apply ig_new].
    - unfold chan_write. destruct (nth_error (st_heap st) o1) as [c1|]; [|intros [= <- _]; apply ig_refl].
      destruct (ch_closed c1); [intros [= <- _]; apply ig_refl|apply ig_send].
    - unfold chan_control. destruct (nth_error (st_heap st) o1) as [c1|]; [|intros [= <- _]; apply ig_refl].
      destruct (ch_closed c1); [intros [= <- _]; apply ig_refl|apply ig_send].
    - unfold chan_close. destruct (nth_error (st_heap st) o1) as [c1|]; [|intros [= <- _]; apply ig_refl].
      destruct (ch_closed c1); [intros [= <- _]; apply ig_refl|apply ig_send].
    - destruct (nth_error (st_heap st) o1) as [c1|] eqn:E1; [|intros [= <- _]; apply ig_refl].
      destruct (chan_read count c1) as [d c'] eqn:Er. intros [= <- _]. eapply ig_trans; [|now apply ig_emit].
      unfold chan_read in Er. destruct (read_loop _ _) as [out q] in Er. injection Er as _ <-.
      apply (ig_upd o1 (fun _ => _)). intros c C _ O. unfold chan_of in C. rewrite E1 in C. injection C as ->. exact O.
    - intros [= <- _]. apply ig_upd. intros c _ -> O. destruct (Hk eq_refl) as [K1 K2]. split; auto.
    - apply ig_send.
  Qed.
  Definition heeds (a b : state) : Prop := numbered a -> numbered b /\ ignored a b.
  Lemma heeds_of o1 a b : track o1 0 None a b -> ignored a b -> heeds a b.
  Proof. intros T I N. split; auto. now apply (T N). Qed.
  Lemma heeds_upd o1 f st : (forall c, ch_no (f c) = ch_no c) -> (forall c, chan_of st o1 = Some c -> o1 = o -> off c -> off (f c)) -> heeds st (upd_chan o1 f st).
  Proof. intros Hn Hf. apply (heeds_of (S o1)); [|now apply ig_upd]. apply track_upd; auto. intros E. exfalso. lia. Qed.
  Lemma heeds_emit e st : told e = [] -> heeds st (emit e st).
  Proof. intros He N. split; [exact N|now apply ig_emit]. Qed.
  Lemma heeds_op p st st' r : not_back o kd kc p -> do_op env p st = (st', r) -> heeds st st'.
  Proof.
    intros Hk E. apply (heeds_of (match p with OpSetCbs o1 _ _ _ => S o1 | _ => 0 end)); [|eapply ig_op; eauto].
    eapply track_op; [|exact E]. destruct p; try exact I. cbn. lia.
  Qed.
  Lemma heeds_step i st st' r : match i with InOp p => not_back o kd kc p | _ => True end -> step i st = (st', r) -> heeds st st'.
  Proof.
    intros Hi. apply (step_through env error_text heeds).
    - intros s N. split; [exact N|apply ig_refl].
    - intros a b c A X N. destruct (A N) as [N1 I1]. destruct (X N1) as [N2 I2]. split; auto. eapply ig_trans; eauto.
    - intros s s' H N. now apply H.
    - intros e s He. apply heeds_emit. destruct e; try reflexivity; destruct He.
    - intros o1 c1 s H1 Hcl. unfold shut_state. destruct (ch_close_cb c1) as [k|] eqn:Ek.
      + intros N. assert (N1 : numbered (upd_chan o1 chan_shut s)) by (now apply (heeds_upd o1 chan_shut s)). split; [exact N1|].
        eapply ig_trans; [apply (ig_upd o1 chan_shut); auto|]. intros (c & C & O). split; [exists c; auto|]. exists [CloseCb k o1]. split; [reflexivity|]. cbn.
        destruct (Nat.eqb_spec o1 o) as [->|]; [|reflexivity]. cbn. unfold is_cb. destruct kc as [k'|] eqn:Ekc; [|reflexivity].
        destruct (Nat.eqb_spec k k') as [->|]; [|reflexivity]. exfalso.
        unfold chan_of, upd_chan, with_heap in *. cbn in C. rewrite nth_upd, H1, Nat.eqb_refl in C. injection C as <-.
        destruct O as [_ [O|O]]; cbn in O; congruence.
      + apply heeds_upd; auto.
    - intros o1 c1 k d s H1 Hcl Hk N. split; [exact N|]. intros (c & C & O). split; [exists c; auto|]. exists [DataCb k o1 d]. split; [reflexivity|]. cbn.
      destruct (Nat.eqb_spec o1 o) as [->|]; [|reflexivity]. cbn. destruct (Nat.eqb_spec k kd) as [->|]; [|reflexivity]. exfalso.
      unfold chan_of in *. rewrite H1 in C. injection C as ->. now destruct O.
    - intros o1 c1 d s H1 Hcl Hk N. destruct (heeds_upd o1 (chan_push d) s (fun _ => eq_refl) (fun _ _ _ H => H) N) as [N1 I1].
      split; [exact N1|]. eapply ig_trans; [exact I1|now apply ig_emit].
    - intros o1 c1 k d s _ _. now apply heeds_emit.
    - intros m s Hm. apply (heeds_of 0); [now apply track_new|apply ig_new].
    - intros m o1 s _ _ N. split; [apply (numbered_micro s); [apply mi_del|exact N]|]. now apply ig_rest.
    - intros s s' A1 A2 A3. apply (heeds_of 0); [now apply track_rest|now apply ig_rest].
    - intros name args kw s s' x _ E. apply (heeds_of 0); [eapply track_send; exact E|eapply ig_send; exact E].
    - intros tr e p t s s' x Hin. apply heeds_op. eapply Henv; eauto.
    - destruct i as [e|p|cmd k|]; auto. intros s s' x. now apply heeds_op.
  Qed.
  Lemma ig_run l : forall st st', (forall p, In (InOp p) l -> not_back o kd kc p) -> run l st = Some st' -> heeds st st'.
  Proof.
    induction l as [|i l IH]; intros st st' Hl; [intros [= <-] N; split; [exact N|apply ig_refl]|]. rewrite run_cons. destruct (step i st) as [st1 r] eqn:E.
    assert (H1 : heeds st st1) by (eapply heeds_step; [|exact E]; destruct i; auto; apply Hl; now left).
    destruct r; try discriminate; intros H N; destruct (H1 N) as [N1 I1]; (assert (H2 : heeds st1 st') by (apply IH; auto; intros p Hp; apply Hl; now right));
      destruct (H2 N1) as [N2 I2]; (split; [exact N2|]); eapply ig_trans; eauto.
  Qed.
  Section Machine.
    Variables S X A : Type.
    Variable busy : S -> bool.
    Variable on_data : X -> bytes -> S -> S * list word.
    Variable on_close : X -> S -> S * list word.
    Variable act : A -> bool -> S -> S * list word.
    Lemma speak_away ws st st' : speak env error_text o ws st = Some st' -> numbered st /\ away st -> numbered st' /\ away st'.
    Proof.
      intros H [N W]. unfold speak in H. apply ig_run in H; [destruct (H N) as [N1 I1]; split; [exact N1|now apply I1]|]. intros p Hp. apply in_map_iff in Hp as (w & [= <-] & _). destruct w; exact I.
    Qed.
    Lemma away_run l : forall st s st' s', rest_never_back o kd kc l -> numbered st /\ away st ->
      move_run S X A busy on_data on_close act env error_text o kd kc l (st, s) = Some (st', s') -> alone act s (own_steps l) s' /\ numbered st' /\ away st'.
    Proof.
      induction l as [|m l IH]; intros st s st' s' Hl W; cbn [move_run]; [intros [= <- <-]; split; [constructor|exact W]|].
      assert (Hl' : rest_never_back o kd kc l) by (intros p x Hp; eapply Hl; right; exact Hp).
      destruct m as [i x|a]; cbn [move_step own_steps flat_map app].
      - destruct (waits _ busy i s); [discriminate|]. destruct (step i st) as [st1 r] eqn:E.
        assert (G : heeds st st1) by (eapply heeds_step; [|exact E]; destruct i; auto; eapply Hl; left; reflexivity).
        destruct W as [N W]. destruct (G N) as [N1 G1]. destruct (G1 W) as (W1 & new & T & F). assert (Ef : fresh st st1 = rev new) by now apply fresh_new.
        destruct r; try discriminate; rewrite feed_feeds, Ef, F; cbn [feeds];
          unfold speak; cbn [map Model_Client.run]; apply IH; auto.
      - destruct (act a (shut_now o st) s) as [s1 ws] eqn:Ea. destruct (speak env error_text o ws st) as [st2|] eqn:Es; [|discriminate].
        intros H. apply IH in H as [H1 H2]; auto; [|eapply speak_away; eauto]. split; auto. eapply alone_step. rewrite Ea. exact H1.
    Qed.
  End Machine.
End Away.

(** ** C132 *)
Lemma kept_run env et o kd kc : nobody_replaces env o -> forall l st st', keeps_all o l -> run env et l st = Some st' -> track o kd kc st st'.
Proof.
  intros He. induction l as [|i l IH]; intros st st' Hl; [intros [= <-]; apply track_refl|]. rewrite run_cons. destruct (step env et i st) as [st1 r] eqn:E.
  assert (H1 : track o kd kc st st1) by (eapply track_step; [exact He| |exact E]; destruct i; auto; apply Hl; now left).
  destruct r; try discriminate; intros H; (eapply track_trans; [exact H1|]; apply IH; auto; intros p Hp; apply Hl; now right).
Qed.
Lemma c132_kept env et o kd kc c l st st' : nobody_replaces env o -> perched st o kd kc c -> keeps_all o l -> run env et l st = Some st' ->
  exists c', chan_of st' o = Some c' /\ ch_no c' = ch_no c /\ ch_data_cb c' = Some kd /\ ch_close_cb c' = kc.
Proof.
  intros He (R & C & _ & D & K) Hl H. destruct (reached_placed _ R) as [N _]. destruct (kept_run env et o kd kc He l st st' Hl H N) as [_ G].
  destruct (G c) as (c' & new & (C' & D' & K') & E & _); [repeat split; auto|]. exists c'. auto.
Qed.
Lemma send_heap env name args kw st st' r : send env name args kw st = (st', r) -> st_heap st' = st_heap st /\ st_chans st' = st_chans st.
Proof.
  unfold send. destruct (p <- create_named name args kw ;; as_bytes p) as [b|e|]; [|intros [= <- _]; auto|intros [= <- _]; auto].
  intros H. apply send_bytes_spec in H as [-> _]. auto.
Qed.
Lemma refuse_heap env json k o st st' r : do_ops env (refuse json k o) st = (st', r) -> st_heap st' = st_heap st /\ st_chans st' = st_chans st.
Proof.
  assert (G : forall p s s' x, match p with OpWrite _ _ | OpControl _ _ | OpClose _ => True | _ => False end -> do_op env p s = (s', x) -> st_heap s' = st_heap s /\ st_chans s' = st_chans s).
  { intros p s s' x Hp. destruct p as [m|o1 d|o1 j|o1|o1 count|o1 d y t|name args kw]; try contradiction; cbn [do_op]; unfold chan_write, chan_control, chan_close;
      (destruct (nth_error (st_heap s) o1) as [c1|]; [|intros [= <- _]; auto]; destruct (ch_closed c1); [intros [= <- _]; auto|apply send_heap]). }
  unfold refuse. set (p := match refusal k with PWrite b => OpWrite o b | PControl a b c => OpControl o (json a b c) end).
  assert (Hp : match p with OpWrite _ _ | OpControl _ _ | OpClose _ => True | _ => False end) by (unfold p; destruct (refusal k); exact I).
  cbn [do_ops]. unfold seq. destruct (do_op env p st) as [s1 r1] eqn:E1. apply G in E1 as [A1 B1]; auto.
  destruct r1 as [[]|e|]; [|intros [= <- _]; auto|intros [= <- _]; auto].
  destruct (do_op env (OpClose o) s1) as [s2 r2] eqn:E2. apply G in E2 as [A2 B2]; [|exact I]. rewrite A1 in A2. rewrite B1 in B2.
  destruct r2 as [[]|e|]; intros [= <- _]; auto.
Qed.
Lemma c132_takeover env et u l st i m d n v json ks o c kd kc st' r : run env et l (init_state u) = Some st -> registered st n = Some o -> perched st o kd kc c ->
  deed_for m i d -> on_channel n d -> settles v d -> obeys env json ks m v n st i -> for_data ks <> kd -> Some (for_close ks) <> kc -> step env et i st = (st', r) ->
  registered st' n = Some o /\ ~ object_closed st' o /\
  forall S X A busy on_data on_close act env' et' l' (s : S) st'' s'', never_back env' o kd kc -> @rest_never_back X A o kd kc l' ->
    move_run S X A busy on_data on_close act env' et' o kd kc l' (st', s) = Some (st'', s'') -> alone act s (own_steps l') s''.
Proof.
  intros Hrun Hr (R & C & K & D & Kc) Hd Hn Hs Ho N1 N2 H.
  destruct (instructed _ _ _ _ _ _ _ _ _ _ _ _ Hd Hn Ho H) as (s & data & y & E & ->). rewrite do_ops_open in E.
  assert (Eo : object_for n st = o) by (unfold object_for, Model_Client.get_channel, registered in *; now rewrite Hr). rewrite Eo in E.
  assert (E1 : snd (Model_Client.get_channel n (emit (Instruction s data) st)) = emit (Instruction s data) st).
  { unfold Model_Client.get_channel, registered in *. cbn [emit st_chans]. now rewrite Hr. }
  rewrite E1 in E. set (st1 := emit (Instruction s data) st) in *.
  assert (C1 : chan_of st1 o = Some c) by exact C.
  assert (G : exists x t, let st2 := upd_chan o (chan_set_cbs (Some (for_data ks)) x t) st1 in (x = None \/ x = Some (for_close ks)) /\ st_heap st' = st_heap st2 /\ st_chans st' = st_chans st2).
  { inversion Hs as [v0 name c0 size|v0 c0|v0 host port c0 Hv]; subst v0 d; cbn [use] in E; unfold install in E; rewrite ?do_ops_cbs in E.
    - exists (Some (for_close ks)), (Some (for_control ks)). cbn zeta. split; [now right|]. destruct v; [|now apply refuse_heap in E..].
      apply pair_equal_spec in E as [<- _]. auto.
    - exists None, None. cbn zeta. split; [now left|]. apply pair_equal_spec in E as [<- _]. auto.
    - exists (Some (for_close ks)), (Some (for_control ks)). cbn zeta. split; [now right|]. destruct v; [|now destruct Hv|]; rewrite do_ops_cbs in E; [|now apply refuse_heap in E].
      apply pair_equal_spec in E as [<- _]. auto. }
  destruct G as (x & t & Hx & Eh & Ec). set (f := chan_set_cbs (Some (for_data ks)) x t) in *.
  assert (C2 : chan_of st' o = Some (f c)). { unfold chan_of. rewrite Eh. apply upd_same. exact C1. }
  assert (Rg : registered st' n = Some o) by (unfold registered; rewrite Ec; exact Hr).
  split; [exact Rg|]. split; [intros (c' & C' & K'); rewrite C2 in C'; injection C' as <-; cbn in K'; congruence|].
  intros S X A busy on_data on_close act env' et' l' s0 st'' s'' He Hl Hm.
  eapply (away_run env' et' o kd kc He S X A busy on_data on_close act l'); [exact Hl| |exact Hm].
  split; [now apply (reached_placed st'), (reached_step _ _ _ _ _ _ _ Hrun H)|]. exists (f c). split; [exact C2|]. split; cbn; [congruence|]. destruct Hx as [->| ->]; auto.
Qed.
Definition deaf (p q : pst) : Prop := Model_Process.input q = Model_Process.input p /\ signals q = signals p /\ waiters q = [].
Lemma deaf_act limit a b p : uncalled a -> waiters p = [] -> deaf p (fst (term_act limit a b p)).
Proof.
  intros U W. unfold deaf. destruct a; cbn [term_act fst]; try (cbn in U; contradiction U); cbn [pstep]; auto;
    rewrite ?W; try (destruct i; cbn; auto; fail);
    repeat match goal with |- context [match ?x with _ => _ end] => destruct x; cbn; auto end.
Qed.
Lemma deaf_alone limit l : forall p q, alone (term_act limit) p l q -> Forall uncalled l -> waiters p = [] -> Model_Process.input q = Model_Process.input p /\ signals q = signals p.
Proof.
  induction l as [|a l IH]; intros p q H U W; inversion H as [|? ? ? ? shut Ha]; subst; [auto|]. inversion U as [|? ? U1 U2]; subst.
  destruct (deaf_act limit a shut p U1 W) as (A & B & C). destruct (IH _ _ Ha U2 C) as [D E]. now rewrite D, E.
Qed.
Lemma c132_terminal env et u l st i m d n v json ks o c kd kc st' r : run env et l (init_state u) = Some st -> registered st n = Some o -> seated st o kd kc c ->
  deed_for m i d -> on_channel n d -> settles v d -> obeys env json ks m v n st i -> for_data ks <> kd -> for_close ks <> kc -> step env et i st = (st', r) ->
  ~ object_closed st' o /\
  forall env' et' limit l' p st'' p'', never_back env' o kd (Some kc) -> rest_never_back o kd (Some kc) l' -> Forall uncalled (own_steps l') -> waiters p = [] ->
    move_run pst term_os Model_Process.event term_busy term_data term_close (term_act limit) env' et' o kd (Some kc) l' (st', p) = Some (st'', p'') ->
    Model_Process.input p'' = Model_Process.input p /\ signals p'' = signals p.
Proof.
  intros H1 H2 H3 H4 H5 H6 H7 H8 H9 H10. assert (N : Some (for_close ks) <> Some kc) by congruence.
  destruct (c132_takeover env et u l st i m d n v json ks o c kd (Some kc) st' r H1 H2 H3 H4 H5 H6 H7 H8 N H10) as (_ & A & B). split; [exact A|].
  intros env' et' limit l' p st'' p'' He Hl Hu W Hm. eapply deaf_alone; eauto.
Qed.
Lemma c132_undisturbed env et st i m d n v json ks o kd kc c st' r : registered st n = Some o -> perched st o kd kc c ->
  deed_for m i d -> on_channel n d -> ~ settles v d -> obeys env json ks m v n st i -> step env et i st = (st', r) -> chan_of st' o = Some c /\ registered st' n = Some o.
Proof.
  intros Hr (R & C & K & D & Kc) Hd Hn Hs Ho H.
  destruct (instructed _ _ _ _ _ _ _ _ _ _ _ _ Hd Hn Ho H) as (s & data & y & E & ->). rewrite do_ops_open in E.
  assert (Eo : object_for n st = o) by (unfold object_for, Model_Client.get_channel, registered in *; now rewrite Hr). rewrite Eo in E.
  assert (E1 : snd (Model_Client.get_channel n (emit (Instruction s data) st)) = emit (Instruction s data) st).
  { unfold Model_Client.get_channel, registered in *. cbn [emit st_chans]. now rewrite Hr. }
  rewrite E1 in E. unfold chan_of, registered in *.
  assert (G : st_heap st' = st_heap st /\ st_chans st' = st_chans st).
  { destruct Hn; try (destruct Hs; constructor; fail); cbn [use] in E.
    - destruct v; [destruct Hs; constructor; discriminate|now apply refuse_heap in E|destruct Hs; constructor; discriminate].
    - destruct v; [apply pair_equal_spec in E as [<- _]; auto|now apply refuse_heap in E..].
    - destruct v; [apply pair_equal_spec in E as [<- _]; auto|now apply refuse_heap in E..]. }
  destruct G as [-> ->]. auto.
Qed.
