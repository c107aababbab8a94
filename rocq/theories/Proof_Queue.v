(** * Proofs about the data the client keeps *)
From Verif Require Import Py Py_lemmas Dict_lemmas Model_Bencode Spec_Bencode Proof_Bencode Model_Packets
  Spec_Packets Proof_Packets Model_Client Spec_Client Proof_Client Proof_Client2 Proof_Client3 Proof_Client4 Proof_Client5
  Proof_Client6 Proof_Client7 Proof_Client8 Spec_Queue.

(** ** Conservation *)
Definition sizes (h : list chan) : nat := list_sum (map (fun c => length (concat (ch_deque c))) h).
Lemma sizes_app a b : sizes (a ++ b) = sizes a + sizes b.
Proof. unfold sizes. apply sum_map_app. Qed.
Lemma sizes_upd f h : forall o c, nth_error h o = Some c ->
  sizes (upd o f h) + length (concat (ch_deque c)) = sizes h + length (concat (ch_deque (f c))).
Proof.
  unfold sizes. induction h as [|x h IH]; intros [|o] c; cbn [nth_error upd map]; try discriminate.
  - intros [= ->]. rewrite !list_sum_cons. lia.
  - intros H. apply IH in H. rewrite !list_sum_cons. lia.
Qed.
Lemma sizes_upd_same f h : (forall c, ch_deque (f c) = ch_deque c) -> forall o, sizes (upd o f h) = sizes h.
Proof.
  intros Hf. unfold sizes. induction h as [|x h IH]; intros [|o]; cbn [upd map]; auto; rewrite !list_sum_cons; [now rewrite Hf|now rewrite IH].
Qed.
Definition puts (l : list effect) : nat := list_sum (map put_in l).
Definition takes (l : list effect) : nat := list_sum (map taken l).
Definition balanced (st : state) : Prop := sizes (st_heap st) + takes (st_trace st) = puts (st_trace st).
Lemma balanced_emit e st : put_in e = 0 -> taken e = 0 -> balanced st -> balanced (emit e st).
Proof. unfold balanced, puts, takes. cbn [st_heap st_trace emit map]. rewrite !list_sum_cons. intros -> ->. auto. Qed.
Lemma balanced_omicro st st' : omicro st st' -> balanced st -> balanced st'.
Proof.
  intros H B. destruct H as [st b|st n Hg|st o count c d c' Hc Hr|st o d x t].
  - now apply balanced_emit.
  - unfold balanced in *. cbn [st_heap st_trace new_state with_chans with_heap]. rewrite sizes_app. cbn [sizes map new_chan ch_deque concat length list_sum fold_right]. lia.
  - unfold balanced, puts, takes in *. cbn [st_heap st_trace emit map upd_chan with_heap]. rewrite !list_sum_cons. cbn [put_in taken].
    pose proof (sizes_upd (fun _ => c') _ _ _ Hc) as E. unfold chan_read in Hr.
    destruct (read_loop (ch_deque c) count) as [out q] eqn:R. injection Hr as <- <-. cbn [ch_deque] in E.
    apply read_loop_split in R. apply (f_equal (@length byte)) in R. rewrite app_length in R. lia.
  - unfold balanced in *. cbn [st_heap st_trace upd_chan with_heap]. now rewrite sizes_upd_same.
Qed.
Lemma balanced_micro st st' : micro st st' -> balanced st -> balanced st'.
Proof.
  intros H B. destruct H; auto; try (apply balanced_emit; auto; fail).
  - eapply balanced_omicro; eauto.
  - assert (G : balanced (upd_chan o chan_shut st)) by (unfold balanced in *; cbn [st_heap st_trace upd_chan with_heap]; now rewrite sizes_upd_same).
    destruct (ch_close_cb c); [now apply balanced_emit|exact G].
  - unfold balanced, puts, takes in *. cbn [st_heap st_trace emit map upd_chan with_heap]. rewrite !list_sum_cons. cbn [put_in taken].
    pose proof (sizes_upd (chan_push d) _ _ _ H) as E. cbn [chan_push ch_deque] in E. rewrite concat_app, app_length in E. cbn in E.
    rewrite app_nil_r in E. lia.
  - apply balanced_emit; auto; destruct e; cbn in *; tauto.
Qed.
Lemma sum_rev l : list_sum (rev l) = list_sum l.
Proof. induction l as [|x l IH]; auto. cbn [rev]. rewrite list_sum_app, IH, !list_sum_cons. change (list_sum []) with 0. lia. Qed.
Lemma c130_conserved env error_text l u st : run env error_text l (init_state u) = Some st ->
  queued st + list_sum (map taken (history st)) = list_sum (map put_in (history st)).
Proof.
  intros H. apply run_star in H. assert (B : balanced st) by (eapply star_inv; [apply balanced_micro|exact H|reflexivity]).
  unfold history. rewrite !map_rev, !sum_rev. exact B.
Qed.

(** ** Bounded by what arrived *)
Lemma puts_deliveries l : list_sum (map put_in l) <= list_sum (map (fun x => length (snd x)) (deliveries l)).
Proof.
  induction l as [|e l IH]; auto. cbn [map deliveries]. rewrite list_sum_cons. destruct e; cbn [delivery put_in snd map]; rewrite ?list_sum_cons; cbn [snd]; lia.
Qed.
Lemma c130_step env error_text i st st' r : numbered st -> step env error_text i st = (st', r) ->
  exists new, adds st st' new /\ list_sum (map (fun x => length (snd x)) (deliveries new)) <= payload i.
Proof.
  intros N H. unfold payload. destruct (route_of i) as [[n d]|] eqn:R.
  - destruct (c21_step _ _ _ _ _ _ _ _ R N H) as (new & A & Hr). exists new. split; auto.
    destruct (registered st n) as [o|].
    + destruct Hr as (c & _ & _ & ->). destruct (ch_closed c); [apply Nat.le_0_l|]. cbn [map snd]. rewrite list_sum_cons. change (list_sum []) with 0. lia.
    + destruct Hr as [_ ->]. cbn [map snd]. rewrite list_sum_cons. change (list_sum []) with 0. lia.
  - destruct (no_delivery_step _ _ _ _ _ _ H R) as (new & A & Hr). exists new. split; auto. rewrite Hr. apply Nat.le_0_l.
Qed.
Lemma c130_delivered env error_text l : forall st st', numbered st -> run env error_text l st = Some st' ->
  exists new, adds st st' new /\ list_sum (map (fun x => length (snd x)) (deliveries new)) <= total payload l.
Proof.
  induction l as [|i l IH]; intros st st' N H.
  - injection H as <-. exists []. split; [unfold adds; now rewrite app_nil_r|]. apply Nat.le_0_l.
  - rewrite run_cons in H. destruct (step env error_text i st) as [s x] eqn:E.
    assert (H' : run env error_text l s = Some st') by (destruct x; congruence || discriminate).
    destruct (c130_step _ _ _ _ _ _ N E) as (n1 & A1 & L1).
    destruct (IH _ _ (step_numbered _ _ _ _ _ _ E N) H') as (n2 & A2 & L2).
    exists (n1 ++ n2). unfold adds in *. rewrite A2, A1, app_assoc. split; auto. rewrite deliveries_app, map_app, list_sum_app.
    unfold total in *. change (map payload (i :: l)) with (payload i :: map payload l). rewrite list_sum_cons. apply Nat.add_le_mono; assumption.
Qed.
Lemma payload_size i : payload i <= message_size i.
Proof.
  unfold payload. destruct (route_of i) as [[n d]|] eqn:R; [|lia]. apply route_of_some in R as (m & -> & rest & D). cbn [message_size].
  apply c08 in D. cbn [app] in D. rewrite weight_list in D. cbn [map] in D. rewrite !list_sum_cons in D. cbn [weight] in D. lia.
Qed.
Lemma total_le f g l : (forall i, f i <= g i) -> total f l <= total g l.
Proof. intros H. unfold total. induction l as [|i l IH]; auto. cbn [map]. rewrite !list_sum_cons. specialize (H i). lia. Qed.
Lemma c130 env error_text l u st : run env error_text l (init_state u) = Some st ->
  queued st <= total payload l /\ total payload l <= total message_size l.
Proof.
  intros H. split; [|apply total_le, payload_size]. pose proof (c130_conserved _ _ _ _ _ H) as C.
  destruct (c130_delivered _ _ _ _ _ (numbered_init u) H) as (new & A & L).
  unfold adds in A. cbn in A. rewrite A in C. pose proof (puts_deliveries new). lia.
Qed.

(** ** What keeps channels *)
Section Keep.
  Variable env : list effect -> effect -> list (op * bool) * option exn.
  Variable error_text : list effect -> text.
  Notation step := (step env error_text).
  Notation run := (run env error_text).

  (** A relation between states that no change of the rest of the client breaks. *)
  Variable R : state -> state -> Prop.
  Hypothesis R_refl : forall st, R st st.
  Hypothesis R_trans : forall a b c, R a b -> R b c -> R a c.
  Hypothesis R_rest : forall st st', length (st_heap st') = length (st_heap st) -> st_chans st' = st_chans st -> R st st'.
  Hypothesis R_env : forall tr e n s, In (OpOpen n, s) (fst (env tr e)) -> forall st, R st (snd (get_channel n st)).

  Definition keeps (a : action) : Prop := forall st st' r, a st = (st', r) -> R st st'.
  Lemma keeps_same (a : action) : (forall st, exists r, a st = (st, r)) -> keeps a.
  Proof. intros H st st' r E. destruct (H st) as [r' E']. rewrite E' in E. injection E as <- _. auto. Qed.
  Lemma keeps_seq a b : keeps a -> keeps b -> keeps (seq a b).
  Proof. intros A Hb st st' r H. apply seq_spec in H as [(s & H1 & H2)|[H1 _]]; eauto. Qed.
  Lemma keeps_guard a : keeps a -> keeps (guard a).
  Proof. intros A st st' r H. apply guard_spec in H as (r' & H & _). eauto. Qed.
  Lemma keeps_send name args kw : keeps (send env name args kw).
  Proof. intros st st' r H. apply send_spec in H as [_ [->|[b ->]]]; auto. Qed.
  Lemma keeps_op p : (forall n, p = OpOpen n -> forall st, R st (snd (get_channel n st))) -> keeps (do_op env p).
  Proof.
    intros Hp st st' r. destruct p as [n|o d|o j|o|o count|o d x t|name args kw]; cbn [do_op]; unfold chan_write, chan_control, chan_close.
    - intros [= <- _]. now apply Hp.
    - destruct (nth_error _ _) as [c|]; [destruct (ch_closed c)|]; try (intros [= <- _]; auto). apply keeps_send.
    - destruct (nth_error _ _) as [c|]; [destruct (ch_closed c)|]; try (intros [= <- _]; auto). apply keeps_send.
    - destruct (nth_error _ _) as [c|]; [destruct (ch_closed c)|]; try (intros [= <- _]; auto). apply keeps_send.
    - destruct (nth_error _ _) as [c|]; [destruct (chan_read count c)|]; intros [= <- _]; auto. apply R_rest; auto. cbn. apply length_upd.
    - intros [= <- _]. apply R_rest; auto. cbn. apply length_upd.
    - apply keeps_send.
  Qed.
  Lemma keeps_ops l : (forall n s, In (OpOpen n, s) l -> forall st, R st (snd (get_channel n st))) -> keeps (do_ops env l).
  Proof.
    induction l as [|[p s] l IH]; intros Hl; cbn [do_ops]; [apply keeps_same; intros st; eexists; reflexivity|].
    assert (K : keeps (do_op env p)) by (apply keeps_op; intros n ->; apply (Hl n s); now left).
    apply keeps_seq; [|apply IH; intros n s' Hn; apply (Hl n s'); now right]. destruct s; auto. now apply keeps_guard.
  Qed.
  Lemma keeps_callback e : keeps (callback env e).
  Proof.
    intros st st' r H. unfold callback in H. destruct (env (st_trace st) e) as [ops x] eqn:E.
    apply (R_trans st (emit e st)); [apply R_rest; reflexivity|]. revert H. apply keeps_seq; [|apply keeps_same; intros s; eexists; reflexivity].
    apply keeps_ops. intros n s Hn. apply (R_env (st_trace st) e n s). now rewrite E.
  Qed.
  Lemma keeps_on_close o : keeps (chan_on_close env o).
  Proof.
    intros st st' r. unfold chan_on_close. destruct (nth_error _ _) as [c|]; [|intros [= <- _]; auto].
    destruct (ch_closed c); [intros [= <- _]; auto|].
    assert (S1 : R st (upd_chan o chan_shut st)) by (apply R_rest; auto; cbn; apply length_upd).
    destruct (ch_close_cb c); [|intros [= <- _]; auto]. intros H. eapply R_trans; [exact S1|]. eapply keeps_guard; [apply keeps_callback|exact H].
  Qed.
  Lemma keeps_on_data o d : keeps (chan_on_data env o d).
  Proof.
    intros st st' r. unfold chan_on_data. destruct (nth_error _ _) as [c|]; [|intros [= <- _]; auto].
    destruct (ch_closed c); [intros [= <- _]; auto|]. destruct (ch_data_cb c); [apply keeps_callback|].
    intros [= <- _]. apply R_rest; auto. cbn. apply length_upd.
  Qed.
  Lemma keeps_on_control o d : keeps (chan_on_control env o d).
  Proof.
    intros st st' r. unfold chan_on_control. destruct (nth_error _ _) as [c|]; [|intros [= <- _]; auto].
    destruct (ch_closed c); [intros [= <- _]; auto|]. destruct (ch_ctl_cb c); [apply keeps_callback|]. intros [= <- _]. auto.
  Qed.
  Lemma keeps_run_cmd cmd v ks : keeps (run_cmd_cbs env cmd v ks).
  Proof. induction ks as [|k ks IH]; cbn [run_cmd_cbs]; [apply keeps_same; intros st; eexists; reflexivity|]. apply keeps_seq; auto. apply keeps_guard, keeps_callback. Qed.
  Lemma keeps_clear l : keeps (clear_callbacks_over env l).
  Proof. induction l as [|[c ks] l IH]; cbn [clear_callbacks_over]; [apply keeps_same; intros st; eexists; reflexivity|]. apply keeps_seq; auto. apply keeps_run_cmd. Qed.
  Lemma keeps_close_all n l : keeps (close_all env n l).
  Proof.
    induction l as [|[c o] l IH]; cbn [close_all]; [apply keeps_same; intros st; eexists; reflexivity|]. apply keeps_seq; [apply keeps_on_close|].
    intros st st' r. destruct (_ =? _); [apply IH|]. intros [= <- _]. auto.
  Qed.
  Lemma keeps_extern e : keeps (extern env e).
  Proof. intros st st' r [= <- _]. apply R_rest; reflexivity. Qed.

  (** What a handler does to the channels themselves. *)
  Definition names (h : handler) (args : list val) : option Z :=
    match h, args with
    | HRoute, [c; VBytes _] | HRouteControl, [c; VBytes _] | HNotifyOpen, [c] => as_int c
    | _, _ => None
    end.
  Definition drops (h : handler) (args : list val) : option Z :=
    match h, args with HNotifyClose, [c] => as_int c | _, _ => None end.
  Definition entry (h : handler) (args : list val) (st : state) : state :=
    match names h args with Some n => snd (get_channel n st) | None => st end.
  Lemma keeps_handler h args st st' r : run_handler env error_text h args st = (st', r) ->
    (forall n s, drops h args = Some n -> R s (with_chans (dict_del Z.eqb n (st_chans s)) s)) -> R (entry h args st) st'.
  Proof.
    intros H Hd. revert H. unfold entry.
    assert (K : forall a, keeps a -> a st = (st', r) -> R st st') by (intros a Ka; apply Ka).
    destruct h; cbn [run_handler]; destruct args as [|a1 args]; try (intros [= <- _]; auto; fail).
    - destruct a1, args; try (intros [= <- _]; auto; fail). destruct (st_closed st); [intros [= <- _]; auto|].
      intros H. unfold sync_identity in H. injection H as <- _. apply R_rest; reflexivity.
    - destruct a1, args; try (intros [= <- _]; auto; fail). apply keeps_send.
    - destruct a1, args; intros [= <- _]; auto.
    - destruct args as [|[] [|]]; try (intros [= <- _]; auto; fail). cbn [names]. destruct (as_int a1) as [n|]; [|intros [= <- _]; auto].
      destruct (get_channel n st) as [o s]. apply keeps_on_data.
    - destruct args as [|[] [|]]; try (intros [= <- _]; auto; fail). cbn [names]. destruct (as_int a1) as [n|]; [|intros [= <- _]; auto].
      destruct (get_channel n st) as [o s]. apply keeps_on_control.
    - destruct args; try (intros [= <- _]; auto; fail). cbn [names]. destruct (as_int a1) as [n|]; [|intros [= <- _]; auto].
      intros [= <- _]. auto.
    - destruct args; try (intros [= <- _]; auto; fail). cbn [drops] in Hd. destruct (as_int a1) as [n|]; [|intros [= <- _]; auto].
      destruct (dict_get _ _ _) as [o|]; [|intros [= <- _]; auto]. apply K, keeps_seq; [apply keeps_on_close|]. intros s s' r' [= <- _]. now apply Hd.
    - destruct args; intros [= <- _]; auto; apply R_rest; reflexivity.
    - destruct args as [|v [|]]; try (intros [= <- _]; auto; fail). destruct (as_int a1) as [n|]; [|intros [= <- _]; auto].
      unfold command_callback. destruct (dict_get _ _ _) as [ks|]; [|intros [= <- _]; auto].
      apply K, keeps_seq; [apply keeps_run_cmd|]. intros s s' r' [= <- _]. apply R_rest; reflexivity.
    - destruct args as [|v [|]]; try (intros [= <- _]; auto; fail). apply keeps_guard, keeps_callback.
    - destruct args as [|v [|]]; try (intros [= <- _]; auto; fail). apply keeps_callback.
    - destruct args; try (intros [= <- _]; auto; fail). apply keeps_callback.
    - destruct args as [|v [|w [|]]]; try (intros [= <- _]; auto; fail). apply keeps_callback.
    - destruct (callback env RdScan st) as [s x] eqn:E. apply keeps_callback in E. destruct x as [[]|e|]; try (intros [= <- _]; auto; fail).
      intros H. eapply R_trans; [exact E|]. eapply keeps_send; exact H.
    - destruct args as [|a2 [|a3 [|a4 [|a5 [|a6 [|]]]]]]; try (intros [= <- _]; auto; fail). apply keeps_callback.
  Qed.
  Definition entry_of (i : input) (st : state) : state :=
    match i with
    | InEvent (EvBinary m) => match meaning m with Some (h, args) => entry h args st | None => st end
    | InOp (OpOpen n) => snd (get_channel n st)
    | _ => st
    end.
  Lemma keeps_step i st st' r : step i st = (st', r) ->
    (forall m h args n s, i = InEvent (EvBinary m) -> meaning m = Some (h, args) -> drops h args = Some n -> R s (with_chans (dict_del Z.eqb n (st_chans s)) s)) ->
    R (entry_of i st) st'.
  Proof.
    intros H Hd. destruct i as [[| |m| |]|p|cmd k|]; cbn [entry_of].
    - cbn [Model_Client.step on_event] in H. apply guard_spec in H as (r' & H & _). unfold on_ready in H. destruct (st_ident st); eapply keeps_send; exact H.
    - cbn [Model_Client.step on_event] in H. apply guard_spec in H as (r' & H & _). unfold on_disconnected in H.
      apply (R_trans st (with_ident None st)); [apply R_rest; reflexivity|]. revert H. apply keeps_seq; intros ? ? ?; [apply keeps_clear|apply keeps_close_all].
    - apply step_binary in H. destruct (meaning m) as [[h args]|] eqn:E; [|now subst]. destruct H as [r' H].
      eapply keeps_handler; [exact H|]. intros n s Hx; eauto.
    - cbn [Model_Client.step on_event] in H. apply guard_spec in H as (r' & H & _). eapply keeps_extern; exact H.
    - injection H as <- _. auto.
    - cbn [Model_Client.step] in H. apply guard_spec in H as (r' & H & _).
      destruct p as [n|o d|o j|o|o count|o d x t|name args kw]; [injection H as <- _; auto|..];
        (eapply keeps_op; [|exact H]; discriminate).
    - injection H as <- _. apply R_rest; reflexivity.
    - cbn [Model_Client.step] in H. unfold extern in H. destruct (ret_exn _); injection H as <- _; apply R_rest; reflexivity.
  Qed.
End Keep.

(** ** The number of objects *)
Lemma get_channel_grows n st : length (st_heap (snd (get_channel n st))) <= length (st_heap st) + 1.
Proof. destruct (get_channel_spec n st) as [(o & _ & ->)|[_ ->]]; cbn; rewrite ?app_length; cbn; lia. Qed.
Lemma entry_grows i st : length (st_heap (entry_of i st)) <= length (st_heap st) + can_open i.
Proof.
  destruct i as [[| |m| |]|p|cmd k|]; cbn [entry_of can_open]; try lia.
  - destruct (meaning m) as [[h args]|]; [|lia]. unfold entry. destruct (names h args) as [n|]; [apply get_channel_grows|lia].
  - destruct p; try lia. apply get_channel_grows.
Qed.
Lemma objects_step env error_text i st st' r : never_opens env -> step env error_text i st = (st', r) ->
  length (st_heap st') <= length (st_heap st) + can_open i.
Proof.
  intros Q H. assert (G : length (st_heap st') <= length (st_heap (entry_of i st))).
  { apply (keeps_step env error_text (fun a b => length (st_heap b) <= length (st_heap a))) with (r := r); auto; intros; try lia.
    - now apply Q in H0. }
  pose proof (entry_grows i st). lia.
Qed.
Lemma objects_run env error_text l : never_opens env -> forall st st', run env error_text l st = Some st' ->
  length (st_heap st') <= length (st_heap st) + total can_open l.
Proof.
  intros Q. unfold total. induction l as [|i l IH]; intros st st' H; [injection H as <-; lia|].
  rewrite run_cons in H. destruct (step env error_text i st) as [s x] eqn:E.
  assert (H' : run env error_text l s = Some st') by (destruct x; congruence || discriminate).
  apply (objects_step _ _ _ _ _ _ Q) in E. apply IH in H'. cbn [map]. rewrite list_sum_cons. lia.
Qed.
Lemma c130_objects env error_text l u st : never_opens env -> run env error_text l (init_state u) = Some st ->
  length (st_heap st) <= total can_open l.
Proof. intros Q H. exact (objects_run _ _ _ Q _ _ H). Qed.

(** ** Channels stay registered until they are closed *)
Definition stays (n : Z) (a b : state) : Prop := forall o, registered a n = Some o -> registered b n = Some o.
Lemma stays_get_channel n k st : stays n st (snd (get_channel k st)).
Proof.
  intros o H. destruct (get_channel_spec k st) as [(o' & _ & ->)|[N ->]]; auto. cbn. unfold registered in *. cbn.
  rewrite (get_set _ Z.eqb_spec). destruct (Z.eqb_spec k n) as [->|]; congruence.
Qed.
Lemma table_close t : In (t, HNotifyClose) handler_table -> t = 19%Z.
Proof. cbn. intuition congruence. Qed.
Lemma drops_close m h args n : meaning m = Some (h, args) -> drops h args = Some n -> exists rest, announces m 19 (VInt n :: rest).
Proof.
  intros H D. destruct h; try discriminate. destruct args as [|a [|]]; try discriminate. cbn in D.
  apply meaning_spec in H as (t & body & A & T & E & F). apply table_close in T. subst t.
  cbn [handler_types length firstn] in E. destruct body as [|b body]; [discriminate|]. injection E as E. subst b.
  pose proof (announces_parsed _ _ _ A) as G. inversion G as [|? ? P _]; subst. inversion F as [|? ? ? ? T _]; subst.
  destruct a; cbn in D; try discriminate; [injection D as ->; eauto|inversion P].
Qed.
Lemma get_del_ne {A} (n k : Z) (d : list (Z * A)) : k <> n -> dict_get Z.eqb n (dict_del Z.eqb k d) = dict_get Z.eqb n d.
Proof.
  intros H. induction d as [|[k' v] d IH]; auto. cbn. destruct (Z.eqb_spec k' k) as [->|]; cbn; [|now rewrite IH].
  now destruct (Z.eqb_spec k n).
Qed.
Lemma stays_step env error_text n i st st' r : step env error_text i st = (st', r) ->
  (forall m rest, i = InEvent (EvBinary m) -> ~ announces m 19 (VInt n :: rest)) -> stays n st st'.
Proof.
  intros H Hm. assert (T : forall a b c, stays n a b -> stays n b c -> stays n a c) by (unfold stays; auto).
  assert (G : stays n (entry_of i st) st').
  { apply (keeps_step env error_text (stays n)) with (r := r); auto.
    - unfold stays; auto.
    - intros s s' _ E o. unfold registered. now rewrite E.
    - intros. apply stays_get_channel.
    - intros m h args k s -> Hh Hd. destruct (drops_close _ _ _ _ Hh Hd) as [rest A]. intros o. unfold registered. cbn.
      intros Ho. rewrite get_del_ne; auto. intros ->. now apply (Hm m rest). }
  eapply T; [|exact G]. assert (Rf : stays n st st) by (unfold stays; auto). destruct i as [[| |m| |]|p|cmd k|]; cbn [entry_of]; auto.
  - destruct (meaning m) as [[h args]|]; auto. unfold entry. destruct (names h args); auto. apply stays_get_channel.
  - destruct p; auto. apply stays_get_channel.
Qed.
Lemma c131_stays env error_text n o l : forall st st', run env error_text l st = Some st' -> not_closed_by n l ->
  registered st n = Some o -> registered st' n = Some o.
Proof.
  induction l as [|i l IH]; intros st st' H N Ho; [injection H as <-; auto|].
  rewrite run_cons in H. destruct (step env error_text i st) as [s x] eqn:E.
  assert (H' : run env error_text l s = Some st') by (destruct x; congruence || discriminate).
  apply (IH s st' H'); [intros m rest Hm; apply N; now right|]. apply (stays_step _ _ n _ _ _ _ E); auto.
  intros m rest -> A. apply (N m rest); auto. now left.
Qed.

(** ** A session that fills a queue *)
Definition filled (k : nat) (st : state) : Prop :=
  st_chans st = [(5%Z, 0)] /\ st_cbs st = [] /\ st_ident st = None /\
  exists c, st_heap st = [c] /\ ch_closed c = false /\ ch_data_cb c = None /\ ch_close_cb c = None /\ length (concat (ch_deque c)) = k.
Lemma knock_meaning : meaning (B "li6ei5e1:xe") = Some (HRoute, [VInt 5; VBytes (B "x")]).
Proof. vm_compute. reflexivity. Qed.
Lemma knock_step st : step listener nothing knock st = guard (fun s => let '(o, s') := get_channel 5 s in chan_on_data listener o (B "x") s') st.
Proof.
  cbn [step knock on_event]. destruct (on_binary_eq listener nothing (B "li6ei5e1:xe") st) as (r & E & _). rewrite knock_meaning in E.
  unfold guard. rewrite E. reflexivity.
Qed.
Lemma knock_fills k st : filled k st -> exists st', step listener nothing knock st = (st', Ok tt) /\ filled (S k) st'.
Proof.
  intros (C & Cb & I & c & Hh & Cl & D & X & L). rewrite knock_step. unfold guard, get_channel. rewrite C. change (dict_get Z.eqb 5%Z [(5%Z, 0)]) with (Some 0).
  unfold chan_on_data. rewrite Hh. cbn [nth_error]. rewrite Cl, D. eexists. split; [reflexivity|].
  unfold filled. cbn [st_chans st_cbs st_ident st_heap emit upd_chan with_heap]. rewrite Hh. cbn [upd]. repeat split; auto.
  eexists. split; [reflexivity|]. cbn [chan_push ch_closed ch_data_cb ch_close_cb ch_deque]. repeat split; auto.
  rewrite concat_app, app_length, L. cbn. lia.
Qed.
Lemma knock_first u : exists st', step listener nothing knock (init_state u) = (st', Ok tt) /\ (u = None -> filled 1 st').
Proof.
  rewrite knock_step. eexists. split; [reflexivity|]. intros ->. unfold filled. repeat split; auto. eexists. split; [reflexivity|]. repeat split; auto.
Qed.
Lemma knocks n : forall k st, filled k st -> exists st', run listener nothing (repeat knock n) st = Some st' /\ filled (n + k) st'.
Proof.
  induction n as [|n IH]; intros k st F; [exists st; auto|]. destruct (knock_fills k st F) as (s & E & F'). destruct (IH _ _ F') as (s' & R & F'').
  exists s'. cbn [repeat]. rewrite run_cons, E. split; auto. now replace (S n + k) with (n + S k) by lia.
Qed.
Lemma c131 n : exists st, run listener nothing (repeat knock (S n) ++ [InEvent EvDisconnected; InEvent EvReady]) (init_state None) = Some st /\
  held st = S n /\ (forall o c, chan_of st o = Some c -> ch_closed c = true).
Proof.
  destruct (knock_first None) as (s1 & E1 & F1). destruct (knocks n 1 s1 (F1 eq_refl)) as (s2 & R2 & F2).
  destruct F2 as (C & Cb & I & c & Hh & Cl & D & X & L).
  assert (R : run listener nothing (repeat knock (S n)) (init_state None) = Some s2) by (cbn [repeat]; now rewrite run_cons, E1).
  rewrite run_app, R.
  set (s3 := upd_chan 0 chan_shut (with_ident None s2)).
  assert (Dr : step listener nothing (InEvent EvDisconnected) s2 = (s3, Ok tt)).
  { cbn [step on_event]. unfold guard, on_disconnected, seq, clear_callbacks, hard_close_channels. cbn [st_cbs with_ident]. rewrite Cb.
    cbn [clear_callbacks_over]. unfold skip. cbn [st_chans with_ident]. rewrite C. cbn [close_all]. unfold seq, chan_on_close.
    cbn [st_heap with_ident]. rewrite Hh. cbn [nth_error]. rewrite Cl, X. cbn [st_chans upd_chan with_heap with_ident]. rewrite C. reflexivity. }
  rewrite run_cons, Dr. exists (emit (Sent (B "li1ee")) s3). split; [|split].
  - reflexivity.
  - unfold held, chan_of, s3. cbn [st_chans st_heap emit upd_chan with_heap with_ident]. rewrite C, Hh. cbn [map snd upd nth_error chan_shut ch_deque list_sum fold_right].
    rewrite L. lia.
  - unfold chan_of, s3. cbn [st_heap emit upd_chan with_heap with_ident]. rewrite Hh. intros [|[|o]] c'; cbn; try discriminate. intros [= <-]. reflexivity.
Qed.
