From Verif Require Import Py Py_lemmas Dict_lemmas Model_Bencode Spec_Bencode Proof_Bencode Model_Packets
  Spec_Packets Proof_Packets Model_Client Spec_Client Proof_Client Proof_Client2 Proof_Client3 Proof_Client4 Proof_Client5 Proof_Client6 Proof_Client7 Spec_Early.

(** ** Data for a channel with a service *)
Lemma c93_step env error_text m n d o c k st st' r : is_route m n d -> registered st n = Some o -> chan_of st o = Some c ->
  ch_closed c = false -> ch_data_cb c = Some k -> step env error_text (InEvent (EvBinary m)) st = (st', r) ->
  exists rest, adds st st' (DataCb k o d :: rest) /\ deliveries rest = [].
Proof.
  intros Hm Ho Hc Hcl Hk H. apply step_binary in H. rewrite (route_meaning _ _ _ Hm) in H. destruct H as [r' H].
  cbn [Model_Client.run_handler as_int] in H. unfold registered in Ho. unfold get_channel in H. rewrite Ho in H.
  unfold chan_on_data in H. unfold chan_of in Hc. rewrite Hc, Hcl, Hk in H.
  apply callback_star in H as [H _]. apply star_oext in H. destruct (oe_trace _ _ H) as (q & Hq & Fq).
  exists (rev q). split.
  - unfold adds, history. rewrite Hq, rev_app_distr. cbn. now rewrite <- app_assoc.
  - apply Forall_rev in Fq. induction Fq as [|e l He Fq IH]; cbn; auto. destruct e; cbn in *; tauto.
Qed.
(** Installing callbacks, as a service does, leaves the buffer and everything else alone. *)
Lemma c93_install env error_text o d x t c st st' r : chan_of st o = Some c ->
  step env error_text (InOp (OpSetCbs o d x t)) st = (st', r) ->
  exists c', chan_of st' o = Some c' /\ ch_deque c' = ch_deque c /\ ch_data_cb c' = d /\ ch_close_cb c' = x /\ ch_ctl_cb c' = t /\
    ch_no c' = ch_no c /\ ch_closed c' = ch_closed c /\ history st' = history st.
Proof.
  intros Hc. cbn [step guard do_op]. unfold guard. intros [= <- _]. unfold chan_of, upd_chan in *. cbn. rewrite nth_upd, Nat.eqb_refl, Hc.
  eexists. split; [reflexivity|]. cbn. auto 8.
Qed.

(** ** Once a callback is installed and nobody replaces it, nothing is buffered any more *)
Lemma handed_none o l : deliveries l = [] -> handed o l = [].
Proof. induction l as [|e l IH]; cbn; auto. destruct e; cbn; auto; discriminate. Qed.
Lemma handed_other o o' d l : deliveries l = [(o', d)] -> o' <> o -> handed o l = [].
Proof.
  induction l as [|e l IH]; cbn; auto. destruct e; cbn; auto; intros [= -> -> H] N; destruct (Nat.eqb_spec o' o); try congruence; now apply handed_none.
Qed.
Lemma handed_app o l m : handed o (l ++ m) = handed o l ++ handed o m.
Proof. induction l as [|e l IH]; cbn; auto. destruct e; auto; destruct (_ =? _); cbn; now rewrite ?IH. Qed.

Section Served.
  Variable env : list effect -> effect -> list (op * bool) * option exn.
  Variable error_text : list effect -> text.
  Variables (n : Z) (o k : nat) (q0 : bytes).
  Hypothesis Henv : nobody_replaces env o.
  Definition inst (st : state) : Prop :=
    (exists c, chan_of st o = Some c /\ ch_data_cb c = Some k /\ ch_closed c = false /\ exists taken, q0 = taken ++ concat (ch_deque c)) /\ registered st n = Some o /\
    NoDup (map fst (st_chans st)) /\ (forall n', registered st n' = Some o -> n' = n).
  Definition good (a : action) : Prop := forall st, inst st -> inst (fst (a st)).
  Lemma inst_same st st' : st_heap st' = st_heap st -> st_chans st' = st_chans st -> inst st -> inst st'.
  Proof. unfold inst, chan_of, registered. now intros -> ->. Qed.
  Lemma good_seq a b : good a -> good b -> good (seq a b).
  Proof. intros Ha Hb st H. unfold seq. specialize (Ha st H). destruct (a st) as [s1 [u|e|]]; cbn in *; auto. Qed.
  Lemma good_guard a : good a -> good (guard a).
  Proof. intros Ha st H. unfold guard. specialize (Ha st H). destruct (a st) as [s1 [u|e|]]; cbn in *; auto. Qed.
  Lemma good_extern e : good (extern env e).
  Proof. intros st H. exact H. Qed.
  Lemma good_send x a kw : good (send env x a kw).
  Proof.
    intros st H. unfold send. destruct (p <- _ ;; _) as [b|e|]; auto.
    unfold send_bytes. pose proof (good_extern (Sent b) st H) as G. destruct (extern env (Sent b) st) as [s [u|[]|]]; cbn in *; auto.
  Qed.
  Lemma inst_upd o' f st : (o' = o -> forall c, ch_data_cb (f c) = ch_data_cb c /\ ch_closed (f c) = ch_closed c /\ ch_deque (f c) = ch_deque c) -> inst st -> inst (upd_chan o' f st).
  Proof.
    intros Hf [(c & Hc & Hk & Hcl) R]. split; [|exact R]. unfold chan_of, upd_chan in *. cbn. rewrite nth_upd. rewrite Hc.
    destruct (Nat.eqb_spec o' o) as [->|N]; cbn.
    - eexists. split; [reflexivity|]. destruct (Hf eq_refl c) as (-> & -> & ->). auto.
    - exists c. auto.
  Qed.
  Lemma inst_get n' st : inst st -> inst (snd (get_channel n' st)) /\ (fst (get_channel n' st) = o -> n' = n).
  Proof.
    intros [(c & Hc & Hk & Hcl) (Hr & Hd & Hi)]. unfold get_channel. destruct (dict_get _ _ _) as [x|] eqn:E; cbn.
    - split; [split; [exists c|]; auto|]. intros ->. now apply Hi.
    - assert (L : o < length (st_heap st)) by (apply nth_error_Some; unfold chan_of in Hc; congruence).
      split; [|intros H; lia]. split; [exists c; split; [|auto]|].
      + unfold chan_of in *. cbn. now rewrite nth_error_app1.
      + unfold registered in *. cbn. split; [|split; [now apply (set_nodup Z.eqb Z.eqb_spec)|]].
        * rewrite (get_set Z.eqb Z.eqb_spec). destruct (Z.eqb_spec n' n) as [->|]; [congruence|auto].
        * intros n2. rewrite (get_set Z.eqb Z.eqb_spec). destruct (Z.eqb_spec n' n2) as [->|]; [intros [= H]; lia|auto].
  Qed.
  Lemma good_op p : keeps_callbacks o p -> good (do_op env p).
  Proof.
    intros Hp st H. destruct p; cbn [do_op].
    - now apply inst_get.
    - unfold chan_write. destruct (nth_error _ _) as [c|]; [destruct (ch_closed c)|]; auto. now apply good_send.
    - unfold chan_control. destruct (nth_error _ _) as [c|]; [destruct (ch_closed c)|]; auto. now apply good_send.
    - unfold chan_close. destruct (nth_error _ _) as [c|]; [destruct (ch_closed c)|]; auto. now apply good_send.
    - destruct (nth_error _ _) as [c|] eqn:E; auto.
      destruct (chan_read count c) as [d c'] eqn:R. cbn [fst]. apply (inst_same (upd_chan o0 (fun _ => c') st)); auto.
      destruct H as [(c0 & Hc & Hk & Hcl) H]. split; [|exact H]. unfold chan_of, upd_chan in *. cbn. rewrite nth_upd, Hc.
      destruct (Nat.eqb_spec o0 o) as [->|N]; cbn; [|exists c0; auto]. eexists. split; [reflexivity|].
      rewrite E in Hc. injection Hc as ->. unfold chan_read in R. destruct (read_loop _ _) as [out q] eqn:Er in R. injection R as <- <-. cbn.
      destruct Hcl as (Hcl & taken & Hq). split; [exact Hk|]. split; [exact Hcl|]. exists (taken ++ out).
      now rewrite <- app_assoc, (read_loop_split _ _ _ _ Er).
    - cbn [fst]. apply inst_upd; auto. intros ->. now cbn in Hp.
    - now apply good_send.
  Qed.
  Lemma good_ops l : Forall (fun p => keeps_callbacks o (fst p)) l -> good (do_ops env l).
  Proof.
    induction 1 as [|[p s] l Hp Hl IH]; cbn [do_ops]; [intros st H; exact H|].
    apply good_seq; auto. destruct s; [apply good_guard|]; now apply good_op.
  Qed.
  Lemma good_callback e : good (callback env e).
  Proof.
    intros st H. unfold callback. pose proof (Henv (st_trace st) e) as F. destruct (env (st_trace st) e) as [ops x]. cbn in F.
    apply (good_seq (do_ops env ops)); [now apply good_ops|intros s Hs; exact Hs|exact H].
  Qed.
  Lemma good_cbs cmd res ks : good (run_cmd_cbs env cmd res ks).
  Proof. induction ks as [|j ks IH]; cbn [run_cmd_cbs]; [intros st H; exact H|]. apply good_seq; auto. apply good_guard, good_callback. Qed.
  Lemma good_route n' f : (forall o', good (f o')) -> forall st, inst st -> inst (fst (let '(o', st') := get_channel n' st in f o' st')).
  Proof. intros Hf st H. destruct (inst_get n' st H) as [G _]. destruct (get_channel n' st) as [o' s]. cbn in G. now apply Hf. Qed.
  Lemma good_data o' d : good (chan_on_data env o' d).
  Proof.
    intros st H. unfold chan_on_data. destruct (nth_error (st_heap st) o') as [c|] eqn:E; [|exact H]. destruct (ch_closed c); [exact H|].
    destruct (ch_data_cb c) eqn:Ek; [now apply good_callback|]. cbn [fst]. eapply inst_same; [| |apply (inst_upd o' (chan_push d) st); [|exact H]]; try reflexivity.
    intros -> c0. destruct H as [(c1 & Hc1 & Hk1 & _) _]. unfold chan_of in Hc1. congruence.
  Qed.
  Lemma good_ctl o' d : good (chan_on_control env o' d).
  Proof.
    intros st H. unfold chan_on_control. destruct (nth_error (st_heap st) o') as [c|] eqn:E; [|exact H]. destruct (ch_closed c); [exact H|].
    destruct (ch_ctl_cb c); [now apply good_callback|exact H].
  Qed.
  Lemma good_close o' : o' <> o -> good (chan_on_close env o').
  Proof.
    intros N st H. unfold chan_on_close. destruct (nth_error (st_heap st) o') as [c|] eqn:E; [|exact H]. destruct (ch_closed c); [exact H|].
    assert (G : inst (upd_chan o' chan_shut st)) by (apply inst_upd; [congruence|exact H]).
    destruct (ch_close_cb c); [|exact G]. apply good_guard; [apply good_callback|exact G].
  Qed.
  Lemma good_handler h args : (h = HNotifyClose -> args <> [VInt n] /\ forall b, args <> [VBool b]) -> good (run_handler env error_text h args).
  Proof.
    intros Hh st H.
    assert (S : forall x a kw s, inst s -> inst (fst (send env x a kw s))) by (intros; now apply good_send).
    assert (C : forall e, inst (fst (callback env e st))) by (intros; now apply good_callback).
    destruct h; cbn [run_handler];
      repeat match goal with |- inst (fst (match ?a with _ => _ end)) => is_var a; destruct a end; auto;
      try match goal with |- inst (fst (match as_int ?v with _ => _ end)) => destruct (as_int v) as [n'|] eqn:En; [|exact H] end.
    - (* set_identity *) destruct (st_closed st); exact H.
    - apply (good_route n' (fun o' => chan_on_data env o' _)); auto. intros o'. apply good_data.
    - apply (good_route n' (fun o' => chan_on_control env o' _)); auto. intros o'. apply good_ctl.
    - now apply inst_get.
    - (* notify_close *) destruct (dict_get Z.eqb n' (st_chans st)) as [o'|] eqn:E; [|exact H].
      assert (N : n' <> n).
      { intros ->. destruct (Hh eq_refl) as [Hh1 Hh2]. destruct v; try discriminate; cbn in En; [|now destruct (Hh2 b)]. congruence. }
      apply good_seq; [| |exact H].
      + apply good_close. intros ->. apply N. now apply (proj2 (proj2 (proj2 H))).
      + intros s [Hc (Hr & Hd & Hi)]. cbn [fst]. split; [exact Hc|]. unfold registered in *. cbn.
        split; [|split; [now apply (del_nodup Z.eqb)|]].
        * rewrite (get_del Z.eqb Z.eqb_spec) by auto. destruct (Z.eqb_spec n' n); [congruence|auto].
        * intros n2. rewrite (get_del Z.eqb Z.eqb_spec) by auto. destruct (Z.eqb_spec n' n2); [discriminate|auto].
    - (* response *) unfold command_callback. destruct (dict_get _ _ _) as [ks|]; [|exact H].
      apply good_seq; [apply good_cbs| |exact H]. intros s Hs. exact Hs.
    - apply good_guard; [apply good_callback|exact H].
    - specialize (C RdScan). destruct (callback env RdScan st) as [s [u|e|]]; cbn in *; auto.
  Qed.
  Lemma meaning_close m args : meaning m = Some (HNotifyClose, args) -> exists n', args = [VInt n'] /\ closes m n'.
  Proof.
    intros H. apply meaning_spec in H as (t & body & Ha & Ht & E & F). assert (t = 19%Z) as -> by (cbn in Ht; intuition congruence).
    pose proof (announces_parsed _ _ _ Ha) as Hp. cbn in E, F. destruct body as [|v body]; cbn in E; subst args; inversion F; subst.
    inversion Hp; subst. inversion H2; subst; [|match goal with X : parsed (VBool _) |- _ => inversion X end].
    exists z. split; auto. now exists body.
  Qed.
  Lemma good_step i : undisturbed n o [i] -> good (step env error_text i).
  Proof.
    intros (Hd & Hm & Hp) st H. destruct i as [e|p|cmd j|].
    - destruct e as [| |m| |].
      + cbn [step on_event]. apply good_guard; [|exact H]. intros s Hs. unfold on_ready. destruct (st_ident s); now apply good_send.
      + destruct Hd. now left.
      + destruct (step env error_text (InEvent (EvBinary m)) st) as [s r] eqn:E. apply step_binary in E.
        destruct (meaning m) as [[h args]|] eqn:Em; [|now subst s]. destruct E as [r' E]. cbn [fst].
        replace s with (fst (run_handler env error_text h args st)) by now rewrite E. apply good_handler; auto.
        intros ->. apply meaning_close in Em as (n' & -> & Hc). split; [|discriminate]. intros [= ->]. apply (Hm m); [now left|exact Hc].
      + apply good_guard; [|exact H]. intros s Hs. exact Hs.
      + exact H.
    - apply good_guard; [|exact H]. apply good_op, Hp. now left.
    - exact H.
    - cbn [step]. unfold extern. destruct (snd _); exact H.
  Qed.
  Lemma undisturbed_cons i l : undisturbed n o (i :: l) -> undisturbed n o [i] /\ undisturbed n o l.
  Proof.
    intros (A & Hb & Hc). split; (split; [|split]).
    - intros [H|[]]. apply A. now left.
    - intros m [H|[]]. apply Hb. now left.
    - intros p [H|[]]. apply Hc. now left.
    - intros H. apply A. now right.
    - intros m H. apply Hb. now right.
    - intros p H. apply Hc. now right.
  Qed.
  Lemma handed_step i st st' r : inst st -> numbered st -> step env error_text i st = (st', r) ->
    exists new, adds st st' new /\ handed o new = map (fun d => (Some k, d)) (routed n [i]).
  Proof.
    intros [(c & Hc & Hk & Hcl & _) (Hr & _ & Hi)] Hn H. destruct (route_of i) as [[n' d]|] eqn:E.
    - destruct (Z.eqb_spec n' n) as [->|N].
      + pose proof E as E'. apply route_of_some in E' as (m & -> & Hm).
        destruct (c93_step _ _ _ _ _ _ _ _ _ _ _ Hm Hr Hc Hcl Hk H) as (rest & Ha & Hd). eexists. split; [exact Ha|].
        cbn [handed routed]. rewrite E, Z.eqb_refl, Nat.eqb_refl, (handed_none _ _ Hd). reflexivity.
      + destruct (c21_step _ _ _ _ _ _ _ _ E Hn H) as (new & Ha & Hx). exists new. split; auto. cbn [routed]. rewrite E.
        destruct (Z.eqb_spec n' n); [congruence|]. cbn [map]. destruct (registered st n') as [o'|] eqn:Eo.
        * destruct Hx as (c' & _ & _ & Hx). destruct (ch_closed c'); [now apply handed_none|]. eapply handed_other; [exact Hx|].
          intros ->. apply N. now apply Hi.
        * destruct Hx as [_ Hx]. eapply handed_other; [exact Hx|]. intros X. unfold chan_of in Hc. rewrite <- X in Hc.
          assert (Y : length (st_heap st) < length (st_heap st)) by (apply nth_error_Some; congruence). lia.
    - destruct (no_delivery_step _ _ _ _ _ _ H E) as (new & Ha & Hx). exists new. split; auto. cbn [routed]. rewrite E. now apply handed_none.
  Qed.
  Lemma handed_run l : forall st st', undisturbed n o l -> inst st -> numbered st -> run env error_text l st = Some st' ->
    (exists new, adds st st' new /\ handed o new = map (fun d => (Some k, d)) (routed n l)) /\ inst st'.
  Proof.
    induction l as [|i l IH]; intros st st' U H Hn; [intros [= <-]; split; [exists []; split; [unfold adds; now rewrite app_nil_r|reflexivity]|auto]|].
    apply undisturbed_cons in U as [U1 U2]. rewrite run_cons. destruct (step env error_text i st) as [s r] eqn:E. intros Hr.
    assert (Hr' : run env error_text l s = Some st') by (destruct r; congruence || discriminate).
    pose proof (good_step i U1 st H) as G. rewrite E in G. cbn in G.
    destruct (handed_step i st s r H Hn E) as (x & Hx & Fx).
    destruct (IH s st' U2 G (step_numbered _ _ _ _ _ _ E Hn) Hr') as [(y & Hy & Fy) F]. split; auto.
    exists (x ++ y). split; [unfold adds in *; now rewrite Hy, Hx, app_assoc|]. rewrite handed_app, Fx, Fy, <- map_app.
    f_equal. symmetry. apply routed_cons.
  Qed.
End Served.
Lemma from_then_on env error_text n o k : nobody_replaces env o -> forall l0 u st l st', run env error_text l0 (init_state u) = Some st ->
  served_by st n o k -> undisturbed n o l -> run env error_text l st = Some st' ->
  (exists new, adds st st' new /\ handed o new = map (fun d => (Some k, d)) (routed n l)) /\ served_by st' n o k /\
  exists taken, buffered st o = taken ++ buffered st' o.
Proof.
  intros He l0 u st l st' H0 [Hr (c & Hc & Hcl & Hk)] U H. pose proof (run_numbered _ _ _ _ _ H0) as Hn.
  destruct (handed_run env error_text n o k (concat (ch_deque c)) He l st st' U) as [G [(c' & Hc' & Hk' & Hcl' & taken & Hq) (Hr' & _)]]; auto.
  - split; [exists c; split; [exact Hc|split; [exact Hk|split; [exact Hcl|now exists []]]]|]. split; auto. split; [apply Hn|]. intros n' Hn'. destruct (proj2 Hn _ _ Hn') as (c1 & Hc1 & <-).
    destruct (proj2 Hn _ _ Hr) as (c2 & Hc2 & <-). congruence.
  - split; auto. split; [split; auto; exists c'; auto|]. exists taken. unfold buffered. now rewrite Hc, Hc'.
Qed.
