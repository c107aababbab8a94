From Verif Require Import Py Py_lemmas Dict_lemmas Model_Bencode Spec_Bencode Proof_Bencode Model_Packets
  Spec_Packets Proof_Packets Model_Client Spec_Client Proof_Client Proof_Client2 Proof_Client3 Proof_Client4 Proof_Client5.

Lemma sublist_refl {A} (l : list A) : sublist l l.
Proof. induction l; [apply sub_nil|now apply sub_keep]. Qed.
Lemma sublist_nil {A} (l : list A) : sublist [] l.
Proof. induction l; [apply sub_nil|now apply sub_skip]. Qed.
Lemma sublist_app {A} (a b c d : list A) : sublist a b -> sublist c d -> sublist (a ++ c) (b ++ d).
Proof. induction 1; cbn; auto; intros; [apply sub_skip|apply sub_keep]; auto. Qed.

Definition open_inv (st : state) : Prop := forall n o, registered st n = Some o -> exists c, chan_of st o = Some c /\ ch_closed c = false.
Fixpoint pend (k : nat) (d : list (Z * list nat)) : nat :=
  match d with [] => 0 | p :: r => count_occ Nat.eq_dec (snd p) k + pend k r end.

Lemma pend_del k cmd d ks : dict_get Z.eqb cmd d = Some ks -> pend k (dict_del Z.eqb cmd d) + count_occ Nat.eq_dec ks k = pend k d.
Proof.
  induction d as [|[c l] d IH]; cbn; [discriminate|]. destruct (c =? cmd)%Z.
  - intros [= ->]. lia.
  - intros H. apply IH in H. cbn. lia.
Qed.
Lemma pend_add k cmd j d : pend k (dict_set Z.eqb cmd ((match dict_get Z.eqb cmd d with Some l => l | None => [] end) ++ [j]) d) =
  pend k d + (if Nat.eq_dec j k then 1 else 0).
Proof.
  induction d as [|[c l] d IH]; cbn.
  - destruct (Nat.eq_dec j k); lia.
  - destruct (c =? cmd)%Z; cbn; [|rewrite IH; lia]. rewrite count_occ_app. cbn. destruct (Nat.eq_dec j k); lia.
Qed.
Lemma cmd_runs_app k l m : cmd_runs k (l ++ m) = cmd_runs k l + cmd_runs k m.
Proof. unfold cmd_runs. now rewrite filter_app, app_length. Qed.
Lemma cmd_runs_filter k l : cmd_runs k l = cmd_runs k (filter is_cmd l).
Proof. unfold cmd_runs. induction l as [|[]]; cbn; auto. destruct (k0 =? k); cbn; auto. Qed.
Lemma cmd_runs_map k cmd res ks : cmd_runs k (map (fun j => CmdCb j cmd res) ks) = count_occ Nat.eq_dec ks k.
Proof.
  unfold cmd_runs. induction ks as [|j ks IH]; cbn; auto. destruct (Nat.eqb_spec j k), (Nat.eq_dec j k); cbn; try tauto; auto.
Qed.
Lemma cmd_runs_none k l : Forall (fun e => is_cmd e = false) l -> cmd_runs k l = 0.
Proof. intros H. rewrite cmd_runs_filter. replace (filter is_cmd l) with (@nil effect); auto. induction H as [|e l He H IH]; cbn; auto. now rewrite He. Qed.

Section Client.
  Variable env : list effect -> effect -> list (op * bool) * option exn.
  Variable error_text : list effect -> text.
  Notation step := (step env error_text).
  Notation run := (run env error_text).
  Notation run_handler := (run_handler env error_text).

  Lemma run_cons i l st : run (i :: l) st = match step i st with (s, Hang) => None | (s, _) => run l s end.
  Proof. reflexivity. Qed.
  (** Induction over a session. *)
  Lemma run_ind_inv (I : state -> Prop) : (forall i st st' r, step i st = (st', r) -> I st -> I st') ->
    forall l st st', run l st = Some st' -> I st -> I st'.
  Proof.
    intros H. induction l as [|i l IH]; intros st st'; [intros [= <-]; auto|]. rewrite run_cons.
    destruct (step i st) as [s x] eqn:E. destruct x; try discriminate; intros Hr Hi; eapply IH; eauto.
  Qed.
  Lemma run_numbered l u st : run l (init_state u) = Some st -> numbered st.
  Proof. intros H. apply run_star in H. eapply numbered_star; eauto. apply numbered_init. Qed.
  Lemma step_numbered i st st' r : step i st = (st', r) -> numbered st -> numbered st'.
  Proof. intros H. apply step_spec in H as [H _]. now apply numbered_star. Qed.

  (** ** Delivery over a session (C21) *)
  Lemma select_new st st' n l : same_numbers st st' -> deliverable st -> history st' = history st ++ l ->
    delivered n st' = delivered n st ++ map snd (filter (select st' n) (deliveries l)).
  Proof.
    intros Hs Hd E. unfold delivered. change (fun x : nat * bytes => match chan_of st' (fst x) with Some c => (ch_no c =? n)%Z | None => false end) with (select st' n).
    change (fun x : nat * bytes => match chan_of st (fst x) with Some c => (ch_no c =? n)%Z | None => false end) with (select st n).
    rewrite E, deliveries_app, filter_app, map_app. f_equal. f_equal. now apply select_stable.
  Qed.
  Lemma delivered_step i n st st' r : numbered st -> deliverable st -> step i st = (st', r) ->
    deliverable st' /\ exists x, delivered n st' = delivered n st ++ x /\ sublist x (routed n [i]) /\ (open_inv st -> x = routed n [i]).
  Proof.
    intros Hn Hd H. pose proof (step_numbered _ _ _ _ H Hn) as Hn'.
    pose proof (step_spec _ _ _ _ _ _ H) as (Hst & _). pose proof (numbers_star _ _ Hst) as Hnum.
    assert (Hold : forall l, Forall (fun x => exists c, chan_of st (fst x) = Some c) l -> Forall (fun x : nat * bytes => exists c, chan_of st' (fst x) = Some c) l).
    { intros l Hl. eapply Forall_impl; [|exact Hl]. intros x (c & Hc). destruct (Hnum _ _ Hc) as (c' & Hc' & _). eauto. }
    destruct (route_of i) as [[n' d]|] eqn:Er.
    - destruct (c21_step _ _ _ _ _ _ _ _ Er Hn H) as (new & Ha & Hr).
      assert (Hroute : routed n [i] = if (n' =? n)%Z then [d] else []) by (cbn; rewrite Er; now destruct (n' =? n)%Z).
      assert (Hone : exists o c', chan_of st' o = Some c' /\ ch_no c' = n' /\ (deliveries new = [(o, d)] \/ deliveries new = [] /\ ~ open_inv st)).
      { destruct (registered st n') as [o|] eqn:Eo.
        - destruct Hr as (c & Hc & Hno & Hdel). destruct (Hnum _ _ Hc) as (c' & Hc' & E'). exists o, c'. split; auto. split; [congruence|].
          destruct (ch_closed c) eqn:Ecl; auto. right. split; auto. intros Ho. destruct (Ho _ _ Eo) as (c2 & Hc2 & Hcl). congruence.
        - destruct Hr as [Hreg Hdel]. destruct (proj2 Hn' _ _ Hreg) as (c & Hc & Hno). exists (length (st_heap st)), c. auto. }
      destruct Hone as (o & c' & Hc' & Hno & Hdel).
      split.
      + unfold deliverable. rewrite Ha, deliveries_app. apply Forall_app. split; [now apply Hold|].
        destruct Hdel as [->|[-> _]]; repeat constructor; cbn; eauto.
      + eexists. split; [apply select_new; eauto|]. rewrite Hroute. destruct Hdel as [->|[-> Hno']].
        * cbn [filter]. unfold select. cbn [fst]. rewrite Hc', Hno. destruct (n' =? n)%Z; cbn; split; auto using sublist_refl.
        * cbn. split; [apply sublist_nil|tauto].
    - destruct (no_delivery_step _ _ _ _ _ _ H Er) as (new & Ha & Hr). split.
      + unfold deliverable. rewrite Ha, deliveries_app, Hr, app_nil_r. now apply Hold.
      + eexists. split; [apply select_new; eauto|]. rewrite Hr. cbn. rewrite Er. split; [constructor|auto].
  Qed.
  Lemma routed_cons n i l : routed n (i :: l) = routed n [i] ++ routed n l.
  Proof. cbn. destruct (route_of i) as [[n' d]|]; auto. destruct (n' =? n)%Z; auto. Qed.
  Lemma delivered_run n l : forall st st', numbered st -> deliverable st -> run l st = Some st' ->
    exists x, delivered n st' = delivered n st ++ x /\ sublist x (routed n l).
  Proof.
    induction l as [|i l IH]; intros st st' Hn Hd; [intros [= <-]; exists []; rewrite app_nil_r; split; auto; constructor|].
    rewrite run_cons. destruct (step i st) as [s x] eqn:E. intros H. assert (H' : run l s = Some st') by (destruct x; congruence || discriminate).
    destruct (delivered_step i n _ _ _ Hn Hd E) as (Hd' & x1 & E1 & S1 & _).
    destruct (IH s st' (step_numbered _ _ _ _ E Hn) Hd' H') as (x2 & E2 & S2).
    exists (x1 ++ x2). rewrite E2, E1, app_assoc. split; auto. rewrite routed_cons. now apply sublist_app.
  Qed.
  Lemma c21_history n l u st : run l (init_state u) = Some st -> sublist (delivered n st) (routed n l).
  Proof.
    intros H. destruct (delivered_run n l _ _ (numbered_init u) (Forall_nil _) H) as (x & -> & S). exact S.
  Qed.

  (** ** Registered objects are open, unless the connection dropped *)
  Lemma open_ext P st st' : ext P st st' -> open_inv st -> open_inv st'.
  Proof.
    intros [A1 A2 A3 A4 A6 A7 A8] H n o Ho. destruct (registered st n) as [o'|] eqn:E.
    - pose proof (A7 _ _ E). assert (o' = o) as -> by congruence. destruct (H _ _ E) as (c & Hc & Hcl).
      destruct (A6 _ _ Hc) as (c' & Hc' & _ & Ecl). exists c'. split; auto. congruence.
    - now apply A8 with n.
  Qed.
  Lemma notify_close_spec n st st' r : numbered st -> run_handler HNotifyClose [VInt n] st = (st', r) ->
    registered st' n = None /\ keeps st st' /\ (open_inv st -> open_inv st').
  Proof.
    intros Hn H. pose proof (run_handler_good env error_text _ _ _ _ _ H) as [Hstar _]. cbn [Model_Client.run_handler as_int] in H.
    destruct (dict_get Z.eqb n (st_chans st)) as [o|] eqn:Eo.
    - apply seq_spec in H as [(s & H1 & H2)|[H1 H2]]; [|apply chan_on_close_spec in H1 as [-> _]; congruence].
      injection H2 as <- _. pose proof (chan_on_close_good env o _ _ _ H1) as [Hs _]. pose proof (numbered_star _ _ Hs Hn) as [Hnd _].
      pose proof (chan_on_close_grows env o _ _ _ H1) as [_ K]. split; [|split; [exact K|]].
      + unfold registered. cbn. rewrite (get_del _ Z.eqb_spec) by auto. now rewrite Z.eqb_refl.
      + intros Hop m o' Hreg. unfold registered in Hreg. cbn in Hreg. rewrite (get_del _ Z.eqb_spec) in Hreg by auto.
        destruct (Z.eqb_spec n m) as [->|Hne]; [discriminate|].
        apply chan_on_close_spec in H1 as (_ & s0 & H0 & X). unfold chan_of. cbn.
        assert (C0 : st_chans s0 = st_chans st) by (destruct H0 as [[-> _]|[->|[k ->]]]; reflexivity).
        destruct (registered s0 m) as [o2|] eqn:E2.
        * pose proof (ex_old _ _ _ X _ _ E2) as E3. unfold registered in E3. assert (o2 = o') as -> by congruence.
          unfold registered in E2. rewrite C0 in E2. destruct (Hop _ _ E2) as (c & Hc & Hcl).
          assert (o' <> o).
          { intros ->. destruct (proj2 Hn _ _ Eo) as (c1 & Hc1 & N1). destruct (proj2 Hn _ _ E2) as (c2 & Hc2 & N2). congruence. }
          assert (Hs0 : nth_error (st_heap s0) o' = Some c).
          { unfold chan_of in Hc. destruct H0 as [[-> _]|[->|[k ->]]]; auto; cbn; rewrite nth_upd; destruct (Nat.eqb_spec o o'); congruence. }
          destruct (ex_heap _ _ _ X _ _ Hs0) as (c' & Hc' & _ & Ecl). exists c'. split; auto. congruence.
        * apply (ex_new _ _ _ X m); auto.
    - injection H as <- _. split; [exact Eo|]. split; [apply keeps_refl|auto].
  Qed.
End Client.
