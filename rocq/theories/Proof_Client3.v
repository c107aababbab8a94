From Verif Require Import Py Py_lemmas Dict_lemmas Model_Bencode Spec_Bencode Proof_Bencode Model_Packets
  Spec_Packets Proof_Packets Model_Client Spec_Client Proof_Client Proof_Client2.

(** ** Reading from the buffer (C17, C18, C19) *)
Lemma slice_split {A} (s : list A) i : slice_to s i ++ slice_from s i = s.
Proof. unfold slice_to, slice_from. destruct (i <? 0)%Z; apply firstn_skipn. Qed.
(** When something is left of the head, nothing remains to be read. *)
Lemma read_loop_stops (head : bytes) remaining : slice_from head (Z.min remaining (Z.of_nat (length head))) <> [] ->
  (remaining - Z.min remaining (Z.of_nat (length head)))%Z = 0%Z.
Proof.
  intros H. destruct (Z.leb_spec remaining (Z.of_nat (length head))); [lia|]. exfalso. apply H.
  rewrite Z.min_r by lia. unfold slice_from. replace (_ <? 0)%Z with false by lia. rewrite Nat2Z.id. apply skipn_all.
Qed.
Lemma read_loop_split q : forall n out q', read_loop q n = (out, q') -> out ++ concat q' = concat q.
Proof.
  induction q as [|h q IH]; cbn [read_loop]; intros n out q'.
  - intros [= <- <-]. reflexivity.
  - destruct (n =? 0)%Z; [intros [= <- <-]; reflexivity|].
    pose proof (slice_split h (Z.min n (Z.of_nat (length h)))) as Hs.
    destruct (slice_from h _) as [|x l] eqn:E.
    + destruct (read_loop q _) as [o q1] eqn:Er. intros [= <- <-]. rewrite <- app_assoc, (IH _ _ _ Er). cbn.
      rewrite app_nil_r in Hs. now rewrite Hs.
    + intros [= <- <-]. cbn [concat]. transitivity ((slice_to h (Z.min n (Z.of_nat (length h))) ++ x :: l) ++ concat q).
      * now rewrite <- app_assoc.
      * now rewrite Hs.
Qed.
Lemma read_loop_exact q : forall n out q', (0 <= n)%Z -> read_loop q n = (out, q') ->
  out = firstn (Z.to_nat n) (concat q) /\ concat q' = skipn (Z.to_nat n) (concat q).
Proof.
  induction q as [|h q IH]; cbn [read_loop]; intros n out q' Hn.
  - intros [= <- <-]. cbn. now rewrite firstn_nil, skipn_nil.
  - destruct (Z.eqb_spec n 0) as [->|Hz]; [intros [= <- <-]; auto|].
    unfold slice_to, slice_from. replace (Z.min n (Z.of_nat (length h)) <? 0)%Z with false by lia.
    destruct (Z.leb_spec n (Z.of_nat (length h))) as [Hle|Hgt].
    + rewrite Z.min_l by lia. cbn [concat]. rewrite firstn_app, skipn_app. replace (Z.to_nat n - length h) with 0 by lia.
      rewrite firstn_O, skipn_O, app_nil_r.
      destruct (skipn (Z.to_nat n) h) as [|x l] eqn:E.
      * rewrite Z.sub_diag. destruct (read_loop q 0) as [o q1] eqn:Er. intros [= <- <-].
        apply IH in Er as [-> ->]; [|lia]. cbn. now rewrite app_nil_r.
      * intros [= <- <-]. auto.
    + rewrite Z.min_r by lia. rewrite Nat2Z.id, skipn_all. destruct (read_loop q _) as [o q1] eqn:Er. intros [= <- <-].
      apply IH in Er as [-> ->]; [|lia]. cbn [concat]. rewrite firstn_all, firstn_app, skipn_app.
      rewrite (firstn_all2 h) by lia. rewrite (skipn_all2 h) by lia.
      replace (Z.to_nat (n - Z.of_nat (length h))) with (Z.to_nat n - length h) by lia. auto.
Qed.
Lemma read_loop_nonempty q : forall n out q', Forall (fun d => d <> []) q -> read_loop q n = (out, q') -> Forall (fun d => d <> []) q'.
Proof.
  induction q as [|h q IH]; cbn [read_loop]; intros n out q' HF.
  - intros [= <- <-]. constructor.
  - destruct (n =? 0)%Z; [intros [= <- <-]; auto|]. inversion HF; subst.
    destruct (slice_from h _) as [|x l] eqn:E.
    + destruct (read_loop q _) as [o q1] eqn:Er. intros [= <- <-]. eauto.
    + intros [= <- <-]. constructor; auto. discriminate.
Qed.
Lemma chan_size_concat c : chan_size c = length (concat (ch_deque c)).
Proof. unfold chan_size. induction (ch_deque c) as [|d q IH]; cbn; auto. rewrite app_length, <- IH. reflexivity. Qed.

Lemma c18 c n d c' : (0 <= n)%Z -> chan_read n c = (d, c') ->
  d = firstn (Z.to_nat n) (concat (ch_deque c)) /\ concat (ch_deque c') = skipn (Z.to_nat n) (concat (ch_deque c)) /\
  Z.of_nat (length d) = Z.min n (Z.of_nat (chan_size c)) /\ chan_size c' = chan_size c - length d.
Proof.
  intros Hn. unfold chan_read. destruct (read_loop (ch_deque c) n) as [o q] eqn:E. intros [= <- <-]. cbn [ch_deque].
  apply read_loop_exact in E as [-> E]; auto. rewrite !chan_size_concat. cbn [ch_deque]. rewrite E, firstn_length, skipn_length.
  repeat split; lia.
Qed.

Definition is_nil {A} (l : list A) : bool := match l with [] => true | _ => false end.
Definition streams (st : state) : Prop := forall o,
  match nth_error (st_heap st) o with
  | Some c => concat (map (read_data o) (history st)) ++ concat (ch_deque c) = concat (map (buffered_data o) (history st)) /\
              ch_event c = negb (is_nil (ch_deque c)) /\
              ((forall d, In (Buffered o d) (st_trace st) -> d <> []) -> Forall (fun d => d <> []) (ch_deque c))
  | None => forall e, In e (st_trace st) -> buffered_data o e = [] /\ read_data o e = []
  end.
Lemma concat_nil {A C} (f : A -> list C) l : (forall x, In x l -> f x = []) -> concat (map f l) = [].
Proof. induction l as [|x l IH]; cbn; auto. intros H. rewrite H, IH; auto. Qed.
Lemma history_emit e st : history (emit e st) = history st ++ [e].
Proof. reflexivity. Qed.
Lemma history_heap h st : history (with_heap h st) = history st.
Proof. reflexivity. Qed.

Lemma streams_new n st : streams st -> streams (new_state n st).
Proof.
  intros H o. specialize (H o). cbn. unfold history in *. cbn.
  destruct (Nat.lt_ge_cases o (length (st_heap st))) as [Hlt|Hge].
  - rewrite nth_error_app1 by auto. exact H.
  - rewrite (proj2 (nth_error_None _ _)) in H by auto. destruct (Nat.eq_dec o (length (st_heap st))) as [->|].
    + rewrite nth_error_app_new. cbn [ch_deque new_chan concat ch_event is_nil negb].
      rewrite (concat_nil (read_data (length (st_heap st)))), (concat_nil (buffered_data (length (st_heap st)))); auto;
        intros x Hx; apply in_rev in Hx; apply H in Hx; tauto.
    + rewrite (proj2 (nth_error_None _ _)); [exact H|]. rewrite app_length. cbn. lia.
Qed.
Lemma streams_emit e st : (forall o, buffered_data o e = [] /\ read_data o e = []) -> (forall o d, e <> Buffered o d) -> streams st -> streams (emit e st).
Proof.
  intros He Hb H o. specialize (H o). change (st_heap (emit e st)) with (st_heap st). destruct (nth_error (st_heap st) o) as [c|].
  - rewrite history_emit, !map_app, !concat_app. cbn. destruct (He o) as [-> ->]. cbn. rewrite !app_nil_r.
    destruct H as (H1 & H2 & H3). repeat split; auto; intros Hd; apply H3; intros d Hin; apply Hd; now right.
  - intros x [<-|Hx]; auto.
Qed.
Lemma streams_upd o f st : (forall c, ch_deque (f c) = ch_deque c /\ ch_event (f c) = ch_event c) -> streams st -> streams (upd_chan o f st).
Proof.
  intros Hf H o'. specialize (H o'). cbn. rewrite nth_upd. unfold history in *. cbn. destruct (nth_error (st_heap st) o') as [c|]; destruct (o =? o'); cbn; auto.
  destruct (Hf c) as [-> ->]. auto.
Qed.
Lemma streams_omicro st st' : omicro st st' -> streams st -> streams st'.
Proof.
  intros Hm H. destruct Hm as [st b|st n Hg|st o count c d c' Hc Hr|st o d x t].
  - apply streams_emit; auto; discriminate.
  - now apply streams_new.
  - intros o'. specialize (H o'). cbn. rewrite nth_upd. destruct (Nat.eqb_spec o o') as [<-|Hne].
    + rewrite Hc in *. cbn. unfold chan_read in Hr. destruct (read_loop (ch_deque c) count) as [out q] eqn:E. injection Hr as <- <-. cbn.
      destruct H as (H1 & H2 & H3). unfold history in *. cbn. rewrite !map_app, !concat_app. cbn. rewrite Nat.eqb_refl, !app_nil_r.
      split; [|split].
      * rewrite <- app_assoc, (read_loop_split _ _ _ _ E). exact H1.
      * pose proof (read_loop_split _ _ _ _ E). destruct q; cbn; auto. destruct (ch_deque c) eqn:Ed; [cbn in E; congruence|]. exact H2.
      * intros Hd. eapply read_loop_nonempty; [|exact E]. apply H3. intros d0 Hin. apply Hd. now right.
    + destruct (nth_error (st_heap st) o') as [c0|].
      * unfold history in *. cbn. rewrite !map_app, !concat_app. cbn. destruct (Nat.eqb_spec o o'); [tauto|]. cbn. rewrite !app_nil_r.
        destruct H as (H1 & H2 & H3). repeat split; auto; intros Hd; apply H3; intros d0 Hin; apply Hd; now right.
      * intros e [<-|He]; auto. cbn. destruct (Nat.eqb_spec o o'); [tauto|]. auto.
  - apply streams_upd; auto.
Qed.
Lemma streams_micro st st' : micro st st' -> streams st -> streams st'.
Proof.
  intros Hm H. destruct Hm; auto.
  - eapply streams_omicro; eauto.
  - assert (G : streams (upd_chan o chan_shut st)) by (apply streams_upd; auto).
    destruct (ch_close_cb c); auto. apply streams_emit; auto; discriminate.
  - apply streams_emit; auto; discriminate.
  - intros o'. specialize (H o'). cbn. rewrite nth_upd. destruct (Nat.eqb_spec o o') as [<-|Hne].
    + rewrite H0 in *. cbn. destruct H as (A1 & A2 & A3). unfold history in *. cbn. rewrite !map_app, !concat_app. cbn. rewrite Nat.eqb_refl, !app_nil_r.
      rewrite app_assoc. split; [congruence|]. split; [now destruct (ch_deque c)|].
      intros Hd. apply Forall_app. split; [apply A3; intros d0 Hin; apply Hd; now right|]. constructor; [|constructor]. apply Hd. now left.
    + destruct (nth_error (st_heap st) o') as [c0|].
      * unfold history in *. cbn. rewrite !map_app, !concat_app. cbn. destruct (Nat.eqb_spec o o'); [tauto|]. cbn. rewrite !app_nil_r.
        destruct H as (A1 & A2 & A3). repeat split; auto; intros Hd; apply A3; intros d0 Hin; apply Hd; now right.
      * intros e [<-|He]; auto. cbn. destruct (Nat.eqb_spec o o'); [tauto|]. auto.
  - apply streams_emit; auto; discriminate.
  - apply streams_emit; auto; discriminate.
  - apply streams_emit; auto; destruct e; cbn in *; try tauto; discriminate.
Qed.
Lemma streams_init u : streams (init_state u).
Proof. intros o. cbn. rewrite (proj2 (nth_error_None _ _)) by (cbn; lia). tauto. Qed.

Section Client.
  Variable env : list effect -> effect -> list (op * bool) * option exn.
  Variable error_text : list effect -> text.
  Notation step := (step env error_text).
  Notation run := (run env error_text).

  Lemma run_streams l u st : run l (init_state u) = Some st -> streams st.
  Proof. intros H. apply run_star in H. eapply star_inv; [apply streams_micro|exact H|apply streams_init]. Qed.

  Lemma c17 l u st o c : run l (init_state u) = Some st -> chan_of st o = Some c ->
    concat (map (read_data o) (history st)) ++ concat (ch_deque c) = concat (map (buffered_data o) (history st)).
  Proof. intros H Hc. apply run_streams in H. specialize (H o). unfold chan_of in Hc. rewrite Hc in H. tauto. Qed.
  Lemma c19 l u st o c : run l (init_state u) = Some st -> chan_of st o = Some c ->
    (chan_ready c = true <-> ch_deque c <> []) /\
    ((forall d, In (Buffered o d) (history st) -> d <> []) -> (chan_ready c = true <-> 0 < chan_size c)).
  Proof.
    intros H Hc. apply run_streams in H. specialize (H o). unfold chan_of in Hc. rewrite Hc in H. destruct H as (_ & H2 & H3).
    unfold chan_ready. rewrite H2. split.
    - destruct (ch_deque c); cbn; split; congruence.
    - intros Hd. assert (HF : Forall (fun d => d <> []) (ch_deque c)).
      { apply H3. intros d Hin. apply Hd. unfold history. now apply -> in_rev. }
      rewrite chan_size_concat. destruct (ch_deque c) as [|d q]; cbn; [split; [discriminate|lia]|].
      inversion HF; subst. destruct d; [congruence|]. cbn. split; [lia|auto].
  Qed.

  (** ** Silence after closing (C20) *)
  Lemma closed_upd o o' f st : (forall c, ch_closed c = true -> ch_closed (f c) = true) ->
    object_closed st o -> object_closed (upd_chan o' f st) o.
  Proof.
    intros Hf (c & Hc & Hcl). unfold object_closed, chan_of in *. cbn. rewrite nth_upd, Hc. destruct (o' =? o); cbn; eauto.
  Qed.
  Definition silent (o : nat) (st st' : state) : Prop :=
    exists new, st_trace st' = new ++ st_trace st /\ Forall (fun e => ~ touches o e) new /\ object_closed st' o.
  Lemma silent_emit o e st : object_closed st o -> ~ touches o e -> silent o st (emit e st).
  Proof. intros H He. exists [e]. repeat split; auto. Qed.
  Lemma silent_same o st st' : st_trace st' = st_trace st -> object_closed st' o -> silent o st st'.
  Proof. intros H1 H2. exists []. auto. Qed.
  Lemma silent_micro o st st' : micro st st' -> object_closed st o -> silent o st st'.
  Proof.
    intros Hm H. destruct Hm as [st st' Hm|st o' c Hc Hcl|st o' c k d Hc Hcl Hk|st o' c d Hc Hcl Hk|st o' c k d Hc Hcl| | | | | | |st e He];
      try (apply silent_same; auto; fail).
    - destruct Hm as [st b|st n Hg|st o' count c d c' Hc Hr|st o' d x t].
      + apply silent_emit; auto.
      + apply silent_same; auto. destruct H as (c & Hc & Hcl). exists c. split; auto. cbn. unfold chan_of in *. cbn. now apply nth_error_app_old.
      + exists [ReadRet o' count d]. repeat split; auto. destruct H as (c1 & Hc1 & Hcl). unfold object_closed, chan_of in *. cbn.
        rewrite nth_upd, Hc1. destruct (Nat.eqb_spec o' o) as [->|]; cbn; eauto. exists c'. split; auto.
        apply chan_read_no in Hr as (_ & -> & _). congruence.
      + apply silent_same; auto. now apply closed_upd.
    - assert (Hne : o' <> o). { intros ->. destruct H as (c1 & Hc1 & Hcl1). unfold chan_of in *. congruence. }
      assert (G : object_closed (upd_chan o' chan_shut st) o) by now apply closed_upd.
      destruct (ch_close_cb c) as [k|]; [|now apply silent_same]. exists [CloseCb k o']. repeat split; auto.
    - assert (Hne : o' <> o). { intros ->. destruct H as (c1 & Hc1 & Hcl1). unfold chan_of in *. congruence. }
      now apply silent_emit.
    - assert (Hne : o' <> o). { intros ->. destruct H as (c1 & Hc1 & Hcl1). unfold chan_of in *. congruence. }
      exists [Buffered o' d]. repeat split; auto. now apply closed_upd.
    - assert (Hne : o' <> o). { intros ->. destruct H as (c1 & Hc1 & Hcl1). unfold chan_of in *. congruence. }
      now apply silent_emit.
    - apply silent_emit; auto.
    - apply silent_emit; auto. destruct e; cbn in *; tauto.
  Qed.
  Lemma silent_star o st st' : star micro st st' -> object_closed st o -> silent o st st'.
  Proof.
    induction 1 as [|x y z Hm Hs IH]; intros H; [now apply silent_same|].
    destruct (silent_micro _ _ _ Hm H) as (n1 & E1 & F1 & C1). destruct (IH C1) as (n2 & E2 & F2 & C2).
    exists (n2 ++ n1). rewrite E2, E1, app_assoc. repeat split; auto. now apply Forall_app.
  Qed.
  Lemma c20 l st st' o : object_closed st o -> run l st = Some st' ->
    object_closed st' o /\ exists new, adds st st' new /\ Forall (fun e => ~ touches o e) new.
  Proof.
    intros Ho H. apply run_star in H. destruct (silent_star o _ _ H Ho) as (new & E & F & C). split; auto.
    exists (rev new). split; [unfold adds, history; now rewrite E, rev_app_distr|]. now apply Forall_rev.
  Qed.
  Lemma c20_ops st o p : object_closed st o -> (exists d, p = OpWrite o d) \/ (exists j, p = OpControl o j) \/ p = OpClose o ->
    do_op env p st = (st, Ok tt).
  Proof.
    intros (c & Hc & Hcl) Hp. unfold chan_of in Hc.
    destruct Hp as [[d ->]|[[j ->]| ->]]; cbn; unfold chan_write, chan_control, chan_close; now rewrite Hc, Hcl.
  Qed.

  (** Each object's close callback has run at most once, and only on closed objects. *)
  Definition once (st : state) : Prop := forall o,
    (0 < close_cbs o (st_trace st) -> object_closed st o) /\ close_cbs o (st_trace st) <= 1.
  Lemma close_cbs_app o l m : close_cbs o (l ++ m) = close_cbs o l + close_cbs o m.
  Proof. unfold close_cbs. now rewrite filter_app, app_length. Qed.
  Lemma close_cbs_quiet o new : Forall (fun e => ~ touches o e) new -> close_cbs o new = 0.
  Proof.
    unfold close_cbs. induction 1 as [|e l He Hl IH]; auto. cbn [filter]. destruct e; auto. cbn in He.
    destruct (Nat.eqb_spec o0 o); [tauto|auto].
  Qed.
  Lemma once_micro st st' : micro st st' -> once st -> once st'.
  Proof.
    intros Hm H o. destruct (H o) as [H1 H2]. destruct (close_cbs o (st_trace st)) as [|n] eqn:E.
    - assert (G : close_cbs o (st_trace st') = 0 -> (0 < close_cbs o (st_trace st') -> object_closed st' o) /\ close_cbs o (st_trace st') <= 1) by (intros ->; lia).
      destruct Hm as [st st' Hm|st o' c Hc Hcl| | | | | | | | | |st e He]; try (apply G; exact E).
      + destruct Hm; apply G; exact E.
      + destruct (ch_close_cb c) as [k|]; [|apply G; exact E]. unfold close_cbs in *. cbn in *.
        destruct (Nat.eqb_spec o' o) as [->|]; cbn in *; rewrite E; [|lia]. split; auto. intros _. exists (chan_shut c).
        split; auto. unfold chan_of. cbn. rewrite nth_upd, Nat.eqb_refl, Hc. reflexivity.
      + destruct e; try destruct He; apply G; exact E.
    - destruct (silent_micro o _ _ Hm) as (new & -> & F & C); [apply H1; lia|].
      rewrite close_cbs_app, (close_cbs_quiet _ _ F), E. split; auto.
  Qed.
  Lemma close_cbs_rev o l : close_cbs o (rev l) = close_cbs o l.
  Proof.
    induction l as [|e l IH]; auto. cbn [rev]. rewrite close_cbs_app, IH. change (e :: l) with ([e] ++ l). rewrite close_cbs_app. lia.
  Qed.
  Lemma c20_once l u st o : run l (init_state u) = Some st -> close_cbs o (history st) <= 1.
  Proof.
    intros H. apply run_star in H. unfold history. rewrite close_cbs_rev.
    apply (star_inv _ once once_micro _ _ H). intros o'. cbn. split; [lia|auto].
  Qed.

  (** ** What each action may do *)
  Definition emits (P : effect -> Prop) (a : action) : Prop := forall st st' r, a st = (st', r) ->
    exists new, st_trace st' = new ++ st_trace st /\ Forall P new.
  Lemma emits_skip P st : exists new, st_trace st = new ++ st_trace st /\ Forall P new.
  Proof. exists []. auto. Qed.
End Client.
