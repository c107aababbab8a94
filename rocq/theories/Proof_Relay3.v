(** * A port forward whose local server cannot be reached (C134) *)
From Verif Require Import Py Py_lemmas Model_Process Model_Forward Model_Client Spec_Client Proof_Client2 Spec_Outbound Spec_Early Model_Relay Spec_Relay Proof_Relay Proof_Relay2.

Lemma failed_stays a c : c_pc c = CFailed -> c_pc (cstep a c) = CFailed.
Proof.
  intros H. destruct a as [d| |s|ok|s]; cbn [cstep]; try (destruct (m_pc c); auto; destruct (Model_Forward.chan_closed c); auto; fail).
  - unfold step_m, set_m, set_buffer, set_socket, set_shut, sendall. destruct c as [mp cp lk so bu cc sh ar de sf]. cbn in *.
    destruct mp as [|d|d| |cl|cl [|d r]|cl f| |]; try destruct lk; try destruct so; cbn; auto.
  - now rewrite H.
  - unfold step_c. now rewrite H.
Qed.
Lemma connected_stays a c : c_pc c = CConnected -> c_pc (cstep a c) = CConnected.
Proof.
  intros H. destruct a as [d| |s|ok|s]; cbn [cstep]; try (destruct (m_pc c); auto; destruct (Model_Forward.chan_closed c); auto; fail).
  - unfold step_m, set_m, set_buffer, set_socket, set_shut, sendall. destruct c as [mp cp lk so bu cc sh ar de sf]. cbn in *.
    destruct mp as [|d|d| |cl|cl [|d r]|cl f| |]; try destruct lk; try destruct so; cbn; auto.
  - now rewrite H.
  - unfold step_c. now rewrite H.
Qed.
(** Only a connection that is established receives. *)
Definition busy_only (stream : bytes) (t : tunnel) : Prop :=
  match t_loop t with
  | LConnecting => t_rest t = stream
  | LCheck | LPolling | LEvents _ => c_pc (t_in t) = CConnected
  | LLeaving | LGone => c_pc (t_in t) = CConnected \/ t_rest t = stream
  end.
Lemma with_in_only stream t a : busy_only stream t -> busy_only stream (with_in t (cstep a (t_in t))).
Proof.
  unfold busy_only, with_in. cbn [t_in t_loop t_rest]. destruct (t_loop t); auto using connected_stays; intros [H|H]; auto using connected_stays.
Qed.
Lemma connected_only stream t : c_pc (t_in t) = CConnected -> t_loop t <> LConnecting -> busy_only stream t.
Proof. unfold busy_only. destruct (t_loop t); auto. intros _ H. now destruct H. Qed.
Lemma act_only chunk stream a b t : busy_only stream t -> busy_only stream (fst (tunnel_act chunk a b t)).
Proof.
  intros H. destruct a as [s|ok|s|ok| | |[l|]|r k|e]; cbn [tunnel_act fst]; try (now apply with_in_only);
    try (unfold busy_only in *; cbn [t_in t_loop t_rest]; exact H);
    destruct (t_loop t) eqn:L; try exact H; try (now apply with_in_only); pose proof H as H0; unfold busy_only in H0; rewrite L in H0.
  - destruct (c_pc (t_in t)) eqn:Ec; try exact H; [destruct ok|]; unfold busy_only; cbn; auto.
  - apply connected_only; [exact H0|]. cbn. destruct (t_event t); discriminate.
  - apply connected_only; [exact H0|]. cbn. destruct b; [discriminate|]. destruct l; discriminate.
  - apply connected_only; [exact H0|]. discriminate.
  - destruct l as [|mask l]; [exact H|]. destruct (readable mask).
    + destruct r as [n|]; [|apply connected_only; [exact H0|discriminate]].
      destruct (firstn _ (t_rest t)); [apply connected_only; [exact H0|discriminate]|].
      destruct k; apply connected_only; try exact H0; cbn; [destruct l|]; discriminate.
    + apply connected_only; [exact H0|]. cbn. destruct l; discriminate.
  - unfold busy_only. cbn. exact H0.
Qed.
Lemma turns_only chunk stream t evs t' ws : fturns chunk t evs t' ws -> busy_only stream t -> busy_only stream t'.
Proof.
  induction 1 as [s|s x d s1 w evs s2 ws _ E _ IH|s x s1 w evs s2 ws _ E _ IH|s a b s1 w evs s2 ws E T IH]; intros G; auto.
  - apply IH. apply pair_equal_spec in E as [<- _]. now apply with_in_only.
  - apply IH. apply pair_equal_spec in E as [<- _]. now apply with_in_only.
  - apply IH. pose proof (act_only chunk stream a b s G) as K. now rewrite E in K.
Qed.
Lemma nothing_left ds (rest : bytes) : Forall (fun d : bytes => d <> []) ds -> concat ds ++ rest = rest -> ds = [].
Proof.
  destruct ds as [|d ds]; auto. intros F E. inversion F as [|? ? N _]; subst. apply (f_equal (@length _)) in E. cbn in E. rewrite !app_length in E.
  destruct d; [now destruct N|]. cbn in E. lia.
Qed.
Lemma c134 env et o kd kc chunk l st c event stream st' t : (Z.of_nat chunk < 2 ^ 63)%Z -> respected env o -> seated st o kd kc c -> others o l ->
  forward_session env et o kd kc chunk l st event stream = Some (st', t) -> ~ object_closed st' o -> gave_up t ->
  exists new, adds st st' new /\ t_rest t = stream /\ (heard (ch_no c) new = [] \/ heard (ch_no c) new = [SClose]) /\
    (t_loop t = LGone -> ~ In (TLeave 0) (own_steps l) -> heard (ch_no c) new = [SClose]).
Proof.
  intros Hc He Hs Hl H Ho F. destruct (forward_relay _ _ _ _ _ _ _ _ _ _ _ _ _ Hc He Hs Hl H) as (evs & ws & l1 & T & _).
  assert (R : t_rest t = stream).
  { pose proof (turns_only _ stream _ _ _ _ T eq_refl) as B. unfold busy_only, gave_up in *. rewrite F in B. destruct (t_loop t); auto; try discriminate; destruct B as [B|B]; auto; discriminate. }
  destruct (c110 _ _ _ _ _ _ _ _ _ _ _ _ _ Hc He Hs Hl H Ho) as (new & ds & cl & A & E & C & D & K & G).
  rewrite R in C. assert (ds = []) as -> by (apply (nothing_left ds stream); auto; eapply Forall_impl; [|exact D]; intros d [X _]; exact X).
  cbn in E. exists new. rewrite E. repeat split; auto. destruct K as [-> |[-> _]]; auto.
Qed.
(** The steps of the threads are always possible. *)
Lemma speak_some env et o ws : forall st, exists st', speak env et o ws st = Some st'.
Proof.
  unfold speak. induction ws as [|w ws IH]; intros st; [now exists st|]. cbn [map run].
  destruct (step env et (InOp (word_op o w)) st) as [st1 r] eqn:E. destruct (step_spec _ _ _ _ _ _ E) as (_ & _ & N).
  destruct r; [apply IH|apply IH|]. destruct (proj1 N eq_refl) as (m & X & _). discriminate X.
Qed.
Lemma step_own env et o kd kc chunk a st t : exists st1 b,
  move_step tunnel unit tunnel_step tunnel_busy tunnel_data tunnel_close (tunnel_act chunk) env et o kd (Some kc) (Own a) (st, t) = Some (st1, fst (tunnel_act chunk a b t)).
Proof.
  cbn [move_step]. destruct (tunnel_act chunk a (shut_now o st) t) as [t1 ws] eqn:E. destruct (speak_some env et o ws st) as [st1 ->]. exists st1, (shut_now o st). now rewrite E.
Qed.
Lemma c134_ends env et o kd kc chunk l st c event stream st' t ok elapsed : (Z.of_nat chunk < 2 ^ 63)%Z -> respected env o -> seated st o kd kc c -> others o l ->
  forward_session env et o kd kc chunk l st event stream = Some (st', t) -> gave_up t ->
  exists st2 t2, forward_session env et o kd kc chunk (l ++ [Own (TEnter ok); Own (TLeave elapsed)]) st event stream = Some (st2, t2) /\ gave_up t2 /\ t_loop t2 = LGone.
Proof.
  intros Hc He Hs Hl H F. assert (L : t_loop t = LConnecting \/ t_loop t = LLeaving \/ t_loop t = LGone).
  { destruct (forward_relay _ _ _ _ _ _ _ _ _ _ _ _ _ Hc He Hs Hl H) as (evs & ws & l1 & T & _).
    pose proof (turns_only _ stream _ _ _ _ T eq_refl) as B. unfold busy_only, gave_up in *. rewrite F in B. destruct (t_loop t); auto; discriminate. }
  unfold forward_session in *. rewrite move_app, H. cbn [move_run].
  destruct (step_own env et o kd kc chunk (TEnter ok) st' t) as (s1 & b1 & ->). set (t1 := fst (tunnel_act chunk (TEnter ok) b1 t)).
  destruct (step_own env et o kd kc chunk (TLeave elapsed) s1 t1) as (s2 & b2 & ->). exists s2. eexists. split; [reflexivity|].
  unfold t1, gave_up in *. cbn [tunnel_act].
  destruct L as [L|[L|L]]; rewrite L; [rewrite F; cbn; auto|cbn; rewrite L; cbn; auto|cbn; rewrite L; cbn; auto].
Qed.
(** Another connection's end *)
Lemma c34_heard env et o kd kc chunk l st c event stream st' t elapsed : (Z.of_nat chunk < 2 ^ 63)%Z -> respected env o -> seated st o kd kc c -> others o l ->
  forward_session env et o kd kc chunk l st event stream = Some (st', t) -> t_loop t = LCheck -> elapsed <> 0%Z -> ~ In (TLeave 0) (own_steps l) ->
  exists st2 t2, forward_session env et o kd kc chunk (l ++ [Own TOtherEnds; Own TCheck; Own (TLeave elapsed)]) st event stream = Some (st2, t2) /\
    t_loop t2 = LGone /\ t_rest t2 = t_rest t /\ t_in t2 = t_in t /\
    (~ object_closed st2 o -> exists new ds, adds st st2 new /\ heard (ch_no c) new = map SData ds ++ [SClose] /\ concat ds ++ t_rest t = stream).
Proof.
  intros Hc He Hs Hl H L N Z0.
  assert (E : exists st2 t2, forward_session env et o kd kc chunk (l ++ [Own TOtherEnds; Own TCheck; Own (TLeave elapsed)]) st event stream = Some (st2, t2) /\
    t_loop t2 = LGone /\ t_rest t2 = t_rest t /\ t_in t2 = t_in t).
  { unfold forward_session in *. rewrite move_app, H. cbn [move_run].
    destruct (step_own env et o kd kc chunk TOtherEnds st' t) as (s1 & b1 & ->). set (t1 := fst (tunnel_act chunk TOtherEnds b1 t)).
    destruct (step_own env et o kd kc chunk TCheck s1 t1) as (s2 & b2 & ->). set (t2 := fst (tunnel_act chunk TCheck b2 t1)).
    destruct (step_own env et o kd kc chunk (TLeave elapsed) s2 t2) as (s3 & b3 & ->). exists s3. eexists. split; [reflexivity|].
    unfold t2, t1. cbn [tunnel_act fst t_loop]. rewrite L. cbn. auto. }
  destruct E as (st2 & t2 & E & A & R & I). exists st2, t2. repeat split; auto. intros Ho.
  assert (Hl2 : others o (l ++ [Own TOtherEnds; Own TCheck; Own (TLeave elapsed)] : list (@move unit tunnel_step))) by (apply Forall_app; split; auto; repeat constructor).
  destruct (c110 env et o kd kc chunk _ st c event stream st2 t2 Hc He Hs Hl2 E Ho) as (new & ds & cl & A1 & B1 & C1 & _ & _ & G).
  exists new, ds. rewrite <- R. rewrite G in B1; auto. intros X. unfold own_steps in X. rewrite flat_map_app in X. apply in_app_or in X as [X|X]; [now apply Z0|].
  cbn in X. repeat destruct X as [X|X]; try discriminate; auto. injection X as ->. now apply N.
Qed.
