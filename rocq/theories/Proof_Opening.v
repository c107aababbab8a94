From Verif Require Import Py Py_lemmas Dict_lemmas Model_Bencode Spec_Bencode Proof_Bencode Model_Process Model_Limiter Model_Manager Proof_Manager Model_Client Spec_Client
  Proof_Client Proof_Client2 Proof_Client4 Proof_Client6 Spec_Early Spec_Outbound Proof_Outbound Spec_System Proof_System Proof_System2
  Model_Relay Spec_Relay Proof_Relay Proof_Relay2 Model_Opening Spec_Opening.
From Verif Require Spec_Manager.
Local Open Scope nat_scope.

Lemma deed_by mgr m s data rest d : decode m = Ok (VList (VInt 16 :: VBytes s :: VDict data :: rest)) -> on_instruction_packet (VDict data) mgr = Ok [d] ->
  deed_for mgr (InEvent (EvBinary m)) d.
Proof.
  intros Hd Ho. destruct (c41 data mgr) as (ds & E & _ & Hi). rewrite Ho in E. injection E as <-. exists m, s, data. split; [reflexivity|].
  split; [exists rest; exact Hd|]. apply Hi. now left.
Qed.
(** ** The step of an instruction *)
Lemma on_number n d : on_channel n d -> number_of d = Some n.
Proof. destruct 1; reflexivity. Qed.
Lemma instructed env et json ks m v n st i d st' r : deed_for m i d -> on_channel n d -> obeys env json ks m v n st i -> step env et i st = (st', r) ->
  exists s data x, do_ops env ((OpOpen n, false) :: use json ks v (object_for n st) d) (emit (Instruction s data) st) = (st', x) /\ r = Ok tt.
Proof.
  intros Hd Hn Ho H. apply deed_for_call in Hd as (s & data & Hc & Hb & Ha). pose proof (Ho _ _ Hc) as He.
  destruct Hc as (msg & t & vs & rest & -> & Hm & Hk). destruct (asks_meaning _ _ _ _ _ Hm Hk) as (h & Em & Eh).
  assert (h = HInstruction /\ vs = [VBytes s; VDict data]) as [-> ->].
  { inversion Hk; subst. split; [|reflexivity]. destruct h; cbn in Eh; try discriminate; reflexivity. }
  cbn [step on_event] in H. apply guard_spec in H as (r1 & H & Hr). destruct (on_binary_eq env et msg st) as (x & E & _). rewrite E, Em in H.
  cbn [run_handler] in H. apply guard_spec in H as (r2 & H & Hr2). unfold callback in H. rewrite He in H.
  unfold manager_reply in H. rewrite (asked_is_done _ _ _ Hb Ha) in H. cbn [flat_map] in H. rewrite app_nil_r in H. unfold carry_out in H. rewrite (on_number _ _ Hn) in H.
  exists (VBytes s), (VDict data), r2. unfold seq in H. destruct (do_ops env _ (emit _ st)) as [s1 y] eqn:Ed.
  assert (Hy : y <> Hang) by (apply do_ops_star in Ed; tauto).
  assert (X : s1 = st' /\ y = r2) by (destruct y as [[]|e|]; cbn in H; injection H as <- <-; auto). destruct X as [-> ->].
  split; [reflexivity|]. apply Hr. rewrite (Hr2 Hy). discriminate.
Qed.
(** ** The channel is open *)
Lemma open_channel n st e : reached st -> ~ dead_number st n -> let st1 := snd (Model_Client.get_channel n (emit e st)) in let o := object_for n st in
  registered st1 n = Some o /\ st_trace st1 = e :: st_trace st /\ exists c, chan_of st1 o = Some c /\ ch_no c = n /\ ch_closed c = false.
Proof.
  intros Hr Hd. cbn zeta. unfold object_for. destruct (reached_placed st Hr) as [N _].
  destruct (get_channel_spec n st) as [(o & G & ->)|[G ->]]; unfold Model_Client.get_channel; cbn [emit st_chans]; rewrite G; cbn [fst snd].
  - split; [exact G|]. split; [reflexivity|]. destruct (proj2 N _ _ G) as (c & C & E). exists c. split; [exact C|]. split; [exact E|].
    destruct (ch_closed c) eqn:Ec; auto. destruct Hd. exists o. split; [exact G|]. exists c. auto.
  - split; [unfold registered; cbn; apply get_set_eq; apply Z.eqb_spec|]. split; [reflexivity|]. exists (new_chan n). split; [|split; reflexivity].
    unfold chan_of. cbn. rewrite nth_error_app2, Nat.sub_diag by lia. reflexivity.
Qed.

Lemma shut_channel n st e : dead_number st n -> let st1 := snd (Model_Client.get_channel n (emit e st)) in let o := object_for n st in
  st1 = emit e st /\ registered st n = Some o /\ object_closed st1 o.
Proof.
  intros (o & G & C). cbn zeta. unfold object_for, Model_Client.get_channel. cbn [emit st_chans]. unfold registered in G. rewrite G. cbn [fst snd]. auto.
Qed.
Lemma do_ops_open env n l st : do_ops env ((OpOpen n, false) :: l) st = do_ops env l (snd (Model_Client.get_channel n st)).
Proof. reflexivity. Qed.
Lemma do_ops_cbs env o d x t l st : do_ops env ((OpSetCbs o d x t, false) :: l) st = do_ops env l (upd_chan o (chan_set_cbs d x t) st).
Proof. reflexivity. Qed.
Lemma upd_same o f st c : chan_of st o = Some c -> chan_of (upd_chan o f st) o = Some (f c).
Proof. unfold chan_of, upd_chan. cbn. intros H. rewrite nth_upd, H, Nat.eqb_refl. reflexivity. Qed.
Lemma reached_step env et u l i st st' : run env et l (init_state u) = Some st -> step env et i st = (st', Ok tt) -> reached st'.
Proof. intros H E. exists env, et, u, (l ++ [i]). rewrite run_app, H. cbn [run]. now rewrite E. Qed.
Lemma instruction_mute n s d : heard n [Instruction s d] = [].
Proof. reflexivity. Qed.
Lemma adds_cons st st' e new : st_trace st' = e :: st_trace st -> adds st st' new -> new = [e].
Proof. unfold adds, history. intros ->. cbn. intros H. symmetry. eapply app_inv_head. exact H. Qed.

(** ** C115 *)
Lemma c115 env et u l st i m d n json ks st' r : run env et l (init_state u) = Some st -> deed_for m i d -> on_channel n d ->
  obeys env json ks m Starts n st i -> ~ dead_number st n -> step env et i st = (st', r) ->
  exists o c, registered st' n = Some o /\ ch_no c = n /\ connected ks d st' o c /\ forall new, adds st st' new -> heard n new = [].
Proof.
  intros Hrun Hd Hn Ho Hdead H. assert (Hr : reached st) by (exists env, et, u, l; exact Hrun).
  destruct (instructed _ _ _ _ _ _ _ _ _ _ _ _ Hd Hn Ho H) as (s & data & x & E & ->). pose proof (reached_step _ _ _ _ _ _ _ Hrun H) as Hr'.
  rewrite do_ops_open in E. destruct (open_channel n st (Instruction s data) Hr Hdead) as (R & T & c & C & N & K).
  set (st1 := snd (Model_Client.get_channel n (emit (Instruction s data) st))) in *. set (o := object_for n st) in *.
  assert (Hq : forall st2, st_trace st2 = st_trace st1 -> forall new, adds st st2 new -> heard n new = []).
  { intros st2 T2 new A. rewrite T in T2. rewrite (adds_cons _ _ _ _ T2 A). reflexivity. }
  exists o. destruct Hn; cbn [use install] in E; unfold install in E; rewrite ?do_ops_cbs in E; apply pair_equal_spec in E as [<- _].
  - eexists. split; [exact R|]. split; [|split; [|apply Hq; reflexivity]].
    2:{ split. { split; [exact Hr'|]. split; [apply upd_same; exact C|]. auto. } reflexivity. }
    exact N.
  - eexists. split; [exact R|]. split; [|split; [|apply Hq; reflexivity]].
    2:{ split. { split; [exact Hr'|]. split; [apply upd_same; exact C|]. auto. } reflexivity. }
    exact N.
  - eexists. split; [exact R|]. split; [|split; [|apply Hq; reflexivity]].
    2:{ split. { split; [exact Hr'|]. split; [apply upd_same; exact C|]. auto. } reflexivity. }
    exact N.
  - exists c. split; [exact R|]. split; [exact N|]. split; [|apply Hq; reflexivity]. split; [exact Hr'|]. auto.
  - exists c. split; [exact R|]. split; [exact N|]. split; [|apply Hq; reflexivity]. split; [exact Hr'|]. auto.
Qed.

(** ** A number that is dead: nothing is said *)
Lemma closed_op env o p st : object_closed st o -> (exists d, p = OpWrite o d) \/ (exists j, p = OpControl o j) \/ p = OpClose o -> do_op env p st = (st, Ok tt).
Proof.
  intros (c & C & K) [[d ->]|[[j ->]| ->]]; cbn [do_op]; unfold chan_write, chan_control, chan_close; unfold chan_of in C; rewrite C, K; reflexivity.
Qed.
Lemma refuse_closed env json k o st : object_closed st o -> do_ops env (refuse json k o) st = (st, Ok tt).
Proof.
  intros C. unfold refuse. cbn [do_ops]. unfold seq. rewrite (closed_op env o); auto; [|destruct (refusal k); eauto].
  rewrite (closed_op env o); auto.
Qed.
Lemma set_closed o d x t st : object_closed st o -> object_closed (upd_chan o (chan_set_cbs d x t) st) o.
Proof. intros (c & C & K). eexists. split; [apply upd_same; exact C|exact K]. Qed.
Lemma use_closed env json ks v o d st : object_closed st o ->
  exists st', do_ops env (use json ks v o d) st = (st', Ok tt) /\ st_trace st' = st_trace st /\ st_chans st' = st_chans st /\ object_closed st' o.
Proof.
  intros C. pose proof (fun d x t => set_closed o d x t st C) as C'.
  destruct d, v; cbn [use install]; unfold install; rewrite ?do_ops_cbs, ?refuse_closed; auto; eexists; (split; [reflexivity|auto]).
Qed.
Lemma dead_mute env et st i m d n json ks v st' r : deed_for m i d -> on_channel n d ->
  obeys env json ks m v n st i -> dead_number st n -> step env et i st = (st', r) ->
  r = Ok tt /\ (exists o, registered st' n = Some o /\ object_closed st' o /\ o = object_for n st) /\ forall new, adds st st' new -> heard n new = [].
Proof.
  intros Hd Hn Ho Hdead H. destruct (instructed _ _ _ _ _ _ _ _ _ _ _ _ Hd Hn Ho H) as (s & data & x & E & ->). split; [reflexivity|].
  rewrite do_ops_open in E. destruct (shut_channel n st (Instruction s data) Hdead) as (E1 & R & C). rewrite E1 in *.
  destruct (use_closed env json ks v _ d _ C) as (st2 & E2 & T2 & R2 & C2). rewrite E2 in E. injection E as <- _.
  split; [exists (object_for n st); split; [|auto]; unfold registered in *; now rewrite R2|].
  intros new A. rewrite (adds_cons _ _ _ _ T2 A). reflexivity.
Qed.
