From Verif Require Import Py Py_lemmas Dict_lemmas Model_Bencode Spec_Bencode Proof_Bencode Model_Packets Model_Limiter Model_Manager Model_Process Model_Client Spec_Client
  Proof_Client Proof_Client2 Proof_Client4 Proof_Client6 Spec_Early Spec_Outbound Proof_Outbound Spec_System
  Model_Relay Spec_Relay Proof_Relay Proof_Relay2 Model_Opening Spec_Opening Proof_Opening.
Local Open Scope nat_scope.

(** ** C115: a terminal on a dead number *)
Definition lonely (p : pst) : Prop := Model_Process.input p = [] /\ signals p = [] /\ waiters p = [] /\ asked p = 0.
Lemma lonely_act limit a b p : uncalled a -> lonely p -> lonely (fst (term_act limit a b p)).
Proof.
  intros U (I & S & W & A). unfold lonely. destruct a; cbn [term_act fst]; try (cbn in U; contradiction U); cbn [pstep]; auto;
    rewrite ?W; try (destruct i; cbn; auto; fail);
    repeat match goal with |- context [match ?x with _ => _ end] => destruct x; cbn; auto end.
Qed.
Lemma lonely_turns limit p evs p' ws : tturns limit p evs p' ws -> Forall (late term_os Model_Process.event) evs -> Forall uncalled (deeds term_os Model_Process.event evs) -> lonely p -> lonely p'.
Proof.
  induction 1 as [s|s x d s1 w evs s2 ws _ E _ IH|s x s1 w evs s2 ws _ E _ IH|s a b s1 w evs s2 ws E _ IH]; intros L U H; auto; inversion L as [|? ? L1 L2]; subst; try contradiction.
  cbn [deeds flat_map app] in U. inversion U; subst. apply IH; auto. pose proof (lonely_act limit a b s) as G. rewrite E in G. auto.
Qed.
Lemma speak_closed env et o ws : forall st, object_closed st o -> speak env et o ws st = Some st.
Proof.
  unfold speak. induction ws as [|w ws IH]; intros st C; [reflexivity|]. cbn [map]. rewrite run_cons. cbn [step]. unfold guard.
  rewrite (closed_op env o); auto. destruct w; cbn [word_op]; eauto.
Qed.
Lemma own_closed env et o kd kc limit l : forall st p st' p', object_closed st o -> rest_inputs l = [] ->
  move_run pst term_os Model_Process.event term_busy term_data term_close (term_act limit) env et o kd kc l (st, p) = Some (st', p') -> st' = st.
Proof.
  induction l as [|m l IH]; intros st p st' p' C R; cbn [move_run]; [intros [= <- _]; reflexivity|]. destruct m as [i x|a]; [discriminate|].
  cbn [move_step]. destruct (term_act limit a (shut_now o st) p) as [s1 ws]. rewrite (speak_closed env et o ws st C). apply IH; auto.
Qed.
Lemma c115_orphan env et u l st i m name size n json ks st' r : run env et l (init_state u) = Some st -> deed_for m i (LaunchTerminal name (VInt n) size) ->
  obeys env json ks m Starts n st i -> dead_number st n -> step env et i st = (st', r) ->
  exists o, registered st' n = Some o /\ object_closed st' o /\
    forall env' et' limit l' t0 st'' p, respected env' o -> others o l' -> Forall uncalled (own_steps l') ->
      terminal_session env' et' o (for_data ks) (for_close ks) limit l' st' t0 = Some (st'', p) ->
      Model_Process.input p = [] /\ signals p = [] /\ (rest_inputs l' = [] -> st'' = st').
Proof.
  intros Hrun Hd Ho Hdead H. assert (Hn : on_channel n (LaunchTerminal name (VInt n) size)) by constructor.
  destruct (dead_mute _ _ _ _ _ _ _ _ _ _ _ _ Hd Hn Ho Hdead H) as (-> & (o & R & C & Eo) & _). exists o. split; [exact R|]. split; [exact C|].
  pose proof (reached_step _ _ _ _ _ _ _ Hrun H) as Hr'. destruct (reached_placed _ Hr') as [N P].
  destruct (instructed _ _ _ _ _ _ _ _ _ _ _ _ Hd Hn Ho H) as (s & data & x & E & _). rewrite do_ops_open in E.
  destruct (shut_channel n st (Instruction s data) Hdead) as (E1 & _ & C1). rewrite E1, <- Eo in *. cbn [use] in E. unfold install in E. rewrite do_ops_cbs in E.
  apply pair_equal_spec in E as [Est _]. destruct C1 as (c & Hc & Hcl).
  assert (S1 : sound o (for_data ks) (Some (for_close ks)) n st').
  { split; auto. split; auto. rewrite <- Est. eexists. split; [split; [apply upd_same; exact Hc|split; reflexivity]|].
    destruct (proj2 N _ _ R) as (c' & Hc' & Hno). rewrite <- Est in Hc'. pose proof (upd_same o (chan_set_cbs (Some (for_data ks)) (Some (for_close ks)) (Some (for_control ks))) _ _ Hc) as U.
    unfold chan_of in U. rewrite U in Hc'. congruence. }
  intros env' et' limit l' t0 st'' p He Hl Hu Hs. unfold terminal_session in Hs.
  destruct (run_shut pst term_os Model_Process.event term_busy term_data term_close (term_act limit) env' et' o _ _ n He l' _ _ _ _ Hl S1 C Hs) as (_ & _ & evs & ws & T & D & L).
  assert (Lo : lonely p) by (eapply lonely_turns; eauto; [now rewrite D|repeat split]).
  destruct Lo as (I1 & I2 & _). split; auto. split; auto. intros Hre. eapply own_closed; eauto.
Qed.

(** ** C116 *)
Lemma say env name args kw v st : civil env -> py_object v -> Encodable v -> (p <- create_named name args kw ;; as_bytes p) = encode v ->
  exists b, send env name args kw st = (emit (Sent b) st, Ok tt) /\ decode b = Ok (norm v).
Proof.
  intros Hc Hp He Eb. destruct (encode_encodable v Hp He) as [b Hb]. exists b. split; [|now apply encode_exact].
  unfold send. rewrite Eb, Hb. unfold send_bytes, extern. destruct (snd (env (st_trace st) (Sent b))) as [x|] eqn:Ex; [|reflexivity].
  rewrite (Hc _ _ _ Ex). reflexivity.
Qed.
Definition hears (b : bytes) (n : Z) (x : said) : Prop := heard_of (Sent b) = Some (n, x).
Lemma say_write env o c d st : civil env -> chan_of st o = Some c -> ch_closed c = false -> short d ->
  exists b, do_op env (OpWrite o d) st = (emit (Sent b) st, Ok tt) /\ hears b (ch_no c) (SData d).
Proof.
  intros Hc C K S. cbn [do_op]. unfold chan_write. unfold chan_of in C. rewrite C, K.
  assert (Hp : py_object (VList [VInt 5; VInt (ch_no c); VBytes d])) by (repeat constructor; exact S).
  assert (He : Encodable (VList [VInt 5; VInt (ch_no c); VBytes d])) by (eapply en_seq; [apply items_list|]; repeat constructor; eapply en_octets; constructor).
  destruct (say env _ _ _ _ st Hc Hp He (bytes_write (ch_no c) d)) as (b & E & D).
  exists b. split; [exact E|]. unfold hears. cbn [heard_of]. rewrite D. reflexivity.
Qed.
Lemma say_control env o c j d st : civil env -> chan_of st o = Some c -> ch_closed c = false -> utf8_encode j = Some d -> short d ->
  exists b, do_op env (OpControl o j) st = (emit (Sent b) st, Ok tt) /\ hears b (ch_no c) (SControl d).
Proof.
  intros Hc C K U S. cbn [do_op]. unfold chan_control. unfold chan_of in C. rewrite C, K. pose proof (bytes_control (ch_no c) j) as Eb. rewrite U in Eb.
  assert (Hp : py_object (VList [VInt 22; VInt (ch_no c); VBytes d])) by (repeat constructor; exact S).
  assert (He : Encodable (VList [VInt 22; VInt (ch_no c); VBytes d])) by (eapply en_seq; [apply items_list|]; repeat constructor; eapply en_octets; constructor).
  destruct (say env _ _ _ _ st Hc Hp He Eb) as (b & E & D).
  exists b. split; [exact E|]. unfold hears. cbn [heard_of]. rewrite D. reflexivity.
Qed.
Lemma say_close env o c st : civil env -> chan_of st o = Some c -> ch_closed c = false ->
  exists b, do_op env (OpClose o) st = (emit (Sent b) st, Ok tt) /\ hears b (ch_no c) SClose.
Proof.
  intros Hc C K. cbn [do_op]. unfold chan_close. unfold chan_of in C. rewrite C, K.
  assert (Hp : py_object (VList [VInt 11; VInt (ch_no c)])) by repeat constructor.
  assert (He : Encodable (VList [VInt 11; VInt (ch_no c)])) by (eapply en_seq; [apply items_list|]; repeat constructor).
  destruct (say env _ _ _ _ st Hc Hp He (bytes_close (ch_no c))) as (b & E & D).
  exists b. split; [exact E|]. unfold hears. cbn [heard_of]. rewrite D. reflexivity.
Qed.
Lemma busy_short : short server_busy.
Proof. vm_compute. reflexivity. Qed.
Lemma say_refusal env json k o c st : civil env -> sound_errors json -> chan_of st o = Some c -> ch_closed c = false ->
  exists b1 b2 x, do_ops env (refuse json k o) st = (emit (Sent b2) (emit (Sent b1) st), Ok tt) /\ hears b1 (ch_no c) x /\ hears b2 (ch_no c) SClose /\
    match k with KTerminal => x = SData (B "Failed to launch remote process" ++ NL) | KCommand => exists d, utf8_encode (json "command" "error" "error")%string = Some d /\ x = SControl d | _ => x = SData server_busy end.
Proof.
  intros Hc Hj C K.
  assert (G : exists b1 x, do_op env (match refusal k with PWrite b => OpWrite o b | PControl a b c => OpControl o (json a b c) end) st = (emit (Sent b1) st, Ok tt) /\ hears b1 (ch_no c) x /\
    match k with KTerminal => x = SData (B "Failed to launch remote process" ++ NL) | KCommand => exists d, utf8_encode (json "command" "error" "error")%string = Some d /\ x = SControl d | _ => x = SData server_busy end).
  { destruct k; cbn [refusal]; try (destruct (say_write env o c server_busy st Hc C K busy_short) as (b & E & D); exists b; eexists; split; [exact E|]; split; [exact D|reflexivity]).
    - destruct (Hj "command" "error" "error")%string as (d & U & S). destruct (say_control env o c _ d st Hc C K U S) as (b & E & D). exists b. eexists. split; [exact E|]. split; [exact D|eauto].
    - destruct (say_write env o c (B "Failed to launch remote process" ++ NL) st Hc C K ltac:(vm_compute; reflexivity)) as (b & E & D). exists b. eexists. split; [exact E|]. split; [exact D|reflexivity]. }
  destruct G as (b1 & x & E1 & D1 & X). destruct (say_close env o c (emit (Sent b1) st) Hc C K) as (b2 & E2 & D2).
  exists b1, b2, x. split; [|auto]. unfold refuse. cbn [do_ops]. unfold seq. rewrite E1, E2. reflexivity.
Qed.
Lemma c116 env et u l st i m d n json ks v p st' r : civil env -> sound_errors json -> run env et l (init_state u) = Some st -> deed_for m i d -> on_channel n d ->
  under d p -> v <> Starts -> obeys env json ks m v n st i -> ~ dead_number st n -> step env et i st = (st', r) ->
  exists x new, no_for json d x /\ adds st st' new /\ heard n new = [x; SClose].
Proof.
  intros Hc Hj Hrun Hd Hn Hu Hv Ho Hdead H. assert (Hr : reached st) by (exists env, et, u, l; exact Hrun).
  destruct (instructed _ _ _ _ _ _ _ _ _ _ _ _ Hd Hn Ho H) as (s & data & y & E & ->).
  rewrite do_ops_open in E. destruct (open_channel n st (Instruction s data) Hr Hdead) as (R & T & c & C & N & K).
  set (st1 := snd (Model_Client.get_channel n (emit (Instruction s data) st))) in *. set (o := object_for n st) in *.
  assert (G : forall k st2 c2, chan_of st2 o = Some c2 -> ch_no c2 = n -> ch_closed c2 = false -> st_trace st2 = st_trace st1 -> do_ops env (refuse json k o) st2 = (st', y) ->
    exists x new, match k with KTerminal => x = SData (B "Failed to launch remote process" ++ NL) | KCommand => exists d, utf8_encode (json "command" "error" "error")%string = Some d /\ x = SControl d | _ => x = SData server_busy end /\
      adds st st' new /\ heard n new = [x; SClose]).
  { intros k st2 c2 C2 N2 K2 T2 E2. destruct (say_refusal env json k o c2 st2 Hc Hj C2 K2) as (b1 & b2 & x & E3 & H1 & H2 & X). rewrite E3 in E2. apply pair_equal_spec in E2 as [<- _].
    exists x, [Instruction s data; Sent b1; Sent b2]. split; [exact X|]. split.
    - unfold adds, history. cbn [emit st_trace]. rewrite T2, T. cbn [rev]. now rewrite <- !app_assoc.
    - unfold hears in H1, H2. rewrite N2 in *. unfold heard. cbn [flat_map]. change (heard_of (Instruction s data)) with (@None (Z * said)). rewrite H1, H2, Z.eqb_refl. reflexivity. }
  assert (Gc : forall k d x t, do_ops env (refuse json k o) (upd_chan o (chan_set_cbs d x t) st1) = (st', y) ->
    exists x new, match k with KTerminal => x = SData (B "Failed to launch remote process" ++ NL) | KCommand => exists d, utf8_encode (json "command" "error" "error")%string = Some d /\ x = SControl d | _ => x = SData server_busy end /\
      adds st st' new /\ heard n new = [x; SClose]).
  { intros k d0 x t E2. exact (G k (upd_chan o (chan_set_cbs d0 x t) st1) (chan_set_cbs d0 x t c) (upd_same o _ _ _ C) N K eq_refl E2). }
  destruct Hn; cbn [use] in E; unfold install in E; [rewrite do_ops_cbs in E| | | |]; try (inversion Hu; fail); destruct v; try contradiction; rewrite ?do_ops_cbs in E;
    (apply Gc in E || apply (G _ st1 c C N K eq_refl) in E); destruct E as (x & new & X & A & Hh);
    exists x, new; (split; [|auto]).
  1,2: subst x; apply (no_terminal json name (VInt n) size (B " remote process" ++ NL)).
  1,2: subst x; apply (no_forward json host port (VInt n) (skipn 13 server_busy)).
  1,2: subst x; apply (no_file json (VInt n) path (skipn 13 server_busy)).
  1,2: destruct X as (d & U & ->); now constructor.
Qed.

(** ** C117 *)
Lemma echo_turns s evs s' ws : turns unit unit Empty_set echo_busy echo_data echo_close echo_act s evs s' ws -> Forall (calm unit Empty_set) evs -> map word_said ws = map SData (gifts unit Empty_set evs).
Proof.
  induction 1 as [s|s x d s1 w evs s2 ws _ E _ IH|s x s1 w evs s2 ws _ E _ IH|s a b s1 w evs s2 ws E _ IH]; intros L; [reflexivity| | |destruct a]; inversion L; subst; [|contradiction].
  unfold echo_data in E. injection E as _ <-. cbn. now rewrite IH.
Qed.
Lemma c117 env et o kd l st c st' : respected env o -> perched st o kd None c -> others o l -> Forall short (routed (ch_no c) (rest_inputs l)) ->
  echo_session env et o kd l st = Some (st', tt) -> ~ object_closed st' o ->
  exists new, adds st st' new /\ heard (ch_no c) new = map SData (routed (ch_no c) (rest_inputs l)).
Proof.
  intros He Hp Hl Hs H Ho.
  destruct (relay unit unit Empty_set echo_busy echo_data echo_close echo_act short
    (fun x d s G => Forall_cons (WData d) (G : word_short (WData d)) (@Forall_nil _ word_short)) (fun x s => @Forall_nil _ word_short) (fun a => match a with end)
    env et o kd None He st c tt l st' tt Hp Hl Hs H) as (evs & ws & l1 & T & _ & G & _ & [(C & -> & K & new & A1 & B1)|[C _]]); [|contradiction].
  exists new. split; [exact A1|]. rewrite B1, (echo_turns _ _ _ _ T K), G. reflexivity.
Qed.

(** ** C118 *)
Section Slots.
  Variable limit : pool -> nat.
  Notation happens := (happens limit).
  Notation happen_all := (happen_all limit).
  Lemma under_pool d p : under d p <-> pool_of d = Some p.
  Proof. split; [destruct 1; reflexivity|]. destruct d; cbn; try discriminate; intros [= <-]; constructor. Qed.
  Lemma taken_set p q n s : taken p (set_taken q n s) = match p, q with Services, Services | Terminals, Terminals => n | _, _ => taken p s end.
  Proof. destruct p, q; reflexivity. Qed.
  Lemma all_snoc l h : happen_all (l ++ [h]) = happens h (happen_all l).
  Proof. unfold Model_Opening.happen_all. now rewrite fold_left_app. Qed.
  Lemma happens_bound h s : (forall p, taken p s <= limit p) -> forall p, taken p (happens h s) <= limit p.
  Proof.
    intros H p. pose proof (H p) as Hp. destruct h as [d ok|q]; cbn [Model_Opening.happens].
    - unfold luck_of. destruct (pool_of d) as [q|]; auto. destruct (Nat.leb_spec (limit q) (taken q s)) as [L|L]; auto. destruct ok; auto. rewrite taken_set. destruct p, q; auto.
    - rewrite taken_set. destruct p, q; auto; pose proof (H Services); pose proof (H Terminals); lia.
  Qed.
  Lemma c118_bound l p : taken p (happen_all l) <= limit p.
  Proof. revert p. induction l as [|h l IH] using rev_ind; [intros []; cbn; lia|]. rewrite all_snoc. now apply happens_bound. Qed.
  Lemma c118_full l d ok : luck_of limit d ok (happen_all l) = LimitFull <-> exists p, under d p /\ taken p (happen_all l) = limit p.
  Proof.
    unfold luck_of. split.
    - destruct (pool_of d) as [p|] eqn:E; [|discriminate]. destruct (Nat.leb_spec (limit p) (taken p (happen_all l))) as [L|L]; [|destruct ok; discriminate].
      intros _. exists p. split; [now apply under_pool|]. pose proof (c118_bound l p). lia.
    - intros (p & U & E). apply under_pool in U. rewrite U, E, Nat.leb_refl. reflexivity.
  Qed.
  Lemma happens_own p h s s' : taken p s = taken p s' -> of_pool p h = true -> taken p (happens h s) = taken p (happens h s').
  Proof.
    intros E. destruct h as [d ok|q]; cbn [of_pool Model_Opening.happens]; unfold luck_of.
    - destruct d, p; cbn [pool_of]; try discriminate; intros _; rewrite E; destruct (limit _ <=? _); auto; destruct ok; rewrite ?taken_set; auto.
    - destruct p, q; try discriminate; intros _; rewrite !taken_set, E; reflexivity.
  Qed.
  Lemma happens_other p h s : of_pool p h = false -> taken p (happens h s) = taken p s.
  Proof.
    destruct h as [d ok|q]; cbn [of_pool Model_Opening.happens]; unfold luck_of.
    - destruct d, p; cbn [pool_of]; try discriminate; intros _; auto; destruct (limit _ <=? _); auto; destruct ok; auto.
    - destruct p, q; try discriminate; reflexivity.
  Qed.
  Lemma c118_apart l p : taken p (happen_all l) = taken p (happen_all (filter (of_pool p) l)).
  Proof.
    induction l as [|h l IH] using rev_ind; [reflexivity|]. rewrite filter_app, all_snoc. cbn [filter]. destruct (of_pool p h) eqn:E.
    - rewrite all_snoc. now apply happens_own.
    - rewrite app_nil_r, happens_other; auto.
  Qed.
  Lemma c118_count l p : count limit p l (taken p (happen_all l)).
  Proof.
    induction l as [|h l IH] using rev_ind; [destruct p; constructor|]. rewrite all_snoc. pose proof (c118_bound l p) as Bd. set (s := happen_all l) in *.
    destruct h as [d ok|q]; cbn [Model_Opening.happens].
    - unfold luck_of. destruct (pool_of d) as [q|] eqn:E; [|apply count_other_asked; auto; intros U; apply under_pool in U; congruence].
      assert (Dec : q = p \/ q <> p) by (destruct p, q; auto; right; discriminate). destruct Dec as [->|N].
      + apply under_pool in E. destruct (Nat.leb_spec (limit p) (taken p s)) as [L|L]; [apply count_full; auto; lia|].
        destruct ok; [|now apply count_failed]. rewrite taken_set. replace (match p with Services => match p with Services => S (taken p s) | Terminals => taken p s end | Terminals => match p with Services => taken p s | Terminals => S (taken p s) end end) with (S (taken p s)) by (destruct p; reflexivity).
        now apply count_started.
      + replace (taken p _) with (taken p s); [apply count_other_asked; auto; intros U; apply under_pool in U; congruence|].
        destruct (limit q <=? taken q s); auto. destruct ok; auto. rewrite taken_set. destruct p, q; auto; now destruct N.
    - rewrite taken_set. assert (Dec : q = p \/ q <> p) by (destruct p, q; auto; right; discriminate). destruct Dec as [->|N].
      + destruct p; now apply count_ended.
      + destruct p, q; try (now destruct N); now apply count_other_ended.
  Qed.
End Slots.
