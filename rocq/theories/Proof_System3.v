From Verif Require Import Py Py_lemmas Dict_lemmas Model_Bencode Spec_Bencode Model_Packets Model_Client Spec_Client Proof_Client4
  Model_Path Model_Remote Spec_Remote Proof_Remote Proof_Remote2 Proof_Remote3 Proof_Remote4 Proof_Remote6 Proof_Remote9
  Model_System Spec_System Proof_System Proof_System2.

Section System.
  Variable cfg : config.
  Variable meanwhile : nat -> fs -> fs * list (option nat).
  Variable start : fs.
  Variable rest : list effect -> effect -> list (op * bool) * option exn.
  Variable error_text : list effect -> text.
  Notation env := (agent_env cfg meanwhile start rest).
  Notation step := (step env error_text).
  Notation run := (run env error_text).
  Notation Sl := (place cfg (snapshot_dir cfg)).
  Variable msgs : messages_ok cfg.
  Variable temp_ok : encodable (temp cfg).

  Lemma requests_none l : Forall (fun e => is_call e = false) l -> requests l = [].
  Proof.
    induction 1 as [|e l He Hl IH]; cbn; auto. destruct (request_of e) eqn:E; auto. apply request_call in E. subst e. rewrite call_is_call in He. discriminate.
  Qed.
  Lemma step_requests i st st' r : step i st = (st', r) ->
    (exists q, wants i q /\ requests (history st') = requests (history st) ++ [q]) \/
    (forall q, ~ wants i q) /\ requests (history st') = requests (history st).
  Proof.
    intros H. destruct (step_calls _ _ _ _ _ _ H) as [(e & rs & Hc & Ha & Hi)|(Hn & new & Ha & Hi)].
    - assert (Hr : requests rs = []). { apply requests_none. eapply Forall_impl; [|exact Hi]. intros []; cbn; tauto. }
      assert (G : requests (history st') = requests (history st) ++ match request_of e with Some q => [q] | None => [] end).
      { rewrite Ha, requests_app. cbn [requests]. rewrite Hr. reflexivity. }
      rewrite G. destruct (request_of e) as [q|] eqn:E.
      + left. exists q. split; [|reflexivity]. apply wants_calls. apply request_call in E. now subst e.
      + right. split; [|now rewrite app_nil_r]. intros q Hq. apply wants_calls in Hq. pose proof (calls_for_functional _ _ _ Hc Hq) as ->.
        rewrite call_request in E. discriminate.
    - right. split; [intros q Hq; apply wants_calls in Hq; eapply Hn; eauto|]. now rewrite Ha, requests_app, (requests_none _ Hi), app_nil_r.
  Qed.

  (** The files after the requests of a state *)
  Definition files_of (st : state) : fs := left_by cfg meanwhile 0 start (requests (history st)).
  Definition world_of (st : state) : world := met_after cfg meanwhile start (requests (history st)).
  Lemma files_step i q st st' r : wants i q -> step i st = (st', r) ->
    requests (history st') = requests (history st) ++ [q] /\ files_of st' = w_fs (after (handle cfg q) (world_of st)).
  Proof.
    intros Hw H. destruct (step_requests _ _ _ _ H) as [(q' & Hw' & E)|[Hn _]]; [|destruct (Hn _ Hw)].
    assert (q' = q) as -> by (eapply wants_functional; eauto). split; [exact E|]. unfold files_of. rewrite E, left_snoc. reflexivity.
  Qed.
  Lemma left_tree qs : sane meanwhile -> forall n f, tree f -> tree (left_by cfg meanwhile n f qs).
  Proof.
    intros M. induction qs as [|q qs IH]; intros n f T; cbn [left_by]; auto. apply IH. apply write_tree. cbn. now apply M.
  Qed.

  (** The reply seen by the server is the one the remote directory made. *)
  Lemma told_reply i q st st' r pk : wants i q -> step i st = (st', r) -> reply_fits cfg q (world_of st) ->
    match q with RClose _ => False | RWrite _ _ d _ _ _ => utf8_decode d <> None | _ => True end ->
    told st st' pk -> exists w', handle cfg q (world_of st) = (w', inl tt) /\ w_sent w' = [pk].
  Proof.
    intros Hw H RF Hq (new & b & Ha & Hi & Hb).
    destruct (answered' cfg meanwhile start rest error_text msgs i q st st' r temp_ok Hw H RF Hq) as (w' & b' & pk' & A1 & A2 & A3 & A4).
    exists w'. split; [exact A1|]. rewrite A2. f_equal.
    assert (new = [call_of q; Sent b']) as ->. { unfold adds in *. rewrite Ha in A3. now apply app_inv_head in A3. }
    destruct Hi as [Hi|[Hi|[]]]; [destruct q; discriminate|]. injection Hi as ->. destruct A4 as [A4 _]. congruence.
  Qed.

  Variable u : bytes.
  Variable t : text.
  Variable Hu : utf8_decode u = Some t.
  Variable Hs : short u.
  Variable tn : normal (temp cfg).
  Variable Ht : Spec_Remote.plain t.
  Variable ok : sane meanwhile.
  Notation L := (Sl ++ [t]).

  Lemma read_step i o size st st' r pk d b : wants i (RRead u (Z.of_nat o) (Z.of_nat size)) -> step i st = (st', r) -> told st st' pk ->
    field pk "fail" (VInt 0) -> field pk "data" (VBytes d) -> tree (files_of st) -> w_fs (world_of st) L = Some (File b) ->
    d = firstn size (skipn o b) /\ tree (files_of st') /\ files_of st' L = Some (File b).
  Proof.
    intros Hw H Hk F1 F2 T N. pose proof (ok (length (requests (history st))) (files_of st) T) as T'. change (tree (w_fs (world_of st))) in T'.
    assert (RF : reply_fits cfg (RRead u (Z.of_nat o) (Z.of_nat size)) (world_of st)) by (split; [exact Hs|lia]).
    destruct (told_reply _ _ _ _ _ _ Hw H RF I Hk) as (w' & A1 & A2).
    assert (X : fetched cfg u o size (world_of st) w' d) by (exists pk; auto).
    destruct (read_packet cfg msgs _ _ _ _ _ _ _ Hs Hu X) as (w4 & R & F4).
    destruct (shot_read cfg _ _ _ _ _ _ _ (plain_shot cfg tn _ _ _ Ht T' N) R) as [S _]. apply slice_inv in S.
    destruct (files_step _ _ _ _ _ Hw H) as [_ E]. unfold after in E. rewrite A1 in E. cbn [fst] in E.
    assert (F : w_fs w4 = w_fs (world_of st)).
    { destruct (read_ok cfg _ _ _ _ _ _ R) as (_ & _ & _ & F). apply F. apply (plain_shot cfg tn _ _ _ Ht T' N). }
    rewrite E, F4, F. auto.
  Qed.

  Lemma wire_sound b N size o st d st' : wire_fetch env error_text cfg L u size o st d st' ->
    (forall n f, N <= n -> fst (meanwhile n f) L = f L) -> N <= length (requests (history st)) ->
    tree (files_of st) -> files_of st L = Some (File b) -> d = skipn o b.
  Proof.
    intros W HM. induction W as [o st i st1 r d st' Hq H Hr W IH|o st i st' r pk d Hw H Hk F1 F2 Hl|o st i st1 r pk d d' st' Hw H Hk F1 F2 Hl W IH]; intros HN T F.
    - destruct (step_requests _ _ _ _ H) as [(q & Hw & E)|[_ E]].
      + destruct (files_step _ _ _ _ _ Hw H) as [_ E'].
        pose proof (ok (length (requests (history st))) (files_of st) T) as T'.
        destruct (keep_event cfg L b (world_of st) (Request q) (S_child cfg t) (D_child cfg tn t) (Hq q Hw (world_of st))) as [K1 K2].
        { split; [exact T'|]. cbn. unfold files_of in *. rewrite HM by lia. exact F. }
        apply IH; [rewrite E, app_length; lia|rewrite E'; exact K1|rewrite E'; exact K2].
      + apply IH; [now rewrite E|unfold files_of; now rewrite E|unfold files_of; now rewrite E].
    - destruct (read_step _ _ _ _ _ _ _ _ b Hw H Hk F1 F2 T) as (-> & _).
      { cbn. unfold files_of in *. rewrite HM by lia. exact F. }
      rewrite firstn_length in Hl. rewrite firstn_all2; auto. lia.
    - destruct (read_step _ _ _ _ _ _ _ _ b Hw H Hk F1 F2 T) as (E & T1 & G1).
      { cbn. unfold files_of in *. rewrite HM by lia. exact F. }
      rewrite IH; auto; [|destruct (files_step _ _ _ _ _ Hw H) as [-> _]; rewrite app_length; lia].
      rewrite E, Nat.add_comm, <- skipn_skipn. apply firstn_skipn.
  Qed.

  Lemma c101 l v st p pt i st1 r pk n size d st2 qs : absolute (root cfg) -> tree start -> utf8_decode p = Some pt ->
    run l (init_state v) = Some st -> each wants l qs -> (forall k f, length qs < k -> fst (meanwhile k f) L = f L) ->
    wants i (ROpen u p) -> step i st = (st1, r) -> told st st1 pk -> field pk "fail" (VInt 0) -> field pk "size" (VInt n) ->
    wire_fetch env error_text cfg L u size 0 st1 d st2 ->
    n = Z.of_nat (length d) /\ exists src, may_serve cfg pt src /\ w_fs (met_after cfg meanwhile start qs) src = Some (File d).
  Proof.
    intros HA T P R Q HM Hw H Hk F1 F2 W.
    assert (requests (history st) = qs) as Eq.
    { eapply each_functional; [exact wants_functional|eapply requests_run; eauto|exact Q]. }
    pose proof (ok (length (requests (history st))) (files_of st) (left_tree _ ok _ _ T)) as T'.
    destruct (told_reply _ _ _ _ _ _ Hw H Hs I Hk) as (w' & A1 & A2).
    change (tree (w_fs (world_of st))) in T'. assert (O : opened_with cfg u p (world_of st) w' n) by (exists pk; auto).
    destruct (packet_opened cfg msgs _ _ _ _ _ _ _ Hs tn HA Ht T' Hu P O) as (src & b & B1 & B2 & B3 & B4 & B5).
    destruct (files_step _ _ _ _ _ Hw H) as [E1 E2]. unfold after in E2. rewrite A1 in E2. cbn [fst] in E2.
    assert (d = b) as ->.
    { change b with (skipn 0 b). eapply (wire_sound b (S (length qs))); [exact W| | | |].
      - intros k f Hkk. apply HM. lia.
      - rewrite E1, app_length, Eq. cbn. lia.
      - rewrite E2. exact B4.
      - rewrite E2. exact B5. }
    split; [exact B3|]. exists src. split; [exact B1|]. unfold world_of in B2. rewrite Eq in B2. exact B2.
  Qed.
End System.
