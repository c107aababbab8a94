From Verif Require Import Py Py_lemmas Dict_lemmas Model_Bencode Spec_Bencode Proof_Bencode Model_Packets
  Spec_Packets Proof_Packets Model_Client Spec_Client Proof_Client Proof_Client2 Proof_Client3 Proof_Client4 Proof_Client5 Proof_Client6
  Proof_Client7 Proof_Client8 Model_Path Model_Remote Spec_Remote Proof_Remote Proof_Remote2 Proof_Remote4 Proof_Remote9 Model_Manager Proof_Manager
  Model_System Spec_System Proof_System.
From Verif Require Spec_Manager.

(** ** Requests among the calls *)
Lemma request_call e q : request_of e = Some q -> e = call_of q.
Proof.
  destruct e; cbn; try discriminate;
    repeat match goal with |- match ?v with _ => _ end = _ -> _ => destruct v; try discriminate end; intros [= <-]; reflexivity.
Qed.
Lemma call_request q : request_of (call_of q) = Some q.
Proof. destruct q; reflexivity. Qed.
Lemma call_is_call q : is_call (call_of q) = true.
Proof. destruct q; reflexivity. Qed.

Lemma wants_calls i q : wants i q <-> calls_for i (call_of q).
Proof.
  split.
  - assert (G : forall m t vs, carries m t vs -> forall e, asks t vs e -> calls_for (InEvent (EvBinary m)) e).
    { intros m t vs [rest Hd] e Hk. exists m, t, vs, rest. split; [reflexivity|]. split; [|exact Hk]. apply ann_list; [exact Hd|].
      apply is_packet_type_in. now destruct Hk. }
    intros []; eapply G; eauto; constructor.
  - intros (m & t & vs & rest & -> & Ha & Hk).
    assert (Hv : forall b r, vs = VBytes b :: r -> carries m t vs).
    { intros b r ->. inversion Ha as [t' body Hd Ht E1 E2|x r' Hd Ht E1 E2]; [exists rest; exact Hd|].
      destruct r' as [|y r']; [discriminate|]. injection E2 as E2. discriminate. }
    destruct q; inversion Hk; subst; constructor; eapply Hv; reflexivity.
Qed.
Lemma wants_functional : functional wants.
Proof.
  intros i x y Hx Hy. apply wants_calls in Hx, Hy. pose proof (calls_for_functional _ _ _ Hx Hy) as E.
  assert (Some x = Some y) by (rewrite <- !call_request; now f_equal). congruence.
Qed.
Fixpoint requests (h : list effect) : list request :=
  match h with
  | [] => []
  | e :: r => match request_of e with Some q => q :: requests r | None => requests r end
  end.
Lemma requests_app a b : requests (a ++ b) = requests a ++ requests b.
Proof. induction a as [|e a IH]; cbn; auto. destruct (request_of e); cbn; now rewrite IH. Qed.
Lemma requests_filter h : requests (filter is_call h) = requests h.
Proof.
  induction h as [|e h IH]; cbn; auto. destruct (is_call e) eqn:E; cbn.
  - destruct (request_of e); now rewrite IH.
  - destruct (request_of e) eqn:Eq; auto. apply request_call in Eq. subst e. rewrite call_is_call in E. discriminate.
Qed.
Lemma each_requests l es : each calls_for l es -> each wants l (requests es).
Proof.
  induction 1 as [|i e l es Hc H IH|i l es Hn H IH]; cbn.
  - constructor.
  - destruct (request_of e) as [q|] eqn:E.
    + apply each_one; auto. apply request_call in E. subst e. now apply wants_calls.
    + apply each_none; auto. intros q Hq. apply wants_calls in Hq. pose proof (calls_for_functional _ _ _ Hc Hq) as ->.
      rewrite call_request in E. discriminate.
  - apply each_none; auto. intros q Hq. apply wants_calls in Hq. eapply Hn; eauto.
Qed.

(** ** The files over a session *)
Section System.
  Variable cfg : config.
  Variable meanwhile : nat -> fs -> fs * list (option nat).
  Variable start : fs.
  Variable rest : list effect -> effect -> list (op * bool) * option exn.
  Variable error_text : list effect -> text.
  Notation env := (agent_env cfg meanwhile start rest).
  Notation step := (step env error_text).
  Notation run := (run env error_text).

  Lemma left_snoc q qs : forall n f, left_by cfg meanwhile n f (qs ++ [q]) =
    w_fs (after (handle cfg q) (meets meanwhile (n + length qs) (left_by cfg meanwhile n f qs))).
  Proof.
    induction qs as [|p qs IH]; intros n f; cbn [app left_by length].
    - now rewrite Nat.add_0_r.
    - rewrite IH. now rewrite Nat.add_succ_comm.
  Qed.
  Lemma served_left h : served cfg meanwhile start (rev h) = (length (requests h), left_by cfg meanwhile 0 start (requests h)).
  Proof.
    induction h as [|e h IH] using rev_ind; [reflexivity|]. rewrite rev_app_distr, requests_app. cbn [rev app served]. rewrite IH. cbn [requests].
    destruct (request_of e) as [q|]; [|now rewrite app_nil_r]. rewrite left_snoc, app_length, Nat.add_1_r. reflexivity.
  Qed.
  Lemma env_request st q : env (st_trace st) (call_of q) =
    let w := met_after cfg meanwhile start (requests (history st)) in
    (map resend (rev (w_sent (after (handle cfg q) w))), raised (snd (handle cfg q w))).
  Proof.
    unfold agent_env. rewrite call_request. unfold history. rewrite <- (rev_involutive (st_trace st)) at 1. rewrite served_left.
    unfold met_after, meets, facing, after. destruct (handle cfg q _). reflexivity.
  Qed.

  (** ** The reply on the wire *)
  Definition reply (q : request) (pk : packet) : Prop :=
    In (pk_class pk) packet_classes /\ well_formed pk /\ Forall (fun a => Proof_Client.plain (snd a)) (pk_attrs pk) /\
    create_named (name_of_type packet_types (pc_type (pk_class pk))) (map snd (pk_attrs pk)) [] = Ok pk /\ answers q pk.
  Lemma wf_of c l : Forall2 (fun a v => fst a = fst v /\ typed (snd v) (snd a)) (pc_attrs c) l -> well_formed (Packet c l).
  Proof.
    intros H. split; cbn [pk_class pk_attrs].
    - symmetry. clear -H. induction H; cbn; auto.
    - clear -H. induction H as [|[n t] [n' v] l m [H1 H2] H IH]; intros [|i] name ty E; try discriminate.
      + injection E as <- <-. cbn in *. subst. eauto.
      + cbn in *. eauto.
  Qed.
  Lemma reply_open u p z k r : short u -> short r -> reply (ROpen u p) (open_reply u z k r).
  Proof.
    intros. split; [vm_compute; tauto|]. split; [apply wf_of; repeat constructor|]. split; [repeat constructor; auto|].
    split; [reflexivity|]. repeat split.
  Qed.
  Lemma reply_read u o s d k r : short u -> short d -> short r -> reply (RRead u o s) (read_reply u o s d k r).
  Proof.
    intros. split; [vm_compute; tauto|]. split; [apply wf_of; repeat constructor|]. split; [repeat constructor; auto|].
    split; [reflexivity|]. repeat split.
  Qed.
  Lemma reply_write i p d o x f pos dp k r : short i -> short dp -> short r -> reply (RWrite i p d o x f) (write_reply i pos (Z.of_nat (length x)) dp k r).
  Proof.
    intros. split; [vm_compute; tauto|]. split; [apply wf_of; repeat constructor|]. split; [repeat constructor; auto|].
    split; [reflexivity|]. repeat split.
  Qed.
  Variable msgs : messages_ok cfg.
  Lemma on_write_form i p d o x f w dt : encodable (temp cfg) -> reply_fits cfg (RWrite i p d o x f) w -> utf8_decode d = Some dt ->
    exists w2 pos dp k r, on_write cfg i p d o x f w = (w2, inl tt) /\
      w_sent w2 = write_reply i pos (Z.of_nat (length x)) dp k r :: w_sent w /\ short dp /\ short r.
  Proof.
    intros ET (SI & SD & SJ) D. unfold on_write. unfold bindM at 1, decode8 at 1. rewrite D. cbn [ret].
    unfold bindM at 1, attempt at 1.
    change (match dt with [] => let! t := decode8 i in add_download cfg t | _ :: _ => ret dt end) with (stage1 cfg i d dt).
    pose proof (silent_stage1 cfg i d dt w) as S1. destruct (stage1 cfg i d dt w) as [w1 [s|e]] eqn:E1; cbn [fst] in S1; unfold Silent in *.
    2:{ rewrite send_write by (auto; apply msgs). do 5 eexists. split; [reflexivity|]. cbn [sent w_sent]. rewrite S1. split; [reflexivity|].
        split; [exact SD|apply msgs]. }
    destruct (device_encodes cfg _ _ _ _ _ _ ET SD D SJ E1) as (dp & EP & SP).
    unfold bindM at 1, pure_res. rewrite EP. unfold bindM at 1, attempt at 1.
    change (match x with [] => ret tt | _ :: _ => write_file cfg s o x end) with (stage2 cfg s o x).
    pose proof (silent_stage2 cfg s o x w1) as S2. destruct (stage2 cfg s o x w1) as [w2 [[]|e]] eqn:E2; cbn [fst] in S2.
    2:{ unfold bindM at 1. rewrite send_write by (auto; apply msgs).
        set (q := write_reply i o (Z.of_nat (length x)) dp 2 (encode_replace (err_text cfg e))).
        pose proof (st_remove cfg Silent pre_silent s (ed_silent _) (sent w2 q)) as SR.
        exists (fst (remove cfg s (sent w2 q))), o, dp, 2%Z, (encode_replace (err_text cfg e)).
        split; [unfold catch; destruct (remove cfg s (sent w2 q)) as [w3 [[]|e3]]; reflexivity|].
        unfold Silent in *. cbn in SR. rewrite SR. fold q. split; [congruence|]. split; [exact SP|apply msgs]. }
    unfold bindM at 1, attempt.
    change (if (f =? 0)%Z then ret tt else copy_download cfg s p) with (stage3 cfg s p f).
    pose proof (silent_stage3 cfg s p f w2) as S3. destruct (stage3 cfg s p f w2) as [w3 [[]|e]] eqn:E3; cbn [fst] in S3; unfold Silent in *.
    - rewrite send_write by (auto using short_nil). do 5 eexists. split; [reflexivity|]. cbn [sent w_sent]. rewrite S3, S2, S1. split; [reflexivity|].
      split; [exact SP|apply short_nil].
    - rewrite send_write by (auto; apply msgs). do 5 eexists. split; [reflexivity|]. cbn [sent w_sent]. rewrite S3, S2, S1. split; [reflexivity|].
      split; [exact SP|apply msgs].
  Qed.
  Lemma handle_reply q w : encodable (temp cfg) -> reply_fits cfg q w ->
    match q with RClose _ => False | RWrite _ _ d _ _ _ => utf8_decode d <> None | _ => True end ->
    exists w' pk, handle cfg q w = (w', inl tt) /\ w_sent w' = pk :: w_sent w /\ reply q pk.
  Proof.
    intros ET RF H. destruct q as [u p|u o s|u|i p d o x f]; [| |contradiction|].
    - pose proof (on_open_cases cfg msgs u p w RF) as X. cbv zeta in X. cbn [handle].
      destruct ((let! p := decode8 p in let! u := decode8 u in add_upload cfg p u) w) as [w1 [z|e]].
      + destruct X as [X1 X2]. rewrite X1. do 2 eexists. split; [reflexivity|]. split; [cbn; now rewrite X2|]. apply reply_open; auto using short_nil.
      + destruct X as (r & X1 & X2 & X3). rewrite X1. do 2 eexists. split; [reflexivity|]. split; [cbn; now rewrite X2|]. now apply reply_open.
    - destruct RF as [SU FS]. pose proof (on_read_cases cfg msgs u o s w SU FS) as X. cbv zeta in X. cbn [handle].
      destruct ((let! u := decode8 u in read_upload cfg u o s) w) as [w1 [z|e]].
      + destruct X as (X1 & X2 & X3). rewrite X1. do 2 eexists. split; [reflexivity|]. split; [cbn; now rewrite X2|]. apply reply_read; auto using short_nil.
      + destruct X as (r & X1 & X2 & X3). rewrite X1. do 2 eexists. split; [reflexivity|]. split; [cbn; now rewrite X2|]. apply reply_read; auto using short_nil.
    - destruct (utf8_decode d) as [dt|] eqn:D; [|congruence].
      destruct (on_write_form i p d o x f w dt ET RF D) as (w2 & pos & dp & k & r & A1 & A2 & A3 & A4).
      cbn [handle]. rewrite A1. do 2 eexists. split; [reflexivity|]. split; [exact A2|]. apply reply_write; auto. apply RF.
  Qed.

  (** ** A request of a file in a session (C99) *)
  Lemma wants_handler i q st st' r : wants i q -> step i st = (st', r) -> exists r', callback env (call_of q) st = (st', r').
  Proof.
    intros Hw H.
    assert (G : forall m t vs h, carries m t vs -> In (t, h) handler_table -> Forall2 typed vs (handler_types h) ->
      step (InEvent (EvBinary m)) st = (st', r) -> exists r', run_handler env error_text h vs st = (st', r')).
    { intros m t vs h Hc Ht HF Hs. apply step_binary in Hs. now rewrite (meaning_intro m t h vs Hc Ht HF) in Hs. }
    destruct Hw as [m u p Hc|m u Hc|m u o s Hc|m i p d o x f Hc];
      [apply (G m _ _ HOpenFile Hc) in H|apply (G m _ _ HCloseFile Hc) in H|apply (G m _ _ HReadFile Hc) in H|apply (G m _ _ HWriteFile Hc) in H];
      try (now apply in_table); try (repeat constructor; fail); exact H.
  Qed.
  Lemma answered' i q st st' r : encodable (temp cfg) -> wants i q -> step i st = (st', r) ->
    let w := met_after cfg meanwhile start (requests (history st)) in
    reply_fits cfg q w -> match q with RClose _ => False | RWrite _ _ d _ _ _ => utf8_decode d <> None | _ => True end ->
    exists w' b pk, handle cfg q w = (w', inl tt) /\ w_sent w' = [pk] /\ adds st st' [call_of q; Sent b] /\ from_bytes b = Ok pk /\ answers q pk.
  Proof.
    intros ET Hw H w RF Hq. destruct (wants_handler _ _ _ _ _ Hw H) as [r' Hc].
    destruct (handle_reply q w ET RF Hq) as (w' & pk & A1 & A2 & (B1 & B2 & B3 & B4 & B5)).
    unfold callback in Hc. rewrite env_request in Hc. cbv zeta in Hc. fold w in Hc. unfold after in Hc. rewrite A1 in Hc. cbn [fst snd raised] in Hc.
    change (w_sent w) with (@nil packet) in A2. rewrite A2 in Hc. cbn [rev app map resend do_ops] in Hc.
    assert (F : forall s x, do_op env (OpSend (name_of_type packet_types (pc_type (pk_class pk))) (map snd (pk_attrs pk)) []) (emit (call_of q) st) = (s, x) ->
      exists b, adds st s [call_of q; Sent b] /\ from_bytes b = Ok pk).
    { cbn [do_op]. intros s x Hs. apply (send_exact _ _ _ _ pk) in Hs; auto. destruct Hs as (b & -> & Hb). exists b. split; [|exact Hb].
      unfold adds, history. cbn. now rewrite <- app_assoc. }
    assert (G : exists b, adds st st' [call_of q; Sent b] /\ from_bytes b = Ok pk).
    { apply seq_spec in Hc as [(s & H1 & H2)|[H1 _]].
      - injection H2 as <- _. apply seq_spec in H1 as [(s2 & H1 & H3)|[H1 H3]]; [injection H3 as <-|]; eauto.
      - apply seq_spec in H1 as [(s2 & H1 & H3)|[H1 H3]]; [injection H3 as <- _|]; eauto. }
    destruct G as (b & G1 & G2). exists w', b, pk. auto 6.
  Qed.
  Lemma answered i q st st' r : encodable (temp cfg) -> wants i q -> step i st = (st', r) ->
    let w := met_after cfg meanwhile start (requests (history st)) in
    reply_fits cfg q w -> match q with RClose _ => False | RWrite _ _ d _ _ _ => utf8_decode d <> None | _ => True end ->
    exists b pk, adds st st' [call_of q; Sent b] /\ from_bytes b = Ok pk /\ answers q pk /\ truthful cfg q w pk.
  Proof.
    intros ET Hw H w RF Hq. destruct (answered' _ _ _ _ _ ET Hw H RF Hq) as (w' & b & pk & A1 & A2 & A3 & A4 & A5). fold w in A1.
    destruct (says cfg msgs q w ET RF Hq) as (w'' & pk' & A1' & A2' & A6).
    assert (w'' = w') by congruence. subst w''. assert (pk' = pk) by (change (w_sent w) with (@nil packet) in A2'; congruence). subst pk'.
    exists b, pk. auto.
  Qed.
  Lemma requests_run l u st : run l (init_state u) = Some st -> each wants l (requests (history st)).
  Proof. intros H. rewrite <- requests_filter. apply each_requests. eapply c98; eauto. Qed.
  Lemma c99 l u st : encodable (temp cfg) -> run l (init_state u) = Some st ->
    exists qs, each wants l qs /\
    let w := met_after cfg meanwhile start qs in
    forall i q st' r, wants i q -> step i st = (st', r) -> reply_fits cfg q w ->
    match q with RClose _ => False | RWrite _ _ d _ _ _ => utf8_decode d <> None | _ => True end ->
    exists b pk, adds st st' [call_of q; Sent b] /\ from_bytes b = Ok pk /\ answers q pk /\ truthful cfg q w pk.
  Proof.
    intros ET H. exists (requests (history st)). split; [eapply requests_run; eauto|]. cbv zeta. intros. eapply answered; eauto.
  Qed.
End System.

Lemma close_silent cfg u w : w_sent (after (handle cfg (RClose u)) w) = w_sent w.
Proof.
  assert (S : steps Silent (on_close cfg u)).
  { pose proof pre_silent as HP. unfold on_close. apply st_catch; [exact HP| |intros; now apply st_ret].
    apply st_bind; auto using st_decode. intros t. apply st_close_upload; auto using ed_silent. }
  apply S.
Qed.
Section Silent.
  Variable cfg : config.
  Variable meanwhile : nat -> fs -> fs * list (option nat).
  Variable start : fs.
  Variable rest : list effect -> effect -> list (op * bool) * option exn.
  Variable error_text : list effect -> text.
  Notation env := (agent_env cfg meanwhile start rest).
  Notation step := (step env error_text).
  Notation run := (run env error_text).
  Lemma unanswered i q st st' r : wants i q ->
    match q with RClose _ => True | RWrite _ _ d _ _ _ => utf8_decode d = None | _ => False end ->
    step i st = (st', r) -> adds st st' [call_of q].
  Proof.
    intros Hw Hq H. destruct (wants_handler _ _ _ _ _ _ _ _ _ _ Hw H) as [r' Hc].
    unfold callback in Hc. rewrite env_request in Hc. cbv zeta in Hc. set (w := met_after cfg meanwhile start (Proof_System2.requests (history st))) in Hc.
    assert (E : w_sent (after (handle cfg q) w) = []).
    { destruct q as [| |u|i' p d o x f]; try contradiction.
      - change (@nil packet) with (w_sent w). apply close_silent.
      - unfold after. rewrite no_reply by exact Hq. reflexivity. }
    rewrite E in Hc. cbn [rev map do_ops] in Hc. unfold seq, skip in Hc. injection Hc as <- _. reflexivity.
  Qed.
End Silent.

(** ** What the manager does over a session (C100) *)
Lemma deeds_filter m h : deeds m (filter is_call h) = deeds m h.
Proof. induction h as [|e h IH]; cbn; auto. destruct e; cbn; now rewrite IH. Qed.
Lemma deed_for_call m i d : deed_for m i d <-> exists s data, calls_for i (Instruction (VBytes s) (VDict data)) /\
  Spec_Manager.byte_keys data /\ Spec_Manager.asks (terminals m) (services m) data d.
Proof.
  split.
  - intros (msg & s & data & -> & [rest Hd] & Hk & Ha). exists s, data. split; [|auto]. exists msg, 16%Z, [VBytes s; VDict data], rest.
    split; [reflexivity|]. split; [|constructor]. apply ann_list; [exact Hd|]. now apply is_packet_type_in.
  - intros (s & data & (msg & t & vs & rest & -> & Ha & Hk) & Hb). inversion Hk; subst. exists msg, s, data. split; [reflexivity|]. split; [|exact Hb].
    inversion Ha as [t' body Hd Ht E1 E2|x r' Hd Ht E1 E2]; [exists rest; exact Hd|].
    destruct r' as [|y r']; [discriminate|]. injection E2 as E2. discriminate.
Qed.
Lemma each_deeds m l es : each calls_for l es -> each (deed_for m) l (deeds m es).
Proof.
  induction 1 as [|i e l es Hc H IH|i l es Hn H IH]; cbn.
  - constructor.
  - assert (N : (forall s d, e <> Instruction s d) -> each (deed_for m) (i :: l) (deeds m es)).
    { intros N. apply each_none; auto. intros d Hd. apply deed_for_call in Hd as (s & data & Hd & _).
      pose proof (calls_for_functional _ _ _ Hc Hd). eapply N; eauto. }
    destruct e; try (apply N; discriminate).
    assert (exists s dd, sender = VBytes s /\ data = VDict dd) as (s & dd & -> & ->).
    { destruct Hc as (msg & t & vs & rest & _ & _ & Hk). inversion Hk; subst. eauto. }
    destruct (c41 dd m) as (ds & E & Hl & Hi). rewrite E.
    destruct ds as [|d [|d' ds]]; cbn in Hl; [| |lia]; cbn [app].
    + apply each_none; auto. intros d Hd. apply deed_for_call in Hd as (s' & data & Hd & Hb).
      pose proof (calls_for_functional _ _ _ Hc Hd) as X. injection X as _ <-. apply (Hi d) in Hb. destruct Hb.
    + apply each_one; auto. apply deed_for_call. exists s, dd. split; [exact Hc|]. apply Hi. now left.
  - apply each_none; auto. intros d Hd. apply deed_for_call in Hd as (s & data & Hd & _). eapply Hn; eauto.
Qed.
Lemma c100 env error_text m u l st : run env error_text l (init_state u) = Some st -> each (deed_for m) l (deeds m (history st)).
Proof. intros H. rewrite <- deeds_filter. apply each_deeds. eapply c98; eauto. Qed.
Lemma deed_functional m : functional (deed_for m).
Proof.
  intros i x y Hx Hy. apply deed_for_call in Hx as (s & d & Hx & Bx), Hy as (s' & d' & Hy & By).
  pose proof (calls_for_functional _ _ _ Hx Hy) as E. injection E as <- <-. destruct (c41 d m) as (ds & _ & Hl & Hi).
  apply Hi in Bx, By. destruct ds as [|a [|b ds]]; cbn in *; [tauto| |lia]. intuition congruence.
Qed.
