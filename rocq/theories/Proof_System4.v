From Verif Require Import Py Py_lemmas Dict_lemmas Model_Bencode Spec_Bencode Model_Packets Model_Client Spec_Client Proof_Client4
  Model_Path Model_Remote Spec_Remote Proof_Remote Proof_Remote2 Proof_Remote3 Proof_Remote4 Proof_Remote6 Proof_Remote8 Proof_Remote9
  Model_System Spec_System Proof_System Proof_System2 Proof_System3.

Section System.
  Variable cfg : config.
  Variable meanwhile : nat -> fs -> fs * list (option nat).
  Variable start : fs.
  Variable rest : list effect -> effect -> list (op * bool) * option exn.
  Variable error_text : list effect -> text.
  Notation env := (agent_env cfg meanwhile start rest).
  Notation step := (step env error_text).
  Notation run := (run env error_text).
  Notation ddir := (download_dir cfg).
  Notation Sl := (place cfg (snapshot_dir cfg)).
  Notation Dl := (place cfg (download_dir cfg)).
  Notation files_of := (files_of cfg meanwhile start).
  Notation world_of := (world_of cfg meanwhile start).
  Variable msgs : messages_ok cfg.
  Variable temp_ok : encodable (temp cfg).

  Lemma told_replied i q st st' r pk k : wants i q -> step i st = (st', r) -> reply_fits cfg q (world_of st) ->
    match q with RClose _ => False | RWrite _ _ d _ _ _ => utf8_decode d <> None | _ => True end ->
    told st st' pk -> field pk "fail" (VInt k) ->
    exists w', replied cfg q (world_of st) w' k /\ w_sent w' = [pk] /\ files_of st' = w_fs w'.
  Proof.
    intros Hw H RF Hq Hk F. destruct (told_reply cfg meanwhile start rest error_text msgs temp_ok _ _ _ _ _ _ Hw H RF Hq Hk) as (w' & A1 & A2).
    destruct (one_reply cfg msgs q (world_of st) temp_ok RF Hq) as (w2 & k2 & pk2 & B1 & B2 & B3 & B4 & B5).
    rewrite A1 in B1. injection B1 as <-. rewrite A2 in B2. injection B2 as <-. unfold field in F, B4. rewrite F in B4. injection B4 as <-.
    exists w'. split; [exists pk; repeat split; auto; now rewrite A2|]. split; [exact A2|].
    destruct (files_step _ _ _ _ _ _ _ _ _ _ Hw H) as [_ E]. rewrite E. unfold after. now rewrite A1.
  Qed.

  Variable u : bytes.
  Variable t : text.
  Variable Hu : utf8_decode u = Some t.
  Variable Hs : short u.
  Variable Hp : forall b, utf8_encode (join ddir t) = Some b -> short b.
  Notation L := (place cfg (join ddir t)).
  Variable LS : L <> Sl.
  Variable LD : L <> Dl.
  Variable ok : sane meanwhile.

  Lemma write_fits p d o x f w : short d -> reply_fits cfg (RWrite u p d o x f) w.
  Proof. intros H. split; [exact Hs|]. split; [exact H|]. intros t' b E E'. rewrite Hu in E. injection E as <-. auto. Qed.

  (** The content so far, on the files *)
  Definition stored (content : bytes) (f : fs) (cs : list (nat * bytes)) : Prop := part cfg t content (W f [] []) cs.
  Lemma stored_part content w cs : part cfg t content w cs <-> stored content (w_fs w) cs.
  Proof. reflexivity. Qed.
  Lemma met_stored content st cs : fst (meanwhile (length (requests (history st))) (files_of st)) L = files_of st L ->
    stored content (files_of st) cs -> part cfg t content (world_of st) cs.
  Proof.
    intros E (T & b & F & Q). split; [now apply ok|]. exists b. split; [|exact Q]. cbn in *. unfold files_of in *. now rewrite E.
  Qed.
  Lemma first_told p o d j st st1 r pk dp : wants j (RWrite u p [] o d 0) -> step j st = (st1, r) -> told st st1 pk ->
    field pk "fail" (VInt 0) -> field pk "device_path" (VBytes dp) -> utf8_encode (join ddir t) = Some dp.
  Proof.
    intros Hw H Hk F F'. destruct (told_replied _ _ _ _ _ _ _ Hw H (write_fits p [] o d 0 _ short_nil) ltac:(discriminate) Hk F) as (w' & R & S & E).
    destruct (replied_0 _ _ _ _ _ _ _ _ _ R) as (dt & v1 & s & dp' & v2 & v3 & D & S1 & EN & _ & _ & _ & SE).
    cbn in D. injection D as <-. unfold stage1, bindM, decode8 in S1. rewrite Hu in S1. cbn [ret] in S1.
    destruct (add_download_ok _ _ _ _ _ S1) as (-> & _). rewrite S in SE. injection SE as ->. cbn in F'. injection F' as ->. exact EN.
  Qed.
  Section Dp.
    Variable dp : bytes.
    Variable Hd : utf8_encode (join ddir t) = Some dp.
    Variable content : bytes.
    Lemma dp_fine : utf8_decode dp <> None.
    Proof. rewrite (utf8_decode_encode _ _ Hd). discriminate. Qed.
    Lemma store_sound N js cs st st' : wire_store env error_text cfg L u dp js cs st st' ->
      (forall n f, N <= n -> fst (meanwhile n f) L = f L) -> N <= length (requests (history st)) ->
      Forall (chunk_of content) cs -> forall done, stored content (files_of st) done ->
      stored content (files_of st') (rev cs ++ done) /\
      exists new, requests (history st') = requests (history st) ++ new /\ each wants js new.
    Proof.
      intros W HM. induction W as [st|j js o d p cs st st1 r pk st' Hw H Hk F W IH|j js cs st st1 r st' Hq H Hr W IH]; intros HN FA done ST.
      - split; [exact ST|]. exists []. split; [now rewrite app_nil_r|constructor].
      - destruct (told_replied _ _ _ _ _ _ _ Hw H (write_fits p dp _ d 0 _ (Hp _ Hd)) dp_fine Hk F) as (w' & R & S & E).
        destruct (files_step _ _ _ _ _ _ _ _ _ _ Hw H) as [E1 _]. inversion FA as [|x y F1 F2]; subst.
        destruct (IH ltac:(rewrite E1, app_length; lia) F2 ((o, d) :: done)) as (A & new & B & C).
        + rewrite E. apply stored_part. apply (more_parts cfg u dp t content Hd (fun X => LS (eq_sym X)) (fun X => LD (eq_sym X)) [(o, d)] (world_of st) w' done).
          * econstructor; [exact R|constructor].
          * repeat constructor; apply F1.
          * apply met_stored; auto.
        + split; [cbn [rev]; rewrite <- app_assoc; exact A|]. eexists. rewrite B, E1, <- app_assoc. split; [reflexivity|]. constructor; auto.
      - destruct (step_requests _ _ _ _ _ _ _ _ _ H) as [(q & Hw & E1)|[Hn E1]].
        + destruct (files_step _ _ _ _ _ _ _ _ _ _ Hw H) as [_ E]. destruct (met_stored content st done (HM _ _ HN) ST) as (T & b & F & Q).
          destruct (keep_event cfg L b (world_of st) (Request q) (fun X => LS (eq_sym X)) (fun X => LD (eq_sym X)) (Hq q Hw (world_of st)) (conj T F)) as [K1 K2].
          destruct (IH ltac:(rewrite E1, app_length; lia) FA done) as (A & new & B & C).
          * rewrite E. split; [exact K1|]. exists b. auto.
          * split; [exact A|]. eexists. rewrite B, E1, <- app_assoc. split; [reflexivity|]. constructor; auto.
        + destruct (IH ltac:(rewrite E1; lia) FA done) as (A & new & B & C).
          * unfold Proof_System3.files_of in *. now rewrite E1.
          * split; [exact A|]. exists new. rewrite B, E1. split; [reflexivity|]. now apply each_none.
    Qed.
  End Dp.

  Lemma c102 l v st qs0 p0 o0 d0 j0 st1 r1 pk1 dp js cs st2 qs content p pt o d f j st3 r3 pk3 :
    tree start -> run l (init_state v) = Some st -> each wants l qs0 ->
    (forall k g, length qs0 < k -> fst (meanwhile k g) L = g L) ->
    wants j0 (RWrite u p0 [] (Z.of_nat o0) d0 0) -> step j0 st = (st1, r1) -> told st st1 pk1 ->
    field pk1 "fail" (VInt 0) -> field pk1 "device_path" (VBytes dp) ->
    wire_store env error_text cfg L u dp js cs st1 st2 -> each wants (l ++ j0 :: js) qs ->
    wants j (RWrite u p dp (Z.of_nat o) d f) -> f <> 0%Z -> utf8_decode p = Some pt ->
    step j st2 = (st3, r3) -> told st2 st3 pk3 -> field pk3 "fail" (VInt 0) ->
    Forall (chunk_of content) ((o0, d0) :: cs ++ [(o, d)]) -> covers content ((o0, d0) :: cs ++ [(o, d)]) ->
    let w := met_after cfg meanwhile start qs in
    let after := left_by cfg meanwhile 0 start (qs ++ [RWrite u p dp (Z.of_nat o) d f]) in
    exists q, chosen cfg (w_fs w) pt q /\ w_fs w (place cfg q) = None /\ after (place cfg q) = Some (File content) /\ after L = None /\
      forall x, x <> L -> x <> place cfg q -> after x = w_fs w x.
  Proof.
    intros T R Q0 HM W0 S0 K0 F0 FD WS Q W FZ P S3 K3 F3 FA CV.
    assert (requests (history st) = qs0) as E0 by (eapply each_functional; [exact wants_functional|eapply requests_run; eauto|exact Q0]).
    pose proof (first_told _ _ _ _ _ _ _ _ _ W0 S0 K0 F0 FD) as Hd.
    inversion FA as [|x y G0 FA']; subst x y. apply Forall_app in FA' as [G1 G2]. inversion G2 as [|x y G3 _]; subst x y.
    destruct (told_replied _ _ _ _ _ _ _ W0 S0 (write_fits p0 [] _ d0 0 _ short_nil) ltac:(discriminate) K0 F0) as (w1 & R1 & _ & E1).
    pose proof (left_tree cfg meanwhile (requests (history st)) ok 0 start T) as T1. change (tree (files_of st)) in T1.
    pose proof (ok (length (requests (history st))) _ T1) as T2. change (tree (w_fs (world_of st))) in T2.
    pose proof (first_part cfg u t content Hu p0 o0 d0 _ w1 T2 R1 G0) as P1. change (stored content (w_fs w1) [(o0, d0)]) in P1. rewrite <- E1 in P1.
    destruct (files_step _ _ _ _ _ _ _ _ _ _ W0 S0) as [Q1 _].
    destruct (store_sound dp Hd content (S (length qs0)) js cs st1 st2 WS) with (done := [(o0, d0)]) as (P2 & new & Q2 & EW); auto.
    { rewrite Q1, E0, app_length. cbn. lia. }
    assert (requests (history st2) = qs) as E2.
    { eapply each_functional; [exact wants_functional| |exact Q]. rewrite Q2, Q1, E0, <- app_assoc. apply each_app; [exact Q0|]. now apply each_one. }
    assert (HL : S (length qs0) <= length (requests (history st2))) by (rewrite Q2, Q1, E0, !app_length; cbn; lia).
    pose proof (met_stored content st2 _ (HM _ _ HL) P2) as P3.
    destruct (told_replied _ _ _ _ _ _ _ W S3 (write_fits p dp _ d f _ (Hp _ Hd)) (dp_fine dp Hd) K3 F3) as (w3 & R3 & _ & E3).
    destruct (last_part cfg u dp t content Hd (fun X => LS (eq_sym X)) (fun X => LD (eq_sym X)) p pt o d f (world_of st2) w3 (rev cs ++ [(o0, d0)]) R3 FZ P G3)
      as (q & A1 & A2 & A3 & A4 & A5); [|exact P3|].
    - intros k K. destruct (CV k K) as (o' & d' & H & H'). exists o', d'. split; auto. destruct H as [H|H].
      + right. apply in_or_app. right. now left.
      + apply in_app_or in H. destruct H as [H|[H|[]]]; [right; apply in_or_app; left; now apply in_rev in H|now left].
    - cbv zeta. destruct (files_step _ _ _ _ _ _ _ _ _ _ W S3) as [Q3 _].
      assert (EF : left_by cfg meanwhile 0 start (qs ++ [RWrite u p dp (Z.of_nat o) d f]) = w_fs w3).
      { rewrite <- E2, <- Q3. exact E3. }
      rewrite EF. unfold Proof_System3.world_of in *. rewrite E2 in *. exists q. auto.
  Qed.
  Lemma c102_single l v st qs p pt content f j st1 r pk :
    tree start -> run l (init_state v) = Some st -> each wants l qs ->
    wants j (RWrite u p [] 0 content f) -> f <> 0%Z -> utf8_decode p = Some pt -> step j st = (st1, r) -> told st st1 pk -> field pk "fail" (VInt 0) ->
    let w := met_after cfg meanwhile start qs in
    let after := left_by cfg meanwhile 0 start (qs ++ [RWrite u p [] 0 content f]) in
    exists g q, (forall x, x <> L -> x <> Dl -> g x = w_fs w x) /\ chosen cfg g pt q /\ g (place cfg q) = None /\
      after (place cfg q) = Some (File content) /\ after L = None /\ forall x, x <> L -> x <> place cfg q -> after x = g x.
  Proof.
    intros T R Q W FZ P S K F.
    assert (requests (history st) = qs) as E0 by (eapply each_functional; [exact wants_functional|eapply requests_run; eauto|exact Q]).
    destruct (told_replied _ _ _ _ _ _ _ W S (write_fits p [] _ content f _ short_nil) ltac:(discriminate) K F) as (w1 & R1 & _ & E1).
    pose proof (left_tree cfg meanwhile (requests (history st)) ok 0 start T) as T1.
    pose proof (ok (length (requests (history st))) _ T1) as T2. change (tree (w_fs (world_of st))) in T2.
    destruct (files_step _ _ _ _ _ _ _ _ _ _ W S) as [Q3 _].
    assert (EF : left_by cfg meanwhile 0 start (qs ++ [RWrite u p [] 0 content f]) = w_fs w1) by (rewrite <- E0, <- Q3; exact E1).
    cbv zeta. rewrite EF. unfold Proof_System3.world_of in *. rewrite E0 in *. exact (single cfg u p pt t content f _ w1 Hu P T2 FZ R1).
  Qed.
End System.
