From Verif Require Import Py Py_lemmas Dict_lemmas Model_Bencode Spec_Bencode Proof_Bencode Model_Packets Model_Client Spec_Client Proof_Client4
  Model_Path Model_Remote Spec_Remote Proof_Remote Proof_Remote2 Proof_Remote3 Proof_Remote4 Proof_Remote6 Proof_Remote8 Proof_Remote9 Proof_Path
  Model_System Spec_System Proof_System Proof_System2 Proof_System3 Proof_System4.

(** ** Every request can be asked for in a message *)
Lemma carries_flat t vs : Forall py_object vs -> Forall Encodable vs -> map Proof_Bencode.norm vs = vs -> exists m, carries m t vs.
Proof.
  intros P E N. assert (P' : py_object (VList (VInt t :: vs))) by (constructor; constructor; [constructor|exact P]).
  assert (E' : Encodable (VList (VInt t :: vs))) by (eapply en_seq; [constructor|constructor; [constructor|exact E]]).
  destruct (encode_encodable _ P' E') as [b Hb]. destruct (encode_ok _ _ P' Hb) as (_ & _ & _ & D). exists b, []. specialize (D []). rewrite app_nil_r in *.
  unfold decode. rewrite D. cbn. now rewrite N.
Qed.
Lemma askable q : brief q -> exists m, wants (InEvent (EvBinary m)) q.
Proof.
  assert (EB : forall b, Encodable (VBytes b)) by (intros b; eapply en_octets; constructor).
  destruct q as [u p|u o s|u|i p d o x f]; cbn [brief].
  - intros [H1 H2]. destruct (carries_flat 24 [VBytes u; VBytes p]) as [m C]; [repeat constructor; auto|repeat constructor; auto|reflexivity|].
    exists m. now constructor.
  - intros H. destruct (carries_flat 27 [VBytes u; VInt o; VInt s]) as [m C]; [repeat constructor; auto|repeat constructor; auto|reflexivity|].
    exists m. now constructor.
  - intros H. destruct (carries_flat 26 [VBytes u]) as [m C]; [repeat constructor; auto|repeat constructor; auto|reflexivity|].
    exists m. now constructor.
  - intros (H1 & H2 & H3 & H4). destruct (carries_flat 31 [VBytes i; VBytes p; VBytes d; VInt o; VBytes x; VInt f]) as [m C];
      [repeat constructor; auto|repeat constructor; auto|reflexivity|]. exists m. now constructor.
Qed.

Section System.
  Variable cfg : config.
  Variable meanwhile : nat -> fs -> fs * list (option nat).
  Variable start : fs.
  Variable rest : list effect -> effect -> list (op * bool) * option exn.
  Variable error_text : list effect -> text.
  Notation env := (agent_env cfg meanwhile start rest).
  Notation step := (step env error_text).
  Notation run := (run env error_text).
  Notation ddir := (download_dir cfg).
  Notation Sl := (place cfg (snapshot_dir cfg)).
  Notation Dl := (place cfg (download_dir cfg)).
  Notation files_of := (files_of cfg meanwhile start).
  Notation world_of := (world_of cfg meanwhile start).
  Variable msgs : messages_ok cfg.
  Variable temp_ok : encodable (temp cfg).

  Lemma told_of i q st st' r w' pk : wants i q -> step i st = (st', r) -> reply_fits cfg q (world_of st) ->
    match q with RClose _ => False | RWrite _ _ d _ _ _ => utf8_decode d <> None | _ => True end ->
    handle cfg q (world_of st) = (w', inl tt) -> w_sent w' = [pk] ->
    told st st' pk /\ files_of st' = w_fs w' /\ requests (history st') = requests (history st) ++ [q].
  Proof.
    intros Hw H RF Hq Hh Hs. destruct (answered' cfg meanwhile start rest error_text msgs i q st st' r temp_ok Hw H RF Hq) as (w2 & b & pk2 & A1 & A2 & A3 & A4 & A5).
    fold (world_of st) in A1. rewrite Hh in A1. injection A1 as <-. rewrite Hs in A2. injection A2 as <-. split.
    - exists [call_of q; Sent b], b. split; [exact A3|]. split; [right; left; reflexivity|exact A4].
    - destruct (files_step _ _ _ _ _ _ _ _ _ _ Hw H) as [E1 E2]. split; [|exact E1]. rewrite E2. unfold after. now rewrite Hh.
  Qed.
  Notation calm := (calm meanwhile).
  Lemma calm_world N st : calm N -> N <= length (requests (history st)) -> world_of st = W (files_of st) [] [].
  Proof. intros C H. unfold Proof_System3.world_of, met_after, meets. now rewrite C. Qed.

  Section Fetch.
    Variable u : bytes.
    Variable t : text.
    Variable Hu : utf8_decode u = Some t.
    Variable Hs : short u.
    Variable tn : normal (temp cfg).
    Variable Ht : Spec_Remote.plain t.
    Notation L := (Sl ++ [t]).
    Lemma wire_ends N size b : calm N -> 0 < size -> (Z.of_nat size < 2 ^ 63)%Z -> (Z.of_nat (length b) < 2 ^ 63)%Z ->
      forall k o st, length b - o < k -> o <= length b -> N <= length (requests (history st)) -> tree (files_of st) -> files_of st L = Some (File b) ->
      exists st', wire_fetch env error_text cfg L u size o st (skipn o b) st'.
    Proof.
      intros C S0 S1 LB. induction k as [|k IH]; intros o st K OB HN T F; [lia|].
      pose proof (calm_world N st C HN) as E.
      assert (SH : shot cfg t b (world_of st)) by (rewrite E; apply (plain_shot cfg tn); auto).
      assert (R : read_upload cfg t (Z.of_nat o) (Z.of_nat size) (world_of st) = (world_of st, inl (firstn size (skipn o b)))).
      { rewrite (read_shot _ _ _ _ _ _ SH); [|now rewrite E]. rewrite slice_ok by lia. reflexivity. }
      destruct (packet_of_read cfg msgs _ _ _ _ _ _ _ Hs Hu R) as (w1 & (pk & X1 & X2 & X3 & X4) & F1 & _).
      destruct (askable (RRead u (Z.of_nat o) (Z.of_nat size)) Hs) as [m Hw].
      destruct (step (InEvent (EvBinary m)) st) as [st1 r] eqn:H.
      assert (RF : reply_fits cfg (RRead u (Z.of_nat o) (Z.of_nat size)) (world_of st)) by (split; [exact Hs|lia]).
      assert (X2' : w_sent w1 = [pk]) by (rewrite X2; now rewrite E).
      destruct (told_of _ _ _ _ _ _ _ Hw H RF I X1 X2') as (TD & FE & RQ).
      destruct (le_lt_dec size (length (skipn o b))) as [Ln|Ln].
      - destruct (IH (o + size) st1) as [st' G].
        + rewrite skipn_length in Ln. lia.
        + rewrite skipn_length in Ln. lia.
        + rewrite RQ, app_length. lia.
        + rewrite FE, F1, E. exact T.
        + rewrite FE, F1, E. exact F.
        + exists st'. rewrite <- (firstn_skipn size (skipn o b)). rewrite skipn_skipn. rewrite (Nat.add_comm size o).
          eapply wf_more; eauto. rewrite firstn_length. lia.
      - exists st1. rewrite firstn_all2 in X4 by lia. eapply wf_short; eauto.
    Qed.
    Lemma c101_ends l v st p pt i st1 r pk n size qs : absolute (root cfg) -> tree start -> sane meanwhile -> utf8_decode p = Some pt ->
      run l (init_state v) = Some st -> each wants l qs -> calm (S (length qs)) ->
      wants i (ROpen u p) -> step i st = (st1, r) -> told st st1 pk -> field pk "fail" (VInt 0) -> field pk "size" (VInt n) ->
      0 < size -> (Z.of_nat size < 2 ^ 63)%Z -> (n < 2 ^ 63)%Z ->
      exists d st2, wire_fetch env error_text cfg L u size 0 st1 d st2.
    Proof.
      intros HA T ok P R Q C Hw H Hk F1 F2 S0 S1 LN.
      assert (requests (history st) = qs) as Eq by (eapply each_functional; [exact wants_functional|eapply requests_run; eauto|exact Q]).
      pose proof (ok (length (requests (history st))) (files_of st) (left_tree _ _ _ ok _ _ T)) as T'.
      destruct (told_reply cfg meanwhile start rest error_text msgs temp_ok _ _ _ _ _ _ Hw H Hs I Hk) as (w' & A1 & A2).
      change (tree (w_fs (world_of st))) in T'. assert (O : opened_with cfg u p (world_of st) w' n) by (exists pk; auto).
      destruct (packet_opened cfg msgs _ _ _ _ _ _ _ Hs tn HA Ht T' Hu P O) as (src & b & B1 & B2 & B3 & B4 & B5).
      destruct (files_step _ _ _ _ _ _ _ _ _ _ Hw H) as [E1 E2]. unfold after in E2. rewrite A1 in E2. cbn [fst] in E2.
      destruct (wire_ends (S (length qs)) size b C S0 S1 ltac:(lia) (S (length b)) 0 st1) as [st' G]; try lia.
      - rewrite E1, app_length, Eq. cbn. lia.
      - now rewrite E2.
      - now rewrite E2.
      - eauto.
    Qed.
  End Fetch.

  Section Store.
    Variables (u dp : bytes) (t pt : text) (ld : loc).
    Variable tn : normal (temp cfg).
    Variable Ht : Spec_Remote.plain t.
    Variable Hu : utf8_decode u = Some t.
    Variable Hd : utf8_encode (join ddir t) = Some dp.
    Variable Hs : short u.
    Variable Hsd : short dp.
    Variable ldD : ld <> Dl.
    Variable ldL : ld <> Dl ++ [t].
    Notation L := (place cfg (join ddir t)).
    Notation live := (live cfg t pt ld).
    Lemma fits' p d o x f w : d = [] \/ d = dp -> reply_fits cfg (RWrite u p d o x f) w.
    Proof.
      intros H. apply (write_fits cfg u t Hu Hs); [intros b Hb; congruence|]. destruct H as [-> | ->]; [apply short_nil|exact Hsd].
    Qed.
    Lemma told_write j p d o x f st st' r w' : d = [] \/ d = dp -> wants j (RWrite u p d o x f) -> step j st = (st', r) ->
      replied cfg (RWrite u p d o x f) (world_of st) w' 0 -> w_sent (world_of st) = [] ->
      exists pk, w_sent w' = [pk] /\ told st st' pk /\ field pk "fail" (VInt 0) /\ files_of st' = w_fs w' /\
        requests (history st') = requests (history st) ++ [RWrite u p d o x f].
    Proof.
      intros Hdd Hw H (pk & A1 & A2 & A3 & A4 & A5) S0. exists pk. assert (A2' : w_sent w' = [pk]) by (rewrite A2; now rewrite S0).
      assert (DN : utf8_decode d <> None) by (destruct Hdd as [-> | ->]; [discriminate|rewrite (utf8_decode_encode _ _ Hd); discriminate]).
      destruct (told_of _ _ _ _ _ w' pk Hw H (fits' _ _ _ _ _ _ Hdd) DN A1 A2') as (TD & FE & RQ). auto 6.
    Qed.
    Lemma store_ends N js cs : calm N -> Forall2 (fun j c => exists p, wants j (RWrite u p dp (Z.of_nat (fst c)) (snd c) 0)) js cs ->
      Forall (fun c => (Z.of_nat (fst c) < 2 ^ 63)%Z) cs -> forall st, N <= length (requests (history st)) -> live (W (files_of st) [] []) ->
      exists st', wire_store env error_text cfg L u dp js cs st st' /\ N <= length (requests (history st')) /\ live (W (files_of st') [] []).
    Proof.
      intros C F2. induction F2 as [|j [o d] js cs (p & Hw) F2 IH]; intros FB st HN LV.
      - exists st. split; [constructor|]. auto.
      - inversion FB as [|x y B1 B2]; subst. cbn [fst snd] in *. pose proof (calm_world N st C HN) as E. rewrite <- E in LV.
        destruct (next_live cfg u dp t pt ld msgs tn temp_ok Ht Hu Hd Hs Hsd ldL p o d (world_of st) B1 LV) as (w1 & R & L1).
        destruct (step j st) as [st1 r] eqn:H.
        destruct (told_write _ _ _ _ _ _ _ _ _ _ (or_intror eq_refl) Hw H R) as (pk & S1 & TD & F & FE & RQ); [now rewrite E|].
        destruct (IH B2 st1) as (st' & W & HN' & LV').
        + rewrite RQ, app_length. lia.
        + rewrite FE. apply (live_fs cfg t pt ld w1); auto. symmetry. apply L1.
        + exists st'. split; [econstructor; eauto|]. auto.
    Qed.
    Lemma c102_succeeds l v st qs0 p0 o0 d0 j0 js cs content p o d f j :
      tree start -> sane meanwhile -> run l (init_state v) = Some st -> each wants l qs0 -> calm (length qs0) ->
      let w0 := met_after cfg meanwhile start qs0 in
      w_fs w0 (place cfg (temp cfg)) = Some Dir ->
      w_fs w0 Dl = None \/ w_fs w0 Dl = Some Dir -> w_fs w0 (Dl ++ [t]) <> Some Dir ->
      resolve (w_fs w0) (cwd cfg) (dest cfg pt) = Ok ld -> w_fs w0 ld = None ->
      wants j0 (RWrite u p0 [] (Z.of_nat o0) d0 0) ->
      Forall2 (fun j c => exists p, wants j (RWrite u p dp (Z.of_nat (fst c)) (snd c) 0)) js cs ->
      wants j (RWrite u p dp (Z.of_nat o) d f) -> f <> 0%Z -> utf8_decode p = Some pt ->
      Forall (chunk_of content) ((o0, d0) :: cs ++ [(o, d)]) -> covers content ((o0, d0) :: cs ++ [(o, d)]) -> (Z.of_nat (length content) < 2 ^ 63)%Z ->
      exists st1 r1 pk1 st2 st3 r3 pk3, step j0 st = (st1, r1) /\ told st st1 pk1 /\ field pk1 "fail" (VInt 0) /\ field pk1 "device_path" (VBytes dp) /\
        wire_store env error_text cfg L u dp js cs st1 st2 /\ step j st2 = (st3, r3) /\ told st2 st3 pk3 /\ field pk3 "fail" (VInt 0) /\
        forall qs, each wants (l ++ j0 :: js ++ [j]) qs -> left_by cfg meanwhile 0 start qs ld = Some (File content).
    Proof.
      intros T ok R Q0 C w0 TD DD LN RS N W0 F2 W3 FZ P FA CV LEN.
      assert (requests (history st) = qs0) as E0 by (eapply each_functional; [exact wants_functional|eapply requests_run; eauto|exact Q0]).
      assert (BD : Forall (fun c : nat * bytes => (Z.of_nat (fst c) < 2 ^ 63)%Z) ((o0, d0) :: cs ++ [(o, d)])).
      { eapply Forall_impl; [|exact FA]. intros c [X _]. lia. }
      inversion BD as [|x y B0 B']; subst x y. apply Forall_app in B'. destruct B' as [B1 B2]. inversion B2 as [|x y B3 _]; subst x y. cbn [fst] in *.
      assert (EW : world_of st = W (files_of st) [] []) by (eapply calm_world; eauto; now rewrite E0).
      assert (Ew : w0 = world_of st) by (unfold w0, Proof_System3.world_of; now rewrite E0). rewrite Ew in *.
      pose proof (left_tree cfg meanwhile (requests (history st)) ok 0 start T) as T1. change (tree (files_of st)) in T1.
      assert (FL : faultless (world_of st)) by now rewrite EW.
      assert (T2 : tree (w_fs (world_of st))) by now rewrite EW.
      destruct (first_live cfg u dp t pt ld msgs tn temp_ok Ht Hu Hd Hs Hsd ldD ldL p0 o0 d0 (world_of st) B0 FL T2 TD DD LN (conj RS N)) as (w1 & R1 & L1).
      destruct (step j0 st) as [st1 r1] eqn:H0.
      destruct (told_write _ _ _ _ _ _ _ _ _ _ (or_introl eq_refl) W0 H0 R1) as (pk1 & S1 & K1 & G1 & FE1 & RQ1); [now rewrite EW|].
      destruct (store_ends (length qs0) js cs C F2 B1 st1) as (st2 & WS & HN2 & LV2).
      { rewrite RQ1, app_length, E0. lia. }
      { rewrite FE1. apply (live_fs cfg t pt ld w1); auto. symmetry. apply L1. }
      pose proof (calm_world _ st2 C HN2) as E2. rewrite <- E2 in LV2.
      destruct (final_live cfg u dp t pt ld msgs tn temp_ok Ht Hu Hd Hs Hsd ldL p o d f (world_of st2) P B3 FZ LV2) as (w3 & R3).
      destruct (step j st2) as [st3 r3] eqn:H3.
      destruct (told_write _ _ _ _ _ _ _ _ _ _ (or_intror eq_refl) W3 H3 R3) as (pk3 & S3 & K3 & G3 & FE3 & RQ3); [now rewrite E2|].
      exists st1, r1, pk1, st2, st3, r3, pk3. repeat (split; [auto; fail|]).
      assert (FD : field pk1 "device_path" (VBytes dp)).
      { destruct (replied_0 _ _ _ _ _ _ _ _ _ R1) as (dt & v1 & s & dp' & v2 & v3 & D & Z1 & EN & _ & _ & _ & SE).
        cbn in D. injection D as <-. unfold stage1, bindM, decode8 in Z1. rewrite Hu in Z1. cbn [ret] in Z1.
        destruct (add_download_ok _ _ _ _ _ Z1) as (-> & _). rewrite S1 in SE. injection SE as ->. assert (dp' = dp) as -> by congruence. reflexivity. }
      repeat (split; [auto; fail|]). intros qs Q.
      assert (Hp : forall b, utf8_encode (join ddir t) = Some b -> short b) by (intros b Hb; congruence).
      assert (NS : L <> Sl).
      { rewrite down_place by assumption. intros X. apply (f_equal (@length text)) in X. rewrite app_length, D_eq, S_eq, !app_length in X by assumption. cbn in X. lia. }
      assert (ND : L <> Dl).
      { rewrite down_place by assumption. intros X. apply (f_equal (@length text)) in X. rewrite app_length in X. cbn in X. lia. }
      inversion FA as [|x y G0 FA']; subst x y. apply Forall_app in FA' as [FA' _].
      assert (ST : stored cfg t content (files_of st1) [(o0, d0)]).
      { rewrite FE1. exact (first_part cfg u t content Hu p0 o0 d0 _ w1 T2 R1 G0). }
      destruct (store_sound cfg meanwhile start rest error_text msgs temp_ok u t Hu Hs Hp NS ND ok dp Hd content (length qs0) js cs st1 st2 WS) with (done := [(o0, d0)]) as (_ & new & Q2 & EWN); auto.
      { intros n g Hn. now rewrite C. }
      { rewrite RQ1, app_length, E0. lia. }
      assert (Qs : each wants (l ++ j0 :: js) (requests (history st2))).
      { rewrite Q2, RQ1, E0, <- app_assoc. apply each_app; [exact Q0|]. now apply each_one. }
      destruct (c102 cfg meanwhile start rest error_text msgs temp_ok u t Hu Hs Hp NS ND ok l v st qs0 p0 o0 d0 j0 st1 r1 pk1 dp js cs st2 (requests (history st2)) content p pt o d f j st3 r3 pk3)
        as (q & [C1 C2] & A2 & A3 & _); auto.
      { intros k g Hk. rewrite C by lia. reflexivity. }
      assert (qs = requests (history st2) ++ [RWrite u p dp (Z.of_nat o) d f]) as ->.
      { eapply each_functional; [exact wants_functional|exact Q|]. rewrite app_comm_cons, app_assoc. apply each_app; [exact Qs|]. apply each_one; [exact W3|constructor]. }
      destruct LV2 as (_ & _ & _ & _ & X2 & N2).
      assert (NE : path_exists (w_fs (world_of st2)) (cwd cfg) (dest cfg pt) = false) by (unfold path_exists, lookup; now rewrite X2, N2).
      assert (q = dest cfg pt) as ->.
      { destruct C2 as [C2|(d1 & n1 & b1 & x1 & k1 & _ & _ & X & _)]; auto. cbv zeta in X. fold (world_of st2) in X. congruence. }
      rewrite (resolve_place cfg _ _ _ X2). exact A3.
    Qed.
  End Store.
End System.
