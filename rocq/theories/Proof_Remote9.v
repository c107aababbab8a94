(** * What replies of the remote directory say (C46) and what failed downloads leave (C84) *)
From Verif Require Import Py Py_lemmas Model_Packets Model_Path Model_Remote Spec_Remote Proof_Path
  Proof_Remote Proof_Remote2 Proof_Remote3 Proof_Remote4 Proof_Remote5 Proof_Remote6 Proof_Remote8.

Section Cfg.
  Variable cfg : config.
  Variable msgs : messages_ok cfg.

  Lemma stage1_device i d dt w w1 r : utf8_decode d = Some dt -> stage1 cfg i d dt w = (w1, r) -> device_file cfg i d w w1 r.
  Proof.
    intros D. unfold stage1, device_file. rewrite D. destruct dt; [|intros [= <- <-]; auto].
    unfold bindM, decode8. destruct (utf8_decode i); cbn; auto. intros [= <- <-]. auto.
  Qed.
  Lemma stage2_written s o x w w' r : stage2 cfg s o x w = (w', r) -> data_written cfg s o x w w' r.
  Proof. unfold stage2, data_written. destruct x; auto. intros [= <- <-]. auto. Qed.
  Lemma stage3_stored s p f w w' r : stage3 cfg s p f w = (w', r) -> final_stored cfg s p f w w' r.
  Proof. unfold stage3, final_stored. destruct (f =? 0)%Z; auto. intros [= <- <-]. auto. Qed.

  Lemma says q w : encodable (temp cfg) -> reply_fits cfg q w ->
    match q with RClose _ => False | RWrite _ _ d _ _ _ => utf8_decode d <> None | _ => True end ->
    exists w' pk, handle cfg q w = (w', inl tt) /\ w_sent w' = pk :: w_sent w /\ truthful cfg q w pk.
  Proof.
    intros ET RF H. destruct q as [u p|u o s|u|i p d o x f]; [| |contradiction|].
    - pose proof (on_open_cases cfg msgs u p w RF) as X. cbv zeta in X. cbn [handle truthful].
      assert (O : open_outcome cfg u p w = match (let! p := decode8 p in let! u := decode8 u in add_upload cfg p u) w with (_, inl n) => Some n | _ => None end).
      { unfold open_outcome, bindM, decode8, result. destruct (utf8_decode p); [|reflexivity]. cbn [ret]. destruct (utf8_decode u); [|reflexivity]. cbn [ret].
        destruct (add_upload cfg _ _ w) as [? []]; reflexivity. }
      rewrite O. destruct ((let! p := decode8 p in let! u := decode8 u in add_upload cfg p u) w) as [w1 [z|e]].
      + destruct X as [X1 X2]. rewrite X1. do 2 eexists. split; [reflexivity|]. split; [cbn; now rewrite X2|]. split; reflexivity.
      + destruct X as (r & X1 & X2 & X3). rewrite X1. do 2 eexists. split; [reflexivity|]. split; [cbn; now rewrite X2|]. reflexivity.
    - destruct RF as [SU FS]. pose proof (on_read_cases cfg msgs u o s w SU FS) as X. cbv zeta in X. cbn [handle truthful].
      assert (O : read_outcome cfg u o s w = match (let! u := decode8 u in read_upload cfg u o s) w with (_, inl n) => Some n | _ => None end).
      { unfold read_outcome, bindM, decode8, result. destruct (utf8_decode u); [|reflexivity]. cbn [ret].
        destruct (read_upload cfg _ _ _ w) as [? []]; reflexivity. }
      rewrite O. destruct ((let! u := decode8 u in read_upload cfg u o s) w) as [w1 [z|e]].
      + destruct X as (X1 & X2 & X3). rewrite X1. do 2 eexists. split; [reflexivity|]. split; [cbn; now rewrite X2|]. split; reflexivity.
      + destruct X as (r & X1 & X2 & X3). rewrite X1. do 2 eexists. split; [reflexivity|]. split; [cbn; now rewrite X2|]. reflexivity.
    - destruct (utf8_decode d) as [dt|] eqn:D; [|congruence].
      destruct (on_write_cases cfg msgs i p d o x f w dt ET RF D) as (w' & q & w2 & A1 & WR & A2 & A3 & A4 & A5).
      cbn [handle truthful]. rewrite A1. exists w2, q. split; [reflexivity|]. split; [exact A4|].
      destruct WR as [dt' v1 e r D' S1|dt' v1 s dp v2 e r v3 D' S1 EP S2 _|dt' v1 s dp v2 v3 e r D' S1 EP S2 S3|dt' v1 s dp v2 v3 D' S1 EP S2 S3].
      + exists 1%Z, None. split; [eapply out_1, stage1_device; eauto|]. repeat split. exists d. split; reflexivity.
      + exists 2%Z, (Some s). split; [eapply out_2; [eapply stage1_device; eauto|eapply stage2_written; eauto]|]. repeat split. exists dp. split; [reflexivity|]. now apply utf8_decode_encode.
      + exists 3%Z, (Some s). split; [eapply out_3; [eapply stage1_device; eauto|eapply stage2_written; eauto|eapply stage3_stored; eauto]|]. repeat split. exists dp. split; [reflexivity|]. now apply utf8_decode_encode.
      + exists 0%Z, (Some s). split; [eapply out_0; [eapply stage1_device; eauto|eapply stage2_written; eauto|eapply stage3_stored; eauto]|]. repeat split. exists dp. split; [reflexivity|]. now apply utf8_decode_encode.
  Qed.

  (** ** Failed writes *)
  Lemma device_stage1 i d dt w w1 r : utf8_decode d = Some dt -> device_file cfg i d w w1 r -> stage1 cfg i d dt w = (w1, r).
  Proof.
    intros D. unfold stage1, device_file. rewrite D. destruct dt; [|intros [-> ->]; reflexivity].
    unfold bindM, decode8. destruct (utf8_decode i); cbn; auto. intros [-> ->]. reflexivity.
  Qed.
  Lemma written_stage2 s o x w w' r : data_written cfg s o x w w' r -> stage2 cfg s o x w = (w', r).
  Proof. unfold stage2, data_written. destruct x; auto. intros [-> ->]. reflexivity. Qed.

  Lemma partial_removed i p d o x f w w1 s w2 e l : encodable (temp cfg) -> reply_fits cfg (RWrite i p d o x f) w ->
    device_file cfg i d w w1 (inl s) -> data_written cfg s o x w1 w2 (inr e) -> hd None (w_faults w2) = None ->
    resolve (w_fs w2) (cwd cfg) s = Ok l ->
    let w' := after (handle cfg (RWrite i p d o x f)) w in
    (forall b, w_fs w' l <> Some (File b)) /\ forall l', l' <> l -> w_fs w' l' = w_fs w2 l'.
  Proof.
    intros ET RF DF DW HF R. destruct (utf8_decode d) as [dt|] eqn:D; [|unfold device_file in DF; rewrite D in DF; contradiction].
    destruct (on_write_cases cfg msgs i p d o x f w dt ET RF D) as (w' & q & w4 & A1 & WR & A2 & _).
    apply (device_stage1 _ _ _ _ _ _ D) in DF. apply written_stage2 in DW.
    cbv zeta. unfold after. cbn [handle]. rewrite A1. cbn [fst]. rewrite A2.
    destruct WR as [dt' v1 e' r D' S1|dt' v1 s' dp v2 e' r v3 D' S1 EP S2 V|dt' v1 s' dp v2 v3 e' r D' S1 EP S2 S3|dt' v1 s' dp v2 v3 D' S1 EP S2 S3];
      assert (dt' = dt) by congruence; subst dt'; rewrite DF in S1; try discriminate; injection S1 as <- <-; rewrite DW in S2; try discriminate.
    injection S2 as <- <-. subst v3. unfold remove, on_path, next_fault. cbn [sent w_faults w_fs].
    destruct (w_faults w2) as [|x0 xs] eqn:F; cbn in HF; [|subst x0]; cbn; rewrite R;
      (destruct (w_fs w2 l) as [[c|]|] eqn:N; cbn;
        [split; [intros b; unfold set_node; rewrite loc_eqb_refl; discriminate|intros l' NE; unfold set_node; destruct (loc_eqb_spec l' l); [contradiction|reflexivity]]
        |split; [intros b; congruence|reflexivity]
        |split; [intros b; congruence|reflexivity]]).
  Qed.

  Lemma unstored_kept i p d o x f w w1 s w2 : encodable (temp cfg) -> reply_fits cfg (RWrite i p d o x f) w ->
    utf8_decode p = None -> f <> 0%Z ->
    device_file cfg i d w w1 (inl s) -> data_written cfg s o x w1 w2 (inl tt) ->
    w_fs (after (handle cfg (RWrite i p d o x f)) w) = w_fs w2.
  Proof.
    intros ET RF P FF DF DW. destruct (utf8_decode d) as [dt|] eqn:D; [|unfold device_file in DF; rewrite D in DF; contradiction].
    destruct (on_write_cases cfg msgs i p d o x f w dt ET RF D) as (w' & q & w4 & A1 & WR & A2 & _).
    apply (device_stage1 _ _ _ _ _ _ D) in DF. apply written_stage2 in DW.
    unfold after. cbn [handle]. rewrite A1. cbn [fst]. rewrite A2.
    destruct WR as [dt' v1 e' r D' S1|dt' v1 s' dp v2 e' r v3 D' S1 EP S2 V|dt' v1 s' dp v2 v3 e' r D' S1 EP S2 S3|dt' v1 s' dp v2 v3 D' S1 EP S2 S3];
      assert (dt' = dt) by congruence; subst dt'; rewrite DF in S1; try discriminate; injection S1 as <- <-; rewrite DW in S2; try discriminate;
      injection S2 as <-; revert S3; unfold stage3; destruct (Z.eqb_spec f 0); try contradiction;
      unfold copy_download, bindM at 1, decode8; rewrite P; cbn; intros [= <-]; reflexivity.
  Qed.

  (** ** Files fetched with packets *)
  Notation Sl := (place cfg (snapshot_dir cfg)).
  Lemma open_packet u p t pt w w' n : short u -> utf8_decode u = Some t -> utf8_decode p = Some pt -> opened_with cfg u p w w' n ->
    exists w1, add_upload cfg pt t w = (w1, inl n) /\ w_fs w' = w_fs w1 /\ w_faults w' = w_faults w1.
  Proof.
    intros SU U P (pk & H & S & F & Z). pose proof (on_open_cases cfg msgs u p w SU) as X. cbv zeta in X. cbn [handle] in H.
    unfold bindM, decode8 in X. rewrite U, P in X. cbn [ret] in X. destruct (add_upload cfg pt t w) as [w1 [z|e]].
    - destruct X as [X1 X2]. rewrite X1 in H. injection H as <-. cbn in S. injection S as <- _. cbn in Z. injection Z as <-. exists w1. auto.
    - destruct X as (r & X1 & X2 & _). rewrite X1 in H. injection H as <-. cbn in S. injection S as <- _. discriminate F.
  Qed.
  Lemma read_packet u t o s w w' d : short u -> utf8_decode u = Some t -> fetched cfg u o s w w' d ->
    exists w1, read_upload cfg t (Z.of_nat o) (Z.of_nat s) w = (w1, inl d) /\ w_fs w' = w_fs w1.
  Proof.
    intros SU U (pk & H & S & F & Z). pose proof (on_read_cases cfg msgs u (Z.of_nat o) (Z.of_nat s) w SU ltac:(lia)) as X. cbv zeta in X. cbn [handle] in H.
    unfold bindM, decode8 in X. rewrite U in X. cbn [ret] in X. destruct (read_upload cfg t _ _ w) as [w1 [z|e]].
    - destruct X as (X1 & X2 & _). rewrite X1 in H. injection H as <-. cbn in S. injection S as <- _. cbn in Z. injection Z as <-. exists w1. auto.
    - destruct X as (r & X1 & X2 & _). rewrite X1 in H. injection H as <-. cbn in S. injection S as <- _. discriminate F.
  Qed.
  Lemma packet_of_read u t o s w w' d : short u -> utf8_decode u = Some t -> read_upload cfg t (Z.of_nat o) (Z.of_nat s) w = (w', inl d) ->
    exists w1, fetched cfg u o s w w1 d /\ w_fs w1 = w_fs w' /\ w_faults w1 = w_faults w'.
  Proof.
    intros SU U R. pose proof (on_read_cases cfg msgs u (Z.of_nat o) (Z.of_nat s) w SU ltac:(lia)) as X. cbv zeta in X.
    unfold bindM, decode8 in X. rewrite U in X. cbn [ret] in X. rewrite R in X. destruct X as (X1 & X2 & _).
    exists (sent w' (read_reply u (Z.of_nat o) (Z.of_nat s) d 0 [])). split; [|split; reflexivity]. eexists. cbn [handle]. split; [exact X1|]. split; [cbn; now rewrite X2|]. split; reflexivity.
  Qed.
  Lemma packet_opened u p t pt w w' n : short u -> normal (temp cfg) -> absolute (root cfg) -> plain t -> tree (w_fs w) ->
    utf8_decode u = Some t -> utf8_decode p = Some pt -> opened_with cfg u p w w' n ->
    exists src b, may_serve cfg pt src /\ w_fs w src = Some (File b) /\ n = Z.of_nat (length b) /\
      tree (w_fs w') /\ w_fs w' (Sl ++ [t]) = Some (File b).
  Proof.
    intros SU TN A PL T U P O. destruct (open_packet _ _ _ _ _ _ _ SU U P O) as (w1 & E & F & _).
    destruct (opened cfg _ _ _ _ _ E) as (fp & b & A1 & A2 & A3 & A4). exists (place cfg fp), b.
    pose proof (add_upload_tree cfg pt t w T) as T1. rewrite E in T1. cbn in T1. rewrite F.
    repeat split; auto; [eapply serve; eauto|apply T1|apply T1|]. now apply (shot_plain cfg TN).
  Qed.
  Lemma served u p t pt w w1 n es : short u -> normal (temp cfg) -> absolute (root cfg) -> plain t -> tree (w_fs w) ->
    utf8_decode u = Some t -> utf8_decode p = Some pt -> opened_with cfg u p w w1 n -> spared cfg (Sl ++ [t]) es w1 ->
    exists src b, may_serve cfg pt src /\ w_fs w src = Some (File b) /\ n = Z.of_nat (length b) /\
      let w2 := events cfg es w1 in
      (forall o s w3 d, fetched cfg u o s w2 w3 d -> d = slice b o s) /\
      (forall o s, faultless w2 -> (Z.of_nat o < 2 ^ 63)%Z -> (Z.of_nat s < 2 ^ 63)%Z -> exists w3, fetched cfg u o s w2 w3 (slice b o s)).
  Proof.
    intros SU TN A PL T U P O SP. destruct (packet_opened _ _ _ _ _ _ _ SU TN A PL T U P O) as (src & b & B1 & B2 & B3 & B4 & B5).
    exists src, b. repeat (split; [assumption|]). cbv zeta.
    destruct (keep_events cfg (Sl ++ [t]) b es (S_child cfg t) (D_child cfg TN t) w1 SP (conj B4 B5)) as [T2 F2].
    pose proof (plain_shot cfg TN _ _ _ PL T2 F2) as SH. split.
    - intros o s w3 d X. destruct (read_packet _ _ _ _ _ _ _ SU U X) as (w4 & R & _). eapply slice_inv. eapply shot_read; eauto.
    - intros o s FL H1 H2. destruct (packet_of_read u t o s (events cfg es w1) (events cfg es w1) (slice b o s)) as (w3 & X & _); eauto.
      now rewrite (read_shot _ _ _ _ _ _ SH FL), slice_ok.
  Qed.
  Lemma fetching_sound t u size b : short u -> utf8_decode u = Some t -> normal (temp cfg) -> plain t ->
    forall o w d w', fetching cfg (Sl ++ [t]) u size o w d w' -> tree (w_fs w) /\ w_fs w (Sl ++ [t]) = Some (File b) -> d = skipn o b.
  Proof.
    intros SU U TN P o w d w' H. induction H as [o w e d w' OK H IH|o w d w' R L|o w d w1 d' w' R L H IH]; intros [T N].
    - apply IH. apply keep_event; auto. apply S_child. now apply D_child.
    - destruct (read_packet _ _ _ _ _ _ _ SU U R) as (w4 & R' & _).
      destruct (shot_read cfg _ _ _ _ _ _ _ (plain_shot cfg TN _ _ _ P T N) R') as [S _]. apply slice_inv in S. subst d.
      rewrite firstn_length in L. rewrite firstn_all2; auto. lia.
    - destruct (read_packet _ _ _ _ _ _ _ SU U R) as (w4 & R' & F4).
      destruct (shot_read cfg _ _ _ _ _ _ _ (plain_shot cfg TN _ _ _ P T N) R') as [S SH1]. apply slice_inv in S. rewrite IH.
      + subst d. rewrite Nat.add_comm, <- skipn_skipn. apply firstn_skipn.
      + rewrite F4. destruct (read_ok cfg _ _ _ _ _ _ R') as (_ & _ & _ & F). rewrite F; auto. apply (plain_shot cfg TN _ _ _ P T N).
  Qed.
  Lemma fetched_whole u p t pt w w1 n size d w2 : short u -> normal (temp cfg) -> absolute (root cfg) -> plain t -> tree (w_fs w) ->
    utf8_decode u = Some t -> utf8_decode p = Some pt -> opened_with cfg u p w w1 n -> fetching cfg (Sl ++ [t]) u size 0 w1 d w2 ->
    n = Z.of_nat (length d) /\ exists src, may_serve cfg pt src /\ w_fs w src = Some (File d).
  Proof.
    intros SU TN A PL T U P O F. destruct (packet_opened _ _ _ _ _ _ _ SU TN A PL T U P O) as (src & b & B1 & B2 & B3 & B4 & B5).
    pose proof (fetching_sound t u size b SU U TN PL _ _ _ _ F (conj B4 B5)) as E. cbn in E. subst d. eauto.
  Qed.
  Lemma fetching_ends_at t u size b : short u -> utf8_decode u = Some t -> 0 < size -> (Z.of_nat size < 2 ^ 63)%Z -> (Z.of_nat (length b) < 2 ^ 63)%Z ->
    forall k o w, length b - o < k -> o <= length b -> shot cfg t b w -> faultless w ->
    exists w', fetching cfg (Sl ++ [t]) u size o w (skipn o b) w'.
  Proof.
    intros SU U S0 S1 LB. induction k as [|k IH]; intros o w K OB SH FL; [lia|].
    assert (R : read_upload cfg t (Z.of_nat o) (Z.of_nat size) w = (w, inl (firstn size (skipn o b)))) by (rewrite (read_shot _ _ _ _ _ _ SH FL), slice_ok by lia; reflexivity).
    destruct (packet_of_read _ _ _ _ _ _ _ SU U R) as (w1 & X & F1 & F2).
    destruct (le_lt_dec size (length (skipn o b))) as [L|L].
    - destruct (IH (o + size) w1) as [w' H].
      + rewrite skipn_length in L. lia.
      + rewrite skipn_length in L. lia.
      + unfold shot. rewrite F1. exact SH.
      + unfold faultless. rewrite F2. exact FL.
      + exists w'. rewrite <- (firstn_skipn size (skipn o b)). rewrite skipn_skipn. rewrite (Nat.add_comm size o). eapply ft_more; eauto. rewrite firstn_length. lia.
    - exists w1. rewrite firstn_all2 in X by lia. apply ft_short; auto.
  Qed.
  Lemma fetching_ends u p t pt w w1 n size : short u -> normal (temp cfg) -> absolute (root cfg) -> plain t -> tree (w_fs w) ->
    utf8_decode u = Some t -> utf8_decode p = Some pt -> opened_with cfg u p w w1 n -> faultless w1 ->
    0 < size -> (Z.of_nat size < 2 ^ 63)%Z -> (n < 2 ^ 63)%Z -> exists d w2, fetching cfg (Sl ++ [t]) u size 0 w1 d w2.
  Proof.
    intros SU TN A PL T U P O FL S0 S1 N. destruct (packet_opened _ _ _ _ _ _ _ SU TN A PL T U P O) as (src & b & B1 & B2 & B3 & B4 & B5).
    destruct (fetching_ends_at t u size b SU U S0 S1) with (k := S (length b)) (o := 0) (w := w1) as [w' H]; auto; try lia.
    - now apply (plain_shot cfg TN).
    - eauto.
  Qed.
End Cfg.
