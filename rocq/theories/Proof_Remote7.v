From Verif Require Import Py Py_lemmas Model_Bencode Model_Packets Model_Path Model_Remote Spec_Remote Proof_Path Proof_Remote Proof_Remote2 Proof_Remote3 Proof_Remote4 Proof_Remote5 Proof_Remote6.

(** ** A path splits in one way *)
Lemma app_eq_cases {A} (a b c d : list A) : a ++ b = c ++ d -> exists l, (a = c ++ l /\ d = l ++ b) \/ (c = a ++ l /\ b = l ++ d).
Proof.
  revert c. induction a as [|x a IH]; intros c H.
  - exists c. right. auto.
  - destruct c as [|y c]; cbn in H.
    + exists (x :: a). left. auto.
    + injection H as <- H. destruct (IH c H) as (l & [[-> ->]|[-> ->]]); exists l; [left|right]; auto.
Qed.
Definition closed (h : text) : Prop := h = [] \/ exists q, h = q ++ [slash].
Lemma closed_app h l : closed (h ++ l) -> l <> [] -> In slash l.
Proof.
  intros C N. destruct l as [|y l] using rev_ind; [congruence|clear IHl]. destruct C as [C|[q C]].
  - destruct h; [destruct l|]; discriminate.
  - rewrite app_assoc in C. apply app_inj_tail in C. destruct C as [_ ->]. apply in_or_app. right. now left.
Qed.
Lemma tail_unique h n h' n' : h ++ n = h' ++ n' -> ~ In slash n -> ~ In slash n' -> closed h -> closed h' -> h = h' /\ n = n'.
Proof.
  intros E N N' C C'. destruct (app_eq_cases _ _ _ _ E) as (l & [[-> ->]|[-> ->]]).
  - destruct l as [|y l]; [now rewrite app_nil_r|]. exfalso. apply N'. apply in_or_app. left. eapply closed_app; eauto. discriminate.
  - destruct l as [|y l]; [now rewrite app_nil_r|]. exfalso. apply N. apply in_or_app. left. eapply closed_app; eauto. discriminate.
Qed.
Lemma repeat_last {A} (x : A) k : repeat x (S k) = repeat x k ++ [x].
Proof. induction k; cbn in *; congruence. Qed.
Lemma all_closed d : Forall (eq slash) d -> closed d.
Proof.
  destruct d as [|y d] using rev_ind; [now left|]. intros H. right. exists d. apply Forall_app in H. destruct H as [_ H]. inversion H. now subst.
Qed.
Lemma dirs_closed d k : 0 < k -> closed (d ++ repeat slash k).
Proof. intros H. right. destruct k; [lia|]. rewrite repeat_last, app_assoc. eauto. Qed.
Lemma strip_unique (d d' : text) k k' : d ++ repeat slash k = d' ++ repeat slash k' -> last d slash <> slash -> last d' slash <> slash -> d = d'.
Proof.
  revert k'. induction k as [|k IH]; intros k' E L L'.
  - destruct k'; [rewrite !app_nil_r in E; auto|]. exfalso. rewrite repeat_last, app_assoc, app_nil_r in E. subst d. rewrite last_last in L. congruence.
  - destruct k' as [|k'].
    + exfalso. rewrite repeat_last, app_assoc, app_nil_r in E. subst d'. rewrite last_last in L'. congruence.
    + rewrite !repeat_last, !app_assoc in E. apply app_inj_tail in E. destruct E as [E _]. eapply IH; eauto.
Qed.
Lemma mixed (d d' : text) k : Forall (eq slash) d -> d = d' ++ repeat slash k -> last d' slash <> slash -> False.
Proof.
  intros F E L. destruct d' as [|y d'] using rev_ind; [now apply L|clear IHd']. rewrite last_last in L. subst d. apply Forall_app in F. destruct F as [F _].
  apply Forall_app in F. destruct F as [_ F]. inversion F. congruence.
Qed.
Lemma splits_unique p d n d' n' : splits p d n -> splits p d' n' -> d = d' /\ n = n'.
Proof.
  intros [N (k & E & H)] [N' (k' & E' & H')]. rewrite app_assoc in E, E'.
  assert (C : closed (d ++ repeat slash k)) by (destruct H as [[H ->]|[H _]]; [cbn; rewrite app_nil_r; now apply all_closed|now apply dirs_closed]).
  assert (C' : closed (d' ++ repeat slash k')) by (destruct H' as [[H' ->]|[H' _]]; [cbn; rewrite app_nil_r; now apply all_closed|now apply dirs_closed]).
  rewrite E in E'. destruct (tail_unique _ _ _ _ E' N N' C C') as [EH EN]. split; auto.
  destruct H as [[H ->]|[H L]], H' as [[H' ->]|[H' L']].
  - cbn in EH. now rewrite !app_nil_r in EH.
  - exfalso. cbn in EH. rewrite app_nil_r in EH. eapply mixed; eauto.
  - exfalso. cbn in EH. rewrite app_nil_r in EH. symmetry in EH. eapply mixed; eauto.
  - eapply strip_unique; eauto.
Qed.
Lemma splits_dir p d n : splits p d n -> d = fst (path_split p).
Proof. intros H. apply (splits_unique _ _ _ _ _ H (split_spec p)). Qed.

Section Cfg.
  Variable cfg : config.
  Notation sdir := (snapshot_dir cfg).
  Notation ddir := (download_dir cfg).
  Notation Sl := (place cfg (snapshot_dir cfg)).
  Notation Dl := (place cfg (download_dir cfg)).
  Notation resolve' f p := (resolve f (cwd cfg) p).

  (** ** C50 *)
  Lemma folder_missing s p pt dir name w : absolute (root cfg) -> utf8_decode p = Some pt -> splits (dest cfg pt) dir name ->
    path_isdir (w_fs w) (cwd cfg) dir = false ->
    w_fs (after (copy_download cfg s p) w) = w_fs w /\ exists e, result (copy_download cfg s p) w = inr e.
  Proof. intros A D SP I. rewrite (splits_dir _ _ _ SP) in I. now apply (missing_folder cfg s p pt w). Qed.
  Lemma folder_missing_reply i p pt d o x f dir name w w' : absolute (root cfg) -> utf8_decode p = Some pt -> splits (dest cfg pt) dir name ->
    path_isdir (w_fs w) (cwd cfg) dir = false -> utf8_decode d <> Some [] -> f <> 0%Z -> ~ replied cfg (RWrite i p d o x f) w w' 0.
  Proof.
    intros A DP SP I D FZ R. destruct (replied_0 _ _ _ _ _ _ _ _ _ R) as (dt & v1 & s & dp' & v2 & v3 & D1 & S1 & _ & S2 & S3 & _).
    unfold stage1 in S1. destruct dt as [|c dt]; [contradiction|]. injection S1 as <- <-.
    assert (LK : like (w_fs w) (w_fs v2)).
    { destruct (stage2_ok _ _ _ _ _ _ S2) as [[_ ->]|(_ & b & F & E)]; [apply like_refl|]. rewrite E. eapply like_set; eauto. }
    rewrite (like_isdir _ _ _ _ LK) in I. destruct (folder_missing (c :: dt) p pt dir name v2 A DP SP I) as [_ [e X]].
    unfold stage3 in S3. destruct (Z.eqb_spec f 0); [contradiction|]. unfold result in X. rewrite S3 in X. discriminate.
  Qed.

  (** ** C51 *)
  Lemma low_disk p u fp w blocks frsize bfree b l : upload_file cfg p w = (w, inl fp) -> statvfs cfg = Some (blocks, frsize, bfree) ->
    hd None (w_faults w) = None -> resolve' (w_fs w) fp = Ok l -> w_fs w l = Some (File b) ->
    (result (add_upload cfg p u) w = inr RLowDisk <-> (bfree * frsize - Z.of_nat (length b) < 50000000)%Z) /\
    (result (add_upload cfg p u) w = inr RLowDisk -> w_fs (after (add_upload cfg p u) w) = w_fs w).
  Proof.
    intros U SV FH R F. unfold result, after.
    assert (NF : exists w1, next_fault w = (None, w1) /\ w_fs w1 = w_fs w).
    { unfold next_fault. destruct (w_faults w) as [|x r] eqn:E; [eauto|]. cbn in FH. subst x. eexists. split; [reflexivity|reflexivity]. }
    destruct NF as (w1 & NF & F1).
    assert (CS : check_space cfg fp w = (w1, if (bfree * frsize - Z.of_nat (length b) <? 50000000)%Z then inr RLowDisk else inl tt)).
    { unfold check_space, disk_usage. rewrite SV. unfold bindM at 1, catch, bindM, ret at 1, getsize, on_path. rewrite NF. rewrite F1, R, F.
      unfold ret. cbv beta iota zeta. unfold free_space_margin.
      destruct (Z.ltb_spec (blocks * frsize - 50 * 1000 * 1000) (blocks * frsize - bfree * frsize + Z.of_nat (length b)));
        destruct (Z.ltb_spec (bfree * frsize - Z.of_nat (length b)) 50000000); try lia; reflexivity. }
    assert (AU : exists w2 r, add_upload cfg p u w = (w2, r) /\
       (if (bfree * frsize - Z.of_nat (length b) <? 50000000)%Z then w2 = w1 /\ r = inr RLowDisk else r <> inr RLowDisk)).
    { unfold add_upload. unfold bindM at 1. rewrite U. unfold bindM at 1. rewrite CS.
      destruct (bfree * frsize - Z.of_nat (length b) <? 50000000)%Z; [eauto|].
      unfold bindM at 1. pose proof (snapshot_any cfg u w1) as SA. cbv zeta in SA. destruct SA as (_ & _ & _ & _ & SA).
      destruct (get_snapshot_path cfg u w1) as [w2 [s|e]]; [|do 2 eexists; split; [reflexivity|]; specialize (SA e eq_refl); subst e; discriminate].
      destruct (negb _); [do 2 eexists; split; [reflexivity|discriminate]|]. unfold catch.
      destruct ((let! _ := copyfile cfg fp s in getsize cfg s) w2) as [w3 [z|e]]; do 2 eexists; (split; [reflexivity|discriminate]). }
    destruct AU as (w2 & r & AU & C). rewrite AU. cbn [fst snd].
    destruct (Z.ltb_spec (bfree * frsize - Z.of_nat (length b)) 50000000).
    - destruct C as [-> ->]. repeat split; auto.
    - split; [split; [contradiction|lia]|contradiction].
  Qed.
  (** Without usage information the request goes on *)
  Lemma no_usage p u fp w : upload_file cfg p w = (w, inl fp) -> statvfs cfg = None -> result (add_upload cfg p u) w <> inr RLowDisk.
  Proof.
    intros U SV. unfold result, add_upload. unfold bindM at 1. rewrite U. unfold bindM at 1.
    assert (CS : check_space cfg fp w = (w, inl tt)).
    { unfold check_space, disk_usage. rewrite SV. reflexivity. }
    rewrite CS. unfold bindM at 1. pose proof (snapshot_any cfg u w) as SA. cbv zeta in SA. destruct SA as (_ & _ & _ & _ & SA).
    destruct (get_snapshot_path cfg u w) as [w2 [s|e]]; [|cbn; intros [= ->]; specialize (SA _ eq_refl); discriminate].
    destruct (negb _); [discriminate|]. unfold catch.
    destruct ((let! _ := copyfile cfg fp s in getsize cfg s) w2) as [w3 [z|e]]; discriminate.
  Qed.

  (** ** C52 *)
  Lemma close_result u w : result (handle cfg (RClose u)) w = inl tt.
  Proof. unfold result. cbn. unfold on_close, catch. destruct ((let! u0 := decode8 u in close_upload cfg u0) w) as [w1 [[]|e]]; reflexivity. Qed.
  Lemma remove_cases s w : let r := remove cfg s w in
    (w_fs (fst r) = w_fs w /\ exists e, snd r = inr e) \/
    (exists b, resolve' (w_fs w) s = Ok (place cfg s) /\ w_fs w (place cfg s) = Some (File b) /\ w_fs (fst r) = set_node (w_fs w) (place cfg s) None /\ snd r = inl tt).
  Proof.
    cbv zeta. unfold remove, on_path. pose proof (nf_fs w) as F. destruct (next_fault w) as [x w1]. cbn in F.
    destruct x as [[|k]|]; cbn; [eauto|destruct (resolve (w_fs w1) (cwd cfg) s) as [l|e|]; cbn; eauto|].
    destruct (resolve (w_fs w1) (cwd cfg) s) as [l|e|] eqn:R; cbn; eauto.
    pose proof (resolve_place _ _ _ _ R). subst l. destruct (w_fs w1 (place cfg s)) as [[b|]|] eqn:N; cbn; eauto.
    rewrite F in *. right. exists b. auto.
  Qed.
  Lemma close_any t w l : let w' := fst (close_upload cfg t w) in
    w_fs w' l = w_fs w l \/ (l = Sl /\ w_fs w l = None /\ w_fs w' l = Some Dir) \/
    (l = place cfg (join sdir t) /\ (exists b, w_fs w l = Some (File b)) /\ w_fs w' l = None).
  Proof.
    cbv zeta. set (P := fun w' : world => w_fs w' l = w_fs w l \/ (l = Sl /\ w_fs w l = None /\ w_fs w' l = Some Dir) \/
      (l = place cfg (join sdir t) /\ (exists b, w_fs w l = Some (File b)) /\ w_fs w' l = None)). change (P (fst (close_upload cfg t w))).
    unfold close_upload, bindM. pose proof (snapshot_any cfg t w) as SA. cbv zeta in SA. destruct SA as (_ & SA & _ & _ & _).
    destruct (get_snapshot_path cfg t w) as [w1 r] eqn:G; cbn [fst] in SA.
    assert (M : w_fs w1 l = w_fs w l \/ (l = Sl /\ w_fs w l = None /\ w_fs w1 l = Some Dir)).
    { destruct SA as [->|(_ & S0 & ->)]; [now left|]. destruct (loc_eqb_spec l Sl) as [X|N]; [right; subst l; rewrite set_same; auto|left; now rewrite set_other]. }
    assert (Q : w_fs w1 (place cfg (join sdir t)) = w_fs w (place cfg (join sdir t)) \/ w_fs w1 (place cfg (join sdir t)) = Some Dir).
    { destruct SA as [->|(_ & S0 & ->)]; [now left|]. destruct (loc_eqb_spec (place cfg (join sdir t)) Sl) as [X|N]; [right; rewrite X; apply set_same|left; now rewrite set_other]. }
    assert (PM : forall w', w_fs w' = w_fs w1 -> P w') by (intros w' E; unfold P; rewrite E; tauto).
    destruct r as [s|e]; [|now apply PM]. apply snapshot_value in G. subst s. unfold exists_.
    destruct (path_exists _ _ _); [|now apply PM]. unfold catch.
    pose proof (remove_cases (join sdir t) w1) as RC. cbv zeta in RC. destruct (remove cfg (join sdir t) w1) as [w2 [[]|e]]; cbn [fst snd ret] in *.
    - destruct RC as [[_ [e RC]]|(b & _ & R1 & R2 & _)]; [discriminate|]. unfold P. rewrite R2. destruct (loc_eqb_spec l (place cfg (join sdir t))) as [X|N].
      + right. right. subst l. rewrite set_same. split; auto. split; auto. exists b. destruct Q; congruence.
      + rewrite set_other by assumption. tauto.
    - destruct RC as [[R1 _]|(b & _ & _ & _ & RC)]; [|discriminate]. now apply PM.
  Qed.
  Lemma close_fs u w : w_fs (after (handle cfg (RClose u)) w) = match utf8_decode u with Some t => w_fs (fst (close_upload cfg t w)) | None => w_fs w end.
  Proof.
    unfold after. cbn [handle]. unfold on_close, catch, bindM, decode8. destruct (utf8_decode u) as [t|]; [|reflexivity]. cbn [ret].
    now destruct (close_upload cfg t w) as [w1 [[]|e]].
  Qed.
  Lemma close_shot t b w : shot cfg t b w -> faultless w -> close_upload cfg t w = (with_fs w (set_node (w_fs w) (place cfg (join sdir t)) None), inl tt).
  Proof.
    intros (I & R & F) FL. unfold close_upload, bindM. destruct (snapshot_any cfg t w) as (_ & _ & _ & G & _). rewrite (G I).
    unfold exists_, path_exists, lookup. rewrite R, F. unfold catch, remove, on_path. rewrite nf_none by assumption. now rewrite R, F.
  Qed.
  Lemma close_twice t w : faultless w ->
    w_fs (fst (close_upload cfg t (fst (close_upload cfg t w)))) = w_fs (fst (close_upload cfg t w)).
  Proof.
    intros FL.
    assert (C : forall w, faultless w -> path_isdir (w_fs w) (cwd cfg) sdir = true ->
      w_fs (fst (close_upload cfg t (fst (close_upload cfg t w)))) = w_fs (fst (close_upload cfg t w)) /\ True).
    { clear w FL. intros w FL I. split; auto.
      assert (E : forall w, faultless w -> path_isdir (w_fs w) (cwd cfg) sdir = true ->
        fst (close_upload cfg t w) = match resolve' (w_fs w) (join sdir t) with
          | Ok l => match w_fs w l with Some (File _) => with_fs w (set_node (w_fs w) l None) | _ => w end | _ => w end).
      { clear w FL I. intros w FL I. unfold close_upload, bindM. destruct (snapshot_any cfg t w) as (_ & _ & _ & G & _). rewrite (G I).
        unfold exists_, path_exists, lookup. destruct (resolve' (w_fs w) (join sdir t)) as [l| |] eqn:R; [|reflexivity..].
        destruct (w_fs w l) as [[b|]|] eqn:F; [| |reflexivity]; unfold catch, remove, on_path; rewrite nf_none by assumption; now rewrite R, F. }
      rewrite (E w FL I). destruct (resolve' (w_fs w) (join sdir t)) as [l| |] eqn:R; [|rewrite (E w FL I), R; reflexivity..].
      destruct (w_fs w l) as [[b|]|] eqn:F; [|rewrite (E w FL I), R, F; reflexivity..].
      set (f' := set_node (w_fs w) l None).
      assert (MN : forall x, w_fs w x = Some Dir -> f' x = Some Dir) by (apply set_mono; congruence).
      rewrite (E (with_fs w f') FL); [|cbn; eapply isdir_mono; eauto]. cbn [with_fs w_fs].
      rewrite (resolve_mono _ _ _ _ _ MN R). unfold f' at 1. now rewrite set_same. }
    assert (RD : (exists w1, faultless w1 /\ path_isdir (w_fs w1) (cwd cfg) sdir = true /\ close_upload cfg t w = close_upload cfg t w1) \/
                 fst (close_upload cfg t w) = w).
    { destruct (path_isdir (w_fs w) (cwd cfg) sdir) eqn:I; [left; eauto|].
      pose proof (snapshot_any cfg t w) as SA. cbv zeta in SA. destruct SA as (_ & _ & SI & _ & _).
      destruct (get_snapshot_path cfg t w) as [w1 [s|e]] eqn:G.
      - left. exists w1. specialize (SI s eq_refl). cbn [fst] in SI.
        assert (F1 : faultless w1).
        { revert G. unfold get_snapshot_path, catch, bindM, isdir. rewrite I. unfold mkdir, on_path. rewrite nf_none by assumption.
          destruct (resolve (w_fs w) (cwd cfg) sdir) as [l| |]; [|cbn; discriminate..]. destruct (w_fs w l); [cbn; discriminate|]. cbn. intros [= <- _]. exact FL. }
        split; auto. split; auto. unfold close_upload at 1 2. unfold bindM at 1 3. rewrite G. apply snapshot_value in G. subst s.
        destruct (snapshot_any cfg t w1) as (_ & _ & _ & G & _). now rewrite (G SI).
      - right. unfold close_upload, bindM. rewrite G. cbn [fst]. revert G. unfold get_snapshot_path, catch, bindM, isdir. rewrite I.
        unfold mkdir, on_path. rewrite nf_none by assumption.
        destruct (resolve (w_fs w) (cwd cfg) sdir) as [l| |]; [|cbn; now intros [= <- _]..]. destruct (w_fs w l); [cbn; now intros [= <- _]|]. cbn. discriminate. }
    destruct RD as [(w1 & F1 & I1 & E)|E]; [rewrite E; now apply C|]. now rewrite !E.
  Qed.

  (** ** C43, C82: what requests with ordinary ids touch *)
  Lemma upload_touches q u t w l : match q with ROpen u' _ | RRead u' _ _ | RClose u' => u' = u | RWrite _ _ _ _ _ _ => False end ->
    utf8_decode u = Some t -> l <> Sl -> l <> place cfg (join sdir t) -> w_fs (after (handle cfg q) w) l = w_fs w l.
  Proof.
    intros Q U N1 N2. set (P := fun l => l = Sl \/ l = place cfg (join sdir t)). pose proof (pre_frame P) as HP.
    assert (SD : forall w p, Frame P w (W (w_fs w) (w_faults w) (p :: w_sent w))) by (intros ? ? ? ?; reflexivity).
    assert (ES : edits (Frame P) (at_path cfg sdir)) by (apply ed_frame; now left).
    assert (EU : edits (Frame P) (at_path cfg (join sdir t))) by (apply ed_frame; now right).
    assert (K : steps (Frame P) (handle cfg q)); [|apply K; unfold P; tauto].
    destruct q as [u' p|u' o s|u'|i p d o x f]; [| | |contradiction]; subst u'; cbn [handle].
    - apply st_bind; auto.
      + apply st_attempt. apply st_bind; auto using st_decode. intros p0 w0. unfold bindM, decode8. rewrite U. cbn [ret]. now apply st_add_upload.
      + intros [z|e]; apply (st_send _ HP); exact SD.
    - apply st_bind; auto.
      + apply st_attempt. apply st_bind; auto using st_decode. intros t'. now apply st_read_upload.
      + intros [z|e]; apply (st_send _ HP); exact SD.
    - apply st_catch; auto using st_ret. intros w0. unfold bindM, decode8. rewrite U. cbn [ret]. now apply st_close_upload.
  Qed.
  Lemma upload_undecoded q u w : match q with ROpen u' _ | RRead u' _ _ | RClose u' => u' = u | RWrite _ _ _ _ _ _ => False end ->
    utf8_decode u = None -> w_fs (after (handle cfg q) w) = w_fs w.
  Proof.
    intros Q U. pose proof pre_fs as HP.
    assert (SD : forall w p, w_fs (W (w_fs w) (w_faults w) (p :: w_sent w)) = w_fs w) by reflexivity.
    assert (K : steps (fun w w' => w_fs w' = w_fs w) (handle cfg q)); [|apply K].
    destruct q as [u' p|u' o s|u'|i p d o x f]; [| | |contradiction]; subst u'; cbn [handle].
    - apply st_bind; auto.
      + apply st_attempt. apply st_bind; auto using st_decode. intros p0 w0. unfold bindM, decode8. now rewrite U.
      + intros [z|e]; apply (st_send _ HP); exact SD.
    - apply st_bind; auto.
      + apply st_attempt. intros w0. unfold bindM, decode8. now rewrite U.
      + intros [z|e]; apply (st_send _ HP); exact SD.
    - apply st_catch; auto using st_ret. intros w0. unfold bindM, decode8. now rewrite U.
  Qed.
  Lemma write_touches i p d o x f w l : absolute (root cfg) -> (forall pt, utf8_decode p = Some pt -> ~ has_backref pt) ->
    ~ within (place cfg (root cfg)) l -> l <> Dl ->
    (forall t, utf8_decode i = Some t -> utf8_decode d = Some [] -> ~ within (place cfg (join ddir t)) l) ->
    (forall t, utf8_decode d = Some t -> t <> [] -> ~ within (place cfg t) l) ->
    w_fs (after (handle cfg (RWrite i p d o x f)) w) l = w_fs w l.
  Proof.
    intros A NB N1 N2 N3 N4. pose proof (pre_frame (fun x => x <> l)) as HP.
    assert (CI : forall q, candidate cfg p q -> within (place cfg (root cfg)) (place cfg q)).
    { intros q C. destruct C as (pt & DP & C). apply (candidate_inside cfg p pt); auto. exists pt. auto. }
    assert (K : steps (Frame (fun x => x <> l)) (handle cfg (RWrite i p d o x f))); [|apply K; tauto].
    cbn [handle]. apply st_on_write; auto.
    - intros ? ? ? ?; reflexivity.
    - apply ed_frame. auto.
    - intros t I D. apply ed_frame. intros E. apply (N3 t I D). rewrite E. apply within_refl.
    - intros t D N. apply ed_frame. intros E. apply (N4 t D N). rewrite E. apply within_refl.
    - intros s HS q C. apply nm_frame.
      + intros y W ->. destruct HS as [(t & I & D & ->)|[D N]]; [now apply (N3 t)|now apply (N4 s)].
      + intros y W ->. apply N1. eapply within_trans; [apply CI; exact C|exact W].
    - intros q C. apply cr_frame. intros E. apply N1. rewrite <- E. now apply CI.
  Qed.

  (** ** C43, C82: what other ids do *)
  Lemma join_absolute a b : absolute b -> join a b = b.
  Proof. intros [r ->]. reflexivity. Qed.
  Lemma shot_absolute t l b w : absolute t -> path_isdir (w_fs w) (cwd cfg) sdir = true -> resolve' (w_fs w) t = Ok l -> w_fs w l = Some (File b) -> shot cfg t b w.
  Proof.
    intros A I R F. unfold shot. rewrite join_absolute by assumption. rewrite <- (resolve_place cfg _ _ _ R). auto.
  Qed.
  Lemma open_absolute p t l fp b w : faultless w -> path_isdir (w_fs w) (cwd cfg) sdir = true ->
    absolute t -> starts_with (temp cfg) t = true -> resolve' (w_fs w) t = Ok l -> w_fs w l <> Some Dir ->
    upload_file cfg p w = (w, inl fp) -> check_space cfg fp w = (w, inl tt) -> resolve' (w_fs w) fp = Ok (place cfg fp) ->
    w_fs w (place cfg fp) = Some (File b) -> place cfg fp <> l ->
    w_fs (after (add_upload cfg p t) w) l = Some (File b).
  Proof.
    intros FL I A ST R N U CS RF F NE. unfold after, add_upload, bindM at 1. rewrite U. unfold bindM at 1. rewrite CS.
    unfold bindM at 1. destruct (snapshot_any cfg t w) as (_ & _ & _ & G & _). rewrite (G I), join_absolute by assumption. rewrite ST. cbn [negb].
    unfold catch, bindM, copyfile, on_path at 1. rewrite nf_none by assumption. rewrite RF, F.
    unfold on_path at 1. rewrite nf_none by assumption. rewrite R. destruct (loc_eqb_spec (place cfg fp) l); [contradiction|].
    assert (X : forall w, w_fs (fst (getsize cfg t w)) = w_fs w) by (intros v; apply (st_getsize cfg _ pre_fs)).
    destruct (w_fs w l) as [[b'|]|]; [|congruence|]; unfold put;
      (specialize (X (with_fs w (set_node (w_fs w) l (Some (File b))))); destruct (getsize cfg t _) as [w2 [z|e]]; cbn [fst] in *; unfold throw; cbn [fst]; rewrite X; apply set_same).
  Qed.
  Lemma write_anywhere i p d t l b o x w : messages_ok cfg -> encodable (temp cfg) -> reply_fits cfg (RWrite i p d o x 0) w ->
    utf8_decode d = Some t -> t <> [] -> faultless w -> resolve' (w_fs w) t = Ok l -> w_fs w l = Some (File b) -> x <> [] ->
    w_fs (after (handle cfg (RWrite i p d o x 0)) w) l =
      if (o <? 0)%Z || (max_off <=? o)%Z then None else Some (File (write_bytes b (Z.to_nat o) x)).
  Proof.
    intros MS EN RF D N FL R F X. assert (S1 : stage1 cfg i d t w = (w, inl t)) by (unfold stage1; destruct t; [congruence|reflexivity]).
    assert (S2 : stage2 cfg t o x w = if (o <? 0)%Z then (w, inr (RPy EOS)) else if (max_off <=? o)%Z then (w, inr (RPy EOverflow))
      else (with_fs w (set_node (w_fs w) l (Some (File (write_bytes b (Z.to_nat o) x)))), inl tt)).
    { unfold stage2. destruct x as [|c x]; [congruence|]. unfold write_file, on_path. rewrite nf_none by assumption. rewrite R, F.
      destruct (o <? 0)%Z; [reflexivity|]. now destruct (max_off <=? o)%Z. }
    assert (RM : forall v, w_fs v = w_fs w -> w_faults v = w_faults w -> w_fs (fst (remove cfg t v)) l = None).
    { intros v E1 E2. unfold remove, on_path. rewrite nf_none by (unfold faultless; congruence). rewrite E1, R, F. cbn. apply set_same. }
    destruct (on_write_cases cfg MS i p d o x 0 w t EN RF D) as (v & q & w' & A1 & WR & A2 & _).
    unfold after. cbn [handle]. rewrite A1. cbn [fst]. rewrite A2. clear A1 A2.
    destruct WR as [dt w1' e r D' X1|dt w1' s dp' w2' e r w3' D' X1 X2 X3 X4|dt w1' s dp' w2' w3' e r D' X1 X2 X3 X4|dt w1' s dp' w2' w3' D' X1 X2 X3 X4];
      rewrite D in D'; injection D' as <-; rewrite S1 in X1; try discriminate; injection X1 as <- <-; rewrite S2 in X3.
    - subst w3'. destruct (o <? 0)%Z; [injection X3 as <- <-; now apply RM|]. destruct (max_off <=? o)%Z; [injection X3 as <- <-; now apply RM|discriminate].
    - destruct (o <? 0)%Z; [discriminate|]. destruct (max_off <=? o)%Z; [discriminate|]. injection X3 as <-. cbn in X4. injection X4 as <-. apply set_same.
  Qed.
End Cfg.
