From Verif Require Import Py Py_lemmas Model_Bencode Model_Packets Model_Path Model_Remote Spec_Remote Proof_Path Proof_Remote Proof_Remote2.

Lemma skipn_skipn {A} x y (l : list A) : skipn x (skipn y l) = skipn (x + y) l.
Proof.
  revert l. induction y as [|y IH]; intros l; [now rewrite Nat.add_0_r|]. rewrite Nat.add_succ_r. destruct l; [now rewrite !skipn_nil|apply IH].
Qed.
(** ** More directories, same places *)
Lemma walk_mono f f' cs : (forall l, f l = Some Dir -> f' l = Some Dir) -> forall cur l, walk f cur cs = Some l -> walk f' cur cs = Some l.
Proof.
  intros H. induction cs as [|c cs IH]; intros cur l W; [exact W|]. cbn in *.
  destruct (f cur) as [[|]|] eqn:D; try discriminate. rewrite (H _ D). destruct (_ || _); [now apply IH|]. destruct (text_eqb c [dot; dot]); now apply IH.
Qed.
Lemma resolve_mono f f' c p l : (forall l, f l = Some Dir -> f' l = Some Dir) -> resolve f c p = Ok l -> resolve f' c p = Ok l.
Proof.
  intros H. unfold resolve. destruct (existsb _ p); [discriminate|]. destruct p as [|x p]; [discriminate|].
  destruct (walk f _ _) eqn:W; [|discriminate]. intros [= <-]. now rewrite (walk_mono f f' _ H _ _ W).
Qed.
Lemma isdir_mono f f' c p : (forall l, f l = Some Dir -> f' l = Some Dir) -> path_isdir f c p = true -> path_isdir f' c p = true.
Proof.
  intros H E. apply isdir_resolve in E. destruct E as (l & R & D). eapply resolve_dir; [eapply resolve_mono; eauto|auto].
Qed.
Lemma set_mono f l n : f l <> Some Dir -> forall x, f x = Some Dir -> set_node f l n x = Some Dir.
Proof. intros H x D. rewrite set_other; auto. intros ->. contradiction. Qed.
Lemma pre_fs : pre (fun w w' => w_fs w' = w_fs w).
Proof. split; intros; congruence. Qed.

Definition steps_at {A} (R : world -> world -> Prop) (m : M A) (w : world) : Prop := R w (fst (m w)).

Section Cfg.
  Variable cfg : config.
  Notation sdir := (snapshot_dir cfg).
  Notation ddir := (download_dir cfg).
  Notation Sl := (place cfg (snapshot_dir cfg)).
  Notation Dl := (place cfg (download_dir cfg)).

  Lemma mkdir_cases p w : let r := mkdir cfg p w in
    w_sent (fst r) = w_sent w /\
    (w_fs (fst r) = w_fs w /\ (exists e, snd r = inr e) \/
     snd r = inl tt /\ resolve (w_fs w) (cwd cfg) p = Ok (place cfg p) /\ w_fs w (place cfg p) = None /\
     w_fs (fst r) = set_node (w_fs w) (place cfg p) (Some Dir)).
  Proof.
    cbv zeta. unfold mkdir, on_path. pose proof (nf_fs w) as F. pose proof (nf_sent w) as S. destruct (next_fault w) as [x w1]. cbn in F, S.
    destruct x as [[|k]|]; cbn; [eauto|destruct (resolve (w_fs w1) (cwd cfg) p) as [l|e|]; cbn; eauto|].
    destruct (resolve (w_fs w1) (cwd cfg) p) as [l|e|] eqn:R; cbn; eauto.
    pose proof (resolve_place _ _ _ _ R). subst l. destruct (w_fs w1 (place cfg p)) eqn:N; cbn; eauto.
    rewrite F in *. split; auto.
  Qed.
  Lemma snapshot_any u w : let r := get_snapshot_path cfg u w in
    w_sent (fst r) = w_sent w /\
    (w_fs (fst r) = w_fs w \/
     resolve (w_fs w) (cwd cfg) sdir = Ok Sl /\ w_fs w Sl = None /\ w_fs (fst r) = set_node (w_fs w) Sl (Some Dir)) /\
    (forall s, snd r = inl s -> path_isdir (w_fs (fst r)) (cwd cfg) sdir = true) /\
    (path_isdir (w_fs w) (cwd cfg) sdir = true -> r = (w, inl (join sdir u))) /\
    (forall e, snd r = inr e -> e = RSnapshot).
  Proof.
    cbv zeta. unfold get_snapshot_path, catch, bindM, isdir. destruct (path_isdir (w_fs w) (cwd cfg) sdir) eqn:I.
    { cbn. repeat split; auto. discriminate. }
    destruct (mkdir_cases sdir w) as [A B].
    destruct (mkdir cfg sdir w) as [w2 [a|e]]; cbn in *; (split; [exact A|]).
    - destruct B as [[_ [e E]]|(_ & B1 & B2 & B3)]; [discriminate|]. repeat split; try discriminate; auto.
      intros s _. rewrite B3. eapply resolve_dir; [eapply resolve_mono; [|exact B1]|apply set_same]. apply set_mono. congruence.
    - destruct B as [[B _]|[B _]]; [|discriminate]. repeat split; auto; try discriminate. now intros e' [= <-].
  Qed.
  Lemma upload_file_same p w : fst (upload_file cfg p w) = w /\ forall w', snd (upload_file cfg p w') = snd (upload_file cfg p w).
  Proof. unfold upload_file. destruct (starts_with _ p); [destruct (text_eqb _ _); auto|]. destruct (_ || _); auto. Qed.

  (** Whatever the outcome, only part of a permitted file is copied, and only to the snapshot *)
  Lemma add_upload_any p u w l : let w' := fst (add_upload cfg p u w) in
    w_fs w' l = w_fs w l \/ (l = Sl /\ w_fs w l = None /\ w_fs w' l = Some Dir) \/
    (l = place cfg (join sdir u) /\ exists fp b k, upload_file cfg p w = (w, inl fp) /\ w_fs w (place cfg fp) = Some (File b) /\
       w_fs w' l = Some (File (firstn k b))).
  Proof.
    cbv zeta.
    set (P := fun f : fs => f l = w_fs w l \/ (l = Sl /\ w_fs w l = None /\ f l = Some Dir) \/
      (l = place cfg (join sdir u) /\ exists fp b k, upload_file cfg p w = (w, inl fp) /\ w_fs w (place cfg fp) = Some (File b) /\
       f l = Some (File (firstn k b)))).
    change (P (w_fs (fst (add_upload cfg p u w)))).
    unfold add_upload, bindM at 1. destruct (upload_file_same p w) as [U _].
    destruct (upload_file cfg p w) as [w1 [fp|e]] eqn:UF; cbn in U; subst w1; [|left; reflexivity].
    unfold bindM at 1. pose proof (check_space_fs cfg fp w) as F1. destruct (check_space cfg fp w) as [w1 [[]|e]]; cbn in F1; [|unfold P; cbn; left; congruence].
    unfold bindM at 1. destruct (snapshot_any u w1) as (_ & F2 & _).
    assert (F3 : forall l, w_fs (fst (get_snapshot_path cfg u w1)) l = w_fs w l \/
        l = Sl /\ w_fs w l = None /\ w_fs (fst (get_snapshot_path cfg u w1)) l = Some Dir).
    { intros x. rewrite <- F1. destruct F2 as [->|(_ & N & ->)]; auto. destruct (loc_eqb_spec x Sl).
      - subst. right. now rewrite set_same.
      - left. now apply set_other. }
    destruct (get_snapshot_path cfg u w1) as [w2 [s|e]] eqn:G; cbn [fst] in *.
    2:{ unfold P. destruct (F3 l) as [E|E]; auto. }
    apply snapshot_value in G. subst s. destruct (starts_with (temp cfg) (join sdir u)); cbn [negb].
    2:{ unfold throw, P. cbn [fst]. destruct (F3 l) as [E|E]; auto. }
    assert (X : w_fs (fst (catch (let! _ := copyfile cfg fp (join sdir u) in getsize cfg (join sdir u)) (fun _ => throw RAddFail) w2)) =
      w_fs (fst (copyfile cfg fp (join sdir u) w2))).
    { unfold catch, bindM. destruct (copyfile cfg fp (join sdir u) w2) as [w3 [a|e]]; [|reflexivity].
      pose proof (st_getsize cfg _ pre_fs (join sdir u) w3) as Y. destruct (getsize cfg (join sdir u) w3) as [w4 [z|e]]; exact Y. }
    rewrite X. unfold P. destruct (copyfile_cases cfg fp (join sdir u) w2) as [_ C].
    destruct C as [[C _]|(_ & _ & C1 & C2 & b & b' & C3 & C4 & _ & k & ->)].
    - rewrite C. destruct (F3 l) as [E|E]; auto.
    - rewrite C4. destruct (loc_eqb_spec l (place cfg (join sdir u))).
      + subst l. right. right. split; auto. exists fp, b, k. rewrite set_same. repeat split; auto.
        destruct (F3 (place cfg fp)) as [E|(_ & _ & E)]; congruence.
      + rewrite set_other by assumption. destruct (F3 l) as [E|E]; auto.
  Qed.

  (** ** Reading *)
  Definition shot (t : text) (b : bytes) (w : world) : Prop :=
    path_isdir (w_fs w) (cwd cfg) sdir = true /\ resolve (w_fs w) (cwd cfg) (join sdir t) = Ok (place cfg (join sdir t)) /\
    w_fs w (place cfg (join sdir t)) = Some (File b).
  Lemma read_file_ok p o s w w' d : read_file cfg p o s w = (w', inl d) ->
    w_fs w' = w_fs w /\ w_sent w' = w_sent w /\ exists b, w_fs w (place cfg p) = Some (File b) /\ read_slice b o s = Ok d.
  Proof.
    unfold read_file, on_path. pose proof (nf_fs w) as F. pose proof (nf_sent w) as S. destruct (next_fault w) as [x w1]. cbn in F, S.
    destruct x as [[|k]|]; cbn; try discriminate.
    { destruct (resolve (w_fs w1) (cwd cfg) p); discriminate. }
    destruct (resolve (w_fs w1) (cwd cfg) p) as [l| |] eqn:R; try discriminate. apply resolve_place in R. subst l.
    destruct (w_fs w1 (place cfg p)) as [[b|]|] eqn:N; try discriminate. unfold pure_res. destruct (read_slice b o s) as [r| |] eqn:RS; try discriminate.
    intros [= <- <-]. repeat split; auto. exists b. rewrite <- F. auto.
  Qed.
  Lemma read_ok t o s w w' d : read_upload cfg t o s w = (w', inl d) ->
    exists b, w_fs w (place cfg (join sdir t)) = Some (File b) /\ read_slice b o s = Ok d /\
    (path_isdir (w_fs w) (cwd cfg) sdir = true -> w_fs w' = w_fs w).
  Proof.
    unfold read_upload, bindM. destruct (snapshot_any t w) as (_ & F & _ & I & _).
    destruct (get_snapshot_path cfg t w) as [w1 [p|e]] eqn:G; [|discriminate]. cbn [fst] in F. apply snapshot_value in G. subst p.
    unfold catch. destruct (read_file cfg (join sdir t) o s w1) as [w2 [d'|e]] eqn:R; [|discriminate]. intros [= <- <-].
    destruct (read_file_ok _ _ _ _ _ _ R) as (F2 & _ & b & N & RS). exists b. split; [|split; auto].
    - destruct F as [F|(_ & _ & F)]; [congruence|]. rewrite F in N. destruct (loc_eqb_spec (place cfg (join sdir t)) Sl) as [E|E].
      + rewrite E, set_same in N. discriminate.
      + now rewrite set_other in N.
    - intros H. specialize (I H). injection I as ->. congruence.
  Qed.
  Lemma read_shot t b o s w : shot t b w -> faultless w ->
    read_upload cfg t o s w = (w, match read_slice b o s with Ok d => inl d | _ => inr RReadFail end).
  Proof.
    intros (I & R & N) FL. unfold read_upload, bindM. destruct (snapshot_any t w) as (_ & _ & _ & G & _). rewrite (G I).
    unfold catch, read_file, on_path. rewrite nf_none by assumption. rewrite R, N. unfold pure_res. now destruct (read_slice b o s).
  Qed.
  Lemma shot_read t b o s w w' d : shot t b w -> read_upload cfg t o s w = (w', inl d) -> read_slice b o s = Ok d /\ shot t b w'.
  Proof.
    intros (I & R & N) E. destruct (read_ok _ _ _ _ _ _ E) as (b' & N' & RS & F). rewrite N in N'. injection N' as <-.
    split; auto. specialize (F I). unfold shot. rewrite F. auto.
  Qed.
  Lemma opened p t w w' n : add_upload cfg p t w = (w', inl n) ->
    exists fp b, upload_file cfg p w = (w, inl fp) /\ w_fs w (place cfg fp) = Some (File b) /\ n = Z.of_nat (length b) /\ shot t b w'.
  Proof.
    intros E. destruct (add_upload_ok cfg _ _ _ _ _ E) as (fp & b & A1 & A2 & A3 & A4 & A5 & _). exists fp, b. repeat split; auto.
    - revert E. unfold add_upload, bindM at 1. rewrite A1. unfold bindM at 1. destruct (check_space cfg fp w) as [w1 [[]|e]]; [|discriminate].
      unfold bindM at 1. destruct (snapshot_any t w1) as (_ & _ & I & _). destruct (get_snapshot_path cfg t w1) as [w2 [s|e]] eqn:G; [|discriminate].
      specialize (I s eq_refl). cbn [fst] in I. apply snapshot_value in G. subst s. destruct (negb _); [discriminate|].
      unfold catch, bindM. destruct (copyfile_cases cfg fp (join sdir t) w2) as [_ C].
      destruct (copyfile cfg fp (join sdir t) w2) as [w3 [a|e]]; [|discriminate]. cbn [fst snd] in C.
      destruct (getsize cfg (join sdir t) w3) as [w4 [z|e]] eqn:GS; [|discriminate]. intros [= <- _].
      apply getsize_ok in GS. destruct GS as [F4 _]. rewrite F4.
      destruct C as [[_ C]|(_ & C0 & C1 & C2 & bb & b' & C3 & C4 & _)]; [now destruct a|].
      rewrite C4. eapply isdir_mono; [|exact I]. now apply set_mono.
    - revert E. unfold add_upload, bindM at 1. rewrite A1. unfold bindM at 1. destruct (check_space cfg fp w) as [w1 [[]|e]]; [|discriminate].
      unfold bindM at 1. destruct (get_snapshot_path cfg t w1) as [w2 [s|e]] eqn:G; [|discriminate].
      apply snapshot_value in G. subst s. destruct (negb _); [discriminate|].
      unfold catch, bindM. destruct (copyfile_cases cfg fp (join sdir t) w2) as [_ C].
      destruct (copyfile cfg fp (join sdir t) w2) as [w3 [a|e]]; [|discriminate]. cbn [fst snd] in C.
      destruct (getsize cfg (join sdir t) w3) as [w4 [z|e]] eqn:GS; [|discriminate]. intros [= <- _].
      apply getsize_ok in GS. destruct GS as [F4 _]. rewrite F4.
      destruct C as [[_ C]|(_ & C0 & C1 & C2 & bb & b' & C3 & C4 & _)]; [now destruct a|].
      rewrite C4. eapply resolve_mono; [|exact C0]. now apply set_mono.
  Qed.

  (** ** Chunks *)
  Lemma slice_ok b o n : (Z.of_nat o < 2 ^ 63)%Z -> (Z.of_nat n < 2 ^ 63)%Z ->
    read_slice b (Z.of_nat o) (Z.of_nat n) = Ok (firstn n (skipn o b)).
  Proof.
    intros H1 H2. unfold read_slice, max_off. destruct (Z.ltb_spec (Z.of_nat o) 0); [lia|].
    destruct (Z.leb_spec (2 ^ 63) (Z.of_nat o)); [lia|]. destruct (Z.leb_spec (2 ^ 63) (Z.of_nat n)); [lia|]. cbn [orb].
    destruct (Z.eqb_spec (Z.of_nat n) (-1)); [lia|]. destruct (Z.ltb_spec (Z.of_nat n) 0); [lia|]. now rewrite !Nat2Z.id.
  Qed.
  Lemma slice_inv b o n d : read_slice b (Z.of_nat o) (Z.of_nat n) = Ok d -> d = firstn n (skipn o b).
  Proof.
    unfold read_slice. destruct (Z.ltb_spec (Z.of_nat o) 0); [lia|]. destruct (_ || _); [discriminate|].
    destruct (Z.eqb_spec (Z.of_nat n) (-1)); [lia|]. destruct (Z.ltb_spec (Z.of_nat n) 0); [lia|]. rewrite !Nat2Z.id. now intros [= <-].
  Qed.
  Lemma reading_sound (ok : world -> event -> Prop) t size b : (forall w e, shot t b w -> ok w e -> shot t b (event_step cfg w e)) ->
    forall o w d w', reading cfg ok t size o w d w' -> shot t b w -> d = skipn o b.
  Proof.
    intros K o w d w' H. induction H as [o w e d w' OK H IH|o w d w' R L|o w d w1 d' w' R L H IH]; intros SH.
    - apply IH. now apply K.
    - destruct (shot_read _ _ _ _ _ _ _ SH R) as [S _]. apply slice_inv in S. subst d.
      rewrite firstn_length in L. rewrite firstn_all2; auto. lia.
    - destruct (shot_read _ _ _ _ _ _ _ SH R) as [S SH1]. apply slice_inv in S. rewrite (IH SH1).
      subst d. rewrite Nat.add_comm, <- skipn_skipn. apply firstn_skipn.
  Qed.
  Lemma reading_complete (ok : world -> event -> Prop) t size b w : shot t b w -> faultless w -> 0 < size ->
    (Z.of_nat (length b) < 2 ^ 63)%Z -> (Z.of_nat size < 2 ^ 63)%Z -> forall k o, length b < o + k -> o <= length b ->
    reading cfg ok t size o w (skipn o b) w.
  Proof.
    intros SH FL HS B1 B2. induction k as [|k IH]; intros o H1 H2; [lia|].
    assert (R : read_upload cfg t (Z.of_nat o) (Z.of_nat size) w = (w, inl (firstn size (skipn o b)))).
    { rewrite (read_shot _ _ _ _ _ SH FL), slice_ok by lia. reflexivity. }
    destruct (le_lt_dec (o + size) (length b)) as [L|L].
    - assert (X : skipn o b = firstn size (skipn o b) ++ skipn (o + size) b).
      { rewrite Nat.add_comm, <- skipn_skipn. symmetry. apply firstn_skipn. }
      rewrite X. eapply rd_more; [exact R|rewrite firstn_length, skipn_length; lia|]. apply IH; lia.
    - assert (X : firstn size (skipn o b) = skipn o b) by (apply firstn_all2; rewrite skipn_length; lia).
      rewrite X in R. apply rd_short; [exact R|]. rewrite skipn_length. lia.
  Qed.

  (** ** Isolation *)
  Lemma keep_event L b w e : Sl <> L -> Dl <> L -> spares cfg L w e ->
    tree (w_fs w) /\ w_fs w L = Some (File b) -> tree (w_fs (event_step cfg w e)) /\ w_fs (event_step cfg w e) L = Some (File b).
  Proof.
    intros HS HD SP. pose proof (pre_keep L b) as HP.
    assert (SEND : forall w p, Keep L b w (W (w_fs w) (w_faults w) (p :: w_sent w))) by (intros ? ? ?; assumption).
    assert (ES : edits (Keep L b) (at_path cfg sdir)) by now apply ed_keep.
    assert (ED : edits (Keep L b) (at_path cfg ddir)) by now apply ed_keep.
    destruct e as [q|f]; [|intros [T F]; cbn in *; destruct SP; split; congruence].
    change (steps_at (Keep L b) (handle cfg q) w). revert w SP. intros w SP.
    destruct q as [u p|u o s|u|i p d o x f]; cbn [spares] in SP; unfold steps_at; cbn [handle].
    - unfold on_open. unfold bindM at 1. unfold attempt.
      assert (X : Keep L b w (fst ((let! p0 := decode8 p in let! u0 := decode8 u in add_upload cfg p0 u0) w))).
      { refine (st_bind _ _ _ _ _ HP _ _ w); [now apply st_decode|]. intros p0. clear w. intros w. unfold bindM, decode8.
        destruct (utf8_decode u) as [t|] eqn:U; [|cbn; now apply pre_refl]. cbn [ret]. apply st_add_upload; auto. apply ed_keep. now apply SP. }
      destruct ((let! p0 := decode8 p in let! u0 := decode8 u in add_upload cfg p0 u0) w) as [w1 r]. cbn [fst] in X.
      eapply pre_trans; [exact HP|exact X|]. destruct r; apply (st_send _ HP); exact SEND.
    - unfold on_read. refine (st_bind _ _ _ _ _ HP _ _ w).
      + apply st_attempt. apply st_bind; auto using st_decode. intros u0. now apply st_read_upload.
      + intros [d|e]; apply (st_send _ HP); exact SEND.
    - unfold on_close. refine (st_catch _ _ _ _ HP _ _ w); [|intros; now apply st_ret]. intros w1. unfold bindM, decode8.
      destruct (utf8_decode u) as [t|] eqn:U; [|cbn; now apply pre_refl]. cbn [ret]. apply st_close_upload; auto. apply ed_keep. now apply SP.
    - destruct SP as [P1 P2]. apply st_on_write; auto.
      + intros t I D. apply ed_keep. intros E. apply (P1 D t I). rewrite E. apply within_refl.
      + intros t D N. apply ed_keep. intros E. apply (P2 t D N). rewrite E. apply within_refl.
      + intros s [(t & I & D & ->)|[D N]] q _; apply nm_keep; auto.
      + intros q _. apply cr_keep.
  Qed.
  Lemma keep_events L b es : Sl <> L -> Dl <> L -> forall w, spared cfg L es w ->
    tree (w_fs w) /\ w_fs w L = Some (File b) -> tree (w_fs (events cfg es w)) /\ w_fs (events cfg es w) L = Some (File b).
  Proof.
    intros HS HD. induction es as [|e es IH]; intros w H K; [exact K|]. destruct H as [H1 H2]. cbn. apply IH; auto. now apply keep_event.
  Qed.

  Section Normal.
    Variable temp_ok : normal (temp cfg).
    Lemma plain_shot t b w : plain t -> tree (w_fs w) -> w_fs w (Sl ++ [t]) = Some (File b) -> shot t b w.
    Proof.
      intros P T N. assert (D : w_fs w Sl = Some Dir) by (apply (proj2 T _ t); congruence).
      pose proof (resolve_normal cfg _ _ T (sdir_normal cfg temp_ok) D) as R.
      unfold shot. rewrite snap_place by assumption. repeat split; auto.
      - eapply resolve_dir; eauto.
      - now apply resolve_plain.
    Qed.
    Lemma shot_plain t b w : plain t -> shot t b w -> w_fs w (Sl ++ [t]) = Some (File b).
    Proof. intros P (_ & _ & N). now rewrite snap_place in N by assumption. Qed.
    Lemma S_child t : Sl <> Sl ++ [t].
    Proof. intros E. apply (f_equal (@length text)) in E. rewrite app_length in E. cbn in E. lia. Qed.
    Lemma D_child t : Dl <> Sl ++ [t].
    Proof. intros E. now apply (S_not_D_child cfg temp_ok t). Qed.

    Lemma add_upload_tree p u w : tree (w_fs w) -> tree (w_fs (fst (add_upload cfg p u w))).
    Proof. apply (st_add_upload cfg Trees pre_trees); apply ed_trees. Qed.
    Lemma isolation p t w w1 n es : plain t -> tree (w_fs w) -> add_upload cfg p t w = (w1, inl n) -> spared cfg (Sl ++ [t]) es w1 ->
      exists fp b, upload_file cfg p w = (w, inl fp) /\ w_fs w (place cfg fp) = Some (File b) /\ n = Z.of_nat (length b) /\
        let w2 := events cfg es w1 in
        (forall o s w3 d, read_upload cfg t o s w2 = (w3, inl d) -> read_slice b o s = Ok d) /\
        (forall o s, faultless w2 -> (Z.of_nat o < 2 ^ 63)%Z -> (Z.of_nat s < 2 ^ 63)%Z ->
           read_upload cfg t (Z.of_nat o) (Z.of_nat s) w2 = (w2, inl (slice b o s))).
    Proof.
      intros P T E SP. destruct (opened _ _ _ _ _ E) as (fp & b & A1 & A2 & A3 & A4). exists fp, b. repeat (split; [assumption|]).
      pose proof (add_upload_tree p t w T) as T1. rewrite E in T1. cbn in T1.
      destruct (keep_events (Sl ++ [t]) b es (S_child t) (D_child t) w1 SP (conj T1 (shot_plain _ _ _ P A4))) as [T2 F2].
      pose proof (plain_shot _ _ _ P T2 F2) as SH. cbv zeta. split.
      - intros o s w3 d R. now apply (shot_read _ _ _ _ _ _ _ SH R).
      - intros o s FL B1 B2. now rewrite (read_shot _ _ _ _ _ SH FL), slice_ok.
    Qed.
    Lemma reading_events t size b w d w' : plain t -> tree (w_fs w) -> shot t b w ->
      reading cfg (spares cfg (Sl ++ [t])) t size 0 w d w' -> d = b.
    Proof.
      intros P T SH H. apply shot_plain in SH; auto.
      assert (X : forall o w d w', reading cfg (spares cfg (Sl ++ [t])) t size o w d w' -> tree (w_fs w) /\ w_fs w (Sl ++ [t]) = Some (File b) -> d = skipn o b).
      { clear - P temp_ok. intros o w d w' H. induction H as [o w e d w' OK H IH|o w d w' R L|o w d w1 d' w' R L H IH]; intros [T N].
        - apply IH. apply keep_event; auto using S_child, D_child.
        - destruct (shot_read _ _ _ _ _ _ _ (plain_shot _ _ _ P T N) R) as [S _]. apply slice_inv in S. subst d.
          rewrite firstn_length in L. rewrite firstn_all2; auto. lia.
        - destruct (shot_read _ _ _ _ _ _ _ (plain_shot _ _ _ P T N) R) as [S SH1]. apply slice_inv in S. rewrite IH.
          + subst d. rewrite Nat.add_comm, <- skipn_skipn. apply firstn_skipn.
          + destruct (read_ok _ _ _ _ _ _ R) as (_ & _ & _ & F). rewrite F; auto. apply (plain_shot _ _ _ P T N). }
      now apply (X 0 w d w').
    Qed.
  End Normal.
End Cfg.
