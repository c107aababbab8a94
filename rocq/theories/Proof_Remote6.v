From Verif Require Import Py Py_lemmas Model_Bencode Model_Packets Model_Path Model_Remote Spec_Remote Proof_Path Proof_Remote Proof_Remote2 Proof_Remote3 Proof_Remote4 Proof_Remote5.

(** ** Bytes after a write *)
Lemma write_length b o d : d <> [] -> length (write_bytes b o d) = Nat.max (length b) (o + length d).
Proof.
  intros H. unfold write_bytes. destruct d as [|x d]; [congruence|]. rewrite !app_length, firstn_length, repeat_length, skipn_length. lia.
Qed.
Lemma nth_repeat {A} (x : A) n i : i < n -> nth_error (repeat x n) i = Some x.
Proof. revert i. induction n; intros [|i] H; cbn; try lia; auto. apply IHn. lia. Qed.
Lemma nth_skipn {A} n (l : list A) i : nth_error (skipn n l) i = nth_error l (n + i).
Proof. revert l. induction n; intros l; cbn; auto. destruct l; cbn; auto. now destruct i. Qed.
Lemma nth_firstn {A} n (l : list A) i : i < n -> nth_error (firstn n l) i = nth_error l i.
Proof. revert l i. induction n; intros l i H; [lia|]. destruct l, i; cbn; auto. apply IHn. lia. Qed.
Lemma write_in b o d i : o <= i < o + length d -> nth_error (write_bytes b o d) i = nth_error d (i - o).
Proof.
  intros H. unfold write_bytes. destruct d as [|x d]; [cbn in H; lia|]. set (d' := x :: d) in *.
  destruct (le_lt_dec (length b) o) as [L|L].
  - rewrite nth_error_app2 by (rewrite firstn_length; lia). rewrite firstn_length. rewrite nth_error_app2 by (rewrite repeat_length; lia).
    rewrite repeat_length. rewrite nth_error_app1 by lia. f_equal. lia.
  - rewrite nth_error_app2 by (rewrite firstn_length; lia). rewrite firstn_length. replace (o - length b) with 0 by lia. cbn [repeat app].
    rewrite nth_error_app1 by lia. f_equal. lia.
Qed.
Lemma write_out b o d i : ~ (o <= i < o + length d) -> i < length b -> nth_error (write_bytes b o d) i = nth_error b i.
Proof.
  intros H L. unfold write_bytes. destruct d as [|x d]; [reflexivity|]. set (d' := x :: d) in *.
  destruct (le_lt_dec o i) as [G|G].
  - rewrite nth_error_app2 by (rewrite firstn_length; lia). rewrite firstn_length. replace (o - length b) with 0 by lia. cbn [repeat app].
    rewrite nth_error_app2 by lia. rewrite nth_skipn. f_equal. lia.
  - rewrite nth_error_app1 by (rewrite firstn_length; lia). now apply nth_firstn.
Qed.
Lemma nth_ext_error {A} (a b : list A) : (forall i, nth_error a i = nth_error b i) -> a = b.
Proof.
  revert b. induction a as [|x a IH]; intros [|y b] H; auto; try (specialize (H 0); discriminate).
  pose proof (H 0) as H0. cbn in H0. injection H0 as ->. f_equal. apply IH. intros i. apply (H (S i)).
Qed.

(** [b] agrees with [content] wherever one of the chunks went *)
Definition partly (content b : bytes) (cs : list (nat * bytes)) : Prop :=
  length b <= length content /\
  forall o d i, In (o, d) cs -> o <= i < o + length d -> i < length b /\ nth_error b i = nth_error content i.
Lemma partly_nil content : partly content [] [].
Proof. split; [cbn; lia|intros ? ? ? []]. Qed.
Lemma chunk_nth content o d i : chunk_of content (o, d) -> o <= i < o + length d -> nth_error d (i - o) = nth_error content i.
Proof.
  intros [H1 H2] H. cbn [fst snd] in *. unfold slice in H2. rewrite <- H2 at 1. rewrite nth_firstn by lia. rewrite nth_skipn. f_equal. lia.
Qed.
Lemma partly_write content b cs o d : chunk_of content (o, d) -> partly content b cs -> partly content (write_bytes b o d) ((o, d) :: cs).
Proof.
  intros C [P1 P2]. destruct d as [|x d].
  { cbn [write_bytes]. split; auto. intros o' d' i [E|I] H; [injection E as <- <-; cbn in H; lia|eauto]. }
  set (d' := x :: d) in *. assert (NE : d' <> []) by discriminate. pose proof (write_length b o d' NE) as WL. split.
  - destruct C as [C _]. cbn [fst snd] in C. lia.
  - intros o' d'' i I H. assert (DEC : (o <= i < o + length d') \/ ~ (o <= i < o + length d')) by lia. destruct DEC as [K|K].
    + split; [lia|]. rewrite write_in by exact K. now apply chunk_nth.
    + destruct I as [E|I]; [injection E as <- <-; contradiction|]. destruct (P2 _ _ _ I H) as [Q1 Q2]. split; [lia|]. now rewrite write_out.
Qed.
Lemma partly_all content b cs : partly content b cs -> covers content cs -> b = content.
Proof.
  intros [P1 P2] C. apply nth_ext_error. intros i. destruct (le_lt_dec (length content) i) as [L|L].
  - transitivity (@None byte); [|symmetry]; apply nth_error_None; lia.
  - destruct (C i L) as (o & d & I & H). now apply (P2 o d).
Qed.
Lemma partly_incl content b cs cs' : incl cs' cs -> partly content b cs -> partly content b cs'.
Proof. intros I [P1 P2]. split; auto. intros o d i H. apply P2. now apply I. Qed.

(** ** File systems that differ in file contents only *)
Definition like (f f' : fs) : Prop := forall l, (f l = Some Dir <-> f' l = Some Dir) /\ (f l = None <-> f' l = None).
Lemma like_set f l b b' : f l = Some (File b) -> like f (set_node f l (Some (File b'))).
Proof.
  intros F x. destruct (loc_eqb_spec x l) as [->|N].
  - rewrite set_same, F. split; split; discriminate.
  - rewrite set_other by assumption. tauto.
Qed.
Lemma like_resolve f f' c p : like f f' -> resolve f c p = resolve f' c p.
Proof.
  intros H.
  assert (K : forall g g', like g g' -> forall l, resolve g c p = Ok l -> resolve g' c p = Ok l).
  { intros g g' HG l. apply resolve_mono. intros x. apply HG. }
  assert (H' : like f' f) by (intros l; destruct (H l); tauto).
  unfold resolve in *. destruct (existsb _ p); [reflexivity|]. destruct p as [|ch p]; [reflexivity|].
  destruct (walk f (if is_slash ch then [] else c) (split_sep (ch :: p))) as [l|] eqn:W.
  - specialize (K f f' H l). rewrite W in K. symmetry. now apply K.
  - destruct (walk f' (if is_slash ch then [] else c) (split_sep (ch :: p))) as [l|] eqn:W'; [|reflexivity].
    specialize (K f' f H' l). rewrite W', W in K. now apply K.
Qed.
Lemma like_exists f f' c p : like f f' -> path_exists f c p = path_exists f' c p.
Proof.
  intros H. unfold path_exists, lookup. rewrite (like_resolve f f' c p H). destruct (resolve f' c p) as [l| |]; auto. destruct (H l) as [H1 H2].
  destruct (f l), (f' l); auto; exfalso; [assert (X : Some n = None) by now apply H2|assert (X : Some n = None) by now apply H2]; discriminate.
Qed.
Lemma like_isdir f f' c p : like f f' -> path_isdir f c p = path_isdir f' c p.
Proof.
  intros H. unfold path_isdir, lookup. rewrite (like_resolve f f' c p H). destruct (resolve f' c p) as [l| |]; auto. destruct (H l) as [[H1 H2] _].
  destruct (f l) as [[|]|], (f' l) as [[|]|]; auto; (specialize (H1 eq_refl) || specialize (H2 eq_refl)); discriminate.
Qed.
Lemma like_chosen cfg f f' p q : like f f' -> chosen cfg f p q -> chosen cfg f' p q.
Proof.
  intros H [C1 C2]. assert (E : forall p, path_exists f' (cwd cfg) p = path_exists f (cwd cfg) p) by (intros; symmetry; now apply like_exists).
  assert (D : forall p, path_isdir f' (cwd cfg) p = path_isdir f (cwd cfg) p) by (intros; symmetry; now apply like_isdir).
  split; [now rewrite E|]. destruct C2 as [C2|(dir & name & base & ext & n & X1 & X2 & X3)]; [now left|]. right.
  exists dir, name, base, ext, n. split; auto. split; auto. cbv zeta in *. rewrite D, E. destruct X3 as (Y1 & Y2 & Y3 & Y4).
  repeat (split; [assumption|]). intros k K. rewrite E. auto.
Qed.
Lemma like_refl f : like f f.
Proof. intros l. tauto. Qed.

Section Cfg.
  Variable cfg : config.
  Notation sdir := (snapshot_dir cfg).
  Notation ddir := (download_dir cfg).
  Notation Sl := (place cfg (snapshot_dir cfg)).
  Notation Dl := (place cfg (download_dir cfg)).
  Notation resolve' f p := (resolve f (cwd cfg) p).

  Lemma send_write_inv i pos n dp k r w w' :
    send "write_remote_file_result" [VBytes i; VInt pos; VInt n; VBytes dp; VInt k; VBytes r] [] w = (w', inl tt) ->
    w' = sent w (write_reply i pos n dp k r).
  Proof.
    unfold send, bindM, pure_res. rewrite create_write.
    change (construct write_class [VBytes i; VInt pos; VInt n; VBytes dp; VInt k; VBytes r] []) with (Ok (write_reply i pos n dp k r)).
    cbv beta iota. destruct (as_bytes (write_reply i pos n dp k r)); cbv beta iota; [|discriminate..]. now intros [= <-].
  Qed.
  Lemma on_write_inv i p d o x f w w' : on_write cfg i p d o x f w = (w', inl tt) ->
    exists v q, wrote cfg i p d o x f w v q /\ w_fs w' = w_fs v /\ w_faults w' = w_faults v /\ w_sent w' = q :: w_sent w.
  Proof.
    unfold on_write. unfold bindM at 1, decode8 at 1. destruct (utf8_decode d) as [dt|] eqn:D; [|discriminate]. cbn [ret].
    unfold bindM at 1, attempt at 1.
    change (match dt with [] => let! t := decode8 i in add_download cfg t | _ :: _ => ret dt end) with (stage1 cfg i d dt).
    pose proof (silent_stage1 cfg i d dt w) as S1. destruct (stage1 cfg i d dt w) as [w1 [s|e]] eqn:E1; cbn [fst] in S1.
    2:{ intros H. apply send_write_inv in H. subst w'. exists w1. eexists. split; [eapply wrote_1; eauto|]. unfold Silent in *. cbn. rewrite S1. auto. }
    unfold bindM at 1, pure_res. destruct (utf8_encode s) as [dp|] eqn:EP; [|discriminate]. unfold bindM at 1, attempt at 1.
    change (match x with [] => ret tt | _ :: _ => write_file cfg s o x end) with (stage2 cfg s o x).
    pose proof (silent_stage2 cfg s o x w1) as S2. destruct (stage2 cfg s o x w1) as [w2 [[]|e]] eqn:E2; cbn [fst] in S2.
    2:{ unfold bindM at 1. match goal with |- context [send ?a ?b ?c w2] => destruct (send a b c w2) as [v [[]|e']] eqn:E3 end; [|discriminate].
        apply send_write_inv in E3. subst v. set (q := write_reply i o (Z.of_nat (length x)) dp 2 (encode_replace (err_text cfg e))) in *. intros H.
        pose proof (st_remove cfg Silent pre_silent s (ed_silent _) (sent w2 q)) as SR.
        assert (W : w' = fst (remove cfg s (sent w2 q))) by (revert H; unfold catch; destruct (remove cfg s (sent w2 q)) as [w3 [[]|e3]]; now intros [= <-]).
        rewrite <- W in SR. exists w', q. split; [eapply wrote_2; eauto|]. unfold Silent in *. cbn in SR. repeat split; congruence. }
    unfold bindM at 1, attempt.
    change (if (f =? 0)%Z then ret tt else copy_download cfg s p) with (stage3 cfg s p f).
    pose proof (silent_stage3 cfg s p f w2) as S3. destruct (stage3 cfg s p f w2) as [w3 [[]|e]] eqn:E3; cbn [fst] in S3; unfold Silent in *;
      intros H; apply send_write_inv in H; subst w'; exists w3; eexists.
    - split; [eapply wrote_0; eauto|]. cbn. rewrite S3, S2, S1. auto.
    - split; [eapply wrote_3; eauto|]. cbn. rewrite S3, S2, S1. auto.
  Qed.
  (** A reported success *)
  Lemma replied_0 i p d o x f w w' : replied cfg (RWrite i p d o x f) w w' 0 ->
    exists dt w1 s dp w2 w3, utf8_decode d = Some dt /\ stage1 cfg i d dt w = (w1, inl s) /\ utf8_encode s = Some dp /\
      stage2 cfg s o x w1 = (w2, inl tt) /\ stage3 cfg s p f w2 = (w3, inl tt) /\ w_fs w' = w_fs w3 /\
      w_sent w' = write_reply i (o + Z.of_nat (length x)) (Z.of_nat (length x)) dp 0 [] :: w_sent w.
  Proof.
    intros (pk & H & SE & _ & FF & _). cbn [handle] in H. destruct (on_write_inv _ _ _ _ _ _ _ _ H) as (v & q & WR & A1 & A2 & A3).
    rewrite A3 in SE. injection SE as ->. unfold field in FF. destruct WR; try (cbn in FF; discriminate FF). do 6 eexists. repeat (split; [eassumption|]). exact A3.
  Qed.
  Lemma stage2_ok s o x w w' : stage2 cfg s o x w = (w', inl tt) ->
    x = [] /\ w' = w \/
    x <> [] /\ exists b, w_fs w (place cfg s) = Some (File b) /\ w_fs w' = set_node (w_fs w) (place cfg s) (Some (File (write_bytes b (Z.to_nat o) x))).
  Proof.
    unfold stage2. destruct x as [|c x]; [intros [= <-]; auto|]. intros H. right. split; [discriminate|]. revert H.
    unfold write_file, on_path. pose proof (nf_fs w) as F. destruct (next_fault w) as [y w1]. cbn in F.
    destruct y as [[|k]|]; cbn; try discriminate.
    { destruct (resolve (w_fs w1) (cwd cfg) s) as [l| |]; try discriminate. destruct (w_fs w1 l) as [[b|]|]; try discriminate.
      destruct (_ <? 0)%Z; [discriminate|]. destruct (_ <=? _)%Z; discriminate. }
    destruct (resolve (w_fs w1) (cwd cfg) s) as [l| |] eqn:R; try discriminate. apply resolve_place in R. subst l.
    destruct (w_fs w1 (place cfg s)) as [[b|]|] eqn:N; try discriminate.
    destruct (o <? 0)%Z; [discriminate|]. destruct (_ <=? _)%Z; [discriminate|]. intros [= <-]. exists b. rewrite <- F. auto.
  Qed.
  Lemma stage2_at s o x w w' b : stage2 cfg s (Z.of_nat o) x w = (w', inl tt) -> w_fs w (place cfg s) = Some (File b) ->
    w_fs w' (place cfg s) = Some (File (write_bytes b o x)) /\ like (w_fs w) (w_fs w') /\ (forall l, l <> place cfg s -> w_fs w' l = w_fs w l).
  Proof.
    intros H F. destruct (stage2_ok _ _ _ _ _ H) as [[-> ->]|(_ & b' & F' & E)].
    - split; [exact F|]. split; [apply like_refl|auto].
    - rewrite F in F'. injection F' as <-. rewrite Nat2Z.id in E. rewrite E. split; [apply set_same|]. split; [eapply like_set; eauto|].
      intros l N. now rewrite set_other.
  Qed.
  Lemma truncate_ok s w w' : truncate cfg s w = (w', inl tt) ->
    w_fs w' = set_node (w_fs w) (place cfg s) (Some (File [])) /\ w_fs w (place cfg s) <> Some Dir.
  Proof.
    unfold truncate, on_path. pose proof (nf_fs w) as F. destruct (next_fault w) as [y w1]. cbn in F.
    destruct y as [[|k]|]; cbn; try discriminate.
    { destruct (resolve (w_fs w1) (cwd cfg) s) as [l| |]; try discriminate. }
    destruct (resolve (w_fs w1) (cwd cfg) s) as [l| |] eqn:R; try discriminate. apply resolve_place in R. subst l. rewrite F in *.
    destruct (w_fs w (place cfg s)) as [[b|]|] eqn:N; try discriminate; intros [= <-]; cbn; rewrite F; split; congruence.
  Qed.
  Lemma add_download_ok t w w' s : add_download cfg t w = (w', inl s) ->
    s = join ddir t /\ w_fs w' (place cfg s) = Some (File []) /\ forall l, l <> place cfg s -> l <> Dl -> w_fs w' l = w_fs w l.
  Proof.
    intros H. pose proof (download_value _ _ _ _ _ H) as ->. split; auto. revert H. unfold add_download, bindM, isdir.
    destruct (path_isdir _ _ _).
    - cbn [ret]. destruct (truncate _ _ _) as [w2 [[]|e]] eqn:T; [|discriminate]. intros [= <-]. apply truncate_ok in T. destruct T as [T _]. rewrite T.
      split; [apply set_same|]. intros l N _. now rewrite set_other.
    - destruct (mkdir_cases cfg ddir w) as [_ M]. destruct (mkdir _ _ _) as [w2 [[]|e]]; [|discriminate]. cbn [fst snd] in M.
      destruct M as [[_ [e M]]|(_ & _ & _ & M)]; [discriminate|].
      destruct (truncate _ _ _) as [w3 [[]|e]] eqn:T; [|discriminate]. intros [= <-]. apply truncate_ok in T. destruct T as [T _]. rewrite T.
      split; [apply set_same|]. intros l N1 N2. rewrite set_other by assumption. rewrite M. now rewrite set_other.
  Qed.

  Lemma write_tree q w : tree (w_fs w) -> tree (w_fs (fst (handle cfg q w))).
  Proof.
    assert (K : steps Trees (handle cfg q)); [|apply K].
    pose proof pre_trees as HP. assert (SD : forall w p, Trees w (W (w_fs w) (w_faults w) (p :: w_sent w))) by (intros ? ? ?; assumption).
    destruct q as [u p|u o s|u|i p d o x f]; cbn [handle].
    - apply st_bind; auto.
      + apply st_attempt. apply st_bind; auto using st_decode. intros p0. apply st_bind; auto using st_decode. intros t. apply st_add_upload; auto using ed_trees.
      + intros [z|e]; apply (st_send _ HP); exact SD.
    - apply st_bind; auto.
      + apply st_attempt. apply st_bind; auto using st_decode. intros t. apply st_read_upload; auto using ed_trees.
      + intros [z|e]; apply (st_send _ HP); exact SD.
    - apply st_catch; auto using st_ret. apply st_bind; auto using st_decode. intros t. apply st_close_upload; auto using ed_trees.
    - apply st_on_write; auto using ed_trees.
      + intros; apply nm_trees.
      + intros; apply cr_trees.
  Qed.
  Lemma replied_tree q w w' k : replied cfg q w w' k -> tree (w_fs w) -> tree (w_fs w').
  Proof. intros (p & H & _) T. pose proof (write_tree q w T) as X. now rewrite H in X. Qed.

  (** ** Chunks one after another *)
  Section Assemble.
    Variables (i dp : bytes) (t : text) (content : bytes).
    Hypothesis id_ok : utf8_decode i = Some t.
    Hypothesis dp_ok : utf8_encode (join ddir t) = Some dp.
    Notation L := (place cfg (join ddir t)).
    Hypothesis L_S : Sl <> L.
    Hypothesis L_D : Dl <> L.

    Lemma join_not_nil a b : a <> [] -> join a b <> [].
    Proof. unfold join. destruct (starts_with [slash] b) eqn:E; [destruct b; [discriminate|discriminate]|]. destruct a; [congruence|]. destruct (ends_slash _); discriminate. Qed.
    Lemma dp_path : utf8_decode dp = Some (join ddir t) /\ join ddir t <> [].
    Proof.
      split; [now apply utf8_decode_encode|]. apply join_not_nil. unfold download_dir, join. cbn [starts_with].
      destruct (temp cfg); cbn; [discriminate|]. destruct (ends_slash _); discriminate.
    Qed.
    Definition part (w : world) (cs : list (nat * bytes)) : Prop :=
      tree (w_fs w) /\ exists b, w_fs w L = Some (File b) /\ partly content b cs.
    Lemma first_part p o d w w1 : tree (w_fs w) -> replied cfg (RWrite i p [] (Z.of_nat o) d 0) w w1 0 -> chunk_of content (o, d) ->
      part w1 [(o, d)].
    Proof.
      intros T R C. split; [eapply replied_tree; eauto|].
      destruct (replied_0 _ _ _ _ _ _ _ _ R) as (dt & v1 & s & dp' & v2 & v3 & D & S1 & _ & S2 & S3 & F & _).
      cbn in D. injection D as <-. unfold stage1, bindM, decode8 in S1. rewrite id_ok in S1. cbn [ret] in S1.
      destruct (add_download_ok _ _ _ _ S1) as (-> & F1 & _).
      destruct (stage2_at _ _ _ _ _ _ S2 F1) as (F2 & _). unfold stage3 in S3. cbn in S3. injection S3 as ->. rewrite F. eexists. split; [exact F2|].
      apply partly_write; auto. apply partly_nil.
    Qed.
    Lemma more_parts cs w w' done : writing cfg L i dp cs w w' -> Forall (chunk_of content) cs -> part w done -> part w' (rev cs ++ done).
    Proof.
      intros H. revert done. induction H as [w|o d p cs w w1 w' R H IH|e cs w w' SP H IH]; intros done FA P.
      - exact P.
      - inversion FA as [|x l F1 F2]; subst. cbn [rev]. rewrite <- app_assoc. apply IH; auto. destruct P as (T & b & F & Q).
        split; [eapply replied_tree; eauto|].
        destruct (replied_0 _ _ _ _ _ _ _ _ R) as (dt & v1 & s & dp' & v2 & v3 & D & S1 & _ & S2 & S3 & FF & _).
        destruct dp_path as [D' N]. rewrite D' in D. injection D as <-. unfold stage1 in S1. destruct (join ddir t) as [|c0 j] eqn:J; [congruence|].
        injection S1 as <- <-. destruct (stage2_at _ _ _ _ _ _ S2 F) as (F3 & _). unfold stage3 in S3. cbn in S3. injection S3 as ->. rewrite FF.
        eexists. split; [exact F3|]. now apply partly_write.
      - apply IH; auto. destruct P as (T & b & F & Q).
        destruct (keep_event cfg L b w e L_S L_D SP (conj T F)) as [T' F']. split; eauto.
    Qed.
    Lemma last_part p pt o d f w w' done : replied cfg (RWrite i p dp (Z.of_nat o) d f) w w' 0 -> f <> 0%Z -> utf8_decode p = Some pt ->
      chunk_of content (o, d) -> covers content ((o, d) :: done) -> part w done ->
      exists q, chosen cfg (w_fs w) pt q /\ w_fs w' (place cfg q) = Some (File content) /\ w_fs w (place cfg q) = None /\ w_fs w' L = None /\
        forall l, l <> L -> l <> place cfg q -> w_fs w' l = w_fs w l.
    Proof.
      intros R FZ DP C CV (T & b & F & Q).
      destruct (replied_0 _ _ _ _ _ _ _ _ R) as (dt & v1 & s & dp' & v2 & v3 & D & S1 & _ & S2 & S3 & FF & _).
      destruct dp_path as [D' N]. rewrite D' in D. injection D as <-. unfold stage1 in S1. destruct (join ddir t) as [|c0 j] eqn:J; [congruence|].
      injection S1 as <- <-. destruct (stage2_at _ _ _ _ _ _ S2 F) as (F3 & LK & OT).
      unfold stage3 in S3. destruct (Z.eqb_spec f 0); [contradiction|].
      assert (T2 : tree (w_fs v2)).
      { pose proof (pre_trees) as HP. assert (X : steps Trees (stage2 cfg (c0 :: j) (Z.of_nat o) d)).
        { unfold stage2. destruct d; [now apply st_ret|]. apply st_write; auto. apply ed_trees. }
        specialize (X w T). now rewrite S2 in X. }
      assert (E : write_bytes b o d = content) by (eapply partly_all; eauto using partly_write). rewrite E in F3.
      destruct (copy_download_cases cfg (c0 :: j) p pt v2 DP) as [(q & CH & _ & EQ)|[_ EQ]]; rewrite EQ in S3; [|discriminate].
      exists q. destruct (stored cfg _ _ _ _ _ T2 (proj1 CH) F3 S3) as (A1 & A2 & A3 & A4). rewrite FF. split.
      - eapply like_chosen; [|exact CH]. intros l. destruct (LK l). tauto.
      - assert (NQ : place cfg q <> place cfg (c0 :: j)) by (intros X; rewrite X in A1; congruence).
        split; auto. split; [now rewrite <- OT|]. split; auto. intros l N1 N2. rewrite A3 by assumption. now apply OT.
    Qed.
  End Assemble.

  (** One packet with everything *)
  Lemma single_packet i p pt t o d f w w' : utf8_decode i = Some t -> utf8_decode p = Some pt -> tree (w_fs w) -> f <> 0%Z ->
    replied cfg (RWrite i p [] (Z.of_nat o) d f) w w' 0 ->
    exists g q, (forall l, l <> place cfg (join ddir t) -> l <> Dl -> g l = w_fs w l) /\ chosen cfg g pt q /\ g (place cfg q) = None /\
      w_fs w' (place cfg q) = Some (File (write_bytes [] o d)) /\ w_fs w' (place cfg (join ddir t)) = None /\
      forall l, l <> place cfg (join ddir t) -> l <> place cfg q -> w_fs w' l = g l.
  Proof.
    intros I DP T FZ R.
    destruct (replied_0 _ _ _ _ _ _ _ _ R) as (dt & v1 & s & dp' & v2 & v3 & D & S1 & _ & S2 & S3 & F & _).
    cbn in D. injection D as <-. unfold stage1, bindM, decode8 in S1. rewrite I in S1. cbn [ret] in S1.
    destruct (add_download_ok _ _ _ _ S1) as (-> & F1 & O1). destruct (stage2_at _ _ _ _ _ _ S2 F1) as (F2 & LK & O2).
    unfold stage3 in S3. destruct (Z.eqb_spec f 0); [contradiction|].
    assert (T2 : tree (w_fs v2)).
    { pose proof (pre_trees) as HP. assert (X : steps Trees (stage2 cfg (join ddir t) (Z.of_nat o) d)).
      { unfold stage2. destruct d; [now apply st_ret|]. apply st_write; auto. apply ed_trees. }
      assert (Y : steps Trees (add_download cfg t)) by (apply st_add_download; auto using ed_trees).
      specialize (Y w T). rewrite S1 in Y. specialize (X v1 Y). now rewrite S2 in X. }
    destruct (copy_download_cases cfg (join ddir t) p pt v2 DP) as [(q & CH & _ & EQ)|[_ EQ]]; rewrite EQ in S3; [|discriminate].
    destruct (stored cfg _ _ _ _ _ T2 (proj1 CH) F2 S3) as (A1 & A2 & A3 & A4).
    exists (w_fs v2), q. rewrite F. split; [|repeat split; auto; apply CH].
    intros l N1 N2. now rewrite O2, O1.
  Qed.

  (** ** Without faults every packet is a success *)
  Section Live.
    Variables (i dp : bytes) (t : text) (pt : text) (ld : loc).
    Hypothesis msgs : messages_ok cfg.
    Hypothesis temp_ok : normal (temp cfg).
    Hypothesis temp_enc : encodable (temp cfg).
    Hypothesis t_ok : plain t.
    Hypothesis id_ok : utf8_decode i = Some t.
    Hypothesis dp_ok : utf8_encode (join ddir t) = Some dp.
    Hypothesis i_short : short i.
    Hypothesis dp_short : short dp.
    Notation L := (Dl ++ [t]).
    Hypothesis ld_D : ld <> Dl.
    Hypothesis ld_L : ld <> L.
    Definition target (w : world) : Prop := resolve' (w_fs w) (dest cfg pt) = Ok ld /\ w_fs w ld = None.
    Definition live (w : world) : Prop :=
      faultless w /\ tree (w_fs w) /\ w_fs w Dl = Some Dir /\ (exists b, w_fs w L = Some (File b)) /\ target w.
    Lemma L_place : place cfg (join ddir t) = L.
    Proof. now apply down_place. Qed.
    Lemma L_resolve w : tree (w_fs w) -> w_fs w Dl = Some Dir -> resolve' (w_fs w) (join ddir t) = Ok L.
    Proof. intros T D. apply resolve_plain; auto. apply resolve_normal; auto. now apply ddir_normal. Qed.
    Lemma fits p dp' o d f w : (dp' = [] \/ dp' = dp) -> reply_fits cfg (RWrite i p dp' o d f) w.
    Proof.
      intros H. split; auto. split; [destruct H as [->| ->]; auto using short_nil|]. intros t' b I E. rewrite id_ok in I. injection I as <-. congruence.
    Qed.
    Lemma target_mono w w' l n : target w -> w_fs w l <> Some Dir -> l <> ld -> w_fs w' = set_node (w_fs w) l n -> target w'.
    Proof.
      intros [T1 T2] N NL E. split; rewrite E.
      - eapply resolve_mono; [|exact T1]. now apply set_mono.
      - rewrite set_other; auto.
    Qed.
    Lemma stage2_live o d w : live w -> (Z.of_nat o < 2 ^ 63)%Z ->
      exists w', stage2 cfg (join ddir t) (Z.of_nat o) d w = (w', inl tt) /\ live w'.
    Proof.
      intros (FL & T & D & [b F] & TG) B. unfold stage2. destruct d as [|x d]; [exists w; split; [reflexivity|]; split; [exact FL|]; eauto|].
      unfold write_file, on_path. rewrite nf_none by assumption. rewrite L_resolve, F by assumption.
      destruct (Z.ltb_spec (Z.of_nat o) 0); [lia|]. destruct (Z.leb_spec max_off (Z.of_nat o)) as [X|_]; [unfold max_off in X; lia|].
      eexists. split; [reflexivity|]. split; [exact FL|]. split.
      { cbn. apply tree_set; auto. split; [congruence|]. split; [intros _; exact (resolve_parent cfg _ _ _ T (L_resolve _ T D))|discriminate]. }
      cbn [with_fs w_fs]. split; [rewrite set_other; auto; intros X; rewrite <- (app_nil_r Dl) in X at 1; now apply app_inv_head in X|].
      split; [rewrite set_same; eauto|]. eapply target_mono; [exact TG| | |reflexivity]; congruence.
    Qed.
    Lemma stage1_live w : faultless w -> tree (w_fs w) -> w_fs w (place cfg (temp cfg)) = Some Dir ->
      w_fs w Dl = None \/ w_fs w Dl = Some Dir -> w_fs w L <> Some Dir -> target w ->
      exists w', stage1 cfg i [] [] w = (w', inl (join ddir t)) /\ live w'.
    Proof.
      intros FL T TD DD LN TG. unfold stage1, bindM at 1, decode8. rewrite id_ok. cbn [ret].
      assert (TR : forall w, faultless w -> tree (w_fs w) -> w_fs w Dl = Some Dir -> w_fs w L <> Some Dir -> target w ->
        exists w', (let! _ := truncate cfg (join ddir t) in ret (join ddir t)) w = (w', inl (join ddir t)) /\ live w').
      { clear - ld_D ld_L temp_ok t_ok. intros w FL T D LN TG. unfold bindM, truncate, on_path. rewrite nf_none by assumption. rewrite L_resolve by assumption.
        exists (with_fs w (set_node (w_fs w) L (Some (File [])))). split.
        - destruct (w_fs w L) as [[b|]|]; [reflexivity|congruence|reflexivity].
        - split; [exact FL|]. split.
          { cbn. apply tree_set; auto. split; [congruence|]. split; [intros _; exact (resolve_parent cfg _ _ _ T (L_resolve _ T D))|discriminate]. }
          cbn [with_fs w_fs]. split; [rewrite set_other; auto; intros X; rewrite <- (app_nil_r Dl) in X at 1; now apply app_inv_head in X|].
          split; [rewrite set_same; eauto|]. eapply target_mono; [exact TG| | |reflexivity]; congruence. }
      pose proof (ddir_normal cfg temp_ok) as DN.
      unfold add_download. unfold bindM at 1, isdir. destruct DD as [DD|DD].
      - assert (RD : resolve' (w_fs w) ddir = Ok Dl).
        { rewrite D_eq by assumption. apply resolve_plain; auto; [|apply plain_lit]. now apply resolve_normal. }
        assert (ID : path_isdir (w_fs w) (cwd cfg) ddir = false) by (unfold path_isdir, lookup; rewrite RD, DD; reflexivity).
        rewrite ID. unfold bindM at 1, mkdir, on_path. rewrite nf_none by assumption. rewrite RD, DD. unfold put. cbv beta iota zeta. apply TR.
        + exact FL.
        + cbn. apply tree_set; auto. split; [congruence|]. split; [intros _; exact (resolve_parent cfg _ _ _ T RD)|discriminate].
        + apply set_same.
        + cbn [with_fs w_fs]. rewrite set_other; auto. intros X. rewrite <- (app_nil_r Dl) in X at 2. now apply app_inv_head in X.
        + eapply target_mono; [exact TG| | |reflexivity]; congruence.
      - assert (ID : path_isdir (w_fs w) (cwd cfg) ddir = true) by (eapply resolve_dir; [apply resolve_normal; auto|auto]).
        rewrite ID. unfold bindM at 1, ret at 1. cbv zeta. now apply TR.
    Qed.
    Lemma path_next p : utf8_decode p = Some pt -> forall w, live w ->
      exists w', copy_download cfg (join ddir t) p w = (w', inl tt) /\ w_fs w' ld = w_fs w L.
    Proof.
      intros DP w (FL & T & D & [b F] & [R N]).
      assert (EX : path_exists (w_fs w) (cwd cfg) (dest cfg pt) = false) by (unfold path_exists, lookup; now rewrite R, N).
      assert (Q : place cfg (dest cfg pt) = ld) by (symmetry; now apply resolve_place in R).
      destruct (copy_download_cases cfg (join ddir t) p pt w DP) as [(q & [C1 C2] & _ & EQ)|[(d1 & n1 & b1 & x1 & _ & _ & X & _) _]]; [|cbv zeta in X; congruence].
      assert (q = dest cfg pt) as ->.
      { destruct C2 as [C2|(d1 & n1 & b1 & x1 & k1 & _ & _ & X & _)]; auto. cbv zeta in X. congruence. }
      assert (W1 : below L ld = None).
      { apply below_none. intros W. destruct (resolve_parent cfg _ _ _ T R N) as (dd & x & E1 & E2).
        destruct W as [r W]. destruct r as [|y r] using rev_ind; [rewrite app_nil_r in W; congruence|clear IHr].
        rewrite W, app_assoc in E1. apply app_inj_tail in E1. destruct E1 as [E1 _].
        destruct (tree_within (w_fs w) L dd T) as [Y|Y]; [now exists r|congruence|congruence|congruence]. }
      assert (W2 : below ld L = None).
      { apply below_none. intros W. destruct (tree_within (w_fs w) ld L T W) as [Y|Y]; congruence. }
      assert (RN : rename cfg (join ddir t) (dest cfg pt) w = (with_fs w (move (w_fs w) L ld), inl tt)).
      { unfold rename, on_path. rewrite nf_none by assumption. rewrite L_resolve, F by assumption. rewrite R.
        destruct (loc_eqb_spec L ld); [congruence|]. now rewrite W1, W2, N. }
      exists (with_fs w (move (w_fs w) L ld)). rewrite EQ. unfold store, catch. rewrite RN. split; auto. cbn.
      unfold move. assert (B : below ld ld = Some []) by (apply below_spec; now rewrite app_nil_r). rewrite B. now rewrite app_nil_r.
    Qed.
    Lemma live_fs w w' : w_fs w' = w_fs w -> w_faults w' = w_faults w -> live w -> live w'.
    Proof. unfold live, target, faultless. intros -> ->. auto. Qed.
    Lemma first_live p o d w : (Z.of_nat o < 2 ^ 63)%Z ->
      faultless w -> tree (w_fs w) -> w_fs w (place cfg (temp cfg)) = Some Dir ->
      w_fs w Dl = None \/ w_fs w Dl = Some Dir -> w_fs w L <> Some Dir -> target w ->
      exists w', replied cfg (RWrite i p [] (Z.of_nat o) d 0) w w' 0 /\ live w'.
    Proof.
      intros B FL T TD DD LN TG. destruct (stage1_live w FL T TD DD LN TG) as (w1 & S1 & L1). destruct (stage2_live o d w1 L1 B) as (w2 & S2 & L2).
      destruct (on_write_cases cfg msgs i p [] (Z.of_nat o) d 0 w [] temp_enc (fits p [] _ _ _ _ (or_introl eq_refl)) eq_refl) as (v & q & w' & A1 & WR & A2 & A3 & A4 & A5).
      exists w'. destruct WR as [dt w1' e r D X1|dt w1' s dp' w2' e r w3' D X1 X2 X3|dt w1' s dp' w2' w3' e r D X1 X2 X3 X4|dt w1' s dp' w2' w3' D X1 X2 X3 X4];
        cbn in D; injection D as <-; rewrite S1 in X1; try discriminate; injection X1 as <- <-; rewrite S2 in X3; try discriminate; injection X3 as <-;
        cbn in X4; try discriminate. injection X4 as <-. split.
      - eexists. split; [exact A1|]. split; [exact A4|]. repeat split; auto.
      - now apply (live_fs w2).
    Qed.
    Lemma next_live p o d w : (Z.of_nat o < 2 ^ 63)%Z -> live w ->
      exists w', replied cfg (RWrite i p dp (Z.of_nat o) d 0) w w' 0 /\ live w'.
    Proof.
      intros B L1. destruct (stage2_live o d w L1 B) as (w2 & S2 & L2). destruct (dp_path dp t dp_ok) as [DD NN].
      destruct (on_write_cases cfg msgs i p dp (Z.of_nat o) d 0 w _ temp_enc (fits p dp _ _ _ _ (or_intror eq_refl)) DD) as (v & q & w' & A1 & WR & A2 & A3 & A4 & A5).
      assert (S1 : stage1 cfg i dp (join ddir t) w = (w, inl (join ddir t))) by (unfold stage1; destruct (join ddir t); [congruence|reflexivity]).
      exists w'. destruct WR as [dt w1' e r D X1|dt w1' s dp' w2' e r w3' D X1 X2 X3|dt w1' s dp' w2' w3' e r D X1 X2 X3 X4|dt w1' s dp' w2' w3' D X1 X2 X3 X4];
        rewrite DD in D; injection D as <-; rewrite S1 in X1; try discriminate; injection X1 as <- <-; rewrite S2 in X3; try discriminate; injection X3 as <-;
        cbn in X4; try discriminate. injection X4 as <-. split.
      - eexists. split; [exact A1|]. split; [exact A4|]. repeat split; auto.
      - now apply (live_fs w2).
    Qed.
    Lemma writing_live cs : Forall (fun c => (Z.of_nat (fst c) < 2 ^ 63)%Z) cs -> forall w, live w ->
      exists w', writing cfg (place cfg (join ddir t)) i dp cs w w' /\ live w'.
    Proof.
      induction 1 as [|[o d] cs B FA IH]; intros w LV; [exists w; split; [apply wr_nil|auto]|].
      destruct (next_live [] o d w B LV) as (w1 & R & L1). destruct (IH w1 L1) as (w' & WR & L2). exists w'. split; auto. eapply wr_chunk; eauto.
    Qed.
    Lemma final_live p o d f w : utf8_decode p = Some pt -> (Z.of_nat o < 2 ^ 63)%Z -> f <> 0%Z -> live w ->
      exists w', replied cfg (RWrite i p dp (Z.of_nat o) d f) w w' 0.
    Proof.
      intros DP B FZ L1. destruct (stage2_live o d w L1 B) as (w2 & S2 & L2). destruct (dp_path dp t dp_ok) as [DD NN].
      destruct (path_next p DP w2 L2) as (w3 & S3 & _).
      destruct (on_write_cases cfg msgs i p dp (Z.of_nat o) d f w _ temp_enc (fits p dp _ _ _ _ (or_intror eq_refl)) DD) as (v & q & w' & A1 & WR & A2 & A3 & A4 & A5).
      assert (S1 : stage1 cfg i dp (join ddir t) w = (w, inl (join ddir t))) by (unfold stage1; destruct (join ddir t); [congruence|reflexivity]).
      assert (S3' : stage3 cfg (join ddir t) p f w2 = (w3, inl tt)) by (unfold stage3; destruct (Z.eqb_spec f 0); [contradiction|auto]).
      exists w'. destruct WR as [dt w1' e r D X1|dt w1' s dp' w2' e r w3' D X1 X2 X3|dt w1' s dp' w2' w3' e r D X1 X2 X3 X4|dt w1' s dp' w2' w3' D X1 X2 X3 X4];
        rewrite DD in D; injection D as <-; rewrite S1 in X1; try discriminate; injection X1 as <- <-; rewrite S2 in X3; try discriminate; injection X3 as <-;
        rewrite S3' in X4; try discriminate.
      eexists. split; [exact A1|]. split; [exact A4|]. repeat split; auto.
    Qed.
  End Live.
End Cfg.
