From Verif Require Import Py Py_lemmas Model_Bencode Model_Packets Model_Path Model_Remote Spec_Remote Proof_Path Proof_Remote.

(** ** Instances of the relations *)
Definition Frame (P : loc -> Prop) (w w' : world) : Prop := forall l, ~ P l -> w_fs w' l = w_fs w l.
Definition Silent (w w' : world) : Prop := w_sent w' = w_sent w.
Definition Trees (w w' : world) : Prop := tree (w_fs w) -> tree (w_fs w').
Definition Keep (L : loc) (b : bytes) (w w' : world) : Prop :=
  tree (w_fs w) /\ w_fs w L = Some (File b) -> tree (w_fs w') /\ w_fs w' L = Some (File b).
(** Whatever exists outside [s] stays as it is *)
Definition Others (s : loc) (w w' : world) : Prop := tree (w_fs w) ->
  tree (w_fs w') /\ forall l, ~ within s l -> w_fs w l <> None -> w_fs w' l = w_fs w l.

Lemma pre_frame P : pre (Frame P).
Proof. split; unfold Frame; [intros; congruence|]. intros a b c H1 H2 l N. rewrite H2, H1; auto. Qed.
Lemma pre_silent : pre Silent.
Proof. split; unfold Silent; intros; congruence. Qed.
Lemma pre_trees : pre Trees.
Proof. split; unfold Trees; [intros; congruence|auto]. Qed.
Lemma pre_keep L b : pre (Keep L b).
Proof. split; unfold Keep; [intros w w' H _; now rewrite H|auto]. Qed.
Lemma pre_others s : pre (Others s).
Proof.
  split; unfold Others; [intros w w' H _ T; rewrite <- H; auto|].
  intros a b c H1 H2 T. destruct (H1 T) as [T1 K1]. destruct (H2 T1) as [T2 K2]. split; auto.
  intros l N E. rewrite K2, K1; auto. rewrite K1; auto.
Qed.

(** Trees *)
Lemma tree_set f l n : tree f -> legal f l n -> tree (set_node f l n).
Proof.
  intros T (L1 & L2 & L3). specialize (L2 T). destruct T as [T0 T1]. split.
  - rewrite set_other; auto. intros <-. congruence.
  - intros d x H. destruct (loc_eqb_spec (d ++ [x]) l) as [E|E].
    + subst l. assert (D : f d = Some Dir).
      { destruct (f (d ++ [x])) eqn:F; [apply (T1 d x); congruence|]. destruct (L2 F) as (d' & x' & E & D).
        apply app_inj_tail in E. destruct E; now subst. }
      rewrite set_other; auto. intros E. apply (f_equal (@length text)) in E. rewrite app_length in E. cbn in E. lia.
    + rewrite set_other in H by assumption. specialize (T1 d x H). rewrite set_other; auto. intros <-. congruence.
Qed.
Lemma tree_move f s d : tree f -> legal_move f s d -> tree (move f s d).
Proof.
  intros T (L1 & L2 & L3 & L4 & L5 & L6 & L7). specialize (L6 T). assert (T' := T). destruct T as [T0 T1].
  assert (Ds : d <> []) by (intros ->; congruence).
  assert (Ss : s <> []) by (intros ->; apply L3; now exists d).
  split.
  - unfold move. destruct (below d []) eqn:B; [apply below_spec in B; symmetry in B; apply app_eq_nil in B; tauto|].
    destruct (below s []) eqn:B2; [apply below_spec in B2; symmetry in B2; apply app_eq_nil in B2; tauto|]. exact T0.
  - intros l x. unfold move. destruct (below d (l ++ [x])) as [r|] eqn:B.
    + apply below_spec in B. intros H. destruct r as [|y r] using rev_ind; [clear H|clear IHr].
      * rewrite app_nil_r in B. assert (D : f l = Some Dir).
        { destruct (f d) eqn:F; [apply (T1 l x); congruence|]. destruct (L6 F) as (d' & x' & E & D). rewrite <- B in E.
          apply app_inj_tail in E. destruct E; now subst. }
        destruct (below d l) as [r|] eqn:B2.
        { apply below_spec in B2. apply (f_equal (@length text)) in B2. rewrite <- B, !app_length in B2. cbn in B2. lia. }
        destruct (below s l) as [r|] eqn:B3; auto. exfalso. apply L3. apply below_spec in B3. exists (r ++ [x]). now rewrite <- B, B3, app_assoc.
      * rewrite app_assoc in B. apply app_inj_tail in B. destruct B as [-> ->].
        destruct (below d (d ++ r)) as [r2|] eqn:B2.
        -- apply below_spec in B2. apply app_inv_head in B2. subst r2. apply (T1 (s ++ r) y). now rewrite <- app_assoc.
        -- apply below_none in B2. exfalso. apply B2. now exists r.
    + destruct (below s (l ++ [x])) as [r|] eqn:B2; [congruence|]. intros H. specialize (T1 l x H).
      apply below_none in B. apply below_none in B2.
      destruct (below d l) as [r|] eqn:B3.
      { exfalso. apply B. apply below_spec in B3. exists (r ++ [x]). now rewrite app_assoc, <- B3. }
      destruct (below s l) as [r|] eqn:B4; auto. exfalso. apply B2. apply below_spec in B4. exists (r ++ [x]). now rewrite app_assoc, <- B4.
Qed.
Lemma move_other f s d l : ~ within s l -> ~ within d l -> move f s d l = f l.
Proof. intros H1 H2. unfold move. apply below_none in H1, H2. now rewrite H2, H1. Qed.
Lemma none_above f d l : tree f -> f d = None -> f l <> None -> ~ within d l.
Proof. intros T N E W. destruct (tree_within f d l T W E); congruence. Qed.

Section Cfg.
  Variable cfg : config.
  Notation here p := (at_path cfg p).

  Lemma ed_frame (P : loc -> Prop) p : P (place cfg p) -> edits (Frame P) (here p).
  Proof. intros H w l n <- _ x N. cbn. apply set_other. intros ->. contradiction. Qed.
  Lemma ed_silent P : edits Silent P.
  Proof. intros w l n _ _. reflexivity. Qed.
  Lemma ed_trees P : edits Trees P.
  Proof. intros w l n _ L T. cbn. now apply tree_set. Qed.
  Lemma ed_keep L b p : place cfg p <> L -> edits (Keep L b) (here p).
  Proof. intros H w l n <- LG [T F]. cbn. split; [now apply tree_set|]. rewrite set_other; auto. Qed.
  Lemma ed_others s p : within s (place cfg p) -> edits (Others s) (here p).
  Proof.
    intros H w l n <- LG T. cbn. split; [now apply tree_set|]. intros x N E. apply set_other. intros ->. contradiction.
  Qed.
  Lemma nm_frame (P : loc -> Prop) s d : (forall l, within (place cfg s) l -> P l) -> (forall l, within (place cfg d) l -> P l) ->
    new_moves cfg (Frame P) s d.
  Proof. intros H1 H2 w _ _ l N. cbn. apply move_other; auto. Qed.
  Lemma nm_silent s d : new_moves cfg Silent s d.
  Proof. intros w _ _. reflexivity. Qed.
  Lemma nm_trees s d : new_moves cfg Trees s d.
  Proof. intros w _ L T. cbn. now apply tree_move. Qed.
  Lemma nm_keep L b s d : ~ within (place cfg s) L -> new_moves cfg (Keep L b) s d.
  Proof.
    intros H w N LG [T F]. cbn. split; [now apply tree_move|]. rewrite move_other; auto. apply (none_above (w_fs w)); auto. congruence.
  Qed.
  Lemma nm_others s d : new_moves cfg (Others (place cfg s)) s d.
  Proof.
    intros w N LG T. cbn. split; [now apply tree_move|]. intros l H E. apply move_other; auto. now apply (none_above (w_fs w)).
  Qed.
  Lemma cr_frame (P : loc -> Prop) d : P (place cfg d) -> creates cfg (Frame P) d.
  Proof. intros H w b _ _ l N. cbn. apply set_other. intros ->. contradiction. Qed.
  Lemma cr_silent d : creates cfg Silent d.
  Proof. intros w b _ _. reflexivity. Qed.
  Lemma cr_legal f l b : tree f -> f l = None -> (tree f -> parent_ok f l) -> legal f l (Some (File b)).
  Proof. intros T N H. repeat split; auto; congruence. Qed.
  Lemma cr_trees d : creates cfg Trees d.
  Proof. intros w b N H T. cbn. apply tree_set; auto using cr_legal. Qed.
  Lemma cr_keep L b d : creates cfg (Keep L b) d.
  Proof. intros w c N H [T F]. cbn. split; [apply tree_set; auto using cr_legal|]. rewrite set_other; auto. intros ->. congruence. Qed.
  Lemma cr_others s d : creates cfg (Others s) d.
  Proof. intros w c N H T. cbn. split; [apply tree_set; auto using cr_legal|]. intros l _ E. apply set_other. intros ->. congruence. Qed.

  (** ** Normal paths *)
  Lemma nul_false p : ~ In 0%N p <-> nul p = false.
  Proof.
    unfold nul. split.
    - intros H. destruct (existsb _ p) eqn:E; auto. exfalso. apply H. apply existsb_exists in E. destruct E as (x & I & X).
      apply N.eqb_eq in X. now subst.
    - intros H I. assert (X : existsb (fun c => (c =? 0)%N) p = true) by (apply existsb_exists; exists 0%N; auto). congruence.
  Qed.
  Lemma walk_normal f cs : tree f -> ~ In [dot; dot] cs -> forall cur, f (norm cur cs) = Some Dir -> walk f cur cs = Some (norm cur cs).
  Proof.
    intros T. induction cs as [|c cs IH]; intros N cur H; [reflexivity|].
    assert (N' : ~ In [dot; dot] cs) by (intros X; apply N; now right).
    assert (D : f cur = Some Dir).
    { pose proof (norm_no_backref _ N cur) as [r W]. rewrite W in H. destruct r as [|y r]; [now rewrite app_nil_r in H|].
      apply (tree_above f cur (y :: r) T); [rewrite H|]; discriminate. }
    cbn in *. rewrite D. destruct (text_eqb c [] || text_eqb c [dot]); [now apply IH|].
    destruct (text_eqb_spec c [dot; dot]); [subst; exfalso; apply N; now left|]. now apply IH.
  Qed.
  Lemma resolve_normal f p : tree f -> normal p -> f (place cfg p) = Some Dir -> resolve f (cwd cfg) p = Ok (place cfg p).
  Proof.
    intros T (A & NB & NN) D. apply nul_false in NN. rewrite place_abs in * by assumption. unfold resolve. unfold nul in NN. rewrite NN.
    destruct A as [r ->]. change (is_slash slash) with true. cbv iota. rewrite walk_normal; auto.
  Qed.
  Lemma normal_not_nil p : normal p -> p <> [].
  Proof. intros ([r ->] & _). discriminate. Qed.
  Lemma backref_join a b : a <> [] -> ~ absolute b -> ~ has_backref a -> ~ has_backref b -> ~ has_backref (join a b).
  Proof.
    intros Ha Hb N1 N2 H. unfold has_backref in *.
    destruct (join_split a b Hb Ha) as (k & [[E _]|(a' & E1 & E2 & _)]).
    - rewrite E in H. apply in_app_or in H. tauto.
    - rewrite E2 in H. apply in_app_or in H. destruct H; auto. apply N1. rewrite E1, split_sep_app. apply in_or_app. auto.
  Qed.
  Lemma plain_backref n : plain n -> ~ has_backref n.
  Proof. intros (A1 & A2 & A3 & A4 & A5) H. unfold has_backref in H. rewrite split_sep_plain in H by assumption. destruct H as [H|[]]. congruence. Qed.
  Lemma normal_join a n : normal a -> plain n -> normal (join a n).
  Proof.
    intros NA P. assert (NA' := NA). destruct NA' as (A & NB & NN). repeat split.
    - now apply join_abs.
    - apply backref_join; auto using plain_rel, plain_backref. now apply normal_not_nil.
    - apply nul_false. destruct (nul (join a n)) eqn:E; auto. apply nul_join in E. apply plain_nul in P. apply nul_false in NN. unfold nul in *. destruct E; congruence.
  Qed.
  Lemma plain_lit : plain (T "dataplicity_remote") /\ plain (T "dataplicity_remote_downloads").
  Proof. split; (repeat split; try discriminate); cbn; intros H; repeat (destruct H as [H|H]; [discriminate|]); exact H. Qed.

  Variable temp_ok : normal (temp cfg).
  Notation sdir := (snapshot_dir cfg).
  Notation ddir := (download_dir cfg).
  Notation Sl := (place cfg (snapshot_dir cfg)).
  Notation Dl := (place cfg (download_dir cfg)).
  Lemma sdir_normal : normal sdir.
  Proof. apply normal_join; auto. apply plain_lit. Qed.
  Lemma ddir_normal : normal ddir.
  Proof. apply normal_join; auto. apply plain_lit. Qed.
  Lemma S_eq : Sl = place cfg (temp cfg) ++ [T "dataplicity_remote"].
  Proof. apply place_plain; [now apply normal_not_nil|apply plain_lit]. Qed.
  Lemma D_eq : Dl = place cfg (temp cfg) ++ [T "dataplicity_remote_downloads"].
  Proof. apply place_plain; [now apply normal_not_nil|apply plain_lit]. Qed.
  Lemma snap_place u : plain u -> place cfg (join sdir u) = Sl ++ [u].
  Proof. intros P. apply place_plain; auto. apply normal_not_nil, sdir_normal. Qed.
  Lemma down_place u : plain u -> place cfg (join ddir u) = Dl ++ [u].
  Proof. intros P. apply place_plain; auto. apply normal_not_nil, ddir_normal. Qed.
  Lemma S_not_D_child u : Sl ++ [u] <> Dl.
  Proof. rewrite S_eq, D_eq. intros H. apply (f_equal (@length text)) in H. rewrite !app_length in H. cbn in H. lia. Qed.
  Lemma S_D_disjoint l : within Sl l -> ~ within Dl l.
  Proof.
    rewrite S_eq, D_eq. intros [r ->] [r' H]. rewrite <- !app_assoc in H. apply app_inv_head in H. cbn in H. discriminate H.
  Qed.

  (** ** Snapshots *)
  (** Successful open *)
  Lemma getsize_ok p w w' n : getsize cfg p w = (w', inl n) -> w_fs w' = w_fs w /\
    forall b, w_fs w (place cfg p) = Some (File b) -> n = Z.of_nat (length b).
  Proof.
    intros E. split.
    { pose proof (st_getsize cfg (fun w w' => w_fs w' = w_fs w)) as H. specialize (H ltac:(split; intros; congruence) p w). now rewrite E in H. }
    revert E. unfold getsize, on_path. pose proof (nf_fs w) as F. destruct (next_fault w) as [x w1]. cbn in F.
    destruct x as [[|k]|]; cbn; try discriminate.
    { destruct (resolve (w_fs w1) (cwd cfg) p); discriminate. }
    destruct (resolve (w_fs w1) (cwd cfg) p) as [l| |] eqn:R; try discriminate. apply resolve_place in R. subst l. rewrite F.
    intros E b Hb. rewrite Hb in E. unfold ret in E. congruence.
  Qed.
  Lemma snapshot_frame u w w' s : get_snapshot_path cfg u w = (w', inl s) ->
    forall l, w_fs w' l = w_fs w l \/ (l = Sl /\ w_fs w l = None /\ w_fs w' l = Some Dir).
  Proof.
    unfold get_snapshot_path, catch, bindM, isdir. destruct (path_isdir _ _ _); [cbn; intros [= <- _]; auto|].
    destruct (mkdir cfg (snapshot_dir cfg) w) as [w2 [a|e]] eqn:M; [|discriminate]. cbn. intros [= <- _] l. revert M.
    unfold mkdir, on_path. pose proof (nf_fs w) as F. destruct (next_fault w) as [x w1]. cbn in F.
    destruct x as [[|k]|]; cbn; try discriminate.
    { destruct (resolve (w_fs w1) (cwd cfg) _); discriminate. }
    destruct (resolve (w_fs w1) (cwd cfg) _) as [l'| |] eqn:R; try discriminate. apply resolve_place in R. subst l'.
    destruct (w_fs w1 Sl) eqn:N; [cbn; discriminate|]. cbn. intros [= <- _]. cbn. unfold set_node. destruct (loc_eqb_spec l Sl).
    - subst. right. rewrite <- F. auto.
    - left. congruence.
  Qed.
  Lemma check_space_fs p w : w_fs (fst (check_space cfg p w)) = w_fs w.
  Proof. apply (st_check_space cfg (fun w w' => w_fs w' = w_fs w)). split; intros; congruence. Qed.
  Lemma add_upload_ok p u w w' n : add_upload cfg p u w = (w', inl n) ->
    exists fp b, upload_file cfg p w = (w, inl fp) /\ w_fs w (place cfg fp) = Some (File b) /\
      place cfg fp <> place cfg (join sdir u) /\
      w_fs w' (place cfg (join sdir u)) = Some (File b) /\ n = Z.of_nat (length b) /\
      (forall l, l <> Sl -> l <> place cfg (join sdir u) -> w_fs w' l = w_fs w l) /\
      starts_with (temp cfg) (join sdir u) = true.
  Proof.
    unfold add_upload, bindM at 1. intros H.
    assert (U : fst (upload_file cfg p w) = w).
    { unfold upload_file. destruct (starts_with _ p); [destruct (text_eqb _ _); reflexivity|]. destruct (_ || _); reflexivity. }
    destruct (upload_file cfg p w) as [w1 [fp|e]]; [|discriminate]. cbn in U. subst w1.
    unfold bindM at 1 in H. pose proof (check_space_fs fp w) as F1. destruct (check_space cfg fp w) as [w1 [[]|e]]; [|discriminate]. cbn in F1.
    unfold bindM at 1 in H. destruct (get_snapshot_path cfg u w1) as [w2 [s|e]] eqn:G; [|discriminate].
    pose proof (snapshot_frame _ _ _ _ G) as F2. apply snapshot_value in G. subst s.
    destruct (starts_with (temp cfg) (join (snapshot_dir cfg) u)) eqn:SW; cbn in H; [|discriminate].
    unfold catch, bindM in H. destruct (copyfile_cases cfg fp (join (snapshot_dir cfg) u) w2) as [_ C].
    destruct (copyfile cfg fp (join (snapshot_dir cfg) u) w2) as [w3 [a|e]]; [|discriminate]. cbn in C.
    destruct C as [[_ C]|(_ & R2 & C1 & C2 & b & b' & C3 & C4 & C5 & _)]; [now destruct a|].
    rewrite C5 in C4 by (now destruct a). clear C5 b'.
    destruct (getsize cfg (join (snapshot_dir cfg) u) w3) as [w4 [z|e]] eqn:GS; [|discriminate]. injection H as <- <-.
    destruct (getsize_ok _ _ _ _ GS) as [F4 Z].
    exists fp, b. repeat split.
    - destruct (F2 (place cfg fp)) as [E|(_ & _ & E)]; congruence.
    - exact C1.
    - rewrite F4, C4. apply set_same.
    - apply Z. rewrite C4. apply set_same.
    - intros l N1 N2. rewrite F4, C4, set_other by assumption. destruct (F2 l) as [E|(E & _)]; congruence.
  Qed.

  (** The file copied *)
  Lemma upload_file_ok p w fp : absolute (root cfg) -> upload_file cfg p w = (w, inl fp) ->
    (p = 0%N :: T "scan.json" /\ fp = join (tmpdir cfg) (T "__dataplicity_remote_directory_scan___.json")) \/
    (fp = join (root cfg) (lstrip_slash p) /\ ~ has_backref fp /\ within (place cfg (root cfg)) (place cfg fp)).
  Proof.
    intros A. unfold upload_file. destruct (starts_with [0%N] p) eqn:E.
    - destruct (text_eqb_spec p (0%N :: T "scan.json")); [|discriminate]. intros [= <-]. auto.
    - destruct (validate_path _) eqn:V; [|discriminate]. destruct (starts_with (root cfg) _) eqn:SW; [|discriminate]. cbn. intros [= <-]. right.
      assert (NB : ~ has_backref (join (root cfg) (lstrip_slash p))).
      { unfold validate_path in V. apply negb_true_iff in V. intros H. unfold has_backref in H.
        assert (X : existsb (text_eqb [dot; dot]) (split_sep (join (root cfg) (lstrip_slash p))) = true).
        { apply existsb_exists. exists [dot; dot]. split; auto. }
        congruence. }
      split; auto. split; auto.
      assert (R : root cfg <> []) by (destruct A as [r ->]; discriminate).
      rewrite place_join by (auto using lstrip_rel). apply norm_no_backref. intros I. apply NB. unfold has_backref.
      destruct (join_split (root cfg) (lstrip_slash p) (lstrip_rel p) R) as (k & [[X _]|(a' & X1 & X2 & _)]).
      + rewrite X. apply in_or_app. auto.
      + rewrite X2. apply in_or_app. auto.
  Qed.
  Lemma backref_refused p w u : root cfg <> [] -> has_backref p -> add_upload cfg p u w = (w, inr RIllegal).
  Proof.
    intros R H. unfold add_upload, bindM at 1. assert (X : upload_file cfg p w = (w, inr RIllegal)); [|now rewrite X].
    unfold upload_file. destruct (starts_with [0%N] p) eqn:E.
    { destruct (text_eqb_spec p (0%N :: T "scan.json")) as [->|]; [|reflexivity]. exfalso. revert H. unfold has_backref. vm_compute. intros [X|[]]. discriminate. }
    destruct (validate_path (join (root cfg) (lstrip_slash p))) eqn:V; [|reflexivity].
    exfalso. unfold validate_path in V. apply negb_true_iff in V.
    assert (X : existsb (text_eqb [dot; dot]) (split_sep (join (root cfg) (lstrip_slash p))) = true); [|congruence].
    apply existsb_exists. exists [dot; dot]. split; [|reflexivity].
    destruct (lstrip_split p) as [k K]. unfold has_backref in H. rewrite K in H.
    assert (I : In [dot; dot] (split_sep (lstrip_slash p))).
    { apply in_app_or in H. destruct H as [H|H]; auto. apply repeat_spec in H. discriminate. }
    destruct (join_split (root cfg) (lstrip_slash p) (lstrip_rel p) R) as (j & [[X _]|(a' & X1 & X2 & _)]).
    - rewrite X. apply in_or_app. auto.
    - rewrite X2. apply in_or_app. auto.
  Qed.
End Cfg.
