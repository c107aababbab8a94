From Verif Require Import Py Py_lemmas Model_Packets Model_Path Model_Remote Spec_Remote Proof_Path.

Global Arguments join : simpl never.
Global Arguments snapshot_dir : simpl never.
Global Arguments download_dir : simpl never.

(** ** Relations between the states before and after *)
Definition steps {A} (R : world -> world -> Prop) (m : M A) : Prop := forall w, R w (fst (m w)).
Record pre (R : world -> world -> Prop) : Prop := Pre {
  pre_same : forall w w', w_fs w = w_fs w' -> w_sent w = w_sent w' -> R w w';
  pre_trans : forall a b c, R a b -> R b c -> R a c }.
Lemma pre_refl R : pre R -> forall w, R w w.
Proof. intros P w. now apply P. Qed.

Lemma st_ret R A (a : A) : pre R -> steps R (ret a).
Proof. intros P w. now apply pre_refl. Qed.
Lemma st_throw R A e : pre R -> steps R (throw (A := A) e).
Proof. intros P w. now apply pre_refl. Qed.
Lemma st_pure R A (r : res A) : pre R -> steps R (pure_res r).
Proof. intros P w. destruct r; now apply pre_refl. Qed.
Lemma st_decode R b : pre R -> steps R (decode8 b).
Proof. intros P w. unfold decode8. destruct (utf8_decode b); now apply pre_refl. Qed.
Lemma st_bind R A X (m : M A) (k : A -> M X) : pre R -> steps R m -> (forall a, steps R (k a)) -> steps R (bindM m k).
Proof.
  intros P H K w. unfold bindM. specialize (H w). destruct (m w) as [w' [a|e]]; cbn in *; auto.
  eapply pre_trans; eauto. apply K.
Qed.
Lemma st_catch R A (m : M A) h : pre R -> steps R m -> (forall e, steps R (h e)) -> steps R (catch m h).
Proof.
  intros P H K w. unfold catch. specialize (H w). destruct (m w) as [w' [a|e]]; cbn in *; auto.
  eapply pre_trans; eauto. apply K.
Qed.
Lemma st_attempt R A (m : M A) : steps R m -> steps R (attempt m).
Proof. intros H w. unfold attempt. specialize (H w). now destruct (m w). Qed.

Lemma nf_fs w : w_fs (snd (next_fault w)) = w_fs w.
Proof. unfold next_fault. now destruct (w_faults w). Qed.
Lemma nf_sent w : w_sent (snd (next_fault w)) = w_sent w.
Proof. unfold next_fault. now destruct (w_faults w). Qed.
Lemma nf_none w : faultless w -> next_fault w = (None, w).
Proof. unfold next_fault, faultless. now intros ->. Qed.

Section Cfg.
  Variable cfg : config.
  Notation resolve' f p := (resolve f (cwd cfg) p).

  Lemma st_exists R p : pre R -> steps R (exists_ cfg p).
  Proof. intros P w. now apply pre_refl. Qed.
  Lemma st_isdir R p : pre R -> steps R (isdir cfg p).
  Proof. intros P w. now apply pre_refl. Qed.
  Lemma st_on_path R A p (k : option nat -> loc -> option node -> M A) : pre R ->
    (forall w x l, resolve' (w_fs w) p = Ok l -> R w (fst (k x l (w_fs w l) w))) -> steps R (on_path cfg p k).
  Proof.
    intros P H w. unfold on_path. pose proof (nf_fs w) as F. pose proof (nf_sent w) as S. destruct (next_fault w) as [x w1]. cbn in F, S.
    destruct x as [[|n]|]; cbn; [apply P; congruence|..];
      (destruct (resolve (w_fs w1) (cwd cfg) p) as [l|e|] eqn:E; cbn; [|apply P; congruence|apply P; congruence];
       eapply pre_trans; [exact P|apply P; [symmetry; exact F|symmetry; exact S]|now apply H]).
  Qed.

  (** Legal changes of one node *)
  Definition parent_ok (f : fs) (l : loc) : Prop := f l = None -> exists d x, l = d ++ [x] /\ f d = Some Dir.
  Definition legal (f : fs) (l : loc) (n : option node) : Prop :=
    f l <> Some Dir /\ (tree f -> parent_ok f l) /\ (n = None -> f l <> None).
  Definition edits (R : world -> world -> Prop) (P : loc -> Prop) : Prop :=
    forall w l n, P l -> legal (w_fs w) l n -> R w (with_fs w (set_node (w_fs w) l n)).

  Lemma tree_removelast f l : tree f -> f l = Some Dir -> f (removelast l) = Some Dir.
  Proof.
    intros T H. destruct l as [|x l] using rev_ind; [exact H|]. rewrite removelast_last. apply (proj2 T l x). congruence.
  Qed.
  Lemma walk_parent f cs : forall cur l, tree f -> cs <> [] -> walk f cur cs = Some l -> parent_ok f l.
  Proof.
    induction cs as [|c cs IH]; intros cur l T N W; [congruence|]. cbn in W.
    destruct (f cur) as [[|]|] eqn:D; try discriminate.
    destruct cs as [|c' cs].
    - cbn in W. intros H. destruct (text_eqb c [] || text_eqb c [dot]); [congruence|].
      destruct (text_eqb c [dot; dot]).
      + injection W as <-. pose proof (tree_removelast _ _ T D). congruence.
      + injection W as <-. eauto.
    - destruct (text_eqb c [] || text_eqb c [dot]); [|destruct (text_eqb c [dot; dot])]; (eapply IH; [exact T|discriminate|exact W]).
  Qed.
  Lemma resolve_parent f p l : tree f -> resolve' f p = Ok l -> parent_ok f l.
  Proof.
    intros T. unfold resolve. destruct (existsb _ p); [discriminate|]. destruct p as [|c p]; [discriminate|].
    destruct (walk f _ _) eqn:E; [|discriminate]. intros [= <-]. eapply walk_parent; eauto. apply split_sep_not_nil.
  Qed.

  Section R.
    Variables (R : world -> world -> Prop) (HP : pre R).
    Let here (p : text) : loc -> Prop := eq (place cfg p).
    Ltac fin H E := apply H; [apply (resolve_place cfg _ _ _) in E; unfold here; congruence
                             |split; [congruence|split; [intros T; eapply resolve_parent; eauto|congruence]]].
    Lemma st_mkdir p : edits R (here p) -> steps R (mkdir cfg p).
    Proof.
      intros H. apply st_on_path; auto. intros w x l E. destruct x; [now apply pre_refl|].
      destruct (w_fs w l) eqn:N; [now apply pre_refl|]. cbn. fin H E.
    Qed.
    Lemma st_remove p : edits R (here p) -> steps R (remove cfg p).
    Proof.
      intros H. apply st_on_path; auto. intros w x l E. destruct x; [now apply pre_refl|].
      destruct (w_fs w l) as [[b|]|] eqn:N; try (now apply pre_refl). cbn. fin H E.
    Qed.
    Lemma st_getsize p : steps R (getsize cfg p).
    Proof.
      apply st_on_path; auto. intros w x l E. destruct x; [now apply pre_refl|].
      destruct (w_fs w l) as [[b|]|] eqn:N; now apply pre_refl.
    Qed.
    Lemma st_truncate p : edits R (here p) -> steps R (truncate cfg p).
    Proof.
      intros H. apply st_on_path; auto. intros w x l E. destruct x; [now apply pre_refl|].
      destruct (w_fs w l) as [[b|]|] eqn:N; try (now apply pre_refl); cbn; fin H E.
    Qed.
    Lemma st_read p o s : steps R (read_file cfg p o s).
    Proof.
      apply st_on_path; auto. intros w x l E. destruct x; [now apply pre_refl|].
      destruct (w_fs w l) as [[b|]|] eqn:N; try (now apply pre_refl). now apply st_pure.
    Qed.
    Lemma st_write p o d : edits R (here p) -> steps R (write_file cfg p o d).
    Proof.
      intros H. apply st_on_path; auto. intros w x l E.
      destruct (w_fs w l) as [[b|]|] eqn:N; try (now apply pre_refl).
      destruct (o <? 0)%Z; [now apply pre_refl|]. destruct (max_off <=? o)%Z; [now apply pre_refl|].
      destruct x; cbn; fin H E.
    Qed.
    Lemma st_copyfile s d : edits R (here d) -> steps R (copyfile cfg s d).
    Proof.
      intros H. apply st_on_path; auto. intros w x l E. destruct x; [now apply pre_refl|].
      destruct (w_fs w l) as [[b|]|] eqn:N; try (now apply pre_refl).
      apply st_on_path; auto. clear - H HP. intros w x l' E.
      destruct (loc_eqb l l'); [now apply pre_refl|]. destruct (w_fs w l') as [[b'|]|] eqn:N'; try (now apply pre_refl);
      destruct x; cbn; fin H E.
    Qed.
    Lemma st_copystat : steps R copystat.
    Proof.
      intros w. unfold copystat. pose proof (nf_fs w) as F. pose proof (nf_sent w) as S. destruct (next_fault w) as [x w1]. cbn in *.
      apply HP; congruence.
    Qed.

    (** Legal renames *)
    Definition legal_move (f : fs) (s d : loc) : Prop :=
      f s <> None /\ s <> d /\ ~ within s d /\ ~ within d s /\ f d <> Some Dir /\ (tree f -> parent_ok f d) /\
      (f s = Some Dir -> f d = None).
    Definition moves (s d : text) : Prop :=
      forall w, legal_move (w_fs w) (place cfg s) (place cfg d) -> R w (with_fs w (move (w_fs w) (place cfg s) (place cfg d))).
    Lemma rename_cases s d w :
      (w_fs (fst (rename cfg s d w)) = w_fs w /\ w_sent (fst (rename cfg s d w)) = w_sent w) \/
      (snd (rename cfg s d w) = inl tt /\ w_sent (fst (rename cfg s d w)) = w_sent w /\
       resolve' (w_fs w) s = Ok (place cfg s) /\ resolve' (w_fs w) d = Ok (place cfg d) /\
       legal_move (w_fs w) (place cfg s) (place cfg d) /\
       w_fs (fst (rename cfg s d w)) = move (w_fs w) (place cfg s) (place cfg d)).
    Proof.
      unfold rename, on_path. pose proof (nf_fs w) as F. pose proof (nf_sent w) as S. destruct (next_fault w) as [x w1]. cbn in F, S.
      destruct x as [[|n]|]; cbn; auto.
      { destruct (resolve (w_fs w1) (cwd cfg) s) as [l|e|]; cbn; auto. }
      destruct (resolve (w_fs w1) (cwd cfg) s) as [ls|e|] eqn:E; cbn; auto.
      destruct (w_fs w1 ls) as [a|] eqn:N; cbn; auto.
      destruct (resolve (w_fs w1) (cwd cfg) d) as [ld|e|] eqn:E2; cbn; auto.
      destruct (loc_eqb_spec ls ld); cbn; auto.
      destruct (below ls ld) eqn:B1; cbn; auto. destruct (below ld ls) eqn:B2; cbn; auto.
      assert (X : legal_move (w_fs w) ls ld \/ w_fs w ld = Some Dir \/ (a = Dir /\ exists b, w_fs w ld = Some (File b))).
      { rewrite F in *. destruct (w_fs w ld) as [[b|]|] eqn:N2; auto.
        - destruct a; [left|right; right; eauto]. unfold legal_move. rewrite N, N2. repeat split; try congruence; try (now apply below_none); intros T; eapply resolve_parent; eauto.
        - left. unfold legal_move. rewrite N, N2. repeat split; try congruence; try (now apply below_none); intros T; eapply resolve_parent; eauto. }
      pose proof (resolve_place cfg _ _ _ E). pose proof (resolve_place cfg _ _ _ E2). subst ls ld. rewrite F in *.
      destruct X as [X|[X|[-> [b X]]]].
      - right. assert (X' := X). destruct X' as (_ & _ & _ & _ & X5 & _ & X7).
        destruct (w_fs w (place cfg d)) as [[b|]|]; [|congruence|]; destruct a; cbn; repeat (split; [assumption || reflexivity|]); try assumption;
        try reflexivity; try (exfalso; specialize (X7 N); discriminate).
      - left. rewrite X. cbn. auto.
      - left. rewrite X. cbn. auto.
    Qed.
    Lemma st_rename s d : moves s d -> steps R (rename cfg s d).
    Proof.
      intros H w. destruct (rename_cases s d w) as [[A1 A2]|(_ & A2 & _ & _ & L & A3)].
      - apply HP; congruence.
      - eapply pre_trans; [exact HP|apply (H w L)|]. apply HP; cbn; congruence.
    Qed.

    Lemma st_send name args kw : (forall w p, R w (W (w_fs w) (w_faults w) (p :: w_sent w))) -> steps R (send name args kw).
    Proof.
      intros H. apply st_bind; auto using st_pure. intros p. apply st_bind; auto using st_pure. intros _ w. apply H.
    Qed.
  End R.

  (** ** The methods *)
  Section Methods.
    Variables (R : world -> world -> Prop) (HP : pre R).
    Definition at_path (p : text) : loc -> Prop := eq (place cfg p).
    Lemma st_snapshot_path u : edits R (at_path (snapshot_dir cfg)) -> steps R (get_snapshot_path cfg u).
    Proof.
      intros H. apply st_catch; auto using st_throw. apply st_bind; auto using st_isdir. intros []; apply st_bind; auto using st_ret, st_mkdir.
    Qed.
    Lemma st_add_download i : edits R (at_path (download_dir cfg)) -> edits R (at_path (join (download_dir cfg) i)) ->
      steps R (add_download cfg i).
    Proof.
      intros H1 H2. apply st_bind; auto using st_isdir. intros d. apply st_bind; auto.
      - destruct d; auto using st_ret, st_mkdir.
      - intros _. apply st_bind; auto using st_truncate, st_ret.
    Qed.
    Lemma st_check_space p : steps R (check_space cfg p).
    Proof.
      apply st_bind; auto.
      - apply st_catch; auto using st_ret. apply st_bind; auto.
        + unfold disk_usage. destruct (statvfs cfg) as [[[b s] f]|]; auto using st_ret, st_throw.
        + intros u. apply st_bind; auto using st_getsize, st_ret.
      - intros [[[t u] s]|]; auto using st_ret. destruct (_ <? _)%Z; auto using st_ret, st_throw.
    Qed.
    Lemma st_upload_file p : steps R (upload_file cfg p).
    Proof.
      unfold upload_file. destruct (starts_with _ _); [destruct (text_eqb _ _); auto using st_ret, st_throw|].
      destruct (_ || _); auto using st_ret, st_throw.
    Qed.
    Lemma snapshot_value u w w' s : get_snapshot_path cfg u w = (w', inl s) -> s = join (snapshot_dir cfg) u.
    Proof.
      unfold get_snapshot_path, catch, bindM, isdir. destruct (path_isdir _ _ _); cbn; [now intros [= _ <-]|].
      destruct (mkdir cfg (snapshot_dir cfg) w) as [w2 [?|?]]; cbn; [now intros [= _ <-]|discriminate].
    Qed.
    Lemma st_add_upload p u : edits R (at_path (snapshot_dir cfg)) -> edits R (at_path (join (snapshot_dir cfg) u)) ->
      steps R (add_upload cfg p u).
    Proof.
      intros H1 H2. apply st_bind; auto using st_upload_file. intros fp. apply st_bind; auto using st_check_space. intros _.
      intros w. unfold bindM at 1. pose proof (st_snapshot_path u H1 w) as X.
      destruct (get_snapshot_path cfg u w) as [w' [s|e]] eqn:E; cbn [fst] in *; auto.
      apply snapshot_value in E. subst s. destruct (negb _); cbn [fst throw]; auto. eapply pre_trans; eauto.
      refine (st_catch R _ _ _ HP _ _ w'); [|intros; now apply st_throw]. apply st_bind; auto using st_copyfile. intros _. now apply st_getsize.
    Qed.
    Lemma st_read_upload u o s : edits R (at_path (snapshot_dir cfg)) -> steps R (read_upload cfg u o s).
    Proof. intros H. apply st_bind; auto using st_snapshot_path. intros p. apply st_catch; auto using st_throw, st_read. Qed.
    Lemma st_close_upload u : edits R (at_path (snapshot_dir cfg)) -> edits R (at_path (join (snapshot_dir cfg) u)) -> steps R (close_upload cfg u).
    Proof.
      intros H1 H2 w. unfold close_upload, bindM at 1. pose proof (st_snapshot_path u H1 w) as X.
      destruct (get_snapshot_path cfg u w) as [w' [s|e]] eqn:E; cbn in *; auto.
      apply snapshot_value in E. subst s. eapply pre_trans; eauto. 
      assert (Y : steps R (let! e := exists_ cfg (join (snapshot_dir cfg) u) in
        if e then catch (remove cfg (join (snapshot_dir cfg) u)) (fun _ => ret tt) else ret tt)); [|apply Y].
      apply st_bind; auto using st_exists. intros [|]; auto using st_ret. apply st_catch; auto using st_ret, st_remove.
    Qed.
  End Methods.

  (** ** Storing a download *)
  Lemma not_exists f p l : path_exists f (cwd cfg) p = false -> resolve' f p = Ok l -> f l = None.
  Proof. unfold path_exists, lookup. intros H E. rewrite E in H. destruct (f l); congruence. Qed.
  Lemma copyfile_cases s d w :
    let w' := fst (copyfile cfg s d w) in
    w_sent w' = w_sent w /\
    (w_fs w' = w_fs w /\ snd (copyfile cfg s d w) <> inl tt \/
     resolve' (w_fs w) s = Ok (place cfg s) /\ resolve' (w_fs w) d = Ok (place cfg d) /\ place cfg s <> place cfg d /\
     w_fs w (place cfg d) <> Some Dir /\
     exists b b', w_fs w (place cfg s) = Some (File b) /\ w_fs w' = set_node (w_fs w) (place cfg d) (Some (File b')) /\
       (snd (copyfile cfg s d w) = inl tt -> b' = b) /\ exists k, b' = firstn k b).
  Proof.
    unfold copyfile, on_path. pose proof (nf_fs w) as F. pose proof (nf_sent w) as S. destruct (next_fault w) as [x w1]. cbn in F, S.
    destruct x as [[|n]|]; cbn; try (split; [assumption|left; split; [assumption|discriminate]]).
    { destruct (resolve (w_fs w1) (cwd cfg) s) as [l|e|]; cbn; (split; [assumption|left; split; [assumption|discriminate]]). }
    destruct (resolve (w_fs w1) (cwd cfg) s) as [ls|e|] eqn:E; cbn; try (split; [assumption|left; split; [assumption|discriminate]]).
    destruct (w_fs w1 ls) as [[b|]|] eqn:N; cbn; try (split; [assumption|left; split; [assumption|discriminate]]).
    pose proof (nf_fs w1) as F1. pose proof (nf_sent w1) as S1. destruct (next_fault w1) as [y w2]. cbn in F1, S1.
    rewrite <- S1 in S. 
    assert (FF : w_fs w2 = w_fs w) by congruence.
    destruct y as [[|n]|]; cbn; try (split; [assumption|left; split; [assumption|discriminate]]);
    (destruct (resolve (w_fs w2) (cwd cfg) d) as [ld|e|] eqn:E2; cbn; try (split; [assumption|left; split; [assumption|discriminate]]);
     destruct (loc_eqb_spec ls ld); cbn; try (split; [assumption|left; split; [assumption|discriminate]]);
     rewrite F in *; rewrite FF in *;
     pose proof (resolve_place cfg _ _ _ E); pose proof (resolve_place cfg _ _ _ E2); subst ls ld;
     destruct (w_fs w (place cfg d)) as [[b2|]|] eqn:N2; cbn; try (split; [assumption|left; split; [assumption|discriminate]]);
     (split; [assumption|right]; repeat (split; [assumption || discriminate|]); do 2 eexists; split; [exact N|];
      rewrite FF; split; [reflexivity|split; [intros X; try discriminate X; reflexivity|]];
      first [eexists; reflexivity|exists (length b); now rewrite firstn_all])).
  Qed.

  Section Store.
    Variables (R : world -> world -> Prop) (HP : pre R).
    Definition new_moves (s d : text) : Prop := forall w, w_fs w (place cfg d) = None ->
      legal_move (w_fs w) (place cfg s) (place cfg d) -> R w (with_fs w (move (w_fs w) (place cfg s) (place cfg d))).
    Definition creates (d : text) : Prop := forall w b, w_fs w (place cfg d) = None ->
      (tree (w_fs w) -> parent_ok (w_fs w) (place cfg d)) -> R w (with_fs w (set_node (w_fs w) (place cfg d) (Some (File b)))).
    Lemma rename_new s d w : path_exists (w_fs w) (cwd cfg) d = false -> new_moves s d ->
      R w (fst (rename cfg s d w)) /\
      (forall e, snd (rename cfg s d w) = inr e -> w_fs (fst (rename cfg s d w)) = w_fs w /\ w_sent (fst (rename cfg s d w)) = w_sent w).
    Proof.
      intros E H. destruct (rename_cases s d w) as [[A1 A2]|(A0 & A2 & A3 & A4 & L & A5)].
      - split; [apply HP; congruence|auto].
      - split; [|congruence]. eapply pre_trans; [exact HP|apply H; auto; eapply not_exists; eauto|]. apply HP; cbn; congruence.
    Qed.
    Lemma st_store s d w : path_exists (w_fs w) (cwd cfg) d = false -> new_moves s d -> creates d -> edits R (at_path s) ->
      R w (fst (catch (rename cfg s d) (fun _ => shutil_move cfg s d) w)).
    Proof.
      intros E H1 H2 H3. unfold catch. destruct (rename_new s d w E H1) as [X Y].
      destruct (rename cfg s d w) as [w1 [a|e]]; cbn in *; auto. destruct (Y e eq_refl) as [F S]. clear X Y.
      eapply pre_trans; [exact HP|apply HP; symmetry; eassumption|].
      unfold shutil_move, catch. rewrite <- F in E. destruct (rename_new s d w1 E H1) as [X Y].
      destruct (rename cfg s d w1) as [w2 [a|e2]]; cbn in *; auto. destruct (Y e2 eq_refl) as [F2 S2]. clear X Y.
      eapply pre_trans; [exact HP|apply HP; symmetry; eassumption|]. rewrite <- F2 in E.
      destruct e2 as [[]| | | | | |]; try (cbn; now apply pre_refl).
      unfold bindM at 1, isdir. destruct (path_isdir _ _ _); [cbn; now apply pre_refl|].
      unfold bindM at 1. destruct (copyfile_cases s d w2) as [C1 C2].
      assert (X : R w2 (fst (copyfile cfg s d w2))).
      { destruct C2 as [[C2 _]|(C3 & C4 & C5 & C6 & b & b' & C7 & C8 & _ & _)]; [apply HP; congruence|].
        eapply pre_trans; [exact HP|apply H2; [eapply not_exists; eauto|intros T; eapply resolve_parent; eauto]|].
        apply HP; cbn; [symmetry; exact C8|congruence]. }
      destruct (copyfile cfg s d w2) as [w3 [a|e3]]; cbn [fst] in X |- *; auto.
      eapply pre_trans; [exact HP|exact X|].
      refine (st_bind R _ _ _ _ HP _ _ w3); [now apply st_copystat|]. intros _. now apply st_remove.
    Qed.
  End Store.

  Lemma free_name_spec dirname basename ext fuel : forall tries dst w,
    let r := free_name cfg fuel tries dirname basename ext dst w in
    fst r = w /\
    (forall p, snd r = inl p -> path_exists (w_fs w) (cwd cfg) p = false /\
       (p = dst \/ exists n, tries < n <= tries + fuel /\ p = copy_name dirname basename ext n /\
           path_exists (w_fs w) (cwd cfg) dst = true /\
           forall k, tries < k < n -> path_exists (w_fs w) (cwd cfg) (copy_name dirname basename ext k) = true)) /\
    (forall e, snd r = inr e -> e = RTooMany /\ path_exists (w_fs w) (cwd cfg) dst = true /\
       forall k, tries < k <= tries + fuel -> path_exists (w_fs w) (cwd cfg) (copy_name dirname basename ext k) = true).
  Proof.
    induction fuel as [|fuel IH]; intros tries dst w; cbn [free_name]; unfold bindM, exists_; cbn;
      destruct (path_exists (w_fs w) (cwd cfg) dst) eqn:E; cbn; (split; [try reflexivity|]).
    - split; [discriminate|]. intros e [= <-]. repeat split; auto. intros k H. lia.
    - split; [|discriminate]. intros p [= <-]. auto.
    - apply IH.
    - destruct (IH (S tries) (copy_name dirname basename ext (S tries)) w) as (_ & I2 & I3). split.
      + intros p H. destruct (I2 p H) as [J1 J2]. split; auto. right.
        destruct J2 as [->|(n & K1 & K2 & K3 & K4)].
        * exists (S tries). repeat split; auto; try (intros k Hk; lia); lia.
        * exists n. repeat split; auto; try lia. intros k Hk. destruct (Nat.eq_dec k (S tries)); [now subst|]. apply K4. lia.
      + intros e H. destruct (I3 e H) as (J1 & J2 & J3). repeat split; auto. intros k Hk.
        destruct (Nat.eq_dec k (S tries)); [now subst|]. apply J3. lia.
    - split; [|discriminate]. intros p [= <-]. auto.
  Qed.

  Section Write.
    Variables (R : world -> world -> Prop) (HP : pre R).
    (** The names a download may be stored under *)
    Definition candidate (path : bytes) (d : text) : Prop := exists p, utf8_decode path = Some p /\
      let dest := join (root cfg) (lstrip_slash p) in
      d = dest \/ exists dirname n, (dirname = fst (path_split dest) \/ dirname = root cfg) /\
        d = copy_name dirname (fst (splitext (snd (path_split dest)))) (snd (splitext (snd (path_split dest)))) n.
    Lemma st_copy_download s path : (forall d, candidate path d -> new_moves R s d) -> (forall d, candidate path d -> creates R d) ->
      edits R (at_path s) -> steps R (copy_download cfg s path).
    Proof.
      intros H1 H2 H3 w0. unfold copy_download. unfold bindM at 1, decode8. destruct (utf8_decode path) as [p|] eqn:DP; [|cbn; now apply pre_refl].
      cbn [ret]. match goal with |- R w0 (fst (?m w0)) => assert (K : steps R m); [|apply K] end. clear w0.
      cbv zeta. destruct (path_split _) as [dirname filename] eqn:PS.
      apply st_bind; auto using st_isdir. intros d. destruct (splitext filename) as [basename ext] eqn:SE.
      intros w. unfold bindM.
      assert (C : forall q, q = join (root cfg) (lstrip_slash p) \/ (exists n, q = copy_name (if d then dirname else root cfg) basename ext n) -> candidate path q).
      { intros q C. exists p. split; auto. cbv zeta. rewrite PS. cbn [fst snd]. rewrite SE. cbn [fst snd]. destruct C as [C|[n C]]; auto.
        right. exists (if d then dirname else root cfg), n. destruct d; auto. }
      destruct (free_name_spec (if d then dirname else root cfg) basename ext 100 0 (join (root cfg) (lstrip_slash p)) w) as (A1 & A2 & _).
      destruct (free_name cfg 100 0 _ basename ext _ w) as [w1 [q|e]]; cbn [fst snd] in *; subst w1; [|now apply pre_refl].
      destruct (A2 q eq_refl) as [A3 A4]. assert (Q : candidate path q) by (apply C; destruct A4 as [A4|(n & _ & A4 & _)]; eauto).
      apply st_store; auto.
    Qed.
    Lemma download_value u w w' s : add_download cfg u w = (w', inl s) -> s = join (download_dir cfg) u.
    Proof.
      unfold add_download, bindM, isdir. destruct (path_isdir _ _ _); cbn.
      - destruct (truncate _ _ _) as [w2 [a|a]]; [now intros [= _ <-]|discriminate].
      - destruct (mkdir _ _ _) as [w2 [a|a]]; [|discriminate]. destruct (truncate _ _ _) as [w3 [b|b]]; [now intros [= _ <-]|discriminate].
    Qed.
    Lemma st_on_write i p d o x f : (forall w q, R w (W (w_fs w) (w_faults w) (q :: w_sent w))) ->
      edits R (at_path (download_dir cfg)) ->
      (forall t, utf8_decode i = Some t -> utf8_decode d = Some [] -> edits R (at_path (join (download_dir cfg) t))) ->
      (forall t, utf8_decode d = Some t -> t <> [] -> edits R (at_path t)) ->
      (forall s, (exists t, utf8_decode i = Some t /\ utf8_decode d = Some [] /\ s = join (download_dir cfg) t) \/ (utf8_decode d = Some s /\ s <> []) ->
         forall q, candidate p q -> new_moves R s q) ->
      (forall q, candidate p q -> creates R q) ->
      steps R (on_write cfg i p d o x f).
    Proof.
      intros HS H0 H1 H2 H3 H4. unfold on_write. intros w. unfold bindM at 1, decode8. destruct (utf8_decode d) as [t|] eqn:D; [|cbn; now apply pre_refl].
      cbn [ret].
      set (dev s := (exists t, utf8_decode i = Some t /\ utf8_decode d = Some [] /\ s = join (download_dir cfg) t) \/ (utf8_decode d = Some s /\ s <> [])).
      assert (E : forall s, dev s -> edits R (at_path s)).
      { intros s [(u & A & B & ->)|[A B]]; rewrite D in *; auto. }
      assert (M1 : forall w, R w (fst (attempt (match t with [] => let! t := decode8 i in add_download cfg t | _ => ret t end) w)) /\
         match snd (attempt (match t with [] => let! t := decode8 i in add_download cfg t | _ => ret t end) w) with
         | inl (inl s) => dev s | _ => True end).
      { intros w1. destruct t as [|c t].
        - unfold attempt, bindM, decode8. destruct (utf8_decode i) as [u|] eqn:I; cbn [ret throw fst snd]; [|split; auto; now apply pre_refl].
          assert (X : steps R (add_download cfg u)) by (apply st_add_download; auto).
          specialize (X w1). destruct (add_download cfg u w1) as [w2 [s|e]] eqn:A; cbn [fst snd] in *; (split; [exact X|]); auto. left. exists u. rewrite D. repeat split; auto.
          now apply download_value in A.
        - cbn. split; [now apply pre_refl|]. right. split; auto. discriminate. }
      unfold bindM at 1. destruct (M1 w) as [X Y]. destruct (attempt _ w) as [w1 [[s|e]|e]]; cbn [fst snd] in *; auto.
      - eapply pre_trans; [exact HP|exact X|]. clear X M1.
        assert (Z : steps R (copy_download cfg s p)) by (apply st_copy_download; auto; intros q CQ; apply H3; [|exact CQ]; first [exact Y|unfold dev in Y; rewrite D in Y; exact Y]).
        match goal with |- R w1 (fst (?m w1)) => assert (K : steps R m); [|apply K] end.
        apply st_bind; auto using st_pure. intros dp. apply st_bind; auto.
        + apply st_attempt. destruct x as [|x0 x]; [now apply st_ret|apply st_write; auto; exact (E s Y)].
        + intros [[]|e].
          * apply st_bind; auto.
            -- apply st_attempt. destruct (f =? 0)%Z; auto using st_ret.
            -- intros [[]|e]; apply st_send; auto.
          * apply st_bind; auto using st_send. intros _. apply st_catch; auto using st_ret. apply st_remove; auto. exact (E s Y).
      - eapply pre_trans; [exact HP|exact X|]. apply st_send; auto.
    Qed.
  End Write.
End Cfg.
