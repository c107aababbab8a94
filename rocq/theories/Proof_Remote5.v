From Verif Require Import Py Py_lemmas Model_Bencode Model_Packets Model_Path Model_Remote Spec_Remote Proof_Path Proof_Remote Proof_Remote2 Proof_Remote3 Proof_Remote4.

(** ** Folder and name, base and extension *)
Lemma rsplit_spec p : let '(h, t) := rsplit p in p = h ++ t /\ ~ In slash t /\ (h = [] \/ exists q, h = q ++ [slash]).
Proof.
  induction p as [|c p IH]; cbn; [auto|]. destruct (rsplit p) as [h t]. destruct IH as (E & N & H). destruct h as [|x h].
  - cbn in E. subst p. destruct (is_slash_spec c).
    + subst. repeat split; auto. right. exists []. reflexivity.
    + repeat split; auto. intros [X|X]; [congruence|tauto].
  - subst p. repeat split; auto. right. destruct H as [H|[q H]]; [discriminate|]. exists (c :: q). cbn. now rewrite H.
Qed.
Lemma lstrip_slashes l : exists k, l = repeat slash k ++ lstrip is_slash l /\ hd_error (lstrip is_slash l) <> Some slash.
Proof.
  induction l as [|c l IH]; [exists 0; split; [reflexivity|discriminate]|]. cbn. destruct (is_slash_spec c).
  - subst. destruct IH as (k & E & H). exists (S k). cbn. split; [now f_equal|auto].
  - exists 0. cbn. split; auto. congruence.
Qed.
Lemma repeat_rev {A} (x : A) k : rev (repeat x k) = repeat x k.
Proof.
  induction k as [|k IH]; [reflexivity|]. cbn. rewrite IH. clear IH. induction k; [reflexivity|]. cbn. now f_equal.
Qed.
Lemma rstrip_spec p : exists k, p = rstrip_slash p ++ repeat slash k /\ (rstrip_slash p = [] \/ last (rstrip_slash p) slash <> slash).
Proof.
  unfold rstrip_slash. destruct (lstrip_slashes (rev p)) as (k & E & H). exists k. split.
  - apply (f_equal (@rev N)) in E. rewrite rev_involutive, rev_app_distr, repeat_rev in E. exact E.
  - destruct (lstrip is_slash (rev p)) as [|c r]; [now left|]. right. cbn. rewrite last_last. cbn in H. congruence.
Qed.
Lemma split_spec p : splits p (fst (path_split p)) (snd (path_split p)).
Proof.
  unfold path_split. pose proof (rsplit_spec p) as X. destruct (rsplit p) as [h t]. destruct X as (E & N & H). split; [exact N|]. cbn [fst snd].
  destruct (forallb is_slash h) eqn:F.
  - exists 0. split; [exact E|]. left. split; auto. apply Forall_forall. intros c I. rewrite forallb_forall in F. specialize (F c I).
    destruct (is_slash_spec c); congruence.
  - destruct (rstrip_spec h) as (k & E2 & H2). exists k. split; [rewrite app_assoc, <- E2; exact E|]. right. destruct H2 as [H2|H2].
    + exfalso. rewrite H2 in E2. cbn in E2. rewrite E2 in F. assert (X : forallb is_slash (repeat slash k) = true); [|congruence].
      apply forallb_forall. intros c I. apply repeat_spec in I. now subst.
    + split; auto. destruct k; [|lia]. exfalso. rewrite app_nil_r in E2. rewrite <- E2 in H2.
      destruct H as [->|[q ->]]; [discriminate|]. rewrite last_last in H2. congruence.
Qed.
Lemma last_dot_spec p : match last_dot p with
  | Some (h, t) => p = h ++ t /\ exists r, t = dot :: r /\ ~ In dot r
  | None => ~ In dot p end.
Proof.
  induction p as [|c p IH]; cbn; [auto|]. destruct (last_dot p) as [[h t]|].
  - destruct IH as (E & r & T & N). split; [now rewrite E|eauto].
  - destruct (N.eqb_spec c dot).
    + subst. split; [reflexivity|]. eauto.
    + intros [X|X]; auto.
Qed.
Lemma ext_spec p : extension p (fst (splitext p)) (snd (splitext p)).
Proof.
  unfold splitext. pose proof (last_dot_spec p) as X. destruct (last_dot p) as [[h t]|].
  - destruct X as (E & r & -> & N). destruct (forallb _ h) eqn:F; cbn [fst snd].
    + split; [now rewrite app_nil_r|]. left. split; auto. right. exists (S (length h)), r.
      split; auto. subst p. clear N. induction h as [|c h IH]; [reflexivity|]. cbn in F. apply andb_prop in F. destruct F as [F1 F2].
      apply N.eqb_eq in F1. subst c. specialize (IH F2). cbn in IH |- *. now rewrite IH.
    + split; auto. right. exists r. repeat split; auto. clear E. induction h as [|c h IH]; [discriminate|]. cbn in F.
      destruct (N.eqb_spec c dot).
      * destruct (IH F) as (x & I & X). exists x. split; [now right|auto].
      * exists c. split; [now left|auto].
  - cbn. split; [now rewrite app_nil_r|]. left. auto.
Qed.
Lemma app_cons_split {A} (x : A) l r : l ++ x :: r = (l ++ [x]) ++ r.
Proof. now rewrite <- app_assoc. Qed.
Lemma numbered_copy a b c n : copy_name a b c n = numbered a b c n.
Proof. reflexivity. Qed.

Section Cfg.
  Variable cfg : config.
  Notation sdir := (snapshot_dir cfg).
  Notation ddir := (download_dir cfg).
  Notation Sl := (place cfg (snapshot_dir cfg)).
  Notation Dl := (place cfg (download_dir cfg)).
  Notation resolve' f p := (resolve f (cwd cfg) p).

  (** ** Choice of a name *)
  Notation dest := (Spec_Remote.dest cfg).
  Notation chosen := (Spec_Remote.chosen cfg).
  Notation all_taken := (Spec_Remote.all_taken cfg).
  Definition store (s q : text) : M unit := catch (rename cfg s q) (fun _ => shutil_move cfg s q).
  Lemma copy_download_cases s p pt w : utf8_decode p = Some pt ->
    (exists q, chosen (w_fs w) pt q /\ candidate cfg p q /\ copy_download cfg s p w = store s q w) \/
    (all_taken (w_fs w) pt /\ copy_download cfg s p w = (w, inr RTooMany)).
  Proof.
    intros D.
    assert (EQ : copy_download cfg s p w = bindM (free_name cfg 100 0
        (if path_isdir (w_fs w) (cwd cfg) (fst (path_split (dest pt))) then fst (path_split (dest pt)) else root cfg)
        (fst (splitext (snd (path_split (dest pt))))) (snd (splitext (snd (path_split (dest pt))))) (dest pt)) (store s) w).
    { unfold copy_download. unfold bindM at 1, decode8. rewrite D. unfold ret at 1. cbv beta iota zeta. fold (dest pt).
      destruct (path_split (dest pt)) as [dir name]. cbn [fst snd]. unfold bindM at 1, isdir. destruct (splitext name) as [base ext]. reflexivity. }
    rewrite EQ. clear EQ.
    pose proof (split_spec (dest pt)) as SP. pose proof (ext_spec (snd (path_split (dest pt)))) as EX.
    assert (CC : forall q, q = dest pt \/ (exists dirname n, (dirname = fst (path_split (dest pt)) \/ dirname = root cfg) /\
        q = copy_name dirname (fst (splitext (snd (path_split (dest pt))))) (snd (splitext (snd (path_split (dest pt))))) n) -> candidate cfg p q).
    { intros q H. exists pt. split; auto. }
    destruct (path_split (dest pt)) as [dir name] eqn:PS. cbn [fst snd] in *.
    destruct (splitext name) as [base ext] eqn:SE. cbn [fst snd] in *.
    set (dir' := if path_isdir (w_fs w) (cwd cfg) dir then dir else root cfg).
    destruct (free_name_spec cfg dir' base ext 100 0 (dest pt) w) as (A1 & A2 & A3). unfold bindM.
    destruct (free_name cfg 100 0 dir' base ext (dest pt) w) as [w1 [q|e]]; cbn [fst snd] in *; subst w1.
    - left. exists q. destruct (A2 q eq_refl) as [A4 A5]. split; [|split; [|reflexivity]].
      + split; auto. destruct A5 as [A5|(n & B1 & B2 & B3 & B4)]; auto. right. exists dir, name, base, ext, n. split; [exact SP|]. split; [exact EX|]. cbv zeta.
        split; [exact B3|]. split; [lia|]. split; [exact B2|]. intros k Hk. apply B4. lia.
      + apply CC. destruct A5 as [A5|(n & B1 & B2 & _)]; auto. right. exists dir', n. split; auto. unfold dir'.
        destruct (path_isdir _ _ dir); auto.
    - right. destruct (A3 e eq_refl) as (-> & B1 & B2). split; [|reflexivity]. exists dir, name, base, ext. split; [exact SP|]. split; [exact EX|]. cbv zeta. split; [exact B1|].
      intros k Hk. apply B2. lia.
  Qed.
  Lemma copy_undecodable s p w : utf8_decode p = None -> copy_download cfg s p w = (w, inr (RPy EUnicodeDecode)).
  Proof. intros D. unfold copy_download, bindM, decode8. now rewrite D. Qed.

  (** ** Success means stored *)
  Lemma remove_ok s w w' : remove cfg s w = (w', inl tt) ->
    w_fs w' = set_node (w_fs w) (place cfg s) None /\ w_sent w' = w_sent w.
  Proof.
    unfold remove, on_path. pose proof (nf_fs w) as F. pose proof (nf_sent w) as S. destruct (next_fault w) as [x w1]. cbn in F, S.
    destruct x as [[|k]|]; cbn; try discriminate.
    { destruct (resolve (w_fs w1) (cwd cfg) s); discriminate. }
    destruct (resolve (w_fs w1) (cwd cfg) s) as [l| |] eqn:R; try discriminate. apply resolve_place in R. subst l.
    destruct (w_fs w1 (place cfg s)) as [[b|]|]; try discriminate. cbn. intros [= <-]. cbn. now rewrite F.
  Qed.
  Lemma rename_ok s q w w' : path_exists (w_fs w) (cwd cfg) q = false -> rename cfg s q w = (w', inl tt) ->
    w_fs w (place cfg q) = None /\ legal_move (w_fs w) (place cfg s) (place cfg q) /\
    w_fs w' = move (w_fs w) (place cfg s) (place cfg q) /\ w_sent w' = w_sent w.
  Proof.
    intros E H. revert H. unfold rename, on_path. pose proof (nf_fs w) as F. pose proof (nf_sent w) as S. destruct (next_fault w) as [x w1]. cbn in F, S.
    destruct x as [[|n]|]; cbn; try discriminate.
    { destruct (resolve (w_fs w1) (cwd cfg) s) as [l|e|]; cbn; discriminate. }
    destruct (resolve (w_fs w1) (cwd cfg) s) as [ls|e|] eqn:E1; cbn; try discriminate.
    destruct (w_fs w1 ls) as [a|] eqn:N; cbn; try discriminate.
    destruct (resolve (w_fs w1) (cwd cfg) q) as [ld|e|] eqn:E2; cbn; try discriminate.
    pose proof (resolve_place cfg _ _ _ E1). pose proof (resolve_place cfg _ _ _ E2). subst ls ld. rewrite F in *.
    pose proof (not_exists _ _ _ _ E E2) as N2.
    destruct (loc_eqb_spec (place cfg s) (place cfg q)) as [X|X]; [congruence|]. rewrite N2.
    destruct (below (place cfg s) (place cfg q)) eqn:B1; [destruct (below (place cfg q) (place cfg s)), a; discriminate|].
    destruct (below (place cfg q) (place cfg s)) eqn:B2; [destruct a; discriminate|].
    rewrite below_none in B1, B2.
    intros H. assert (H' : (with_fs w1 (move (w_fs w) (place cfg s) (place cfg q)), inl tt) = (w', @inl unit rexn tt)) by (destruct a; exact H).
    injection H' as <-. cbn. repeat split; auto; try congruence. intros T; eapply resolve_parent; eauto.
  Qed.
  Lemma store_ok s q w w' : path_exists (w_fs w) (cwd cfg) q = false -> store s q w = (w', inl tt) ->
    w_fs w (place cfg q) = None /\ w_sent w' = w_sent w /\ place cfg s <> place cfg q /\
    (legal_move (w_fs w) (place cfg s) (place cfg q) /\ w_fs w' = move (w_fs w) (place cfg s) (place cfg q) \/
     exists b, w_fs w (place cfg s) = Some (File b) /\
       w_fs w' = set_node (set_node (w_fs w) (place cfg q) (Some (File b))) (place cfg s) None).
  Proof.
    intros E. unfold store, catch.
    assert (RN : forall w w' , path_exists (w_fs w) (cwd cfg) q = false -> rename cfg s q w = (w', inl tt) ->
       w_fs w (place cfg q) = None /\ w_sent w' = w_sent w /\ place cfg s <> place cfg q /\
       legal_move (w_fs w) (place cfg s) (place cfg q) /\ w_fs w' = move (w_fs w) (place cfg s) (place cfg q)).
    { intros v v' Ev R. destruct (rename_ok _ _ _ _ Ev R) as (A1 & A2 & A3 & A4). repeat (split; [assumption|]). split; [|auto]. apply A2. }
    assert (RF : forall w w' e, rename cfg s q w = (w', inr e) -> w_fs w' = w_fs w /\ w_sent w' = w_sent w).
    { intros v v' e R. destruct (rename_cases cfg s q v) as [A|(A & _)]; rewrite R in A; [exact A|discriminate]. }
    destruct (rename cfg s q w) as [w1 [[]|e]] eqn:R1.
    { intros [= <-]. destruct (RN _ _ E R1) as (A1 & A2 & A3 & A4). auto. }
    destruct (RF _ _ _ R1) as [F1 S1]. unfold shutil_move, catch. rewrite <- F1 in E |- *. rewrite <- S1.
    destruct (rename cfg s q w1) as [w2 [[]|e2]] eqn:R2.
    { intros [= <-]. destruct (RN _ _ E R2) as (A1 & A2 & A3 & A4). auto. }
    destruct (RF _ _ _ R2) as [F2 S2]. rewrite <- F2 in E |- *. rewrite <- S2.
    destruct e2 as [[]| | | | | |]; try (cbn; discriminate).
    unfold bindM at 1, isdir. destruct (path_isdir _ _ _); [cbn; discriminate|].
    unfold bindM. destruct (copyfile_cases cfg s q w2) as [C1 C2].
    destruct (copyfile cfg s q w2) as [w3 [a|e3]]; [|discriminate]. cbn [fst snd] in C1, C2.
    destruct C2 as [[_ C2]|(C3 & C4 & C5 & C6 & b & b' & C7 & C8 & C9 & _)]; [now destruct a|]. rewrite C9 in C8 by now destruct a.
    pose proof (st_copystat _ pre_fs w3) as F3. pose proof (st_copystat _ pre_silent w3) as S3.
    destruct (copystat w3) as [w4 [a2|e4]]; [|discriminate]. cbn [fst] in F3, S3. intros RM. apply remove_ok in RM. destruct RM as [F4 S4].
    unfold Silent in S3. split; [eapply not_exists; eauto|]. split; [congruence|]. split; auto. right. exists b. split; auto. rewrite F4, F3, C8. reflexivity.
  Qed.
  Lemma stored s q w w' b : tree (w_fs w) -> path_exists (w_fs w) (cwd cfg) q = false -> w_fs w (place cfg s) = Some (File b) ->
    store s q w = (w', inl tt) ->
    w_fs w' (place cfg q) = Some (File b) /\ w_fs w' (place cfg s) = None /\
    (forall l, l <> place cfg s -> l <> place cfg q -> w_fs w' l = w_fs w l) /\ w_fs w (place cfg q) = None.
  Proof.
    intros T E FS H. destruct (store_ok _ _ _ _ E H) as (N & _ & NE & [[(L1 & L2 & L3 & L4 & _) F]|(b' & FB & F)]); rewrite F.
    - repeat split; auto.
      + unfold move. destruct (below (place cfg q) (place cfg q)) as [r|] eqn:B.
        * apply below_spec in B. rewrite <- (app_nil_r (place cfg q)) in B at 1. apply app_inv_head in B. subst r. now rewrite app_nil_r.
        * apply below_none in B. exfalso. apply B, within_refl.
      + unfold move. destruct (below (place cfg q) (place cfg s)) as [r|] eqn:B; [exfalso; apply L4; apply below_spec in B; now exists r|].
        destruct (below (place cfg s) (place cfg s)) eqn:B2; auto. apply below_none in B2. exfalso. apply B2, within_refl.
      + intros l N1 N2. unfold move. destruct (below (place cfg q) l) as [r|] eqn:B.
        * apply below_spec in B. assert (R : r <> []) by (intros ->; rewrite app_nil_r in B; congruence).
          assert (X1 : w_fs w l = None).
          { destruct (w_fs w l) eqn:X; auto. exfalso. assert (Y : w_fs w (place cfg q) = Some Dir); [|congruence].
            apply (tree_above _ _ r); auto. rewrite <- B. congruence. }
          rewrite X1. destruct (w_fs w (place cfg s ++ r)) eqn:X; auto. exfalso. assert (Y : w_fs w (place cfg s) = Some Dir); [|congruence].
          apply (tree_above _ _ r); auto. congruence.
        * destruct (below (place cfg s) l) as [r|] eqn:B2; auto. apply below_spec in B2.
          assert (R : r <> []) by (intros ->; rewrite app_nil_r in B2; congruence).
          destruct (w_fs w l) eqn:X; auto. exfalso. assert (Y : w_fs w (place cfg s) = Some Dir); [|congruence].
          apply (tree_above _ _ r); auto. rewrite <- B2. congruence.
    - rewrite FS in FB. injection FB as <-. repeat split; auto.
      + rewrite set_other by auto. apply set_same.
      + apply set_same.
      + intros l N1 N2. now rewrite !set_other by auto.
  Qed.

  (** Existing files stay *)
  Lemma others_kept s p w l : tree (w_fs w) -> ~ within (place cfg s) l -> w_fs w l <> None ->
    w_fs (fst (copy_download cfg s p w)) l = w_fs w l.
  Proof.
    intros T N E. assert (X : steps (Others (place cfg s)) (copy_download cfg s p)).
    { apply st_copy_download; auto using pre_others.
      - intros; apply nm_others.
      - intros; apply cr_others.
      - apply ed_others, within_refl. }
    now apply (X w T).
  Qed.

  (** ** Stored inside the remote directory *)
  Lemma place_last p q t : absolute q -> ~ In slash t -> p = q ++ slash :: t -> place cfg p = norm (place cfg q) [t].
  Proof.
    intros A N ->. assert (A' : absolute (q ++ slash :: t)) by (destruct A as [r ->]; now exists (r ++ slash :: t)).
    rewrite !place_abs by assumption. rewrite split_sep_app, norm_app. now rewrite (split_sep_plain t).
  Qed.
  Lemma split_slashes q k : norm [] (split_sep (q ++ repeat slash k)) = norm [] (split_sep q).
  Proof.
    induction k as [|k IH]; [now rewrite app_nil_r|].
    assert (R : repeat slash (S k) = repeat slash k ++ [slash]) by (clear; induction k; cbn in *; congruence).
    rewrite R, app_assoc, split_sep_app, norm_app, IH. reflexivity.
  Qed.
  Lemma last_unique (a b : list text) x y : a ++ [x] = b ++ [y] -> a = b /\ x = y.
  Proof. apply app_inj_tail. Qed.
  Lemma dest_inside pt : absolute (root cfg) -> ~ has_backref pt -> within (place cfg (root cfg)) (place cfg (dest pt)).
  Proof.
    intros A NB. unfold Spec_Remote.dest. rewrite place_join by (auto using lstrip_rel; destruct A as [r ->]; discriminate). apply norm_no_backref.
    intros I. apply NB. unfold has_backref. destruct (lstrip_split pt) as [k K]. rewrite K. apply in_or_app. now right.
  Qed.
  (** The folder of the destination *)
  Lemma dir_inside pt : absolute (root cfg) -> ~ has_backref pt ->
    within (place cfg (root cfg)) (place cfg (fst (path_split (dest pt)))) /\ absolute (fst (path_split (dest pt))).
  Proof.
    intros A NB.
    assert (AD : absolute (dest pt)) by (unfold Spec_Remote.dest; now apply join_abs).
    assert (RN : root cfg <> []) by (destruct A as [r ->]; discriminate).
    assert (X : exists X, split_sep (dest pt) = X ++ split_sep (lstrip_slash pt) /\ norm [] X = place cfg (root cfg)).
    { rewrite (place_abs cfg _ A). destruct (join_split (root cfg) (lstrip_slash pt) (lstrip_rel pt) RN) as (k & [[E _]|(a' & E1 & E2 & _)]).
      - exists (split_sep (root cfg)). auto.
      - exists (split_sep a'). split; auto. rewrite E1, split_sep_app, norm_app. reflexivity. }
    destruct X as (X & SX & NX).
    assert (NL : ~ In [dot; dot] (split_sep (lstrip_slash pt))).
    { intros I. apply NB. unfold has_backref. destruct (lstrip_split pt) as [k K]. rewrite K. apply in_or_app. now right. }
    (* the components before the last *)
    unfold path_split. pose proof (rsplit_spec (dest pt)) as RS. destruct (rsplit (dest pt)) as [h t]. destruct RS as (E & N & H). cbn [fst].
    destruct H as [->|[q ->]].
    { exfalso. cbn in E. rewrite <- E in N. destruct AD as [r AD]. apply N. rewrite AD. now left. }
    rewrite <- app_assoc in E. cbn in E.
    assert (SQ : split_sep (dest pt) = split_sep q ++ [t]) by (rewrite E, split_sep_app; now rewrite (split_sep_plain t)).
    destruct (split_sep (lstrip_slash pt)) as [|c0 cs] eqn:SL; [now apply split_sep_not_nil in SL|].
    destruct (exists_last (l := c0 :: cs)) as (init & tl & IT); [discriminate|]. rewrite IT in *.
    rewrite SX, app_assoc in SQ. apply last_unique in SQ. destruct SQ as [SQ _].
    assert (W : within (place cfg (root cfg)) (norm [] (split_sep q))).
    { rewrite <- SQ, norm_app, NX. apply norm_no_backref. intros I. apply NL. apply in_or_app. now left. }
    assert (NQ : norm [] (split_sep (q ++ [slash])) = norm [] (split_sep q)) by apply (split_slashes q 1).
    assert (AQ : absolute (q ++ [slash])).
    { destruct AD as [r AD]. destruct q as [|c q]; [now exists []|]. rewrite AD in E. injection E as <- _. now exists (q ++ [slash]). }
    destruct (forallb is_slash (q ++ [slash])) eqn:F.
    - split; auto. now rewrite (place_abs cfg _ AQ), NQ.
    - destruct (rstrip_spec (q ++ [slash])) as (k & K1 & K2). set (d := rstrip_slash (q ++ [slash])) in *.
      assert (AD2 : absolute d).
      { destruct d as [|c d']; [|exists d'; destruct AQ as [r AQ]; rewrite AQ in K1; now injection K1 as <- _].
        exfalso. cbn in K1. rewrite K1 in F. assert (Y : forallb is_slash (repeat slash k) = true); [|congruence].
        apply forallb_forall. intros c I. apply repeat_spec in I. now subst. }
      split; auto. rewrite (place_abs cfg _ AD2), <- (split_slashes d k), <- K1, NQ. exact W.
  Qed.
  Lemma name_parts name base ext : extension name base ext -> ~ In slash name -> ~ In slash base /\ ~ In slash ext.
  Proof. intros [-> _] N. split; intros I; apply N; apply in_or_app; auto. Qed.
  Lemma candidate_inside p pt q : absolute (root cfg) -> utf8_decode p = Some pt -> ~ has_backref pt -> candidate cfg p q ->
    within (place cfg (root cfg)) (place cfg q).
  Proof.
    intros A D NB (pt' & D' & H). rewrite D in D'. injection D' as <-. cbv zeta in H. fold (dest pt) in H.
    destruct (dir_inside pt A NB) as [W AD].
    destruct H as [->|(dir & n & HD & ->)]; [now apply dest_inside|].
    assert (X : within (place cfg (root cfg)) (place cfg dir) /\ absolute dir).
    { destruct HD as [->| ->]; auto. split; auto. apply within_refl. }
    clear W AD HD. destruct X as [W AD].
    pose proof (split_spec (dest pt)) as [NS _]. pose proof (ext_spec (snd (path_split (dest pt)))) as EX.
    destruct (name_parts _ _ _ EX NS) as [NB1 NE].
    set (base := fst (splitext (snd (path_split (dest pt))))) in *. set (ext := snd (splitext (snd (path_split (dest pt))))) in *.
    set (t := base ++ T "(" ++ dec_N (N.of_nat n) ++ T ")" ++ ext).
    assert (NT : ~ In slash t).
    { unfold t. rewrite !in_app_iff. pose proof (dec_N_digits (N.of_nat n)) as DD. rewrite Forall_forall in DD.
      intros [I|[I|[I|[I|I]]]]; auto.
      - destruct I as [I|[]]. discriminate I.
      - apply DD in I. discriminate I.
      - destruct I as [I|[]]. discriminate I. }
    assert (P : In 40%N t) by (unfold t; rewrite !in_app_iff; right; left; now left).
    rewrite (place_last (copy_name dir base ext n) dir t AD NT) by reflexivity.
    apply (within_trans _ (place cfg dir)); auto. apply norm_no_backref. intros [I|[]]. rewrite I in P. destruct P as [P|[P|[]]]; discriminate P.
  Qed.
  Lemma stored_inside s p pt w l : absolute (root cfg) -> utf8_decode p = Some pt -> ~ has_backref pt ->
    ~ within (place cfg (root cfg)) l -> ~ within (place cfg s) l -> w_fs (fst (copy_download cfg s p w)) l = w_fs w l.
  Proof.
    intros A D NB N1 N2. set (P := fun l => within (place cfg (root cfg)) l \/ within (place cfg s) l).
    assert (X : steps (Frame P) (copy_download cfg s p)).
    { apply st_copy_download; [apply pre_frame|..].
      - intros q C. apply nm_frame; [now right|]. intros x W. left. eapply within_trans; [|exact W]. eapply candidate_inside; eauto.
      - intros q C. apply cr_frame. left. eapply candidate_inside; eauto.
      - apply ed_frame. right. apply within_refl. }
    apply X. intros [H|H]; contradiction.
  Qed.

  (** ** A missing folder *)
  Lemma walk_prefix f a b cur l : walk f cur (a ++ b) = Some l -> b <> [] -> exists m, walk f cur a = Some m /\ f m = Some Dir.
  Proof.
    rewrite walk_app. destruct (walk f cur a) as [m|]; [|discriminate]. intros W N. exists m. split; auto.
    destruct b as [|c b]; [congruence|]. cbn in W. destruct (f m) as [[|]|]; congruence.
  Qed.
  Lemma nul_sub a b : nul (a ++ b) = false -> nul a = false.
  Proof. rewrite nul_app. intros H. apply orb_false_elim in H. tauto. Qed.
  Lemma resolve_folder f p l : absolute p -> resolve' f p = Ok l -> path_isdir f (cwd cfg) (fst (path_split p)) = true.
  Proof.
    intros A R. unfold path_split. pose proof (rsplit_spec p) as RS. destruct (rsplit p) as [h t]. destruct RS as (E & N & H). cbn [fst].
    destruct H as [->|[q ->]].
    { exfalso. cbn in E. subst t. destruct A as [r ->]. apply N. now left. }
    rewrite <- app_assoc in E. cbn in E.
    assert (SQ : split_sep p = split_sep q ++ [t]) by (rewrite E, split_sep_app; now rewrite (split_sep_plain t)).
    assert (NP : nul p = false /\ walk f [] (split_sep p) = Some l).
    { unfold resolve in R. fold (nul p) in R. destruct (nul p); [discriminate|]. split; auto. destruct A as [r ->]. change (is_slash slash) with true in R. cbv iota in R.
      destruct (walk f [] _); [congruence|discriminate]. }
    destruct NP as [NP WP]. rewrite SQ in WP. destruct (walk_prefix _ _ _ _ _ WP ltac:(discriminate)) as (m & WQ & DM).
    assert (NQ : nul q = false) by (rewrite E in NP; now apply nul_sub in NP).
    assert (G : forall d k, absolute d -> q ++ [slash] = d ++ repeat slash k -> path_isdir f (cwd cfg) d = true).
    { intros d k AD K. assert (ND : nul d = false).
      { apply (nul_sub d (repeat slash k)). rewrite <- K, nul_app, NQ. reflexivity. }
      assert (WS : walk f [] (split_sep (q ++ [slash])) = Some m).
      { rewrite split_sep_app, walk_app, WQ. cbn. now rewrite DM. }
      assert (WD : exists m', walk f [] (split_sep d) = Some m' /\ f m' = Some Dir).
      { rewrite K in WS. clear - WS DM. revert m WS DM. induction k as [|k IH]; intros m WS DM.
        - rewrite app_nil_r in WS. eauto.
        - assert (R : repeat slash (S k) = repeat slash k ++ [slash]) by (clear; induction k; cbn in *; congruence).
          rewrite R, app_assoc, split_sep_app in WS. destruct (walk_prefix _ _ _ _ _ WS ltac:(discriminate)) as (m' & W & D). eauto. }
      destruct WD as (m' & WD & DM'). apply (resolve_dir f (cwd cfg) d m'); auto. unfold resolve. fold (nul d). rewrite ND.
      destruct AD as [r ->]. change (is_slash slash) with true. cbv iota. now rewrite WD. }
    assert (AQ : absolute (q ++ [slash])).
    { destruct A as [r A]. destruct q as [|c q]; [now exists []|]. rewrite A in E. injection E as <- _. now exists (q ++ [slash]). }
    destruct (forallb is_slash (q ++ [slash])) eqn:F.
    - apply (G _ 0); auto. now rewrite app_nil_r.
    - destruct (rstrip_spec (q ++ [slash])) as (k & K1 & K2). set (d := rstrip_slash (q ++ [slash])) in *. apply (G d k); auto.
      destruct d as [|c d']; [|exists d'; destruct AQ as [r AQ]; rewrite AQ in K1; now injection K1 as <- _].
      exfalso. cbn in K1. rewrite K1 in F. assert (Y : forallb is_slash (repeat slash k) = true); [|congruence].
      apply forallb_forall. intros c I. apply repeat_spec in I. now subst.
  Qed.
  Lemma on_path_fs {A} p (k : option nat -> loc -> option node -> M A) w :
    (forall l, resolve' (w_fs w) p <> Ok l) -> w_fs (fst (on_path cfg p k w)) = w_fs w /\ exists e, snd (on_path cfg p k w) = inr e.
  Proof.
    intros H. unfold on_path. pose proof (nf_fs w) as F. destruct (next_fault w) as [x w1]. cbn in F.
    destruct x as [[|n]|]; cbn; eauto; (destruct (resolve (w_fs w1) (cwd cfg) p) as [l|e|] eqn:R; cbn; eauto; rewrite F in R; now apply H in R).
  Qed.
  Lemma rename_nowhere s q w : (forall l, resolve' (w_fs w) q <> Ok l) ->
    w_fs (fst (rename cfg s q w)) = w_fs w /\ exists e, snd (rename cfg s q w) = inr e.
  Proof.
    intros H. unfold rename, on_path. pose proof (nf_fs w) as F. destruct (next_fault w) as [x w1]. cbn in F.
    destruct x as [[|n]|]; cbn; eauto; (destruct (resolve (w_fs w1) (cwd cfg) s) as [l|e|] eqn:R; cbn; eauto).
    destruct (w_fs w1 l); cbn; eauto. rewrite F. destruct (resolve (w_fs w) (cwd cfg) q) as [l2|e|] eqn:R2; cbn; eauto. now elim (H l2).
  Qed.
  Lemma copyfile_nowhere s q w : (forall l, resolve' (w_fs w) q <> Ok l) ->
    w_fs (fst (copyfile cfg s q w)) = w_fs w /\ exists e, snd (copyfile cfg s q w) = inr e.
  Proof.
    intros H. unfold copyfile. set (P := fun r : world * (unit + rexn) => w_fs (fst r) = w_fs w /\ exists e, snd r = inr e).
    match goal with |- w_fs (fst ?r) = _ /\ _ => change (P r) end.
    unfold on_path at 1. pose proof (nf_fs w) as F. destruct (next_fault w) as [x w1]. cbn in F.
    destruct x as [[|n]|]; [subst P; cbn; eauto|..]; (destruct (resolve (w_fs w1) (cwd cfg) s) as [l|e|] eqn:R; [|subst P; cbn; eauto..]); [subst P; cbn; eauto|].
    destruct (w_fs w1 l) as [[b|]|]; [|subst P; cbn; eauto..]. subst P. cbv beta. rewrite <- F in H |- *. now apply on_path_fs.
  Qed.
  Lemma store_nowhere s q w : (forall l, resolve' (w_fs w) q <> Ok l) -> w_fs (fst (store s q w)) = w_fs w /\ exists e, snd (store s q w) = inr e.
  Proof.
    intros H. unfold store, catch. destruct (rename_nowhere s q w H) as [F1 [e1 E1]]. destruct (rename cfg s q w) as [w1 r1]. cbn in F1, E1. subst r1.
    rewrite <- F1 in H |- *. unfold shutil_move, catch. destruct (rename_nowhere s q w1 H) as [F2 [e2 E2]]. destruct (rename cfg s q w1) as [w2 r2]. cbn in F2, E2. subst r2.
    rewrite <- F2 in H |- *. destruct e2 as [[]| | | | | |]; try (cbn; now eauto).
    unfold bindM, isdir. destruct (path_isdir _ _ _); [cbn; now eauto|].
    destruct (copyfile_nowhere s q w2 H) as [F3 [e3 E3]]. destruct (copyfile cfg s q w2) as [w3 r3]. cbn in F3, E3. subst r3. cbn. eauto.
  Qed.
  Lemma missing_folder s p pt w : absolute (root cfg) -> utf8_decode p = Some pt ->
    path_isdir (w_fs w) (cwd cfg) (fst (path_split (dest pt))) = false ->
    w_fs (fst (copy_download cfg s p w)) = w_fs w /\ exists e, snd (copy_download cfg s p w) = inr e.
  Proof.
    intros A D I. assert (AD : absolute (dest pt)) by (unfold Spec_Remote.dest; now apply join_abs).
    assert (H : forall l, resolve' (w_fs w) (dest pt) <> Ok l) by (intros l R; apply resolve_folder in R; auto; congruence).
    assert (NE : path_exists (w_fs w) (cwd cfg) (dest pt) = false).
    { unfold path_exists, lookup. destruct (resolve' (w_fs w) (dest pt)) as [l| |] eqn:R; auto. now elim (H l). }
    destruct (copy_download_cases s p pt w D) as [(q & [_ CH] & _ & E)|[(d & n & b & x & _ & _ & X & _) _]]; [|congruence].
    destruct CH as [->|(d & n & b & x & k & _ & _ & X & _)]; [|congruence]. rewrite E. now apply store_nowhere.
  Qed.
End Cfg.
