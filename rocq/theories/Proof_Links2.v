(** Opening a file of the remote directory, and writing scan results, with links *)
From Verif Require Import Py Py_lemmas Model_Path Model_Remote Spec_Remote Proof_Path Model_Links Spec_Links Proof_Links.

Definition calm (f : lfs) (w : lworld) : Prop := l_fs w = f /\ unbothered w.
Lemma calm_next f w : calm f w -> exists x w1, next_call w = (x, w1) /\ calm f w1.
Proof.
  intros [F U]. unfold next_call. unfold unbothered in U. destruct (l_calls w) as [|[o x] r] eqn:E.
  - exists None, w. split; auto. split; auto. unfold unbothered. now rewrite E.
  - inversion U; subst. cbn in H1. subst o. exists x, (LW (l_fs w) r). repeat split; auto.
Qed.
Lemma with_dirs_refl f : with_dirs f f.
Proof. intros l. auto. Qed.
Lemma with_dirs_file f f1 l b : with_dirs f f1 -> f1 l = Some (LFile b) -> f l = Some (LFile b).
Proof. intros D H. destruct (D l) as [E|[_ E]]; congruence. Qed.
Lemma with_dirs_leads f f1 last cur cs l : with_dirs f f1 -> leads f last cur cs l -> leads f1 last cur cs l.
Proof.
  intros D L. eapply leads_mono; eauto.
  - intros x t H. destruct (D x) as [E|[E _]]; congruence.
  - intros x H. destruct (D x) as [E|[E _]]; congruence.
  - intros x t H. destruct (D x) as [E|[_ E]]; congruence.
Qed.
Lemma with_dirs_unlinked f f1 R : with_dirs f f1 -> unlinked f R -> unlinked f1 R.
Proof. intros D U l t W H. destruct (D l) as [E|[_ E]]; [|congruence]. apply (U l t W). congruence. Qed.

Section Ops.
  Variable cfg : config.

  (** A call on a path *)
  Lemma at_path_spec A last p (k : option nat -> loc -> option lnode -> LM A) f w : calm f w ->
    exists x w1, calm f w1 /\
      (at_path cfg last p k w = (w1, inr (RPy EOS)) \/ (exists e, at_path cfg last p k w = (w1, inr (RPy e))) \/
       exists l, lresolve f (cwd cfg) last p = Ok l /\ at_path cfg last p k w = k x l (f l) w1).
  Proof.
    intros C. destruct (calm_next f w C) as (x & w1 & E & C1). exists x, w1. split; auto.
    unfold at_path. rewrite E. destruct C1 as [F1 _]. rewrite F1. destruct x as [[|n]|]; auto;
      (destruct (lresolve f (cwd cfg) last p) as [l|e|]; [right; right; exists l; auto|right; left; eauto|right; left; eauto]).
  Qed.
  Lemma getsize_calm p f w w' r : calm f w -> lgetsize cfg p w = (w', r) -> calm f w' /\
    forall n, r = inl n -> exists l, lresolve f (cwd cfg) true p = Ok l /\ forall b, f l = Some (LFile b) -> n = Z.of_nat (length b).
  Proof.
    intros C. unfold lgetsize. destruct (at_path_spec _ true p (fun x l n =>
    match x, n with
    | None, Some (LFile b) => lret (Z.of_nat (length b))
    | None, Some LDir => lret 4096%Z
    | _, _ => lthrow (RPy EOS)
    end) f w C) as (x & w1 & C1 & [H|[[e H]|(l & L & H)]]); rewrite H; clear H.
    - intros [= <- <-]. split; auto. discriminate.
    - intros [= <- <-]. split; auto. discriminate.
    - destruct x as [x|]; [intros [= <- <-]; split; auto; discriminate|].
      destruct (f l) as [[b| |t]|] eqn:F; intros [= <- <-]; (split; [auto|]); try discriminate; intros n [= <-]; exists l; (split; [auto|]); intros b0; rewrite F; try discriminate.
      now intros [= ->].
  Qed.
  Lemma copyfile_spec s d f w w' r : calm f w -> lcopyfile cfg s d w = (w', r) ->
    (calm f w' /\ exists e, r = inr e) \/
    exists ls b ld k, lresolve f (cwd cfg) true s = Ok ls /\ f ls = Some (LFile b) /\ lresolve f (cwd cfg) true d = Ok ld /\ ls <> ld /\
      (f ld = None \/ exists b', f ld = Some (LFile b')) /\ calm (lset f ld (Some (LFile (firstn k b)))) w' /\ (r = inl tt -> firstn k b = b).
  Proof.
    intros C. unfold lcopyfile. match goal with |- at_path _ _ _ ?k _ = _ -> _ => destruct (at_path_spec _ true s k f w C) as (x & w1 & C1 & [H|[[e H]|(ls & L & H)]]) end; rewrite H; clear H.
    { intros [= <- <-]. left. eauto. }
    { intros [= <- <-]. left. eauto. }
    destruct x as [x|]; [intros [= <- <-]; left; eauto|].
    destruct (f ls) as [[b| |t]|] eqn:F; try (intros [= <- <-]; left; eauto).
    match goal with |- at_path _ _ _ ?k _ = _ -> _ => destruct (at_path_spec _ true d k f w1 C1) as (y & w2 & C2 & [H|[[e H]|(ld & L2 & H)]]) end; rewrite H; clear H.
    { intros [= <- <-]. left. eauto. }
    { intros [= <- <-]. left. eauto. }
    destruct (loc_eqb_spec ls ld) as [E|E]; [intros [= <- <-]; left; eauto|].
    assert (X : f ld = None \/ (exists b', f ld = Some (LFile b')) \/ (f ld = Some LDir \/ exists t, f ld = Some (LLink t))).
    { destruct (f ld) as [[b'| |t]|]; eauto. }
    assert (P : forall k (a : unit + rexn), (LW (lset (l_fs w2) ld (Some (LFile (firstn k b)))) (l_calls w2), a) = (w', r) ->
      calm (lset f ld (Some (LFile (firstn k b)))) w').
    { intros k a [= <- _]. destruct C2 as [<- U2]. split; [reflexivity|exact U2]. }
    destruct X as [X|[[b' X]|[X|[t X]]]]; rewrite X; cbn [lbind lput lthrow]; try (intros [= <- <-]; left; eauto).
    - destruct y as [y|]; intros H; right; exists ls, b, ld.
      + exists (pred y). do 5 (split; [eauto|]). cbn in H. split; [now apply (P _ (inr (RPy EOS)))|]. injection H as _ <-. discriminate.
      + exists (length b). rewrite firstn_all. do 5 (split; [eauto|]). assert (H' := P (length b) (inl tt)). rewrite firstn_all in H'. split; [now apply H'|auto].
    - destruct y as [y|]; intros H; right; exists ls, b, ld.
      + exists (pred y). do 5 (split; [eauto|]). cbn in H. split; [now apply (P _ (inr (RPy EOS)))|]. injection H as _ <-. discriminate.
      + exists (length b). rewrite firstn_all. do 5 (split; [eauto|]). assert (H' := P (length b) (inl tt)). rewrite firstn_all in H'. split; [now apply H'|auto].
  Qed.

  Lemma validate_spec p : validate_path p = true -> ~ has_backref p.
  Proof.
    unfold validate_path, has_backref. intros H I. apply negb_true_iff in H. assert (X : existsb (text_eqb [dot; dot]) (split_sep p) = true).
    { apply existsb_exists. exists [dot; dot]. split; auto. }
    congruence.
  Qed.
  Lemma backref_right a b : a <> [] -> ~ absolute b -> has_backref b -> has_backref (join a b).
  Proof.
    intros Ha Hb H. unfold has_backref in *. destruct (join_split a b Hb Ha) as (k & [[E _]|(a' & _ & E & _)]); rewrite E; apply in_or_app; auto.
  Qed.
  Lemma upload_file_spec p f w w' fp : absolute (root cfg) -> calm f w -> lupload_file cfg p w = (w', inl fp) ->
    w' = w /\ ((p = 0%N :: T "scan.json" /\ fp = scan_path cfg) \/ (fp = join (root cfg) (lstrip_slash p) /\ ~ has_backref (lstrip_slash p))).
  Proof.
    intros Ha C. unfold lupload_file. destruct (starts_with [0%N] p).
    - destruct (text_eqb_spec p (0%N :: T "scan.json")) as [->|]; intros [= <- <-]. split; auto.
    - destruct (validate_path (join (root cfg) (lstrip_slash p))) eqn:V; cbn; [|discriminate].
      destruct (starts_with (root cfg) _); cbn; [|discriminate]. intros [= <- <-]. split; auto. right. split; auto.
      intros B. apply validate_spec in V. apply V. apply backref_right; auto; [destruct Ha as [x ->]; discriminate|apply lstrip_rel].
  Qed.
  Lemma check_space_calm p f w w' r : calm f w -> lcheck_space cfg p w = (w', r) -> calm f w'.
  Proof.
    intros C. unfold lcheck_space, lbind at 1, lcatch. destruct (statvfs cfg) as [[[bl fr] bf]|].
    - unfold lbind. destruct (lgetsize cfg p w) as [w1 [n|e]] eqn:E; destruct (getsize_calm _ _ _ _ _ C E) as [C1 _].
      + cbn. destruct (_ <? _)%Z; intros [= <- _]; auto.
      + cbn. intros [= <- _]. auto.
    - cbn. intros [= <- _]. auto.
  Qed.
  Lemma snapshot_spec u f w w' r : calm f w -> lget_snapshot_path cfg u w = (w', r) ->
    exists f1, (forall x, f1 x = f x \/ (reaches cfg f false (snapshot_dir cfg) x /\ f x = None /\ f1 x = Some LDir)) /\ calm f1 w' /\ forall sp, r = inl sp -> sp = join (snapshot_dir cfg) u.
  Proof.
    intros C. unfold lget_snapshot_path, lcatch. unfold lbind at 1, lisdir at 1.
    set (d := match llookup _ _ _ with Some LDir => true | _ => false end). destruct d.
    - cbn. intros [= <- <-]. exists f. split; [now left|]. split; auto. now intros sp [= <-].
    - unfold lbind at 1, lmkdir. match goal with |- context [at_path _ _ _ ?k w] => destruct (at_path_spec _ false (snapshot_dir cfg) k f w C) as (x & w1 & C1 & [H|[[e H]|(l & L & H)]]) end; rewrite H; clear H.
      + intros [= <- <-]. exists f. split; [now left|]. split; auto. discriminate.
      + intros [= <- <-]. exists f. split; [now left|]. split; auto. discriminate.
      + destruct x as [x|]; [intros [= <- <-]; exists f; split; [now left|]; split; auto; discriminate|].
        destruct (f l) as [nd|] eqn:F; [intros [= <- <-]; exists f; split; [now left|]; split; auto; discriminate|].
        cbn. intros [= <- <-]. exists (lset f l (Some LDir)). destruct C1 as [<- U1]. split; [|split; [split; [reflexivity|exact U1]|now intros sp [= <-]]].
        intros x. destruct (loc_eqb_spec x l) as [->|N]; [right; rewrite lset_same; split; [exact (lresolve_reaches _ _ _ _ _ L)|auto]|left; now apply lset_other].
  Qed.

  Section Root.
    Variables (f : lfs) (R : loc).
    Hypothesis Habs : absolute (root cfg).
    Hypothesis Hroot : reaches cfg f true (root cfg) R.
    Hypothesis Hun : unlinked f R.

    Lemma source_servable p fp f1 ls : with_dirs f f1 ->
      (p = 0%N :: T "scan.json" /\ fp = scan_path cfg) \/ (fp = join (root cfg) (lstrip_slash p) /\ ~ has_backref (lstrip_slash p)) ->
      lresolve f1 (cwd cfg) true fp = Ok ls -> servable cfg f R p ls.
    Proof.
      intros D [[-> ->]|[-> B]] L; apply lresolve_reaches in L.
      - right. split; auto. exists f1. auto.
      - left. eapply (join_inside cfg f1 R); eauto.
        + now apply (with_dirs_leads f f1).
        + now apply (with_dirs_unlinked f f1).
        + apply lstrip_rel.
    Qed.

    Lemma opened_inside0 p u w w' r l : l_fs w = f -> unbothered w -> ladd_upload cfg p u w = (w', r) ->
      l_fs w' l = f l \/ (reaches cfg f false (snapshot_dir cfg) l /\ f l = None /\ l_fs w' l = Some LDir) \/
      exists src b k f1, servable cfg f R p src /\ f src = Some (LFile b) /\ with_dirs f f1 /\ reaches cfg f1 true (join (snapshot_dir cfg) u) l /\ l_fs w' l = Some (LFile (firstn k b)).
    Proof.
      intros Hf U. assert (C : calm f w) by (split; auto). unfold ladd_upload. unfold lbind at 1.
      destruct (lupload_file cfg p w) as [w1 [fp|e]] eqn:E1.
      2:{ unfold lupload_file in E1. intros [= <- _]. left. destruct (starts_with [0%N] p).
          - destruct (text_eqb p _); injection E1 as <- E1; try discriminate; cbn; now rewrite Hf.
          - destruct (negb _ || negb _); injection E1 as <- E1; try discriminate; cbn; now rewrite Hf. }
      destruct (upload_file_spec _ _ _ _ _ Habs C E1) as [-> Hfp]. unfold lbind at 1.
      destruct (lcheck_space cfg fp w) as [w2 [[]|e]] eqn:E2; assert (C2 := check_space_calm _ _ _ _ _ C E2).
      2:{ intros [= <- _]. left. now destruct C2 as [-> _]. }
      unfold lbind at 1. destruct (lget_snapshot_path cfg u w2) as [w3 r3] eqn:E3.
      destruct (snapshot_spec _ _ _ _ _ C2 E3) as (f1 & D0 & C3 & Hsp). assert (D : with_dirs f f1) by (intros y; destruct (D0 y) as [|(_ & ? & ?)]; auto).
      assert (K : forall w4, calm f1 w4 -> l_fs w4 l = f l \/ (reaches cfg f false (snapshot_dir cfg) l /\ f l = None /\ l_fs w4 l = Some LDir) \/
        exists src b k f1, servable cfg f R p src /\ f src = Some (LFile b) /\ with_dirs f f1 /\ reaches cfg f1 true (join (snapshot_dir cfg) u) l /\ l_fs w4 l = Some (LFile (firstn k b))).
      { intros w4 [-> _]. destruct (D0 l); auto. }
      destruct r3 as [sp|e]; [|intros [= <- _]; apply (K w3 C3)]. specialize (Hsp _ eq_refl). subst sp.
      destruct (negb _); [intros [= <- _]; apply (K w3 C3)|]. unfold lcatch, lbind.
      destruct (lcopyfile cfg fp (join (snapshot_dir cfg) u) w3) as [w4 r4] eqn:E4.
      destruct (copyfile_spec _ _ _ _ _ _ C3 E4) as [[C4 [e ->]]|(ls & b & ld & k & L1 & F1 & L2 & N & F2 & C4 & Hr)]; [intros [= <- _]; apply (K w4 C4)|].
      assert (Q : forall w5, calm (lset f1 ld (Some (LFile (firstn k b)))) w5 -> l_fs w5 l = f l \/ (reaches cfg f false (snapshot_dir cfg) l /\ f l = None /\ l_fs w5 l = Some LDir) \/
        exists src b k f1, servable cfg f R p src /\ f src = Some (LFile b) /\ with_dirs f f1 /\ reaches cfg f1 true (join (snapshot_dir cfg) u) l /\ l_fs w5 l = Some (LFile (firstn k b))).
      { intros w5 [-> _]. destruct (loc_eqb_spec l ld) as [->|Nl].
        - right. right. exists ls, b, k, f1. rewrite lset_same. split; [eapply source_servable; eauto|]. split; [eapply with_dirs_file; eauto|]. split; [exact D|]. split; [exact (lresolve_reaches _ _ _ _ _ L2)|auto].
        - rewrite lset_other by auto. destruct (D0 l); auto. }
      destruct r4 as [[]|e]; [|intros [= <- _]; apply (Q w4 C4)].
      destruct (lgetsize cfg (join (snapshot_dir cfg) u) w4) as [w5 [n|e]] eqn:E5; destruct (getsize_calm _ _ _ _ _ C4 E5) as [C5 _]; intros [= <- _]; apply (Q w5 C5).
    Qed.
    Lemma opened_inside p u w l : l_fs w = f -> unbothered w -> let f' := l_fs (lafter (ladd_upload cfg p u) w) in
      f' l = f l \/ (reaches cfg f false (snapshot_dir cfg) l /\ f l = None /\ f' l = Some LDir) \/
      exists src b k f1, servable cfg f R p src /\ f src = Some (LFile b) /\ with_dirs f f1 /\ reaches cfg f1 true (join (snapshot_dir cfg) u) l /\ f' l = Some (LFile (firstn k b)).
    Proof.
      intros Hf U. unfold lafter. destruct (ladd_upload cfg p u w) as [w' r] eqn:E. cbn. eapply opened_inside0; eauto.
    Qed.
    Lemma opened_file p u w w' n : l_fs w = f -> unbothered w -> ladd_upload cfg p u w = (w', inl n) ->
      exists src b l, servable cfg f R p src /\ f src = Some (LFile b) /\ reaches cfg (l_fs w') true (join (snapshot_dir cfg) u) l /\
        l_fs w' l = Some (LFile b) /\ n = Z.of_nat (length b).
    Proof.
      intros Hf U. assert (C : calm f w) by (split; auto). unfold ladd_upload. unfold lbind at 1.
      destruct (lupload_file cfg p w) as [w1 [fp|e]] eqn:E1; [|discriminate].
      destruct (upload_file_spec _ _ _ _ _ Habs C E1) as [-> Hfp]. unfold lbind at 1.
      destruct (lcheck_space cfg fp w) as [w2 [[]|e]] eqn:E2; assert (C2 := check_space_calm _ _ _ _ _ C E2); [|discriminate].
      unfold lbind at 1. destruct (lget_snapshot_path cfg u w2) as [w3 r3] eqn:E3.
      destruct (snapshot_spec _ _ _ _ _ C2 E3) as (f1 & D0 & C3 & Hsp). assert (D : with_dirs f f1) by (intros y; destruct (D0 y) as [|(_ & ? & ?)]; auto).
      destruct r3 as [sp|e]; [|discriminate]. specialize (Hsp _ eq_refl). subst sp.
      destruct (negb _); [discriminate|]. unfold lcatch, lbind.
      destruct (lcopyfile cfg fp (join (snapshot_dir cfg) u) w3) as [w4 r4] eqn:E4.
      destruct (copyfile_spec _ _ _ _ _ _ C3 E4) as [[C4 [e ->]]|(ls & b & ld & k & L1 & F1 & L2 & N & F2 & C4 & Hr)]; [discriminate|].
      destruct r4 as [[]|e]; [|discriminate]. specialize (Hr eq_refl). rewrite Hr in C4.
      destruct (lgetsize cfg (join (snapshot_dir cfg) u) w4) as [w5 [n5|e]] eqn:E5; [|discriminate].
      destruct (getsize_calm _ _ _ _ _ C4 E5) as [C5 Hn]. intros [= <- <-]. destruct (Hn _ eq_refl) as (l5 & L5 & Hb).
      destruct C5 as [F5 _]. exists ls, b, ld. rewrite F5.
      assert (M : forall cur cs x, leads f1 true cur cs x -> leads (lset f1 ld (Some (LFile b))) true cur cs x).
      { intros cur cs x L. eapply leads_mono; eauto.
        - intros y t H. rewrite lset_other; auto. intros ->. destruct F2 as [F2|[b' F2]]; congruence.
        - intros y H. rewrite lset_other; auto. intros ->. destruct F2 as [F2|[b' F2]]; congruence.
        - intros y t. destruct (loc_eqb_spec y ld) as [->|Ny]; [rewrite lset_same; discriminate|now rewrite lset_other]. }
      assert (L3 : reaches cfg (lset f1 ld (Some (LFile b))) true (join (snapshot_dir cfg) u) ld) by (apply M, lresolve_reaches, L2).
      assert (l5 = ld) by (eapply leads_det; [apply lresolve_reaches in L5; exact L5|exact L3]). subst l5.
      split; [eapply source_servable; eauto|]. split; [eapply with_dirs_file; eauto|]. split; auto. rewrite lset_same. split; auto.
      apply Hb, lset_same.
    Qed.
  End Root.

  (** ** Scan results *)
  Lemma scan_written d w l : unbothered w -> let f' := l_fs (lafter (lwrite_scan cfg d) w) in
    f' l = l_fs w l \/ (reaches cfg (l_fs w) true (scan_path cfg) l /\ exists k, f' l = Some (LFile (firstn k d))).
  Proof.
    intros U. assert (C : calm (l_fs w) w) by (split; auto). unfold lafter, lwrite_scan, lwrite_all. fold (scan_path cfg).
    match goal with |- context [at_path _ _ _ ?k w] => destruct (at_path_spec _ true (scan_path cfg) k (l_fs w) w C) as (x & w1 & [C1 U1] & [H|[[e H]|(l1 & L & H)]]) end; rewrite H; clear H.
    - left. cbn. now rewrite C1.
    - left. cbn. now rewrite C1.
    - assert (P : forall k, l_fs (LW (lset (l_fs w1) l1 (Some (LFile (firstn k d)))) (l_calls w1)) l = l_fs w l \/
          reaches cfg (l_fs w) true (scan_path cfg) l /\ exists k', l_fs (LW (lset (l_fs w1) l1 (Some (LFile (firstn k d)))) (l_calls w1)) l = Some (LFile (firstn k' d))).
      { intros k. cbn. rewrite C1. destruct (loc_eqb_spec l l1) as [->|N]; [|left; now apply lset_other].
        right. split; [now apply lresolve_reaches|]. rewrite lset_same. eauto. }
      destruct (l_fs w l1) as [[b| |t]|]; try (left; cbn; now rewrite C1); (destruct x as [x|]; [apply P|]);
        (assert (P' := P (length d)); rewrite firstn_all in P'; exact P').
  Qed.
End Ops.
