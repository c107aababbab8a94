(** Storing a download, with links *)
From Verif Require Import Py Py_lemmas Model_Path Model_Remote Spec_Remote Proof_Path Proof_Remote5 Model_Links Spec_Links Proof_Links Proof_Links2.

Lemma leads_add f x nd last cur cs l : leads f last cur cs l -> f l <> None -> f x = None -> leads (lset f x (Some nd)) last cur cs l.
Proof.
  intros L. induction L as [cur|cur c r l F C L IH|cur r l F L IH|cur c r l F N1 N2 N3 G L IH|cur c r a0 t l F N1 N2 N3 G R L IH|cur c t F N1 N2 N3 G R]; intros Hl Hx;
    try (assert (F' : lset f x (Some nd) cur = Some LDir) by (rewrite lset_other; [exact F|intros ->; congruence])).
  - apply ld_end.
  - apply ld_same; auto.
  - apply ld_up; auto.
  - apply ld_down; auto. intros t. destruct (loc_eqb_spec (cur ++ [c]) x) as [<-|N]; [|rewrite lset_other; auto].
    exfalso. inversion L; subst; congruence.
  - eapply ld_link; eauto. rewrite lset_other; [exact G|intros <-; congruence].
  - eapply ld_stop; eauto. rewrite lset_other; [exact G|intros <-; congruence].
Qed.
Lemma lmove_other f s d l : ~ within s l -> ~ within d l -> lmove f s d l = f l.
Proof. intros H1 H2. unfold lmove. apply below_none in H1, H2. now rewrite H2, H1. Qed.

Lemma follow_both f n : forall cs cur l, follow f true n cur cs = Some l -> exists l', follow f false n cur cs = Some l'.
Proof.
  induction n as [|n IHn]; induction cs as [|c r IH]; intros cur l H; cbn in H |- *; eauto;
    (destruct (f cur) as [[b| |t0]|] eqn:F; try discriminate);
    (destruct (text_eqb c [] || text_eqb c [dot]); [eapply IH; exact H|]);
    (destruct (text_eqb c [dot; dot]); [eapply IH; exact H|]);
    (destruct (f (cur ++ [c])) as [[b'| |t]|] eqn:G; [eapply IH; exact H|eapply IH; exact H| |eapply IH; exact H]);
    (destruct r as [|x r]; [eauto|]); try discriminate.
  destruct t as [|a t]; [discriminate|]. eapply IHn. exact H.
Qed.
Lemma lresolve_both cfg f p l : lresolve f (cwd cfg) true p = Ok l -> exists l', lresolve f (cwd cfg) false p = Ok l'.
Proof.
  unfold lresolve. destruct (existsb _ p); [discriminate|]. destruct p as [|c p]; [discriminate|].
  destruct (follow f true 40 (if is_slash c then [] else cwd cfg) (split_sep (c :: p))) eqn:E; [|discriminate]. intros _.
  apply follow_both in E. destruct E as [l' ->]. eauto.
Qed.

Section Store.
  Variable cfg : config.
  Notation res_ f last p := (lresolve f (cwd cfg) last p).

  Lemma rename_spec s d f w w' r : calm f w -> lrename cfg s d w = (w', r) ->
    calm f w' \/ exists ls ld, r = inl tt /\ res_ f false s = Ok ls /\ res_ f false d = Ok ld /\
      (f ld = None \/ (exists b, f ld = Some (LFile b)) \/ exists t, f ld = Some (LLink t)) /\ calm (lmove f ls ld) w'.
  Proof.
    intros C. unfold lrename. match goal with |- at_path _ _ _ ?k _ = _ -> _ => destruct (at_path_spec cfg _ false s k f w C) as (x & w1 & C1 & [H|[[e H]|(ls & L & H)]]) end; rewrite H; clear H;
      try (intros [= <- <-]; now left).
    destruct x as [x|]; [intros [= <- <-]; now left|]. destruct (f ls) as [a|] eqn:F; [|intros [= <- <-]; now left].
    assert (E := C1). destruct E as [E U]. rewrite E. destruct (res_ f false d) as [ld|e|] eqn:L2; try (intros [= <- <-]; now left).
    destruct (loc_eqb ls ld); [intros [= <- <-]; now left|].
    assert (P : (LW (lmove f ls ld) (l_calls w1), inl tt) = (w', r) -> (f ld = None \/ (exists b, f ld = Some (LFile b)) \/ exists t, f ld = Some (LLink t)) ->
      calm f w' \/ exists ls0 ld0, r = inl tt /\ Ok ls = Ok ls0 /\ Ok ld = Ok ld0 /\
      (f ld0 = None \/ (exists b, f ld0 = Some (LFile b)) \/ exists t, f ld0 = Some (LLink t)) /\ calm (lmove f ls0 ld0) w').
    { intros [= <- <-] X. right. exists ls, ld. repeat (split; auto). }
    rewrite L. destruct (below ls ld); [intros [= <- <-]; now left|]. destruct (below ld ls); [intros [= <- <-]; now left|].
    destruct (f ld) as [[b| |t]|] eqn:G; destruct a as [b0| |t0]; try (intros [= <- <-]; now left); intros H; apply (P H); eauto.
  Qed.
  Lemma remove_spec s f w w' r : calm f w -> lremove cfg s w = (w', r) ->
    (calm f w' /\ exists e, r = inr e) \/ exists l, res_ f false s = Ok l /\ calm (lset f l None) w'.
  Proof.
    intros C. unfold lremove. match goal with |- at_path _ _ _ ?k _ = _ -> _ => destruct (at_path_spec cfg _ false s k f w C) as (x & w1 & C1 & [H|[[e H]|(ls & L & H)]]) end; rewrite H; clear H;
      try (intros [= <- <-]; left; now eauto).
    destruct x as [x|]; [intros [= <- <-]; left; now eauto|].
    destruct (f ls) as [[b| |t]|] eqn:F; try (intros [= <- <-]; left; now eauto); intros [= <- <-]; right; exists ls; (split; [auto|]); destruct C1 as [<- U]; now split.
  Qed.
  Lemma relink_spec s d f w w' r : calm f w -> lrelink cfg s d w = (w', r) ->
    (calm f w' /\ exists e, r = inr e) \/ exists ls t ld, res_ f false s = Ok ls /\ f ls = Some (LLink t) /\ res_ f false d = Ok ld /\ f ld = None /\ calm (lset f ld (Some (LLink t))) w'.
  Proof.
    intros C. unfold lrelink. match goal with |- at_path _ _ _ ?k _ = _ -> _ => destruct (at_path_spec cfg _ false s k f w C) as (x & w1 & C1 & [H|[[e H]|(ls & L & H)]]) end; rewrite H; clear H;
      try (intros [= <- <-]; left; now eauto).
    destruct x as [x|]; [intros [= <- <-]; left; now eauto|].
    destruct (f ls) as [[b| |t]|] eqn:F; try (intros [= <- <-]; left; now eauto).
    match goal with |- at_path _ _ _ ?k _ = _ -> _ => destruct (at_path_spec cfg _ false d k f w1 C1) as (y & w2 & C2 & [H|[[e H]|(ld & L2 & H)]]) end; rewrite H; clear H;
      try (intros [= <- <-]; left; now eauto).
    destruct y as [y|]; [intros [= <- <-]; left; now eauto|]. destruct (f ld) eqn:G; [intros [= <- <-]; left; now eauto|].
    intros [= <- <-]. right. exists ls, t, ld. do 4 (split; [auto|]). destruct C2 as [<- U]. now split.
  Qed.
  Lemma copystat_calm f w w' r : calm f w -> lcopystat w = (w', r) -> calm f w'.
  Proof. intros C. unfold lcopystat. destruct (calm_next f w C) as (x & w1 & -> & C1). intros [= <- _]. auto. Qed.

  (** The change made by moving [s] to the free name [q] *)
  Definition confined (f : lfs) (s q : text) (f' : lfs) : Prop := forall l, (forall x, res_ f false s = Ok x -> ~ within x l) ->
    f' l = f l \/ exists last ld, res_ f last q = Ok ld /\ within ld l /\ (f ld = None \/ exists t, f ld = Some (LLink t)).
  Lemma confined_refl f s q : confined f s q f.
  Proof. intros l _. now left. Qed.
  Lemma free_place f q ld : llookup f (cwd cfg) q = None -> res_ f true q = Ok ld -> f ld = None.
  Proof. unfold llookup. intros H E. now rewrite E in H. Qed.
  Lemma free_place_nofollow f q ld : llookup f (cwd cfg) q = None -> res_ f false q = Ok ld -> f ld = None \/ exists t, f ld = Some (LLink t).
  Proof.
    intros H E. destruct (f ld) as [[b| |t]|] eqn:F; eauto; exfalso.
    - assert (X : res_ f true q = Ok ld) by (apply lresolve_last; [exact E|congruence]). apply (free_place f q ld H) in X. congruence.
    - assert (X : res_ f true q = Ok ld) by (apply lresolve_last; [exact E|congruence]). apply (free_place f q ld H) in X. congruence.
  Qed.
  Lemma confined_rename f s q ls ld : llookup f (cwd cfg) q = None -> res_ f false s = Ok ls -> res_ f false q = Ok ld -> confined f s q (lmove f ls ld).
  Proof.
    intros H L1 L2 l N. destruct (within_dec ld l) as [W|W].
    - right. exists false, ld. split; auto. split; auto. eapply free_place_nofollow; eauto.
    - left. apply lmove_other; auto.
  Qed.
  (** adding a node at the free place, and then removing [s] *)
  Lemma confined_add f s q ld n : llookup f (cwd cfg) q = None -> (exists last, res_ f last q = Ok ld) -> f ld = None -> confined f s q (lset f ld n).
  Proof.
    intros H [last L] F l N. destruct (loc_eqb_spec l ld) as [->|Nl]; [|left; now apply lset_other].
    right. exists last, ld. split; auto. split; [apply within_refl|auto].
  Qed.
  Lemma confined_remove f s q ls x n f2 : res_ f false s = Ok ls -> f ls <> None -> f x = None -> f2 = lset f x (Some n) -> confined f s q f2 ->
    forall l2, res_ f2 false s = Ok l2 -> confined f s q (lset f2 l2 None).
  Proof.
    intros L Fs Fx -> K l2 L2 l N. destruct (loc_eqb_spec l l2) as [->|Nl].
    - exfalso. apply (N ls L). apply lresolve_reaches in L, L2.
      assert (L3 : reaches cfg (lset f x (Some n)) false s ls) by (apply leads_add; auto).
      rewrite (leads_det _ _ _ _ _ L2 _ L3). apply within_refl.
    - rewrite lset_other by auto. now apply K.
  Qed.
  Lemma moved_confined f s q w w' r : calm f w -> llookup f (cwd cfg) q = None ->
    lcatch (lrename cfg s q) (fun _ => lshutil_move cfg s q) w = (w', r) -> confined f s q (l_fs w').
  Proof.
    intros C H. unfold lcatch at 1. destruct (lrename cfg s q w) as [w1 r1] eqn:E1.
    destruct (rename_spec _ _ _ _ _ _ C E1) as [C1|(ls & ld & -> & L1 & L2 & F & C1)].
    2:{ intros [= <- _]. destruct C1 as [-> _]. now apply confined_rename. }
    destruct r1 as [[]|e]; [intros [= <- _]; destruct C1 as [-> _]; apply confined_refl|].
    unfold lshutil_move, lcatch. destruct (lrename cfg s q w1) as [w2 r2] eqn:E2.
    destruct (rename_spec _ _ _ _ _ _ C1 E2) as [C2|(ls & ld & -> & L1 & L2 & F & C2)].
    2:{ intros [= <- _]. destruct C2 as [-> _]. now apply confined_rename. }
    destruct r2 as [[]|e2]; [intros [= <- _]; destruct C2 as [-> _]; apply confined_refl|].
    assert (D : forall a, (w2, a) = (w', r) -> confined f s q (l_fs w')) by (intros a [= <- _]; destruct C2 as [-> _]; apply confined_refl).
    destruct e2 as [[]| | | | | |]; try (apply D). unfold lbind at 1, lislink at 1.
    destruct (res_ (l_fs w2) false s) as [ls0|e3|] eqn:L0.
    1:{ destruct (l_fs w2 ls0) as [[b0| |t0]|] eqn:G0.
      3:{ unfold lbind. destruct (lrelink cfg s q w2) as [w3 r3] eqn:E3. destruct (relink_spec _ _ _ _ _ _ C2 E3) as [[C3 [e4 ->]]|(ls & t & ld & L1 & F1 & L2 & F2 & C3)].
          { intros [= <- _]. destruct C3 as [-> _]. apply confined_refl. }
          assert (K : confined f s q (lset f ld (Some (LLink t)))) by (eapply confined_add; eauto).
          destruct r3 as [[]|e4]; [|intros [= <- _]; destruct C3 as [-> _]; exact K].
          destruct (lremove cfg s w3) as [w4 r4] eqn:E4. intros [= <- _].
          destruct (remove_spec _ _ _ _ _ C3 E4) as [[[-> _] _]|(l2 & L3 & [-> _])]; [exact K|].
          apply (confined_remove f s q ls ld (LLink t) _ L1 ltac:(rewrite F1; discriminate) F2 eq_refl K l2 L3). }
      all: unfold lbind at 1, lisdir at 1; match goal with |- context [match llookup ?a ?b ?c with _ => _ end] => destruct (llookup a b c) as [[b1| |t1]|] eqn:G1 end; try (apply D).
      all: unfold lbind at 1; destruct (lcopyfile cfg s q w2) as [w3 r3] eqn:E3;
        destruct (copyfile_spec _ _ _ _ _ _ _ C2 E3) as [[C3 [e4 ->]]|(ls & b & ld & k & L1 & F1 & L2 & N & F2 & C3 & Hr)];
        [intros [= <- _]; destruct C3 as [-> _]; apply confined_refl|].
      all: assert (F2' := free_place _ _ _ H L2).
      all: assert (K : confined f s q (lset f ld (Some (LFile (firstn k b))))) by (eapply confined_add; eauto).
      all: (destruct r3 as [[]|e4]; [|intros [= <- _]; destruct C3 as [-> _]; exact K]).
      all: unfold lbind; destruct (lcopystat w3) as [w4 r4] eqn:E4; assert (C4 := copystat_calm _ _ _ _ C3 E4).
      all: (destruct r4 as [[]|e4]; [|intros [= <- _]; destruct C4 as [-> _]; exact K]).
      all: destruct (lremove cfg s w4) as [w5 r5] eqn:E5; intros [= <- _].
      all: (destruct (remove_spec _ _ _ _ _ C4 E5) as [[[-> _] _]|(l2 & L3 & [-> _])]; [exact K|]).
      all: destruct C2 as [F0 _]; rewrite F0 in L0, G0.
      all: assert (X : res_ f true s = Ok ls0) by (apply lresolve_last; [exact L0|congruence]).
      all: rewrite L1 in X; injection X as <-; eapply confined_remove; [exact L0|rewrite F1; discriminate|exact F2'|reflexivity|exact K|exact L3]. }
    all: unfold lbind at 1, lisdir at 1; match goal with |- context [match llookup ?a ?b ?c with _ => _ end] => destruct (llookup a b c) as [[b1| |t1]|] eqn:G1 end; try (apply D).
    all: unfold lbind at 1; destruct (lcopyfile cfg s q w2) as [w3 r3] eqn:E3;
        destruct (copyfile_spec _ _ _ _ _ _ _ C2 E3) as [[C3 [e4 ->]]|(ls & b & ld & k & L1 & F1 & L2 & N & F2 & C3 & Hr)];
        [intros [= <- _]; destruct C3 as [-> _]; apply confined_refl|].
    all: exfalso; apply lresolve_both in L1; destruct L1 as [l' L1]; destruct C2 as [F0 _]; rewrite F0 in L0; congruence.
  Qed.

  Lemma lmove_there f s d : lmove f s d d = f s.
  Proof. unfold lmove. assert (E : below d d = Some []) by (apply below_spec; now rewrite app_nil_r). rewrite E. now rewrite app_nil_r. Qed.
  Lemma rename_done s d f w w' : calm f w -> lrename cfg s d w = (w', inl tt) ->
    exists ls ld a, res_ f false s = Ok ls /\ f ls = Some a /\ res_ f false d = Ok ld /\ (ls = ld \/ (l_fs w' ld = Some a /\ l_fs w' ls = None)).
  Proof.
    intros C. unfold lrename. match goal with |- at_path _ _ _ ?k _ = _ -> _ => destruct (at_path_spec cfg _ false s k f w C) as (x & w1 & C1 & [H|[[e H]|(ls & L & H)]]) end; rewrite H; clear H; try discriminate.
    destruct x as [x|]; [discriminate|]. destruct (f ls) as [a|] eqn:F; [|discriminate].
    destruct C1 as [E U]. rewrite E. destruct (res_ f false d) as [ld|e|] eqn:L2; try discriminate.
    destruct (loc_eqb_spec ls ld) as [<-|N]; [intros [= <-]; exists ls, ls, a; auto 6|].
    assert (P : below ld ls = None -> (LW (lmove f ls ld) (l_calls w1), @inl unit rexn tt) = (w', inl tt) -> exists ls0 ld0 a0, Ok ls = Ok ls0 /\ f ls0 = Some a0 /\ Ok ld = Ok ld0 /\ (ls0 = ld0 \/ (l_fs w' ld0 = Some a0 /\ l_fs w' ls0 = None))).
    { intros NB [= <-]. exists ls, ld, a. do 3 (split; [auto|]). right. cbn. rewrite lmove_there. split; [auto|]. unfold lmove. rewrite NB.
      assert (X : below ls ls = Some []) by (apply below_spec; now rewrite app_nil_r). now rewrite X. }
    rewrite L. destruct (below ls ld); [discriminate|]. destruct (below ld ls); [discriminate|]. specialize (P eq_refl).
    destruct (f ld) as [[b| |t]|] eqn:G; destruct a as [b0| |t0]; try discriminate; intros H; apply (P H).
  Qed.
  Lemma moved_done f s q w w' ls b : calm f w -> llookup f (cwd cfg) q = None -> reaches cfg f false s ls -> f ls = Some (LFile b) ->
    lcatch (lrename cfg s q) (fun _ => lshutil_move cfg s q) w = (w', inl tt) -> exists last ld, res_ f last q = Ok ld /\ l_fs w' ld = Some (LFile b) /\ l_fs w' ls = None.
  Proof.
    intros C H L0 F0.
    assert (R : forall w1 w2, calm f w1 -> lrename cfg s q w1 = (w2, inl tt) -> exists last ld, res_ f last q = Ok ld /\ l_fs w2 ld = Some (LFile b) /\ l_fs w2 ls = None).
    { intros w1 w2 C1 E. destruct (rename_done _ _ _ _ _ C1 E) as (ls' & ld & a & L1 & F1 & L2 & K).
      rewrite <- (leads_det _ _ _ _ _ L0 _ (lresolve_reaches _ _ _ _ _ L1)) in *. rewrite F0 in F1. injection F1 as <-.
      destruct K as [<-|K]; [|eauto]. exfalso. destruct (free_place_nofollow _ _ _ H L2) as [X|[t X]]; congruence. }
    unfold lcatch at 1. destruct (lrename cfg s q w) as [w1 r1] eqn:E1.
    destruct r1 as [[]|e]; [intros [= <-]; eapply R; eauto|].
    destruct (rename_spec _ _ _ _ _ _ C E1) as [C1|(? & ? & X & _)]; [|discriminate].
    unfold lshutil_move, lcatch. destruct (lrename cfg s q w1) as [w2 r2] eqn:E2.
    destruct r2 as [[]|e2]; [intros [= <-]; eapply R; eauto|].
    destruct (rename_spec _ _ _ _ _ _ C1 E2) as [C2|(? & ? & X & _)]; [|discriminate].
    destruct e2 as [[]| | | | | |]; try discriminate. unfold lbind at 1, lislink at 1. assert (C2' := C2). destruct C2' as [F2 _]. rewrite F2.
    assert (NK : match res_ f false s with Ok l => match f l with Some (LLink _) => true | _ => false end | _ => false end = false).
    { destruct (res_ f false s) as [ls'| |] eqn:L1; auto. rewrite <- (leads_det _ _ _ _ _ L0 _ (lresolve_reaches _ _ _ _ _ L1)). now rewrite F0. }
    rewrite NK. unfold lbind at 1, lisdir at 1. match goal with |- context [match llookup ?a ?b ?c with _ => _ end] => destruct (llookup a b c) as [[b1| |t1]|] eqn:G1 end; try discriminate.
    all: unfold lbind at 1; destruct (lcopyfile cfg s q w2) as [w3 r3] eqn:E3;
        destruct (copyfile_spec _ _ _ _ _ _ _ C2 E3) as [[C3 [e4 ->]]|(ls1 & b2 & ld & k & L1 & F1 & L2 & N & F3 & C3 & Hr)]; [discriminate|].
    all: destruct r3 as [[]|e4]; [|discriminate]; specialize (Hr eq_refl); rewrite Hr in C3.
    all: unfold lbind; destruct (lcopystat w3) as [w4 r4] eqn:E4; assert (C4 := copystat_calm _ _ _ _ C3 E4).
    all: destruct r4 as [[]|e4]; [|discriminate].
    all: destruct (lremove cfg s w4) as [w5 r5] eqn:E5; intros [= <- ->].
    all: assert (X : exists x, res_ f false s = Ok x) by (eapply lresolve_both; exact L1); destruct X as [x X].
    all: assert (x = ls) by (symmetry; exact (leads_det _ _ _ _ _ L0 _ (lresolve_reaches _ _ _ _ _ X))); subst x.
    all: assert (Y : res_ f true s = Ok ls) by (apply lresolve_last; [exact X|congruence]); rewrite L1 in Y; injection Y as ->.
    all: rewrite F0 in F1; injection F1 as <-; exists true, ld; (split; [exact L2|]).
    all: destruct (remove_spec _ _ _ _ _ C4 E5) as [[_ [e5 X5]]|(l2 & L3 & [-> _])]; [discriminate|].
    all: assert (Fd := free_place _ _ _ H L2).
    all: assert (L4 : reaches cfg (lset f ld (Some (LFile b))) false s ls) by (apply leads_add; [exact L0|congruence|exact Fd]).
    all: rewrite (leads_det _ _ _ _ _ (lresolve_reaches _ _ _ _ _ L3) _ L4); rewrite lset_other by auto; (split; [now rewrite lset_same|apply lset_same]).
  Qed.

  (** ** The name *)
  Lemma free_name_spec dir base ext fuel : forall tries q0 w w' r, lfree_name cfg fuel tries dir base ext q0 w = (w', r) ->
    w' = w /\ forall q, r = inl q -> llookup (l_fs w) (cwd cfg) q = None /\ (q = q0 \/ exists n, q = copy_name dir base ext n).
  Proof.
    induction fuel as [|fuel IH]; intros tries q0 w w' r; cbn [lfree_name]; unfold lbind, lexists;
      destruct (llookup (l_fs w) (cwd cfg) q0) eqn:E.
    - intros [= <- <-]. split; auto. discriminate.
    - intros [= <- <-]. split; auto. intros q [= <-]. auto.
    - intros H. apply IH in H. destruct H as [-> H]. split; auto. intros q Q. destruct (H q Q) as [H1 [->|H2]]; eauto.
    - intros [= <- <-]. split; auto. intros q [= <-]. auto.
  Qed.
  (** The names tried *)
  Definition tried (pt q : text) : Prop :=
    let d := join (root cfg) (lstrip_slash pt) in
    q = d \/ exists dir n, (dir = fst (path_split d) \/ dir = root cfg) /\
      q = copy_name dir (fst (splitext (snd (path_split d)))) (snd (splitext (snd (path_split d)))) n.
  Lemma copy_download_confined s p f w w' r : calm f w -> lcopy_download cfg s p w = (w', r) ->
    l_fs w' = f \/ exists pt q, utf8_decode p = Some pt /\ tried pt q /\ llookup f (cwd cfg) q = None /\ confined f s q (l_fs w').
  Proof.
    intros C. unfold lcopy_download. destruct (utf8_decode p) as [pt|]; [|intros [= <- _]; left; apply C].
    destruct (path_split (join (root cfg) (lstrip_slash pt))) as [dir name] eqn:PS. unfold lbind at 1, lisdir.
    destruct (splitext name) as [base ext] eqn:SE. unfold lbind. match goal with |- context [lfree_name cfg 100 0 ?x base ext _] => set (dir' := x) end.
    assert (HD : dir' = dir \/ dir' = root cfg) by (unfold dir'; match goal with |- context [if ?b then _ else _] => destruct b end; auto).
    destruct (lfree_name cfg 100 0 dir' base ext (join (root cfg) (lstrip_slash pt)) w) as [w1 r1] eqn:E1.
    destruct (free_name_spec _ _ _ _ _ _ _ _ _ E1) as [-> H]. destruct r1 as [q|e]; [|intros [= <- _]; left; apply C].
    destruct (H q eq_refl) as [H1 H2]. intros M. right. exists pt, q. split; auto. destruct C as [C1 C2]. rewrite C1 in H1.
    split; [|split; [exact H1|eapply moved_confined; [split; [exact C1|exact C2]|exact H1|exact M]]].
    unfold tried. rewrite PS. cbn [fst snd]. rewrite SE. cbn [fst snd]. destruct H2 as [->|[n ->]]; [now left|]. right. exists dir', n. auto.
  Qed.

  Lemma copy_download_done s p f w w' ls b : calm f w -> reaches cfg f false s ls -> f ls = Some (LFile b) -> lcopy_download cfg s p w = (w', inl tt) ->
    exists pt q last ld, utf8_decode p = Some pt /\ tried pt q /\ reaches cfg f last q ld /\ (f ld = None \/ exists t, f ld = Some (LLink t)) /\ l_fs w' ld = Some (LFile b) /\ l_fs w' ls = None.
  Proof.
    intros C L0 F0. unfold lcopy_download. destruct (utf8_decode p) as [pt|]; [|discriminate].
    destruct (path_split (join (root cfg) (lstrip_slash pt))) as [dir name] eqn:PS. unfold lbind at 1, lisdir.
    destruct (splitext name) as [base ext] eqn:SE. unfold lbind. match goal with |- context [lfree_name cfg 100 0 ?x base ext _] => set (dir' := x) end.
    assert (HD : dir' = dir \/ dir' = root cfg) by (unfold dir'; match goal with |- context [if ?b then _ else _] => destruct b end; auto).
    destruct (lfree_name cfg 100 0 dir' base ext (join (root cfg) (lstrip_slash pt)) w) as [w1 r1] eqn:E1.
    destruct (free_name_spec _ _ _ _ _ _ _ _ _ E1) as [-> H]. destruct r1 as [q|e]; [|discriminate].
    destruct (H q eq_refl) as [H1 H2]. intros M. exists pt, q. assert (C0 := C). destruct C as [C1 C2]. rewrite C1 in H1.
    destruct (moved_done f s q w w' ls b C0 H1 L0 F0 M) as (last & ld & K1 & K2). exists last, ld. split; auto.
    split; [|split; [exact (lresolve_reaches _ _ _ _ _ K1)|split; [destruct last; [left; eapply free_place; eauto|eapply free_place_nofollow; eauto]|exact K2]]].
    unfold tried. rewrite PS. cbn [fst snd]. rewrite SE. cbn [fst snd]. destruct H2 as [->|[n ->]]; [now left|]. right. exists dir', n. auto.
  Qed.

  Lemma slashes_split k name : ~ In slash name -> split_sep (repeat slash k ++ name) = repeat [] k ++ [name].
  Proof. intros N. induction k as [|k IH]; cbn; [now apply split_sep_plain|]. now rewrite IH. Qed.
  Lemma folder_split p dir name : splits p dir name -> exists x y, split_sep dir ++ repeat [] x = removelast (split_sep p) ++ repeat [] y.
  Proof.
    intros [N (k & -> & [[F ->]|[K _]])].
    - exists 0, 1. cbn. assert (E : exists j, dir = repeat slash j).
      { induction F as [|c l <- F [j ->]]; [now exists 0|now exists (S j)]. }
      destruct E as [j ->]. rewrite slashes_split by auto. rewrite removelast_app by discriminate. cbn. rewrite !app_nil_r.
      rewrite <- (app_nil_r (repeat slash j)). rewrite (slashes_split j []); [reflexivity|intros []].
    - destruct k as [|k]; [lia|]. exists k, 0. cbn. rewrite split_sep_app, slashes_split by auto. rewrite app_assoc, removelast_app by discriminate.
      cbn. now rewrite !app_nil_r.
  Qed.

  Section Root.
    Variables (f : lfs) (R : loc).
    Hypothesis Habs : absolute (root cfg).
    Hypothesis Hroot : reaches cfg f true (root cfg) R.
    Hypothesis Hun : unlinked f R.

    Lemma tried_inside pt q last l : ~ has_backref pt -> tried pt q -> reaches cfg f last q l -> within R l.
    Proof.
      intros NB H L. set (d := join (root cfg) (lstrip_slash pt)) in *.
      assert (NL : ~ has_backref (lstrip_slash pt)).
      { intros I. apply NB. unfold has_backref in *. destruct (lstrip_split pt) as [k K]. rewrite K. apply in_or_app. now right. }
      destruct H as [->|(dir & n & HD & ->)].
      { eapply join_inside; eauto. apply lstrip_rel. }
      fold d in HD. cbv zeta in L. fold d in L.
      pose proof (split_spec d) as SP. pose proof (ext_spec (snd (path_split d))) as EX. assert (NS := proj1 SP).
      destruct (name_parts _ _ _ EX NS) as [NB1 NE].
      set (base := fst (splitext (snd (path_split d)))) in *. set (ext := snd (splitext (snd (path_split d)))) in *.
      set (t := base ++ T "(" ++ dec_N (N.of_nat n) ++ T ")" ++ ext).
      assert (NT : ~ In slash t).
      { unfold t. rewrite !in_app_iff. pose proof (dec_N_digits (N.of_nat n)) as DD. rewrite Forall_forall in DD.
        intros [I|[I|[I|[I|I]]]]; auto.
        - destruct I as [I|[]]. discriminate I.
        - apply DD in I. discriminate I.
        - destruct I as [I|[]]. discriminate I. }
      assert (P : In 40%N t) by (unfold t; rewrite !in_app_iff; right; left; now left).
      assert (AD : absolute d) by (apply join_abs; auto).
      assert (Adir : absolute dir).
      { destruct HD as [->| ->]; auto. destruct (path_split d) as [dr nm]. cbn in SP |- *. destruct SP as [_ (k & E & H)]. destruct AD as [r AD].
        destruct dr as [|c dr]; [|rewrite AD in E; injection E as <- _; now exists dr]. exfalso.
        destruct H as [[_ ->]|[_ H]]; [|now apply H]. cbn in E. apply NS. rewrite <- E, AD. now left. }
      assert (E : split_sep (copy_name dir base ext n) = split_sep dir ++ [t]).
      { change (copy_name dir base ext n) with (dir ++ slash :: t). rewrite split_sep_app. now rewrite (split_sep_plain t). }
      unfold reaches in L. rewrite E in L.
      assert (ST : match copy_name dir base ext n with c :: _ => if is_slash c then [] else cwd cfg | [] => cwd cfg end = []).
      { destruct Adir as [r ->]. reflexivity. }
      rewrite ST in L. destruct (leads_app f last [t] ltac:(discriminate) _ _ _ L _ eq_refl) as (m & M1 & M2).
      assert (Nt : ~ In [dot; dot] [t]) by (intros [I|[]]; rewrite I in P; destruct P as [P|[P|[]]]; discriminate P).
      assert (Dm : f m = Some LDir) by (inversion M2; auto).
      eapply leads_inside; [exact Hun|exact M2| |exact Nt].
      destruct HD as [->| ->].
      2:{ assert (Hr := Hroot). unfold reaches in Hr. destruct Habs as [r Hr2]. rewrite Hr2 in Hr. change (if is_slash slash then [] else cwd cfg) with (@nil text) in Hr. rewrite <- Hr2 in Hr.
          rewrite (leads_det _ _ _ _ _ M1 _ Hr). apply within_refl. }
      destruct (folder_split _ _ _ SP) as (x & y & XY).
      apply (leads_more f true [] _ m x) in M1; auto. rewrite XY in M1. apply leads_less in M1.
      (* the components before the last *)
      assert (RN : root cfg <> []) by (destruct Habs as [r ->]; discriminate).
      assert (Z : removelast (split_sep (lstrip_slash pt)) = [] \/ removelast (split_sep (lstrip_slash pt)) <> []) by (generalize (removelast (split_sep (lstrip_slash pt))); intros [|? ?]; [now left|right; discriminate]).
      assert (Nr : ~ In [dot; dot] (removelast (split_sep (lstrip_slash pt)))).
      { intros I. apply NL. unfold has_backref. rewrite (app_removelast_last [] (split_sep_not_nil _)). apply in_or_app. now left. }
      assert (Hr := Hroot). unfold reaches in Hr. rewrite (root_start cfg) in Hr by exact Habs.
      destruct (join_split (root cfg) (lstrip_slash pt) (lstrip_rel pt) RN) as (k & [[E1 _]|(a' & E0 & E1 & _)]); fold d in E1;
        rewrite E1, removelast_app in M1 by apply split_sep_not_nil.
      - destruct Z as [Z|Z].
        + rewrite Z, app_nil_r in M1. rewrite (leads_det _ _ _ _ _ M1 _ Hr). apply within_refl.
        + eapply (beyond_root cfg f R Habs Hroot Hun true _ Z Nr); [left; reflexivity|exact M1].
      - destruct Z as [Z|Z].
        + rewrite Z, app_nil_r in M1. rewrite E0, split_sep_app in Hr. apply (leads_less f [] (split_sep a') R 1) in Hr.
          rewrite (leads_det _ _ _ _ _ M1 _ Hr). apply within_refl.
        + eapply (beyond_root cfg f R Habs Hroot Hun true _ Z Nr); [right; exists a'; split; [exact E0|reflexivity]|exact M1].
    Qed.
    Lemma stored_inside_l s p pt w l : l_fs w = f -> unbothered w -> utf8_decode p = Some pt -> ~ has_backref pt ->
      ~ within R l -> (forall x, reaches cfg f false s x -> ~ within x l) -> l_fs (lafter (lcopy_download cfg s p) w) l = f l.
    Proof.
      intros Hf U D NB N1 N2. unfold lafter. destruct (lcopy_download cfg s p w) as [w' r] eqn:E. cbn.
      destruct (copy_download_confined s p f w w' r (conj Hf U) E) as [->|(pt' & q & D' & Q & _ & K)]; auto. rewrite D in D'. injection D' as <-.
      destruct (K l) as [K1|(last & ld & L & W & _)]; auto.
      - intros x X. apply N2. exact (lresolve_reaches _ _ _ _ _ X).
      - exfalso. apply N1. eapply within_trans; [|exact W]. exact (tried_inside pt q last ld NB Q (lresolve_reaches _ _ _ _ _ L)).
    Qed.
    Lemma stored_there s p pt w w' ls b : l_fs w = f -> unbothered w -> utf8_decode p = Some pt -> ~ has_backref pt ->
      reaches cfg f false s ls -> f ls = Some (LFile b) -> lcopy_download cfg s p w = (w', inl tt) ->
      exists l, within R l /\ f l = None /\ l_fs w' l = Some (LFile b) /\ l_fs w' ls = None.
    Proof.
      intros Hf U D NB L0 F0 E. destruct (copy_download_done s p f w w' ls b (conj Hf U) L0 F0 E) as (pt' & q & last & ld & D' & Q & L & N & K).
      rewrite D in D'. injection D' as <-. exists ld. assert (W := tried_inside pt q last ld NB Q L). split; [exact W|]. split; [|exact K].
      destruct N as [N|[t N]]; [exact N|]. exfalso. match goal with U : unlinked f R |- _ => exact (U ld t W N) end.
    Qed.
  End Root.

  Lemma ltree_above f l r : ltree f -> f (l ++ r) <> None -> r <> [] -> f l = Some LDir.
  Proof.
    intros [_ T]. revert l. induction r as [|x r IH]; intros l H N; [congruence|].
    destruct r as [|y r].
    - now apply (T l x).
    - apply (T l x). rewrite (IH (l ++ [x])); [discriminate| |discriminate]. rewrite <- app_assoc. exact H.
  Qed.
  Lemma existing_kept s p w l : unbothered w -> ltree (l_fs w) -> l_fs w l <> None -> (forall t, l_fs w l <> Some (LLink t)) ->
    (forall x, reaches cfg (l_fs w) false s x -> ~ within x l) -> l_fs (lafter (lcopy_download cfg s p) w) l = l_fs w l.
  Proof.
    intros U Tr N NL Ns. unfold lafter. destruct (lcopy_download cfg s p w) as [w' r] eqn:E. cbn.
    destruct (copy_download_confined s p (l_fs w) w w' r (conj eq_refl U) E) as [->|(pt' & q & D' & Q & _ & K)]; auto.
    destruct (K l) as [K1|(last & ld & L & [r0 ->] & F)]; auto.
    - intros x X. apply Ns. exact (lresolve_reaches _ _ _ _ _ X).
    - exfalso. destruct r0 as [|x r0].
      + rewrite app_nil_r in *. destruct F as [F|[t F]]; [congruence|]. now apply NL in F.
      + rewrite (ltree_above _ ld (x :: r0) Tr N ltac:(discriminate)) in F. destruct F as [F|[t F]]; discriminate.
  Qed.
End Store.
