(** Path resolution with links *)
From Verif Require Import Py Py_lemmas Model_Path Model_Remote Spec_Remote Proof_Path Model_Links Spec_Links.

Lemma lset_same f l n : lset f l n l = n.
Proof. unfold lset. now rewrite loc_eqb_refl. Qed.
Lemma lset_other f l n x : x <> l -> lset f l n x = f x.
Proof. unfold lset. intros H. destruct (loc_eqb_spec x l); congruence. Qed.

(** ** [follow] finds where names lead *)
Lemma follow_leads f last n : forall cs cur l, follow f last n cur cs = Some l -> leads f last cur cs l.
Proof.
  induction n as [|n IHn]; induction cs as [|c r IH]; intros cur l H; cbn in H;
    try (injection H as <-; apply ld_end);
    (destruct (f cur) as [[b| |t0]|] eqn:F; try discriminate);
    (destruct (text_eqb_spec c []) as [->|N1]; cbn in H; [apply ld_same; [exact F|auto|apply IH, H]|]);
    (destruct (text_eqb_spec c [dot]) as [->|N2]; cbn in H; [apply ld_same; [exact F|auto|apply IH, H]|]);
    (destruct (text_eqb_spec c [dot; dot]) as [->|N3]; cbn in H; [apply ld_up; [exact F|apply IH, H]|]);
    (assert (D : (forall t, f (cur ++ [c]) <> Some (LLink t)) -> leads f last (cur ++ [c]) r l -> leads f last cur (c :: r) l) by (intros; now apply ld_down));
    (destruct (f (cur ++ [c])) as [[b'| |t]|] eqn:G;
       [apply D; [intros; discriminate|apply IH, H]|apply D; [intros; discriminate|apply IH, H]| |apply D; [intros; discriminate|apply IH, H]]).
  - destruct r as [|x r]; [destruct last; [discriminate|]|discriminate]. injection H as <-. eapply ld_stop; eauto.
  - destruct r as [|x r].
    + destruct last.
      * destruct t as [|a t]; [discriminate|]. eapply ld_link; eauto.
      * injection H as <-. eapply ld_stop; eauto.
    + assert (H' : match t with [] => None | a :: _ => follow f last n (if is_slash a then [] else cur) (split_sep t ++ x :: r) end = Some l) by (destruct last; exact H).
      destruct t as [|a t]; [discriminate|]. eapply ld_link; eauto. left; discriminate.
Qed.
Lemma lresolve_reaches cfg f last p l : lresolve f (cwd cfg) last p = Ok l -> reaches cfg f last p l.
Proof.
  unfold lresolve, reaches. destruct (existsb _ p); [discriminate|]. destruct p as [|c p]; [discriminate|].
  destruct (follow f last 40 (if is_slash c then [] else cwd cfg) (split_sep (c :: p))) eqn:E; [|discriminate]. intros [= <-]. eapply follow_leads, E.
Qed.
(** Not following the last link either stops at a link or is the same as following it *)
Lemma follow_last f n : forall cs cur l, follow f false n cur cs = Some l -> (exists t, f l = Some (LLink t)) \/ follow f true n cur cs = Some l.
Proof.
  induction n as [|n IHn]; induction cs as [|c r IH]; intros cur l H; cbn in H |- *; auto;
    (destruct (f cur) as [[b| |t0]|] eqn:F; try discriminate);
    (destruct (text_eqb c [] || text_eqb c [dot]); [auto|]);
    (destruct (text_eqb c [dot; dot]); [auto|]);
    (destruct (f (cur ++ [c])) as [[b'| |t]|] eqn:G; auto);
    (destruct r as [|x r]; [injection H as <-; left; eauto|]); try discriminate.
  destruct t as [|a t]; [discriminate|]. auto.
Qed.
Lemma lresolve_last cfg f p l : lresolve f (cwd cfg) false p = Ok l -> (forall t, f l <> Some (LLink t)) -> lresolve f (cwd cfg) true p = Ok l.
Proof.
  unfold lresolve. destruct (existsb _ p); [discriminate|]. destruct p as [|c p]; [discriminate|].
  destruct (follow f false 40 (if is_slash c then [] else cwd cfg) (split_sep (c :: p))) eqn:E; [|discriminate]. intros [= <-] N.
  apply follow_last in E. destruct E as [[t E]|E]; [now apply N in E|]. now rewrite E.
Qed.

(** ** Leading *)
Lemma leads_det f last cur cs l : leads f last cur cs l -> forall l', leads f last cur cs l' -> l = l'.
Proof.
  induction 1 as [cur|cur c r l F C L IH|cur r l F L IH|cur c r l F N1 N2 N3 G L IH|cur c r a0 t l F N1 N2 N3 G R L IH|cur c t F N1 N2 N3 G R]; intros l' H'.
  - inversion H'; auto.
  - inversion H'; subst; auto; destruct C; congruence.
  - inversion H'; subst; auto; try congruence. match goal with H : _ \/ _ |- _ => destruct H; discriminate end.
  - inversion H'; subst; auto; try congruence; try (match goal with H : _ \/ _ |- _ => destruct H; congruence end);
      match goal with H : _ = Some (LLink _) |- _ => now apply G in H end.
  - inversion H'; subst; auto; try congruence;
      try (match goal with H : c = [] \/ _ |- _ => destruct H; congruence end);
      try (match goal with H : forall t, _ <> Some (LLink t) |- _ => now apply H in G end).
    + match goal with H : f (cur ++ [c]) = Some (LLink (_ :: _)) |- _ => rewrite G in H; injection H as <- <- end. auto.
    + destruct R as [R|R]; [now destruct R|discriminate].
  - inversion H'; subst; auto; try congruence;
      try (match goal with H : c = [] \/ _ |- _ => destruct H; congruence end);
      try (match goal with H : forall t, _ <> Some (LLink t) |- _ => now apply H in G end);
      try (match goal with H : _ <> _ \/ _ |- _ => destruct H as [H|H]; [now destruct H|discriminate] end).
Qed.
Lemma leads_app f last b : b <> [] -> forall cur cs l, leads f last cur cs l -> forall a, cs = a ++ b -> exists m, leads f true cur a m /\ leads f last m b l.
Proof.
  intros Nb. induction 1 as [cur|cur c r l F C L IH|cur r l F L IH|cur c r l F N1 N2 N3 G L IH|cur c r a0 t l F N1 N2 N3 G R L IH|cur c t F N1 N2 N3 G R]; intros a E.
  - destruct a; [cbn in E; subst; exists cur; split; constructor|discriminate].
  - destruct a as [|x a]; cbn in E; [subst b; exists cur; split; [constructor|constructor; auto]|]. injection E as <- ->.
    destruct (IH _ eq_refl) as (m & M1 & M2). exists m. split; auto. constructor; auto.
  - destruct a as [|x a]; cbn in E; [subst b; exists cur; split; [constructor|apply ld_up; auto]|]. injection E as <- ->.
    destruct (IH _ eq_refl) as (m & M1 & M2). exists m. split; auto. apply ld_up; auto.
  - destruct a as [|x a]; cbn in E; [subst b; exists cur; split; [constructor|apply ld_down; auto]|]. injection E as <- ->.
    destruct (IH _ eq_refl) as (m & M1 & M2). exists m. split; auto. apply ld_down; auto.
  - destruct a as [|x a]; cbn in E; [subst b; exists cur; split; [constructor|eapply ld_link; eauto]|]. injection E as <- ->.
    destruct (IH (split_sep (a0 :: t) ++ a)) as (m & M1 & M2); [now rewrite app_assoc|]. exists m. split; auto. eapply ld_link; eauto.
  - destruct a as [|x a]; cbn in E; [subst b; exists cur; split; [constructor|eapply ld_stop; eauto]|]. injection E as _ E.
    destruct a; [cbn in E; now destruct (Nb (eq_sym E))|discriminate].
Qed.
Lemma leads_empties f cur j l : leads f true cur (repeat [] j) l -> l = cur.
Proof.
  revert cur. induction j as [|j IH]; intros cur H; cbn in H; inversion H; subst; auto; congruence.
Qed.
Lemma leads_more f last cur cs m x : leads f last cur cs m -> last = true -> f m = Some LDir -> leads f last cur (cs ++ repeat [] x) m.
Proof.
  intros L E D. induction L; cbn [app].
  - induction x; cbn; [constructor|apply ld_same; auto].
  - apply ld_same; auto.
  - apply ld_up; auto.
  - apply ld_down; auto.
  - eapply ld_link; eauto. rewrite app_assoc. auto.
  - congruence.
Qed.
Lemma leads_less f cur cs m x : leads f true cur (cs ++ repeat [] x) m -> leads f true cur cs m.
Proof.
  intros L. destruct x as [|x]; [cbn in L; now rewrite app_nil_r in L|].
  destruct (leads_app f true (repeat [] (S x)) ltac:(discriminate) _ _ _ L cs eq_refl) as (k & K1 & K2).
  apply leads_empties in K2. now subst.
Qed.
Lemma leads_inside f last R : unlinked f R -> forall cur cs l, leads f last cur cs l -> within R cur -> ~ In [dot; dot] cs -> within R l.
Proof.
  intros U. induction 1 as [cur|cur c r l F C L IH|cur r l F L IH|cur c r l F N1 N2 N3 G L IH|cur c r a0 t l F N1 N2 N3 G K L IH|cur c t F N1 N2 N3 G K]; intros W N; auto.
  - apply IH; auto. intros X. apply N. now right.
  - exfalso. apply N. now left.
  - apply IH; [|intros X; apply N; now right]. eapply within_trans; eauto. now exists [c].
  - exfalso. apply (U (cur ++ [c]) (a0 :: t)); auto. eapply within_trans; eauto. now exists [c].
  - eapply within_trans; eauto. now exists [c].
Qed.
(** A directory more, or another content, does not change where names lead *)
Lemma leads_mono f f1 last cur cs l : leads f last cur cs l -> (forall x t, f x = Some (LLink t) -> f1 x = Some (LLink t)) ->
  (forall x, f x = Some LDir -> f1 x = Some LDir) -> (forall x t, f1 x = Some (LLink t) -> f x = Some (LLink t)) -> leads f1 last cur cs l.
Proof.
  intros L A1 A2 A3. induction L; try (now constructor; auto).
  - apply ld_down; auto. intros t X. apply A3 in X. now apply H3 in X.
  - eapply ld_link; eauto.
  - eapply ld_stop; eauto.
Qed.

(** ** Paths in the remote directory *)
Section Root.
  Variable cfg : config.
  Variables (f : lfs) (R : loc).
  Hypothesis Habs : absolute (root cfg).
  Hypothesis Hroot : reaches cfg f true (root cfg) R.
  Hypothesis Hun : unlinked f R.
  Local Notation start p := (match p with c :: _ => if is_slash c then [] else cwd cfg | [] => cwd cfg end).

  Lemma root_start p : absolute p -> start p = [].
  Proof. intros [r ->]. reflexivity. Qed.
  (** What leads on from the components of the root *)
  Lemma beyond_root last rest : rest <> [] -> ~ In [dot; dot] rest -> forall l cs,
    (cs = split_sep (root cfg) ++ rest \/ exists a', root cfg = a' ++ [slash] /\ cs = split_sep a' ++ rest) ->
    leads f last [] cs l -> within R l.
  Proof.
    intros Nr Nb l cs E L. assert (Hr := Hroot). unfold reaches in Hr. rewrite (root_start _ Habs) in Hr.
    destruct E as [->|(a' & Ea & ->)].
    - destruct (leads_app f last rest Nr _ _ _ L _ eq_refl) as (m & M1 & M2). assert (m = R) by (eapply leads_det; eauto). subst m.
      eapply leads_inside; eauto. apply within_refl.
    - destruct (leads_app f last rest Nr _ _ _ L _ eq_refl) as (m & M1 & M2).
      rewrite Ea, split_sep_app in Hr. apply (leads_less f [] (split_sep a') R 1) in Hr.
      assert (m = R) by (eapply leads_det; eauto). subst m. eapply leads_inside; eauto. apply within_refl.
  Qed.
  Lemma join_inside last p l : ~ absolute p -> ~ has_backref p -> reaches cfg f last (join (root cfg) p) l -> within R l.
  Proof.
    intros Np Nb L. unfold reaches in L. rewrite root_start in L by now apply join_abs.
    assert (Hne : root cfg <> []) by (destruct Habs as [r ->]; discriminate).
    destruct (join_split (root cfg) p Np Hne) as (k & [[H _]|(a' & H1 & H2 & _)]).
    - rewrite H in L. eapply (beyond_root last (split_sep p)); [apply split_sep_not_nil|exact Nb|left; reflexivity|exact L].
    - rewrite H2 in L. eapply (beyond_root last (split_sep p)); [apply split_sep_not_nil|exact Nb|right; exists a'; split; [exact H1|reflexivity]|exact L].
  Qed.
End Root.
