(** * Links: the scan result, and file systems of the examples *)
From Verif Require Import Py Model_Path Model_Remote Spec_Remote Proof_Path Model_Links Spec_Links Proof_Links Proof_Links2.

Lemma leads_last f cur cs l : leads f false cur cs l -> (forall t, f l <> Some (LLink t)) -> leads f true cur cs l.
Proof.
  intros L N. induction L.
  - apply ld_end.
  - apply ld_same; auto.
  - apply ld_up; auto.
  - apply ld_down; auto.
  - eapply ld_link; eauto.
  - now apply N in H3.
Qed.

Section Scan.
  Variable cfg : config.
  Lemma scan_only d w x l : unbothered w -> reaches cfg (l_fs w) false (scan_path cfg) x -> (forall t, l_fs w x <> Some (LLink t)) -> l <> x ->
    l_fs (lafter (lwrite_scan cfg d) w) l = l_fs w l.
  Proof.
    intros U L N D. destruct (scan_written cfg d w l U) as [H|[H _]]; auto. exfalso. apply D.
    exact (leads_det _ _ _ _ _ H _ (leads_last _ _ _ _ L N)).
  Qed.
  Lemma scan_done d w w' : unbothered w -> lwrite_scan cfg d w = (w', inl tt) ->
    exists l, reaches cfg (l_fs w) true (scan_path cfg) l /\ l_fs w' l = Some (LFile d).
  Proof.
    intros U. assert (C : calm (l_fs w) w) by (split; auto). unfold lwrite_scan, lwrite_all. fold (scan_path cfg).
    match goal with |- context [Model_Links.at_path _ _ _ ?k w] => destruct (at_path_spec cfg _ true (scan_path cfg) k (l_fs w) w C) as (x & w1 & [C1 U1] & [H|[[e H]|(l1 & L & H)]]) end; rewrite H; clear H; try discriminate.
    intros E. exists l1. split; [exact (lresolve_reaches _ _ _ _ _ L)|].
    destruct (l_fs w l1) as [[b| |t]|]; destruct x as [x|]; try discriminate; injection E as <-; cbn; apply lset_same.
  Qed.
End Scan.

(** ** File systems given by a list *)
Definition lfs_of (es : list (loc * lnode)) : lfs := fun l =>
  match l with [] => Some LDir | _ => match find (fun e => loc_eqb (fst e) l) es with Some e => Some (snd e) | None => None end end.
Definition ltreeb (es : list (loc * lnode)) : bool :=
  forallb (fun e => match lfs_of es (removelast (fst e)) with Some LDir => true | _ => false end) es.
Lemma lfs_of_tree es : ltreeb es = true -> ltree (lfs_of es).
Proof.
  intros H. split; [reflexivity|]. intros l n N. unfold lfs_of in N. destruct (l ++ [n]) eqn:E; [now destruct l|]. rewrite <- E in N.
  destruct (find _ es) as [e|] eqn:F; [|contradiction]. apply find_some in F. destruct F as [I F].
  unfold ltreeb in H. rewrite forallb_forall in H. specialize (H e I). cbv beta in H. destruct (loc_eqb_spec (fst e) (l ++ [n])) as [G|]; [|discriminate].
  destruct e as [le ne]. cbn [fst snd] in *. subst le. rewrite removelast_last in H. destruct (lfs_of es l) as [[]|]; congruence.
Qed.
Definition unlinkedb (es : list (loc * lnode)) (r : loc) : bool :=
  forallb (fun e => match snd e with LLink _ => negb (match below r (fst e) with Some _ => true | None => false end) | _ => true end) es.
Lemma lfs_of_unlinked es r : unlinkedb es r = true -> unlinked (lfs_of es) r.
Proof.
  intros H l t [x ->] N. unfold lfs_of in N. destruct (r ++ x) eqn:E; [discriminate|]. rewrite <- E in N.
  destruct (find _ es) as [e|] eqn:F; [|discriminate]. apply find_some in F. destruct F as [I F].
  unfold unlinkedb in H. rewrite forallb_forall in H. specialize (H e I). cbv beta in H. destruct (loc_eqb_spec (fst e) (r ++ x)) as [G|]; [|discriminate].
  destruct e as [le ne]. cbn [fst snd] in *. injection N as ->. subst le. assert (K : below r (r ++ x) = Some x) by now apply below_spec. now rewrite K in H.
Qed.
