(** * Facts about dictionaries and lists used by several proofs *)
From Verif Require Import Py.

Section D.
  Context {K V : Type} (keqb : K -> K -> bool).
  Hypothesis keqb_spec : forall a b, reflect (a = b) (keqb a b).
  Implicit Types d : list (K * V).
  Notation get := (@dict_get K V keqb).
  Notation set := (@dict_set K V keqb).
  Notation del := (@dict_del K V keqb).

  Lemma keqb_refl k : keqb k k = true.
  Proof. destruct (keqb_spec k k); congruence. Qed.
  Lemma get_set_eq k (v : V) d : get k (set k v d) = Some v.
  Proof.
    induction d as [|[k' v'] d IH]; cbn; [now rewrite keqb_refl|].
    destruct (keqb k' k) eqn:E; cbn; rewrite E; auto.
  Qed.
  Lemma get_set_neq k k' (v : V) d : k <> k' -> get k' (set k v d) = get k' d.
  Proof.
    intros Hn. induction d as [|[k2 v2] d IH]; cbn.
    - destruct (keqb_spec k k'); congruence.
    - destruct (keqb_spec k2 k) as [->|]; cbn.
      + destruct (keqb_spec k k'); congruence.
      + now rewrite IH.
  Qed.
  Lemma get_set k k' (v : V) d : get k' (set k v d) = if keqb k k' then Some v else get k' d.
  Proof. destruct (keqb_spec k k') as [->|]; [apply get_set_eq|now apply get_set_neq]. Qed.
  Lemma get_in k (v : V) d : get k d = Some v -> In (k, v) d.
  Proof.
    induction d as [|[k' v'] d IH]; cbn; [discriminate|].
    destruct (keqb_spec k' k) as [->|]; [intros [= ->]; auto|auto].
  Qed.
  Lemma get_nodup k (v : V) d : NoDup (map fst d) -> In (k, v) d -> get k d = Some v.
  Proof.
    induction d as [|[k' v'] d IH]; cbn; [tauto|]. intros Hn [H|H]; inversion Hn as [|? ? Hni Hnd]; subst.
    - injection H as -> ->. now rewrite keqb_refl.
    - destruct (keqb_spec k' k) as [->|]; auto. exfalso. apply Hni. apply in_map_iff. now exists (k, v).
  Qed.
  Lemma get_none k d : get k d = None <-> ~ In k (map fst d).
  Proof.
    induction d as [|[k' v'] d IH]; cbn; [tauto|]. destruct (keqb_spec k' k) as [->|]; [split; [discriminate|tauto]|].
    rewrite IH. intuition congruence.
  Qed.
  Lemma get_some_key k (v : V) d : get k d = Some v -> In k (map fst d).
  Proof. intros H. apply get_in in H. apply in_map_iff. now exists (k, v). Qed.
  Lemma set_fresh k (v : V) d : get k d = None -> set k v d = d ++ [(k, v)].
  Proof. induction d as [|[k' v'] d IH]; cbn; auto. destruct (keqb k' k); [discriminate|]. intros H. now rewrite IH. Qed.
  Lemma set_keys k (v : V) d : get k d <> None -> map fst (set k v d) = map fst d.
  Proof. induction d as [|[k' v'] d IH]; cbn; [congruence|]. destruct (keqb k' k); cbn; auto. intros H. now rewrite IH. Qed.
  Lemma set_nodup k (v : V) d : NoDup (map fst d) -> NoDup (map fst (set k v d)).
  Proof.
    intros H. destruct (get k d) as [w|] eqn:E.
    - rewrite set_keys by congruence. auto.
    - rewrite set_fresh by auto. rewrite map_app. cbn. apply get_none in E.
      revert H E. generalize (map fst d). intros l. induction l as [|x l IH]; cbn; intros H E; [repeat constructor; auto|].
      inversion H; subst. constructor; [|apply IH; tauto]. rewrite in_app_iff. cbn. intuition.
  Qed.
  Lemma get_del k k' d : NoDup (map fst d) -> get k' (del k d) = if keqb k k' then None else get k' d.
  Proof.
    induction d as [|[k2 v2] d IH]; cbn; intros H.
    - now destruct (keqb k k').
    - inversion H as [|? ? Hni Hnd]; subst. destruct (keqb_spec k2 k) as [->|].
      + destruct (keqb_spec k k') as [->|]; auto. now apply get_none.
      + cbn. destruct (keqb_spec k2 k') as [->|].
        * destruct (keqb_spec k k'); congruence.
        * auto.
  Qed.
  Lemma del_incl k d x : In x (del k d) -> In x d.
  Proof. induction d as [|[k2 v2] d IH]; cbn; [tauto|]. destruct (keqb k2 k); cbn; tauto. Qed.
  Lemma del_nodup k d : NoDup (map fst d) -> NoDup (map fst (del k d)).
  Proof.
    induction d as [|[k2 v2] d IH]; cbn; auto. intros H. inversion H as [|? ? Hni Hnd]; subst.
    destruct (keqb k2 k); auto. cbn. constructor; auto. intros Hin. apply Hni.
    apply in_map_iff in Hin as [[a b] [E Hin]]. apply del_incl in Hin. apply in_map_iff. exists (a, b). auto.
  Qed.
End D.

Lemma nth_error_app_new {A} (l : list A) x : nth_error (l ++ [x]) (length l) = Some x.
Proof. rewrite nth_error_app2 by lia. now rewrite Nat.sub_diag. Qed.
Lemma nth_error_app_old {A} (l : list A) m i x : nth_error l i = Some x -> nth_error (l ++ m) i = Some x.
Proof. intros H. rewrite nth_error_app1; auto. apply nth_error_Some. congruence. Qed.
Lemma nodup_snoc {A} (l : list A) x : NoDup l -> ~ In x l -> NoDup (l ++ [x]).
Proof.
  induction l as [|y l IH]; cbn; intros H Hx; [repeat constructor; auto|].
  inversion H; subst. constructor; [|apply IH; tauto]. rewrite in_app_iff. cbn. intuition.
Qed.

(** Reflexive transitive closure. *)
Section Star.
  Context {A : Type} (R : A -> A -> Prop).
  Inductive star : A -> A -> Prop :=
  | star_refl x : star x x
  | star_step x y z : R x y -> star y z -> star x z.
  Lemma star_one x y : R x y -> star x y.
  Proof. intros H. econstructor; [exact H|constructor]. Qed.
  Lemma star_trans x y z : star x y -> star y z -> star x z.
  Proof. induction 1; auto. intros. econstructor; eauto. Qed.
  Lemma star_inv (P : A -> Prop) : (forall x y, R x y -> P x -> P y) -> forall x y, star x y -> P x -> P y.
  Proof. intros H x y. induction 1; eauto. Qed.
End Star.
Lemma star_mono {A} (R S : A -> A -> Prop) : (forall x y, R x y -> S x y) -> forall x y, star R x y -> star S x y.
Proof. intros H x y. induction 1; [constructor|econstructor; eauto]. Qed.
