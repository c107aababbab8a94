From Verif Require Import Py Py_lemmas Model_Packets Model_Path Model_Remote Spec_Remote.

(** ** Locations *)
Lemma loc_eqb_eq a b : loc_eqb a b = true <-> a = b.
Proof. apply list_eqb_eq. apply text_eqb_eq. Qed.
Lemma loc_eqb_refl a : loc_eqb a a = true.
Proof. now apply loc_eqb_eq. Qed.
Lemma loc_eqb_spec a b : reflect (a = b) (loc_eqb a b).
Proof. apply iff_reflect. symmetry. apply loc_eqb_eq. Qed.
Lemma set_same f l n : set_node f l n l = n.
Proof. unfold set_node. now rewrite loc_eqb_refl. Qed.
Lemma set_other f l n x : x <> l -> set_node f l n x = f x.
Proof. unfold set_node. intros H. destruct (loc_eqb_spec x l); congruence. Qed.

Lemma below_spec a l r : below a l = Some r <-> l = a ++ r.
Proof.
  revert l; induction a as [|x a IH]; intros l; cbn.
  - split; [intros [= ->]|intros ->]; reflexivity.
  - destruct l as [|y l]; [split; discriminate|].
    destruct (text_eqb_spec x y); [subst; rewrite IH; split; congruence|split; congruence].
Qed.
Lemma below_none a l : below a l = None <-> ~ within a l.
Proof.
  destruct (below a l) as [r|] eqn:E.
  - apply below_spec in E. split; [discriminate|]. intros H. exfalso. apply H. now exists r.
  - split; auto. intros _ [r H]. apply below_spec in H. congruence.
Qed.
Lemma within_refl l : within l l.
Proof. exists []. now rewrite app_nil_r. Qed.
Lemma within_trans a b c : within a b -> within b c -> within a c.
Proof. intros [r ->] [s ->]. exists (r ++ s). now rewrite app_assoc. Qed.
Lemma within_dec a l : within a l \/ ~ within a l.
Proof.
  destruct (below a l) as [r|] eqn:E; [left; apply below_spec in E; now exists r|].
  right. now apply below_none.
Qed.

(** ** Text *)
Lemma is_slash_spec c : reflect (c = slash) (is_slash c).
Proof. apply N.eqb_spec. Qed.
Lemma split_sep_not_nil p : split_sep p <> [].
Proof. destruct p as [|c r]; cbn; [discriminate|]. destruct (is_slash c); [discriminate|]. destruct (split_sep r); discriminate. Qed.
Lemma split_sep_app a b : split_sep (a ++ slash :: b) = split_sep a ++ split_sep b.
Proof.
  induction a as [|c a IH]; [reflexivity|]. cbn. rewrite IH. destruct (is_slash c); [reflexivity|].
  destruct (split_sep a) eqn:E; [now apply split_sep_not_nil in E|]. reflexivity.
Qed.
Lemma split_sep_plain p : ~ In slash p -> split_sep p = [p].
Proof.
  induction p as [|c p IH]; intros H; [reflexivity|]. cbn. destruct (is_slash_spec c); [subst; exfalso; apply H; now left|].
  rewrite IH; [reflexivity|]. intros X. apply H. now right.
Qed.
Lemma starts_with_spec a p : starts_with a p = true <-> exists r, p = a ++ r.
Proof.
  revert p; induction a as [|x a IH]; intros p; cbn; [split; eauto|].
  destruct p as [|y p]; [split; [discriminate|intros [r H]; discriminate]|].
  rewrite andb_true_iff, N.eqb_eq, IH. split; [intros [-> [r ->]]; now exists r|].
  intros [r H]. injection H as -> ->. split; eauto.
Qed.
Lemma ends_slash_spec p : ends_slash p = true <-> exists q, p = q ++ [slash].
Proof.
  unfold ends_slash. split.
  - destruct (rev p) as [|c r] eqn:E; [discriminate|]. intros H. destruct (is_slash_spec c); [|discriminate]. subst c.
    exists (rev r). rewrite <- (rev_involutive p), E. reflexivity.
  - intros [q ->]. rewrite rev_app_distr. reflexivity.
Qed.
(** join with a relative second part: components one after the other, up to empty names *)
Lemma join_split a b : ~ absolute b -> a <> [] -> exists k, (split_sep (join a b) = split_sep a ++ split_sep b /\ k = 0) \/
  (exists a', a = a' ++ [slash] /\ split_sep (join a b) = split_sep a' ++ split_sep b /\ k = 1).
Proof.
  intros Hb Ha. unfold join. destruct (starts_with [slash] b) eqn:E.
  { apply starts_with_spec in E. destruct E as [r ->]. exfalso. apply Hb. now exists r. }
  destruct a as [|c a]; [congruence|]. destruct (ends_slash (c :: a)) eqn:E2.
  - apply ends_slash_spec in E2. destruct E2 as [q Q]. exists 1. right. exists q. split; auto. split; auto.
    rewrite Q, <- app_assoc. cbn [app]. apply split_sep_app.
  - exists 0. left. split; auto. cbn [app]. apply (split_sep_app (c :: a) b).
Qed.
Lemma join_abs a b : absolute a -> absolute (join a b).
Proof.
  intros [r ->]. unfold join. destruct (starts_with [slash] b) eqn:E.
  { apply starts_with_spec in E. destruct E as [s ->]. now exists s. }
  destruct (ends_slash (slash :: r)); eexists; reflexivity.
Qed.
Lemma lstrip_rel p : ~ absolute (lstrip_slash p).
Proof.
  intros [r H]. unfold lstrip_slash in H. induction p as [|c p IH]; [discriminate|]. cbn in H.
  destruct (is_slash c) eqn:E; [auto|]. injection H as -> ->. discriminate.
Qed.
Lemma plain_rel n : plain n -> ~ absolute n.
Proof. intros (_ & _ & _ & H & _) [r ->]. apply H. now left. Qed.
Lemma lstrip_split p : exists k, split_sep p = repeat [] k ++ split_sep (lstrip_slash p).
Proof.
  induction p as [|c p [k IH]]; [exists 0; reflexivity|]. cbn. unfold lstrip_slash in *. cbn.
  destruct (is_slash c) eqn:E; [exists (S k); cbn; now rewrite IH|]. exists 0. cbn. now rewrite E.
Qed.

(** ** norm and walk *)
Lemma norm_app cur a b : norm cur (a ++ b) = norm (norm cur a) b.
Proof.
  revert cur; induction a as [|c a IH]; intros cur; [reflexivity|]. cbn.
  destruct (text_eqb c [] || text_eqb c [dot]); [apply IH|]. destruct (text_eqb c [dot; dot]); apply IH.
Qed.
Lemma norm_empty cur k : norm cur (repeat [] k) = cur.
Proof. induction k; [reflexivity|]. exact IHk. Qed.
Lemma norm_plain cur n : plain n -> norm cur [n] = cur ++ [n].
Proof.
  intros (H1 & H2 & H3 & _). cbn. destruct (text_eqb_spec n []); [congruence|]. destruct (text_eqb_spec n [dot]); [congruence|].
  destruct (text_eqb_spec n [dot; dot]); [congruence|]. reflexivity.
Qed.
Lemma walk_norm f cs : forall cur l, walk f cur cs = Some l -> l = norm cur cs.
Proof.
  induction cs as [|c cs IH]; intros cur l; cbn; [congruence|].
  destruct (f cur) as [[|]|]; try discriminate.
  destruct (text_eqb c [] || text_eqb c [dot]); [apply IH|]. destruct (text_eqb c [dot; dot]); apply IH.
Qed.
Lemma walk_app f a b cur : walk f cur (a ++ b) = match walk f cur a with Some l => walk f l b | None => None end.
Proof.
  revert cur; induction a as [|c a IH]; intros cur; [reflexivity|]. cbn. destruct (f cur) as [[|]|]; auto.
  destruct (text_eqb c [] || text_eqb c [dot]); [apply IH|]. destruct (text_eqb c [dot; dot]); apply IH.
Qed.
Lemma norm_no_backref cs : ~ In [dot; dot] cs -> forall cur, within cur (norm cur cs).
Proof.
  induction cs as [|c cs IH]; intros H cur; [apply within_refl|]. cbn.
  assert (H' : ~ In [dot; dot] cs) by (intros X; apply H; now right).
  destruct (text_eqb c [] || text_eqb c [dot]); [now apply IH|].
  destruct (text_eqb_spec c [dot; dot]); [subst; exfalso; apply H; now left|].
  eapply within_trans; [|now apply IH]. now exists [c].
Qed.

Lemma resolve_place cfg f p l : resolve f (cwd cfg) p = Ok l -> l = place cfg p.
Proof.
  unfold resolve, place. destruct (existsb _ p); [discriminate|]. destruct p as [|c p]; [discriminate|].
  destruct (walk f _ _) eqn:E; [|discriminate]. intros [= <-]. eapply walk_norm, E.
Qed.
Lemma place_join cfg a b : a <> [] -> ~ absolute b -> place cfg (join a b) = norm (place cfg a) (split_sep b).
Proof.
  intros Ha Hb. unfold place.
  assert (X : exists c r s, a = c :: r /\ join a b = c :: s).
  { destruct a as [|c r]; [congruence|]. unfold join. destruct (starts_with [slash] b) eqn:E.
    { apply starts_with_spec in E. destruct E as [t ->]. exfalso. apply Hb. exists t. reflexivity. }
    destruct (ends_slash (c :: r)); eexists; eexists; eexists; split; reflexivity. }
  destruct X as (c & r & s & -> & E). rewrite E.
  destruct (join_split (c :: r) b Hb ltac:(discriminate)) as (k & [[H _]|(a' & H1 & H2 & _)]); rewrite E in *.
  - rewrite H. apply norm_app.
  - rewrite H2, norm_app. f_equal. rewrite H1, split_sep_app, norm_app. reflexivity.
Qed.
Lemma place_plain cfg a n : a <> [] -> plain n -> place cfg (join a n) = place cfg a ++ [n].
Proof.
  intros Ha Hn. rewrite place_join; auto using plain_rel.
  destruct Hn as (A1 & A2 & A3 & A4 & A5). rewrite split_sep_plain by assumption. apply norm_plain. repeat split; auto.
Qed.
Lemma place_abs cfg p : absolute p -> place cfg p = norm [] (split_sep p).
Proof. intros [r ->]. reflexivity. Qed.

(** ** resolve *)
Lemma nul_join a b : existsb (fun c => (c =? 0)%N) (join a b) = true ->
  existsb (fun c => (c =? 0)%N) a = true \/ existsb (fun c => (c =? 0)%N) b = true.
Proof.
  unfold join. destruct (starts_with [slash] b); auto. destruct a as [|c a]; auto.
  destruct (ends_slash (c :: a)); rewrite ?existsb_app, ?orb_true_iff; [tauto|]. cbn [existsb]. change (slash =? 0)%N with false. cbn [orb].
  intros [H|[H|H]]; auto; discriminate H.
Qed.
Definition nul (p : text) : bool := existsb (fun c => (c =? 0)%N) p.
Lemma nul_app a b : nul (a ++ b) = nul a || nul b.
Proof. apply existsb_app. Qed.
Lemma resolve_dir f cwd p l : resolve f cwd p = Ok l -> f l = Some Dir -> path_isdir f cwd p = true.
Proof. intros H1 H2. unfold path_isdir, lookup. now rewrite H1, H2. Qed.
Lemma isdir_resolve f cwd p : path_isdir f cwd p = true -> exists l, resolve f cwd p = Ok l /\ f l = Some Dir.
Proof. unfold path_isdir, lookup. destruct (resolve f cwd p) as [l| |]; try discriminate. destruct (f l) as [[|]|] eqn:E; try discriminate. eauto. Qed.

(** A name in a directory *)
Lemma resolve_join_dir f cwd a b l cs : resolve f cwd a = Ok l -> f l = Some Dir -> ~ absolute b -> nul b = false ->
  split_sep b = cs ->
  resolve f cwd (join a b) = match walk f l cs with Some x => Ok x | None => Raise EOS end.
Proof.
  intros R D Hb Nb <-. unfold resolve in *. destruct (existsb _ a) eqn:Na; [discriminate|].
  destruct a as [|c a]; [discriminate|].
  destruct (walk f (if is_slash c then [] else cwd) (split_sep (c :: a))) as [l'|] eqn:W; [|discriminate].
  injection R as ->.
  destruct (existsb (fun c => (c =? 0)%N) (join (c :: a) b)) eqn:E.
  { apply nul_join in E. unfold nul in Nb. destruct E; congruence. }
  assert (X : exists s, join (c :: a) b = c :: s).
  { unfold join. destruct (starts_with [slash] b) eqn:E1.
    { apply starts_with_spec in E1. destruct E1 as [t ->]. exfalso. apply Hb. exists t. reflexivity. }
    destruct (ends_slash (c :: a)); eexists; reflexivity. }
  destruct X as [s X]. rewrite X.
  destruct (join_split (c :: a) b Hb ltac:(discriminate)) as (k & [[H _]|(a' & H1 & H2 & _)]); rewrite X in *.
  - rewrite H, walk_app, W. reflexivity.
  - rewrite H2, walk_app. rewrite H1, split_sep_app, walk_app in W.
    destruct (walk f (if is_slash c then [] else cwd) (split_sep a')) as [l2|]; [|discriminate].
    cbn in W. destruct (f l2) as [[|]|] eqn:E2; try discriminate. injection W as ->. reflexivity.
Qed.
Lemma plain_nul n : plain n -> nul n = false.
Proof.
  intros (_ & _ & _ & _ & H). destruct (nul n) eqn:E; auto. apply existsb_exists in E. destruct E as (x & I & X).
  apply N.eqb_eq in X. subst. contradiction.
Qed.
Lemma resolve_plain f cwd a n l : resolve f cwd a = Ok l -> f l = Some Dir -> plain n -> resolve f cwd (join a n) = Ok (l ++ [n]).
Proof.
  intros R D P. assert (P' := P). destruct P' as (A1 & A2 & A3 & A4 & A5).
  rewrite (resolve_join_dir f cwd a n l [n] R D (plain_rel n P) (plain_nul n P) (split_sep_plain n A4)).
  cbn. rewrite D. destruct (text_eqb_spec n []); [congruence|]. destruct (text_eqb_spec n [dot]); [congruence|].
  destruct (text_eqb_spec n [dot; dot]); [congruence|]. reflexivity.
Qed.

(** ** Trees *)
Lemma tree_above f l r : tree f -> f (l ++ r) <> None -> r <> [] -> f l = Some Dir.
Proof.
  intros [_ T]. revert l. induction r as [|x r IH]; intros l H N; [congruence|].
  destruct r as [|y r].
  - now apply (T l x).
  - apply (T l x). rewrite (IH (l ++ [x])); [discriminate| |discriminate]. rewrite <- app_assoc. exact H.
Qed.
Lemma tree_within f a l : tree f -> within a l -> f l <> None -> a = l \/ f a = Some Dir.
Proof.
  intros T [r ->] H. destruct r as [|x r]; [left; now rewrite app_nil_r|right].
  eapply tree_above; eauto. discriminate.
Qed.
