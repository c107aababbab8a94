From Verif Require Import Py Py_lemmas Dict_lemmas Model_Path Model_Scan Spec_Scan Proof_Path.

(** ** Paths *)
Lemma ends_slash_false a : a <> [] -> ~ In slash a -> ends_slash a = false.
Proof.
  intros N I. unfold ends_slash. destruct (rev a) as [|c r] eqn:E; [reflexivity|]. destruct (is_slash c) eqn:S; auto.
  exfalso. apply I. apply in_rev. rewrite E. left. unfold is_slash in S. now apply N.eqb_eq in S.
Qed.
Lemma ends_slash_app a b : b <> [] -> ends_slash (a ++ b) = ends_slash b.
Proof.
  intros N. unfold ends_slash. rewrite rev_app_distr. destruct (rev b) as [|c r] eqn:E; [|reflexivity].
  elim N. rewrite <- (rev_involutive b), E. reflexivity.
Qed.
Lemma name_no_slash n : name_ok n -> starts_with [slash] n = false.
Proof.
  intros [N I]. destruct n as [|c r]; [reflexivity|]. cbn [starts_with]. destruct (N.eqb_spec slash c) as [<-|]; [|reflexivity]. elim I. now left.
Qed.
Lemma path_text_cons c cs : path_text (c :: cs) = match cs with [] => c | _ => c ++ slash :: path_text cs end.
Proof. destruct cs; reflexivity. Qed.
Lemma path_text_nil cs : Forall name_ok cs -> path_text cs = [] -> cs = [].
Proof.
  destruct cs as [|c cs]; [auto|]. intros H E. inversion H as [|? ? [N _] _]; subst. rewrite path_text_cons in E. destruct cs; [contradiction|]. now destruct c.
Qed.
Lemma path_ends cs : Forall name_ok cs -> ends_slash (path_text cs) = false.
Proof.
  induction cs as [|c cs IH]; intros H; [reflexivity|]. inversion H as [|? ? [N I] H']; subst. rewrite path_text_cons.
  destruct cs as [|c' cs]; [now apply ends_slash_false|]. change (slash :: path_text (c' :: cs)) with ([slash] ++ path_text (c' :: cs)).
  assert (X : path_text (c' :: cs) <> []) by (intros E; now apply path_text_nil in E).
  rewrite ends_slash_app by (now destruct (path_text (c' :: cs))). rewrite ends_slash_app; auto.
Qed.
Lemma path_snoc cs n : Forall name_ok cs -> name_ok n -> path_text (cs ++ [n]) = match cs with [] => n | _ => path_text cs ++ slash :: n end.
Proof.
  intros H Hn. induction cs as [|c cs IH]; [reflexivity|]. inversion H as [|? ? H1 H2]; subst. cbn [app]. rewrite !path_text_cons.
  destruct cs as [|c' cs]; [reflexivity|]. cbn [app] in *. rewrite IH by auto. now rewrite <- app_assoc.
Qed.
Lemma join_path cs n : Forall name_ok cs -> name_ok n -> join (path_text cs) n = path_text (cs ++ [n]).
Proof.
  intros H Hn. rewrite path_snoc by auto. unfold join. rewrite name_no_slash by auto. destruct cs as [|c cs]; [reflexivity|].
  destruct (path_text (c :: cs)) as [|x y] eqn:E; [now apply path_text_nil in E|]. rewrite <- E. now rewrite path_ends.
Qed.
Lemma components_path cs : Forall name_ok cs -> components (path_text cs) = cs.
Proof.
  intros H. assert (X : cs <> [] -> split_sep (path_text cs) = cs).
  { induction cs as [|c cs IH]; [now intros|]. intros _. inversion H as [|? ? [N I] H2]; subst. rewrite path_text_cons.
    destruct cs as [|c' cs]; [now apply split_sep_plain|]. rewrite split_sep_app, split_sep_plain by auto. cbn [app]. f_equal. apply IH; [auto|discriminate]. }
  unfold components. destruct (path_text cs) as [|x y] eqn:E; [now apply path_text_nil in E as ->|]. apply X. now intros ->.
Qed.
Lemma path_inj a b : Forall name_ok a -> Forall name_ok b -> path_text a = path_text b -> a = b.
Proof. intros H H' E. rewrite <- (components_path a), <- (components_path b) by auto. now rewrite E. Qed.
Lemma hidden_spec n : starts_with [dot] n = false <-> ~ hidden n.
Proof.
  destruct n as [|c r]; cbn [starts_with]; [split; [intros _ [r X]; discriminate|auto]|]. destruct (N.eqb_spec dot c) as [<-|N]; cbn [andb].
  - split; [discriminate|]. intros H. elim H. now exists r.
  - split; auto. intros _ [r' X]. congruence.
Qed.

(** ** Sublists *)
Inductive sub {A} : list A -> list A -> Prop :=
| sub_nil : sub [] []
| sub_skip x a b : sub a b -> sub a (x :: b)
| sub_take x a b : sub a b -> sub (x :: a) (x :: b).
Lemma sub_in {A} (a b : list A) x : sub a b -> In x a -> In x b.
Proof. induction 1; cbn; intuition. Qed.
Lemma sub_nodup {A} (a b : list A) : sub a b -> NoDup b -> NoDup a.
Proof.
  induction 1; intros N; auto; inversion N; subst; auto. constructor; auto. intros I. eapply sub_in in I; eauto.
Qed.
Lemma sub_snoc {A} (a b : list A) x : sub a b -> sub (a ++ [x]) (b ++ [x]).
Proof. induction 1; cbn; [apply sub_take, sub_nil|now apply sub_skip|now apply sub_take]. Qed.
Lemma sub_more {A} (a b : list A) x : sub a b -> sub a (b ++ [x]).
Proof. induction 1; cbn; [apply sub_skip, sub_nil|now apply sub_skip|now apply sub_take]. Qed.
Lemma sub_refl {A} (a : list A) : sub a a. Proof. induction a; [apply sub_nil|now apply sub_take]. Qed.
Lemma sub_nil_l {A} (b : list A) : sub [] b. Proof. induction b; [apply sub_nil|now apply sub_skip]. Qed.

Definition opt {A} (l : list A) : option (list A) := match l with [] => None | _ => Some l end.
Lemma opt_snoc {A} (l : list A) x : opt (l ++ [x]) = Some (match opt l with Some l => l | None => [] end ++ [x]).
Proof. destruct l; reflexivity. Qed.
Lemma opt_list {A} (l : list A) : match opt l with Some l => l | None => [] end = l.
Proof. destruct l; reflexivity. Qed.

(** ** What a listing shows *)
Definition shown_dir (e : item) : bool := negb (starts_with [dot] (i_name e)) && holds (i_dir e).
Definition shown_file (e : item) : bool := negb (starts_with [dot] (i_name e)) && negb (holds (i_dir e)) && holds (i_file e).
Definition dirs_of (l : listing) : list text := map i_name (filter shown_dir (entries l)).
Definition files_of (sizes : bool) (l : listing) : list (text * Z) := map (fun e => (i_name e, size_of sizes e)) (filter shown_file (entries l)).
Lemma entries_snoc l e : entries (l ++ [Some e]) = entries l ++ [e].
Proof. unfold entries. rewrite flat_map_app. reflexivity. Qed.
Lemma in_entries l e : In e (entries l) <-> In (Some e) l.
Proof.
  unfold entries. rewrite in_flat_map. split.
  - intros ([x|] & I & H); [|destruct H]. destruct H as [->|[]]. exact I.
  - intros I. exists (Some e). split; auto. now left.
Qed.
Lemma dirs_snoc l e : dirs_of (l ++ [Some e]) = dirs_of l ++ if shown_dir e then [i_name e] else [].
Proof. unfold dirs_of. rewrite entries_snoc, filter_app, map_app. cbn. now destruct (shown_dir e). Qed.
Lemma files_snoc s l e : files_of s (l ++ [Some e]) = files_of s l ++ if shown_file e then [(i_name e, size_of s e)] else [].
Proof. unfold files_of. rewrite entries_snoc, filter_app, map_app. cbn. now destruct (shown_file e). Qed.

Section Scan.
  Variable sd : text -> option listing.
  Variable sizes : bool.
  Variable md : option Z.
  Notation round := (scan_round sd sizes md).
  Notation loop := (scan_loop sd sizes md).
  Notation push := (push_directory sd).
  Notation get := (dict_get text_eqb).
  Notation start := (push [] (SS [] [] [])).

  Lemma loop_inv (I : scan_state -> Prop) : (forall st st', I st -> round st = Ok st' -> I st') ->
    forall f st st', I st -> loop f st = Ok st' -> I st' /\ s_stack st' = [].
  Proof.
    intros H. induction f as [|f IH]; intros st st' HI; cbn; destruct (s_stack st) eqn:E; try discriminate.
    - intros [= <-]. auto.
    - intros [= <-]. auto.
    - destruct (round st) as [s1|e|] eqn:R; cbn; try discriminate. apply IH. eauto.
  Qed.
  Lemma loop_more f g st : f <= g -> loop f st <> Hang -> loop g st = loop f st.
  Proof.
    revert g st. induction f as [|f IH]; intros g st L N.
    - cbn in *. destruct g; cbn; destruct (s_stack st); congruence.
    - destruct g as [|g]; [lia|]. cbn in *. destruct (s_stack st); auto. destruct (round st) as [s1|e|]; cbn in *; auto. apply IH; auto. lia.
  Qed.

  (** ** The invariant *)
  Definition rem (p : text) (s : list (text * listing)) : listing :=
    match find (fun x => text_eqb (fst x) p) s with Some x => snd x | None => [] end.
  Definition good (lev : nat) (pre : listing) (i : info) : Prop :=
    d_files i = opt (files_of sizes pre) /\ sub (listed_dirs i) (dirs_of pre) /\ (listed_dirs i <> [] -> level_ok md (S lev)).
  Fixpoint chain (s : list (text * listing)) : Prop :=
    match s with
    | [] => True
    | (p, _) :: r => (exists cs, p = path_text cs /\ Forall name_ok cs /\ length cs = length r) /\ chain r
    end.
  Definition key_ok (st : scan_state) (p : text) (i : info) : Prop :=
    exists cs l pre, p = path_text cs /\ Forall name_ok cs /\ Forall (fun n => ~ hidden n) cs /\ (cs <> [] -> level_ok md (length cs)) /\
      sd p = Some l /\ l = pre ++ rem p (s_stack st) /\ good (length cs) pre i.
  Definition Inv (st : scan_state) : Prop :=
    chain (s_stack st) /\ (forall p r, In (p, r) (s_stack st) -> get p (s_dirs st) <> None) /\
    (forall p i, get p (s_dirs st) = Some i -> key_ok st p i).

  Lemma chain_level s : chain s -> forall p r, In (p, r) s -> exists cs, p = path_text cs /\ Forall name_ok cs /\ length cs < length s.
  Proof.
    induction s as [|[p0 r0] s IH]; cbn; [tauto|]. intros [(cs & E & F & L) C] p r [X|X].
    - injection X as <- <-. exists cs. repeat split; auto. lia.
    - destruct (IH C p r X) as (cs' & A1 & A2 & A3). exists cs'. repeat split; auto.
  Qed.
  Lemma rem_none p s : (forall r, ~ In (p, r) s) -> rem p s = [].
  Proof.
    intros H. unfold rem. destruct (find _ s) as [[q r]|] eqn:F; [|reflexivity]. apply find_some in F. destruct F as [I E]. cbn in E.
    apply text_eqb_eq in E. subst q. now elim (H r).
  Qed.
  Lemma not_on_stack s cs : chain s -> Forall name_ok cs -> length s <= length cs -> forall r, ~ In (path_text cs, r) s.
  Proof.
    intros C F L r I. destruct (chain_level s C _ _ I) as (cs' & E & F' & L'). apply path_inj in E; auto. subst. lia.
  Qed.
  Lemma rem_top p r s : rem p ((p, r) :: s) = r.
  Proof. unfold rem. cbn. now rewrite text_eqb_refl. Qed.
  Lemma rem_other p q r s : p <> q -> rem p ((q, r) :: s) = rem p s.
  Proof. intros N. unfold rem. cbn. destruct (text_eqb_spec q p); congruence. Qed.

  Lemma inv_pop p rest D V : Inv (SS ((p, []) :: rest) D V) -> Inv (SS rest D V).
  Proof.
    intros (C & S1 & K). cbn [s_stack s_dirs chain] in *. destruct C as [(cs & E & F & L) C]. split; [exact C|]. split; [intros q r I; apply (S1 q r); cbn; auto|].
    intros q i G. destruct (K q i G) as (cs' & l & pre & A1 & A2 & A3 & A4 & A5 & A6 & A7). exists cs', l, pre. repeat (split; [assumption|]). split; [|exact A7].
    cbn [s_stack] in *. rewrite A6. f_equal. destruct (text_eqb_spec q p) as [->|N]; [|now rewrite rem_other].
    rewrite rem_top. symmetry. apply rem_none. intros r. rewrite E. apply not_on_stack; auto. lia.
  Qed.
  Lemma inv_next p e l rest D V D' V' : Inv (SS ((p, Some e :: l) :: rest) D V) ->
    (forall q, q <> p -> get q D' = get q D) ->
    (forall pre i, get p D = Some i -> good (length rest) pre i -> exists i', get p D' = Some i' /\ good (length rest) (pre ++ [Some e]) i') ->
    Inv (SS ((p, l) :: rest) D' V').
  Proof.
    intros (C & S1 & K) O P. cbn [s_stack s_dirs chain] in *. split; [exact C|]. destruct C as [(cs & E & F & L) C].
    assert (G0 : get p D <> None) by (eapply S1; left; reflexivity).
    destruct (get p D) as [i0|] eqn:G; [|contradiction].
    destruct (K p i0 G) as (cs' & l' & pre & A1 & A2 & A3 & A4 & A5 & A6 & A7).
    assert (cs' = cs) as -> by (apply path_inj; auto; now rewrite <- A1, <- E). rewrite L in A7. destruct (P pre i0 eq_refl A7) as (i' & G' & Q).
    assert (N : forall r, ~ In (p, r) rest) by (intros r; rewrite E; apply not_on_stack; auto; lia).
    split.
    - intros q r [X|X]; [injection X as <- <-; intros Y; pose proof (eq_trans (eq_sym G') Y) as Z; discriminate Z|]. rewrite O; [apply (S1 q r); cbn; auto|]. intros ->. now elim (N r).
    - intros q i H. cbn [s_dirs] in H. destruct (text_eqb_spec q p) as [->|NE].
      + assert (i = i') as -> by congruence. exists cs, l', (pre ++ [Some e]). repeat (split; [assumption|]). split; [|rewrite L; exact Q].
        cbn [s_stack] in *. rewrite A6, !rem_top. now rewrite <- app_assoc.
      + rewrite O in H by auto. destruct (K q i H) as (cs2 & l2 & pre2 & B1 & B2 & B3 & B4 & B5 & B6 & B7). exists cs2, l2, pre2.
        repeat (split; [assumption|]). split; [|exact B7]. cbn [s_stack] in *. rewrite rem_other in * by auto. exact B6.
  Qed.
  Lemma good_nil lev : good lev [] (Info None None).
  Proof. split; [reflexivity|]. split; [constructor|]. intros X. now elim X. Qed.
  Lemma inv_push cs n l rest D V : Inv (SS ((path_text cs, l) :: rest) D V) -> Forall name_ok cs -> length cs = length rest ->
    name_ok n -> ~ hidden n -> level_ok md (S (length rest)) ->
    Inv (push (join (path_text cs) n) (SS ((path_text cs, l) :: rest) D V)).
  Proof.
    intros I F L Hn Hh Lv. rewrite join_path by auto. unfold push_directory. destruct (sd (path_text (cs ++ [n]))) as [l'|] eqn:Sd; [|exact I].
    destruct I as (C & S1 & K). cbn [s_stack s_dirs s_visited] in *.
    assert (F' : Forall name_ok (cs ++ [n])) by (apply Forall_app; auto).
    assert (N : forall r, ~ In (path_text (cs ++ [n]), r) ((path_text cs, l) :: rest)) by (apply not_on_stack; auto; rewrite app_length; cbn; lia).
    assert (K0 : exists i0, get (path_text cs) D = Some i0).
    { destruct (get (path_text cs) D) as [i0|] eqn:G; [eauto|]. elim (S1 (path_text cs) l); auto. now left. }
    split; [|split]; cbn [s_stack s_dirs].
    - split; [|exact C]. exists (cs ++ [n]). repeat split; auto. rewrite app_length. cbn. lia.
    - intros q r X. rewrite (get_set text_eqb text_eqb_spec). destruct (text_eqb_spec (path_text (cs ++ [n])) q); [discriminate|].
      destruct X as [X|X]; [congruence|]. now apply (S1 q r).
    - intros q i. rewrite (get_set text_eqb text_eqb_spec). destruct (text_eqb_spec (path_text (cs ++ [n])) q) as [<-|NE].
      + intros [= <-]. destruct K0 as [i0 G0]. destruct (K _ _ G0) as (cs' & _ & _ & E' & F2 & H2 & _). apply path_inj in E'; auto. subst cs'.
        exists (cs ++ [n]), l', []. split; [reflexivity|]. split; [auto|]. split; [apply Forall_app; auto|]. split.
        { intros _. rewrite app_length. cbn. rewrite L. now rewrite Nat.add_1_r. }
        split; [auto|]. cbn [s_stack]. rewrite rem_top. split; [reflexivity|apply good_nil].
      + intros G. destruct (K q i G) as (cs' & l2 & pre & A1 & A2 & A3 & A4 & A5 & A6 & A7). exists cs', l2, pre. repeat (split; [assumption|]). split; [|exact A7].
        cbn [s_stack] in *. rewrite rem_other by congruence. exact A6.
  Qed.

  Hypothesis ok : os_ok sd.
  Lemma item_name p e l rest D V : Inv (SS ((p, Some e :: l) :: rest) D V) ->
    exists cs, p = path_text cs /\ Forall name_ok cs /\ length cs = length rest /\ name_ok (i_name e) /\
      exists i, get p D = Some i.
  Proof.
    intros (C & S1 & K). cbn [s_stack s_dirs chain] in *. destruct C as [(cs & E & F & L) C]. exists cs. repeat (split; [assumption|]).
    destruct (get p D) as [i|] eqn:G; [|elim (S1 p (Some e :: l)); cbn; auto].
    split; [|eauto]. destruct (K p i G) as (cs' & l' & pre & _ & _ & _ & _ & A5 & A6 & _). cbn [s_stack] in A6. rewrite rem_top in A6.
    apply ok in A5. rewrite Forall_forall in A5. apply A5. unfold names. apply in_map. apply in_entries. rewrite A6. apply in_or_app. right. now left.
  Qed.
  Lemma not_too_deep lev st : too_deep md st = false -> length (s_stack st) = S lev -> level_ok md (S lev).
  Proof. unfold too_deep, level_ok. destruct md; auto. lia. Qed.

  (** *** Changes of the record of the directory on top *)
  Lemma next_same p e l rest D V V' : Inv (SS ((p, Some e :: l) :: rest) D V) -> shown_file e = false -> Inv (SS ((p, l) :: rest) D V').
  Proof.
    intros I N. eapply inv_next; eauto. intros pre i G (A1 & A2 & A3). exists i. split; [exact G|]. split; [|split; [|exact A3]].
    - now rewrite files_snoc, N, app_nil_r.
    - rewrite dirs_snoc. destruct (shown_dir e); [now apply sub_more|now rewrite app_nil_r].
  Qed.
  Lemma next_file p e l rest D V V' i : Inv (SS ((p, Some e :: l) :: rest) D V) -> shown_file e = true -> get p D = Some i ->
    Inv (SS ((p, l) :: rest) (dict_set text_eqb p (Info (Some (match d_files i with Some l => l | None => [] end ++ [(i_name e, size_of sizes e)])) (d_dirs i)) D) V').
  Proof.
    intros I N G. eapply inv_next; eauto.
    - intros q NE. apply (get_set_neq text_eqb text_eqb_spec). auto.
    - intros pre i0 G0 (A1 & A2 & A3). assert (i0 = i) as -> by congruence. rewrite (get_set_eq text_eqb text_eqb_spec). eexists. split; [reflexivity|].
      assert (ND : shown_dir e = false) by (unfold shown_file, shown_dir in *; destruct (starts_with _ _), (holds (i_dir e)); auto; discriminate).
      split; [|split; [|exact A3]]; cbn [d_files listed_dirs d_dirs].
      + rewrite files_snoc, N, A1. now rewrite opt_snoc.
      + rewrite dirs_snoc, ND, app_nil_r. exact A2.
  Qed.
  Lemma next_dir p e l rest D V V' i : Inv (SS ((p, Some e :: l) :: rest) D V) -> shown_dir e = true -> level_ok md (S (length rest)) -> get p D = Some i ->
    Inv (SS ((p, l) :: rest) (dict_set text_eqb p (Info (d_files i) (Some (match d_dirs i with Some l => l | None => [] end ++ [i_name e]))) D) V').
  Proof.
    intros I N Lv G. eapply inv_next; eauto.
    - intros q NE. apply (get_set_neq text_eqb text_eqb_spec). auto.
    - intros pre i0 G0 (A1 & A2 & A3). assert (i0 = i) as -> by congruence. rewrite (get_set_eq text_eqb text_eqb_spec). eexists. split; [reflexivity|].
      assert (NF : shown_file e = false) by (unfold shown_file, shown_dir in *; destruct (starts_with _ _), (holds (i_dir e)); auto; discriminate).
      split; [|split]; cbn [d_files listed_dirs d_dirs]; auto.
      + now rewrite files_snoc, NF, app_nil_r.
      + rewrite dirs_snoc, N. apply sub_snoc. exact A2.
  Qed.

  Lemma round_inv st st' : Inv st -> round st = Ok st' -> Inv st'.
  Proof.
    destruct st as [s D V]. unfold scan_round. cbn [s_stack s_dirs s_visited]. destruct s as [|[p [|[e|] l]] rest].
    - now intros I [= <-].
    - intros I [= <-]. eapply inv_pop; eauto.
    - intros I. destruct (item_name _ _ _ _ _ _ I) as (cs & -> & F & L & Hn & i & G). unfold scan_item. cbn [s_stack s_dirs s_visited].
      destruct (starts_with [dot] (i_name e)) eqn:Hd.
      { intros [= <-]. eapply next_same; eauto. unfold shown_file. now rewrite Hd. }
      destruct (holds (i_dir e)) eqn:Dr.
      + assert (NF : shown_file e = false) by (unfold shown_file; now rewrite Hd, Dr).
        destruct (too_deep md _) eqn:TD; [intros [= <-]; eapply next_same; eauto|].
        assert (Lv : level_ok md (S (length rest))) by (eapply not_too_deep; eauto).
        apply hidden_spec in Hd as Hh. destruct (i_inode e) as [n|].
        * destruct (visited n _); [intros [= <-]; eapply next_same; eauto|]. unfold append_dir. rewrite G. cbn [bind].
          intros [= <-]. apply inv_push; auto. eapply next_dir; eauto. unfold shown_dir. now rewrite Hd, Dr.
        * intros [= <-]. apply inv_push; auto. eapply next_same; eauto.
      + destruct (holds (i_file e)) eqn:Fl.
        * unfold append_file. rewrite G. cbn [bind]. intros [= <-]. eapply next_file; eauto. unfold shown_file. now rewrite Hd, Dr, Fl.
        * intros [= <-]. eapply next_same; eauto. unfold shown_file. now rewrite Hd, Dr, Fl.
    - discriminate.
  Qed.
  Lemma start_inv : Inv start.
  Proof.
    unfold push_directory. destruct (sd []) as [l|] eqn:E.
    - cbn. split; [|split].
      + split; [|exact I]. exists []. split; [reflexivity|]. split; [constructor|reflexivity].
      + intros p r [X|[]]. injection X as <- <-. cbn. discriminate.
      + intros p i. cbn. destruct p; [|discriminate]. intros [= <-]. exists [], l, []. split; [reflexivity|]. split; [constructor|]. split; [constructor|].
        split; [now intros X|]. split; [exact E|]. split; [reflexivity|apply good_nil].
    - repeat split; cbn; try tauto; discriminate.
  Qed.
  Lemma scan_inv root_ok f d : scan_directory sd sizes md root_ok f = Ok d -> exists st, d = s_dirs st /\ Inv st /\ s_stack st = [].
  Proof.
    unfold scan_directory. destruct root_ok; [|discriminate]. destruct (loop f start) as [st|e|] eqn:E; cbn; try discriminate. intros [= <-].
    exists st. split; auto. eapply loop_inv; eauto using round_inv, start_inv.
  Qed.
  (** KeyError cannot happen *)
  Lemma round_raise st e : Inv st -> round st = Raise e -> e = EOS.
  Proof.
    destruct st as [s D V]. unfold scan_round. cbn [s_stack s_dirs s_visited]. destruct s as [|[p [|[x|] l]] rest]; try discriminate; [|congruence].
    intros I. destruct (item_name _ _ _ _ _ _ I) as (cs & -> & F & L & Hn & i & G). unfold scan_item, append_dir, append_file. cbn [s_stack s_dirs s_visited]. rewrite G. cbn [bind].
    destruct (starts_with _ _); [discriminate|]. destruct (holds (i_dir x)); [|destruct (holds (i_file x)); discriminate].
    destruct (too_deep md _); [discriminate|]. destruct (i_inode x); [|discriminate]. destruct (visited _ _); discriminate.
  Qed.

  (** ** C54 and C56 *)
  Lemma files_in l n s : In (n, s) (files_of sizes l) -> exists e, In (Some e) l /\ i_name e = n /\ s = size_of sizes e /\ shown_file e = true.
  Proof.
    unfold files_of. rewrite in_map_iff. intros (e & [= <- <-] & I). apply filter_In in I. destruct I as [I S]. apply in_entries in I. eauto 6.
  Qed.
  Lemma dirs_in l n : In n (dirs_of l) -> exists e, In (Some e) l /\ i_name e = n /\ shown_dir e = true.
  Proof.
    unfold dirs_of. rewrite in_map_iff. intros (e & <- & I). apply filter_In in I. destruct I as [I S]. apply in_entries in I. eauto.
  Qed.
  Lemma depth_and_hidden root_ok f d : scan_directory sd sizes md root_ok f = Ok d -> forall p i, get p d = Some i ->
    exists cs, p = path_text cs /\ Forall name_ok cs /\ Forall (fun n => ~ hidden n) cs /\ (cs <> [] -> level_ok md (length cs)) /\
      (forall n, In n (listed_dirs i) -> ~ hidden n /\ level_ok md (S (length cs))) /\
      (forall n s, In (n, s) (listed_files i) -> ~ hidden n).
  Proof.
    intros E. destruct (scan_inv _ _ _ E) as (st & -> & (_ & _ & K) & S0). intros p i G.
    destruct (K p i G) as (cs & l & pre & A1 & A2 & A3 & A4 & A5 & A6 & B1 & B2 & B3). exists cs. repeat (split; [assumption|]). split.
    - intros n I. split; [|apply B3; intros X; now rewrite X in I]. eapply sub_in in I; eauto. apply dirs_in in I. destruct I as (e & _ & <- & S1).
      apply hidden_spec. unfold shown_dir in S1. now destruct (starts_with _ _).
    - intros n s I. unfold listed_files in I. rewrite B1, opt_list in I. apply files_in in I. destruct I as (e & _ & <- & _ & S1).
      apply hidden_spec. unfold shown_file in S1. now destruct (starts_with _ _).
  Qed.
  Lemma nodup_split (f g : item -> bool) (l : list item) : (forall e, f e && g e = false) -> NoDup (map i_name l) ->
    NoDup (map i_name (filter f l) ++ map i_name (filter g l)).
  Proof.
    intros X. induction l as [|e l IH]; cbn; [constructor|]. intros N. inversion N as [|? ? N1 N2]; subst. specialize (IH N2).
    assert (O : forall h, ~ In (i_name e) (map i_name (filter h l))).
    { intros h I. apply N1. apply in_map_iff in I. destruct I as (e' & E & I). apply filter_In in I. apply in_map_iff. exists e'. intuition. }
    specialize (X e). destruct (f e), (g e); try discriminate; cbn.
    - constructor; auto. intros I. apply in_app_or in I. destruct I as [I|I]; now apply O in I.
    - apply NoDup_Add with (a := i_name e) (l := map i_name (filter f l) ++ map i_name (filter g l)); [apply Add_app|]. split; auto.
      intros I. apply in_app_or in I. destruct I as [I|I]; now apply O in I.
    - auto.
  Qed.
  Lemma sub_app {A} (a b c : list A) : sub a b -> sub (a ++ c) (b ++ c).
  Proof. induction 1; cbn; [apply sub_refl|now apply sub_skip|now apply sub_take]. Qed.
  Lemma only_what_exists root_ok f d : scan_directory sd sizes md root_ok f = Ok d -> forall p i, get p d = Some i ->
    exists l, sd p = Some l /\
      (forall n, In n (listed_dirs i) -> exists e, In (Some e) l /\ i_name e = n /\ i_dir e = Some true) /\
      (forall n s, In (n, s) (listed_files i) -> exists e, In (Some e) l /\ i_name e = n /\ i_file e = Some true /\ i_dir e <> Some true /\
         s = (if sizes then match i_size e with Some s => s | None => (-1)%Z end else (-1)%Z)) /\
      (NoDup (names l) -> NoDup (listed_dirs i ++ map fst (listed_files i))).
  Proof.
    intros E. destruct (scan_inv _ _ _ E) as (st & -> & (_ & _ & K) & S0). intros p i G.
    destruct (K p i G) as (cs & l & pre & A1 & A2 & A3 & A4 & A5 & A6 & B1 & B2 & B3). rewrite S0 in A6. cbn in A6. rewrite app_nil_r in A6. subst pre.
    assert (FL : listed_files i = files_of sizes l) by (unfold listed_files; now rewrite B1, opt_list).
    exists l. split; [exact A5|]. split; [|split].
    - intros n I. eapply sub_in in I; eauto. apply dirs_in in I. destruct I as (e & I & N & S1). exists e. repeat split; auto.
      unfold shown_dir in S1. destruct (i_dir e) as [[]|]; auto; now rewrite andb_false_r in S1.
    - intros n s I. rewrite FL in I. apply files_in in I. destruct I as (e & I & N & S1 & S2). exists e. unfold shown_file in S2.
      repeat split; auto.
      + destruct (i_file e) as [[]|]; auto; now rewrite andb_false_r in S2.
      + intros X. rewrite X in S2. cbn in S2. now rewrite andb_false_r in S2.
    - intros N. eapply sub_nodup; [apply sub_app; exact B2|]. rewrite FL. unfold dirs_of, files_of. rewrite map_map. cbn [fst].
      apply nodup_split; auto. intros e. unfold shown_dir, shown_file. destruct (starts_with _ _), (holds (i_dir e)); auto.
  Qed.
End Scan.

Lemma no_root scandir sizes max_depth fuel d : scan_directory scandir sizes max_depth false fuel <> Ok d.
Proof. discriminate. Qed.
