From Verif Require Import Py Py_lemmas Dict_lemmas Model_Path Model_Scan Spec_Scan Proof_Path Proof_Scan Proof_Scan2.

(** ** Scans of ordinary trees (C55) *)
Fixpoint dsize (t : dtree) : nat :=
  let 'DTree l := t in S (list_sum (map (fun x : text * dent => match snd x with DDir _ t' => S (dsize t') | _ => 1 end) l)).
Lemma dsize_cons x l : dsize (DTree (x :: l)) = match snd x with DDir _ t' => S (dsize t') | _ => 1 end + dsize (DTree l).
Proof. cbn [dsize map list_sum fold_right]. unfold list_sum. cbn. lia. Qed.
Lemma inodes_cons x l : inodes (DTree (x :: l)) = match snd x with DDir i t' => i :: inodes t' | _ => [] end ++ inodes (DTree l).
Proof. reflexivity. Qed.
Definition names_of_sub (x : text * dent) : Prop := match snd x with DDir _ t' => tree_names_ok t' | _ => True end.
Lemma tree_names_iff l : tree_names_ok (DTree l) <-> Forall name_ok (map fst l) /\ NoDup (map fst l) /\ Forall names_of_sub l.
Proof.
  cbn [tree_names_ok]. assert (X : fold_right (fun (x : text * dent) P => match snd x with DDir _ t' => tree_names_ok t' | _ => True end /\ P) True l <-> Forall names_of_sub l).
  { induction l as [|x l IH]; cbn; [split; constructor|]. rewrite IH. unfold names_of_sub at 1. split; [intros [A B]; now constructor|intros A; now inversion A]. }
  rewrite X. tauto.
Qed.
Lemma tree_names_cons x l : tree_names_ok (DTree (x :: l)) -> name_ok (fst x) /\ ~ In (fst x) (map fst l) /\ names_of_sub x /\ tree_names_ok (DTree l).
Proof.
  rewrite !tree_names_iff. cbn [map]. intros (A & B & C). inversion A; inversion B; inversion C; subst. tauto.
Qed.
Lemma subtree_app t a b : subtree t (a ++ b) = match subtree t a with Some t' => subtree t' b | None => None end.
Proof. revert t. induction a as [|c a IH]; intros t; cbn; [reflexivity|]. destruct (child t c); auto. Qed.
Lemma find_app_none {A} (f : A -> bool) a b : (forall x, In x a -> f x = false) -> find f (a ++ b) = find f b.
Proof. induction a as [|x a IH]; cbn; intros H; [reflexivity|]. rewrite H by auto. apply IH. auto. Qed.
Lemma child_at pre c i t' l : NoDup (map fst (pre ++ (c, DDir i t') :: l)) -> child (DTree (pre ++ (c, DDir i t') :: l)) c = Some t'.
Proof.
  intros N. unfold child. cbn [dentries]. rewrite find_app_none.
  - cbn. now rewrite text_eqb_refl.
  - intros x I. destruct (text_eqb_spec (fst x) c) as [E|]; auto. exfalso. rewrite map_app in N. cbn in N. apply NoDup_remove_2 in N. apply N.
    apply in_or_app. left. rewrite <- E. now apply in_map.
Qed.
Lemma child_cons x l c : child (DTree (x :: l)) c = if text_eqb (fst x) c then match snd x with DDir _ t' => Some t' | _ => None end else child (DTree l) c.
Proof. unfold child. cbn [dentries find]. destruct (text_eqb (fst x) c); [|reflexivity]. destruct x as [n []]; reflexivity. Qed.

Definition ext {A} (o : option (list A)) (l : list A) : option (list A) :=
  match l with [] => o | _ => Some (match o with Some a => a | None => [] end ++ l) end.
Lemma ext_ext {A} (o : option (list A)) a b : ext (ext o a) b = ext o (a ++ b).
Proof. destruct b as [|x b]; [now rewrite app_nil_r|]. destruct a as [|y a]; [reflexivity|]. destruct o; cbn; [now rewrite <- app_assoc|reflexivity]. Qed.
Lemma ext_none {A} (l : list A) : ext None l = opt l. Proof. destruct l; reflexivity. Qed.
Lemma vfiles_cons sizes x l : visible_files sizes (DTree (x :: l)) =
  match snd x with DFile s => if starts_with [dot] (fst x) then [] else [(fst x, if sizes then s else (-1)%Z)] | _ => [] end ++ visible_files sizes (DTree l).
Proof. reflexivity. Qed.
Lemma vdirs_cons x l : visible_dirs (DTree (x :: l)) = match snd x with DDir _ _ => if starts_with [dot] (fst x) then [] else [fst x] | _ => [] end ++ visible_dirs (DTree l).
Proof. reflexivity. Qed.

Definition levelb (md : option Z) (n : nat) : bool := match md with Some m => (Z.of_nat n <=? m - 1)%Z | None => true end.
Lemma levelb_ok md n : levelb md n = true <-> level_ok md n.
Proof. unfold levelb, level_ok. destruct md; [lia|tauto]. Qed.
Lemma levelb_less md a b : a <= b -> levelb md b = true -> levelb md a = true.
Proof. unfold levelb. destruct md; [lia|auto]. Qed.

Lemma nodup_l {A} (a b : list A) : NoDup (a ++ b) -> NoDup a.
Proof. induction a as [|x a IH]; cbn; intros N; [constructor|]. inversion N as [|? ? N1 N2]; subst. constructor; auto. intros I. apply N1. apply in_or_app. auto. Qed.
Lemma nodup_disj {A} (a b : list A) x : NoDup (a ++ b) -> In x a -> ~ In x b.
Proof. induction a as [|y a IH]; cbn; intros N; [tauto|]. inversion N as [|? ? N1 N2]; subst. intros [<-|I]; auto. intros I. apply N1. apply in_or_app. auto. Qed.

Section Tree.
  Variable t0 : dtree.
  Variable sizes : bool.
  Variable md : option Z.
  Notation sd := (tree_os t0).
  Notation round := (scan_round sd sizes md).
  Notation loop := (scan_loop sd sizes md).
  Notation push := (push_directory sd).
  Notation get := (dict_get text_eqb).
  Notation set := (dict_set text_eqb).

  Inductive steps : scan_state -> scan_state -> Prop :=
  | steps_refl st : steps st st
  | steps_next st st1 st2 : s_stack st <> [] -> round st = Ok st1 -> steps st1 st2 -> steps st st2.
  Lemma steps_trans a b c : steps a b -> steps b c -> steps a c.
  Proof. induction 1; intros X; auto. eapply steps_next; eauto. Qed.
  Lemma steps_loop a b : steps a b -> s_stack b = [] -> exists f, loop f a = Ok b.
  Proof.
    induction 1 as [st|st st1 st2 N R S0 IH]; intros E; [exists 0; cbn; now rewrite E|]. destruct (IH E) as [f F]. exists (S f).
    now rewrite (loop_step _ _ _ f st st1).
  Qed.

  Definition summary (lev : nat) (t : dtree) : info := Info (opt (visible_files sizes t)) (opt (if levelb md (S lev) then visible_dirs t else [])).
  Definition shown (cs : list text) : bool := forallb (fun n => negb (starts_with [dot] n)) cs.
  Definition expect (lev : nat) (t : dtree) (cs : list text) : option info :=
    match subtree t cs with
    | Some t' => if shown cs && match cs with [] => true | _ => levelb md (lev + length cs) end then Some (summary (lev + length cs) t') else None
    | None => None
    end.
  Lemma expect_nil lev t : expect lev t [] = Some (summary lev t).
  Proof. unfold expect. cbn. now rewrite Nat.add_0_r. Qed.
  Lemma expect_cons lev t c cs : expect lev t (c :: cs) =
    match child t c with
    | Some t' => if negb (starts_with [dot] c) && levelb md (S lev) then expect (S lev) t' cs else None
    | None => None
    end.
  Proof.
    unfold expect. cbn [subtree]. destruct (child t c) as [t'|]; [|reflexivity]. change (shown (c :: cs)) with (negb (starts_with [dot] c) && shown cs).
    cbn [length]. rewrite Nat.add_succ_r. destruct (starts_with [dot] c); cbn [negb andb]; [now destruct (subtree t' cs)|].
    destruct (levelb md (S lev)) eqn:L.
    - destruct (subtree t' cs); [|reflexivity]. destruct cs; [cbn; rewrite Nat.add_0_r, L; reflexivity|reflexivity].
    - destruct (subtree t' cs); [|reflexivity]. destruct (levelb md (S (lev + length cs))) eqn:L2; [|now rewrite andb_false_r].
      rewrite (levelb_less md (S lev) (S (lev + length cs))) in L; [discriminate|lia|auto].
  Qed.

  Lemma round_top p e l rest D V : round (SS ((p, Some e :: l) :: rest) D V) = scan_item sd sizes md p e (SS ((p, l) :: rest) D V).
  Proof. reflexivity. Qed.
  Lemma item_hidden p e st : starts_with [dot] (i_name e) = true -> scan_item sd sizes md p e st = Ok st.
  Proof. intros H. unfold scan_item. now rewrite H. Qed.
  Lemma too_deep_level rest p l D V : too_deep md (SS ((p, l) :: rest) D V) = negb (levelb md (S (length rest))).
  Proof. unfold too_deep, levelb. destruct md; [|reflexivity]. cbn [s_stack length]. lia. Qed.
  Lemma not_visited i st : ~ In i (s_visited st) -> visited i st = false.
  Proof. intros N. unfold visited. destruct (existsb _ _) eqn:E; auto. apply existsb_exists in E. destruct E as (x & I & E). apply N.eqb_eq in E. now subst. Qed.
  Lemma path_app_inj a b c : Forall name_ok a -> Forall name_ok b -> Forall name_ok c -> path_text (a ++ b) = path_text (a ++ c) -> b = c.
  Proof. intros A B C E. apply path_inj in E; [now apply app_inv_head in E|apply Forall_app; auto|apply Forall_app; auto]. Qed.

  (** What the rounds for the entries [l] do *)
  Definition walked (cs : list text) (l : list (text * dent)) (i : info) (D D' : list (text * info)) (V V' : list N) : Prop :=
    get (path_text cs) D' = Some (Info (ext (d_files i) (visible_files sizes (DTree l)))
                                       (ext (d_dirs i) (if levelb md (S (length cs)) then visible_dirs (DTree l) else []))) /\
    (forall c r, In c (map fst l) -> Forall name_ok (c :: r) -> get (path_text (cs ++ c :: r)) D' = expect (length cs) (DTree l) (c :: r)) /\
    (forall q, q <> path_text cs -> (forall c r, In c (map fst l) -> Forall name_ok (c :: r) -> q <> path_text (cs ++ c :: r)) -> get q D' = get q D) /\
    (forall x, In x V' -> In x V \/ In x (inodes (DTree l))).
  Definition fresh_keys (cs : list text) (l : list (text * dent)) (D : list (text * info)) : Prop :=
    forall c r, In c (map fst l) -> Forall name_ok (c :: r) -> get (path_text (cs ++ c :: r)) D = None.

  (** The entry [x] changed the record [i] to [i1], nothing else *)
  Lemma walked_flat cs x l i i1 D D1 D2 V V2 : Forall name_ok cs -> name_ok (fst x) -> ~ In (fst x) (map fst l) ->
    fresh_keys cs (x :: l) D -> walked cs l i1 D1 D2 V V2 ->
    (forall q, q <> path_text cs -> get q D1 = get q D) ->
    (forall r, expect (length cs) (DTree (x :: l)) (fst x :: r) = None) ->
    d_files i1 = ext (d_files i) (match snd x with DFile s => if starts_with [dot] (fst x) then [] else [(fst x, if sizes then s else (-1)%Z)] | _ => [] end) ->
    ext (d_dirs i1) (if levelb md (S (length cs)) then visible_dirs (DTree l) else []) = ext (d_dirs i) (if levelb md (S (length cs)) then visible_dirs (DTree (x :: l)) else []) ->
    walked cs (x :: l) i D D2 V V2.
  Proof.
    intros F Hn NI FK (W1 & W2 & W3 & W4) O EX FI DI. split; [|split; [|split]].
    - rewrite W1, DI, FI, ext_ext, vfiles_cons. reflexivity.
    - intros c r [E|I] Fr; [subst c|].
      + rewrite EX, W3, O.
        * apply FK; [now left|auto].
        * intros X. rewrite <- (app_nil_r cs) in X at 2. apply path_app_inj in X; auto. discriminate.
        * intros X. rewrite <- (app_nil_r cs) in X at 2. apply path_app_inj in X; auto. discriminate.
        * intros c' r' I' Fr' X. apply path_app_inj in X; auto. injection X as <- _. contradiction.
      + rewrite W2 by auto. rewrite !expect_cons, child_cons. destruct (text_eqb_spec (fst x) c) as [<-|]; [contradiction|reflexivity].
    - intros q N1 N2. rewrite W3, O; auto. intros c r I Fr. apply N2; auto. now right.
    - intros y I. destruct (W4 y I); auto. right. rewrite inodes_cons. apply in_or_app. auto.
  Qed.
  Lemma fresh_tail cs x l D D1 : Forall name_ok cs -> fresh_keys cs (x :: l) D -> (forall q, q <> path_text cs -> get q D1 = get q D) -> fresh_keys cs l D1.
  Proof.
    intros F FK O c r I Fr. rewrite O; [apply FK; auto; now right|]. intros X. rewrite <- (app_nil_r cs) in X at 2. apply path_app_inj in X; auto. discriminate.
  Qed.

  Lemma walk n : forall l cs rest D V i t1 pre, dsize (DTree l) <= n -> length cs = length rest -> Forall name_ok cs ->
    subtree t0 cs = Some t1 -> t1 = DTree (pre ++ l) -> tree_names_ok t1 -> tree_names_ok (DTree l) ->
    NoDup (inodes (DTree l)) -> (forall x, In x (inodes (DTree l)) -> ~ In x V) ->
    get (path_text cs) D = Some i -> fresh_keys cs l D ->
    exists D' V', steps (SS ((path_text cs, map tree_item l) :: rest) D V) (SS rest D' V') /\ walked cs l i D D' V V'.
  Proof.
    induction n as [|n IH]; intros l cs rest D V i t1 pre Sz L F St E1 T1 T ND NV G FK; [destruct l; cbn in Sz; lia|].
    destruct l as [|x l].
    { exists D, V. split; [eapply steps_next; [discriminate|reflexivity|apply steps_refl]|]. split; [|split; [intros c r []|split; [reflexivity|now left]]].
      rewrite G. destruct i as [a b]. cbn. now destruct (levelb md (S (length cs))). }
    rewrite dsize_cons in Sz. destruct (tree_names_cons x l T) as (Hn & NI & TS & TL). rewrite inodes_cons in ND, NV.
    assert (NDl : NoDup (inodes (DTree l))) by (eapply sub_nodup; [|exact ND]; clear; induction (match snd x with DDir i t' => i :: inodes t' | _ => [] end); [apply sub_refl|now apply sub_skip]).
    assert (E2 : t1 = DTree ((pre ++ [x]) ++ l)) by (rewrite <- app_assoc; exact E1).
    (** entries that change at most the record of the directory *)
    assert (FLAT : forall i1 D1, get (path_text cs) D1 = Some i1 ->
      round (SS ((path_text cs, map tree_item (x :: l)) :: rest) D V) = Ok (SS ((path_text cs, map tree_item l) :: rest) D1 V) ->
      (forall q, q <> path_text cs -> get q D1 = get q D) ->
      (forall r, expect (length cs) (DTree (x :: l)) (fst x :: r) = None) ->
      d_files i1 = ext (d_files i) (match snd x with DFile s => if starts_with [dot] (fst x) then [] else [(fst x, if sizes then s else (-1)%Z)] | _ => [] end) ->
      ext (d_dirs i1) (if levelb md (S (length cs)) then visible_dirs (DTree l) else []) = ext (d_dirs i) (if levelb md (S (length cs)) then visible_dirs (DTree (x :: l)) else []) ->
      exists D' V', steps (SS ((path_text cs, map tree_item (x :: l)) :: rest) D V) (SS rest D' V') /\ walked cs (x :: l) i D D' V V').
    { intros i1 D1 G1 R O EX FI DI. destruct (IH l cs rest D1 V i1 t1 (pre ++ [x])) as (D2 & V2 & S2 & W2); auto.
      - destruct (snd x); lia.
      - intros y I. apply NV. apply in_or_app. auto.
      - eapply fresh_tail; eauto.
      - exists D2, V2. split; [eapply steps_next; [discriminate|exact R|exact S2]|]. eapply walked_flat; eauto. }
    assert (SAME : round (SS ((path_text cs, map tree_item (x :: l)) :: rest) D V) = Ok (SS ((path_text cs, map tree_item l) :: rest) D V) ->
      (forall r, expect (length cs) (DTree (x :: l)) (fst x :: r) = None) ->
      match snd x with DFile s => if starts_with [dot] (fst x) then [] else [(fst x, if sizes then s else (-1)%Z)] | _ => [] end = [] ->
      (if levelb md (S (length cs)) then visible_dirs (DTree l) else []) = (if levelb md (S (length cs)) then visible_dirs (DTree (x :: l)) else []) ->
      exists D' V', steps (SS ((path_text cs, map tree_item (x :: l)) :: rest) D V) (SS rest D' V') /\ walked cs (x :: l) i D D' V V').
    { intros R EX FI DI. apply (FLAT i D); auto; [now rewrite FI|now rewrite DI]. }
    assert (TD : forall p' l' D' V', too_deep md (SS ((p', l') :: rest) D' V') = negb (levelb md (S (length cs)))) by (intros; rewrite L; apply too_deep_level).
    destruct x as [c en]. cbn [fst snd] in *. destruct (starts_with [dot] c) eqn:Hd.
    { apply SAME.
      - cbn [map]. unfold tree_item at 1. rewrite round_top. apply item_hidden. destruct en; exact Hd.
      - intros r. rewrite expect_cons, Hd. now destruct (child _ _).
      - now destruct en.
      - rewrite vdirs_cons. cbn [fst snd]. rewrite Hd. now destruct en. }
    destruct en as [s|ino t'|].
    - (* a file *)
      apply (FLAT (Info (ext (d_files i) [(c, if sizes then s else (-1)%Z)]) (d_dirs i))
                  (set (path_text cs) (Info (ext (d_files i) [(c, if sizes then s else (-1)%Z)]) (d_dirs i)) D)).
      + apply (get_set_eq text_eqb text_eqb_spec).
      + cbn [map]. unfold tree_item at 1. rewrite round_top. unfold scan_item, append_file. cbn [snd fst i_name i_dir i_file holds s_dirs s_stack s_visited]. rewrite Hd, G. reflexivity.
      + intros q N. apply (get_set_neq text_eqb text_eqb_spec). auto.
      + intros r. rewrite expect_cons, child_cons. cbn [fst snd]. now rewrite text_eqb_refl.
      + reflexivity.
      + reflexivity.
    - (* a directory *)
      destruct (levelb md (S (length cs))) eqn:Lv.
      2:{ apply SAME; auto.
          - cbn [map]. unfold tree_item at 1. rewrite round_top. unfold scan_item. cbn [snd fst i_name i_dir holds]. rewrite Hd, TD. reflexivity.
          - intros r. rewrite expect_cons, Lv, andb_false_r. now destruct (child _ _). }
      destruct t' as [l']. cbn [names_of_sub snd] in TS.
      set (i1 := Info (d_files i) (Some (match d_dirs i with Some l => l | None => [] end ++ [c]))).
      set (D1 := set (path_text cs) i1 D). set (D2 := set (path_text (cs ++ [c])) (Info None None) D1).
      assert (Fc : Forall name_ok (cs ++ [c])) by (apply Forall_app; auto).
      assert (CH : child t1 c = Some (DTree l')).
      { rewrite E1. apply child_at with (i := ino). rewrite E1 in T1. apply tree_names_iff in T1. tauto. }
      assert (St' : subtree t0 (cs ++ [c]) = Some (DTree l')) by (rewrite subtree_app, St; cbn; now rewrite CH).
      assert (NN : path_text (cs ++ [c]) <> path_text cs).
      { intros X. rewrite <- (app_nil_r cs) in X at 2. apply path_app_inj in X; auto. discriminate. }
      assert (R : round (SS ((path_text cs, map tree_item ((c, DDir ino (DTree l')) :: l)) :: rest) D V) =
                  Ok (SS ((path_text (cs ++ [c]), map tree_item l') :: (path_text cs, map tree_item l) :: rest) D2 (ino :: V))).
      { cbn [map]. unfold tree_item at 1. rewrite round_top. unfold scan_item, append_dir. cbn [snd fst i_name i_dir holds i_inode s_dirs s_stack s_visited].
        rewrite Hd, TD. cbn [negb]. rewrite not_visited by (cbn; apply NV; now left). rewrite G. cbn [bind]. fold i1 D1.
        rewrite join_path by auto. unfold push_directory, tree_os. rewrite components_path, St' by auto. reflexivity. }
      cbn [app] in ND, NV. inversion ND as [|? ? N1 N2]; subst x l0.
      destruct (IH l' (cs ++ [c]) ((path_text cs, map tree_item l) :: rest) D2 (ino :: V) (Info None None) (DTree l') []) as (D3 & V3 & S3 & W3); auto.
      + lia.
      + rewrite app_length. cbn. lia.
      + exact (nodup_l _ _ N2).
      + intros y I [<-|I2]; [apply N1; apply in_or_app; auto|]. apply (NV y); auto. right. apply in_or_app. auto.
      + apply (get_set_eq text_eqb text_eqb_spec).
      + intros c' r I Fr. unfold D2, D1. rewrite <- app_assoc. cbn [app]. rewrite !(get_set_neq text_eqb text_eqb_spec).
        * apply FK; [now left|]. constructor; auto.
        * intros X. rewrite <- (app_nil_r cs) in X at 1. apply path_app_inj in X; auto. discriminate.
        * intros X. apply path_app_inj in X; auto. discriminate.
      + destruct W3 as (A1 & A2 & A3 & A4).
        assert (B1 : get (path_text cs) D3 = Some i1).
        { rewrite A3; auto.
          - unfold D2, D1. rewrite (get_set_neq text_eqb text_eqb_spec) by auto. apply (get_set_eq text_eqb text_eqb_spec).
          - intros c' r I Fr X. rewrite <- app_assoc in X. cbn [app] in X. rewrite <- (app_nil_r cs) in X at 1. apply path_app_inj in X; auto. discriminate. }
        assert (B2 : forall q, q <> path_text cs -> (forall r, Forall name_ok (c :: r) -> q <> path_text (cs ++ c :: r)) -> get q D3 = get q D).
        { intros q Q1 Q2. rewrite A3.
          - unfold D2, D1. rewrite !(get_set_neq text_eqb text_eqb_spec); auto. intros X. symmetry in X. revert X. apply Q2. auto.
          - apply Q2. auto.
          - intros c' r I Fr. rewrite <- app_assoc. cbn [app]. apply Q2. constructor; auto. }
        destruct (IH l cs rest D3 V3 i1 t1 (pre ++ [(c, DDir ino (DTree l'))])) as (D4 & V4 & S4 & W4); auto.
        * lia.
        * intros y I I2. apply A4 in I2. destruct I2 as [[<-|I2]|I2].
          -- apply N1. apply in_or_app. auto.
          -- apply (NV y); auto. right. apply in_or_app. auto.
          -- exact (nodup_disj _ _ y N2 I2 I).
        * intros c' r I Fr. rewrite B2.
          -- apply FK; auto. now right.
          -- intros X. rewrite <- (app_nil_r cs) in X at 2. apply path_app_inj in X; auto. discriminate.
          -- intros r' Fr' X. apply path_app_inj in X; auto. injection X as -> _. contradiction.
        * exists D4, V4. split; [eapply steps_next; [discriminate|exact R|]; eapply steps_trans; [exact S3|exact S4]|].
          destruct W4 as (C1 & C2 & C3 & C4). split; [|split; [|split]].
          -- rewrite C1, Lv, vfiles_cons, vdirs_cons. cbn [fst snd app d_files d_dirs i1]. rewrite Hd. cbn [app].
             change (Some (match d_dirs i with Some l0 => l0 | None => [] end ++ [c])) with (ext (d_dirs i) [c]). now rewrite ext_ext.
          -- intros c' r [<-|I] Fr; cycle 1.
             ++ rewrite C2 by auto. rewrite !expect_cons, child_cons. cbn [fst]. destruct (text_eqb_spec c c') as [->|]; [contradiction|reflexivity].
             ++ cbn [fst] in *. inversion Fr as [|? ? Fc' Fr']; subst. rewrite C3.
                ** rewrite expect_cons, child_cons. cbn [fst snd]. rewrite text_eqb_refl, Hd, Lv. cbn [negb andb].
                   replace (cs ++ c :: r) with ((cs ++ [c]) ++ r) by (now rewrite <- app_assoc). destruct r as [|c2 r].
                   --- rewrite app_nil_r, A1, expect_nil. unfold summary. cbn [d_files d_dirs]. rewrite !ext_none, app_length. cbn [length]. now rewrite Nat.add_1_r.
                   --- destruct (in_dec (list_eq_dec N.eq_dec) c2 (map fst l')) as [I|NI2].
                       +++ rewrite A2 by auto. rewrite app_length. cbn [length]. now rewrite Nat.add_1_r.
                       +++ rewrite A3.
                           *** unfold D2, D1. rewrite <- app_assoc. cbn [app]. rewrite !(get_set_neq text_eqb text_eqb_spec).
                               { rewrite FK; [|now left|auto]. rewrite expect_cons. unfold child. cbn [dentries]. destruct (find _ l') as [y|] eqn:Fi; [|reflexivity].
                                 apply find_some in Fi. destruct Fi as [I2 Eq]. apply text_eqb_eq in Eq. elim NI2. rewrite <- Eq. now apply in_map. }
                               { intros X. rewrite <- (app_nil_r cs) in X at 1. apply path_app_inj in X; auto. discriminate. }
                               { intros X. apply path_app_inj in X; auto. discriminate. }
                           *** intros X. rewrite <- (app_nil_r (cs ++ [c])) in X at 2. apply path_app_inj in X; auto. discriminate.
                           *** intros c3 r3 I3 F3 X. apply path_app_inj in X; auto. injection X as -> _. contradiction.
                ** intros X. rewrite <- (app_nil_r cs) in X at 2. apply path_app_inj in X; auto. discriminate.
                ** intros c3 r3 I3 F3 X. apply path_app_inj in X; auto. injection X as -> _. contradiction.
          -- intros q Q1 Q2. rewrite C3, B2; auto.
             ++ intros r Fr. apply Q2; auto. now left.
             ++ intros c' r I Fr. apply Q2; auto. now right.
          -- intros y I. rewrite inodes_cons. cbn [snd]. destruct (C4 y I) as [I2|I2]; [|right; apply in_or_app; auto].
             apply A4 in I2. destruct I2 as [[<-|I2]|I2]; [right; now left|auto|right; right; apply in_or_app; auto].
    - (* something else *)
      apply SAME; auto.
      + cbn [map]. unfold tree_item at 1. rewrite round_top. unfold scan_item. cbn [snd fst i_name i_dir i_file holds]. now rewrite Hd.
      + intros r. rewrite expect_cons, child_cons. cbn [fst snd]. now rewrite text_eqb_refl.
  Qed.

  Lemma scan_tree f d : ordinary t0 -> scan_directory sd sizes md true f = Ok d ->
    (forall cs, Forall name_ok cs -> get (path_text cs) d = expect 0 t0 cs) /\
    (forall q, (forall cs, Forall name_ok cs -> q <> path_text cs) -> get q d = None).
  Proof.
    intros [T ND] E. assert (X : exists l, t0 = DTree l) by (destruct t0; eauto). destruct X as [l E0]. rewrite E0 in T, ND. unfold scan_directory in E.
    destruct (walk (dsize (DTree l)) l [] [] [([], Info None None)] [] (Info None None) t0 []) as (D' & V' & S1 & W1 & W2 & W3 & _); auto.
    - now rewrite E0.
    - intros c r I Fr. cbn [app dict_get]. destruct (text_eqb_spec [] (path_text (c :: r))) as [X|]; [|reflexivity].
      symmetry in X. apply path_text_nil in X; auto. discriminate.
    - destruct (steps_loop _ _ S1 eq_refl) as [g Lg].
      assert (P : push [] (SS [] [] []) = SS [(path_text [], map tree_item l)] [([], Info None None)] []).
      { unfold push_directory, tree_os. cbn. now rewrite E0. }
      rewrite P in E. destruct (loop f _) as [st| |] eqn:Lf; cbn in E; try discriminate. injection E as <-.
      assert (X : loop f (SS [(path_text [], map tree_item l)] [([], Info None None)] []) = loop g (SS [(path_text [], map tree_item l)] [([], Info None None)] [])).
      { destruct (Nat.le_ge_cases f g) as [H|H]; [symmetry|]; apply loop_more; auto; congruence. }
      rewrite Lf, Lg in X. injection X as ->. cbn [s_dirs].
      assert (NONE : forall c r, ~ In c (map fst l) -> expect 0 t0 (c :: r) = None).
      { intros c r NI. rewrite expect_cons. unfold child. rewrite E0. cbn [dentries]. destruct (find _ l) as [y|] eqn:Fi; [|reflexivity].
        apply find_some in Fi. destruct Fi as [I2 Eq]. apply text_eqb_eq in Eq. elim NI. rewrite <- Eq. now apply in_map. }
      split.
      + intros [|c r] Fr; [rewrite W1, expect_nil, E0; unfold summary; cbn [d_files d_dirs length]; now rewrite !ext_none|].
        destruct (in_dec (list_eq_dec N.eq_dec) c (map fst l)) as [I|NI]; [rewrite E0; now apply (W2 c r)|]. rewrite NONE by auto. rewrite W3; cycle 1.
        { intros X. apply path_text_nil in X; auto. discriminate. }
        { intros c' r' I' Fr' X. apply path_inj in X; auto. injection X as -> _. contradiction. }
        cbn [dict_get]. destruct (text_eqb_spec [] (path_text (c :: r))) as [X|]; [|reflexivity]. symmetry in X. apply path_text_nil in X; auto. discriminate.
      + intros q Q. rewrite W3.
        * cbn [dict_get]. destruct (text_eqb_spec [] q) as [X|]; [|reflexivity]. elim (Q []); [constructor|now rewrite <- X].
        * apply (Q []). constructor.
        * intros c r _ Fr. now apply Q.
  Qed.
End Tree.

Lemma shown_visible cs : shown cs = true <-> Forall (fun n => ~ hidden n) cs.
Proof.
  unfold shown. rewrite forallb_forall, Forall_forall. split; intros H n I; specialize (H n I).
  - apply hidden_spec. now destruct (starts_with _ _).
  - apply hidden_spec in H. now rewrite H.
Qed.
Lemma complete_on_trees t sizes md : ordinary t ->
  (exists f d, scan_directory (tree_os t) sizes md true f = Ok d) /\
  forall f d, scan_directory (tree_os t) sizes md true f = Ok d -> forall p i, dict_get text_eqb p d = Some i <->
    exists cs t', p = path_text cs /\ Forall name_ok cs /\ subtree t cs = Some t' /\ Forall (fun n => ~ hidden n) cs /\ (cs <> [] -> level_ok md (length cs)) /\
      d_files i = opt (visible_files sizes t') /\
      (level_ok md (S (length cs)) -> d_dirs i = opt (visible_dirs t')) /\ (~ level_ok md (S (length cs)) -> d_dirs i = None).
Proof.
  intros O. split.
  - destruct O as [T ND]. destruct t as [l] eqn:E0. rewrite <- E0.
    destruct (walk t sizes md (dsize (DTree l)) l [] [] [([], Info None None)] [] (Info None None) t []) as (D' & V' & S1 & _); rewrite ?E0; auto.
    + intros c r I Fr. cbn [app dict_get]. destruct (text_eqb_spec [] (path_text (c :: r))) as [X|]; [|reflexivity]. symmetry in X. apply path_text_nil in X; auto. discriminate.
    + rewrite E0 in S1. destruct (steps_loop _ _ _ _ _ S1 eq_refl) as [g Lg]. exists g, D'. unfold scan_directory.
      assert (P : push_directory (tree_os (DTree l)) [] (SS [] [] []) = SS [(path_text [], map tree_item l)] [([], Info None None)] []) by reflexivity.
      rewrite P, Lg. reflexivity.
  - intros f d E p i. destruct (scan_tree t sizes md f d O E) as [K N]. split.
    + intros G. assert (X : exists cs, Forall name_ok cs /\ p = path_text cs).
      { destruct (list_eq_dec N.eq_dec p (path_text (components p))) as [Eq|NE].
        - destruct (Forall_dec name_ok) with (l := components p) as [Fa|NF].
          + intros n. unfold name_ok. destruct (list_eq_dec N.eq_dec n []); [right; tauto|]. destruct (in_dec N.eq_dec slash n); [right; tauto|left; tauto].
          + eauto.
          + exfalso. rewrite N in G; [discriminate|]. intros cs Fa ->. rewrite components_path in NF by auto. contradiction.
        - exfalso. rewrite N in G; [discriminate|]. intros cs Fa ->. rewrite components_path in NE by auto. contradiction. }
      destruct X as (cs & Fa & ->). rewrite K in G by auto. unfold expect in G. destruct (subtree t cs) as [t'|] eqn:St; [|discriminate].
      destruct (shown cs && _) eqn:B; [|discriminate]. injection G as <-. apply andb_true_iff in B. destruct B as [B1 B2]. exists cs, t'.
      split; [reflexivity|]. split; [auto|]. split; [auto|]. split; [now apply shown_visible|]. split; [intros NE; destruct cs; [contradiction|now apply levelb_ok]|].
      cbn [summary d_files d_dirs Nat.add]. split; [reflexivity|]. split.
      * intros Lv. apply levelb_ok in Lv. now rewrite Lv.
      * intros Lv. destruct (levelb md (S (length cs))) eqn:Lb; [apply levelb_ok in Lb; contradiction|reflexivity].
    + intros (cs & t' & -> & Fa & St & Vi & Lv & Fi & D1 & D2). rewrite K by auto. unfold expect. rewrite St. apply shown_visible in Vi. rewrite Vi. cbn [andb].
      assert (B : match cs with [] => true | _ => levelb md (0 + length cs) end = true) by (destruct cs; [reflexivity|apply levelb_ok; apply Lv; discriminate]).
      rewrite B. f_equal. unfold summary. cbn [Nat.add]. destruct i as [fi di]. cbn [d_files d_dirs] in *. rewrite Fi. f_equal.
      destruct (levelb md (S (length cs))) eqn:Lb; symmetry.
      * apply D1. now apply levelb_ok.
      * apply D2. intros X. apply levelb_ok in X. congruence.
Qed.

Lemma complete_listing t sizes md : ordinary t ->
  (exists f d, scan_directory (tree_os t) sizes md true f = Ok d) /\
  forall f d, scan_directory (tree_os t) sizes md true f = Ok d -> forall cs, Forall name_ok cs ->
    (dict_get text_eqb (path_text cs) d <> None <->
     subtree t cs <> None /\ Forall (fun n => ~ hidden n) cs /\ (cs <> [] -> level_ok md (length cs))) /\
    forall i t', dict_get text_eqb (path_text cs) d = Some i -> subtree t cs = Some t' ->
      listed_files i = visible_files sizes t' /\
      (level_ok md (S (length cs)) -> listed_dirs i = visible_dirs t') /\ (~ level_ok md (S (length cs)) -> listed_dirs i = []).
Proof.
  intros O. destruct (complete_on_trees t sizes md O) as [E C]. split; [exact E|]. intros f d R cs Fa. specialize (C f d R (path_text cs)). split; [split|].
  - destruct (dict_get text_eqb (path_text cs) d) as [i|]; [|now intros X]. intros _. destruct (proj1 (C i) eq_refl) as (cs' & t' & P & Fa' & St & Vi & Lv & _).
    apply path_inj in P; auto. subst cs'. split; [now rewrite St|]. auto.
  - intros (St & Vi & Lv). destruct (subtree t cs) as [t'|] eqn:S0; [|contradiction].
    assert (X : dict_get text_eqb (path_text cs) d = Some (summary sizes md (length cs) t')); [|now rewrite X].
    apply C. exists cs, t'. split; [reflexivity|]. split; [exact Fa|]. split; [exact S0|]. split; [exact Vi|]. split; [exact Lv|].
    unfold summary. cbn [d_files d_dirs]. split; [reflexivity|]. split; intros H.
    + apply levelb_ok in H. now rewrite H.
    + destruct (levelb md (S (length cs))) eqn:Lb; [apply levelb_ok in Lb; contradiction|reflexivity].
  - intros i t' G St. destruct (proj1 (C i) G) as (cs' & t2 & P & Fa' & St' & _ & _ & F1 & D1 & D2). apply path_inj in P; auto. subst cs'.
    assert (t2 = t') as -> by congruence. unfold listed_files, listed_dirs. rewrite F1, opt_list. split; [reflexivity|]. split; intros H.
    + rewrite D1, opt_list; auto.
    + now rewrite D2.
Qed.
