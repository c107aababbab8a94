From Verif Require Import Py Py_lemmas Dict_lemmas Model_Path Model_Scan Spec_Scan Proof_Path Proof_Scan.

(** ** Scans end *)
Section Ends.
  Variable sd : text -> option listing.
  Variable sizes : bool.
  Variable md : option Z.
  Notation round := (scan_round sd sizes md).
  Notation loop := (scan_loop sd sizes md).
  Notation push := (push_directory sd).
  Notation start := (push [] (SS [] [] [])).

  Definition todo (s : list (text * listing)) : nat := list_sum (map (fun x => S (length (snd x))) s).
  Lemma todo_cons p l s : todo ((p, l) :: s) = S (length l) + todo s. Proof. reflexivity. Qed.
  Lemma loop_step f st st' : s_stack st <> [] -> round st = Ok st' -> loop (S f) st = loop f st'.
  Proof. intros N R. cbn. destruct (s_stack st); [contradiction|]. now rewrite R. Qed.
  Lemma ends_step st : s_stack st <> [] -> (forall st', round st = Ok st' -> ends (fun f => loop f st')) -> ends (fun f => loop f st).
  Proof.
    intros N H. destruct (round st) as [st'|e|] eqn:R.
    - destruct (H st' eq_refl) as [f F]. exists (S f). now rewrite (loop_step f st st').
    - exists 1. cbn. destruct (s_stack st); [contradiction|]. rewrite R. discriminate.
    - destruct st as [s D V]. unfold scan_round, scan_item, append_dir, append_file in R. cbn [s_stack s_dirs s_visited] in *. destruct s as [|[p [|[e|] l]] rest]; try discriminate.
      destruct (starts_with _ _); [discriminate|]. destruct (dict_get text_eqb p D); cbn [bind] in R;
        repeat match type of R with context [if ?x then _ else _] => destruct x | context [match ?x with Some _ => _ | None => _ end] => destruct x end; discriminate.
  Qed.

  Section Inodes.
    Variable I : list N.
    Hypothesis known : forall p l e, sd p = Some l -> In (Some e) l -> holds (i_dir e) = true -> exists n, i_inode e = Some n /\ In n I.
    Definition fresh (V : list N) : nat := length (filter (fun i => negb (existsb (N.eqb i) V)) I).
    Definition items_ok (s : list (text * listing)) : Prop :=
      forall p r e, In (p, r) s -> In (Some e) r -> holds (i_dir e) = true -> exists n, i_inode e = Some n /\ In n I.
    Lemma fresh_less n V : In n I -> existsb (N.eqb n) V = false -> fresh (n :: V) < fresh V.
    Proof.
      unfold fresh. intros H E. clear known. induction I as [|a J IH]; [destruct H|]. cbn [filter existsb].
      assert (LE : length (filter (fun i => negb ((i =? n)%N || existsb (N.eqb i) V)) J) <= length (filter (fun i => negb (existsb (N.eqb i) V)) J)).
      { clear. induction J as [|b J IH]; cbn; [lia|]. destruct (b =? n)%N, (existsb (N.eqb b) V); cbn; lia. }
      destruct (N.eqb_spec a n) as [->|NE].
      - cbn [orb negb]. rewrite E. cbn. cbn in LE. lia.
      - destruct H as [H|H]; [congruence|]. specialize (IH H). cbn [existsb] in IH. cbn [orb]. destruct (existsb (N.eqb a) V); cbn in *; lia.
    Qed.
    Lemma ok_tail p e l rest : items_ok ((p, e :: l) :: rest) -> items_ok ((p, l) :: rest).
    Proof. intros H q r x [X|X] IR DR; [injection X as <- <-; apply (H p (e :: l) x); cbn; auto|apply (H q r x); cbn; auto]. Qed.
    Lemma ok_push p st : items_ok (s_stack st) -> items_ok (s_stack (push p st)).
    Proof.
      intros H. unfold push_directory. destruct (sd p) as [l|] eqn:E; [|exact H]. intros q r x [X|X] IR DR; [injection X as <- <-; eapply known; eauto|apply (H q r x); auto].
    Qed.
    Lemma push_visited p st : s_visited (push p st) = s_visited st.
    Proof. unfold push_directory. now destruct (sd p). Qed.
    Lemma ends_fresh u : forall m st, fresh (s_visited st) <= u -> todo (s_stack st) <= m -> items_ok (s_stack st) -> ends (fun f => loop f st).
    Proof.
      induction u as [u IHu] using lt_wf_ind. induction m as [m IHm] using lt_wf_ind. intros st U M H.
      destruct (s_stack st) as [|[p r] rest] eqn:S0; [exists 0; cbn; now rewrite S0|].
      apply ends_step; [now rewrite S0|]. intros st' R. destruct st as [s D V]. cbn [s_stack s_visited] in *. subst s.
      unfold scan_round in R. cbn [s_stack s_dirs s_visited] in R.
      assert (LESS : forall st1, s_visited st1 = V -> todo (s_stack st1) < m -> items_ok (s_stack st1) -> ends (fun f => loop f st1)).
      { intros st1 E1 T1 O1. apply (IHm (todo (s_stack st1))); auto; now rewrite E1. }
      destruct r as [|[e|] l]; [|clear IHm|discriminate].
      - injection R as <-. apply LESS; [reflexivity| |]. + rewrite todo_cons in M. cbn [s_stack length] in *. lia. + intros q r x X. apply (H q r x). now right.
      - apply ok_tail in H as H'.
        assert (NEXT : forall D', ends (fun f => loop f (SS ((p, l) :: rest) D' V))).
        { intros D'. apply LESS; [reflexivity| |exact H']. cbn [s_stack]. rewrite todo_cons in *. cbn [length] in M. lia. }
        unfold scan_item in R. cbn [s_stack s_dirs s_visited] in R.
        destruct (starts_with _ _); [injection R as <-; apply NEXT|]. destruct (holds (i_dir e)) eqn:DR.
        + destruct (too_deep _ _); [injection R as <-; apply NEXT|]. destruct (H p (Some e :: l) e) as (n & EN & IN); cbn; auto.
          rewrite EN in R. destruct (visited n _) eqn:VS; [injection R as <-; apply NEXT|].
          destruct (append_dir _ _ _) as [D'| |]; cbn [bind] in R; try discriminate. injection R as <-.
          assert (FR : fresh (n :: V) < u) by (pose proof (fresh_less n V IN VS); lia).
          eapply (IHu _ FR); [rewrite push_visited; cbn [s_visited]; reflexivity|reflexivity|now apply ok_push].
        + destruct (holds (i_file e)); [|injection R as <-; apply NEXT].
          destruct (append_file _ _ _ _) as [D'| |]; cbn [bind] in R; try discriminate. injection R as <-. apply NEXT.
    Qed.
    Lemma scan_ends_inodes root_ok : ends (scan_directory sd sizes md root_ok).
    Proof.
      destruct root_ok; [|now exists 0]. destruct (ends_fresh (fresh (s_visited start)) (todo (s_stack start)) start) as [f F]; auto.
      - apply ok_push. intros p r e [].
      - exists f. unfold scan_directory. destruct (loop f start); cbn; congruence.
    Qed.
  End Inodes.

  Section Depth.
    Variables (m : Z) (n : nat).
    Hypothesis limit : md = Some m.
    Hypothesis size : forall p l, sd p = Some l -> length l <= n.
    (** Rounds needed for an entry when [r] more levels are allowed *)
    Fixpoint cost (r : nat) : nat := match r with O => 1 | S k => 2 + n * cost k end.
    Fixpoint weight (s : list (text * listing)) : nat :=
      match s with [] => 0 | (_, l) :: rest => S (length l * cost (Z.to_nat (m - Z.of_nat (S (length rest))))) + weight rest end.
    Lemma cost_pos r : 0 < cost r. Proof. destruct r; cbn; lia. Qed.
    Lemma weight_push p st : (Z.of_nat (length (s_stack st)) < m)%Z ->
      weight (s_stack (push p st)) < weight (s_stack st) + cost (Z.to_nat (m - Z.of_nat (length (s_stack st)))).
    Proof.
      intros L. pose proof (cost_pos (Z.to_nat (m - Z.of_nat (length (s_stack st))))) as P.
      unfold push_directory. destruct (sd p) as [l|] eqn:E; [|lia]. cbn [s_stack weight]. apply size in E.
      assert (X : Z.to_nat (m - Z.of_nat (length (s_stack st))) = S (Z.to_nat (m - Z.of_nat (S (length (s_stack st)))))) by lia. rewrite X. cbn [cost].
      pose proof (Nat.mul_le_mono_r _ _ (cost (Z.to_nat (m - Z.of_nat (S (length (s_stack st)))))) E). lia.
    Qed.
    Lemma ends_weight k : forall st, weight (s_stack st) <= k -> ends (fun f => loop f st).
    Proof.
      induction k as [k IH] using lt_wf_ind. intros st W.
      destruct (s_stack st) as [|[p r] rest] eqn:S0; [exists 0; cbn; now rewrite S0|].
      apply ends_step; [now rewrite S0|]. intros st' R. destruct st as [s D V]. cbn [s_stack] in *. subst s.
      unfold scan_round in R. cbn [s_stack s_dirs s_visited] in R.
      assert (LESS : forall st1, weight (s_stack st1) < k -> ends (fun f => loop f st1)) by (intros st1 W1; eapply IH; eauto).
      cbn [weight] in W. set (c := cost _) in W. assert (P : 0 < c) by apply cost_pos. destruct r as [|[e|] l]; [| |discriminate].
      - injection R as <-. apply LESS. cbn in *. lia.
      - assert (NEXT : forall D' V', ends (fun f => loop f (SS ((p, l) :: rest) D' V'))).
        { intros. apply LESS. cbn [s_stack weight]. fold c. cbn in W. lia. }
        assert (PUSH : forall q D' V', too_deep md (SS ((p, l) :: rest) D V) = false -> ends (fun f => loop f (push q (SS ((p, l) :: rest) D' V')))).
        { intros q D' V' TD. apply LESS. unfold too_deep in TD. rewrite limit in TD. cbn [s_stack] in TD.
          pose proof (weight_push q (SS ((p, l) :: rest) D' V')) as X. cbn [s_stack] in X. specialize (X ltac:(lia)).
          eapply Nat.lt_le_trans; [exact X|]. cbn [weight]. change (length ((p, l) :: rest)) with (S (length rest)). fold c. cbn in W. lia. }
        unfold scan_item in R. cbn [s_stack s_dirs s_visited] in R.
        destruct (starts_with _ _); [injection R as <-; apply NEXT|]. destruct (holds (i_dir e)).
        + destruct (too_deep _ _) eqn:TD; [injection R as <-; apply NEXT|]. destruct (i_inode e) as [i|]; [|injection R as <-; now apply PUSH].
          destruct (visited i _); [injection R as <-; apply NEXT|].
          destruct (append_dir _ _ _) as [D'| |]; cbn [bind] in R; try discriminate. injection R as <-. now apply PUSH.
        + destruct (holds (i_file e)); [|injection R as <-; apply NEXT].
          destruct (append_file _ _ _ _) as [D'| |]; cbn [bind] in R; try discriminate. injection R as <-. apply NEXT.
    Qed.
    Lemma scan_ends_depth root_ok : ends (scan_directory sd sizes md root_ok).
    Proof.
      destruct root_ok; [|now exists 0]. destruct (ends_weight _ start (le_n _)) as [f F].
      exists f. unfold scan_directory. destruct (loop f start); cbn; congruence.
    Qed.
  End Depth.
End Ends.

(** ** Finite file systems *)
Lemma graph_dir_in g d l : graph_dir g d = Some l -> In (Some l) g.
Proof. unfold graph_dir. destruct (nth_error g d) as [x|] eqn:E; [|discriminate]. intros ->. now apply nth_error_In in E. Qed.
Lemma graph_os_in g p l : graph_os g p = Some l -> exists l', In (Some l') g /\ l = map (option_map fst) l'.
Proof.
  unfold graph_os. destruct (graph_at g 0 (components p)) as [d|]; [|discriminate]. destruct (graph_dir g d) as [l'|] eqn:E; [|discriminate].
  intros [= <-]. exists l'. split; auto. eapply graph_dir_in; eauto.
Qed.
Lemma graph_item g p l e : graph_os g p = Some l -> In (Some e) l -> In e (graph_items g).
Proof.
  intros H I. destruct (graph_os_in g p l H) as (l' & IG & ->). unfold graph_items. apply in_flat_map. exists (Some l'). split; auto. now apply in_entries.
Qed.
Lemma graph_ends g sizes md root_ok : Forall (fun e => i_inode e <> None) (graph_items g) -> ends (scan_directory (graph_os g) sizes md root_ok).
Proof.
  intros F. rewrite Forall_forall in F.
  apply (scan_ends_inodes _ _ _ (flat_map (fun e => match i_inode e with Some n => [n] | None => [] end) (graph_items g))).
  intros p l e H I _. pose proof (graph_item _ _ _ _ H I) as X. specialize (F e X). destruct (i_inode e) as [n|] eqn:E; [|contradiction].
  exists n. split; auto. apply in_flat_map. exists e. split; auto. rewrite E. now left.
Qed.
Lemma graph_ends_depth g sizes m root_ok : ends (scan_directory (graph_os g) sizes (Some m) root_ok).
Proof.
  apply (scan_ends_depth _ _ _ m (list_max (map (fun x => match x with Some l => length l | None => 0 end) g))); auto.
  intros p l H. destruct (graph_os_in g p l H) as (l' & I & ->). rewrite map_length.
  pose proof (proj1 (list_max_le (map (fun x : option (list (option (item * nat))) => match x with Some l => length l | None => 0 end) g) _) (le_n _)) as F.
  rewrite Forall_forall in F. apply F. apply in_map_iff. now exists (Some l').
Qed.
