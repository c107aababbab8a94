(** * Why a scan fails (C133) *)
From Verif Require Import Py Py_lemmas Dict_lemmas Model_Path Model_Scan Spec_Scan Proof_Scan2.

Section Scan.
  Variable scandir : text -> option listing.
  Variable sizes : bool.
  Variable md : option Z.
  Notation get := (dict_get text_eqb).
  (** Every directory on the stack has its entry, and what is left of its listing *)
  Definition kept (st : scan_state) : Prop := forall p l, In (p, l) (s_stack st) -> get p (s_dirs st) <> None /\ exists pre, scandir p = Some (pre ++ l).
  Lemma set_keeps p q (v : info) d : get q d <> None -> get q (dict_set text_eqb p v d) <> None.
  Proof. rewrite (get_set text_eqb text_eqb_spec). destruct (text_eqb p q); auto. discriminate. Qed.
  Lemma kept_push p st : kept st -> kept (push_directory scandir p st).
  Proof.
    unfold push_directory. intros K. destruct (scandir p) as [l|] eqn:E; auto. intros q r [[= <- <-]|H]; cbn.
    - split; [rewrite (get_set_eq text_eqb text_eqb_spec); discriminate|]. exists []. exact E.
    - destruct (K _ _ H) as [A B]. split; auto. now apply set_keeps.
  Qed.
  Lemma kept_dirs s d d' v v' : kept (SS s d v) -> (forall q, get q d <> None -> get q d' <> None) -> kept (SS s d' v').
  Proof. intros K H q r Q. destruct (K q r Q) as [A B]. split; auto. Qed.
  Lemma kept_item p e l rest d v st' : kept (SS ((p, l) :: rest) d v) -> scan_item scandir sizes md p e (SS ((p, l) :: rest) d v) = Ok st' -> kept st'.
  Proof.
    intros K. unfold scan_item. destruct (starts_with [dot] (i_name e)); [intros [= <-]; auto|]. destruct (holds (i_dir e)).
    - destruct (too_deep md _); [intros [= <-]; auto|]. destruct (i_inode e) as [n|]; [|intros [= <-]; now apply kept_push].
      destruct (visited n _); [intros [= <-]; auto|]. unfold append_dir. cbn [s_dirs s_stack s_visited]. destruct (get p d) as [i|]; cbn; [|discriminate].
      intros [= <-]. apply kept_push. eapply kept_dirs; [exact K|]. intros q. apply set_keeps.
    - destruct (holds (i_file e)); [|intros [= <-]; auto]. unfold append_file. cbn [s_dirs s_stack s_visited]. destruct (get p d) as [i|]; cbn; [|discriminate].
      intros [= <-]. eapply kept_dirs; [exact K|]. intros q. apply set_keeps.
  Qed.
  Lemma kept_round st st' : kept st -> scan_round scandir sizes md st = Ok st' -> kept st'.
  Proof.
    unfold scan_round. destruct st as [[|[p [|[e|] l]] rest] d v]; intros K; cbn [s_stack s_dirs s_visited].
    - now intros [= <-].
    - intros [= <-] q r Q. apply K. now right.
    - apply kept_item. intros q r [[= <- <-]|Q]; [|apply K; now right].
      destruct (K p (Some e :: l) (or_introl eq_refl)) as [A [pre B]]. split; auto. exists (pre ++ [Some e]). now rewrite <- app_assoc.
    - discriminate.
  Qed.
  Lemma kept_raise st e : kept st -> scan_round scandir sizes md st = Raise e -> e = EOS /\ exists p l, scandir p = Some l /\ In None l.
  Proof.
    unfold scan_round. destruct st as [[|[p [|[x|] l]] rest] d v]; intros K; cbn [s_stack s_dirs s_visited]; try discriminate.
    - unfold scan_item. destruct (starts_with [dot] (i_name x)); [discriminate|]. destruct (K p (Some x :: l) (or_introl eq_refl)) as [A _]. cbn [s_dirs] in A.
      unfold append_dir, append_file. cbn [s_dirs s_visited]. destruct (get p d) as [i|]; [|now destruct A]. cbn [bind].
      destruct (holds (i_dir x)); [|destruct (holds (i_file x)); discriminate].
      match goal with |- context [too_deep md ?k] => destruct (too_deep md k) end; [discriminate|].
      destruct (i_inode x) as [n|]; [|discriminate]. match goal with |- context [visited n ?k] => destruct (visited n k) end; discriminate.
    - intros [= <-]. split; auto. destruct (K p (None :: l) (or_introl eq_refl)) as [_ [pre B]]. exists p, (pre ++ None :: l). split; auto. apply in_or_app. right. now left.
  Qed.
  Lemma loop_raise f : forall st e, kept st -> scan_loop scandir sizes md f st = Raise e -> e = EOS /\ exists p l, scandir p = Some l /\ In None l.
  Proof.
    induction f as [|f IH]; intros st e K; cbn [scan_loop]; destruct (s_stack st) eqn:S0; try discriminate.
    destruct (scan_round scandir sizes md st) as [st'|e'|] eqn:E; cbn [bind]; [|intros [= <-]; now apply kept_raise in E|discriminate].
    apply IH. now apply kept_round in E.
  Qed.
  Lemma scan_raise root_ok f e : scan_directory scandir sizes md root_ok f = Raise e ->
    root_ok = false /\ e = EOther \/ root_ok = true /\ e = EOS /\ exists p l, scandir p = Some l /\ In None l.
  Proof.
    unfold scan_directory. destruct root_ok; [|intros [= <-]; now left]. intros H. right. split; auto.
    destruct (scan_loop scandir sizes md f _) as [st|e'|] eqn:E in H; cbn [bind] in H; try discriminate. injection H as <-.
    eapply loop_raise; [|exact E]. apply kept_push. intros p l [].
  Qed.
End Scan.

Lemma scan_succeeds g sizes md : Forall (fun e => i_inode e <> None) (graph_items g) -> (forall l, In (Some l) g -> ~ In None l) ->
  exists f d, scan_directory (graph_os g) sizes md true f = Ok d.
Proof.
  intros F N. destruct (graph_ends g sizes md true F) as [f H]. exists f. destruct (scan_directory (graph_os g) sizes md true f) as [d|e|] eqn:E.
  - now exists d.
  - apply scan_raise in E as [[E _]|(_ & _ & p & l & O & I)]; [discriminate|]. apply graph_os_in in O as (l' & G & ->).
    apply in_map_iff in I as ([x|] & X & I); [discriminate|]. now destruct (N l' G).
  - now destruct H.
Qed.
