From Verif Require Import Py Model_Child Model_Process Spec_Process Spec_Child Proof_Process.
From Coq Require Import Lia.

Section C.
  Variables passwd group_db : text -> option Z.
  Variable shell : option text.
  Variable exec : list text -> creds -> option exn.
  Notation side := (child_side passwd group_db shell exec).
  Notation crun := (child_run passwd group_db shell exec).

  Lemma run_executes held user group argv c p c' : crun held user group argv c = Executes p c' -> side user group argv c = Ok (p, c').
  Proof. unfold child_run. destruct (side user group argv c) as [[a d]|e|]; [intros [= -> ->]; reflexivity|destruct held; discriminate|discriminate]. Qed.
  Lemma side_ok user group argv c p c' : side user group argv c = Ok (p, c') ->
    exists c1, switch_user passwd user c = Ok c1 /\ switch_group group_db group c1 = Ok c' /\ program shell argv = Ok p /\ exec p c' = None.
  Proof.
    unfold child_side. destruct (switch_user passwd user c) as [c1|e|] eqn:E1; cbn [bind]; try discriminate.
    destruct (switch_group group_db group c1) as [c2|e|] eqn:E2; cbn [bind]; try discriminate.
    destruct (program shell argv) as [q|e|] eqn:E3; cbn [bind]; try discriminate.
    destruct (exec q c2) eqn:E4; [discriminate|]. intros [= -> ->]. eauto 6.
  Qed.
  Lemma user_plain u uid c c1 : plain c -> passwd u = Some uid -> switch_user passwd (Some u) c = Ok c1 -> plain c1 /\ as_user uid c1.
  Proof.
    intros (A & B & C & D) E. cbn. rewrite E. unfold setuid. destruct (Z.eqb_spec (euid c) 0).
    - intros [= <-]. unfold plain, as_user. cbn. auto 8.
    - destruct (Z.eqb_spec uid (ruid c)); cbn; [|destruct (Z.eqb_spec uid (suid c)); [|discriminate]];
        intros [= <-]; unfold plain, as_user; cbn; repeat split; congruence.
  Qed.
  Lemma switch_plain user c c1 : plain c -> switch_user passwd user c = Ok c1 -> plain c1.
  Proof.
    intros P. destruct user as [u|]; [|cbn; now intros [= <-]]. destruct (passwd u) as [uid|] eqn:E.
    - intros H. exact (proj1 (user_plain u uid c c1 P E H)).
    - cbn. rewrite E. now intros [= <-].
  Qed.
  Lemma group_user group c c' uid : as_user uid c -> switch_group group_db group c = Ok c' -> as_user uid c'.
  Proof.
    intros (A & B & C). destruct group as [g|]; cbn; [|intros [= <-]; now repeat split].
    destruct (group_db g) as [gid|]; [|intros [= <-]; now repeat split].
    unfold setgid. destruct (Z.eqb_spec (euid c) 0); [intros [= <-]; now repeat split|].
    destruct (Z.eqb gid (rgid c) || Z.eqb gid (sgid c))%bool; [intros [= <-]; now repeat split|discriminate].
  Qed.
  Lemma later_user uid c c' : uid <> 0%Z -> as_user uid c -> later c c' -> as_user uid c'.
  Proof.
    intros N A L. induction L as [|u c1 c2 L IH E|g c1 c2 L IH E]; [exact A| |]; destruct IH as (U1 & U2 & U3).
    - revert E. unfold setuid. destruct (Z.eqb_spec (euid c1) 0); [congruence|].
      destruct (Z.eqb_spec u (ruid c1)); cbn; [intros [= <-]; unfold as_user; cbn; repeat split; congruence|].
      destruct (Z.eqb_spec u (suid c1)); [intros [= <-]; unfold as_user; cbn; repeat split; congruence|discriminate].
    - revert E. unfold setgid. destruct (Z.eqb_spec (euid c1) 0); [congruence|].
      destruct (Z.eqb g (rgid c1) || Z.eqb g (sgid c1))%bool; [intros [= <-]; now repeat split|discriminate].
  Qed.
  Lemma c119_user held u uid group argv c p c' : plain c -> passwd u = Some uid -> crun held (Some u) group argv c = Executes p c' ->
    as_user uid c' /\ (uid <> 0%Z -> forall c'', later c' c'' -> as_user uid c'').
  Proof.
    intros P E H. apply run_executes, side_ok in H as (c1 & H1 & H2 & _).
    destruct (user_plain u uid c c1 P E H1) as [_ A]. pose proof (group_user _ _ _ _ A H2) as A'. split; [exact A'|].
    intros N c'' L. exact (later_user uid c' c'' N A' L).
  Qed.
  Lemma c119_group held user g gid argv c p c' : plain c -> group_db g = Some gid -> crun held user (Some g) argv c = Executes p c' -> as_group gid c'.
  Proof.
    intros P E H. apply run_executes, side_ok in H as (c1 & H1 & H2 & _).
    destruct (switch_plain _ _ _ P H1) as (A & B & C & D). revert H2. cbn. rewrite E. unfold setgid.
    destruct (Z.eqb_spec (euid c1) 0); [intros [= <-]; now repeat split|].
    destruct (Z.eqb_spec gid (rgid c1)); cbn; [|destruct (Z.eqb_spec gid (sgid c1)); [|discriminate]];
      intros [= <-]; unfold as_group; cbn; repeat split; congruence.
  Qed.
  Lemma c119_both held u uid g gid argv c p c' : plain c -> passwd u = Some uid -> uid <> 0%Z -> group_db g = Some gid -> gid <> egid c ->
    crun held (Some u) (Some g) argv c <> Executes p c'.
  Proof.
    intros P E N E' N' H. pose proof (run_executes _ _ _ _ _ _ _ H) as H'. apply side_ok in H' as (c1 & H1 & H2 & _).
    destruct (user_plain u uid c c1 P E H1) as [_ (A1 & A2 & A3)].
    assert (G : rgid c1 = rgid c /\ sgid c1 = sgid c).
    { revert H1. cbn. rewrite E. unfold setuid. destruct (Z.eqb (euid c) 0); [intros [= <-]; auto|].
      destruct (Z.eqb uid (ruid c) || Z.eqb uid (suid c))%bool; [intros [= <-]; auto|discriminate]. }
    destruct P as (_ & _ & P1 & P2). destruct G as [G1 G2].
    revert H2. cbn. rewrite E'. unfold setgid. destruct (Z.eqb_spec (euid c1) 0); [congruence|].
    destruct (Z.eqb_spec gid (rgid c1)); [congruence|]. destruct (Z.eqb_spec gid (sgid c1)); [congruence|]. cbn. discriminate.
  Qed.
  Lemma c119_unknown held u group argv c : passwd u = None -> crun held (Some u) group argv c = crun held None group argv c.
  Proof. intros E. unfold child_run, child_side. cbn [switch_user]. rewrite E. reflexivity. Qed.
  Lemma c119_unknown_group held user g argv c : group_db g = None -> crun held user (Some g) argv c = crun held user None argv c.
  Proof. intros E. unfold child_run, child_side. cbn [switch_group]. rewrite E. reflexivity. Qed.
  Lemma c119_groups held user argv c p c' : crun held user None argv c = Executes p c' ->
    groups c' = groups c /\ rgid c' = rgid c /\ egid c' = egid c /\ sgid c' = sgid c.
  Proof.
    intros H. apply run_executes, side_ok in H as (c1 & H1 & H2 & _). cbn in H2. injection H2 as <-.
    revert H1. destruct user as [u|]; cbn; [|intros [= <-]; auto]. destruct (passwd u) as [uid|]; [|intros [= <-]; auto].
    unfold setuid. destruct (Z.eqb (euid c) 0); [intros [= <-]; auto|].
    destruct (Z.eqb uid (ruid c) || Z.eqb uid (suid c))%bool; [intros [= <-]; auto|discriminate].
  Qed.
  Lemma c119_extra held user group argv c p c' : crun held user group argv c = Executes p c' -> groups c' = groups c.
  Proof.
    intros H. apply run_executes, side_ok in H as (c1 & H1 & H2 & _).
    assert (groups c1 = groups c) as <-.
    { revert H1. destruct user as [u|]; cbn; [|intros [= <-]; auto]. destruct (passwd u) as [uid|]; [|intros [= <-]; auto].
      unfold setuid. destruct (Z.eqb (euid c) 0); [intros [= <-]; auto|].
      destruct (Z.eqb uid (ruid c) || Z.eqb uid (suid c))%bool; [intros [= <-]; auto|discriminate]. }
    revert H2. destruct group as [g|]; cbn; [|intros [= <-]; auto]. destruct (group_db g) as [gid|]; [|intros [= <-]; auto].
    unfold setgid. destruct (Z.eqb (euid c1) 0); [intros [= <-]; auto|].
    destruct (Z.eqb gid (rgid c1) || Z.eqb gid (sgid c1))%bool; [intros [= <-]; auto|discriminate].
  Qed.

  Lemma chosen_program argv p : program shell argv = Ok p <-> chosen shell argv p.
  Proof.
    destruct argv as [|a r]; cbn.
    - destruct shell as [s|]; split; intros H; try discriminate.
      + injection H as <-. now constructor.
      + inversion H as [|s' E]; subst. now injection E as <-.
      + inversion H; discriminate.
    - split; [intros [= <-]; constructor|intros H; now inversion H].
  Qed.
  Lemma c120_only held user group argv c p c' : crun held user group argv c = Executes p c' -> chosen shell argv p /\ exec p c' = None.
  Proof. intros H. apply run_executes, side_ok in H as (c1 & _ & _ & H & E). split; [now apply chosen_program|exact E]. Qed.
  Lemma c120_runs held argv c p : chosen shell argv p -> exec p c = None -> crun held None None argv c = Executes p c.
  Proof. intros H E. apply chosen_program in H. unfold child_run, child_side. cbn [switch_user switch_group bind]. rewrite H. cbn [bind]. now rewrite E. Qed.
  Lemma side_no_hang user group argv c : side user group argv c <> Hang.
  Proof.
    unfold child_side. destruct (switch_user passwd user c) as [c1|e|] eqn:E1; cbn [bind]; try discriminate.
    - destruct (switch_group group_db group c1) as [c2|e|] eqn:E2; cbn [bind]; try discriminate.
      + destruct (program shell argv) as [q|e|] eqn:E3; cbn [bind]; try discriminate; [destruct (exec q c2); discriminate|].
        destruct argv; [destruct shell|]; discriminate.
      + destruct group as [g|]; cbn in E2; [|discriminate]. destruct (group_db g); [|discriminate]. destruct (setgid _ _); discriminate.
    - destruct user as [u|]; cbn in E1; [|discriminate]. destruct (passwd u); [|discriminate]. destruct (setuid _ _); discriminate.
  Qed.
  Lemma c120_ends user group argv c : crun false user group argv c <> Waits.
  Proof. unfold child_run. pose proof (side_no_hang user group argv c). destruct (side user group argv c) as [[p d]|e|]; discriminate || tauto. Qed.
  Lemma c120_waits user group argv c e : crun false user group argv c = Ends e -> crun true user group argv c = Waits.
  Proof. unfold child_run. destruct (side user group argv c) as [[p d]|x|]; try discriminate. reflexivity. Qed.
End C.

(** ** C121, C122 *)
Lemma unwaited_step e st : unclosed e -> waiters st = [] -> kid st <> Reaped -> waiters (pstep e st) = [] /\ kid (pstep e st) <> Reaped.
Proof.
  intros U W K.
  destruct e; cbn [pstep unclosed] in *; try contradiction; rewrite ?W; cbn [nth_error]; try (rewrite ?nth_error_nil); auto.
  - destruct (ph st); [destruct ok|..]; cbn; auto. split; [auto|discriminate].
  - destruct (ph st); cbn; auto.
  - destruct (ph st); cbn; auto.
  - destruct (kid st) eqn:E; cbn; rewrite ?E; auto.
  - destruct (kid st) eqn:E; cbn; rewrite ?E; auto; split; auto; discriminate.
  - destruct (ph st); try (split; assumption). destruct send_ok; [destruct hangup|]; cbn; auto.
  - destruct (ph st); cbn; auto.
  - destruct (ph st); cbn; auto.
  - destruct (ph st); cbn; auto.
  - destruct (chan_closed st); [auto|]. pose proof (on_data_same d ws st) as H. cbn zeta in H. destruct H as (_ & K' & _ & _ & W' & _). rewrite K', W'. auto.
  - destruct i; cbn; auto.
  - destruct i; cbn; auto.
  - destruct i; cbn; auto.
Qed.
Lemma c121_refuted t0 evs : Forall unclosed evs -> waiters (prun evs (pinit t0)) = [] /\ kid (prun evs (pinit t0)) <> Reaped.
Proof.
  intros F. assert (G : forall l st, Forall unclosed l -> waiters st = [] -> kid st <> Reaped -> waiters (prun l st) = [] /\ kid (prun l st) <> Reaped).
  { induction l as [|e l IH]; intros st Fl W K; [split; assumption|]. inversion Fl; subst. cbn. destruct (unwaited_step e st) as [A B]; auto. }
  apply G; [exact F|reflexivity|discriminate].
Qed.

Lemma pcons e l st : prun (e :: l) st = prun l (pstep e st).
Proof. reflexivity. Qed.
Lemma begins_0 st w : waiters st = [w] -> w_phase w = Launched -> pstep (Begins 0) st = with_waiters st [W (now st) (w_warnings w) (w_sent_kill w) Sleeping].
Proof. intros E P. cbn [pstep]. rewrite E. cbn [nth_error]. now rewrite P. Qed.
Lemma idle_begins st w : waiters st = [w] -> w_phase w <> Launched -> pstep (Begins 0) st = st.
Proof. intros E P. cbn [pstep]. rewrite E. cbn [nth_error]. destruct (w_phase w); congruence. Qed.
Lemma wait_0 st w : waiters st = [w] -> w_phase w = Sleeping -> kid st = Zombie ->
  pstep (WaitPid 0) st = with_kid (with_waiters st [W (w_start w) (w_warnings w) (w_sent_kill w) Finished]) Reaped.
Proof. intros E P K. cbn [pstep]. rewrite E. cbn [nth_error]. now rewrite P, K. Qed.
Lemma idle_wait st w : waiters st = [w] -> w_phase w <> Sleeping -> pstep (WaitPid 0) st = st.
Proof. intros E P. cbn [pstep]. rewrite E. cbn [nth_error]. destruct (w_phase w); congruence. Qed.
Lemma rest_0 st w : waiters st = [w] -> w_phase w = Finished -> kid st = Reaped -> kid (prun [] (pstep (WaitPid 0) (pstep (Act 0 true) st))) = Reaped.
Proof.
  intros E P K. assert (pstep (Act 0 true) st = st) as ->. { cbn [pstep]. rewrite E. cbn [nth_error]. now rewrite P. }
  rewrite (idle_wait st w E) by congruence. exact K.
Qed.
Lemma round_reaps st w : pinv st -> all_patient st -> waiters st = [w] -> kid st = Zombie -> w_phase w <> Finished ->
  (w_phase w = StillRunning -> (now st < w_start w + 86400)%Z) -> kid (prun (round 0) st) = Reaped.
Proof.
  intros I A W K F N. pose proof (A w) as P. rewrite W in P. specialize (P (or_introl eq_refl)). destruct P as (_ & _ & L & _).
  pose proof (I_w st I w) as O. rewrite W in O. specialize (O (or_introl eq_refl)). destruct O as (_ & _ & _ & _ & O & _).
  destruct w as [s ws sk p]. cbn [w_phase w_warnings w_sent_kill w_start] in F, N, L, O. destruct p; [| | |congruence].
  - unfold round. rewrite !pcons. rewrite (begins_0 st _ W eq_refl). cbn [w_warnings w_sent_kill].
    set (w1 := Model_Process.W (now st) ws sk Sleeping). rewrite (wait_0 (with_waiters st [w1]) w1 eq_refl eq_refl K).
    eapply rest_0; reflexivity.
  - unfold round. rewrite !pcons. rewrite (idle_begins st _ W ltac:(discriminate)). rewrite (wait_0 st _ W eq_refl K). eapply rest_0; reflexivity.
  - destruct O as [O|O]; [discriminate|]. specialize (L O). specialize (N eq_refl).
    unfold round. rewrite !pcons. rewrite (idle_begins st _ W ltac:(discriminate)), (idle_wait st _ W ltac:(discriminate)).
    assert (Ha : exists w2, waiters (pstep (Act 0 true) st) = [w2] /\ w_phase w2 = Sleeping /\ kid (pstep (Act 0 true) st) = Zombie).
    { cbn [pstep]. rewrite W. cbn [nth_error w_phase]. unfold act. cbn [w_start w_warnings w_sent_kill].
      set (wrn := match ws with [] => [] | t :: r => if (t <=? now st - s)%Z then r else t :: r end).
      assert (wrn <> []) as NW.
      { subst wrn. destruct ws as [|t [|t' r]]; [congruence| |destruct (t <=? now st - s)%Z; discriminate].
        cbn in L. subst t. destruct (Z.leb_spec 86400 (now st - s)); [lia|discriminate]. }
      destruct wrn as [|x wrn]; [congruence|].
      destruct (negb sk && (kill_time <=? now st - s)%Z); cbn [with_waiters kill waiters kid]; rewrite W; cbn [update]; eexists; (split; [reflexivity|split; [reflexivity|exact K]]). }
    destruct Ha as (w2 & W2 & P2 & K2). rewrite (wait_0 _ _ W2 P2 K2). reflexivity.
Qed.
Lemma reach t0 evs : pinv (prun evs (pinit t0)) /\ all_patient (prun evs (pinit t0)).
Proof.
  assert (forall l st, pinv st -> all_patient st -> pinv (prun l st) /\ all_patient (prun l st)) as G.
  { induction l as [|e l IH]; cbn; auto. intros st I A. apply IH; [now apply pinv_step|now apply patient_step]. }
  apply G; [apply pinv_init|]. intros w [].
Qed.
Lemma c121 t0 evs st w : st = prun evs (pinit t0) -> waiters st = [w] -> kid st = Zombie -> w_phase w <> Finished ->
  (w_phase w = StillRunning -> (now st < w_start w + 86400)%Z) -> kid (prun (round 0) st) = Reaped.
Proof. intros -> W K F N. destruct (reach t0 evs). now apply (round_reaps _ w). Qed.
Lemma c121_close t0 evs st : st = prun evs (pinit t0) -> kid st = Zombie -> ph st <> Forked -> chan_closed st = false -> closed st = false ->
  kid (prun (CloseChannel true true :: round 0) st) = Reaped.
Proof.
  intros E K F C D. pose proof (reach t0 evs) as [I A]. rewrite <- E in I, A.
  assert (P : pid st = true).
  { destruct (pid st) eqn:Ep; [reflexivity|]. exfalso.
    assert (G : forall l s, (pid s = true \/ kid s = Unborn \/ ph s = Forked) -> pinv s -> pid (prun l s) = true \/ kid (prun l s) = Unborn \/ ph (prun l s) = Forked).
    { clear. induction l as [|e l IH]; intros s H I; [exact H|]. cbn. apply IH; [|now apply pinv_step].
      destruct e; cbn [pstep].
      - exact H.
      - destruct (ph s) eqn:Eph; try (rewrite Eph; intuition congruence). destruct ok; cbn; [auto|]. right. left. apply I. exact Eph.
      - destruct (ph s) eqn:Eph; try (rewrite Eph; intuition congruence). cbn. auto.
      - destruct (ph s) eqn:Eph; try (rewrite Eph; intuition congruence). cbn. intuition congruence.
      - destruct (kid s) eqn:Ek; cbn; rewrite ?Ek; intuition congruence.
      - destruct (kid s) eqn:Ek; try (rewrite Ek; intuition congruence). cbn. intuition congruence.
      - destruct (ph s) eqn:Eph; try (rewrite Eph; intuition congruence). destruct send_ok; [destruct hangup|]; cbn; intuition congruence.
      - destruct (ph s) eqn:Eph; try (rewrite Eph; intuition congruence). cbn. intuition congruence.
      - destruct (ph s) eqn:Eph; try (rewrite Eph; intuition congruence). cbn. intuition congruence.
      - destruct (ph s) eqn:Eph; try (rewrite Eph; intuition congruence). cbn. intuition congruence.
      - destruct (chan_closed s); [exact H|]. pose proof (on_data_same d ws s) as Q. cbn zeta in Q. destruct Q as (Q1 & Q2 & Q3 & _). rewrite Q1, Q2, Q3. exact H.
      - destruct (chan_closed s); [exact H|]. unfold close. destruct (negb _ && _); [destruct kill_ok; [destruct thread_ok|]|]; exact H.
      - unfold close. destruct (negb _ && _); [destruct kill_ok; [destruct thread_ok|]|]; exact H.
      - destruct (nth_error _ _) as [w|]; [destruct (w_phase w)|]; exact H.
      - destruct (nth_error _ _) as [w|]; [|exact H]. destruct (w_phase w); try exact H. destruct (kid s) eqn:Ek; try (cbn; rewrite Ek; intuition congruence).
        cbn. intuition congruence.
      - destruct (nth_error _ _) as [w|]; [|exact H]. destruct (w_phase w); try exact H. pose proof (act_same i kill_ok w s) as Q. cbn zeta in Q.
        destruct Q as (Q1 & Q2 & _). rewrite Q1, Q2. assert (pid (act i kill_ok w s) = pid s) as ->; [|exact H].
        unfold act. destruct (negb _ && _); [destruct kill_ok|]; reflexivity. }
    destruct (G evs (pinit t0)) as [H|[H|H]]; [right; left; reflexivity|apply pinv_init|..]; rewrite <- E in H; congruence. }
  destruct (I_closed st I D) as [_ W0].
  set (st1 := pstep (CloseChannel true true) st).
  assert (W1 : waiters st1 = [W (now st) warnings0 false Launched]).
  { unfold st1. cbn [pstep]. rewrite C. unfold close. cbn. rewrite D, P. cbn. now rewrite W0. }
  assert (K1 : kid st1 = Zombie). { unfold st1. cbn [pstep]. rewrite C. unfold close. cbn. rewrite D, P. cbn. exact K. }
  change (prun (CloseChannel true true :: round 0) st) with (prun (round 0) st1).
  apply (round_reaps st1 (W (now st) warnings0 false Launched)); [now apply pinv_step|now apply patient_step|exact W1|exact K1|discriminate|discriminate].
Qed.

Definition holds_fd st := match ph st with Starting => True | Over => True | _ => fd st = true end.
Lemma holds_step e st : holds_fd st -> holds_fd (pstep e st).
Proof.
  unfold holds_fd. intros H. destruct e; cbn [pstep].
  - exact H.
  - destruct (ph st) eqn:E; [destruct ok|..]; cbn; rewrite ?E; auto.
  - destruct (ph st) eqn:E; cbn; rewrite ?E; auto.
  - destruct (ph st) eqn:E; [..|destruct ok|]; cbn; rewrite ?E; auto. all: destruct ok; cbn; auto.
  - destruct (kid st); exact H.
  - destruct (kid st); exact H.
  - destruct (ph st) eqn:E; try (rewrite E; exact H). destruct send_ok; [destruct hangup|]; cbn; rewrite ?E; auto.
  - destruct (ph st) eqn:E; cbn; rewrite ?E; auto.
  - destruct (ph st) eqn:E; cbn; rewrite ?E; auto.
  - destruct (ph st) eqn:E; cbn; rewrite ?E; auto.
  - destruct (chan_closed st); [exact H|]. pose proof (on_data_same d ws st) as Q. cbn zeta in Q. destruct Q as (_ & _ & Q & _ & _ & _ & _ & _ & _ & Q' & _). rewrite Q, Q'. exact H.
  - destruct (chan_closed st); [exact H|]. unfold close. destruct (negb _ && _); [destruct kill_ok; [destruct thread_ok|]|]; exact H.
  - unfold close. destruct (negb _ && _); [destruct kill_ok; [destruct thread_ok|]|]; exact H.
  - destruct (nth_error _ _) as [w|]; [destruct (w_phase w)|]; exact H.
  - destruct (nth_error _ _) as [w|]; [|exact H]. destruct (w_phase w); try exact H. destruct (kid st); exact H.
  - destruct (nth_error _ _) as [w|]; [|exact H]. destruct (w_phase w); try exact H. unfold act. destruct (negb _ && _); [destruct kill_ok|]; exact H.
Qed.
(** Over and its descriptor stay as they are *)
Lemma over_keeps e st : ph st = Over -> ph (pstep e st) = Over /\ fd (pstep e st) = fd st.
Proof.
  intros H. destruct e; cbn [pstep]; rewrite ?H; auto.
  - destruct (kid st); auto.
  - destruct (kid st); auto.
  - destruct (chan_closed st); [auto|]. pose proof (on_data_same d ws st) as Q. cbn zeta in Q. destruct Q as (_ & _ & Q & _ & _ & _ & _ & _ & _ & Q' & _). rewrite Q, Q'. auto.
  - destruct (chan_closed st); [auto|]. unfold close. destruct (negb _ && _); [destruct kill_ok; [destruct thread_ok|]|]; auto.
  - unfold close. destruct (negb _ && _); [destruct kill_ok; [destruct thread_ok|]|]; auto.
  - destruct (nth_error _ _) as [w|]; [destruct (w_phase w)|]; auto.
  - destruct (nth_error _ _) as [w|]; [|auto]. destruct (w_phase w); auto. destruct (kid st); auto.
  - destruct (nth_error _ _) as [w|]; [|auto]. destruct (w_phase w); auto. unfold act. destruct (negb _ && _); [destruct kill_ok|]; auto.
Qed.
Lemma over_kept l st : ph st = Over -> ph (prun l st) = Over /\ fd (prun l st) = fd st.
Proof.
  revert st. induction l as [|e l IH]; intros st H; [auto|]. rewrite pcons. destruct (over_keeps e st H) as [A B]. destruct (IH _ A) as [C D]. split; [exact C|congruence].
Qed.
Definition released st := ph st = Over -> kid st = Unborn \/ fd st = false.
Lemma kid_unborn e st : ph st = Over -> kid st = Unborn -> pinv st -> kid (pstep e st) = Unborn.
Proof.
  intros H K I. assert (W : waiters st = []).
  { destruct (waiters st) as [|w l] eqn:E; [reflexivity|]. exfalso. pose proof (I_w st I w) as O. rewrite E in O. specialize (O (or_introl eq_refl)).
    unfold okw in O. tauto. }
  destruct e; cbn [pstep]; rewrite ?H, ?K, ?W; auto.
  - destruct (chan_closed st); [auto|]. pose proof (on_data_same d ws st) as Q. cbn zeta in Q. destruct Q as (_ & Q & _). congruence.
  - destruct (chan_closed st); [auto|]. unfold close. destruct (negb _ && _); [destruct kill_ok; [destruct thread_ok|]|]; auto.
  - unfold close. destruct (negb _ && _); [destruct kill_ok; [destruct thread_ok|]|]; auto.
  - destruct i; auto.
  - destruct i; auto.
  - destruct i; auto.
Qed.
Lemma over_comes e st : untroubled e -> pinv st -> ph st <> Over -> ph (pstep e st) = Over -> kid (pstep e st) = Unborn \/ fd (pstep e st) = false.
Proof.
  intros U I N. destruct e; cbn [pstep untroubled] in *.
  - intros H. now contradiction N.
  - destruct (ph st) eqn:E; try congruence. destruct ok; [discriminate|]. intros _. left. apply I. exact E.
  - destruct (ph st) eqn:E; cbn; congruence.
  - destruct (ph st) eqn:E; try congruence. destruct ok; [discriminate|contradiction].
  - destruct (kid st); cbn; congruence.
  - destruct (kid st); cbn; congruence.
  - destruct (ph st) eqn:E; try congruence. destruct send_ok; [|contradiction]. destruct hangup; cbn; congruence.
  - destruct (ph st) eqn:E; cbn; congruence.
  - destruct (ph st) eqn:E; cbn; congruence.
  - destruct (ph st) eqn:E; try congruence. intros _. right. reflexivity.
  - destruct (chan_closed st); [congruence|]. pose proof (on_data_same d ws st) as Q. cbn zeta in Q. destruct Q as (_ & _ & Q & _). congruence.
  - destruct (chan_closed st); [congruence|]. unfold close. destruct (negb _ && _); [destruct kill_ok; [destruct thread_ok|]|]; cbn; congruence.
  - unfold close. destruct (negb _ && _); [destruct kill_ok; [destruct thread_ok|]|]; cbn; congruence.
  - destruct (nth_error _ _) as [w|]; [destruct (w_phase w)|]; cbn; congruence.
  - destruct (nth_error _ _) as [w|]; [|congruence]. destruct (w_phase w); try congruence. destruct (kid st); cbn; congruence.
  - destruct (nth_error _ _) as [w|]; [|congruence]. destruct (w_phase w); try congruence. unfold act. destruct (negb _ && _); [destruct kill_ok|]; cbn; congruence.
Qed.
Lemma released_step e st : untroubled e -> pinv st -> released st -> released (pstep e st).
Proof.
  intros U I R H. destruct (ph st) eqn:E; try (apply over_comes; [exact U|exact I|congruence|exact H]).
  destruct (over_keeps e st E) as [_ F]. destruct (R E) as [K|K]; [left; now apply kid_unborn|right; congruence].
Qed.
Lemma c122 t0 evs st : st = prun evs (pinit t0) -> Forall untroubled evs -> ph st = Over -> kid st <> Unborn -> fd st = false.
Proof.
  intros E F H K. assert (G : forall l s, Forall untroubled l -> pinv s -> released s -> released (prun l s)).
  { induction l as [|e l IH]; intros s Fl I R; [exact R|]. inversion Fl; subst. rewrite pcons. apply IH; [assumption|now apply pinv_step|now apply released_step]. }
  assert (R : released st). { rewrite E. apply G; [exact F|apply pinv_init|intros X; discriminate X]. }
  destruct (R H); [contradiction|assumption].
Qed.
Lemma holds_run l st : holds_fd st -> holds_fd (prun l st).
Proof. revert st. induction l as [|e l IH]; intros st H; [exact H|]. rewrite pcons. apply IH. now apply holds_step. Qed.
Lemma c122_refuted t0 before e more st st' : st = prun before (pinit t0) ->
  (ph st = HavePid /\ e = InitFd false \/ ph st = Copying /\ exists n hangup, e = Reads n hangup false) ->
  st' = prun (e :: more) st -> ph st' = Over /\ fd st' = true.
Proof.
  intros E H ->. assert (Hf : holds_fd st) by (rewrite E; apply holds_run; exact I).
  rewrite pcons. assert (P : ph (pstep e st) = Over /\ fd (pstep e st) = true).
  { unfold holds_fd in Hf. destruct H as [[H ->]|[H (n & h & ->)]]; cbn [pstep]; rewrite H in *; cbn; auto. }
  destruct P as [P1 P2]. destruct (over_kept more _ P1) as [Q1 Q2]. split; [exact Q1|congruence].
Qed.
