From Verif Require Import Py Py_lemmas Model_Forward Spec_Forward Proof_Forward.

Lemma late_close_ok l : no_failure l -> late_close l cinit -> close_ok (crun l cinit).
Proof.
  assert (G : forall l st, close_ok st -> no_failure l -> late_close l st -> close_ok (crun l st)).
  { clear l. induction l as [|a l IH]; intros st C N L; [exact C|]. inversion N; subst. destruct L as [L1 L2].
    cbn. apply IH; auto. now apply close_ok_step. }
  intros N L. apply G; auto. repeat split; auto; discriminate.
Qed.
Lemma late_close_delivers l : no_failure l -> late_close l cinit -> settled (crun l cinit) ->
  delivered (crun l cinit) = concat (arrived (crun l cinit)).
Proof. intros N L S. apply in_order; auto. apply (late_close_ok l N L). Qed.

(** No deadlock *)
Definition own_step (a : action) : Prop := a = StepM None \/ a = StepC None \/ a = Connects true.
Definition reaches (st st' : cst) : Prop := exists l, Forall own_step l /\ crun l st = st'.
Lemma reaches_refl st : reaches st st.
Proof. exists []; auto. Qed.
Lemma reaches_step a st st' : own_step a -> reaches (cstep a st) st' -> reaches st st'.
Proof. intros A [l [F E]]. exists (a :: l). split; auto. Qed.
Lemma reaches_trans a b c : reaches a b -> reaches b c -> reaches a c.
Proof. intros [l [F E]] [l' [F' E']]. exists (l ++ l'). split; [now apply Forall_app|]. now rewrite crun_app, E. Qed.

Lemma m_finish st : lock st = M2M -> m_crit (m_pc st) = true ->
  exists st', reaches st st' /\ m_pc st' = MIdle /\ lock st' = Nobody /\ c_pc st' = c_pc st.
Proof.
  assert (G0 : forall st, m_pc st = MRelease -> exists st', reaches st st' /\ m_pc st' = MIdle /\ lock st' = Nobody /\ c_pc st' = c_pc st).
  { intros s P. exists (cstep (StepM None) s). split.
    - exists [StepM None]. split; [repeat constructor|reflexivity].
    - cbn. unfold step_m. rewrite P. destruct (lock s); auto. }
  assert (STEP : forall st (Q : cst -> Prop), (forall s, Q s -> exists st', reaches s st' /\ m_pc st' = MIdle /\ lock st' = Nobody /\ c_pc st' = c_pc s) ->
     Q (cstep (StepM None) st) -> c_pc (cstep (StepM None) st) = c_pc st ->
     exists st', reaches st st' /\ m_pc st' = MIdle /\ lock st' = Nobody /\ c_pc st' = c_pc st).
  { intros s Q H HQ HC. destruct (H _ HQ) as (s' & R & A1 & A2 & A3). exists s'. repeat split; auto; [|congruence].
    refine (reaches_step _ _ _ _ R). now left. }
  assert (G1 : forall st, m_pc st = MShut -> exists st', reaches st st' /\ m_pc st' = MIdle /\ lock st' = Nobody /\ c_pc st' = c_pc st).
  { intros s P. apply (STEP s _ G0); cbn; unfold step_m; rewrite P; destruct (lock s), (socket s); reflexivity. }
  assert (G2 : forall st, (exists b f, m_pc st = MDel b f) -> exists st', reaches st st' /\ m_pc st' = MIdle /\ lock st' = Nobody /\ c_pc st' = c_pc st).
  { intros s (b & f & P). destruct f; [|destruct b]; [apply (STEP s _ G0)|apply (STEP s _ G1)|apply (STEP s _ G0)];
    cbn; unfold step_m; rewrite P; destruct (lock s); reflexivity. }
  assert (G3 : forall rest st, (exists b, m_pc st = MSend b rest) -> exists st', reaches st st' /\ m_pc st' = MIdle /\ lock st' = Nobody /\ c_pc st' = c_pc st).
  { induction rest as [|d rest IH]; intros s (b & P).
    - apply (STEP s _ G2); [exists b, false|]; cbn; unfold step_m; rewrite P; destruct (lock s); reflexivity.
    - destruct (effective s None) eqn:E.
      + apply (STEP s _ G2); [exists b, true|]; cbn; unfold step_m; rewrite P, E; destruct (lock s); reflexivity.
      + apply (STEP s _ IH); [exists b|]; cbn; unfold step_m; rewrite P, E; destruct (lock s); reflexivity. }
  assert (G4 : forall st, (exists b, m_pc st = MFlush b) -> exists st', reaches st st' /\ m_pc st' = MIdle /\ lock st' = Nobody /\ c_pc st' = c_pc st).
  { intros s (b & P). destruct (socket s) eqn:E; [apply (STEP s _ (G3 (buffer s))); [exists b|]|destruct b; [apply (STEP s _ G1)|apply (STEP s _ G0)]];
    cbn; unfold step_m; rewrite P, E; destruct (lock s); reflexivity. }
  intros L C. destruct (m_pc st) eqn:P; try discriminate C.
  - apply (STEP st _ G4); [exists false|]; cbn; unfold step_m; rewrite P; destruct (lock st); reflexivity.
  - apply G4. now exists closing.
  - apply (G3 rest). now exists closing.
  - apply G2. now exists closing, failed.
  - now apply G1.
  - now apply G0.
Qed.
Lemma c_finish st : c_crit (c_pc st) = true ->
  exists st', reaches st st' /\ m_pc st' = m_pc st /\ lock st' = Nobody /\ (c_pc st' = CConnected \/ c_pc st' = CFailed).
Proof.
  set (G st := exists st', reaches st st' /\ m_pc st' = m_pc st /\ lock st' = Nobody /\ (c_pc st' = CConnected \/ c_pc st' = CFailed)).
  assert (STEP : forall st (Q : cst -> Prop), (forall s, Q s -> G s) ->
     Q (cstep (StepC None) st) -> m_pc (cstep (StepC None) st) = m_pc st -> G st).
  { intros s Q H HQ HC. destruct (H _ HQ) as (s' & R & A1 & A2 & A3). exists s'. repeat split; auto; [|congruence].
    refine (reaches_step _ _ _ _ R). unfold own_step; auto. }
  assert (G0 : forall st, (exists f, c_pc st = CRelease f) -> G st).
  { intros s [f P]. exists (cstep (StepC None) s). split.
    - exists [StepC None]. split; [constructor; [unfold own_step; auto|constructor]|reflexivity].
    - cbn. unfold step_c. rewrite P. destruct (lock s), f; auto. }
  assert (G2 : forall st, (exists f, c_pc st = CDel f) -> G st).
  { intros s (f & P). apply (STEP s _ G0); [exists f|]; cbn; unfold step_c; rewrite P; destruct (lock s); reflexivity. }
  assert (G3 : forall rest st, c_pc st = CSend rest -> G st).
  { induction rest as [|d rest IH]; intros s P.
    - apply (STEP s _ G2); [exists false|]; cbn; unfold step_c; rewrite P; destruct (lock s); reflexivity.
    - destruct (effective s None) eqn:E.
      + apply (STEP s _ G2); [exists true|]; cbn; unfold step_c; rewrite P, E; destruct (lock s); reflexivity.
      + apply (STEP s _ IH); cbn; unfold step_c; rewrite P, E; destruct (lock s); reflexivity. }
  intros C. fold (G st). destruct (c_pc st) eqn:P; try discriminate C.
  - destruct (socket st) eqn:E; [apply (STEP st _ (G3 (buffer st)))|apply (STEP st _ G0); [exists false|]];
      cbn; unfold step_c; rewrite P, E; destruct (lock st); reflexivity.
  - apply (G3 rest). assumption.
  - apply G2. eauto.
  - apply G0. eauto.
Qed.

Lemma no_deadlock l : exists st', reaches (crun l cinit) st' /\ m_pc st' = MIdle /\ (c_pc st' = CConnected \/ c_pc st' = CFailed).
Proof.
  assert (I := inv_run l _ inv_init). set (st := crun l cinit) in *. clearbody st.
  (* free the lock *)
  assert (A : exists s, reaches st s /\ lock s = Nobody /\ inv s).
  { destruct (lock st) eqn:L.
    - exists st. split; [apply reaches_refl|auto].
    - assert (C : m_crit (m_pc st) = true) by (rewrite (i_m _ I), L; reflexivity).
      destruct (m_finish st L C) as (s & (l' & F & E) & M & K & _). exists s. repeat split; [exists l'; auto|auto| | | | | | |];
        subst s; apply inv_run, I.
    - assert (C : c_crit (c_pc st) = true) by (rewrite (i_c _ I), L; reflexivity).
      destruct (c_finish st C) as (s & (l' & F & E) & M & K & _). exists s. repeat split; [exists l'; auto|auto| | | | | | |];
        subst s; apply inv_run, I. }
  destruct A as (s & R & L & J).
  (* the m2m thread *)
  assert (B : exists s1, reaches s s1 /\ lock s1 = Nobody /\ m_pc s1 = MIdle /\ c_crit (c_pc s1) = false).
  { assert (Cm := i_m _ J). assert (Cc := i_c _ J). rewrite L in Cm, Cc.
    destruct (m_pc s) eqn:P; try discriminate Cm.
    - exists s. split; [apply reaches_refl|auto].
    - destruct (m_finish (cstep (StepM None) s)) as (s' & R' & A1 & A2 & A3);
        [cbn; unfold step_m; rewrite P, L; reflexivity..|].
      exists s'. repeat split; auto; [refine (reaches_step _ _ _ _ R'); now left|].
      rewrite A3. cbn. unfold step_m. rewrite P, L. exact Cc.
    - destruct (m_finish (cstep (StepM None) s)) as (s' & R' & A1 & A2 & A3);
        [cbn; unfold step_m; rewrite P, L; reflexivity..|].
      exists s'. repeat split; auto; [refine (reaches_step _ _ _ _ R'); now left|].
      rewrite A3. cbn. unfold step_m. rewrite P, L. exact Cc. }
  destruct B as (s1 & R1 & L1 & M1 & C1).
  assert (D : exists st', reaches s1 st' /\ m_pc st' = MIdle /\ (c_pc st' = CConnected \/ c_pc st' = CFailed)).
  { assert (K : forall s, lock s = Nobody -> m_pc s = MIdle -> c_pc s = CLock -> exists st', reaches s st' /\ m_pc st' = MIdle /\ (c_pc st' = CConnected \/ c_pc st' = CFailed)).
    { intros t T1 T2 T3. destruct (c_finish (cstep (StepC None) t)) as (s' & R' & A1 & A2 & A3).
      - cbn. unfold step_c. rewrite T3, T1. reflexivity.
      - exists s'. repeat split; auto; [refine (reaches_step _ _ _ _ R'); unfold own_step; auto|].
        rewrite A1. cbn. unfold step_c. rewrite T3, T1. exact T2. }
    assert (K2 : forall s, lock s = Nobody -> m_pc s = MIdle -> c_pc s = CSet -> exists st', reaches s st' /\ m_pc st' = MIdle /\ (c_pc st' = CConnected \/ c_pc st' = CFailed)).
    { intros t T1 T2 T3. destruct (K (cstep (StepC None) t)) as (s' & R' & A1); [cbn; unfold step_c; rewrite T3, ?T1; auto..|].
      exists s'. split; auto. refine (reaches_step _ _ _ _ R'); unfold own_step; auto. }
    destruct (c_pc s1) eqn:P; try discriminate C1.
    - destruct (K2 (cstep (Connects true) s1)) as (s' & R' & A1); [cbn; rewrite P; auto..|].
      exists s'. split; auto. refine (reaches_step _ _ _ _ R'); unfold own_step; auto.
    - now apply K2.
    - now apply K.
    - exists s1. split; [apply reaches_refl|auto].
    - exists s1. split; [apply reaches_refl|auto]. }
  destruct D as (s2 & R2 & M2 & C2). exists s2. split; auto.
  eapply reaches_trans; [exact R|]. eapply reaches_trans; eauto.
Qed.

(** Refutations *)
Definition hole_run : list action :=
  [Connects true; StepC None; StepC None; StepC None; StepC None; StepC None; StepC None;
   Arrives [x41; x42]; StepM None; StepM None; StepM None; StepM (Some 1); StepM None; StepM None;
   Arrives [x43]; StepM None; StepM None; StepM None; StepM None; StepM None; StepM None; StepM None].
Definition race_run : list action :=
  [Arrives [x41]; StepM None; StepM None; StepM None; StepM None;
   Connects true; Closes; StepM None; StepM None; StepC None; StepM None; StepM None;
   StepC None; StepC None; StepC None; StepC None; StepC None].
Lemma hole_refuted : exists l, settled (crun l cinit) /\ ~ is_prefix (delivered (crun l cinit)) (concat (arrived (crun l cinit))).
Proof. exists hole_run. split; [split; reflexivity|]. intros [r H]. vm_compute in H. discriminate H. Qed.
Lemma race_refuted : exists l, no_failure l /\
  m_pc (crun l cinit) = MIdle /\ c_pc (crun l cinit) = CFailed /\ In (Connects true) l /\
  arrived (crun l cinit) = [[x41]] /\ delivered (crun l cinit) = [] /\ buffer (crun l cinit) = [].
Proof. exists race_run. split; [repeat constructor|]. repeat split; try reflexivity. cbn; tauto. Qed.

(** ** Outbound *)
Lemma upd_same {A} i (x : A) l : i < length l -> nth_error (upd i x l) i = Some x.
Proof. revert i; induction l; intros [|i] H; cbn in *; try lia; auto. apply IHl; lia. Qed.
Lemma upd_other {A} i j (x : A) l : i <> j -> nth_error (upd i x l) j = nth_error l j.
Proof. revert i j; induction l; intros [|i] [|j] H; cbn; auto; try congruence; apply IHl; lia. Qed.
Lemma upd_length {A} i (x : A) l : length (upd i x l) = length l.
Proof. revert i; induction l; intros [|i]; cbn; auto. Qed.
Lemma nth_lt {A} i (c : A) l : nth_error l i = Some c -> i < length l.
Proof. intros H. apply nth_error_Some. congruence. Qed.

Lemma handle_split chunk l : forall rest, let '(rest', d, _) := handle chunk l rest in rest = d ++ rest'.
Proof.
  induction l as [|[mask r] l IH]; intros rest; cbn -[Nat.min firstn skipn]; auto.
  destruct (readable mask).
  - destruct r as [n|]; [|reflexivity].
    destruct (firstn _ rest) as [|b d] eqn:E; [reflexivity|].
    specialize (IH (skipn (Nat.min chunk (S n)) rest)). destruct (handle chunk l _) as [[r2 d2] s2].
    change (rest = ((b :: d) ++ d2) ++ r2). rewrite <- E, <- app_assoc, <- IH. symmetry. apply firstn_skipn.
  - specialize (IH rest). destruct (handle chunk l rest) as [[r2 d2] s2]. exact IH.
Qed.
Lemma handle_quiet chunk l : Forall (fun e => failed (fst e) = false) l -> forall rest, snd (handle chunk l rest) = false.
Proof.
  induction 1 as [|[mask r] l H F IH]; intros rest; cbn -[Nat.min firstn skipn]; auto. cbn in H. rewrite H.
  destruct (readable mask).
  - destruct r as [n|]; [|reflexivity]. destruct (firstn _ rest) eqn:E; [reflexivity|].
    specialize (IH (skipn (Nat.min chunk (S n)) rest)). destruct (handle chunk l _) as [[r2 d2] s2]. exact IH.
  - specialize (IH rest). destruct (handle chunk l rest) as [[r2 d2] s2]. exact IH.
Qed.

(** Effect of an action on the connections *)
Lemma step_conn chunk a n j : j < length (conns n) -> subject a <> Some j ->
  nth_error (conns (ostep chunk a n)) j = nth_error (conns n) j.
Proof.
  intros L S. destruct a; cbn [ostep subject] in *.
  - cbn. now apply nth_error_app1.
  - destruct (nth_error (conns n) i) as [c|]; auto. destruct (o_pc c); auto. apply upd_other. congruence.
  - destruct (nth_error (conns n) i) as [c|]; auto. destruct (o_pc c); auto. apply upd_other. congruence.
  - destruct (nth_error (conns n) i) as [c|]; auto. destruct (o_pc c); auto. destruct p; [apply upd_other; congruence|].
    destruct (o_closed c); [apply upd_other; congruence|]. destruct (handle chunk l (o_rest c)) as [[r d] s]. apply upd_other; congruence.
  - destruct (nth_error (conns n) i) as [c|]; auto. apply upd_other. congruence.
  - destruct (nth_error (conns n) i) as [c|]; auto. destruct (o_pc c); auto. apply upd_other. congruence.
Qed.
Lemma step_length chunk a n : length (conns (ostep chunk a n)) = length (conns n) + match a with New _ => 1 | _ => 0 end.
Proof.
  destruct a; cbn [ostep]; [cbn; rewrite app_length; reflexivity|..];
  rewrite Nat.add_0_r; destruct (nth_error (conns n) i) as [c|]; auto; try destruct (o_pc c); auto; try (cbn; apply upd_length).
  destruct p; [apply upd_length|]. destruct (o_closed c); [apply upd_length|].
  destruct (handle chunk l (o_rest c)) as [[r d] s]. apply upd_length.
Qed.

Definition news (l : list oaction) := flat_map (fun a => match a with New s => [s] | _ => [] end) l.
(** A property of one connection (with its stream) kept by every action *)
Lemma conn_inv chunk (P : bytes -> conn -> Prop)
  (P0 : forall s, P s (Cn OConnecting false s [] 0)) (Q : oaction -> Prop)
  (PS : forall a n i c s, Q a -> nth_error (conns n) i = Some c -> P s c -> subject a = Some i ->
        exists c', nth_error (conns (ostep chunk a n)) i = Some c' /\ P s c') l :
  Forall Q l -> length (conns (orun chunk l oinit)) = length (news l) /\
  forall i c, nth_error (conns (orun chunk l oinit)) i = Some c -> P (stream_of i l) c.
Proof.
  induction l as [|a l IH] using rev_ind; intros F.
  - split; auto. intros [|i] c H; discriminate H.
  - apply Forall_app in F. destruct F as [F F']. inversion F' as [|? ? QA _]; subst.
    destruct (IH F) as [IL IP]. clear IH. unfold orun in *. rewrite fold_left_app. cbn [fold_left].
    set (n := fold_left _ l oinit) in *. split.
    + rewrite step_length, IL. unfold news. rewrite flat_map_app, app_length. destruct a; reflexivity.
    + intros i c H. unfold stream_of. rewrite flat_map_app. fold (news l).
      destruct (Nat.lt_ge_cases i (length (conns n))) as [Hi|Hi].
      * rewrite app_nth1 by (rewrite <- IL; exact Hi). fold (stream_of i l).
        destruct (nth_error (conns n) i) as [c0|] eqn:E; [|apply nth_error_None in E; lia].
        assert (D : subject a = Some i \/ subject a <> Some i).
        { destruct (subject a) as [k|]; [|right; discriminate]. destruct (Nat.eq_dec k i); [left|right]; congruence. }
        destruct D as [D|D].
        -- destruct (PS a n i c0 _ QA E (IP _ _ E) D) as (c' & E' & P'). rewrite E' in H. injection H as <-. exact P'.
        -- rewrite (step_conn chunk a n i Hi D), E in H. injection H as <-. apply IP, E.
      * destruct a; try (apply nth_lt in H; rewrite step_length in H; lia).
        cbn in H. rewrite nth_error_app2 in H by lia. rewrite app_nth2 by (fold (news l); lia).
        rewrite <- IL. destruct (i - length (conns n)) as [|k]; [|destruct k; discriminate H].
        injection H as <-. apply P0.
Qed.

Lemma subj_step chunk a n i c : nth_error (conns n) i = Some c -> subject a = Some i ->
  exists c', nth_error (conns (ostep chunk a n)) i = Some c' /\
    (o_written c ++ o_rest c = o_written c' ++ o_rest c') /\
    (o_closed c = true -> o_closed c' = true) /\
    (o_asked c' = o_asked c \/ o_asked c' = S (o_asked c) /\ o_pc c = OLeaving /\ o_pc c' = OGone) /\
    (o_pc c = OGone -> o_pc c' = OGone /\ o_asked c' = o_asked c) /\
    (o_pc c' = OGone -> o_pc c <> OGone -> exists e, a = Leaves i e /\ (e = 0%Z \/ o_closed c' = true \/ o_asked c' = S (o_asked c))).
Proof.
  intros E S. assert (L := nth_lt _ _ _ E).
  destruct a; cbn [subject] in S; try discriminate S; injection S as ->; cbn [ostep]; rewrite E.
  - destruct (o_pc c) eqn:P; try (exists c; repeat split; auto; congruence).
    eexists. split; [cbn; apply upd_same, L|]. cbn. repeat split; auto; try congruence; destruct ok; congruence.
  - destruct (o_pc c) eqn:P; try (exists c; repeat split; auto; congruence).
    eexists. split; [cbn; apply upd_same, L|]. cbn. repeat split; auto; try congruence; destruct (close_event n); congruence.
  - destruct (o_pc c) eqn:P; try (exists c; repeat split; auto; congruence).
    destruct p as [|l].
    + eexists. split; [cbn; apply upd_same, L|]. cbn. repeat split; auto; congruence.
    + destruct (o_closed c) eqn:K.
      * eexists. split; [cbn; apply upd_same, L|]. cbn. rewrite ?K. repeat split; auto; congruence.
      * pose proof (handle_split chunk l (o_rest c)) as X. destruct (handle chunk l (o_rest c)) as [[r d] s].
        eexists. split; [cbn; apply upd_same, L|]. cbn. repeat split; auto; try congruence. rewrite X. apply app_assoc.
  - eexists. split; [cbn; apply upd_same, L|]. cbn. repeat split; auto; congruence.
  - destruct (o_pc c) eqn:P; try (exists c; repeat split; auto; congruence).
    eexists. split; [cbn; apply upd_same, L|]. cbn. repeat split; auto; try congruence.
    + destruct ((elapsed =? 0)%Z || o_closed c); auto.
    + intros _ _. exists elapsed. split; auto. destruct (Z.eqb_spec elapsed 0); auto. destruct (o_closed c); auto.
Qed.

Lemma out_order chunk l i c : nth_error (conns (orun chunk l oinit)) i = Some c ->
  o_written c ++ o_rest c = stream_of i l.
Proof.
  apply (conn_inv chunk (fun s c => o_written c ++ o_rest c = s)) with (Q := fun _ => True).
  - reflexivity.
  - intros a n j d s _ E P S. destruct (subj_step chunk a n j d E S) as (c' & E' & X & _). exists c'. split; auto. congruence.
  - apply Forall_forall; auto.
Qed.
Lemma out_closed chunk l i c : (forall j e, In (Leaves j e) l -> e <> 0%Z) ->
  nth_error (conns (orun chunk l oinit)) i = Some c ->
  (o_pc c = OGone -> o_closed c = true \/ o_asked c = 1) /\ (o_pc c <> OGone -> o_asked c = 0).
Proof.
  intros H.
  apply (conn_inv chunk (fun _ c => (o_pc c = OGone -> o_closed c = true \/ o_asked c = 1) /\ (o_pc c <> OGone -> o_asked c = 0)))
    with (Q := fun a => forall j e, a = Leaves j e -> e <> 0%Z).
  - intros s. cbn. split; [discriminate|auto].
  - intros a n j d s Q E [P1 P2] S.
    destruct (subj_step chunk a n j d E S) as (c' & E' & _ & X1 & X2 & X3 & X4). exists c'. split; auto. split.
    + intros G. destruct (o_pc d) eqn:PD.
      5:{ destruct (X3 eq_refl) as [_ A]. rewrite A. destruct (P1 eq_refl); auto. }
      all: destruct (X4 G) as (e & A & [B|[B|B]]); try congruence; auto; try (exfalso; apply (Q _ _ A B)); right; rewrite B, P2; congruence.
    + intros G. destruct X2 as [X2|(X2 & _ & X5)]; [|congruence]. rewrite X2. apply P2. intros PD. destruct (X3 PD). congruence.
  - apply Forall_forall. intros a IN j e ->. eauto.
Qed.

Lemma upd_id {A} i (c : A) l : nth_error l i = Some c -> upd i c l = l.
Proof. revert i; induction l; intros [|i] H; cbn in *; try discriminate; [congruence|]. f_equal; auto. Qed.
Lemma upd_upd {A} i (c d : A) l : upd i c (upd i d l) = upd i c l.
Proof. revert i; induction l; intros [|i]; cbn; auto. f_equal; auto. Qed.

Lemma eof_spin chunk i n c : nth_error (conns n) i = Some c -> o_pc c = OCheck -> o_closed c = false -> o_rest c = [] ->
  close_event n = false -> forall k, orun chunk (eof_polls i k) n = n.
Proof.
  intros E P K R F. induction k as [|k IH]; [reflexivity|].
  unfold eof_polls in *. cbn [repeat concat]. unfold orun in *. rewrite fold_left_app.
  replace (fold_left _ [CheckEvent i; _] n) with n; [exact IH|].
  cbn [fold_left]. unfold ostep at 2. rewrite E, P, F.
  cbn [ostep conns]. rewrite upd_same by (eapply nth_lt, E). cbn [o_pc opcs o_closed]. rewrite K.
  replace (handle chunk [(1%Z, Some 0)] (o_rest (opcs c OPolling))) with ([] : bytes, [] : bytes, false).
  2:{ cbn -[Nat.min]. rewrite R. now rewrite firstn_nil. }
  cbn. rewrite upd_upd. destruct c as [p b r w a]. cbn in *. subst. rewrite app_nil_r, upd_id by assumption.
  destruct n; cbn in *; now subst.
Qed.

(** Once the event is set *)
Lemma event_stays chunk a n : close_event n = true -> close_event (ostep chunk a n) = true.
Proof.
  intros H. destruct a; cbn [ostep]; auto; destruct (nth_error (conns n) i) as [c|]; auto; try destruct (o_pc c); auto.
  destruct p; auto. destruct (o_closed c); auto. destruct (handle chunk l (o_rest c)) as [[r d] s]. cbn. now rewrite H.
Qed.
Lemma dead_conn chunk j w : forall l n c, close_event n = true -> nth_error (conns n) j = Some c -> o_pc c <> OPolling -> o_written c = w ->
  exists c', nth_error (conns (orun chunk l n)) j = Some c' /\ o_pc c' <> OPolling /\ o_written c' = w.
Proof.
  induction l as [|a l IH]; intros n c F E P W; [exists c; auto|].
  cbn. assert (L := nth_lt _ _ _ E).
  assert (X : exists c', nth_error (conns (ostep chunk a n)) j = Some c' /\ o_pc c' <> OPolling /\ o_written c' = w).
  { assert (D : subject a = Some j \/ subject a <> Some j).
    { destruct (subject a) as [k|]; [|right; discriminate]. destruct (Nat.eq_dec k j); [left|right]; congruence. }
    destruct D as [D|D]; [|exists c; rewrite step_conn by auto; auto].
    destruct a; cbn [subject] in D; try discriminate D; injection D as ->; cbn [ostep]; rewrite E.
    - destruct (o_pc c) eqn:PC; try (exists c; rewrite PC; auto; fail).
      eexists; split; [cbn; now apply upd_same|]. cbn. split; auto. destruct ok; discriminate.
    - destruct (o_pc c) eqn:PC; try (exists c; rewrite PC; auto; fail).
      rewrite F. eexists; split; [cbn; now apply upd_same|]. cbn. split; auto. discriminate.
    - destruct (o_pc c) eqn:PC; try (exists c; rewrite PC; auto; fail). congruence.
    - eexists; split; [cbn; now apply upd_same|]. cbn. auto.
    - destruct (o_pc c) eqn:PC; try (exists c; rewrite PC; auto; fail).
      eexists; split; [cbn; now apply upd_same|]. cbn. split; auto. discriminate. }
  destruct X as (c' & E' & P' & W'). eapply IH; eauto. now apply event_stays.
Qed.
Lemma new_conn_dead chunk n s l : close_event n = true ->
  exists c, nth_error (conns (orun chunk (New s :: l) n)) (length (conns n)) = Some c /\ o_written c = [].
Proof.
  intros F. cbn. destruct (dead_conn chunk (length (conns n)) [] l (ostep chunk (New s) n) (Cn OConnecting false s [] 0)) as (c & A & _ & B); auto.
  - cbn. rewrite nth_error_app2 by lia. now rewrite Nat.sub_diag.
  - discriminate.
  - exists c. auto.
Qed.

(** Independence without errors *)
Lemma quiet_event chunk a n : quiet a -> close_event n = false -> close_event (ostep chunk a n) = false.
Proof.
  intros Q F. destruct a; cbn [ostep]; auto; destruct (nth_error (conns n) i) as [c|]; auto; try destruct (o_pc c); auto.
  destruct p; auto. destruct (o_closed c); auto. pose proof (handle_quiet chunk l Q (o_rest c)) as X.
  destruct (handle chunk l (o_rest c)) as [[r d] s]. cbn in *. now rewrite F, X.
Qed.
Definition relevant (j : nat) (a : oaction) : bool := match subject a with None => true | Some i => i =? j end.
Lemma ostep_same chunk a j n m : close_event n = close_event m -> nth_error (conns n) j = nth_error (conns m) j -> length (conns n) = length (conns m) ->
  relevant j a = true -> nth_error (conns (ostep chunk a n)) j = nth_error (conns (ostep chunk a m)) j.
Proof.
  intros F E L R. unfold relevant in R. destruct a; cbn [subject] in R; try (apply Nat.eqb_eq in R; subst).
  1:{ cbn. destruct (Nat.lt_ge_cases j (length (conns n))).
      - rewrite !nth_error_app1 by lia. exact E.
      - rewrite !nth_error_app2 by lia. now rewrite L. }
  all: cbn [ostep]; rewrite <- E; destruct (nth_error (conns n) j) as [c|] eqn:X; [|congruence];
    assert (j < length (conns n)) by (eapply nth_lt, X); assert (j < length (conns m)) by lia;
    try destruct (o_pc c); auto; try congruence; cbn; rewrite ?F, ?upd_same by assumption; auto.
  destruct p; cbn; rewrite ?upd_same by assumption; auto. destruct (o_closed c); cbn; rewrite ?upd_same by assumption; auto.
  destruct (handle chunk l (o_rest c)) as [[r d] s]; cbn; rewrite ?upd_same by assumption; auto.
Qed.
Lemma independent chunk j l : Forall quiet l ->
  close_event (orun chunk l oinit) = false /\
  nth_error (conns (orun chunk l oinit)) j = nth_error (conns (orun chunk (filter (relevant j) l) oinit)) j.
Proof.
  assert (G : forall l n m, close_event n = false -> close_event m = false -> nth_error (conns n) j = nth_error (conns m) j ->
     length (conns n) = length (conns m) -> Forall quiet l ->
     close_event (orun chunk l n) = false /\
     nth_error (conns (orun chunk l n)) j = nth_error (conns (orun chunk (filter (relevant j) l) m)) j).
  { clear l. induction l as [|a l IH]; intros n m F F' E L Q; [auto|]. inversion Q; subst. cbn [filter].
    destruct (relevant j a) eqn:R.
    - cbn. apply IH; auto using quiet_event. + apply ostep_same; congruence. + now rewrite !step_length, L.
    - cbn. assert (subject a <> Some j /\ match a with New _ => False | _ => True end) as [S N].
      { unfold relevant in R. destruct a; cbn in R |- *; try discriminate R; apply Nat.eqb_neq in R; split; auto; congruence. }
      apply IH; auto using quiet_event.
      + rewrite <- E. destruct (Nat.lt_ge_cases j (length (conns n))) as [H|H]; [now apply step_conn|].
        rewrite (proj2 (nth_error_None (conns n) j)) by lia. apply nth_error_None. rewrite step_length. destruct a; [destruct N|..]; lia.
      + rewrite step_length, <- L. destruct a; [destruct N|..]; lia. }
  intros Q. apply G; auto.
Qed.

(** A hang-up closes the connection's own channel *)
Lemma hangup_closes chunk i n c mask r e :
  nth_error (conns n) i = Some c -> o_pc c = OPolling -> o_closed c = false -> failed mask = true ->
  (readable mask = true -> exists k, r = Some k /\ firstn (Nat.min chunk (S k)) (o_rest c) <> []) -> e <> 0%Z ->
  exists c', nth_error (conns (orun chunk [Polls i (PollResult [(mask, r)]); CheckEvent i; Leaves i e] n)) i = Some c' /\
    o_pc c' = OGone /\ o_asked c' = S (o_asked c).
Proof.
  intros E P K F R He. assert (L := nth_lt _ _ _ E). cbn [orun fold_left]. unfold ostep at 3. rewrite E, P, K.
  assert (X : exists rest d, handle chunk [(mask, r)] (o_rest c) = (rest, d, true)).
  { cbn -[Nat.min firstn skipn]. destruct (readable mask).
    - destruct (R eq_refl) as (k & -> & N). destruct (firstn _ (o_rest c)); [congruence|]. rewrite F. eexists; eexists; reflexivity.
    - rewrite F. eexists; eexists; reflexivity. }
  destruct X as (rest & d & ->). rewrite orb_true_r.
  unfold ostep at 2. cbn [conns close_event]. rewrite upd_same by assumption. cbn [o_pc opcs o_closed o_rest o_written o_asked].
  unfold ostep. cbn [conns close_event]. rewrite upd_same by (now rewrite upd_length). cbn [o_pc o_closed o_rest o_written o_asked].
  cbn. rewrite upd_same by (now rewrite !upd_length). eexists; split; [reflexivity|]. cbn. split; auto.
  destruct (Z.eqb_spec e 0); [congruence|]. reflexivity.
Qed.

Definition shared_run : list oaction :=
  [New []; New [x41]; OConnects 0 true; OConnects 1 true; CheckEvent 0; Polls 0 (PollResult [(16%Z, None)])].
Lemma shared_refuted chunk : let n := orun chunk shared_run oinit in
  (* the first connection hung up; the second is up and its server has data *)
  (exists c, nth_error (conns n) 1 = Some c /\ o_pc c = OCheck /\ o_rest c = [x41] /\ o_closed c = false) /\
  (* whatever happens from now on, the second transfers nothing, nor does any new one *)
  (forall l, exists c, nth_error (conns (orun chunk l n)) 1 = Some c /\ o_written c = []) /\
  (forall l s, exists c, nth_error (conns (orun chunk (New s :: l) n)) 2 = Some c /\ o_written c = []).
Proof.
  cbn zeta. split; [|split].
  - eexists. repeat split; reflexivity.
  - intros l. destruct (dead_conn chunk 1 [] l (orun chunk shared_run oinit) (Cn OCheck false [x41] [] 0)) as (c & A & _ & B);
      try reflexivity; try discriminate. eauto.
  - intros l s. apply (new_conn_dead chunk (orun chunk shared_run oinit) s l). reflexivity.
Qed.
Lemma eof_refuted chunk k s : s <> [] -> length s <= chunk ->
  let n := orun chunk ([New s; OConnects 0 true; CheckEvent 0; Polls 0 (PollResult [(1%Z, Some (length s))])] ++ eof_polls 0 k) oinit in
  exists c, nth_error (conns n) 0 = Some c /\ o_pc c = OCheck /\ o_rest c = [] /\ o_written c = s /\ o_asked c = 0.
Proof.
  intros N H n. subst n. unfold orun. rewrite fold_left_app.
  set (n := fold_left _ [New s; _; _; _] oinit).
  assert (E : n = Model_Forward.N false [Cn OCheck false [] s 0]).
  { subst n. cbn -[firstn Nat.min handle]. cbn -[firstn skipn Nat.min].
    rewrite firstn_all2, skipn_all2 by lia. destruct s as [|b s]; [congruence|]. cbn. now rewrite app_nil_r. }
  change (fold_left _ (eof_polls 0 k) n) with (orun chunk (eof_polls 0 k) n).
  rewrite (eof_spin chunk 0 n (Cn OCheck false [] s 0)); try rewrite E; try reflexivity.
  eexists; repeat split.
Qed.
