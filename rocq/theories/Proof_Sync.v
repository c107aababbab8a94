From Verif Require Import Py Dict_lemmas Model_Sync Spec_Sync.

Lemma place_goes t p st lk sn se t' : place_of (SSt lk sn (goes t p st) se) t' = if t =? t' then p else place_of st t'.
Proof. unfold place_of, goes. cbn. rewrite (get_set Nat.eqb Nat.eqb_spec). now destruct (t =? t'). Qed.
Lemma srun_snoc l e st : srun (l ++ [e]) st = sstep (srun l st) e.
Proof. unfold srun. now rewrite fold_left_app. Qed.
Lemma srun_app l m st : srun (l ++ m) st = srun m (srun l st).
Proof. unfold srun. apply fold_left_app. Qed.

Definition inside (p : place) : bool := match p with Out | Queued => false | _ => true end.
(** Nothing begins after an acknowledgement. *)
Inductive orderly : list sight -> Prop :=
| or_nil : orderly []
| or_cons s r : orderly r -> (forall t, s = Began t -> ~ acknowledged r) -> orderly (s :: r).
Record sinv (st : sstate) : Prop := SInv {
  si_lock : forall t, inside (place_of st t) = true <-> s_lock st = Some t;
  si_way : forall t, under_way (s_seen st) t <-> place_of st t = Calling;
  si_ack : acknowledged (s_seen st) -> s_sent st = true \/ exists t, place_of st t = Checking true;
  si_sent : s_sent st = true -> acknowledged (s_seen st);
  si_check : forall t, place_of st t = Checking true -> acknowledged (s_seen st);
  si_order : orderly (s_seen st) }.

Lemma way_other s seen t : (forall a, s <> Ended t a) -> s <> Began t -> under_way (s :: seen) t <-> under_way seen t.
Proof.
  intros H1 H2. split.
  - intros (later & earlier & E & H). destruct later as [|x later]; [injection E as E1 _; congruence|]. injection E as -> ->.
    exists later, earlier. split; auto. intros a Ha. apply (H a). now right.
  - intros (later & earlier & -> & H). exists (s :: later), earlier. split; auto. intros a [E|Ha]; [now apply (H1 a)|now apply (H a)].
Qed.
Lemma way_ended seen t a : (forall x, x = Ended t a -> True) -> under_way (Ended t a :: seen) t -> False.
Proof. intros _ (later & earlier & E & H). destruct later as [|x later]; [discriminate|]. injection E as <- _. apply (H a). now left. Qed.
Lemma way_began seen t : under_way (Began t :: seen) t.
Proof. exists [], seen. split; auto. Qed.
Lemma ack_cons s seen : (forall t, s <> Ended t (Answered true)) -> acknowledged (s :: seen) <-> acknowledged seen.
Proof. intros H. split; intros [t Ht]; exists t; [destruct Ht as [E|]; [now apply H in E|auto]|now right]. Qed.
Lemma ack_more s seen : acknowledged seen -> acknowledged (s :: seen).
Proof. intros [t Ht]. exists t. now right. Qed.

Lemma sinv_init : sinv sinit.
Proof.
  split; cbn; try discriminate.
  - intros t. split; discriminate.
  - intros t. split; [|discriminate]. intros (later & earlier & E & _). now destruct later.
  - intros [t []].
  - constructor.
Qed.
Lemma sinv_step st e : sinv st -> sinv (sstep st e).
Proof.
  intros I. pose proof (si_lock _ I) as L. pose proof (si_way _ I) as W. pose proof (si_ack _ I) as A.
  pose proof (si_sent _ I) as S. pose proof (si_check _ I) as C. pose proof (si_order _ I) as O.
  assert (Only : forall t t', inside (place_of st t) = true -> inside (place_of st t') = true -> t = t').
  { intros t t' H H'. apply L in H, H'. congruence. }
  destruct e as [t|t|t|t a|t|t]; cbn [sstep].
  - destruct (place_of st t) eqn:P; auto. split; cbn [s_lock s_seen s_sent]; auto.
    + intros t'. rewrite place_goes. destruct (Nat.eqb_spec t t') as [<-|N]; [|apply L]. split; [discriminate|]. intros H. apply L in H. now rewrite P in H.
    + intros t'. rewrite place_goes. rewrite W. destruct (Nat.eqb_spec t t') as [<-|N]; [|tauto]. rewrite P. split; discriminate.
    + intros H. destruct (A H) as [|[t' H']]; auto. right. exists t'. rewrite place_goes. destruct (Nat.eqb_spec t t') as [<-|N]; [congruence|auto].
    + intros t'. rewrite place_goes. destruct (t =? t'); [discriminate|apply C].
  - destruct (place_of st t) eqn:P; auto. destruct (s_lock st) eqn:K; auto.
    assert (Free : forall t', inside (place_of st t') = false) by (intros t'; destruct (inside (place_of st t')) eqn:E; auto; apply L in E; congruence).
    split; cbn [s_lock s_seen s_sent]; auto.
    + intros t'. rewrite place_goes. destruct (Nat.eqb_spec t t') as [<-|N]; [split; auto|]. rewrite Free. split; [discriminate|congruence].
    + intros t'. rewrite place_goes. rewrite W. destruct (Nat.eqb_spec t t') as [<-|N]; [|tauto]. rewrite P. split; discriminate.
    + intros H. destruct (A H) as [|[t' H']]; auto. specialize (Free t'). now rewrite H' in Free.
    + intros t'. rewrite place_goes. destruct (t =? t'); [discriminate|apply C].
  - destruct (place_of st t) eqn:P; auto.
    assert (Here : inside (place_of st t) = true) by now rewrite P.
    assert (NoCheck : forall t' b, place_of st t' <> Checking b).
    { intros t' b H. assert (t = t') by (apply Only; auto; now rewrite H). subst t'. congruence. }
    destruct (s_sent st) eqn:E; (split; cbn [s_lock s_seen s_sent]; auto).
    + intros t'. rewrite place_goes. destruct (Nat.eqb_spec t t') as [<-|N]; [|apply L]. rewrite <- L, Here. tauto.
    + intros t'. rewrite place_goes. rewrite W. destruct (Nat.eqb_spec t t') as [<-|N]; [|tauto]. rewrite P. split; discriminate.
    + intros t'. rewrite place_goes. destruct (Nat.eqb_spec t t') as [<-|N]; [|apply L]. rewrite <- L, Here. tauto.
    + intros t'. rewrite place_goes. destruct (Nat.eqb_spec t t') as [<-|N]; [split; auto; intros _; apply way_began|].
      rewrite way_other by congruence. apply W.
    + intros H. apply ack_cons in H; [|congruence]. destruct (A H) as [|[t' H']]; [congruence|]. now apply NoCheck in H'.
    + congruence.
    + intros t'. rewrite place_goes. destruct (t =? t'); [discriminate|]. intros H. now apply NoCheck in H.
    + constructor; auto. intros t' _ H. destruct (A H) as [|[t2 H']]; [congruence|]. now apply NoCheck in H'.
  - destruct (place_of st t) eqn:P; auto. assert (Here : inside (place_of st t) = true) by now rewrite P.
    split; cbn [s_lock s_seen s_sent].
    + intros t'. rewrite place_goes. destruct (Nat.eqb_spec t t') as [<-|N]; [|apply L]. rewrite <- L, Here. destruct a; cbn; tauto.
    + intros t'. rewrite place_goes. destruct (Nat.eqb_spec t t') as [<-|N].
      * split; [intros H; now apply way_ended in H|destruct a; discriminate].
      * rewrite way_other by congruence. apply W.
    + intros H. destruct a as [|[]].
      * apply ack_cons in H; [|congruence]. destruct (A H) as [|[t' H']]; auto. right. exists t'. rewrite place_goes. destruct (Nat.eqb_spec t t') as [<-|]; congruence.
      * right. exists t. now rewrite place_goes, Nat.eqb_refl.
      * apply ack_cons in H; [|congruence]. destruct (A H) as [|[t' H']]; auto. right. exists t'. rewrite place_goes. destruct (Nat.eqb_spec t t') as [<-|]; congruence.
    + intros H. apply ack_more. auto.
    + intros t'. rewrite place_goes. destruct (Nat.eqb_spec t t') as [<-|]; [|intros H; apply ack_more; eauto].
      destruct a as [|[]]; try discriminate. intros _. exists t. now left.
    + constructor; auto. discriminate.
  - destruct (place_of st t) as [| | | |b|] eqn:P; auto. assert (Here : inside (place_of st t) = true) by now rewrite P.
    assert (LK : forall t', inside (if t =? t' then Leaving else place_of st t') = true <-> s_lock st = Some t').
    { intros t'. destruct (Nat.eqb_spec t t') as [<-|N]; [|apply L]. rewrite <- L, Here. tauto. }
    destruct (s_sent st) eqn:E; [|destruct b]; (split; cbn [s_lock s_seen s_sent]; auto).
    all: try (intros t'; rewrite place_goes; auto; fail).
    + intros t'. rewrite place_goes. rewrite W. destruct (Nat.eqb_spec t t') as [<-|N]; [|tauto]. rewrite P. split; discriminate.
    + intros t'. rewrite place_goes. destruct (Nat.eqb_spec t t') as [<-|N]; [|rewrite way_other by congruence; apply W].
      rewrite way_other by congruence. rewrite W, P. split; discriminate.
    + intros _. apply ack_more. eauto.
    + intros t'. rewrite place_goes. destruct (t =? t'); [discriminate|]. intros H. apply ack_more. eauto.
    + constructor; auto. discriminate.
    + intros t'. rewrite place_goes. rewrite W. destruct (Nat.eqb_spec t t') as [<-|N]; [|tauto]. rewrite P. split; discriminate.
    + intros H. destruct (A H) as [|[t' H']]; [congruence|]. assert (t = t') by (apply Only; auto; now rewrite H'). subst t'. congruence.
    + intros t'. rewrite place_goes. destruct (t =? t'); [discriminate|apply C].
  - destruct (place_of st t) eqn:P; auto. assert (Here : inside (place_of st t) = true) by now rewrite P.
    split; cbn [s_lock s_seen s_sent].
    + intros t'. rewrite place_goes. destruct (Nat.eqb_spec t t') as [<-|N]; [split; discriminate|]. split; [|discriminate].
      intros H. exfalso. apply N. apply Only; auto.
    + intros t'. rewrite place_goes. destruct (Nat.eqb_spec t t') as [<-|N]; (rewrite way_other by congruence); [|apply W]. rewrite W, P. split; discriminate.
    + intros H. apply ack_cons in H; [|congruence]. destruct (A H) as [|[t' H']]; auto. assert (t = t') by (apply Only; auto; now rewrite H'). subst t'. congruence.
    + intros H. apply ack_more. auto.
    + intros t'. rewrite place_goes. destruct (t =? t'); [discriminate|]. intros H. apply ack_more. eauto.
    + constructor; auto. discriminate.
Qed.
Lemma sinv_run l : sinv (srun l sinit).
Proof. induction l as [|e l IH] using rev_ind; [apply sinv_init|]. rewrite srun_snoc. now apply sinv_step. Qed.

Lemma no_overlap l st t t' : st = srun l sinit -> under_way (s_seen st) t -> under_way (s_seen st) t' -> t = t'.
Proof.
  intros -> H H'. pose proof (sinv_run l) as I. apply (si_way _ I) in H, H'.
  assert (s_lock (srun l sinit) = Some t) by (apply (si_lock _ I); now rewrite H).
  assert (s_lock (srun l sinit) = Some t') by (apply (si_lock _ I); now rewrite H'). congruence.
Qed.
Lemma never_again l later t earlier : s_seen (srun l sinit) = later ++ Began t :: earlier -> ~ acknowledged earlier.
Proof.
  pose proof (si_order _ (sinv_run l)) as O. revert O. generalize (s_seen (srun l sinit)) as s. induction later as [|x later IH]; intros s O ->.
  - inversion O; subst. eauto.
  - inversion O; subst. eauto.
Qed.
Lemma tries l t st : st = srun l sinit -> place_of st t = Holding -> ~ acknowledged (s_seen st) -> s_seen (sstep st (Test t)) = Began t :: s_seen st.
Proof. intros -> H Hn. cbn. rewrite H. destruct (s_sent _) eqn:E; auto. now apply (si_sent _ (sinv_run l)) in E. Qed.

Ltac fa := repeat first [apply Forall_nil | apply Forall_cons; [first [solve [unfold step_of; cbn; auto 6] | solve [right; reflexivity] | solve [left; cbn; auto 6]]|]].
Lemma releases st t a : inside (place_of st t) = true ->
  exists l', Forall (step_or_answer t a) l' /\ length l' <= 4 /\ s_lock (srun l' st) = None /\ place_of (srun l' st) t = Out.
Proof.
  assert (R : forall st, place_of st t = Leaving -> s_lock (srun [Release t] st) = None /\ place_of (srun [Release t] st) t = Out).
  { intros s H. cbn. rewrite H. cbn. now rewrite place_goes, Nat.eqb_refl. }
  assert (K : forall st b, place_of st t = Checking b -> place_of (sstep st (Record t)) t = Leaving).
  { intros s b H. cbn. rewrite H. destruct (s_sent s), b; now rewrite place_goes, Nat.eqb_refl. }
  assert (RK : forall st b, place_of st t = Checking b -> s_lock (srun [Record t; Release t] st) = None /\ place_of (srun [Record t; Release t] st) t = Out).
  { intros s b H. apply (R (sstep s (Record t))). eapply K; eauto. }
  assert (C : forall st, place_of st t = Calling -> exists l', Forall (step_or_answer t a) l' /\ length l' <= 3 /\ s_lock (srun l' st) = None /\ place_of (srun l' st) t = Out).
  { intros s H. assert (P : place_of (sstep s (Reply t a)) t = match a with Failed => Leaving | Answered b => Checking b end).
    { cbn. rewrite H. now rewrite place_goes, Nat.eqb_refl. }
    destruct a as [|b].
    - exists [Reply t Failed; Release t]. split; [fa|]. split; [cbn; lia|]. apply (R _ P).
    - exists [Reply t (Answered b); Record t; Release t]. split; [fa|]. split; [cbn; lia|]. apply (RK _ _ P). }
  destruct (place_of st t) eqn:P; try discriminate; intros _.
  - destruct (s_sent st) eqn:E.
    + exists [Test t; Release t]. split; [fa|]. split; [cbn; lia|]. apply (R (sstep st (Test t))). cbn. rewrite P, E. now rewrite place_goes, Nat.eqb_refl.
    + destruct (C (sstep st (Test t))) as (l' & F & Hl & H); [cbn; rewrite P, E; now rewrite place_goes, Nat.eqb_refl|].
      exists (Test t :: l'). split; [constructor; [left; cbn; auto|auto]|]. split; [cbn; lia|]. exact H.
  - destruct (C st P) as (l' & F & Hl & H). exists l'. split; [auto|split; [lia|auto]].
  - exists [Record t; Release t]. split; [fa|]. split; [cbn; lia|]. now apply (RK _ all_set).
  - exists [Release t]. split; [fa|]. split; [cbn; lia|]. now apply R.
Qed.
Lemma lock_returned l st t a : st = srun l sinit -> s_lock st = Some t ->
  exists l', Forall (step_or_answer t a) l' /\ length l' <= 4 /\ s_lock (srun l' st) = None /\ ~ in_sync (srun l' st) t.
Proof.
  intros -> H. apply (si_lock _ (sinv_run l)) in H. destruct (releases _ _ a H) as (l' & F & Hl & H1 & H2). exists l'. unfold in_sync. rewrite H2. repeat split; auto.
Qed.
(** ** C97 *)
Record held (st : sstate) : Prop := Held { hd_inv : sinv st; hd_lock : s_lock st = Some 1; hd_1 : place_of st 1 = Calling; hd_2 : place_of st 2 = Queued }.
Lemma held_step st e : (forall t a, e <> Reply t a) -> held st -> held (sstep st e).
Proof.
  intros He [I Hl H1 H2]. pose proof (sinv_step st e I) as I'. split; auto; clear I'.
  all: destruct e as [t|t|t|t a|t|t]; cbn [sstep]; try (now destruct (He t a)); destruct (place_of st t) eqn:P; auto.
  all: try rewrite Hl; auto.
  all: try (assert (X : s_lock st = Some t) by (apply (si_lock _ I); now rewrite P); assert (t = 1) by congruence; subst t; congruence).
  all: rewrite place_goes; destruct (Nat.eqb_spec t 1), (Nat.eqb_spec t 2); subst; try congruence.
  all: match goal with |- context [?a =? ?b] => destruct (Nat.eqb_spec a b); congruence end.
Qed.
Lemma held_run l' : forall st, server_silent l' -> held st -> held (srun l' st).
Proof.
  induction l' as [|e l' IH]; intros st Hs H; auto. cbn [srun fold_left]. apply IH.
  - intros t a Hin. apply (Hs t a). now right.
  - apply held_step; auto. intros t a ->. apply (Hs t a). now left.
Qed.
Lemma blocked : exists l t, let st := srun l sinit in in_sync st t /\ forall l', server_silent l' -> in_sync (srun l' st) t.
Proof.
  exists [Call 1; Acquire 1; Test 1; Call 2], 2. cbn zeta. split; [discriminate|]. intros l' H.
  assert (G : held (srun l' (srun [Call 1; Acquire 1; Test 1; Call 2] sinit))) by (apply held_run; auto; split; [apply sinv_run|reflexivity..]).
  unfold in_sync. rewrite (hd_2 _ G). discriminate.
Qed.
(** Once the metadata are acknowledged a sync needs no answer. *)
Lemma calling_unsent l t : place_of (srun l sinit) t = Calling -> s_sent (srun l sinit) = false.
Proof.
  revert t. induction l as [|e l IH] using rev_ind; intros t; [reflexivity|]. rewrite srun_snoc. pose proof (sinv_run l) as I.
  set (st := srun l sinit) in *. clearbody st. assert (X : forall t' u, inside (place_of st t') = true -> inside (place_of st u) = true -> t' = u).
  { intros t' u H1 H2. apply (si_lock _ I) in H1, H2. congruence. }
  destruct e as [u|u|u|u a|u|u]; cbn [sstep]; destruct (place_of st u) as [| | | |b|] eqn:P; try (intros H; now apply (IH t)).
  - rewrite place_goes. cbn. destruct (u =? t); [discriminate|apply IH].
  - destruct (s_lock st); [apply IH|]. rewrite place_goes. cbn. destruct (u =? t); [discriminate|apply IH].
  - destruct (s_sent st) eqn:E; rewrite place_goes; cbn; auto. destruct (u =? t); [discriminate|]. intros H. now apply IH in H.
  - rewrite place_goes. cbn. destruct (u =? t); [destruct a; discriminate|apply IH].
  - assert (Y : u <> t -> place_of st t <> Calling) by (intros Hn Hc; apply Hn; apply X; [now rewrite P|now rewrite Hc]).
    destruct (s_sent st) eqn:E; [|destruct b]; rewrite place_goes; cbn; destruct (Nat.eqb_spec u t); try discriminate; auto; intros H; now apply Y in H.
  - rewrite place_goes. cbn. destruct (u =? t); [discriminate|apply IH].
Qed.
Lemma leaves_alone st t : inside (place_of st t) = true -> place_of st t <> Calling -> s_sent st = true \/ place_of st t = Checking true ->
  exists l', Forall (step_of t) l' /\ s_lock (srun l' st) = None /\ s_sent (srun l' st) = true.
Proof.
  intros H N E. destruct (place_of st t) eqn:P; try discriminate; try congruence.
  - destruct E as [E|E]; [|discriminate]. exists [Test t; Release t]. split; [fa|]. cbn [srun fold_left sstep]. rewrite P, E, place_goes, Nat.eqb_refl. cbn. auto.
  - exists [Record t; Release t]. split; [fa|]. cbn [srun fold_left sstep]. rewrite P. destruct (s_sent st) eqn:Es.
    + rewrite place_goes, Nat.eqb_refl. cbn. auto.
    + destruct E as [E|[= ->]]; [discriminate|]. rewrite place_goes, Nat.eqb_refl. cbn. auto.
  - destruct E as [E|E]; [|discriminate]. exists [Release t]. split; [fa|]. cbn [srun fold_left sstep]. rewrite P. cbn. auto.
Qed.
Lemma steps_silent t l' : Forall (step_of t) l' -> server_silent l'.
Proof. intros F t' a H. rewrite Forall_forall in F. apply F in H. cbn in H. intuition discriminate. Qed.
Lemma silent_app l m : server_silent l -> server_silent m -> server_silent (l ++ m).
Proof. intros H1 H2 t a H. apply in_app_or in H as [H|H]; [now apply (H1 t a)|now apply (H2 t a)]. Qed.
Lemma unblocked l st t : st = srun l sinit -> acknowledged (s_seen st) ->
  exists l', server_silent l' /\ ~ in_sync (srun l' st) t.
Proof.
  intros -> Ha.
  assert (F : exists l1, server_silent l1 /\ s_lock (srun (l ++ l1) sinit) = None /\ s_sent (srun (l ++ l1) sinit) = true).
  { pose proof (sinv_run l) as I. destruct (s_lock (srun l sinit)) as [o|] eqn:K.
    - pose proof K as K'. apply (si_lock _ I) in K'.
      assert (E : s_sent (srun l sinit) = true \/ place_of (srun l sinit) o = Checking true).
      { destruct (si_ack _ I Ha) as [|[t' H]]; auto. assert (s_lock (srun l sinit) = Some t') by (apply (si_lock _ I); now rewrite H). right. congruence. }
      destruct (leaves_alone _ o K') as (l1 & F1 & L1 & S1); auto.
      + intros C. pose proof (calling_unsent _ _ C). destruct E; congruence.
      + exists l1. split; [now apply steps_silent in F1|]. rewrite srun_app. auto.
    - exists []. split; [intros ? ? []|]. rewrite app_nil_r. split; auto.
      destruct (si_ack _ I Ha) as [H|[t' H]]; auto. assert (s_lock (srun l sinit) = Some t') by (apply (si_lock _ I); now rewrite H). congruence. }
  destruct F as (l1 & Hs & Hl & He). pose proof (sinv_run (l ++ l1)) as I. rewrite srun_app in *. set (st := srun l1 (srun l sinit)) in *.
  destruct (place_of st t) eqn:P; try (assert (s_lock st = Some t) by (apply (si_lock _ I); now rewrite P); congruence).
  - exists l1. split; [exact Hs|]. unfold in_sync. fold st. rewrite P. auto.
  - exists (l1 ++ [Acquire t; Test t; Release t]). split; [apply silent_app; auto; apply (steps_silent t); fa|].
    rewrite srun_app. fold st. unfold in_sync. cbn [srun fold_left sstep]. rewrite P, Hl, place_goes, Nat.eqb_refl. cbn [s_sent]. rewrite He, place_goes, Nat.eqb_refl.
    rewrite place_goes, Nat.eqb_refl. auto.
Qed.
