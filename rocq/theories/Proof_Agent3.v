(** * The agent's polling: what depends on the credentials *)
From Verif Require Import Py Model_Rpc Spec_Rpc Model_Agent Spec_Agent.
From Coq Require Import Lia.

Lemma same_length {A B} (R : A -> B -> Prop) l l' : Forall2 R l l' -> length l = length l'.
Proof. induction 1; cbn; congruence. Qed.

Section Rel.
  Variable net : nat -> reply.
  Variables s1 t1 s2 t2 : json.
  Notation same := (same_but_credentials s1 t1 s2 t2).
  Notation alike := (alike s1 t1 s2 t2).
  Definition wrel (w1 w2 : world) : Prop := w_id w1 = w_id w2 /\ Forall2 same (w_sent w1) (w_sent w2).
  Definition brel (b1 b2 : batch) : Prop :=
    same (JArr (b_calls b1)) (JArr (b_calls b2)) /\ b_ids b1 = b_ids b2 /\ b_methods b1 = b_methods b2 /\
    b_abandoned b1 = b_abandoned b2 /\ b_errors b1 = b_errors b2 /\ b_results b1 = b_results b2.
  Definition rrel (o1 o2 : world * (batch * rres unit)) : Prop :=
    wrel (fst o1) (fst o2) /\ brel (fst (snd o1)) (fst (snd o2)) /\ snd (snd o1) = snd (snd o2).

  Lemma same_app l1 l2 l : same (JArr l1) (JArr l2) -> same (JArr (l1 ++ l)) (JArr (l2 ++ l)).
  Proof. intros (extra & rest & E1 & E2). injection E1 as ->. injection E2 as ->. exists extra, (rest ++ l). auto. Qed.
  Lemma read_rel j b1 b2 : brel b1 b2 -> brel (fst (batch_read j b1)) (fst (batch_read j b2)) /\ snd (batch_read j b1) = snd (batch_read j b2).
  Proof.
    intros (B1 & B2 & B3 & B4 & B5 & B6). destruct j as [[]|]; cbn [batch_read fst snd]; try (repeat split; assumption).
    destruct (objects l) as [ds| |]; cbn [rbind]; try (repeat split; assumption).
    destruct (errors_of [] ds); cbn [rbind]; try (repeat split; assumption).
    destruct (results_of [] ds); cbn; repeat split; assumption.
  Qed.
  Lemma send_rel w1 w2 b1 b2 : wrel w1 w2 -> brel b1 b2 -> rrel (batch_send net w1 b1) (batch_send net w2 b2).
  Proof.
    intros [W1 W2] B. unfold batch_send. cbn [send]. rewrite (same_length _ _ _ W2).
    assert (W : wrel (World (w_id w1) (JArr (b_calls b1) :: w_sent w1)) (World (w_id w2) (JArr (b_calls b2) :: w_sent w2)))
      by (split; cbn; [exact W1|constructor; [exact (proj1 B)|exact W2]]).
    destruct (net (length (w_sent w2))) as [| |j]; try (split; [exact W|split; [exact B|reflexivity]]).
    split; [exact W|]. exact (read_rel j b1 b2 B).
  Qed.
  Lemma bstep_rel o w1 w2 b1 b2 : wrel w1 w2 -> brel b1 b2 -> rrel (bstep net o w1 b1) (bstep net o w2 b2).
  Proof.
    intros W B. pose proof W as [W1 W2]. pose proof B as (B1 & B2 & B3 & B4 & B5 & B6). destruct o as [m p|i m p|m p| | |e]; cbn [bstep].
    - unfold batch_call, new_call_id. rewrite W1. split; [split; cbn; auto|]. split; [|reflexivity]. repeat split; cbn; auto; [now apply same_app|congruence].
    - split; [exact W|]. unfold batch_call_with_id. rewrite B2. cbn [fst snd]. destruct (key_of i) as [k|]; [|split; [exact B|reflexivity]].
      destruct (existsb _ _); [split; [exact B|reflexivity]|]. split; [|reflexivity]. repeat split; cbn; auto; [now apply same_app|congruence].
    - split; [exact W|]. split; [|reflexivity]. repeat split; cbn; auto. now apply same_app.
    - split; [exact W|]. split; [|reflexivity]. repeat split; cbn; auto.
    - now apply send_rel.
    - split; [exact W|]. split; [exact B|reflexivity].
  Qed.
  Lemma body_rel l : forall w1 w2 b1 b2, wrel w1 w2 -> brel b1 b2 -> rrel (body net l w1 b1) (body net l w2 b2).
  Proof.
    induction l as [|o l IH]; intros w1 w2 b1 b2 W B; cbn [body]; [split; [exact W|split; [exact B|reflexivity]]|].
    destruct (bstep_rel o _ _ _ _ W B) as (W' & B' & R). destruct (bstep net o w1 b1) as [v1 [c1 r1]], (bstep net o w2 b2) as [v2 [c2 r2]].
    cbn [fst snd] in *. subst r2. destruct r1; [now apply IH| |]; (split; [exact W'|split; [exact B'|reflexivity]]).
  Qed.
  Lemma with_rel extra l w1 w2 : wrel w1 w2 -> rrel (with_batch net (auth s1 t1 extra :: l) w1) (with_batch net (auth s2 t2 extra :: l) w2).
  Proof.
    intros W. unfold with_batch. cbn [body bstep auth]. unfold batch_call_with_id. cbn [key_of b_ids new_batch existsb].
    match goal with |- rrel (match body _ _ _ ?x with _ => _ end) (match body _ _ _ ?y with _ => _ end) => assert (B : brel x y) end.
    { split; [|repeat split]. exists extra, []. split; reflexivity. }
    pose proof (body_rel l _ _ _ _ W B) as (W' & B' & R). match goal with |- rrel (match ?x with _ => _ end) (match ?y with _ => _ end) => destruct x as [v1 [c1 r1]], y as [v2 [c2 r2]] end.
    cbn [fst snd] in *. subst r2. destruct r1 as [[]| |]; try (split; [exact W'|split; [exact B'|reflexivity]]).
    pose proof B' as (_ & _ & _ & A & _). rewrite A. destruct (b_abandoned c2); [split; [exact W'|split; [exact B'|reflexivity]]|now apply send_rel].
  Qed.
  Lemma get_rel b1 b2 i d : brel b1 b2 -> get_result b1 i d = get_result b2 i d.
  Proof. intros (_ & _ & B3 & _ & B5 & B6). unfold get_result. now rewrite B3, B5, B6. Qed.
  Lemma check_rel b1 b2 l : brel b1 b2 -> check b1 l = check b2 l.
  Proof. intros B. induction l as [|i l IH]; cbn [check]; [reflexivity|]. now rewrite (get_rel _ _ _ _ B), IH. Qed.

  Lemma alike_world a1 a2 : alike a1 a2 -> wrel (g_world a1) (g_world a2).
  Proof. intros (_ & _ & _ & I & S0). now split. Qed.
  Lemma alike_set w1 w2 n g m : wrel w1 w2 -> alike (Agent w1 n g m) (Agent w2 n g m).
  Proof. intros [W1 W2]. repeat split; assumption. Qed.
  Definition orel {A} (o1 o2 : agent * A) : Prop := alike (fst o1) (fst o2) /\ snd o1 = snd o2.

  Lemma disk_rel now disk a1 a2 : alike a1 a2 -> orel (disk_poll net s1 t1 now disk a1) (disk_poll net s2 t2 now disk a2).
  Proof.
    intros A. pose proof (alike_world _ _ A) as W. destruct A as (A1 & A2 & A3 & A4). unfold disk_poll. rewrite A1, A2, A3.
    destruct (g_next a2 <=? now)%Z; [|split; [split; [exact A1|split; [exact A2|split; [exact A3|exact A4]]]|reflexivity]].
    destruct disk as [[total used]|]; [|split; [now apply alike_set|reflexivity]].
    cbn [g_world]. match goal with |- context [with_batch net (auth s1 t1 ?e :: ?l) _] => destruct (with_rel e l _ _ W) as (W' & _ & R) end.
    do 2 destruct (with_batch _ _ _) as [? [? ?]]. cbn [fst snd] in *. split; [now apply alike_set|exact R].
  Qed.
  Lemma send_tags_rel l a1 a2 : alike a1 a2 -> orel (send_tags net s1 t1 l a1) (send_tags net s2 t2 l a2).
  Proof.
    intros A. pose proof (alike_world _ _ A) as W. pose proof A as (A1 & A2 & A3 & A4). unfold send_tags. rewrite A2.
    destruct (match g_tags a2 with Some _ => _ | None => _ end); [now split|].
    match goal with |- context [with_batch net (auth s1 t1 ?e :: ?r) _] => destruct (with_rel e r _ _ W) as (W' & B & R) end.
    do 2 destruct (with_batch _ _ _) as [? [? ?]]. cbn [fst snd] in *. split; cbn [fst snd].
    - unfold set_world. rewrite A1, A2, A3. now apply alike_set.
    - rewrite R. match goal with |- rbind ?r _ = _ => destruct r end; cbn [rbind]; [|reflexivity|reflexivity]. now rewrite (get_rel _ _ _ _ B).
  Qed.
  Lemma tag_rel tags a1 a2 : alike a1 a2 -> orel (tag_poll net s1 t1 tags a1) (tag_poll net s2 t2 tags a2).
  Proof.
    intros A. destruct tags as [l| |e|]; cbn [tag_poll]; try (split; [exact A|reflexivity]).
    destruct (send_tags_rel l _ _ A) as [A' R]. destruct (send_tags net s1 t1 l a1) as [c1 r1], (send_tags net s2 t2 l a2) as [c2 r2]. cbn [fst snd] in *. subst r2.
    destruct r1; (split; [|reflexivity]); cbn [fst]; try exact A'. pose proof (alike_world _ _ A') as W. destruct A' as (A1 & A2 & A3 & A4). rewrite A1, A3. now apply alike_set.
  Qed.
  Lemma sync_rel sid m a1 a2 : alike a1 a2 -> orel (sync net s1 t1 sid m a1) (sync net s2 t2 sid m a2).
  Proof.
    intros A. assert (R : orel (sync_ net s1 t1 sid m a1) (sync_ net s2 t2 sid m a2)).
    { pose proof (alike_world _ _ A) as W. pose proof A as (A1 & A2 & A3 & A4). unfold sync_. rewrite A3. remember (g_sent_meta a2) as sm eqn:E4. destruct sm; [now split|].
      destruct (with_rel [(T "sync_id", JStr sid)] (sync_meta m) _ _ W) as (W' & B & R).
      do 2 destruct (with_batch _ _ _) as [? [? ?]]. cbn [fst snd] in *. rewrite R.
      assert (A' : alike (set_world w a1) (set_world w0 a2)) by (unfold set_world; rewrite A1, A2, A3, <- E4; now apply alike_set).
      match goal with |- context [rbind ?r _] => destruct r end; cbn [rbind]; try (split; [exact A'|reflexivity]).
      rewrite (get_rel _ _ _ _ B). match goal with |- context [get_result ?x ?y ?z] => destruct (get_result x y z) end; try (split; [exact A'|reflexivity]).
      unfold check_meta. rewrite (check_rel _ _ _ B). unfold set_world. cbn [g_sent_meta g_world g_next g_tags]. rewrite A1, A2, A3, <- E4.
      match goal with |- context [check ?x ?y] => destruct (check x y) end; (split; [now apply alike_set|reflexivity]). }
    unfold sync. destruct R as [A' R]. destruct (sync_ net s1 t1 sid m a1) as [c1 r1], (sync_ net s2 t2 sid m a2) as [c2 r2]. cbn [fst snd] in *. subst r2.
    destruct r1; (split; [exact A'|reflexivity]).
  Qed.
  Lemma identity_rel i a1 a2 : (t1 = JNull <-> t2 = JNull) -> alike a1 a2 -> orel (set_m2m_identity net s1 t1 i a1) (set_m2m_identity net s2 t2 i a2).
  Proof.
    intros N A. pose proof (alike_world _ _ A) as W. pose proof A as (A1 & A2 & A3 & A4). unfold set_m2m_identity.
    assert (C : (t1 = JNull /\ t2 = JNull) \/ (t1 <> JNull /\ t2 <> JNull)).
    { destruct N as [N1 N2]. destruct t1; try (right; split; [discriminate|intros Z; discriminate (N2 Z)]). left. auto. }
    destruct C as [[-> ->]|[C1 C2]]; [now split|].
    assert (P : forall X Y : agent * rres (option bytes), orel X Y ->
      orel (match t1 with JNull => (a1, ROk None) | _ => X end) (match t2 with JNull => (a2, ROk None) | _ => Y end))
      by (intros X Y O; destruct t1; try congruence; destruct t2; try congruence; exact O).
    apply P.
    destruct i as [id|]; [|now split]. destruct (utf8_decode id) as [t|]; [|now split].
      match goal with |- context [with_batch net (auth s1 t1 ?e :: ?r) _] => destruct (with_rel e r _ _ W) as (W' & B & R) end.
      do 2 destruct (with_batch _ _ _) as [? [? ?]]. cbn [fst snd] in *. rewrite R.
      split; cbn [fst snd]; [unfold set_world; rewrite A1, A2, A3; now apply alike_set|].
      match goal with |- context [rbind ?r _] => destruct r end; cbn [rbind]; try reflexivity.
      rewrite !(get_rel _ _ _ _ B). reflexivity.
  Qed.
  Lemma poll_rel e a1 a2 : alike a1 a2 -> orel (poll net s1 t1 e a1) (poll net s2 t2 e a2).
  Proof.
    intros A. unfold poll. destruct (disk_rel (e_now e) (e_disk e) _ _ A) as [A' R].
    destruct (disk_poll net s1 t1 _ _ a1) as [c1 r1], (disk_poll net s2 t2 _ _ a2) as [c2 r2]. cbn [fst snd] in *. subst r2.
    destruct (tag_rel (e_tags e) _ _ A') as [A2 R2].
    destruct (tag_poll net s1 t1 _ c1) as [d1 q1], (tag_poll net s2 t2 _ c2) as [d2 q2]. cbn [fst snd] in *. subst q2.
    destruct r1; try (split; [exact A'|reflexivity]); destruct q1; try (split; [exact A2|reflexivity]); now apply sync_rel.
  Qed.
  Lemma grun_rel t0 l : (t1 = JNull <-> t2 = JNull) -> alike (grun net s1 t1 l (agent0 t0)) (grun net s2 t2 l (agent0 t0)).
  Proof.
    intros N. unfold grun. assert (A : alike (agent0 t0) (agent0 t0)) by (repeat split; constructor).
    revert A. generalize (agent0 t0) at 1 3. generalize (agent0 t0). induction l as [|o l IH]; intros a2 a1 A; cbn [fold_left]; [exact A|]. apply IH.
    destruct o as [now disk|tags|sid m|i]; cbn [gstep]; [apply disk_rel|apply tag_rel|apply sync_rel|apply identity_rel]; assumption.
  Qed.
End Rel.

Lemma answers_rel net s1 t1 s2 t2 t0 l a1 a2 : (t1 = JNull <-> t2 = JNull) ->
  a1 = grun net s1 t1 l (agent0 t0) -> a2 = grun net s2 t2 l (agent0 t0) ->
  (forall e, snd (poll net s1 t1 e a1) = snd (poll net s2 t2 e a2)) /\
  (forall i, snd (set_m2m_identity net s1 t1 i a1) = snd (set_m2m_identity net s2 t2 i a2)).
Proof.
  intros N -> ->. pose proof (grun_rel net s1 t1 s2 t2 t0 l N) as A. split; intros x; [exact (proj2 (poll_rel _ _ _ _ _ x _ _ A))|exact (proj2 (identity_rel _ _ _ _ _ x _ _ N A))].
Qed.
Lemma authenticates net s t t0 l r : In r (w_sent (g_world (grun net s t l (agent0 t0)))) -> exists extra rest, r = JArr (check_auth s t extra :: rest).
Proof.
  destruct (grun_rel net s t s t t0 l (iff_refl _)) as (_ & _ & _ & _ & F).
  assert (P : forall l1 l2, Forall2 (same_but_credentials s t s t) l1 l2 -> In r l1 -> exists extra rest, r = JArr (check_auth s t extra :: rest)).
  { intros l1 l2 F'. induction F' as [|x y lx ly (extra & rest & E & _) _ IH]; [intros []|]. intros [<-|I]; [eauto|auto]. }
  exact (P _ _ F).
Qed.
