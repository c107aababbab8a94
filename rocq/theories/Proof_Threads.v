(** * Proofs about channels used by several threads *)
From Verif Require Import Py Dict_lemmas Model_Client Model_Threads Spec_Threads.

Lemma upd_nth {A} (f : A -> A) o : forall l i, nth_error (upd o f l) i = if Nat.eqb i o then option_map f (nth_error l i) else nth_error l i.
Proof.
  induction o as [|o IH]; intros [|x l] [|i]; cbn; auto. destruct (Nat.eqb i o); reflexivity.
Qed.
Lemma upd_len {A} (f : A -> A) o : forall l, length (upd o f l) = length l.
Proof. induction o as [|o IH]; intros [|x l]; cbn; auto. Qed.

Notation zget := (dict_get Z.eqb).
Notation nget := (dict_get Nat.eqb).
Lemma z_nodup k (v : nat) d : NoDup (map fst d) -> (zget k d = Some v <-> In (k, v) d).
Proof. intros H. split; [apply (get_in Z.eqb Z.eqb_spec)|now apply (get_nodup Z.eqb Z.eqb_spec)]. Qed.

Record inv (st : tstate) : Prop := {
  i_reg : NoDup (map fst (t_reg st));
  i_asked : NoDup (map fst (t_asked st));
  i_num : forall n o, zget n (t_reg st) = Some o -> exists b, nth_error (t_heap st) o = Some (n, b);
  i_open : forall n o, nth_error (t_heap st) o = Some (n, false) -> zget n (t_reg st) = Some o;
  i_del : forall n, t_m2m st = Deleting n -> exists o, zget n (t_reg st) = Some o /\ nth_error (t_heap st) o = Some (n, true);
  i_obj : forall t o r, nget t (t_asked st) = Some (o, r) -> o < length (t_heap st);
  i_sent : forall p, In p (t_sent st) -> exists b, nth_error (t_heap st) (p_object p) = Some (p_number p, b) }.

Lemma inv_init : inv tinit.
Proof. constructor; cbn; try constructor; try discriminate; try tauto. intros n [|o]; discriminate. Qed.

Lemma close_nth o h i : nth_error (close_object o h) i =
  if Nat.eqb i o then option_map (fun c => (fst c, true)) (nth_error h i) else nth_error h i.
Proof. apply upd_nth. Qed.
Lemma close_len o h : length (close_object o h) = length h.
Proof. apply upd_len. Qed.
Lemma close_num o h i n b : nth_error h i = Some (n, b) -> exists b', nth_error (close_object o h) i = Some (n, b').
Proof. intros H. rewrite close_nth, H. destruct (Nat.eqb i o); cbn; eauto. Qed.
Lemma close_open o h i n : nth_error (close_object o h) i = Some (n, false) -> nth_error h i = Some (n, false) /\ i <> o.
Proof.
  rewrite close_nth. destruct (Nat.eqb_spec i o) as [->|Hn]; [|auto].
  destruct (nth_error h o) as [[m b]|]; discriminate.
Qed.

(** Closing an object keeps the invariant. *)
Lemma inv_closing st o m : inv st -> (forall n, m = Deleting n -> zget n (t_reg st) = Some o) ->
  inv (TSt (close_object o (t_heap st)) (t_reg st) m (t_asked st) (t_sent st)).
Proof.
  intros [H1 H2 H3 H4 H5 H6 H7] Hm. constructor; cbn; auto.
  - intros n o' H. destruct (H3 _ _ H) as (b & Hb). eapply close_num; eauto.
  - intros n o' H. apply close_open in H as [H _]. auto.
  - intros n ->. specialize (Hm _ eq_refl). exists o. split; auto. destruct (H3 _ _ Hm) as (b & Hb).
    rewrite close_nth, Nat.eqb_refl, Hb. reflexivity.
  - intros t o' r H. rewrite close_len. eauto.
  - intros p H. destruct (H7 _ H) as (b & Hb). eapply close_num; eauto.
Qed.

Lemma inv_step st e : inv st -> inv (tstep st e).
Proof.
  intros I. pose proof I as [H1 H2 H3 H4 H5 H6 H7].
  destruct e as [n|n| | | |t o r|t]; cbn [tstep].
  - destruct (t_m2m st) eqn:Em; auto. destruct (zget n (t_reg st)) eqn:E; auto. constructor; cbn; auto.
    + now apply (set_nodup Z.eqb Z.eqb_spec).
    + intros n' o. rewrite (get_set Z.eqb Z.eqb_spec). destruct (Z.eqb_spec n n') as [->|Hn].
      * intros [= <-]. rewrite nth_error_app_new. eauto.
      * intros H. destruct (H3 _ _ H) as (b & Hb). exists b. now apply nth_error_app_old.
    + intros n' o H. rewrite (get_set Z.eqb Z.eqb_spec).
      destruct (Nat.eq_dec o (length (t_heap st))) as [->|Hl].
      * rewrite nth_error_app_new in H. injection H as ->. now rewrite Z.eqb_refl.
      * rewrite nth_error_app1 in H.
        -- apply H4 in H. destruct (Z.eqb_spec n n'); congruence.
        -- assert (o < length (t_heap st ++ [(n, false)])) by (apply nth_error_Some; congruence).
           rewrite app_length in *. cbn in *. lia.
    + discriminate.
    + intros t o r H. rewrite app_length. specialize (H6 _ _ _ H). lia.
    + intros p H. destruct (H7 _ H) as (b & Hb). exists b. now apply nth_error_app_old.
  - destruct (t_m2m st) eqn:Em; auto. destruct (zget n (t_reg st)) as [o|] eqn:E; auto.
    apply inv_closing; auto. intros n' [= <-]. exact E.
  - destruct (t_m2m st) as [|n|] eqn:Em; auto. destruct (H5 _ eq_refl) as (o & Ho & Hc). constructor; cbn; auto.
    + now apply (del_nodup Z.eqb).
    + intros n' o'. rewrite (get_del Z.eqb Z.eqb_spec) by auto. destruct (Z.eqb n n'); [discriminate|]. apply H3.
    + intros n' o' H. rewrite (get_del Z.eqb Z.eqb_spec) by auto. destruct (Z.eqb_spec n n') as [->|]; [|now apply H4].
      apply H4 in H as H'. congruence.
    + discriminate.
  - destruct (t_m2m st) eqn:Em; auto. constructor; cbn; auto. discriminate.
  - destruct (t_m2m st) as [| |[|o os]] eqn:Em; auto.
    + constructor; cbn; auto. discriminate.
    + apply inv_closing; auto. discriminate.
  - destruct (nget t (t_asked st)) eqn:Ea; auto. destruct (nth_error (t_heap st) o) as [[n [|]]|] eqn:Eo; auto.
    constructor; cbn; auto.
    + now apply (set_nodup Nat.eqb Nat.eqb_spec).
    + intros t' o' r'. rewrite (get_set Nat.eqb Nat.eqb_spec). destruct (Nat.eqb t t'); [|eauto].
      intros [= <- <-]. apply nth_error_Some. congruence.
  - destruct (nget t (t_asked st)) as [[o r]|] eqn:Ea; auto. destruct (nth_error (t_heap st) o) as [[n b]|] eqn:Eo; auto.
    constructor; cbn; auto.
    + now apply (del_nodup Nat.eqb).
    + intros t' o' r'. rewrite (get_del Nat.eqb Nat.eqb_spec) by auto. destruct (Nat.eqb t t'); [discriminate|eauto].
    + intros p [<-|H]; [cbn; eauto|auto].
Qed.
Lemma inv_from l : forall st, inv st -> inv (trun l st).
Proof. induction l as [|e l IH]; cbn; auto. intros st H. apply IH. now apply inv_step. Qed.
Lemma inv_run l : inv (trun l tinit).
Proof. apply inv_from, inv_init. Qed.

(** ** A call that nothing disturbs *)
Lemma undisturbed_step st e t o n r : inv st -> nget t (t_asked st) = Some (o, r) -> zget n (t_reg st) = Some o ->
  t_m2m st <> Deleting n -> e <> Closed n -> e <> Send t ->
  nget t (t_asked (tstep st e)) = Some (o, r) /\ zget n (t_reg (tstep st e)) = Some o /\ t_m2m (tstep st e) <> Deleting n.
Proof.
  intros [H1 H2 H3 H4 H5 H6 H7] Ha Hr Hm Hc Hs.
  destruct e as [n'|n'| | | |t' o' r'|t']; cbn [tstep].
  - destruct (t_m2m st) eqn:Em; auto; try (rewrite Em; auto). destruct (zget n' (t_reg st)) eqn:E; [rewrite Em; auto|]. cbn.
    rewrite (get_set Z.eqb Z.eqb_spec). destruct (Z.eqb_spec n' n) as [->|]; [congruence|]. repeat split; auto; discriminate.
  - destruct (t_m2m st) eqn:Em; try (rewrite Em; auto). destruct (zget n' (t_reg st)) eqn:E; [|rewrite Em; auto]. cbn.
    repeat split; auto. congruence.
  - destruct (t_m2m st) as [|n'|] eqn:Em; try (rewrite Em; auto). cbn. rewrite (get_del Z.eqb Z.eqb_spec) by auto.
    destruct (Z.eqb_spec n' n) as [->|]; [congruence|]. repeat split; auto; discriminate.
  - destruct (t_m2m st) eqn:Em; try (rewrite Em; auto). cbn. repeat split; auto; discriminate.
  - destruct (t_m2m st) as [| |[|o' os]] eqn:Em; try (rewrite Em; auto); cbn; repeat split; auto; discriminate.
  - destruct (nget t' (t_asked st)) eqn:Ea; auto. destruct (nth_error (t_heap st) o') as [[n' [|]]|] eqn:Eo; auto. cbn.
    rewrite (get_set Nat.eqb Nat.eqb_spec). destruct (Nat.eqb_spec t' t) as [->|]; [congruence|auto].
  - destruct (nget t' (t_asked st)) as [[o' r']|] eqn:Ea; auto. destruct (nth_error (t_heap st) o') as [[n' b]|] eqn:Eo; auto. cbn.
    rewrite (get_del Nat.eqb Nat.eqb_spec) by auto. destruct (Nat.eqb_spec t' t) as [->|]; [congruence|auto].
Qed.
Lemma undisturbed_run l : forall st t o n r, inv st -> nget t (t_asked st) = Some (o, r) -> zget n (t_reg st) = Some o ->
  t_m2m st <> Deleting n -> ~ In (Closed n) l -> ~ In (Send t) l ->
  nget t (t_asked (trun l st)) = Some (o, r) /\ zget n (t_reg (trun l st)) = Some o.
Proof.
  induction l as [|e l IH]; cbn; intros st t o n r I Ha Hr Hm Hc Hs; [auto|].
  destruct (undisturbed_step st e t o n r I Ha Hr Hm) as (Ha' & Hr' & Hm'); [intuition congruence|intuition congruence|].
  apply IH; auto. now apply inv_step.
Qed.
Lemma undisturbed l1 t o n r l2 st1 st2 : st1 = trun l1 tinit -> ~ busy st1 t -> open_object st1 o n ->
  ~ In (Closed n) l2 -> ~ In (Send t) l2 -> st2 = trun (Ask t o r :: l2) st1 ->
  t_sent (tstep st2 (Send t)) = Pk t o n r :: t_sent st2 /\ ~ stray st2 (Pk t o n r).
Proof.
  intros -> Hb Ho Hc Hs ->. unfold open_object in Ho. cbn [trun fold_left]. fold (trun l2).
  pose proof (inv_run l1) as I. set (st1 := trun l1 tinit) in *.
  assert (Hn : nget t (t_asked st1) = None).
  { destruct (nget t (t_asked st1)) as [[o' r']|] eqn:E; auto. destruct Hb. exists o', r'. now apply (get_in Nat.eqb Nat.eqb_spec). }
  assert (Hask : tstep st1 (Ask t o r) = TSt (t_heap st1) (t_reg st1) (t_m2m st1) (dict_set Nat.eqb t (o, r) (t_asked st1)) (t_sent st1)).
  { cbn. now rewrite Hn, Ho. }
  pose proof (inv_step _ (Ask t o r) I) as I1. change (fold_left tstep l2 (tstep st1 (Ask t o r))) with (trun l2 (tstep st1 (Ask t o r))).
  destruct (undisturbed_run l2 (tstep st1 (Ask t o r)) t o n r) as (Ha & Hr); auto.
  - rewrite Hask. cbn. apply (get_set_eq Nat.eqb Nat.eqb_spec).
  - rewrite Hask. cbn. now apply (i_open _ I).
  - rewrite Hask. cbn. intros Hm. destruct (i_del _ I _ Hm) as (o' & Ho' & Hc'). rewrite (i_open _ I _ _ Ho) in Ho'. congruence.
  - pose proof (inv_from l2 _ I1) as I2. set (st2 := trun l2 (tstep st1 (Ask t o r))) in *.
    destruct (i_num _ I2 _ _ Hr) as (b & Hb2). split.
    + cbn [tstep]. rewrite Ha, Hb2. reflexivity.
    + intros (o' & Hin & Hne). cbn in *. unfold belongs in Hin. apply (z_nodup _ _ _ (i_reg _ I2)) in Hin. congruence.
Qed.

(** ** After the close *)
Definition pend (st : tstate) (t o : nat) : nat :=
  match nget t (t_asked st) with Some (o', _) => if Nat.eqb o' o then 1 else 0 | None => 0 end.
Lemma closed_step st e o : closed_object st o -> closed_object (tstep st e) o.
Proof.
  intros (n & Hn). unfold closed_object.
  assert (Hcl : forall o', exists m, nth_error (close_object o' (t_heap st)) o = Some (m, true)).
  { intros o'. rewrite close_nth, Hn. destruct (Nat.eqb o o'); cbn; eauto. }
  destruct e as [n'|n'| | | |t' o' r'|t']; cbn [tstep]; repeat match goal with |- context [match ?x with _ => _ end] => destruct x eqn:? end; cbn; eauto.
  exists n. now apply nth_error_app_old.
Qed.
Lemma late_step st e t o : NoDup (map fst (t_asked st)) -> closed_object st o ->
  packets t o (tstep st e) + pend (tstep st e) t o <= packets t o st + pend st t o.
Proof.
  intros Hnd (n & Hn). unfold packets, pend.
  destruct e as [n'|n'| | | |t' o' r'|t']; cbn [tstep].
  - destruct (t_m2m st); auto. destruct (zget n' (t_reg st)); auto.
  - destruct (t_m2m st); auto. destruct (zget n' (t_reg st)); auto.
  - destruct (t_m2m st); auto.
  - destruct (t_m2m st); auto.
  - destruct (t_m2m st) as [| |[|]]; auto.
  - destruct (nget t' (t_asked st)) eqn:Ea; auto. destruct (nth_error (t_heap st) o') as [[n' [|]]|] eqn:Eo; auto. cbn.
    rewrite (get_set Nat.eqb Nat.eqb_spec). destruct (Nat.eqb_spec t' t) as [->|]; auto.
    destruct (Nat.eqb_spec o' o) as [->|]; [congruence|]. lia.
  - destruct (nget t' (t_asked st)) as [[o' r']|] eqn:Ea; auto. destruct (nth_error (t_heap st) o') as [[n' b]|] eqn:Eo; auto. cbn.
    rewrite (get_del Nat.eqb Nat.eqb_spec) by auto. destruct (Nat.eqb_spec t' t) as [->|]; cbn; [|lia].
    rewrite Ea. destruct (Nat.eqb o' o); cbn; lia.
Qed.
Lemma late_run l : forall st t o, inv st -> closed_object st o ->
  packets t o (trun l st) + pend (trun l st) t o <= packets t o st + pend st t o.
Proof.
  induction l as [|e l IH]; cbn; auto. intros st t o I Hc.
  specialize (IH (tstep st e) t o (inv_step _ _ I) (closed_step _ _ _ Hc)).
  pose proof (late_step st e t o (i_asked _ I) Hc). unfold trun in *. lia.
Qed.
Lemma sent_grows l : forall st t o, packets t o st <= packets t o (trun l st).
Proof.
  induction l as [|e l IH]; cbn; auto. intros st t o. etransitivity; [|apply IH]. clear IH. unfold packets.
  destruct e as [n'|n'| | | |t' o' r'|t']; cbn [tstep]; repeat match goal with |- context [match ?x with _ => _ end] => destruct x end; cbn; auto.
  destruct (_ && _); cbn; lia.
Qed.
Lemma late l1 l2 t o st : st = trun l1 tinit -> closed_object st o ->
  packets t o st <= packets t o (trun l2 st) <= packets t o st + 1 /\
  (~ inside st t o -> packets t o (trun l2 st) = packets t o st).
Proof.
  intros -> Hc. pose proof (late_run l2 _ t o (inv_run l1) Hc). pose proof (sent_grows l2 (trun l1 tinit) t o).
  set (st := trun l1 tinit) in *. unfold pend in H at 2. split.
  - destruct (nget t (t_asked st)) as [[o' r]|]; [destruct (Nat.eqb o' o)|]; lia.
  - intros Hi. destruct (nget t (t_asked st)) as [[o' r]|] eqn:E; [|lia]. destruct (Nat.eqb_spec o' o) as [->|]; [|lia].
    destruct Hi. exists r. now apply (get_in Nat.eqb Nat.eqb_spec).
Qed.
Lemma numbered l p : In p (t_sent (trun l tinit)) -> exists b, nth_error (t_heap (trun l tinit)) (p_object p) = Some (p_number p, b).
Proof. apply (i_sent _ (inv_run l)). Qed.
Lemma race (r : request) : exists l t p, let st := trun l tinit in
  t_sent (tstep st (Send t)) = p :: t_sent st /\ p_request p = r /\ stray st p.
Proof.
  exists [Opened 5; Ask 0 0 r; Closed 5; Deleted; Opened 5], 0, (Pk 0 0 5 r). cbn. repeat split. exists 1. cbn. split; [left; reflexivity|discriminate].
Qed.

(** ** Reading *)
From Verif Require Import Proof_Client3.
Definition locked_in (p : rpc) : Prop := match p with Taking _ | Leaving _ => True | _ => False end.
Record binv (st : bstate) : Prop := {
  j_keys : NoDup (map fst (b_readers st));
  j_feed : b_lock st = Some Feeder <-> b_feeder st <> Quiet;
  j_read : forall t, b_lock st = Some (Reader t) <-> exists p, nget t (b_readers st) = Some p /\ locked_in p;
  j_set : b_deque st <> [] -> b_feeder st <> Signalling -> b_flag st = true;
  j_clear : b_flag st = true -> b_deque st = [] -> exists t out, nget t (b_readers st) = Some (Leaving out);
  j_sig : b_feeder st = Signalling -> b_deque st <> [];
  j_stream : concat (rev (map snd (b_taken st))) ++ concat (b_deque st) = concat (rev (b_arrived st)) }.

Lemma binv_init : binv binit.
Proof.
  constructor; cbn; try discriminate; try congruence.
  - constructor.
  - split; [discriminate|congruence].
  - intros t. split; [discriminate|]. intros (p & H & _). discriminate.
Qed.
Lemma concat_snoc (l : list bytes) d : concat (l ++ [d]) = concat l ++ d.
Proof. rewrite concat_app. cbn. now rewrite app_nil_r. Qed.

(** Readers change as in a dictionary. *)
Ltac gets := rewrite ?(get_set Nat.eqb Nat.eqb_spec), ?(get_del Nat.eqb Nat.eqb_spec) in * by auto.

Lemma binv_step st e : binv st -> binv (bstep st e).
Proof.
  intros I. pose proof I as [H1 H2 H3 H4 H5 H6 H7].
  destruct e as [d| | |t c b|t|t|t|t|t]; cbn [bstep].
  - (* Arrive *) destruct (b_feeder st) eqn:Ef; auto. destruct (b_lock st) eqn:El; auto. constructor; cbn; auto.
    + split; auto; discriminate.
    + intros t. rewrite <- H3. split; discriminate.
    + intros H _. apply H4; auto. discriminate.
    + discriminate.
  - (* Append *) destruct (b_feeder st) as [|d|] eqn:Ef; auto. assert (El : b_lock st = Some Feeder) by (apply H2; discriminate).
    constructor; cbn; auto.
    + rewrite El. split; auto; discriminate.
    + intros _ H. destruct (b_deque st); discriminate.
    + intros _. destruct (b_deque st); discriminate.
    + now rewrite !concat_snoc, <- H7, app_assoc.
  - (* Signal *) destruct (b_feeder st) as [|d|] eqn:Ef; auto. assert (El : b_lock st = Some Feeder) by (apply H2; discriminate).
    constructor; cbn; auto.
    + split; [discriminate|congruence].
    + intros t. rewrite <- H3, El. split; discriminate.
    + intros _ H. destruct (H6 eq_refl H).
  - (* Read *) destruct (nget t (b_readers st)) eqn:Et; auto. constructor; cbn; auto.
    + now apply (set_nodup Nat.eqb Nat.eqb_spec).
    + intros u. gets. destruct (Nat.eqb_spec t u) as [->|]; [|apply H3]. rewrite H3, Et. split.
      * intros (p & H & _). discriminate.
      * intros (p & [= <-] & H). destruct b; destruct H.
    + intros Hf Hd. destruct (H5 Hf Hd) as (u & out & Hu). exists u, out. gets. destruct (Nat.eqb_spec t u); congruence.
  - (* Wake *) destruct (nget t (b_readers st)) as [[c|c|c|out]|] eqn:Et; auto. destruct (b_flag st) eqn:Efl; auto. constructor; cbn; auto.
    + now apply (set_nodup Nat.eqb Nat.eqb_spec).
    + intros u. gets. destruct (Nat.eqb_spec t u) as [->|]; [|apply H3]. rewrite H3, Et. split; intros (p & [= <-] & H); destruct H.
    + intros _ Hd. destruct (H5 eq_refl Hd) as (u & out & Hu). exists u, out. gets. destruct (Nat.eqb_spec t u); congruence.
  - (* Expire *) destruct (nget t (b_readers st)) as [[c|c|c|out]|] eqn:Et; auto. constructor; cbn; auto.
    + now apply (del_nodup Nat.eqb).
    + intros u. gets. destruct (Nat.eqb_spec t u) as [->|]; [|apply H3]. rewrite H3, Et. split.
      * intros (p & [= <-] & H). destruct H.
      * intros (p & H & _). discriminate.
    + intros Hf Hd. destruct (H5 Hf Hd) as (u & out & Hu). exists u, out. gets. destruct (Nat.eqb_spec t u); congruence.
  - (* Enter *) destruct (nget t (b_readers st)) as [[c|c|c|out]|] eqn:Et; auto. destruct (b_lock st) eqn:El; auto. constructor; cbn; auto.
    + now apply (set_nodup Nat.eqb Nat.eqb_spec).
    + rewrite <- H2. split; discriminate.
    + intros u. gets. destruct (Nat.eqb_spec t u) as [->|Hn].
      * split; [|auto]. intros _. eexists. split; [reflexivity|exact Logic.I].
      * rewrite <- H3. split; congruence.
    + intros Hf Hd. destruct (H5 Hf Hd) as (u & out & Hu). exists u, out. gets. destruct (Nat.eqb_spec t u); congruence.
  - (* Take *) destruct (nget t (b_readers st)) as [[c|c|c|out]|] eqn:Et; auto.
    assert (El : b_lock st = Some (Reader t)) by (apply H3; eexists; split; [exact Et|exact Logic.I]).
    assert (Ef : b_feeder st = Quiet) by (destruct (b_feeder st); auto; assert (b_lock st = Some Feeder) by (apply H2; discriminate); congruence).
    destruct (read_loop (b_deque st) c) as [out q] eqn:Er. constructor; cbn; auto.
    + now apply (set_nodup Nat.eqb Nat.eqb_spec).
    + intros u. gets. destruct (Nat.eqb_spec t u) as [->|Hn]; [|apply H3]. rewrite El. split; auto. intros _. eexists. split; [reflexivity|exact Logic.I].
    + intros Hq Hs. apply H4; auto. intros Hd. rewrite Hd in Er. cbn in Er. congruence.
    + intros Hf Hd. exists t, out. gets. now rewrite Nat.eqb_refl.
    + congruence.
    + rewrite concat_snoc, <- app_assoc, (read_loop_split _ _ _ _ Er). exact H7.
  - (* Leave *) destruct (nget t (b_readers st)) as [[c|c|c|out]|] eqn:Et; auto.
    assert (El : b_lock st = Some (Reader t)) by (apply H3; eexists; split; [exact Et|exact Logic.I]).
    assert (Ef : b_feeder st = Quiet) by (destruct (b_feeder st); auto; assert (b_lock st = Some Feeder) by (apply H2; discriminate); congruence).
    constructor; cbn; auto.
    + now apply (del_nodup Nat.eqb).
    + rewrite Ef. split; [discriminate|congruence].
    + intros u. gets. destruct (Nat.eqb_spec t u) as [->|Hn].
      * split; [discriminate|]. intros (p & H & _). discriminate.
      * rewrite <- H3, El. split; congruence.
    + destruct (b_deque st); auto.
    + destruct (b_deque st) eqn:Ed; [discriminate|]. intros _. discriminate.
Qed.
Lemma binv_from l : forall st, binv st -> binv (brun l st).
Proof. induction l as [|e l IH]; cbn; auto. intros st H. apply IH. now apply binv_step. Qed.
Lemma binv_run l : binv (brun l binit).
Proof. apply binv_from, binv_init. Qed.

Lemma stream l st : st = brun l binit -> incoming st = outgoing st ++ concat (b_deque st).
Proof. intros ->. symmetry. apply (j_stream _ (binv_run l)). Qed.
Lemma flag_exact l st : st = brun l binit -> b_lock st = None -> (b_flag st = true <-> b_deque st <> []).
Proof.
  intros -> El. pose proof (binv_run l) as [H1 H2 H3 H4 H5 H6 H7]. split.
  - intros Hf Hd. destruct (H5 Hf Hd) as (t & out & Ht).
    assert (b_lock (brun l binit) = Some (Reader t)) by (apply H3; eexists; split; [exact Ht|exact Logic.I]). congruence.
  - intros Hd. apply H4; auto. intros Hs. assert (b_lock (brun l binit) = Some Feeder) by (apply H2; congruence). congruence.
Qed.
(** The owner of the lock gives it back in at most two steps of its own. *)
Lemma lock_given_back l st : st = brun l binit -> exists l', continues l' /\ length l' <= 2 /\ b_lock (brun l' st) = None.
Proof.
  intros ->. pose proof (binv_run l) as [H1 H2 H3 H4 H5 H6 H7]. set (st := brun l binit) in *.
  destruct (b_lock st) as [[|t]|] eqn:El.
  - assert (Hf : b_feeder st <> Quiet) by (now apply H2). destruct (b_feeder st) as [|d|] eqn:Ef; [congruence| |].
    + exists [Append; Signal]. split; [intros e [<-|[<-|[]]]; exact Logic.I|]. split; auto. cbn. rewrite Ef. reflexivity.
    + exists [Signal]. split; [intros e [<-|[]]; exact Logic.I|]. split; auto. cbn. rewrite Ef. reflexivity.
  - destruct (proj1 (H3 t) eq_refl) as ([c|c|c|out] & Hp & []).
    + exists [Take t; Leave t]. split; [intros e [<-|[<-|[]]]; exact Logic.I|]. split; auto. cbn. rewrite Hp.
      destruct (read_loop (b_deque st) c) as [out q]. cbn. now rewrite (get_set_eq Nat.eqb Nat.eqb_spec).
    + exists [Leave t]. split; [intros e [<-|[]]; exact Logic.I|]. split; auto. cbn. now rewrite Hp.
  - exists []. split; [intros e []|]. auto.
Qed.
(** With the lock free and data there, a waiting read can go through. *)
Lemma waiting_served l st t c : st = brun l binit -> b_lock st = None -> b_deque st <> [] -> reading st t (Waiting c) ->
  exists l' out, continues l' /\ read_loop (b_deque st) c = (out, b_deque (brun l' st)) /\ b_returned (brun l' st) = (t, out) :: b_returned st.
Proof.
  intros -> El Hd Hr. pose proof (flag_exact l _ eq_refl El) as Hf. pose proof (binv_run l) as [H1 H2 H3 H4 H5 H6 H7].
  set (st := brun l binit) in *. apply (get_nodup Nat.eqb Nat.eqb_spec) in Hr; auto. apply Hf in Hd as Hfl.
  destruct (read_loop (b_deque st) c) as [out q] eqn:Er.
  exists [Wake t; Enter t; Take t; Leave t], out. split; [intros e [<-|[<-|[<-|[<-|[]]]]]; exact Logic.I|].
  cbn. rewrite Hr, Hfl. cbn. rewrite (get_set_eq Nat.eqb Nat.eqb_spec), El. cbn. rewrite (get_set_eq Nat.eqb Nat.eqb_spec), Er. cbn.
  rewrite (get_set_eq Nat.eqb Nat.eqb_spec). cbn. auto.
Qed.

(** ** A single reader *)
Record sinv (t : nat) (st : bstate) : Prop := {
  s_msgs : Forall (fun d => d <> []) (b_deque st);
  s_feed : forall d, b_feeder st = Appending d -> d <> [];
  s_only : forall u p, nget u (b_readers st) = Some p -> u = t;
  s_pc : match nget t (b_readers st) with
         | None => True
         | Some (Waiting c) => (0 < c)%Z
         | Some (Entering c) | Some (Taking c) => (0 < c)%Z /\ b_deque st <> []
         | Some (Leaving out) => out <> []
         end }.
Lemma sinv_step t st e : binv st -> sinv t st -> e <> Arrive [] -> match e with Read u _ _ => u = t | _ => True end ->
  match e with Read _ c b => (0 < c)%Z /\ b = true | _ => True end -> sinv t (bstep st e).
Proof.
  intros B S Ha Ho Hc. pose proof S as [S1 S2 S3 S4]. pose proof (j_keys _ B) as H1.
  destruct e as [d| | |u c b|u|u|u|u|u]; cbn [bstep].
  - destruct (b_feeder st) eqn:Ef; auto. destruct (b_lock st) eqn:El; auto. constructor; cbn; auto. intros d' [= <-]. congruence.
  - destruct (b_feeder st) as [|d|] eqn:Ef; auto. constructor; cbn; auto.
    + apply Forall_app. split; auto.
    + discriminate.
    + destruct (nget t (b_readers st)) as [[x|x|x|x]|]; auto; (split; [tauto|]; destruct (b_deque st); discriminate).
  - destruct (b_feeder st) as [|d|] eqn:Ef; auto. constructor; cbn; auto. discriminate.
  - subst u. destruct Hc as [Hc ->]. destruct (nget t (b_readers st)) eqn:Et; auto. constructor; cbn; auto.
    + intros u p. gets. destruct (Nat.eqb_spec t u); [auto|apply S3].
    + gets. rewrite Nat.eqb_refl. exact Hc.
  - destruct (nget u (b_readers st)) as [[c|c|c|out]|] eqn:Et; auto. destruct (b_flag st) eqn:Efl; auto.
    assert (u = t) by eauto. subst u. rewrite Et in S4. constructor; cbn; auto.
    + intros u p. gets. destruct (Nat.eqb_spec t u); [auto|apply S3].
    + gets. rewrite Nat.eqb_refl. split; auto. intros Hd. destruct (j_clear _ B Efl Hd) as (u & out & Hu).
      assert (u = t) by eauto. subst u. congruence.
  - destruct (nget u (b_readers st)) as [[c|c|c|out]|] eqn:Et; auto. assert (u = t) by eauto. subst u. constructor; cbn; auto.
    + intros u p. gets. destruct (Nat.eqb_spec t u); [auto|apply S3].
    + gets. now rewrite Nat.eqb_refl.
  - destruct (nget u (b_readers st)) as [[c|c|c|out]|] eqn:Et; auto. destruct (b_lock st) eqn:El; auto. assert (u = t) by eauto. subst u.
    rewrite Et in S4. constructor; cbn; auto.
    + intros u p. gets. destruct (Nat.eqb_spec t u); [auto|apply S3].
    + gets. now rewrite Nat.eqb_refl.
  - destruct (nget u (b_readers st)) as [[c|c|c|out]|] eqn:Et; auto. assert (u = t) by eauto. subst u. rewrite Et in S4.
    destruct (read_loop (b_deque st) c) as [out q] eqn:Er. constructor; cbn; auto.
    + eapply read_loop_nonempty; eauto.
    + intros u p. gets. destruct (Nat.eqb_spec t u); [auto|apply S3].
    + gets. rewrite Nat.eqb_refl. destruct S4 as [Hp Hd]. apply read_loop_exact in Er as [-> _]; [|lia].
      destruct (b_deque st) as [|[|x d] q0]; [congruence|inversion S1; congruence|].
      destruct (Z.to_nat c) eqn:Ec; [lia|]. discriminate.
  - destruct (nget u (b_readers st)) as [[c|c|c|out]|] eqn:Et; auto. assert (u = t) by eauto. subst u. constructor; cbn; auto.
    + intros u p. gets. destruct (Nat.eqb_spec t u); [auto|apply S3].
    + gets. now rewrite Nat.eqb_refl.
Qed.
Lemma sinv_run t l : forall st, binv st -> sinv t st -> only_reader t l -> no_empty_message l -> blocking_reads l -> sinv t (brun l st).
Proof.
  unfold only_reader, no_empty_message, blocking_reads.
  induction l as [|e l IH]; cbn; auto. intros st B S Ho Hn Hb. apply IH.
  - now apply binv_step.
  - apply sinv_step; auto. apply (Ho e); auto. apply (Hb e); auto.
  - intros x Hx. apply Ho. auto.
  - tauto.
  - intros x Hx. apply Hb. auto.
Qed.
Lemma lone_reader t l st out : st = brun l binit -> only_reader t l -> no_empty_message l -> blocking_reads l ->
  reading st t (Leaving out) -> out <> [].
Proof.
  intros -> Ho Hn Hb Hr. assert (S : sinv t (brun l binit)).
  { apply sinv_run; auto using binv_init. constructor; cbn; auto; discriminate. }
  apply (get_nodup Nat.eqb Nat.eqb_spec) in Hr; [|apply (j_keys _ (binv_run l))].
  pose proof (s_pc _ _ S) as H. rewrite Hr in H. exact H.
Qed.
