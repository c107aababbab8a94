(** * Proofs about batches: ids and the with statement *)
From Coq Require Import Permutation.
From Verif Require Import Py Py_lemmas Dict_lemmas Model_Path Model_Rpc Spec_Rpc Proof_Rpc.

(** ** C63 *)
Lemma nth_replace {A} n (x : A) l m y : nth_error (replace n x l) m = Some y ->
  (n = m /\ y = x /\ nth_error l m <> None) \/ (n <> m /\ nth_error l m = Some y).
Proof.
  unfold replace. intros H. destruct (le_lt_dec (length l) n) as [L|L].
  - rewrite firstn_all2, skipn_all2, app_nil_r in H by auto. right. split; auto. intros ->.
    assert (m < length l) by (apply nth_error_Some; congruence). lia.
  - assert (F : length (firstn n l) = n) by (rewrite firstn_length; lia).
    assert (E : skipn n l = nth n l x :: skipn (S n) l).
    { clear - L. revert n L. induction l as [|z l IH]; intros n L; [cbn in L; lia|]. destruct n; auto. cbn in L. cbn [skipn nth]. rewrite IH by lia. reflexivity. }
    rewrite E in H. destruct (Nat.eq_dec n m) as [<-|N].
    + left. rewrite nth_error_app2, F, Nat.sub_diag in H by lia. cbn in H. injection H as <-. split; auto. split; auto. now apply nth_error_Some.
    + right. split; auto. destruct (le_lt_dec n m) as [L2|L2].
      * rewrite nth_error_app2, F in H by lia. destruct (m - n) as [|q] eqn:Q; [lia|]. cbn in H.
        rewrite <- (firstn_skipn (S n) l). rewrite nth_error_app2; rewrite firstn_length, Nat.min_l by lia; [|lia].
        replace (m - S n) with q by lia. auto.
      * rewrite nth_error_app1 in H by lia. rewrite <- (firstn_skipn n l). rewrite nth_error_app1 by lia. auto.
Qed.
Lemma rstep_batch net s o n b' : nth_error (r_batches (rstep net s o)) n = Some b' ->
  (nth_error (r_batches s) n = Some b') \/ (b' = new_batch) \/
  exists b o', o = OStep n o' /\ nth_error (r_batches s) n = Some b /\ added o' (r_world s) b b' /\
    w_id (r_world (rstep net s o)) = match o' with BCall _ _ => w_id (r_world s) + 1 | _ => w_id (r_world s) end%Z.
Proof.
  destruct o as [m p|m p| |k o']; cbn [rstep].
  - auto.
  - auto.
  - cbn [r_batches]. intros H. destruct (le_lt_dec (length (r_batches s)) n) as [L|L].
    + rewrite nth_error_app2 in H by auto. destruct (n - length (r_batches s)) as [|[]]; cbn in H; try discriminate. injection H as <-. auto.
    + rewrite nth_error_app1 in H by auto. auto.
  - destruct (nth_error (r_batches s) k) as [b|] eqn:E; [|auto].
    pose proof (bstep_added net o' (r_world s) b) as A. pose proof (bstep_id net o' (r_world s) b) as W.
    destruct (bstep net o' (r_world s) b) as [w' [b1 r]]. cbn [r_batches r_world fst snd] in *. intros H. apply nth_replace in H as [(-> & -> & _)|(N & H)]; [|auto].
    right. right. exists b, o'. auto.
Qed.
Lemma rstep_id net s o : (w_id (r_world s) <= w_id (r_world (rstep net s o)))%Z.
Proof.
  destruct o as [m p|m p| |k o']; cbn [rstep]; try (cbn; lia). destruct (nth_error (r_batches s) k) as [b|]; [|lia].
  pose proof (bstep_id net o' (r_world s) b) as W. destruct (bstep net o' (r_world s) b) as [w' [b1 r]]. cbn [r_world fst] in *.
  destruct o'; lia.
Qed.
Lemma rrun_snoc net l o s : rrun net (l ++ [o]) s = rstep net (rrun net l s) o.
Proof. unfold rrun. now rewrite fold_left_app. Qed.

Definition all_hashable (calls : list json) : Prop := forall c i, In c calls -> id_of c = Some i -> hashable i.
Lemma all_hashable_snoc calls c : all_hashable calls -> (forall i, id_of c = Some i -> hashable i) -> all_hashable (calls ++ [c]).
Proof. intros H1 H2 c' i I E. apply in_app_or in I as [I|[<-|[]]]; eauto. Qed.
Lemma ids_wire m p i k : key_of i = Some k -> ids [wire_call m p i] = [k].
Proof. intros K. unfold ids. cbn [flat_map]. rewrite id_wire, K. reflexivity. Qed.
Lemma ids_notification m p : ids [wire_notification m p] = [].
Proof. reflexivity. Qed.

Definition inv (w : world) (b : batch) : Prop :=
  all_hashable (b_calls b) /\ NoDup (ids (b_calls b)) /\
  (forall k, In k (ids (b_calls b)) -> In k (b_ids b) \/ exists z, k = KNum z /\ (2 <= z <= w_id w)%Z) /\
  (forall k z, In k (b_ids b) -> k = KNum z -> (z < 2)%Z) /\ (1 <= w_id w)%Z.
Lemma inv_world w w' b : inv w b -> (w_id w <= w_id w')%Z -> inv w' b.
Proof.
  intros (A & B & C & D & E) L. split; auto. split; auto. split; [|split; [auto|lia]].
  intros k I. destruct (C k I) as [|(z & ? & ?)]; auto. right. exists z. split; auto. lia.
Qed.
Lemma inv_added o w w' b b' : added o w b b' -> inv w b -> w_id w' = match o with BCall _ _ => w_id w + 1 | _ => w_id w end%Z ->
  (forall i m p z, o = BCallId i m p -> number i = Some z -> (z < 2)%Z) -> inv w' b'.
Proof.
  intros [C I M|m p -> C I M|i k m p -> K N C I M|m p -> C I M] (H1 & H2 & H3 & H4 & H5) W P.
  - assert (L : (w_id w <= w_id w')%Z) by (destruct o; lia). apply inv_world with w; auto. unfold inv. rewrite C, I. auto.
  - unfold inv. rewrite C, I, ids_app, (ids_wire m p (JInt _) (KNum (w_id w + 1))) by reflexivity. split.
    { apply all_hashable_snoc; auto. intros i. rewrite id_wire. intros [= <-]. split; discriminate. }
    split.
    { apply nodup_snoc; auto. intros X. apply H3 in X as [X|(z & [= X] & Y)]; [|lia]. specialize (H4 _ _ X eq_refl). lia. }
    split; [|split; [auto|lia]]. intros k X. apply in_app_or in X as [X|[<-|[]]].
    + destruct (H3 k X) as [|(z & ? & ?)]; auto. right. exists z. split; auto. lia.
    + right. exists (w_id w + 1)%Z. split; auto. lia.
  - unfold inv. rewrite C, I, ids_app, (ids_wire m p i k) by auto. split.
    { apply all_hashable_snoc; auto. intros j. rewrite id_wire. intros [= <-]. apply key_hashable. congruence. }
    split.
    { apply nodup_snoc; auto. intros X. apply H3 in X as [X|(z & -> & Y)]; [tauto|]. apply key_number in K. apply (P i m p z) in K; auto. lia. }
    split; [|split; [|lia]].
    + intros k' X. apply in_app_or in X as [X|[<-|[]]]; [|left; left; auto]. destruct (H3 k' X) as [|(z & ? & ?)]; [left; right; auto|].
      right. exists z. split; auto. lia.
    + intros k' z [<-|X] E; [|eauto]. subst k. apply key_number in K. eauto.
  - unfold inv. rewrite C, I, ids_app, ids_notification, app_nil_r. split; [|split; auto; split; [|split; [auto|lia]]].
    + apply all_hashable_snoc; auto. intros i. rewrite id_notification. discriminate.
    + intros k X. rewrite W. auto.
Qed.
Lemma inv_run net n l : (forall i m p z, In (OStep n (BCallId i m p)) l -> number i = Some z -> (z < 2)%Z) ->
  (1 <= w_id (r_world (rrun net l start)))%Z /\
  forall b, nth_error (r_batches (rrun net l start)) n = Some b -> inv (r_world (rrun net l start)) b.
Proof.
  induction l as [|o l IH] using rev_ind; intros P.
  - split; [cbn; lia|]. intros b H. destruct n; discriminate.
  - destruct IH as [I1 I2]; [intros i m p z I; apply (P i m p z), in_or_app; auto|]. rewrite rrun_snoc.
    pose proof (rstep_id net (rrun net l start) o) as L. split; [lia|]. intros b' H. apply rstep_batch in H as [H|[->|(b & o' & -> & H & A & W)]].
    + eapply inv_world; eauto.
    + unfold inv. cbn. repeat split; try (intros; contradiction); [constructor|lia].
    + eapply inv_added; eauto. intros i m p z ->. apply (P i m p), in_or_app. right. now left.
Qed.
Theorem ids_distinct_batch net n l b : nth_error (r_batches (rrun net l start)) n = Some b ->
  (forall i m p z, In (OStep n (BCallId i m p)) l -> number i = Some z -> (z < 2)%Z) -> distinct_ids (b_calls b).
Proof.
  intros H P. destruct (inv_run net n l P) as [_ I]. destruct (I b H) as (A & B & _). now apply distinct_nodup.
Qed.

(** Without [call] *)
Definition inv2 (b : batch) : Prop := all_hashable (b_calls b) /\ NoDup (ids (b_calls b)) /\ incl (ids (b_calls b)) (b_ids b).
Lemma inv2_run net n l : (forall m p, ~ In (OStep n (BCall m p)) l) ->
  forall b, nth_error (r_batches (rrun net l start)) n = Some b -> inv2 b.
Proof.
  induction l as [|o l IH] using rev_ind; intros P b' H.
  - destruct n; discriminate.
  - assert (P' : forall m p, ~ In (OStep n (BCall m p)) l) by (intros m p I; apply (P m p), in_or_app; auto). specialize (IH P').
    rewrite rrun_snoc in H. apply rstep_batch in H as [H|[->|(b & o' & -> & H & A & W)]].
    + auto.
    + split; [intros ? ? []|]. split; [constructor|intros ? []].
    + destruct (IH b H) as (H1 & H2 & H3). unfold inv2. destruct A as [C I M|m p -> C I M|i k m p -> K N C I M|m p -> C I M].
      * rewrite C, I. auto.
      * destruct (P m p). apply in_or_app. right. now left.
      * rewrite C, I, ids_app, (ids_wire m p i k) by auto. split.
        { apply all_hashable_snoc; auto. intros j. rewrite id_wire. intros [= <-]. apply key_hashable. congruence. }
        split; [apply nodup_snoc; auto|]. intros x X. apply in_app_or in X as [X|[<-|[]]]; [right; auto|now left].
      * rewrite C, I, ids_app, ids_notification, app_nil_r. split; auto. apply all_hashable_snoc; auto. intros i. rewrite id_notification. discriminate.
Qed.
Theorem ids_distinct_supplied net n l b : nth_error (r_batches (rrun net l start)) n = Some b ->
  (forall m p, ~ In (OStep n (BCall m p)) l) -> distinct_ids (b_calls b).
Proof. intros H P. destruct (inv2_run net n l P b H) as (A & B & _). now apply distinct_nodup. Qed.
Theorem ids_clash net : exists l b, nth_error (r_batches (rrun net l start)) 0 = Some b /\ ~ distinct_ids (b_calls b).
Proof.
  exists [OBatch; OStep 0 (BCall (T "a") []); OStep 0 (BCallId (JInt 2) (T "b") [])].
  eexists. split; [reflexivity|]. intros D. cbn in D.
  specialize (D 0 1 (JInt 2) (JInt 2) _ _ eq_refl eq_refl eq_refl eq_refl (or_introl eq_refl)). discriminate.
Qed.

(** ** C65 *)
Definition supplied (l : list bop) : list hkey :=
  flat_map (fun o => match o with BCallId i _ _ => match key_of i with Some k => [k] | None => [] end | _ => [] end) l.
Definition is_abandon (o : bop) : bool := match o with BAbandon => true | _ => false end.
Definition calm (l : list bop) (used : list hkey) : Prop :=
  (forall e, ~ In (BRaise e) l) /\ (forall i m p, In (BCallId i m p) l -> hashable i) /\ NoDup (supplied l) /\ forall k, In k (supplied l) -> ~ In k used.
Lemma calm_other o l used : (forall i m p, o <> BCallId i m p) -> (forall e, o <> BRaise e) -> calm (o :: l) used <-> calm l used.
Proof.
  intros N1 N2. assert (S0 : supplied (o :: l) = supplied l) by (destruct o as [| i m p| | | |]; try reflexivity; destruct (N1 i m p); auto).
  unfold calm. rewrite S0. split; intros (A & B & C).
  - split; [intros e I; apply (A e); now right|]. split; [intros i m p I; apply (B i m p); now right|]. auto.
  - split; [intros e [I|I]; [destruct (N2 e I)|now apply (A e)]|]. split; [intros i m p [I|I]; [destruct (N1 _ _ _ I)|eauto]|]. auto.
Qed.
Lemma body_quiet net l : ~ In BSend l -> forall w b,
  let r := body net l w b in
  w_sent (fst r) = w_sent w /\
  (snd (snd r) = ROk tt <-> calm l (b_ids b)) /\
  (snd (snd r) = ROk tt -> b_calls (fst (snd r)) = b_calls b ++ requests (w_id w + 1) l /\
     b_abandoned (fst (snd r)) = b_abandoned b || existsb is_abandon l).
Proof.
  intros NS. induction l as [|o l IH]; intros w b; cbn [body].
  - cbn. rewrite app_nil_r, orb_false_r. split; auto. split; [|auto]. split; auto. intros _. split; [intros ? []|]. split; [intros ? ? ? []|]. split; [constructor|intros ? []].
  - assert (NS' : ~ In BSend l) by (intros I; apply NS; now right). specialize (IH NS').
    destruct o as [m p|i m p|m p| | |e]; cbn [bstep requests].
    + unfold batch_call. cbn [new_call_id fst snd]. set (b1 := Batch _ _ _ _ _ _). specialize (IH (World (w_id w + 1) (w_sent w)) b1). cbn zeta in *.
      destruct IH as (A & B & C). split; [exact A|]. rewrite calm_other by discriminate. split; [exact B|]. intros R. destruct (C R) as [C1 C2].
      rewrite C1, C2. cbn [b1 b_calls b_abandoned w_id existsb is_abandon orb]. split; auto. now rewrite <- app_assoc.
    + unfold batch_call_with_id. destruct (key_of i) as [k|] eqn:K.
      * destruct (existsb (key_eqb k) (b_ids b)) eqn:X; cbn [fst snd].
        { split; auto. split; [|discriminate]. split; [discriminate|]. intros (_ & _ & _ & D). apply existsb_key in X. destruct (D k); auto.
          unfold supplied. cbn [flat_map]. rewrite K. now left. }
        set (b1 := Batch _ _ _ _ _ _). specialize (IH w b1). cbn zeta in *. destruct IH as (A & B & C). split; [exact A|]. split.
        { rewrite B. unfold calm. unfold supplied at 3 4. cbn [flat_map]. rewrite K. fold (supplied l). cbn [b1 b_ids app]. split.
          - intros (P1 & P2 & P3 & P4). split; [intros e [I|I]; [discriminate|now apply (P1 e)]|]. split.
            { intros i' m' p' [[= <- <- <-]|I]; [apply key_hashable; congruence|eauto]. }
            split; [constructor; auto; intros I; apply (P4 k I); now left|]. intros k' [<-|I]; [rewrite <- existsb_key; congruence|].
            intros J. apply (P4 k' I). now right.
          - intros (P1 & P2 & P3 & P4). inversion P3 as [|? ? Q1 Q2]; subst. split; [intros e I; apply (P1 e); now right|].
            split; [intros i' m' p' I; apply (P2 i' m' p'); now right|]. split; auto. intros k' I [<-|J]; [tauto|]. apply (P4 k'); [now right|auto]. }
        intros R. destruct (C R) as [C1 C2]. rewrite C1, C2. cbn [b1 b_calls b_abandoned existsb is_abandon orb]. split; auto. now rewrite <- app_assoc.
      * cbn [fst snd]. split; auto. split; [|discriminate]. split; [discriminate|]. intros (_ & B & _). specialize (B i m p (or_introl eq_refl)).
        apply key_hashable in B. congruence.
    + set (b1 := batch_notify m p b). specialize (IH w b1). cbn zeta in *. destruct IH as (A & B & C). split; [exact A|]. rewrite calm_other by discriminate.
      split; [exact B|]. intros R. destruct (C R) as [C1 C2]. rewrite C1, C2. cbn [b1 batch_notify b_calls b_abandoned existsb is_abandon orb]. split; auto. now rewrite <- app_assoc.
    + specialize (IH w (abandon b)). cbn zeta in *. destruct IH as (A & B & C). split; [exact A|]. rewrite calm_other by discriminate.
      split; [exact B|]. intros R. destruct (C R) as [C1 C2]. rewrite C1, C2. cbn [abandon b_calls b_abandoned existsb is_abandon orb]. now rewrite orb_true_r.
    + destruct NS. now left.
    + cbn. split; auto. split; [|discriminate]. split; [discriminate|]. intros (A & _). destruct (A e). now left.
Qed.
Lemma calm_quiet l : calm l [] <-> quiet l.
Proof.
  assert (G : (forall i m p, In (BCallId i m p) l -> hashable i) ->
    (NoDup (supplied l) <-> forall a b i j m m' p p', nth_error l a = Some (BCallId i m p) -> nth_error l b = Some (BCallId j m' p') -> same_id i j -> a = b)).
  { induction l as [|o l IH]; intros H.
    - split; [intros _ a b i j m m' p p' E; destruct a; discriminate|constructor].
    - assert (H' : forall i m p, In (BCallId i m p) l -> hashable i) by (intros i m p I; apply (H i m p); now right). specialize (IH H').
      assert (T0 : (forall a b i j m m' p p', nth_error (o :: l) a = Some (BCallId i m p) -> nth_error (o :: l) b = Some (BCallId j m' p') -> same_id i j -> a = b) <->
        (forall a b i j m m' p p', nth_error l a = Some (BCallId i m p) -> nth_error l b = Some (BCallId j m' p') -> same_id i j -> a = b) /\
        forall i m p, o = BCallId i m p -> forall j m' p', In (BCallId j m' p') l -> ~ same_id i j).
      { split.
        - intros U. split.
          + intros a b i j m m' p p' A B S0. specialize (U (S a) (S b) i j m m' p p' A B S0). lia.
          + intros i m p -> j m' p' I S0. apply In_nth_error in I as (b & B). specialize (U 0 (S b) i j m m' p p' eq_refl B S0). discriminate.
        - intros [U V] a b i j m m' p p' A B S0. destruct a as [|a], b as [|b]; cbn in A, B; auto.
          + injection A as ->. apply nth_error_In in B. destruct (V i m p eq_refl j m' p'); auto.
          + injection B as ->. apply nth_error_In in A. destruct (V j m' p' eq_refl i m p); auto using same_sym.
          + f_equal. eapply U; eauto. }
      rewrite T0, <- IH. destruct o as [m p|i m p|m p| | |e]; try (split; [intros D; split; [exact D|discriminate]|intros [D _]; exact D]).
      assert (Hi : hashable i) by (apply (H i m p); now left). apply key_hashable in Hi. unfold supplied. cbn [flat_map]. destruct (key_of i) as [k|] eqn:K; [|congruence].
      fold (supplied l). cbn [app]. assert (Q : In k (supplied l) <-> exists j m' p', In (BCallId j m' p') l /\ same_id i j).
      { unfold supplied. rewrite in_flat_map. split.
        - intros (x & I & X). destruct x as [|j m' p'| | | |]; try destruct X. exists j, m', p'. split; auto. destruct (key_of j) as [k'|] eqn:Kj; [|destruct X].
          destruct X as [->|[]]. now apply (key_same i j k).
        - intros (j & m' & p' & I & S0). exists (BCallId j m' p'). split; auto. apply (key_same i j k K) in S0. rewrite S0. now left. }
      split.
      + intros D. inversion D as [|? ? D1 D2]; subst. split; auto. intros i' m0 p0 [= <- <- <-] j m' p' I S0. apply D1, Q. eauto.
      + intros [D V]. constructor; auto. rewrite Q. intros (j & m' & p' & I & S0). exact (V i m p eq_refl j m' p' I S0). }
  unfold calm, quiet. split.
  - intros (A & B & C & _). split; auto. split; auto. now apply G.
  - intros (A & B & C). split; auto. split; auto. split; [now apply G|intros ? ? []].
Qed.
Lemma batch_send_sent net w b : w_sent (fst (batch_send net w b)) = JArr (b_calls b) :: w_sent w.
Proof. reflexivity. Qed.
Theorem with_sends net l w : ~ In BSend l ->
  (quiet l -> ~ In BAbandon l -> w_sent (fst (with_batch net l w)) = JArr (requests (w_id w + 1) l) :: w_sent w) /\
  (quiet l -> In BAbandon l -> w_sent (fst (with_batch net l w)) = w_sent w /\ snd (snd (with_batch net l w)) = ROk tt) /\
  (~ quiet l -> w_sent (fst (with_batch net l w)) = w_sent w /\ exists e, snd (snd (with_batch net l w)) = RRaise e).
Proof.
  intros NS. destruct (body_quiet net l NS w new_batch) as (A & B & C). cbn zeta in *. rewrite calm_quiet in B.
  assert (AB : existsb is_abandon l = true <-> In BAbandon l).
  { rewrite existsb_exists. split; [intros ([] & I & E); try discriminate; auto|intros I; exists BAbandon; auto]. }
  unfold with_batch. destruct (body net l w new_batch) as [w' [b' r]] eqn:E. cbn [fst snd] in *.
  assert (NH : r <> RHang).
  { clear - NS E. revert E. generalize new_batch. revert w. induction l as [|o l IH]; intros w b; cbn [body]; [intros [= <- <- <-]; discriminate|].
    assert (NS' : ~ In BSend l) by (intros I; apply NS; now right). destruct o as [m p|i m p|m p| | |e]; cbn [bstep]; try (now apply IH).
    - unfold batch_call_with_id. destruct (key_of i); [|intros [= <- <- <-]; discriminate]. destruct (existsb _ _); [intros [= <- <- <-]; discriminate|]. now apply IH.
    - destruct NS. now left.
    - intros [= <- <- <-]. discriminate. }
  destruct r as [[]|e|]; [| |congruence].
  - destruct (C eq_refl) as [C1 C2]. cbn [new_batch b_calls b_abandoned app orb] in C1, C2. rewrite C2.
    split; [|split].
    + intros _ NA. destruct (existsb is_abandon l); [destruct NA; now apply AB|]. rewrite batch_send_sent. congruence.
    + intros _ IA. apply AB in IA. rewrite IA. auto.
    + intros NQ. destruct NQ. now apply B.
  - split; [|split].
    + intros Q. apply B in Q. discriminate.
    + intros Q. apply B in Q. discriminate.
    + intros _. split; auto. now exists e.
Qed.
(** Any body, also one that calls send itself *)
Theorem leaving_sends net l w wb b r : body net l w new_batch = (wb, (b, r)) ->
  w_sent (fst (with_batch net l w)) =
    match r with ROk _ => if b_abandoned b then w_sent wb else JArr (b_calls b) :: w_sent wb | _ => w_sent wb end.
Proof.
  intros E. unfold with_batch. rewrite E. destruct r as [x| |]; auto. destruct (b_abandoned b); auto.
Qed.

(** ** C64 for send *)
Lemma send_read net w b l : answered net w l -> snd (batch_send net w b) = batch_read (Some (JArr l)) b.
Proof. intros A. unfold batch_send. cbn [send]. unfold answered, answer_to in A. now rewrite A. Qed.
Theorem send_ok net w b l : answered net w l -> (snd (snd (batch_send net w b)) = ROk tt <-> Forall ok_response l).
Proof. intros A. rewrite (send_read _ _ _ _ A). apply read_iff. Qed.
Theorem send_not_list net w b : (forall l, net (length (w_sent w)) <> Answer (Some (JArr l))) -> snd (snd (batch_send net w b)) <> ROk tt.
Proof.
  unfold batch_send. cbn [send]. destruct (net (length (w_sent w))) as [| |[[]|]]; cbn; try discriminate. intros H. destruct (H l); auto.
Qed.
Theorem send_reports net w b w' b' l1 r l2 i d default : built b -> answered net w (l1 ++ r :: l2) -> batch_send net w b = (w', (b', ROk tt)) ->
  responds i r d -> no_response i (l1 ++ l2) -> (exists c i', In c (b_calls b) /\ id_of c = Some i' /\ same_id i i') -> hashable i ->
  reports b i default d (get_result b' i default).
Proof. intros B A E. apply (f_equal snd) in E. rewrite (send_read _ _ _ _ A) in E. now apply batch_reports. Qed.
Theorem send_unanswered net w b w' b' l i default : answered net w l -> batch_send net w b = (w', (b', ROk tt)) -> no_response i l -> hashable i ->
  get_result b' i default = RRaise (XPy EKey).
Proof. intros A E. apply (f_equal snd) in E. rewrite (send_read _ _ _ _ A) in E. eapply batch_unanswered; eauto. Qed.
Theorem send_result_given net w b w' b' l i v : answered net w l -> batch_send net w b = (w', (b', ROk tt)) -> get_result b' i None = ROk v ->
  exists d, In (JObj d) l /\ responds i (JObj d) d /\ member "error" d = None /\ v = result_of d.
Proof. intros A E. apply (f_equal snd) in E. rewrite (send_read _ _ _ _ A) in E. eapply batch_result_given; eauto. Qed.
Theorem send_order net net' w b l l' : answered net w l -> answered net' w l' -> Permutation l l' ->
  (snd (snd (batch_send net w b)) = ROk tt <-> snd (snd (batch_send net' w b)) = ROk tt) /\
  forall w1 w2 b1 b2 i default, batch_send net w b = (w1, (b1, ROk tt)) -> batch_send net' w b = (w2, (b2, ROk tt)) -> once i l ->
    get_result b1 i default = get_result b2 i default.
Proof.
  intros A A' P. rewrite (send_read _ _ _ _ A), (send_read _ _ _ _ A'). destruct (batch_order b l l' P) as [X Y]. split; auto.
  intros w1 w2 b1 b2 i default E1 E2. apply (f_equal snd) in E1, E2. rewrite (send_read _ _ _ _ A) in E1. rewrite (send_read _ _ _ _ A') in E2. now apply Y.
Qed.
