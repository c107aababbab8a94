(** * Proofs about the JSON-RPC client *)
From Coq Require Import Permutation.
From Verif Require Import Py Py_lemmas Dict_lemmas Model_Path Model_Rpc Spec_Rpc.

(** ** Keys *)
Lemma key_eqb_spec a b : reflect (a = b) (key_eqb a b).
Proof.
  destruct a, b; cbn; try (constructor; congruence).
  - destruct (Z.eqb_spec z z0); constructor; congruence.
  - destruct (N.eqb_spec n n0); constructor; congruence.
  - destruct (text_eqb_spec t t0); constructor; congruence.
Qed.
Lemma key_hashable i : hashable i <-> key_of i <> None.
Proof.
  split.
  - intros [A B]. destruct i as [| | |[]| | |]; cbn; try discriminate; [destruct (A l)|destruct (B d)]; auto.
  - intros H. split; intros x ->; now apply H.
Qed.
Lemma key_number i z : key_of i = Some (KNum z) <-> number i = Some z.
Proof. destruct i as [| | |[]| | |]; cbn; split; intros H; inversion H; subst; auto. Qed.
Lemma key_same i j k : key_of i = Some k -> (key_of j = Some k <-> same_id i j).
Proof.
  intros H. split.
  - intros H'. destruct k.
    + left. destruct i as [| | |[]| | |], j as [| | |[]| | |]; cbn in *; congruence.
    + right. exists z. split; now apply key_number.
    + left. destruct i as [| | |[]| | |], j as [| | |[]| | |]; cbn in *; congruence.
    + left. destruct i as [| | |[]| | |], j as [| | |[]| | |]; cbn in *; congruence.
    + left. destruct i as [| | |[]| | |], j as [| | |[]| | |]; cbn in *; congruence.
  - intros [->|(z & A & B)]; [auto|]. apply key_number in A, B. congruence.
Qed.
Lemma same_sym i j : same_id i j -> same_id j i.
Proof. intros [->|(z & A & B)]; [now left|right; eauto]. Qed.
Lemma same_trans i j k : same_id i j -> same_id j k -> same_id i k.
Proof.
  intros [->|(z & A & B)] [->|(z' & A' & B')]; [now left|right; eauto|right; eauto|].
  right. exists z. split; auto. congruence.
Qed.
Lemma same_hashable i j : same_id i j -> hashable j -> hashable i.
Proof.
  intros [->|(z & A & B)] H; [auto|]. apply key_hashable. apply key_number in A. congruence.
Qed.

(** ** C60 *)
Section Ids.
  Variable net : nat -> reply.
  Lemma call_id_step m p w : w_id (fst (call net m p w)) = (w_id w + 1)%Z /\
    w_sent (fst (call net m p w)) = wire_call m p (JInt (w_id w + 1)) :: w_sent w.
  Proof. split; reflexivity. Qed.
  Lemma bstep_id o w b : w_id (fst (bstep net o w b)) = match o with BCall _ _ => w_id w + 1 | _ => w_id w end%Z.
  Proof. destruct o; reflexivity. Qed.
  Definition makes (s : rstate) (o : rop) : bool :=
    match o with
    | OCall _ _ => true
    | OStep n (BCall _ _) => n <? length (r_batches s)
    | _ => false
    end.
  Definition ids_ok (s : rstate) : Prop :=
    w_id (r_world s) = Z.of_nat (S (length (r_made s))) /\
    map id_of (r_made s) = map (fun n => Some (JInt (Z.of_nat n))) (seq 2 (length (r_made s))).
  Lemma ids_ok_snoc w bs made c : w_id w = Z.of_nat (S (length made)) ->
    map id_of made = map (fun n => Some (JInt (Z.of_nat n))) (seq 2 (length made)) -> id_of c = Some (JInt (w_id w + 1)) ->
    forall w', w_id w' = (w_id w + 1)%Z -> ids_ok (RS w' bs (made ++ [c])).
  Proof.
    intros H0 H1 H2 w' H3. split; cbn [r_world r_made].
    - rewrite H3, H0, app_length. cbn. lia.
    - rewrite app_length, map_app, H1. cbn [length]. rewrite seq_app, map_app. f_equal. cbn. rewrite H2, H0. do 3 f_equal. lia.
  Qed.
  Lemma rstep_ids s o : ids_ok s -> ids_ok (rstep net s o) /\
    length (r_made (rstep net s o)) = length (r_made s) + if makes s o then 1 else 0.
  Proof.
    intros [A B]. destruct o as [m p|m p| |n o].
    - split; [|cbn; now rewrite app_length]. cbn [rstep]. eapply ids_ok_snoc; eauto.
    - split; [split; auto|cbn; lia].
    - split; [split; auto|cbn; lia].
    - cbn [rstep makes]. destruct (nth_error (r_batches s) n) as [b|] eqn:E.
      + assert (L : n <? length (r_batches s) = true) by (apply Nat.ltb_lt, nth_error_Some; congruence).
        pose proof (bstep_id o (r_world s) b) as W. destruct o as [m p|i m p|m p| | |e].
        * rewrite L. cbn [bstep]. unfold batch_call. cbn [new_call_id b_calls].
          rewrite skipn_app, skipn_all, Nat.sub_diag. cbn [app skipn]. split; [|cbn; now rewrite app_length].
          eapply ids_ok_snoc; eauto.
        * destruct (bstep _ _ _ _) as [w' [b' r]]. cbn in *. rewrite app_nil_r. split; [split; cbn; congruence|lia].
        * destruct (bstep _ _ _ _) as [w' [b' r]]. cbn in *. rewrite app_nil_r. split; [split; cbn; congruence|lia].
        * destruct (bstep _ _ _ _) as [w' [b' r]]. cbn in *. rewrite app_nil_r. split; [split; cbn; congruence|lia].
        * destruct (bstep _ _ _ _) as [w' [b' r]]. cbn in *. rewrite app_nil_r. split; [split; cbn; congruence|lia].
        * destruct (bstep _ _ _ _) as [w' [b' r]]. cbn in *. rewrite app_nil_r. split; [split; cbn; congruence|lia].
      + assert (L : n <? length (r_batches s) = false) by (apply Nat.ltb_ge, nth_error_None; auto).
        destruct o; rewrite ?L; (split; [split; auto|lia]).
  Qed.
  Lemma start_ok : ids_ok start.
  Proof. split; reflexivity. Qed.
  Lemma rrun_ids l : forall s, ids_ok s -> ids_ok (rrun net l s).
  Proof. induction l as [|o l IH]; cbn; auto. intros s H. apply IH. now apply rstep_ids. Qed.
  Theorem ids_are_2_3_4 l : forall made, made = r_made (rrun net l start) ->
    map id_of made = map (fun n => Some (JInt (Z.of_nat n))) (seq 2 (length made)).
  Proof. intros made ->. apply (rrun_ids l start start_ok). Qed.
  Theorem ids_distinct l : forall made a b ca cb i j, made = r_made (rrun net l start) ->
    nth_error made a = Some ca -> nth_error made b = Some cb -> id_of ca = Some (JInt i) -> id_of cb = Some (JInt j) ->
    (a < b)%nat <-> (i < j)%Z.
  Proof.
    intros made a b ca cb i j Hm Ha Hb Hi Hj. pose proof (ids_are_2_3_4 l made Hm) as E.
    assert (G : forall n c z, nth_error made n = Some c -> id_of c = Some (JInt z) -> z = Z.of_nat (2 + n)).
    { intros n c z A B. pose proof (map_nth_error id_of n made A) as F. rewrite E in F.
      assert (n < length made) by (apply nth_error_Some; congruence).
      rewrite (nth_error_nth' _ (Some (JInt 0))) in F by (rewrite map_length, seq_length; auto).
      rewrite (nth_indep _ (Some (JInt 0)) (Some (JInt (Z.of_nat 0)))) in F by (rewrite map_length, seq_length; auto).
      rewrite (map_nth (fun n => Some (JInt (Z.of_nat n)))) in F.
      rewrite seq_nth in F by auto. congruence. }
    rewrite (G _ _ _ Ha Hi), (G _ _ _ Hb Hj). lia.
  Qed.
End Ids.

(** ** C61 *)
Section Call.
  Variable net : nat -> reply.
  Lemma contains_obj k d : contains (T k) (JObj d) = Some (match member k d with Some _ => true | None => false end).
  Proof. unfold contains, member, dict_mem. now destruct (dict_get text_eqb (T k) d). Qed.
  Lemma read_ok m id j v : read_response m id j = ROk v <-> exists d, j = JObj d /\ answers id d /\ v = result_of d.
  Proof.
    split.
    - unfold read_response. destruct (contains _ j) as [[]|] eqn:C1; try discriminate.
      destruct (contains (T "id") j) as [[]|] eqn:C2; try discriminate. destruct j; try discriminate.
      rewrite contains_obj in C1, C2. fold (member "jsonrpc" d). fold (member "id" d). fold (member "error" d).
      destruct (member "jsonrpc" d) as [ver|] eqn:E1; try discriminate. destruct (member "id" d) as [i|] eqn:E2; try discriminate.
      destruct ver; try discriminate. destruct (text_eqb t (T "2.0")) eqn:Et; try discriminate. apply text_eqb_eq in Et as ->.
      destruct (key_of i) as [[]|] eqn:K; try discriminate. destruct (Z.eqb_spec z id) as [->|]; try discriminate.
      destruct (member "error" d) eqn:E3; try discriminate. intros [= <-]. exists d. split; auto. split; [|reflexivity].
      split; [exact E1|]. split; [|exact E3]. exists i. split; auto. now apply key_number.
    - intros (d & -> & (E1 & (i & E2 & K) & E3) & ->). apply key_number in K. unfold read_response. rewrite !contains_obj, E1, E2.
      fold (member "jsonrpc" d). fold (member "id" d). fold (member "error" d). rewrite E1, E2, E3, text_eqb_refl, K, Z.eqb_refl. reflexivity.
  Qed.
  Lemma read_no_hang m id j : read_response m id j <> RHang.
  Proof.
    unfold read_response. repeat match goal with |- (match ?x with _ => _ end) <> _ => destruct x; try discriminate end.
  Qed.
  Theorem call_returns m p w v : snd (call net m p w) = ROk v <->
    exists d, answer_to net w = Answer (Some (JObj d)) /\ answers (w_id w + 1) d /\ v = result_of d.
  Proof.
    unfold call, answer_to. cbn [new_call_id send snd w_sent]. destruct (net _) as [| |[j|]]; cbn [rbind].
    - split; [discriminate|intros (d & A & _); discriminate].
    - split; [discriminate|intros (d & A & _); discriminate].
    - cbn [w_id]. rewrite read_ok. split; intros (d & A & B & C); exists d; [subst; auto|split; [congruence|auto]].
    - split; [discriminate|intros (d & A & _); discriminate].
  Qed.
  Theorem call_raises m p w : answer_to net w <> Silent -> (forall v, snd (call net m p w) <> ROk v) -> exists e, snd (call net m p w) = RRaise e.
  Proof.
    intros H N. destruct (snd (call net m p w)) as [v|e|] eqn:E; [destruct (N v); auto|eauto|].
    exfalso. unfold call, answer_to in *. cbn [new_call_id send snd w_sent] in *.
    destruct (net _) as [| |[j|]]; cbn [rbind] in E; try discriminate; [congruence|]. now apply read_no_hang in E.
  Qed.
  Theorem call_sends m p w : fst (call net m p w) = World (w_id w + 1) (wire_call m p (JInt (w_id w + 1)) :: w_sent w).
  Proof. reflexivity. Qed.
End Call.

(** ** C62 *)
Lemma reserved_get z : match dict_get Z.eqb z code_names with
  | Some t => exists n, t = T n /\ reserved z n
  | None => forall n, ~ reserved z n
  end.
Proof.
  cbn [dict_get code_names]. repeat (match goal with |- context [(?a =? z)%Z] => destruct (Z.eqb_spec a z) as [<-|] end; [eexists; split; [reflexivity|constructor]|]).
  intros nm H. inversion H; subst; congruence.
Qed.
Lemma get_or_the k d x : get_or (T k) d x = the (member k d) x.
Proof. reflexivity. Qed.
Theorem error_described m e : plain_code e -> describes m e (handle_error m (JObj e)).
Proof.
  unfold plain_code, describes, handle_error. intros H. rewrite !get_or_the. apply key_hashable in H.
  destruct (key_of (the (member "code" e) JNull)) as [k|] eqn:K; [|congruence].
  assert (Q : (forall z, k <> KNum z) -> forall z name, number (the (member "code" e) JNull) = Some z -> ~ reserved z name).
  { intros N z name A. apply key_number in A. rewrite K in A. injection A as A. destruct (N z A). }
  destruct k; try (right; split; [apply Q; discriminate|reflexivity]).
  pose proof (reserved_get z) as R. destruct (dict_get Z.eqb z code_names) as [t|].
  - destruct R as (n & -> & R). left. exists z, n. split; [now apply key_number|]. auto.
  - right. split; [|reflexivity]. intros z' n A. apply key_number in A. rewrite K in A. injection A as <-. apply R.
Qed.
Lemma describes_det m e x y : describes m e x -> describes m e y -> x = y.
Proof.
  intros [(z & n & A & R & ->)|[A ->]] [(z' & n' & A' & R' & ->)|[A' ->]]; auto.
  - rewrite A in A'. injection A' as <-. enough (n = n') by congruence. inversion R; subst; inversion R'; auto.
  - destruct (A' _ _ A R).
  - destruct (A _ _ A' R').
Qed.
Lemma error_bad_code m e : ~ plain_code e -> handle_error m (JObj e) = XPy EType.
Proof.
  unfold plain_code, handle_error. rewrite key_hashable, !get_or_the. intros H.
  destruct (key_of _) eqn:K; auto. destruct H. congruence.
Qed.
Theorem call_error net m p w d i e : answer_to net w = Answer (Some (JObj d)) -> member "jsonrpc" d = Some (JStr (T "2.0")) ->
  member "id" d = Some i -> number i = Some (w_id w + 1)%Z -> member "error" d = Some e -> snd (call net m p w) = RRaise (handle_error m e).
Proof.
  intros A B C K D. apply key_number in K. unfold answer_to in A. unfold call. cbn [new_call_id send snd w_sent]. rewrite A. cbn [rbind].
  unfold read_response. rewrite !contains_obj, B, C. fold (member "jsonrpc" d). fold (member "id" d). fold (member "error" d).
  rewrite B, C, D, text_eqb_refl, K. cbn [w_id]. now rewrite Z.eqb_refl.
Qed.
Theorem error_classified net m p w d i e : answer_to net w = Answer (Some (JObj d)) -> member "jsonrpc" d = Some (JStr (T "2.0")) ->
  member "id" d = Some i -> number i = Some (w_id w + 1)%Z -> member "error" d = Some (JObj e) -> plain_code e ->
  exists x, snd (call net m p w) = RRaise x /\ describes m e x.
Proof.
  intros A B C K D P. exists (handle_error m (JObj e)). split; [now apply (call_error net m p w d i)|now apply error_described].
Qed.

Theorem error_unclassified net m p w d i e : answer_to net w = Answer (Some (JObj d)) -> member "jsonrpc" d = Some (JStr (T "2.0")) ->
  member "id" d = Some i -> number i = Some (w_id w + 1)%Z -> member "error" d = Some (JObj e) -> ~ plain_code e ->
  snd (call net m p w) = RRaise (XPy EType) /\ ~ describes m e (XPy EType).
Proof.
  intros A B C K D P. rewrite <- (error_bad_code m e P) at 1. split; [now apply (call_error net m p w d i)|].
  intros [(z & n & _ & _ & X)|[_ X]]; discriminate.
Qed.

(** ** Batches *)
Definition ids (calls : list json) : list hkey :=
  flat_map (fun c => match id_of c with Some i => match key_of i with Some k => [k] | None => [] end | None => [] end) calls.
Lemma ids_app a b : ids (a ++ b) = ids a ++ ids b.
Proof. apply flat_map_app. Qed.
Lemma in_ids k calls : In k (ids calls) <-> exists c i, In c calls /\ id_of c = Some i /\ key_of i = Some k.
Proof.
  unfold ids. rewrite in_flat_map. split.
  - intros (c & A & B). exists c. destruct (id_of c) as [i|]; [|destruct B]. exists i. destruct (key_of i); [|destruct B].
    destruct B as [->|[]]. auto.
  - intros (c & i & A & B & C). exists c. rewrite B, C. cbn. auto.
Qed.
Lemma nodup_app {A} (a b : list A) : NoDup (a ++ b) -> NoDup a /\ NoDup b /\ forall x, In x a -> ~ In x b.
Proof.
  induction a as [|x a IH]; cbn; intros H; [split; [constructor|auto]|]. inversion H as [|? ? N D]; subst. destruct (IH D) as (P & Q & R).
  rewrite in_app_iff in N. split; [constructor; tauto|]. split; auto. intros y [->|Y]; [tauto|auto].
Qed.
Lemma distinct_nodup calls : (forall c i, In c calls -> id_of c = Some i -> hashable i) -> NoDup (ids calls) -> distinct_ids calls.
Proof.
  intros H. induction calls as [|c calls IH]; intros D a b i j ci cj Ha Hb Hi Hj S0; [destruct a; discriminate|].
  assert (IH' := IH (fun c i Hc => H c i (or_intror Hc))). clear IH.
  change (c :: calls) with ([c] ++ calls) in D. rewrite ids_app in D. apply nodup_app in D as (_ & D & X).
  assert (G : forall n i j cn, nth_error calls n = Some cn -> id_of cn = Some j -> id_of c = Some i -> same_id i j -> False).
  { intros n i0 j0 cn A B C S1. assert (Hh : hashable i0) by (apply (H c); [left|]; auto). apply key_hashable in Hh.
    destruct (key_of i0) as [k|] eqn:K; [|congruence]. apply (X k).
    - apply in_ids. exists c, i0. split; [now left|auto].
    - apply in_ids. exists cn, j0. split; [now apply nth_error_In in A|]. split; auto. now apply (key_same i0). }
  destruct a as [|a], b as [|b]; cbn in Ha, Hb; auto.
  - injection Ha as <-. destruct (G b i j cj); auto.
  - injection Hb as <-. destruct (G a j i ci); auto using same_sym.
  - f_equal. eapply IH'; eauto.
Qed.

Lemma body_app net l1 l2 : forall w b, body net (l1 ++ l2) w b =
  match body net l1 w b with (w, (b, ROk _)) => body net l2 w b | stopped => stopped end.
Proof.
  induction l1 as [|o l1 IH]; intros w b; cbn; [reflexivity|].
  destruct (bstep net o w b) as [w' [b' []]]; auto.
Qed.

(** A step changes the calls and what goes with them like this *)
Inductive added (o : bop) (w : world) (b b' : batch) : Prop :=
| added_none : b_calls b' = b_calls b -> b_ids b' = b_ids b -> b_methods b' = b_methods b -> added o w b b'
| added_call m p : o = BCall m p -> b_calls b' = b_calls b ++ [wire_call m p (JInt (w_id w + 1))] -> b_ids b' = b_ids b ->
    b_methods b' = dict_set key_eqb (KNum (w_id w + 1)) m (b_methods b) -> added o w b b'
| added_id i k m p : o = BCallId i m p -> key_of i = Some k -> ~ In k (b_ids b) -> b_calls b' = b_calls b ++ [wire_call m p i] -> b_ids b' = k :: b_ids b ->
    b_methods b' = dict_set key_eqb k m (b_methods b) -> added o w b b'
| added_notification m p : o = BNotify m p -> b_calls b' = b_calls b ++ [wire_notification m p] -> b_ids b' = b_ids b -> b_methods b' = b_methods b -> added o w b b'.
Lemma existsb_key k l : existsb (key_eqb k) l = true <-> In k l.
Proof.
  rewrite existsb_exists. split; [intros (x & A & B); destruct (key_eqb_spec k x); congruence|].
  intros H. exists k. split; auto. destruct (key_eqb_spec k k); congruence.
Qed.
Lemma read_keeps r b b' res : batch_read r b = (b', res) ->
  b_calls b' = b_calls b /\ b_ids b' = b_ids b /\ b_methods b' = b_methods b /\ b_abandoned b' = b_abandoned b.
Proof.
  unfold batch_read. destruct r as [[]|]; try (intros [= <- <-]; auto; fail).
  destruct (rbind _ _) as [[ds es]|e|]; try (intros [= <- <-]; auto; fail).
  destruct (results_of [] ds); intros [= <- <-]; auto.
Qed.
Lemma send_keeps net w b w' b' res : batch_send net w b = (w', (b', res)) ->
  b_calls b' = b_calls b /\ b_ids b' = b_ids b /\ b_methods b' = b_methods b /\ b_abandoned b' = b_abandoned b.
Proof.
  unfold batch_send. cbn [send]. destruct (net _) as [| |j]; try (intros [= <- <- <-]; auto; fail).
  intros [= <- E]. now apply read_keeps in E.
Qed.
Lemma bstep_added net o w b : added o w b (fst (snd (bstep net o w b))).
Proof.
  destruct o as [m p|i m p|m p| | |e]; cbn [bstep].
  - eapply added_call; reflexivity.
  - unfold batch_call_with_id. destruct (key_of i) as [k|] eqn:K; [|now apply added_none].
    destruct (existsb (key_eqb k) (b_ids b)) eqn:E; [now apply added_none|].
    eapply (added_id _ _ _ _ i k); try reflexivity; auto. rewrite <- existsb_key. congruence.
  - eapply added_notification; reflexivity.
  - now apply added_none.
  - destruct (batch_send net w b) as [w' [b' r]] eqn:E. apply send_keeps in E. apply added_none; tauto.
  - now apply added_none.
Qed.
Lemma body_keeps net (P : batch -> Prop) l : (forall o w b, P b -> P (fst (snd (bstep net o w b)))) ->
  forall w b, P b -> P (fst (snd (body net l w b))).
Proof.
  intros H. induction l as [|o l IH]; intros w b Hb; cbn; auto.
  pose proof (H o w b Hb) as X. destruct (bstep net o w b) as [w' [b' []]]; cbn in *; auto.
Qed.

(** Methods *)
Definition methods_ok (b : batch) : Prop := forall i k, key_of i = Some k ->
  match dict_get key_eqb k (b_methods b) with
  | Some m => method_in (b_calls b) i m
  | None => forall c i', In c (b_calls b) -> id_of c = Some i' -> ~ same_id i i'
  end.
Lemma id_wire m p i : id_of (wire_call m p i) = Some i.
Proof. reflexivity. Qed.
Lemma id_notification m p : id_of (wire_notification m p) = None.
Proof. reflexivity. Qed.
Lemma method_in_snoc calls i m c : method_in calls i m -> (forall i', id_of c = Some i' -> ~ same_id i i') -> method_in (calls ++ [c]) i m.
Proof.
  intros (bf & p & i' & af & -> & A & B) H. exists bf, p, i', (af ++ [c]). split; [now rewrite <- app_assoc|]. split; auto.
  intros c' i2 I. apply in_app_or in I as [I|[<-|[]]]; eauto.
Qed.
Lemma methods_set b b' i' k' m p : methods_ok b -> key_of i' = Some k' -> b_calls b' = b_calls b ++ [wire_call m p i'] ->
  b_methods b' = dict_set key_eqb k' m (b_methods b) -> methods_ok b'.
Proof.
  intros H K C M i k Hk. rewrite M, (get_set _ key_eqb_spec), C. destruct (key_eqb_spec k' k) as [->|N].
  - exists (b_calls b), p, i', []. split; auto. split; [now apply (key_same i i' k)|intros ? ? []].
  - specialize (H i k Hk). assert (D : forall j, id_of (wire_call m p i') = Some j -> ~ same_id i j).
    { intros j [= <-] S0. apply (key_same i i' k Hk) in S0. congruence. }
    destruct (dict_get key_eqb k (b_methods b)) as [m0|].
    + now apply method_in_snoc.
    + intros c j I. apply in_app_or in I as [I|[<-|[]]]; eauto.
Qed.
Lemma methods_added o w b b' : added o w b b' -> methods_ok b -> methods_ok b'.
Proof.
  intros [C I M|m p _ C I M|i k m p _ K N C I M|m p _ C I M] H.
  - intros j kj Hj. rewrite M, C. now apply H.
  - eapply (methods_set b b' (JInt _)); eauto. reflexivity.
  - eapply (methods_set b b' i); eauto.
  - intros j kj Hj. rewrite M, C. specialize (H j kj Hj). destruct (dict_get key_eqb kj (b_methods b)).
    + apply method_in_snoc; auto. intros i'. now rewrite id_notification.
    + intros c i' X. apply in_app_or in X as [X|[<-|[]]]; [eauto|]. now rewrite id_notification.
Qed.
Lemma built_methods b : built b -> methods_ok b.
Proof.
  intros (net & l & w & ->). apply body_keeps.
  - intros o w' b H. eapply methods_added; [apply bstep_added|auto].
  - intros i k _. cbn. intros c i' [].
Qed.

(** ** C64: reading responses *)
Definition read_ok_obj (d : list (text * json)) : Prop :=
  (forall i, member "id" d = Some i -> hashable i) /\ (member "error" d <> None -> member "id" d <> None).
Lemma objects_ok l : Forall ok_response l -> exists ds, objects l = ROk ds /\ l = map JObj ds /\ Forall read_ok_obj ds.
Proof.
  induction 1 as [|r l (d & -> & A & B) H IH]; [exists []; cbn; auto|]. destruct IH as (ds & E & -> & F).
  exists (d :: ds). cbn [objects]. rewrite E. cbn [rbind]. split; [reflexivity|]. split; [reflexivity|]. constructor; auto. now split.
Qed.
Lemma objects_inv l ds : objects l = ROk ds -> l = map JObj ds.
Proof.
  revert ds. induction l as [|r l IH]; cbn; intros ds; [now intros [= <-]|]. destruct r; try discriminate.
  destruct (objects l) as [x| |]; cbn; try discriminate. intros [= <-]. cbn. f_equal. auto.
Qed.
(** What each response says of key [k] *)
Definition key_id (d : list (text * json)) : option hkey := match member "id" d with Some i => key_of i | None => None end.
Definition error_for (k : hkey) (d : list (text * json)) : option json :=
  match member "error" d, key_id d with Some e, Some k' => if key_eqb k' k then Some e else None | _, _ => None end.
Definition result_for (k : hkey) (d : list (text * json)) : option json :=
  match member "error" d, key_id d with None, Some k' => if key_eqb k' k then Some (JObj d) else None | _, _ => None end.
Fixpoint last_some {A B} (f : A -> option B) (l : list A) (acc : option B) : option B :=
  match l with [] => acc | x :: r => last_some f r (match f x with Some y => Some y | None => acc end) end.
Lemma errors_get k ds : forall acc, Forall read_ok_obj ds -> exists es, errors_of acc ds = ROk es /\
  dict_get key_eqb k es = last_some (error_for k) ds (dict_get key_eqb k acc).
Proof.
  induction ds as [|d ds IH]; intros acc H; [exists acc; auto|]. inversion H as [|? ? [A B] H']; subst. cbn [errors_of last_some].
  fold (member "error" d). fold (member "id" d). unfold error_for at 2, key_id.
  destruct (member "error" d) as [e|]; [|now apply IH].
  destruct (member "id" d) as [i|]; [|destruct B; congruence]. specialize (A i eq_refl). apply key_hashable in A.
  destruct (key_of i) as [k'|]; [|congruence]. destruct (IH (dict_set key_eqb k' e acc) H') as (es & E & G). exists es. split; auto.
  rewrite G, (get_set _ key_eqb_spec). now destruct (key_eqb k' k).
Qed.
Lemma results_get k ds : forall acc, Forall read_ok_obj ds -> exists rs, results_of acc ds = ROk rs /\
  dict_get key_eqb k rs = last_some (result_for k) ds (dict_get key_eqb k acc).
Proof.
  induction ds as [|d ds IH]; intros acc H; [exists acc; auto|]. inversion H as [|? ? [A B] H']; subst. cbn [results_of last_some].
  fold (member "error" d). fold (member "id" d). unfold result_for at 2, key_id.
  destruct (member "id" d) as [i|]; [|destruct (member "error" d); now apply IH].
  destruct (member "error" d) as [e|]; [now apply IH|]. specialize (A i eq_refl). apply key_hashable in A.
  destruct (key_of i) as [k'|]; [|congruence]. destruct (IH (dict_set key_eqb k' (JObj d) acc) H') as (rs & E & G). exists rs. split; auto.
  rewrite G, (get_set _ key_eqb_spec). now destruct (key_eqb k' k).
Qed.
(** Reading fails if a response is not well formed *)
Lemma errors_inv ds : forall acc es, errors_of acc ds = ROk es -> Forall (fun d => member "error" d <> None -> key_id d <> None) ds.
Proof.
  induction ds as [|d ds IH]; intros acc es; [constructor|]. cbn [errors_of]. fold (member "error" d). fold (member "id" d). unfold key_id.
  intros H. destruct (member "error" d) eqn:E.
  - destruct (member "id" d) as [i|] eqn:E2; try discriminate. destruct (key_of i) eqn:K; try discriminate.
    constructor; [rewrite E2, K; congruence|eauto].
  - constructor; [congruence|eauto].
Qed.
Lemma results_inv ds : forall acc rs, results_of acc ds = ROk rs -> Forall (fun d => member "error" d = None -> forall i, member "id" d = Some i -> hashable i) ds.
Proof.
  induction ds as [|d ds IH]; intros acc es; [constructor|]. cbn [results_of]. fold (member "error" d). fold (member "id" d).
  intros H. destruct (member "id" d) as [i|] eqn:E.
  - destruct (member "error" d) eqn:E2; [constructor; [congruence|eauto]|]. destruct (key_of i) eqn:K; try discriminate.
    constructor; [|eauto]. intros _ j Hj. assert (j = i) as -> by congruence. apply key_hashable. congruence.
  - destruct (member "error" d); (constructor; [congruence|eauto]).
Qed.
Lemma read_iff l b : snd (batch_read (Some (JArr l)) b) = ROk tt <-> Forall ok_response l.
Proof.
  split.
  - cbn [batch_read]. destruct (objects l) as [ds| |] eqn:O; cbn [rbind]; try discriminate. destruct (errors_of [] ds) as [es| |] eqn:E; cbn [rbind]; try discriminate.
    destruct (results_of [] ds) as [rs| |] eqn:R; try discriminate. intros _. apply objects_inv in O as ->. apply errors_inv in E. apply results_inv in R.
    rewrite Forall_map. rewrite Forall_forall in *. intros d I. exists d. split; auto. specialize (E d I). specialize (R d I). unfold key_id in E.
    split; [|destruct (member "id" d); [discriminate|intros X; now apply E in X]]. intros i Hi. destruct (member "error" d); [|auto].
    rewrite Hi in E. apply key_hashable. now apply E.
  - intros H. destruct (objects_ok l H) as (ds & O & _ & F). cbn [batch_read]. rewrite O. cbn [rbind].
    destruct (errors_get KNull ds [] F) as (es & E & _). destruct (results_get KNull ds [] F) as (rs & R & _). rewrite E. cbn [rbind]. now rewrite R.
Qed.
(** What a batch says after reading [l] *)
Lemma read_get l b b' k : batch_read (Some (JArr l)) b = (b', ROk tt) -> exists ds es rs, l = map JObj ds /\ Forall read_ok_obj ds /\
  b_errors b' = Some es /\ b_results b' = Some rs /\ b_calls b' = b_calls b /\ b_methods b' = b_methods b /\
  dict_get key_eqb k es = last_some (error_for k) ds None /\ dict_get key_eqb k rs = last_some (result_for k) ds None.
Proof.
  intros H. assert (F : Forall ok_response l) by (apply (read_iff l b); now rewrite H).
  destruct (objects_ok l F) as (ds & O & -> & F'). cbn [batch_read] in H. rewrite O in H. cbn [rbind] in H.
  destruct (errors_get k ds [] F') as (es & E & E'). destruct (results_get k ds [] F') as (rs & R & R'). rewrite E in H. cbn [rbind] in H.
  rewrite R in H. injection H as <-. exists ds, es, rs. cbn. auto 10.
Qed.
Lemma last_some_none {A B} (f : A -> option B) l : forall acc, Forall (fun x => f x = None) l -> last_some f l acc = acc.
Proof. induction l as [|x l IH]; cbn; intros acc H; auto. inversion H as [|? ? E H']; subst. rewrite E. auto. Qed.
Lemma last_some_app {A B} (f : A -> option B) l l' : forall acc, last_some f (l ++ l') acc = last_some f l' (last_some f l acc).
Proof. induction l as [|x l IH]; cbn; auto. Qed.
Lemma last_some_in {A B} (f : A -> option B) l y : last_some f l None = Some y -> exists x, In x l /\ f x = Some y.
Proof.
  assert (G : forall acc, last_some f l acc = Some y -> acc = Some y \/ exists x, In x l /\ f x = Some y).
  { induction l as [|x l IH]; cbn; intros acc H; auto. apply IH in H as [H|(z & I & E)]; [|right; eauto].
    destruct (f x) eqn:Ex; [|auto]. right. exists x. split; [auto|congruence]. }
  intros H. apply G in H as [H|H]; [discriminate|auto].
Qed.
Lemma last_some_mem {A B} (f : A -> option B) l x y : In x l -> f x = Some y -> last_some f l None <> None.
Proof.
  assert (G : forall l acc, acc <> None -> last_some f l acc <> None).
  { intros m. induction m as [|z m IH]; cbn; auto. intros acc H. apply IH. destruct (f z); congruence. }
  induction l as [|z l IH]; cbn; [intros []|]. intros [->|I] E; [rewrite E; apply G; discriminate|].
  destruct (f z); [apply G; discriminate|auto].
Qed.

Lemma key_id_responds i k d : key_of i = Some k -> (key_id d = Some k <-> responds i (JObj d) d).
Proof.
  intros K. unfold key_id, responds. split.
  - destruct (member "id" d) as [j|]; [|discriminate]. intros E. split; auto. exists j. split; auto. now apply (key_same i j k).
  - intros [_ (j & E & S0)]. rewrite E. now apply (key_same i j k).
Qed.
Lemma not_responds i k d : key_of i = Some k -> ~ responds i (JObj d) d -> error_for k d = None /\ result_for k d = None.
Proof.
  intros K N. rewrite <- (key_id_responds i k d K) in N. unfold error_for, result_for.
  destruct (key_id d) as [k'|]; [|destruct (member "error" d); auto]. destruct (key_eqb_spec k' k) as [->|]; [congruence|destruct (member "error" d); auto].
Qed.
Lemma split_objs l1 r l2 ds : l1 ++ r :: l2 = map JObj ds -> exists d1 d d2, ds = d1 ++ d :: d2 /\ l1 = map JObj d1 /\ r = JObj d /\ l2 = map JObj d2.
Proof.
  intros H. symmetry in H. apply map_eq_app in H as (d1 & d2 & -> & <- & H). apply map_eq_cons in H as (d & d3 & -> & <- & <-).
  exists d1, d, d3. auto.
Qed.
Lemma no_response_objs i k ds : key_of i = Some k -> no_response i (map JObj ds) ->
  Forall (fun d => error_for k d = None) ds /\ Forall (fun d => result_for k d = None) ds.
Proof.
  intros K N. rewrite !Forall_forall. split; intros d I; apply (not_responds i k d K); apply N; apply in_map; auto.
Qed.
Lemma err_reports b b' i k e m : methods_ok b -> b_methods b' = b_methods b -> key_of i = Some k ->
  dict_get key_eqb k (b_methods b) = Some m ->
  exists m, method_in (b_calls b) i m /\
          match e with
          | JObj e0 => plain_code e0 -> exists x, match dict_get key_eqb k (b_methods b') with
                              | Some m => @RRaise json (handle_error m e)
                              | None => RRaise (XPy EKey)
                              end = RRaise x /\ describes m e0 x
          | _ => exists x, match dict_get key_eqb k (b_methods b') with
                              | Some m => @RRaise json (handle_error m e)
                              | None => RRaise (XPy EKey)
                              end = RRaise x
          end.
Proof.
  intros H Em K G. exists m. rewrite Em, G. specialize (H i k K). rewrite G in H. split; auto.
  destruct e; try (eexists; reflexivity). intros P. eexists. split; [reflexivity|]. now apply error_described.
Qed.
(** Exactly one response has the id *)
Theorem batch_reports b b' l1 r l2 i d default : built b -> batch_read (Some (JArr (l1 ++ r :: l2))) b = (b', ROk tt) ->
  responds i r d -> no_response i (l1 ++ l2) -> (exists c i', In c (b_calls b) /\ id_of c = Some i' /\ same_id i i') -> hashable i ->
  reports b i default d (get_result b' i default).
Proof.
  intros Hb R Hd N (c & i' & Hc & Hi & S0) Hh. apply key_hashable in Hh. destruct (key_of i) as [k|] eqn:K; [clear Hh|congruence].
  destruct (read_get _ _ _ k R) as (ds & es & rs & E & F & Ee & Er & Ec & Em & Ge & Gr).
  apply split_objs in E as (d1 & d0 & d2 & -> & -> & -> & ->). destruct Hd as [[= <-] Hd]. assert (Hk : key_id d0 = Some k) by (apply (key_id_responds i k d0 K); split; auto).
  rewrite <- map_app in N. destruct (no_response_objs i k _ K N) as [Ne Nr]. apply Forall_app in Ne as [Ne1 Ne2]. apply Forall_app in Nr as [Nr1 Nr2].
  rewrite last_some_app in Ge, Gr. cbn [last_some] in Ge, Gr. rewrite (last_some_none _ d1) in Ge by auto. rewrite (last_some_none _ d2) in Ge by auto.
  rewrite (last_some_none _ d1) in Gr by auto. rewrite (last_some_none _ d2) in Gr by auto.
  unfold error_for in Ge. unfold result_for in Gr. rewrite Hk in Ge, Gr. destruct (key_eqb_spec k k) as [_|]; [|congruence].
  unfold get_result, reports. rewrite Er, K. destruct (member "error" d0) as [e|].
  - rewrite Gr, Ee, Ge. destruct default as [v|]; [reflexivity|]. assert (M := built_methods b Hb). pose proof (M i k K) as Mk.
    destruct (dict_get key_eqb k (b_methods b)) as [m|] eqn:G; [|destruct (Mk c i'); auto].
    eapply err_reports; eauto.
  - rewrite Gr. reflexivity.
Qed.
(** No response has the id *)
Theorem batch_unanswered b b' l i default : batch_read (Some (JArr l)) b = (b', ROk tt) -> no_response i l -> hashable i ->
  get_result b' i default = RRaise (XPy EKey).
Proof.
  intros R N Hh. apply key_hashable in Hh. destruct (key_of i) as [k|] eqn:K; [clear Hh|congruence].
  destruct (read_get _ _ _ k R) as (ds & es & rs & -> & F & Ee & Er & Ec & Em & Ge & Gr).
  destruct (no_response_objs i k _ K N) as [Ne Nr]. rewrite last_some_none in Ge by auto. rewrite last_some_none in Gr by auto.
  unfold get_result. now rewrite Er, K, Gr, Ee, Ge.
Qed.
(** Any number of responses has the id *)
Theorem batch_gives_given b b' l i default : batch_read (Some (JArr l)) b = (b', ROk tt) -> hashable i ->
  (exists d, In (JObj d) l /\ responds i (JObj d) d /\ member "error" d = None) <->
  (exists d, In (JObj d) l /\ responds i (JObj d) d /\ member "error" d = None /\ get_result b' i default = ROk (result_of d)).
Proof.
  intros R Hh. apply key_hashable in Hh. destruct (key_of i) as [k|] eqn:K; [clear Hh|congruence].
  destruct (read_get _ _ _ k R) as (ds & es & rs & -> & F & Ee & Er & Ec & Em & Ge & Gr). split; [|intros (d & A & B & C & _); exists d; auto].
  intros (d & I & Rd & En). apply in_map_iff in I as (d' & [= ->] & I). apply (key_id_responds i k d K) in Rd.
  assert (Q : result_for k d = Some (JObj d)).
  { unfold result_for. rewrite En, Rd. destruct (key_eqb_spec k k); congruence. }
  pose proof (last_some_mem _ _ _ _ I Q) as X. destruct (last_some (result_for k) ds None) as [j|] eqn:L; [|congruence].
  apply last_some_in in L as (d1 & I1 & Q1). unfold result_for in Q1. destruct (member "error" d1) eqn:E1; try discriminate.
  destruct (key_id d1) as [k1|] eqn:K1; try discriminate. destruct (key_eqb_spec k1 k) as [->|]; try discriminate. injection Q1 as <-.
  exists d1. split; [now apply in_map|]. split; [now apply (key_id_responds i k)|]. split; auto.
  unfold get_result. rewrite Er, K, Gr. reflexivity.
Qed.
Theorem batch_result_given b b' l i v : batch_read (Some (JArr l)) b = (b', ROk tt) -> get_result b' i None = ROk v ->
  exists d, In (JObj d) l /\ responds i (JObj d) d /\ member "error" d = None /\ v = result_of d.
Proof.
  intros R G. unfold get_result in G. destruct (b_results b') as [rs0|] eqn:Er0; try discriminate. destruct (key_of i) as [k|] eqn:K; try discriminate.
  destruct (read_get _ _ _ k R) as (ds & es & rs & -> & F & Ee & Er & Ec & Em & Ge & Gr). assert (rs0 = rs) as -> by congruence. rewrite Gr in G.
  destruct (last_some (result_for k) ds None) as [j|] eqn:L.
  - apply last_some_in in L as (d1 & I1 & Q1). unfold result_for in Q1. destruct (member "error" d1) eqn:E1; try discriminate.
    destruct (key_id d1) as [k1|] eqn:K1; try discriminate. destruct (key_eqb_spec k1 k) as [->|]; try discriminate. injection Q1 as <-.
    injection G as <-. exists d1. split; [now apply in_map|]. split; [now apply (key_id_responds i k)|]. auto.
  - rewrite Ee in G. destruct (dict_get key_eqb k es); try discriminate. destruct (dict_get key_eqb k (b_methods b')); discriminate.
Qed.
(** Permutation *)
Lemma last_some_perm {A B} (f : A -> option B) (l l' : list A) : Permutation l l' ->
  (forall p q x y, nth_error l p = Some x -> nth_error l q = Some y -> f x <> None -> f y <> None -> p = q) ->
  last_some f l None = last_some f l' None.
Proof.
  assert (S1 : forall (m : list A), Forall (fun x => f x = None) m \/ exists m1 x m2, m = m1 ++ x :: m2 /\ f x <> None /\ Forall (fun x => f x = None) m2).
  { induction m as [|x m IH] using rev_ind; [left; constructor|]. destruct (f x) eqn:E.
    - right. exists m, x, []. split; auto. split; [congruence|constructor].
    - destruct IH as [IH|(m1 & y & m2 & -> & A1 & A2)]; [left; apply Forall_app; auto|]. right. exists m1, y, (m2 ++ [x]).
      split; [now rewrite <- app_assoc|]. split; auto. apply Forall_app. auto. }
  intros P U. destruct (S1 l) as [H|(m1 & x & m2 & -> & Hx & H2)].
  - rewrite !last_some_none; auto. rewrite Forall_forall in *. intros x I. apply H. eapply Permutation_in; [apply Permutation_sym|]; eauto.
  - assert (H1 : Forall (fun x => f x = None) m1).
    { rewrite Forall_forall. intros y I. destruct (f y) eqn:E; auto. apply In_nth_error in I as (q & Hq). exfalso.
      assert (q < length m1) by (apply nth_error_Some; congruence).
      assert (q = length m1); [|lia]. apply (U q (length m1) y x); auto; [now rewrite nth_error_app1| |congruence].
      rewrite nth_error_app2 by lia. now rewrite Nat.sub_diag. }
    rewrite last_some_app. cbn [last_some]. rewrite (last_some_none f m2) by auto. rewrite (last_some_none f m1) by auto.
    assert (I : In x l') by (eapply Permutation_in; [exact P|apply in_elt]). apply in_split in I as (n1 & n2 & ->).
    apply Permutation_app_inv in P. assert (N : Forall (fun x => f x = None) (n1 ++ n2)).
    { rewrite Forall_forall. intros y I. assert (I' : In y (m1 ++ m2)) by (eapply Permutation_in; [apply Permutation_sym|]; eauto).
      rewrite Forall_forall in H1, H2. apply in_app_or in I' as [I'|I']; auto. }
    apply Forall_app in N as [N1 N2]. rewrite last_some_app. cbn [last_some]. rewrite (last_some_none f n2) by auto. now rewrite (last_some_none f n1) by auto.
Qed.
Theorem batch_order b l l' : Permutation l l' ->
  (snd (batch_read (Some (JArr l)) b) = ROk tt <-> snd (batch_read (Some (JArr l')) b) = ROk tt) /\
  forall b1 b2 i default, batch_read (Some (JArr l)) b = (b1, ROk tt) -> batch_read (Some (JArr l')) b = (b2, ROk tt) -> once i l ->
    get_result b1 i default = get_result b2 i default.
Proof.
  intros P. split.
  - rewrite !read_iff, !Forall_forall. split; intros H x I; apply H; eapply Permutation_in; [apply Permutation_sym| | |]; eauto.
  - intros b1 b2 i default R1 R2 O. unfold get_result. destruct (key_of i) as [k|] eqn:K.
    + destruct (read_get _ _ _ k R1) as (ds & es & rs & E & F & Ee & Er & Ec & Em & Ge & Gr).
      destruct (read_get _ _ _ k R2) as (ds2 & es2 & rs2 & E2 & F2 & Ee2 & Er2 & Ec2 & Em2 & Ge2 & Gr2).
      rewrite Er, Er2, Gr, Gr2, Ee, Ee2, Ge, Ge2, Em, Em2. subst l l'.
      assert (P' : Permutation ds ds2).
      { pose proof (Permutation_map (fun j => match j with JObj d => d | _ => [] end) P) as Q. rewrite !map_map in Q. cbn in Q. now rewrite !map_id in Q. }
      assert (U : forall p q x y, nth_error ds p = Some x -> nth_error ds q = Some y -> key_id x = Some k -> key_id y = Some k -> p = q).
      { intros p q x y A B C D. apply (O p q (JObj x) (JObj y) x y); try now apply map_nth_error. all: now apply (key_id_responds i k). }
      assert (KE : forall x, error_for k x <> None -> key_id x = Some k).
      { intros x. unfold error_for. destruct (member "error" x), (key_id x) as [k'|]; try congruence. destruct (key_eqb_spec k' k); congruence. }
      assert (KR : forall x, result_for k x <> None -> key_id x = Some k).
      { intros x. unfold result_for. destruct (member "error" x), (key_id x) as [k'|]; try congruence. destruct (key_eqb_spec k' k); congruence. }
      rewrite (last_some_perm (error_for k) ds ds2 P'), (last_some_perm (result_for k) ds ds2 P'); [reflexivity| |]; intros p q x y A B C D; eapply U; eauto.
    + destruct (read_get _ _ _ KNull R1) as (ds & es & rs & _ & _ & _ & Er & _). destruct (read_get _ _ _ KNull R2) as (ds2 & es2 & rs2 & _ & _ & _ & Er2 & _).
      now rewrite Er, Er2.
Qed.
