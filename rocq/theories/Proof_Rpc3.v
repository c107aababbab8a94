(** * JSON-RPC: how calls end, notifications, and checks of batches *)
From Verif Require Import Py Py_lemmas Model_Path Model_Rpc Spec_Rpc Proof_Rpc Proof_Rpc2.

(** ** C61 *)
Lemma ours_iff id d : ours id d <->
  exists i, member "jsonrpc" d = Some (JStr (T "2.0")) /\ member "id" d = Some i /\ key_of i = Some (KNum id).
Proof.
  split.
  - intros (A & i & B & C). apply key_number in C. eauto.
  - intros (i & A & B & C). apply key_number in C. split; eauto.
Qed.
Lemma read_ends m id j : call_ends m id (Answer (Some j)) (read_response m id j).
Proof.
  destruct j as [| | | | | l|d].
  1-6: unfold read_response; destruct (contains (T "jsonrpc") _) as [[]|] eqn:C1; [destruct (contains (T "id") _) as [[]|] eqn:C2| |];
    apply E_no_object; auto; discriminate.
  assert (D : ours id d \/ ~ ours id d /\ read_response m id (JObj d) = RRaise XProtocol).
  { rewrite ours_iff. unfold read_response. rewrite !contains_obj.
    fold (member "jsonrpc" d). fold (member "id" d). fold (member "error" d).
    destruct (member "jsonrpc" d) as [v|]; [|right; split; [intros (i & A & _); discriminate|reflexivity]].
    destruct (member "id" d) as [i|]; [|right; split; [intros (i & _ & A & _); discriminate|reflexivity]].
    destruct v as [| | | |t| |]; try (right; split; [intros (i' & A & _); discriminate|reflexivity]).
    destruct (text_eqb t (T "2.0")) eqn:Et; [apply text_eqb_eq in Et as ->|right; split; [|reflexivity]; intros (i' & A & _)].
    2: { injection A as ->. rewrite text_eqb_refl in Et. discriminate. }
    destruct (key_of i) as [k|] eqn:K; [|right; split; [|reflexivity]; intros (i' & _ & [= <-] & A); congruence].
    destruct k as [|z| | |]; try (right; split; [|reflexivity]; intros (i' & _ & [= <-] & A); congruence).
    destruct (Z.eqb_spec z id) as [->|N]; [left; eauto|]. right. split; [|reflexivity]. intros (i' & _ & [= <-] & A). congruence. }
  destruct D as [O|[O ->]]; [|now apply E_not_ours].
  pose proof O as (i & A & B & K)%ours_iff. unfold read_response. rewrite !contains_obj.
  fold (member "jsonrpc" d). fold (member "id" d). fold (member "error" d). rewrite A, B, text_eqb_refl, K, Z.eqb_refl.
  destruct (member "error" d) as [e|] eqn:E; [|now apply E_result].
  destruct e as [| | | | | |e]; try (eapply E_strange_error; [exact O|exact E|discriminate]).
  destruct (key_of (the (member "code" e) JNull)) as [k|] eqn:Kc.
  - apply (E_error m id d e); auto; [|apply error_described]; apply key_hashable; congruence.
  - assert (P : ~ plain_code e) by (intros H; apply key_hashable in H; congruence). rewrite error_bad_code by auto. now apply (E_strange_code m id d e).
Qed.
Theorem how_call_ends net m p w : call_ends m (w_id w + 1) (answer_to net w) (snd (call net m p w)).
Proof.
  unfold call, answer_to. cbn [new_call_id send snd w_sent]. destruct (net _) as [| |[j|]]; cbn [rbind]; try constructor.
  cbn [w_id]. apply read_ends.
Qed.
(** The answer settles how a call ends, but for answers that are no objects. *)
Theorem call_ends_det m id r x y : call_ends m id r x -> call_ends m id r y -> (forall j, r = Answer (Some j) -> exists d, j = JObj d) -> x = y.
Proof.
  intros A B O. destruct A; inversion B; subst; auto; try congruence;
    try (destruct (O _ eq_refl) as [d0 ->]; exfalso; eapply H; reflexivity);
    try (exfalso; match goal with H : forall d, JObj _ <> JObj d |- _ => eapply H; reflexivity end);
    try tauto.
  - match goal with |- RRaise ?x = RRaise ?y => enough (x = y) by congruence end. assert (e0 = e) as -> by congruence. eapply describes_det; eauto.
Qed.

(** ** C87 *)
Theorem notify_sends net m p w : fst (notify net m p w) = World (w_id w) (wire_notification m p :: w_sent w).
Proof. reflexivity. Qed.
Theorem notify_ends net m p w : snd (notify net m p w) =
  match answer_to net w with Unreachable => RRaise XUnreachable | Silent => RHang | Answer _ => ROk tt end.
Proof. unfold notify, answer_to. cbn [send snd]. now destruct (net _). Qed.

(** ** C88 *)
Lemma result_iff b b' l i : batch_read (Some (JArr l)) b = (b', ROk tt) -> (exists v, get_result b' i None = ROk v) <-> result_in i l.
Proof.
  intros R. split.
  - intros (v & G). destruct (batch_result_given _ _ _ _ _ R G) as (d & A & B & C & _). exists d. auto.
  - intros (d & A & B & C). destruct (key_of i) as [k|] eqn:K.
    + assert (Hh : hashable i) by (apply key_hashable; congruence). destruct (proj1 (batch_gives_given _ _ _ i None R Hh)) as (d' & _ & _ & _ & G); [exists d; auto|].
      eauto.
    + exfalso. assert (F : Forall ok_response l) by (apply (read_iff l b); now rewrite R). rewrite Forall_forall in F.
      destruct (F _ A) as (d0 & [= <-] & Hh & _). destruct B as [_ (i' & E & [<-|(z & N & _)])].
      * apply Hh, key_hashable in E. congruence.
      * apply key_number in N. congruence.
Qed.
Lemma get_no_hang b i default : get_result b i default <> RHang.
Proof. unfold get_result. repeat match goal with |- (match ?x with _ => _ end) <> _ => destruct x; try discriminate end. Qed.
Theorem check_iff net w b w' b' l ids : answered net w l -> batch_send net w b = (w', (b', ROk tt)) ->
  (check b' ids = ROk tt <-> Forall (fun i => result_in i l) ids) /\
  (forall x, check b' ids = RRaise x <->
     exists before i after, ids = before ++ i :: after /\ Forall (fun i => result_in i l) before /\ get_result b' i None = RRaise x).
Proof.
  intros A E. apply (f_equal snd) in E. rewrite (send_read _ _ _ _ A) in E. cbn [snd] in E. induction ids as [|i ids IH].
  - split; [split; constructor|]. intros x. split; [discriminate|]. intros ([|? ?] & ? & ? & H & _); discriminate.
  - pose proof (result_iff b b' l i E) as R. cbn [check]. destruct (get_result b' i None) as [v|e|] eqn:G; cbn [rbind].
    + assert (P : result_in i l) by (apply R; eauto). destruct IH as [IH1 IH2]. split.
      * rewrite IH1. split; [intros; now constructor|intros H; now inversion H].
      * intros x. rewrite IH2. split.
        -- intros (before & j & after & -> & F & Q). exists (i :: before), j, after. split; auto.
        -- intros ([|i' before] & j & after & H & F & Q); [injection H as H _; congruence|]. injection H as <- H. exists before, j, after. split; auto. split; auto. now inversion F.
    + assert (P : ~ result_in i l) by (intros H; apply R in H as [v H]; congruence). split.
      * split; [discriminate|]. intros H. inversion H; subst. tauto.
      * intros x. split; [intros [= <-]; exists [], i, ids; auto|]. intros ([|i' before] & j & after & H & F & Q); [injection H as H _; congruence|]. injection H as <- H. inversion F; subst. tauto.
    + destruct (get_no_hang _ _ _ G).
Qed.
