(** * More about the command service (C31): what is reported readable is forwarded *)
From Verif Require Import Py Model_Services Spec_Services Proof_Services Proof_Services2.

Definition got (st : sst) : bytes := concat (messages (sent st)).
Lemma got_snoc p c o l : got (SSt p c (o :: l)) = got (SSt 0 false l) ++ match o with OData d => d | _ => [] end.
Proof. unfold got, sent, messages. cbn [s_out rev]. rewrite flat_map_app, concat_app. destruct o; cbn; now rewrite ?app_nil_r. Qed.
Lemma got_same p c p' c' l : got (SSt p c l) = got (SSt p' c' l).
Proof. reflexivity. Qed.
Lemma firstn_add {A} a b (l : list A) : firstn (a + b) l = firstn a l ++ firstn b (skipn a l).
Proof. revert l; induction a as [|a IH]; intros l; [reflexivity|]. destruct l; cbn; [now rewrite firstn_nil|]. now rewrite IH. Qed.
Lemma skipn_add {A} a b (l : list A) : skipn (a + b) l = skipn b (skipn a l).
Proof. revert l; induction a as [|a IH]; intros l; [reflexivity|]. destruct l; cbn; [now rewrite skipn_nil|]. apply IH. Qed.

Lemma handle_calm w chunk : calm w -> 0 < chunk -> forall l rest st, s_closed st = false ->
  Forall (fun e => snd (fst e) = POLLIN) l ->
  exists st' rest' more, handle_events w chunk l rest st = (st', Ok (rest', more)) /\ s_closed st' = false /\
    got st' = got st ++ firstn (offered_by chunk l) rest /\
    (more = true -> rest' = skipn (offered_by chunk l) rest) /\ (more = false -> skipn (offered_by chunk l) rest = []).
Proof.
  intros H Hc. induction l as [|[[b mask] n] l IH]; intros rest st C F.
  - exists st, rest, true. unfold offered_by. cbn. rewrite app_nil_r. repeat split; auto. discriminate.
  - inversion F as [|? ? Hm F']; subst. cbn in Hm. subst mask.
    destruct st as [p c o]; cbn in C; subst c.
    cbn [handle_events]. change (readable POLLIN) with true. change (failed POLLIN) with false. cbn iota.
    unfold bindM, os_op, bindM, tick. cbn [s_pos s_closed s_out]. rewrite (H p). cbn [a_closed a_os a_send orb]. unfold ret.
    unfold offered_by. cbn [map list_sum fold_right fst snd]. fold (list_sum). change (fold_right Nat.add 0) with list_sum.
    fold (offered_by chunk l). destruct b.
    + destruct (firstn (Nat.min chunk (S n)) rest) as [|x d] eqn:E.
      * assert (rest = []) as ->.
        { destruct rest; [reflexivity|]. destruct chunk; [lia|]. discriminate E. }
        eexists _, _, _. split; [reflexivity|]. rewrite firstn_nil, skipn_nil, app_nil_r. repeat split; auto.
      * unfold ch_send, bindM, tick. cbn [s_pos s_closed s_out]. rewrite (H (S p)). cbn [a_closed a_os a_send orb s_closed].
        unfold emit. cbn [s_pos s_closed s_out].
        destruct (IH (skipn (Nat.min chunk (S n)) rest) (SSt (S (S p)) false (OData (x :: d) :: o)) eq_refl F')
          as (st' & rest' & more & E1 & C1 & G1 & M1 & M2).
        exists st', rest', more. rewrite E1. split; [reflexivity|]. split; [exact C1|].
        rewrite firstn_add, skipn_add, G1, got_snoc, E, <- app_assoc. repeat split; auto.
    + destruct (IH rest (SSt (S p) false o) eq_refl F') as (st' & rest' & more & E1 & C1 & G1 & M1 & M2).
      exists st', rest', more. rewrite E1. cbn [Nat.add]. repeat split; auto.
Qed.

Lemma loop_calm w chunk : calm w -> 0 < chunk -> forall polls rest st, s_closed st = false -> Forall only_ready polls ->
  exists st' r, command_loop w chunk polls rest st = (st', Ok r) /\ s_closed st' = false /\
    got st' = got st ++ firstn (offered chunk polls) rest.
Proof.
  intros H Hc. induction polls as [|[|l] polls IH]; intros rest st C F.
  - exists st, None. cbn. rewrite app_nil_r. auto.
  - inversion F; contradiction.
  - inversion F as [|? ? F1 F2]; subst. cbn [command_loop]. unfold bindM at 1.
    destruct (handle_calm w chunk H Hc l rest st C F1) as (st1 & rest1 & more & E1 & C1 & G1 & M1 & M2). rewrite E1.
    unfold bindM at 1, is_closed, bindM, tick. rewrite (H (s_pos st1)), C1. cbn [a_closed orb s_closed].
    unfold offered. cbn [map list_sum fold_right]. change (fold_right Nat.add 0) with list_sum. fold (offered chunk polls).
    destruct more; cbn [negb].
    + rewrite (M1 eq_refl).
      destruct (IH (skipn (offered_by chunk l) rest) (SSt (S (s_pos st1)) false (s_out st1)) eq_refl F2) as (st' & r & E & C' & G).
      exists st', r. rewrite E. repeat split; auto. rewrite G, firstn_add, app_assoc. f_equal. exact G1.
    + exists (SSt (S (s_pos st1)) false (s_out st1)), (Some tt). repeat split; auto.
      rewrite firstn_add, (M2 eq_refl), firstn_nil, app_nil_r. exact G1.
Qed.

Lemma ch_send_calm w m st : calm w -> s_closed st = false ->
  ch_send w m st = (SSt (S (s_pos st)) false (m :: s_out st), Ok tt).
Proof. intros H C. unfold ch_send, bindM, tick. rewrite (H (s_pos st)), C. reflexivity. Qed.
Lemma forwards w chunk polls stdout rc1 rc2 st r : calm w -> 0 < chunk -> Forall only_ready polls ->
  command_run w chunk polls stdout rc1 rc2 sinit = (st, r) ->
  concat (messages (sent st)) = firstn (offered chunk polls) stdout.
Proof.
  intros H Hc F. change (concat (messages (sent st))) with (got st).
  unfold command_run, tryM, command_run_inner, bindM at 1.
  assert (os_op w sinit = (SSt 1 false [], Ok tt)) as -> by (unfold os_op, bindM, tick; cbn; rewrite (H 0); reflexivity).
  unfold finallyO, tryM.
  destruct (loop_calm w chunk H Hc polls stdout (SSt 1 false []) eq_refl F) as (st1 & r1 & E & C & G). rewrite E.
  destruct r1 as [[]|].
  2:{ intros [= <- <-]. exact G. }
  unfold finallyM, ret, command_finish, bindM. rewrite ch_send_calm by auto. rewrite ch_send_calm by auto. cbn [s_pos s_out].
  destruct rc2.
  - intros [= <- <-]. rewrite !got_snoc, !app_nil_r. destruct st1; exact G.
  - unfold emit, os_op, bindM, tick, tryM. cbn [s_pos s_closed s_out]. rewrite (H (S (S (s_pos st1)))). cbn.
    intros [= <- <-]. rewrite !got_snoc, !app_nil_r. destruct st1; exact G.
Qed.
