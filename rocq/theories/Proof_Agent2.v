(** * The agent's polling: failing scripts and whole polls *)
From Verif Require Import Py Py_lemmas Model_Path Model_Rpc Spec_Rpc Model_Agent Spec_Agent Proof_Agent.
From Verif Require Model_Tools.

(** ** C89 *)
Lemma grun_app net serial token l l' a : grun net serial token (l ++ l') a = grun net serial token l' (grun net serial token l a).
Proof. apply fold_left_app. Qed.
Lemma fails_idle net serial token n a : grun net serial token (repeat (GTags (Model_Tools.get_tag_list Model_Tools.Fails)) n) a = a.
Proof. induction n as [|n IH]; cbn [repeat]; [reflexivity|]. exact IH. Qed.
Theorem failing_script net serial token t0 l a n : a = grun net serial token l (agent0 t0) ->
  grun net serial token (repeat (GTags (Model_Tools.get_tag_list Model_Tools.Fails)) n) a = a /\
  forall tags, last_accepted net (w_sent (g_world a)) (Some (JArr (map JStr tags))) ->
    w_sent (g_world (grun net serial token (repeat (GTags (Model_Tools.get_tag_list Model_Tools.Fails)) n ++ [GTags (TagList tags)]) a)) = w_sent (g_world a).
Proof.
  intros H. split; [apply fails_idle|]. intros tags L. rewrite grun_app, fails_idle.
  now apply (proj1 (tags_sent net serial token t0 l a tags H)).
Qed.
Theorem script_removed net serial token t0 l a : a = grun net serial token l (agent0 t0) ->
  ~ last_accepted net (w_sent (g_world a)) (Some (JArr [])) ->
  w_sent (g_world (gstep net serial token a (GTags (Model_Tools.get_tag_list Model_Tools.Absent)))) = tags_request serial token [] :: w_sent (g_world a).
Proof. intros H N. now apply (proj2 (tags_sent net serial token t0 l a [] H)). Qed.

(** ** C90 *)
Theorem poll_does net serial token e a : snd (poll net serial token e a) <> RHang ->
  fst (poll net serial token e a) = grun net serial token [GDisk (e_now e) (e_disk e); GTags (e_tags e); GSync (e_sync_id e) (e_meta e)] a.
Proof.
  unfold poll, grun. cbn [fold_left gstep]. destruct (disk_poll net serial token (e_now e) (e_disk e) a) as [a1 [x1|x1|]]; cbn [fst snd].
  3: { intros H. now destruct H. }
  all: destruct (tag_poll net serial token (e_tags e) a1) as [a2 [x2|x2|]]; cbn [fst snd]; auto; intros H; now destruct H.
Qed.
Theorem first_poll serial token e total used tags m : e_disk e = Some (total, used) -> e_tags e = TagList tags -> e_meta e = Some m ->
  w_sent (g_world (fst (poll (fun _ => Unreachable) serial token e (agent0 (e_now e))))) =
    [sync_request serial token (e_sync_id e) m; tags_request serial token tags; disk_request serial token total used].
Proof.
  intros D Tg Mt. rewrite poll_does.
  - rewrite D, Tg, Mt. unfold grun. cbn [fold_left gstep].
    assert (E : fst (disk_poll (fun _ => Unreachable) serial token (e_now e) (Some (total, used)) (agent0 (e_now e))) =
                Agent (World 1 [disk_request serial token total used]) (e_now e + disk_poll_rate) None false).
    { unfold disk_poll. cbn [agent0 g_next]. rewrite Z.leb_refl. reflexivity. }
    rewrite E. reflexivity.
  - rewrite poll_completes; [discriminate..|rewrite Tg; discriminate].
Qed.
