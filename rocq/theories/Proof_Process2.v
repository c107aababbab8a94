(** * More about terminal processes (C38) *)
From Verif Require Import Py Model_Process Spec_Process Proof_Process.

Definition known (st : pst) : Prop := kid st <> Unborn -> ph st = Forked \/ pid st = true.
Lemma on_data_known d ws st : ph (on_data d ws st) = ph st /\ pid (on_data d ws st) = pid st /\ kid (on_data d ws st) = kid st.
Proof.
  unfold on_data. destruct (fd_open st).
  - destruct (write_loop (length d) 0 ws d) as [acc ok]. destruct ok; cbn; auto.
    unfold ask_close; cbn. destruct (chan_closed st); cbn; auto.
  - unfold ask_close. destruct (fd st), d, (chan_closed st); cbn; auto.
Qed.
Lemma close_known k t st : ph (close k t st) = ph st /\ pid (close k t st) = pid st /\ kid (close k t st) = kid st.
Proof. unfold close. destruct (negb (closed st) && pid st), k, t; cbn; auto. Qed.
Lemma act_known i k w st : ph (act i k w st) = ph st /\ pid (act i k w st) = pid st /\ kid (act i k w st) = kid st.
Proof. unfold act. destruct (negb (w_sent_kill w) && (kill_time <=? now st - w_start w)%Z), k; cbn; auto. Qed.
Lemma known_step e st : known st -> known (pstep e st).
Proof.
  unfold known. intros H. destruct e; cbn [pstep].
  1-10: solve [destruct (ph st) eqn:P, (kid st) eqn:K; try destruct ok; try destruct send_ok; try destruct hangup;
    cbn; rewrite ?P, ?K; intros; auto; destruct H as [H|H]; auto; congruence].
  - destruct (chan_closed st); auto. destruct (on_data_known d ws st) as (-> & -> & ->). exact H.
  - destruct (chan_closed st); auto. destruct (close_known kill_ok thread_ok (with_chan_closed st)) as (-> & -> & ->). exact H.
  - destruct (close_known kill_ok thread_ok st) as (-> & -> & ->). exact H.
  - destruct (nth_error (waiters st) i) as [w|]; auto. destruct (w_phase w); exact H.
  - destruct (nth_error (waiters st) i) as [w|]; auto. destruct (w_phase w); auto.
    destruct (kid st) eqn:K; cbn; rewrite ?K; auto; intros _; apply H; discriminate.
  - destruct (nth_error (waiters st) i) as [w|]; auto. destruct (w_phase w); auto.
    destruct (act_known i kill_ok w st) as (-> & -> & ->). exact H.
Qed.
Lemma known_run evs : forall st, known st -> known (prun evs st).
Proof. induction evs as [|e evs IH]; intros st H; [exact H|]. cbn. apply IH, known_step, H. Qed.

Lemma hup_after_spawn t0 evs t : let st := prun evs (pinit t0) in
  kid st <> Unborn -> ph st <> Forked -> chan_closed st = false -> closed st = false ->
  In (SIGHUP, now st, kid st) (signals (pstep (CloseChannel true t) st)).
Proof.
  intros st K P CC C. apply hup_on_close; auto.
  destruct (known_run evs (pinit t0) (fun X => match X eq_refl with end) K); [contradiction|auto].
Qed.
