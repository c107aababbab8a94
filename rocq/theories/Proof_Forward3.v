(** * More about port forwarding: nothing before the connection, shutting down, failures *)
From Verif Require Import Py Py_lemmas Model_Forward Spec_Forward Proof_Forward Proof_Forward2.

(** ** C33 *)
Definition unsent (st : cst) : Prop :=
  socket st = false -> delivered st = [] /\
    match m_pc st with MSend _ _ | MDel _ _ => False | _ => True end /\
    match c_pc st with CSend _ | CDel _ => False | _ => True end.
Lemma unsent_step a st : unsent st -> unsent (cstep a st).
Proof.
  unfold unsent. destruct st as [mp cp lk so bu cc sh ar de sf].
  cbn [m_pc c_pc lock socket buffer chan_closed shut arrived delivered send_failed]. intros H.
  destruct so.
  { intros X. exfalso. revert X.
    destruct a as [d| |s|ok|s]; cbn [cstep]; unfold step_m, step_c, set_m, set_c, set_buffer, set_socket, set_shut, sendall;
    cbn [m_pc c_pc lock socket buffer chan_closed];
    destruct mp as [|d'|d'| |b|b [|x rest]|b f | |], lk; destruct cp as [| | | |[]| | | |]; try (destruct cc);
    cbn [socket]; discriminate. }
  destruct (H eq_refl) as (D & M & Cc). subst de.
  destruct a as [d| |s|ok|s]; cbn [cstep]; unfold step_m, step_c, set_m, set_c, set_buffer, set_socket, set_shut, sendall;
    cbn [m_pc c_pc lock socket buffer chan_closed];
    destruct mp as [|d'|d'| |[]|b rest|b f | |], lk; try contradiction; destruct cp as [| | | |rest'|f|[]| |]; try contradiction;
    try (destruct cc); try (destruct ok);
    cbn [socket delivered m_pc c_pc]; intros; try discriminate; auto.
Qed.
Lemma unsent_run l : unsent (crun l cinit).
Proof.
  assert (G : forall l st, unsent st -> unsent (crun l st)).
  { clear l. induction l as [|a l IH]; intros st H; [exact H|]. cbn. apply IH, unsent_step, H. }
  apply G. intros _. cbn. auto.
Qed.
Lemma nothing_before l : socket (crun l cinit) = false -> delivered (crun l cinit) = [].
Proof. intros H. now destruct (unsent_run l H). Qed.

(** The channel was closed after the connection was made: the socket is shut down, or the
    m2m thread is on its way to do so. *)
Definition shuts (st : cst) : Prop :=
  chan_closed st = true -> c_pc st = CConnected ->
  shut st = true \/ match m_pc st with MClose | MFlush true | MSend true _ | MDel true false | MShut => True | _ => False end.
Lemma shuts_step a st : inv st -> close_ok st -> result a = None -> (a = Closes -> c_pc st = CConnected \/ c_pc st = CFailed) ->
  shuts st -> shuts (cstep a st).
Proof.
  intros I (F & Hc & _ & H4 & H5 & _) R L S. pose proof (i_l _ I) as Il. pose proof (i_m _ I) as Im. pose proof (i_c _ I) as Ic. clear I.
  unfold shuts in *.
  destruct st as [mp cp lk so bu cc sh ar de sf]; cbn [m_pc c_pc lock socket buffer chan_closed shut arrived delivered send_failed] in *.
  subst sf.
  destruct a as [d| |s|ok|s]; cbn in R; subst; cbn [cstep]; unfold step_m, step_c, set_m, set_c, set_buffer, set_socket, set_shut, sendall, effective;
    cbn [m_pc c_pc lock socket buffer chan_closed shut].
  - destruct mp, cc; cbn [m_pc c_pc chan_closed shut]; auto; try discriminate.
  - destruct mp, cc; cbn [m_pc c_pc chan_closed shut]; auto.
  - destruct cc; [|destruct mp as [|d'|d'| |[]|[] [|x rest]|[] [] | |], lk, so, sh; cbn [m_pc c_pc chan_closed shut]; intros X; discriminate X].
    destruct (Hc eq_refl) as [->| ->]; cbn [linked] in Il.
    2:{ destruct mp as [|d'|d'| |[]|[] [|x rest]|[] [] | |], lk, so, sh; cbn [m_pc c_pc chan_closed shut]; intros _ X; discriminate X. }
    rewrite (Il eq_refl) in *. specialize (S eq_refl eq_refl).
    destruct mp as [|d'|d'| |[]|[] [|x rest]|[] [] | |], lk, sh; cbn [m_pc c_pc chan_closed shut]; intros; auto;
      try discriminate; destruct S as [S|S]; auto; try discriminate; contradiction.
  - destruct cp; cbn [m_pc c_pc chan_closed shut]; auto. destruct ok; intros _ X; discriminate X.
  - destruct cc; [|destruct cp as [| | | |[]| | | |], lk, so, sh; cbn [m_pc c_pc chan_closed shut]; intros X; discriminate X].
    destruct (Hc eq_refl) as [->| ->]; destruct lk; cbn [m_pc c_pc chan_closed shut]; auto.
Qed.
Lemma close_shuts l : no_failure l -> late_close l cinit -> settled (crun l cinit) -> chan_closed (crun l cinit) = true ->
  shut (crun l cinit) = true.
Proof.
  assert (G : forall l st, inv st -> close_ok st -> shuts st -> no_failure l -> late_close l st -> shuts (crun l st)).
  { clear l. induction l as [|a l IH]; intros st I K S N L; [exact S|]. cbn. inversion N; subst. destruct L as [L1 L2].
    apply IH; auto; [now apply inv_step|now apply close_ok_step|now apply shuts_step]. }
  intros N L [M Cc] X.
  destruct (G l cinit) as [E|E]; auto.
  - apply inv_init.
  - repeat split; cbn; auto; discriminate.
  - intros E; discriminate E.
  - now rewrite M in E.
Qed.

(** ** C35 *)
Definition goes (chunk : nat) (i : nat) (a : oaction) (n : net) (c : conn) : Prop :=
  exists c', nth_error (conns (ostep chunk a n)) i = Some c' /\ o_pc c' = OLeaving /\ o_closed c' = o_closed c /\ o_asked c' = o_asked c.
Lemma leaves chunk i a n c e : nth_error (conns n) i = Some c -> goes chunk i a n c -> e <> 0%Z ->
  exists c', nth_error (conns (orun chunk [a; Leaves i e] n)) i = Some c' /\ o_pc c' = OGone /\
    (o_closed c = false -> o_asked c' = S (o_asked c)).
Proof.
  intros E (c1 & E1 & P & K & A) He. cbn [orun fold_left]. unfold ostep at 1. rewrite E1, P. cbn [conns].
  rewrite upd_same by (exact (nth_lt _ _ _ E1)). eexists; split; [reflexivity|]. cbn. split; auto.
  intros X. rewrite K, A, X. destruct (Z.eqb_spec e 0); [congruence|reflexivity].
Qed.
Lemma failure_ends chunk i n c e : nth_error (conns n) i = Some c -> e <> 0%Z ->
  (forall a, (o_pc c = OConnecting /\ a = OConnects i false) \/ (o_pc c = OPolling /\ a = Polls i PollFails) \/
             (o_pc c = OPolling /\ o_closed c = true /\ exists l, a = Polls i (PollResult l)) ->
   exists c', nth_error (conns (orun chunk [a; Leaves i e] n)) i = Some c' /\ o_pc c' = OGone /\
     (o_closed c = false -> o_asked c' = S (o_asked c))).
Proof.
  intros E He a H. apply leaves; auto. assert (L := nth_lt _ _ _ E).
  destruct H as [[P ->]|[[P ->]|[P [K [l ->]]]]]; unfold goes, ostep; rewrite E, P; [| |rewrite K];
    cbn [conns]; rewrite upd_same by assumption; eexists; (split; [reflexivity|]); cbn; auto.
Qed.
