From Verif Require Import Py Py_lemmas Model_Forward Spec_Forward.

(** ** Inbound *)
Definition m_crit (p : mpc) : bool := match p with MIdle | MData _ | MClose => false | _ => true end.
Definition c_crit (p : cpc) : bool := match p with CFlush | CSend _ | CDel _ | CRelease _ => true | _ => false end.
Definition cpart (st : cst) : bytes :=
  match c_pc st with CSend r => concat r | CDel _ => [] | _ => concat (buffer st) end.
Definition pend (st : cst) : bytes :=
  match m_pc st with
  | MSend _ r => concat r
  | MDel _ _ => []
  | MData d | MAppend d => cpart st ++ d
  | _ => cpart st
  end.
Definition linked (p : cpc) : bool := match p with CLock | CFlush | CSend _ | CDel _ | CRelease _ | CConnected => true | _ => false end.
Definition flushed (p : cpc) : bool := match p with CRelease _ | CConnected => true | _ => false end.
Definition m_dirty (p : mpc) : bool := match p with MFlush _ | MSend _ _ | MDel _ _ => true | _ => false end.

Record inv (st : cst) : Prop := Inv {
  i_m : m_crit (m_pc st) = match lock st with M2M => true | _ => false end;
  i_c : c_crit (c_pc st) = match lock st with Conn => true | _ => false end;
  i_s : send_failed st = false -> socket st = linked (c_pc st);
  i_l : linked (c_pc st) = true -> socket st = true;
  i_f : match c_pc st with CDel true | CRelease true => send_failed st = true | _ => True end;
  i_acct : send_failed st = false -> concat (arrived st) = delivered st ++ pend st;
  i_buf : send_failed st = false -> flushed (c_pc st) = true -> m_dirty (m_pc st) = false -> buffer st = [] }.

Lemma inv_init : inv cinit.
Proof. constructor; reflexivity || discriminate || auto. Qed.
Lemma inv_step a st : inv st -> inv (cstep a st).
Proof.
  intros [Im Ic Is Il If Ia Ib].
  destruct st as [mp cp lk so bu cc sh ar de sf].
  cbn [m_pc c_pc lock socket buffer chan_closed shut arrived delivered send_failed] in *.
  unfold pend, cpart in *.
  destruct a as [d| |s|ok|s]; cbn [cstep step_m step_c m_pc c_pc lock chan_closed socket buffer];
    unfold step_m, step_c, set_m, set_c, set_buffer, set_socket, set_shut, sendall, effective;
    cbn [m_pc c_pc lock socket buffer chan_closed shut arrived delivered send_failed];
    destruct mp; cbn [m_crit] in Im; destruct lk; try discriminate Im;
    destruct cp; cbn [c_crit] in Ic; try discriminate Ic;
    cbn [linked flushed m_dirty m_pc c_pc buffer] in *;
    repeat match goal with
    | |- context[if ?b then _ else _] => destruct b eqn:?
    | |- context[match ?x with _ => _ end] => is_var x; destruct x
    end;
    (constructor; unfold pend, cpart;
      cbn [m_pc c_pc lock socket buffer chan_closed shut arrived delivered send_failed m_crit c_crit linked flushed m_dirty];
      intros; try reflexivity; try discriminate; try assumption; auto;
      try (rewrite ?orb_false_r, ?orb_true_r in *; try discriminate; 
           rewrite ?concat_app, ?Ia by assumption; cbn [concat]; rewrite ?concat_app; cbn [concat]; rewrite ?app_nil_r, <- ?app_assoc; auto; fail)).
  all: try (rewrite ?orb_false_r, ?orb_true_r in *; discriminate).
  all: try (specialize (Is ltac:(assumption)); congruence).
  all: try congruence.
Qed.
Lemma inv_run l st : inv st -> inv (crun l st).
Proof. revert st; induction l as [|a l IH]; intros st H; [exact H|]; cbn; apply IH, inv_step, H. Qed.
Lemma crun_app l1 l2 st : crun (l1 ++ l2) st = crun l2 (crun l1 st).
Proof. apply fold_left_app. Qed.

Lemma in_order l :
  let st := crun l cinit in
  send_failed st = false ->
  is_prefix (delivered st) (concat (arrived st)) /\
  (settled st -> delivered st = concat (arrived st)).
Proof.
  intros st Hf. pose proof (inv_run l _ inv_init) as I. fold st in I. split.
  - eexists. apply (i_acct _ I Hf).
  - intros [H1 H2]. rewrite (i_acct _ I Hf). unfold pend, cpart. rewrite H1, H2.
    rewrite (i_buf _ I Hf); rewrite ?H1, ?H2; auto. cbn. now rewrite app_nil_r.
Qed.

(** One step changes the delivered data only by appending *)
Lemma step_arrived a st : exists r, arrived (cstep a st) = arrived st ++ r.
Proof.
  destruct a as [d| |s|ok|s]; cbn; unfold step_m, step_c, set_m, set_c, set_buffer, set_socket, set_shut, sendall;
  destruct st as [mp cp lk so bu cc sh ar de sf]; cbn [m_pc c_pc lock socket buffer chan_closed shut arrived delivered send_failed];
  destruct mp; try destruct lk; destruct cp;
  repeat match goal with
    | |- context[if ?b then _ else _] => destruct b
    | |- context[match ?x with _ => _ end] => is_var x; destruct x
    end; cbn [arrived]; try (exists []; symmetry; apply app_nil_r); eexists; reflexivity.
Qed.
Lemma eff0 st : effective st (Some 0) = Some 0.
Proof. unfold effective; now destruct (shut st). Qed.
Lemma step_broken a st : send_failed st = true -> result a = Some 0 ->
  send_failed (cstep a st) = true /\ delivered (cstep a st) = delivered st.
Proof.
  intros Hf Hr. destruct a as [d| |s|ok|s]; try discriminate Hr; cbn in Hr; subst s; cbn [cstep]; unfold step_m, step_c; rewrite eff0;
  destruct st as [mp cp lk so bu cc sh ar de sf]; cbn [send_failed] in Hf; subst sf;
  cbn [m_pc c_pc lock socket buffer]; unfold set_m, set_c, set_buffer, set_socket, set_shut, sendall;
  [destruct mp|destruct cp]; try destruct lk;
  repeat match goal with
    | |- context[if ?b then _ else _] => destruct b
    | |- context[match ?x with _ => _ end] => is_var x; destruct x
    end; cbn [delivered send_failed firstn]; rewrite ?app_nil_r; auto.
Qed.
(** A failing step from a state in which all is well leaves a prefix *)
Lemma step_prefix a st : inv st -> send_failed st = false -> is_prefix (delivered (cstep a st)) (concat (arrived (cstep a st))).
Proof.
  intros I Hf.
  destruct (send_failed (cstep a st)) eqn:E.
  2:{ eexists. apply (i_acct _ (inv_step a st I) E). }
  pose proof (i_acct _ I Hf) as A.
  destruct I as [Im Ic _ _ _ _ _]. unfold pend, cpart in A.
  destruct a as [d| |s|ok|s]; cbn [cstep] in *; unfold step_m, step_c in *;
  destruct st as [mp cp lk so bu cc sh ar de sf]; cbn [send_failed] in Hf; subst sf;
  cbn [m_pc c_pc lock socket buffer arrived delivered chan_closed] in *; unfold set_m, set_c, set_buffer, set_socket, set_shut, sendall in *;
  cbn [send_failed] in *.
  1-2,4: exfalso; destruct mp, cp, cc; try discriminate E; destruct ok; discriminate E.
  - destruct mp; cbn [m_crit] in Im; destruct lk; try discriminate Im;
    repeat match goal with
    | E : context[if ?b then _ else _] |- _ => destruct b; cbn [send_failed] in E; try discriminate E
    | E : context[match ?x with _ => _ end] |- _ => destruct x eqn:?; cbn [send_failed] in E; try discriminate E
    end; try discriminate E.
    cbn [delivered arrived concat] in *.
    exists (skipn n b ++ concat l). rewrite A, <- app_assoc, (app_assoc (firstn n b)), firstn_skipn. reflexivity.
  - destruct cp; cbn [c_crit] in Ic; destruct lk; try discriminate Ic;
    try (destruct rest as [|b rest]; [discriminate E|]);
    repeat match goal with
    | E : context[if ?b then _ else _] |- _ => destruct b; cbn [send_failed] in E; try discriminate E
    end; try discriminate E.
    destruct mp; try discriminate Im; cbn [delivered arrived concat] in *.
    all: eexists; rewrite A, <- (firstn_skipn n b) at 1; rewrite <- !app_assoc; reflexivity.
Qed.
Lemma breaks_once_prefix l : breaks_once l cinit -> is_prefix (delivered (crun l cinit)) (concat (arrived (crun l cinit))).
Proof.
  assert (G : forall l st, inv st -> is_prefix (delivered st) (concat (arrived st)) -> breaks_once l st ->
    is_prefix (delivered (crun l st)) (concat (arrived (crun l st)))).
  { clear l. induction l as [|a l IH]; intros st I P B; [exact P|]. cbn. destruct B as [B1 B2].
    apply IH; auto; [apply inv_step, I|].
    destruct (send_failed st) eqn:E; [|now apply step_prefix].
    destruct (step_broken a st E (B1 eq_refl)) as [_ D]. rewrite D.
    destruct (step_arrived a st) as [r R]. rewrite R, concat_app. destruct P as [p P]. rewrite P.
    exists (p ++ concat r). now rewrite app_assoc. }
  apply G; [apply inv_init|exists []; reflexivity].
Qed.

Definition close_ok (st : cst) : Prop :=
  send_failed st = false /\
  (chan_closed st = true -> c_pc st = CConnected \/ c_pc st = CFailed) /\
  (shut st = true -> chan_closed st = true) /\
  (match m_pc st with MClose | MFlush true | MSend true _ | MDel true _ | MShut => chan_closed st = true | _ => True end) /\
  (match m_pc st with MData _ | MAppend _ | MFlush false | MSend false _ => chan_closed st = false | _ => True end) /\
  (match m_pc st with MClose | MFlush true | MSend true _ | MDel true _ | MShut => shut st = false | _ => True end).
Lemma close_ok_step a st : close_ok st -> result a = None -> (a = Closes -> c_pc st = CConnected \/ c_pc st = CFailed) ->
  close_ok (cstep a st).
Proof.
  intros (H1 & H2 & H3 & H4 & H5 & H6) R L. unfold close_ok.
  destruct st as [mp cp lk so bu cc sh ar de sf]; cbn [m_pc c_pc lock socket buffer chan_closed shut arrived delivered send_failed] in *.
  subst sf.
  assert (X : sh = false \/ sh = true /\ cc = true) by (destruct sh; auto).
  destruct X as [->|[-> ->]]; clear H3;
  destruct a as [d| |s|ok|s]; cbn in R; subst; cbn [cstep]; unfold step_m, step_c, set_m, set_c, set_buffer, set_socket, set_shut, sendall, effective;
    cbn [m_pc c_pc lock socket buffer chan_closed shut arrived delivered send_failed];
    destruct mp as [|d'|d'| |[]|[] rest|[] fl| |]; try discriminate; subst;
    try (destruct rest); try (destruct lk); destruct cp as [| | | |rest'| | | |]; try (destruct rest'); 
    cbn [m_pc c_pc chan_closed shut send_failed orb];
    repeat match goal with
    | |- context[if ?b then _ else _] => is_var b; destruct b
    end; cbn [m_pc c_pc chan_closed shut send_failed orb];
    try (repeat split; auto; fail);
    try (exfalso; (destruct (H2 eq_refl) + destruct (L eq_refl)); discriminate);
    repeat split; auto; try discriminate;
    try (intro Hx; first [destruct (H2 Hx) | destruct (H2 eq_refl) | destruct (L eq_refl)]; first [discriminate | auto]).
Qed.
