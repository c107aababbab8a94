From Verif Require Import Py Py_lemmas Dict_lemmas Model_Bencode Spec_Bencode Proof_Bencode Model_Packets
  Spec_Packets Proof_Packets Model_Client Spec_Client Proof_Client Proof_Client2 Proof_Client3 Proof_Client4 Proof_Client5 Proof_Client6
  Proof_Client7 Proof_Client8 Model_System Spec_System.

(** ** Lists of consequences *)
Lemma each_app {A X} (R : A -> X -> Prop) l1 o1 l2 o2 : each R l1 o1 -> each R l2 o2 -> each R (l1 ++ l2) (o1 ++ o2).
Proof. induction 1; intros H2; cbn; auto; [now apply each_one; auto|now apply each_none; auto]. Qed.
Lemma each_functional {A X} (R : A -> X -> Prop) l o o' : functional R -> each R l o -> each R l o' -> o = o'.
Proof.
  intros F H. revert o'. induction H as [|a x l o Ha H IH|a l o Ha H IH]; intros o' H'; inversion H' as [|b y m o2 Hb H2|b m o2 Hb H2]; subst; auto.
  - f_equal; [eapply F; eauto|auto].
  - exfalso. eapply Hb; eauto.
  - exfalso. eapply Ha; eauto.
Qed.
Lemma each_in {A X} (R : A -> X -> Prop) l o x : each R l o -> In x o -> exists a, In a l /\ R a x.
Proof.
  induction 1 as [|a y l o Ha H IH|a l o Ha H IH]; cbn; [tauto| |].
  - intros [->|Hi]; [eauto|]. destruct (IH Hi) as (a' & ? & ?). eauto.
  - intros Hi. destruct (IH Hi) as (a' & ? & ?). eauto.
Qed.

(** ** The call a handler makes *)
Definition call (h : handler) (args : list val) : option effect :=
  match h, args with
  | HInstruction, [s; d] => Some (Instruction s d)
  | HOpenFile, [i; p] => Some (RdOpen i p)
  | HCloseFile, [i] => Some (RdClose i)
  | HReadFile, [i; o; s] => Some (RdRead i o s)
  | HScan, [] => Some RdScan
  | HWriteFile, [i; p; d; o; x; f] => Some (RdWrite i p d o x f)
  | _, _ => None
  end.
Lemma asks_meaning m t vs rest e : announces m t (vs ++ rest) -> asks t vs e ->
  exists h, meaning m = Some (h, vs) /\ call h vs = Some e.
Proof.
  intros Ha Hk. remember (vs ++ rest) as body eqn:Eb. destruct Ha as [t body Hd Ht|x r Hd Ht].
  - assert (Hc : carries m t vs) by (exists rest; rewrite <- Eb; exact Hd).
    destruct Hk;
      [exists HInstruction|exists HOpenFile|exists HCloseFile|exists HReadFile|exists HScan|exists HWriteFile];
      (split; [|reflexivity]); (eapply meaning_intro; [exact Hc|now apply in_table|repeat constructor]).
  - assert (Hv : forall v, In v vs -> exists z, v = VInt z).
    { intros v Hv. assert (In v (vs ++ rest)) as Hi by (apply in_or_app; now left). rewrite <- Eb in Hi.
      apply in_map_iff in Hi as (y & <- & _). eauto. }
    remember (Z.of_N (Byte.to_N x)) as t eqn:Et.
    destruct Hk; try (destruct (Hv _ (or_introl eq_refl)) as [z Hz]; discriminate).
    exists HScan. split; [|reflexivity].
    unfold meaning. rewrite Hd. cbn [split_packet]. apply is_packet_type_in in Ht. rewrite <- Et, Ht.
    assert (Hk : exists c, dict_get Z.eqb 29%Z registry = Some c /\ pc_attrs c = []) by (vm_compute; eauto).
    destruct Hk as (c & Hr & Hat).
    assert (Hcr : create 29 (map (fun y => VInt (Z.of_N (Byte.to_N y))) r) [] = Ok (Packet c [])).
    { unfold create. rewrite Hr. rewrite construct_intro.
      - rewrite Hat. reflexivity.
      - apply registry_get in Hr. tauto.
      - apply Forall_forall. intros v Hi. apply in_map_iff in Hi as (y & <- & _). discriminate.
      - rewrite Hat. constructor. }
    rewrite (resolve_ok _ _ _ Hcr). reflexivity.
Qed.
Lemma meaning_asks m h args e : meaning m = Some (h, args) -> call h args = Some e ->
  exists t rest, announces m t (args ++ rest) /\ asks t args e.
Proof.
  intros H Hc. apply meaning_spec in H as (t & body & Ha & Ht & E & HF).
  assert (Hb : Forall (fun v => forall b, v <> VBool b) args).
  { eapply typed_nobool; [|exact HF]. rewrite E. apply Forall_forall. intros v Hv. pose proof (announces_parsed _ _ _ Ha) as G.
    rewrite Forall_forall in G. apply G. rewrite <- (firstn_skipn (length (handler_types h)) body). apply in_or_app. now left. }
  exists t, (skipn (length (handler_types h)) body). split; [rewrite E, firstn_skipn; exact Ha|]. clear E Ha.
  assert (Hty : forall v a, typed v a -> (forall b, v <> VBool b) ->
    match a with ABytes => exists b, v = VBytes b | AInt => exists z, v = VInt z | ADict => exists d, v = VDict d | _ => True end).
  { intros v a Hv Hn. inversion Hv; subst; eauto. exfalso. eapply Hn; eauto. }
  destruct h; cbn [call] in Hc; try discriminate; cbn [handler_types] in HF;
    repeat match goal with
    | H : Forall2 typed _ [] |- _ => inversion H; subst; clear H
    | H : Forall2 typed _ (_ :: _) |- _ => inversion H; subst; clear H
    | H : Forall _ (_ :: _) |- _ => inversion H; subst; clear H
    end;
    repeat match goal with H : typed ?v ?a |- _ => apply Hty in H; [cbv iota beta in H; destruct H; subst|assumption] end;
    injection Hc as <-; cbn in Ht; repeat (destruct Ht as [Ht|Ht]; [try discriminate; injection Ht as <-; constructor|]); destruct Ht.
Qed.
Lemma call_own h args e : call h args = Some e -> own h e.
Proof.
  destruct h; cbn; try discriminate; destruct args as [|? [|? [|? [|? [|? [|? [|]]]]]]]; try discriminate; intros [= <-]; exact I.
Qed.
Lemma call_shape h args : Forall2 typed args (handler_types h) -> call h args = None ->
  forall e, own h e -> is_call e = false.
Proof.
  intros HF Hc e Ho.
  destruct h; cbn [handler_types] in HF;
    repeat match goal with
    | H : Forall2 typed _ [] |- _ => inversion H; subst; clear H
    | H : Forall2 typed _ (_ :: _) |- _ => inversion H; subst; clear H
    end; cbn [call] in Hc; try discriminate; destruct e; cbn in *; tauto || reflexivity.
Qed.
Lemma calls_for_functional : functional calls_for.
Proof.
  intros i x y (m & t & vs & rest & -> & Ha & Hk) (m' & t' & vs' & rest' & E & Ha' & Hk'). injection E as <-.
  destruct (asks_meaning _ _ _ _ _ Ha Hk) as (h & Hm & Hc). destruct (asks_meaning _ _ _ _ _ Ha' Hk') as (h' & Hm' & Hc').
  rewrite Hm in Hm'. injection Hm' as <- <-. congruence.
Qed.

Section Client.
  Variable env : list effect -> effect -> list (op * bool) * option exn.
  Variable error_text : list effect -> text.
  Notation step := (step env error_text).
  Notation run := (run env error_text).
  Notation run_handler := (run_handler env error_text).

  Lemma handler_call h args e st st' r : call h args = Some e -> run_handler h args st = (st', r) ->
    exists rest, adds st st' (e :: rest) /\ Forall incidental rest.
  Proof.
    intros Hc H.
    destruct h; cbn [call] in Hc; try discriminate;
      destruct args as [|? [|? [|? [|? [|? [|? [|]]]]]]]; try discriminate; injection Hc as <-; cbn [Model_Client.run_handler] in H;
      try (now apply callback_adds in H).
    - apply guard_spec in H as (r2 & H & _). now apply callback_adds in H.
    - destruct (callback env RdScan st) as [s x] eqn:E. apply callback_star in E as [E _]. apply star_ext in E. apply ext_adds.
      destruct x as [u|e|]; [injection H as <- _; exact E| |injection H as <- _; exact E].
      eapply ext_trans; [exact E|]. eapply send_ext; [|exact H]. auto.
  Qed.
  Lemma step_calls i st st' r : step i st = (st', r) ->
    (exists e rest, calls_for i e /\ adds st st' (e :: rest) /\ Forall incidental rest) \/
    (forall e, ~ calls_for i e) /\ exists new, adds st st' new /\ Forall (fun e => is_call e = false) new.
  Proof.
    intros H. pose proof (step_grows _ _ _ _ _ _ H) as (q & Hq & Fq).
    assert (Hnew : Forall (fun e => is_call e = false) q -> exists new, adds st st' new /\ Forall (fun e => is_call e = false) new).
    { intros F. exists (rev q). split; [now apply adds_trace|now apply Forall_rev]. }
    assert (Q : forall e, quiet e -> is_call e = false) by (destruct e; cbn; tauto).
    assert (N : (forall m, i <> InEvent (EvBinary m)) -> (forall e, may_in i e -> is_call e = false) ->
      (forall e, ~ calls_for i e) /\ exists new, adds st st' new /\ Forall (fun e => is_call e = false) new).
    { intros N1 N2. split; [intros e (m & t & vs & rest & E & _); eapply N1; eauto|]. apply Hnew. eapply Forall_impl; [|exact Fq]. auto. }
    destruct i as [[| |m| |]|p|cmd k|]; try (right; apply N; [discriminate|cbn [may_in]; auto; fail]).
    - right. apply N; [discriminate|]. cbn [may_in]. intros e [He|[(k & o & ->)|(k & cmd & ->)]]; auto.
    - destruct (meaning m) as [[h args]|] eqn:Em.
      + apply step_binary in H. rewrite Em in H. destruct H as [r' H]. destruct (call h args) as [e|] eqn:Ec.
        * left. destruct (handler_call _ _ _ _ _ _ Ec H) as (rest & A1 & A2). exists e, rest. split; [|auto].
          destruct (meaning_asks _ _ _ _ Em Ec) as (t & rest' & A3 & A4). exists m, t, args, rest'. auto.
        * right. split.
          { intros e (m' & t & vs & rest & E & Ha & Hk). injection E as <-. destruct (asks_meaning _ _ _ _ _ Ha Hk) as (h' & Hm & Hc). congruence. }
          apply Hnew. eapply Forall_impl; [|exact Fq]. cbn [may_in]. rewrite Em. intros e [He|He]; [auto|].
          apply meaning_spec in Em as (t & body & _ & _ & _ & HF). eapply call_shape; eauto.
      + right. split.
        { intros e (m' & t & vs & rest & E & Ha & Hk). injection E as <-. destruct (asks_meaning _ _ _ _ _ Ha Hk) as (h' & Hm & Hc). congruence. }
        apply Hnew. eapply Forall_impl; [|exact Fq]. cbn [may_in]. rewrite Em. tauto.
    - right. apply N; [discriminate|]. cbn [may_in]. intros e [x ->]. reflexivity.
    - right. apply N; [discriminate|]. cbn [may_in]. tauto.
    - right. apply N; [discriminate|]. cbn [may_in]. tauto.
    - right. apply N; [discriminate|]. cbn [may_in]. intros e ->. reflexivity.
  Qed.
  Lemma called_first i e st st' r : calls_for i e -> step i st = (st', r) -> exists rest, adds st st' (e :: rest) /\ Forall incidental rest.
  Proof.
    intros Hc H. destruct (step_calls _ _ _ _ H) as [(e' & rest & Hc' & Ha)|(Hn & _)]; [|destruct (Hn _ Hc)].
    rewrite (calls_for_functional _ _ _ Hc Hc'). eauto.
  Qed.
  Lemma filter_none {A} (f : A -> bool) l : Forall (fun x => f x = false) l -> filter f l = [].
  Proof. induction 1 as [|x l Hx Hl IH]; cbn; auto. now rewrite Hx. Qed.
  Lemma incidental_none l : Forall incidental l -> filter is_call l = [].
  Proof. intros H. apply filter_none. eapply Forall_impl; [|exact H]. intros []; cbn; tauto. Qed.

  (** ** Over a session (C98) *)
  Lemma run_calls l : forall st st', run l st = Some st' ->
    exists es, each calls_for l es /\ filter is_call (history st') = filter is_call (history st) ++ es.
  Proof.
    induction l as [|i l IH]; intros st st' H.
    - injection H as <-. exists []. rewrite app_nil_r. split; [constructor|reflexivity].
    - rewrite run_cons in H. destruct (step i st) as [s r] eqn:E.
      assert (Hr : run l s = Some st') by (destruct r; [exact H|exact H|discriminate]).
      destruct (IH _ _ Hr) as (es & H1 & H2). destruct (step_calls _ _ _ _ E) as [(e & rest & Hc & Ha & Hi)|(Hc & new & Ha & Hn)].
      + exists (e :: es). split; [now apply each_one|]. rewrite H2, Ha, filter_app. cbn [filter].
        assert (is_call e = true) as ->. { destruct Hc as (m & t & vs & rest' & _ & _ & Hk). now destruct Hk. }
        rewrite (incidental_none rest) by exact Hi. now rewrite <- app_assoc.
      + exists es. split; [now apply each_none|]. rewrite H2, Ha, filter_app, (filter_none _ _ Hn), app_nil_r. reflexivity.
  Qed.
  Lemma c98 u l st : run l (init_state u) = Some st -> each calls_for l (filter is_call (history st)).
  Proof. intros H. apply run_calls in H as (es & H1 & H2). now rewrite H2. Qed.
End Client.
