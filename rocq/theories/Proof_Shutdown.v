From Verif Require Import Py Model_Shutdown Spec_Shutdown.
From Coq Require Import Lia.

Lemma app_split {A} (a b c d : list A) x : a ++ b = c ++ x :: d ->
  (exists l, c = a ++ l /\ b = l ++ x :: d) \/ (exists l, a = c ++ x :: l /\ d = l ++ b).
Proof.
  revert c. induction a as [|y a IH]; intros c H; [left; exists c; auto|].
  destruct c as [|z c]; injection H as <- H; [right; exists a; auto|].
  destruct (IH c H) as [(l & -> & E)|(l & -> & E)]; [left|right]; exists l; auto.
Qed.

(** An interrupt that is not swallowed *)
Definition obeys {A} (new : trace) (o : out A) : Prop :=
  forall after p before, new = after ++ (p, Interrupt) :: before -> p <> PMeta -> no_failure after -> Forall (fun e => cleanup (fst e)) after /\ o = Int.
Definition good {A} (m : M A) : Prop := forall tr, exists new, fst (m tr) = new ++ tr /\ obeys new (snd (m tr)).
Definition clean (f : M unit) : Prop := forall tr, exists new, fst (f tr) = new ++ tr /\ obeys new (snd (f tr)) /\
  Forall (fun e => cleanup (fst e)) new /\ (no_failure new -> snd (f tr) = Val tt \/ snd (f tr) = Int) /\ snd (f tr) <> Endless.

Section S.
  Variable env : nat -> event.
  Variable exits : nat -> bool.

  Lemma nf_app a b : no_failure (a ++ b) -> no_failure a /\ no_failure b.
  Proof. apply Forall_app. Qed.
  Lemma good_ret {A} (a : A) : good (ret a).
  Proof. intros tr. exists []. split; [reflexivity|]. intros after p before H. now destruct after. Qed.
  Lemma good_raise {A} : good (@raise A).
  Proof. intros tr. exists []. split; [reflexivity|]. intros after p before H. now destruct after. Qed.
  Lemma good_endless {A} : good (fun tr => (tr, @Endless A)).
  Proof. intros tr. exists []. split; [reflexivity|]. intros after p before H. now destruct after. Qed.
  Lemma good_test p : good (test env p).
  Proof.
    intros tr. exists [(p, env (length tr))]. split; [reflexivity|]. intros after q before H N F.
    destruct after as [|x after]; [|injection H as _ H; now destruct after]. injection H as -> E _. split; [constructor|]. cbn. now rewrite E.
  Qed.
  Lemma good_then {A B} (m : M A) (k : A -> M B) : good m -> (forall a, good (k a)) -> good (andthen m k).
  Proof.
    intros Hm Hk tr. destruct (Hm tr) as (n1 & E1 & O1). unfold andthen. destruct (m tr) as [t1 o1]. cbn in *. subst t1.
    destruct o1 as [a| | |].
    - destruct (Hk a (n1 ++ tr)) as (n2 & E2 & O2). exists (n2 ++ n1). split; [now rewrite E2, app_assoc|].
      intros after p before H N F. apply app_split in H as [(l & -> & ->)|(l & -> & _)].
      + apply nf_app in F as [_ F]. destruct (O1 _ _ _ eq_refl N F). discriminate.
      + exact (O2 _ _ _ eq_refl N F).
    - exists n1. split; [reflexivity|]. intros after p before H N F. destruct (O1 _ _ _ H N F). discriminate.
    - exists n1. split; [reflexivity|]. intros after p before H N F. destruct (O1 _ _ _ H N F). auto.
    - exists n1. split; [reflexivity|]. intros after p before H N F. destruct (O1 _ _ _ H N F). discriminate.
  Qed.
  Lemma good_at p : good (at_ env p).
  Proof. apply good_then; [apply good_test|intros; apply good_ret]. Qed.
  Lemma good_try {A} (m h : M A) : good m -> good h -> good (try_exception m h).
  Proof.
    intros Hm Hh tr. destruct (Hm tr) as (n1 & E1 & O1). unfold try_exception. destruct (m tr) as [t1 o1]. cbn in *. subst t1.
    destruct o1 as [a| | |]; try (exists n1; split; [reflexivity|exact O1]).
    destruct (Hh (n1 ++ tr)) as (n2 & E2 & O2). exists (n2 ++ n1). split; [now rewrite E2, app_assoc|].
    intros after p before H N F. apply app_split in H as [(l & -> & ->)|(l & -> & _)].
    - apply nf_app in F as [_ F]. destruct (O1 _ _ _ eq_refl N F). discriminate.
    - exact (O2 _ _ _ eq_refl N F).
  Qed.
  Lemma good_try_else {A B} (m : M A) (h e : M B) : good m -> good h -> good e -> good (try_exception_else m h e).
  Proof.
    intros Hm Hh He tr. destruct (Hm tr) as (n1 & E1 & O1). unfold try_exception_else. destruct (m tr) as [t1 o1]. cbn in *. subst t1.
    assert (G : forall x : M B, good x -> o1 <> Int -> exists new, fst (x (n1 ++ tr)) = new ++ tr /\ obeys new (snd (x (n1 ++ tr)))).
    { intros x Hx D. destruct (Hx (n1 ++ tr)) as (n2 & E2 & O2). exists (n2 ++ n1). split; [now rewrite E2, app_assoc|].
      intros after p before H N F. apply app_split in H as [(l & -> & ->)|(l & -> & _)].
      - apply nf_app in F as [_ F]. destruct (O1 _ _ _ eq_refl N F). congruence.
      - exact (O2 _ _ _ eq_refl N F). }
    destruct o1 as [a| | |]; try (apply G; [assumption|discriminate]); exists n1; (split; [reflexivity|]); intros after p before H N F;
      destruct (O1 _ _ _ H N F); [auto|discriminate].
  Qed.
  Lemma good_meta : good (sync_meta env).
  Proof.
    intros tr. unfold sync_meta, try_all_else.
    assert (E : exists o, at_ env PMeta tr = ((PMeta, env (length tr)) :: tr, o) /\ o <> Endless).
    { unfold at_, andthen, test. cbn. destruct (env (length tr)); eexists; split; try reflexivity; discriminate. }
    destruct E as (o & -> & No).
    assert (G : forall x : M unit, good x -> exists new, fst (x ((PMeta, env (length tr)) :: tr)) = new ++ tr /\ obeys new (snd (x ((PMeta, env (length tr)) :: tr)))).
    { intros x Hx. destruct (Hx ((PMeta, env (length tr)) :: tr)) as (n2 & E2 & O2). exists (n2 ++ [(PMeta, env (length tr))]).
      split; [now rewrite E2, <- app_assoc|]. intros after p before H N F. apply app_split in H as [(l & -> & H)|(l & -> & _)].
      - destruct l as [|y l]; [injection H as <- _ _; congruence|injection H as _ H; now destruct l].
      - exact (O2 _ _ _ eq_refl N F). }
    destruct o; try (apply G; apply good_at). congruence.
  Qed.
  Lemma clean_at p : cleanup p -> clean (at_ env p).
  Proof.
    intros C tr. destruct (good_at p tr) as (new & E & O). exists new. split; [exact E|]. split; [exact O|].
    assert (new = [(p, env (length tr))]) as ->.
    { revert E. unfold at_, andthen, test. cbn. destruct (env (length tr)); cbn; intros E;
        (change ((p, Goes b) :: tr) with ([(p, Goes b)] ++ tr) in E || change ((p, Fails) :: tr) with ([(p, Fails)] ++ tr) in E || change ((p, Interrupt) :: tr) with ([(p, Interrupt)] ++ tr) in E);
        apply app_inv_tail in E; auto. }
    split; [constructor; [exact C|constructor]|]. unfold at_, andthen, test. cbn. destruct (env (length tr)); cbn.
    - split; [auto|discriminate].
    - split; [|discriminate]. intros F. inversion F as [|x y F1 _]. now contradiction F1.
    - split; [auto|discriminate].
  Qed.
  Lemma clean_then f g : clean f -> clean g -> clean (f ;;; g).
  Proof.
    intros Hf Hg tr. destruct (Hf tr) as (n1 & E1 & O1 & C1 & R1 & N1). unfold andthen. destruct (f tr) as [t1 o1]. cbn in *. subst t1.
    destruct o1 as [a| | |].
    - destruct (Hg (n1 ++ tr)) as (n2 & E2 & O2 & C2 & R2 & N2). exists (n2 ++ n1). split; [now rewrite E2, app_assoc|].
      split; [|split; [apply Forall_app; auto|split; [|exact N2]]].
      + intros after p before H N F. apply app_split in H as [(l & -> & ->)|(l & -> & _)].
        * apply nf_app in F as [_ F]. destruct (O1 _ _ _ eq_refl N F). discriminate.
        * exact (O2 _ _ _ eq_refl N F).
      + intros F. apply nf_app in F as [F _]. auto.
    - exists n1. split; [reflexivity|]. split; [intros after p before H N F; destruct (O1 _ _ _ H N F); discriminate|].
      split; [exact C1|]. split; [|discriminate]. intros F. destruct (R1 F); discriminate.
    - exists n1. split; [reflexivity|]. split; [intros after p before H N F; destruct (O1 _ _ _ H N F); auto|].
      split; [exact C1|]. split; [auto|discriminate].
    - congruence.
  Qed.
  Lemma good_finally {A} (m : M A) f : good m -> clean f -> good (finally m f).
  Proof.
    intros Hm Hf tr. destruct (Hm tr) as (n1 & E1 & O1). unfold finally. destruct (m tr) as [t1 o1]. cbn in *. subst t1.
    assert (G : o1 <> Endless -> exists new,
      fst (match f (n1 ++ tr) with (tr, Val _) => (tr, o1) | (tr, Exc) => (tr, Exc) | (tr, Int) => (tr, Int) | (tr, Endless) => (tr, Endless) end) = new ++ tr /\
      obeys new (snd (match f (n1 ++ tr) with (tr, Val _) => (tr, o1) | (tr, Exc) => (tr, Exc) | (tr, Int) => (tr, Int) | (tr, Endless) => (tr, Endless) end))).
    { intros _. destruct (Hf (n1 ++ tr)) as (n2 & E2 & O2 & C2 & R2 & N2). destruct (f (n1 ++ tr)) as [t2 o2]. cbn in *. subst t2.
      exists (n2 ++ n1). split; [destruct o2; cbn; now rewrite app_assoc|].
      intros after p before H N F. apply app_split in H as [(l & -> & ->)|(l & -> & _)].
      - apply nf_app in F as [F2 F1]. destruct (O1 _ _ _ eq_refl N F1) as [Cl ->].
        split; [apply Forall_app; auto|]. destruct (R2 F2) as [-> | ->]; reflexivity.
      - destruct (O2 _ _ _ eq_refl N F) as [Cl ->]. auto. }
    destruct o1 as [a| | |]; try (apply G; discriminate). exists n1. split; [reflexivity|]. intros after p before H N F. destruct (O1 _ _ _ H N F). discriminate.
  Qed.

  Lemma good_send : good (send env).
  Proof.
    apply good_then; [apply good_at|intros _]. apply good_then; [|intros _; apply good_at].
    apply good_try; [|apply good_raise]. apply good_then; [apply good_at|intros _]. apply good_finally; [apply good_at|now apply clean_at].
  Qed.
  Lemma good_disk : good (disk_poll env).
  Proof.
    apply good_then; [apply good_test|intros due]. destruct due; [|apply good_ret].
    apply good_then; [apply good_at|intros _]. apply good_then; [apply good_at|intros _]. apply good_send.
  Qed.
  Lemma good_tags : good (tag_poll env).
  Proof.
    apply good_then; [apply good_test|intros r]. destruct r; [|apply good_ret]. apply good_try; [|apply good_at].
    apply good_then; [apply good_test|intros new]. destruct new; [|apply good_ret].
    apply good_then; [apply good_at|intros _]. apply good_then; [apply good_send|intros _]. apply good_at.
  Qed.
  Lemma good_sync : good (sync env).
  Proof.
    apply good_try; [|apply good_at]. apply good_then; [apply good_at|intros _]. apply good_then; [apply good_at|intros _].
    apply good_finally; [|now apply clean_at]. apply good_then; [apply good_test|intros u]. destruct u; [|apply good_ret].
    apply good_then; [apply good_at|intros _]. apply good_then; [apply good_meta|intros _]. apply good_then; [apply good_send|intros _].
    apply good_then; [apply good_at|intros _]. apply good_then; [apply good_at|intros _]. apply good_try_else; apply good_at.
  Qed.
  Lemma good_poll : good (poll env).
  Proof.
    apply good_then; [apply good_at|intros _]. apply good_then; [apply good_try; [apply good_disk|apply good_at]|intros _].
    apply good_then; [apply good_try; [apply good_tags|apply good_at]|intros _]. apply good_sync.
  Qed.
  Lemma good_wait : good (wait env exits).
  Proof. intros tr. exact (good_then (test env PWait) (fun _ => ret (exits (length tr))) (good_test PWait) (fun _ => good_ret _) tr). Qed.
  Lemma good_loop fuel : good (loop env exits fuel).
  Proof.
    induction fuel as [|fuel IH]; [apply good_endless|]. cbn [loop]. apply good_then; [apply good_wait|intros stop].
    destruct stop; [apply good_ret|]. apply good_then; [apply good_poll|intros _; exact IH].
  Qed.
  (** From the except clause on the outcome may also be a return *)
  Definition obeys' {A} (new : trace) (o : out A) : Prop :=
    forall after p before, new = after ++ (p, Interrupt) :: before -> p <> PMeta -> no_failure after ->
      Forall (fun e => cleanup (fst e)) after /\ (o = Int \/ exists a, o = Val a).
  Definition good' {A} (m : M A) : Prop := forall tr, exists new, fst (m tr) = new ++ tr /\ obeys' new (snd (m tr)).
  Lemma good_good' {A} (m : M A) : good m -> good' m.
  Proof. intros G tr. destruct (G tr) as (new & E & O). exists new. split; [exact E|]. intros a p b H N F. destruct (O a p b H N F). auto. Qed.
  Lemma good_caught (m : M unit) h : good m -> clean h -> good' (try_interrupt m h).
  Proof.
    intros Hm Hh tr. destruct (Hm tr) as (n1 & E1 & O1). unfold try_interrupt. destruct (m tr) as [t1 o1]. cbn in *. subst t1.
    destruct o1 as [a| | |]; try (exists n1; split; [reflexivity|]; intros after p before H N F; destruct (O1 _ _ _ H N F); discriminate).
    destruct (Hh (n1 ++ tr)) as (n2 & E2 & O2 & C2 & R2 & N2). exists (n2 ++ n1). split; [now rewrite E2, app_assoc|].
    intros after p before H N F. apply app_split in H as [(l & -> & ->)|(l & -> & _)].
    - apply nf_app in F as [F2 F1]. destruct (O1 _ _ _ eq_refl N F1) as [Cl _]. split; [apply Forall_app; auto|]. destruct (R2 F2) as [-> | ->]; eauto.
    - destruct (O2 _ _ _ eq_refl N F) as [Cl ->]. auto.
  Qed.
  Lemma good_finally' (m : M unit) f : good' m -> clean f -> good' (finally m f).
  Proof.
    intros Hm Hf tr. destruct (Hm tr) as (n1 & E1 & O1). unfold finally. destruct (m tr) as [t1 o1]. cbn in *. subst t1.
    assert (G : o1 <> Endless -> exists new,
      fst (match f (n1 ++ tr) with (tr, Val _) => (tr, o1) | (tr, Exc) => (tr, Exc) | (tr, Int) => (tr, Int) | (tr, Endless) => (tr, Endless) end) = new ++ tr /\
      obeys' new (snd (match f (n1 ++ tr) with (tr, Val _) => (tr, o1) | (tr, Exc) => (tr, Exc) | (tr, Int) => (tr, Int) | (tr, Endless) => (tr, Endless) end))).
    { intros _. destruct (Hf (n1 ++ tr)) as (n2 & E2 & O2 & C2 & R2 & N2). destruct (f (n1 ++ tr)) as [t2 o2]. cbn in *. subst t2.
      exists (n2 ++ n1). split; [destruct o2; cbn; now rewrite app_assoc|].
      intros after p before H N F. apply app_split in H as [(l & -> & ->)|(l & -> & _)].
      - apply nf_app in F as [F2 F1]. destruct (O1 _ _ _ eq_refl N F1) as [Cl [-> | [a ->]]];
          (split; [apply Forall_app; auto|]); destruct (R2 F2) as [-> | ->]; cbn; eauto.
      - destruct (O2 _ _ _ eq_refl N F) as [Cl ->]. auto. }
    destruct o1 as [a| | |]; try (apply G; discriminate). exists n1. split; [reflexivity|]. intros after p before H N F.
    destruct (O1 _ _ _ H N F) as [_ [D|[? D]]]; discriminate.
  Qed.
  Lemma good_then' {A B} (m : M A) (k : A -> M B) : good m -> (forall a, good' (k a)) -> good' (andthen m k).
  Proof.
    intros Hm Hk tr. destruct (Hm tr) as (n1 & E1 & O1). unfold andthen. destruct (m tr) as [t1 o1]. cbn in *. subst t1.
    destruct o1 as [a| | |].
    - destruct (Hk a (n1 ++ tr)) as (n2 & E2 & O2). exists (n2 ++ n1). split; [now rewrite E2, app_assoc|].
      intros after p before H N F. apply app_split in H as [(l & -> & ->)|(l & -> & _)].
      + apply nf_app in F as [_ F]. destruct (O1 _ _ _ eq_refl N F). discriminate.
      + exact (O2 _ _ _ eq_refl N F).
    - exists n1. split; [reflexivity|]. intros after p before H N F. destruct (O1 _ _ _ H N F). discriminate.
    - exists n1. split; [reflexivity|]. intros after p before H N F. destruct (O1 _ _ _ H N F). auto.
    - exists n1. split; [reflexivity|]. intros after p before H N F. destruct (O1 _ _ _ H N F). discriminate.
  Qed.
  Lemma good_run fuel : good' (run_forever env exits fuel).
  Proof.
    apply good_then'; [apply good_at|intros _].
    apply good_finally'; [|apply clean_then; [now apply clean_at|apply clean_then; now apply clean_at]].
    apply good_caught; [|now apply clean_at]. apply good_then; [apply good_poll|intros _; apply good_loop].
  Qed.
  Lemma good_agent fuel : forall tr o p after, agent env exits fuel [] = (tr, o) -> interrupted tr p after -> p <> PMeta -> no_failure after ->
    Forall (fun e => cleanup (fst e)) after /\ (o = Int \/ o = Val 0%Z).
  Proof.
    intros tr o p after H [before Et] N F. revert H. unfold agent, try_exception. unfold andthen at 1.
    destruct (good_at PClient []) as (n1 & E1 & O1). destruct (at_ env PClient []) as [t1 o1]. cbn in E1, O1. subst t1.
    assert (Rep : forall t, (forall a q b, t = a ++ (q, Interrupt) :: b -> q <> PMeta -> no_failure a -> False) ->
      (at_ env PReport ;;; ret (-1)%Z) t = (tr, o) -> Forall (fun e => cleanup (fst e)) after /\ (o = Int \/ o = Val 0%Z)).
    { intros t D. destruct (good_then (at_ env PReport) (fun _ => ret (-1)%Z) (good_at PReport) (fun _ => good_ret _) t) as (n2 & E2 & O2).
      intros Hr. rewrite Hr in E2, O2. cbn in E2, O2. rewrite E2 in Et. apply app_split in Et as [(l & -> & El)|(l & -> & _)].
      - apply nf_app in F as [_ F]. destruct (D _ _ _ El N F).
      - destruct (O2 _ _ _ eq_refl N F) as [C ->]. auto. }
    destruct o1 as [[]| | |].
    - unfold andthen at 1. destruct (good_run fuel (n1 ++ [])) as (n2 & E2 & O2). destruct (run_forever env exits fuel (n1 ++ [])) as [t2 o2]. cbn in E2, O2. subst t2.
      assert (D1 : forall a q b, n1 = a ++ (q, Interrupt) :: b -> q <> PMeta -> no_failure a -> False).
      { intros a q b E Nq Fq. destruct (O1 a q b E Nq Fq). discriminate. }
      rewrite app_nil_r in *.
      assert (Pos : forall a q b, n2 ++ n1 = a ++ (q, Interrupt) :: b -> q <> PMeta -> no_failure a ->
        Forall (fun e => cleanup (fst e)) a /\ (o2 = Int \/ exists u, o2 = Val u)).
      { intros a q b E Nq Fq. apply app_split in E as [(l & -> & El)|(l & -> & _)].
        - apply nf_app in Fq as [_ Fq]. destruct (D1 _ _ _ El Nq Fq).
        - exact (O2 _ _ _ eq_refl Nq Fq). }
      destruct o2 as [[]| | |].
      + cbn. intros [= <- <-]. destruct (Pos _ _ _ Et N F). auto.
      + cbn. apply Rep. intros a q b E Nq Fq. destruct (Pos a q b E Nq Fq) as [_ [X|[u X]]]; discriminate.
      + cbn. intros [= <- <-]. destruct (Pos _ _ _ Et N F). auto.
      + cbn. intros [= <- <-]. destruct (Pos _ _ _ Et N F) as [_ [X|[u X]]]; discriminate.
    - cbn. apply Rep. intros a q b E Nq Fq. rewrite app_nil_r in E. destruct (O1 a q b E Nq Fq). discriminate.
    - cbn. intros [= <- <-]. rewrite app_nil_r in Et. destruct (O1 _ _ _ Et N F). auto.
    - cbn. intros [= <- <-]. rewrite app_nil_r in Et. destruct (O1 _ _ _ Et N F). discriminate.
  Qed.
End S.

(** ** C123: it does clean up *)
Lemma at_eq env p tr : at_ env p tr = ((p, env (length tr)) :: tr, match env (length tr) with Goes _ => Val tt | Fails => Exc | Interrupt => Int end).
Proof. unfold at_, andthen, test. now destruct (env (length tr)). Qed.
Lemma undisturbed_nf tr : undisturbed tr -> no_failure tr.
Proof. apply Forall_impl. intros e [b ->]. discriminate. Qed.
Lemma cons_split {A} (y : A) t c x d : y :: t = c ++ x :: d -> (c = [] /\ y = x /\ t = d) \/ exists l, c = y :: l /\ t = l ++ x :: d.
Proof. destruct c as [|z c]; intros H; injection H as <- H; [auto|right; exists c; auto]. Qed.
Lemma nil_split {A} (c : list A) x d : [] = c ++ x :: d -> False.
Proof. now destruct c. Qed.
Lemma run_cleans env exits fuel tr2 tr o p after : 
  finally (try_interrupt (poll env ;;; loop env exits fuel) (at_ env PUserExit)) (at_ env PStop ;;; at_ env PJoin ;;; at_ env PBye) tr2 = (tr, o) ->
  interrupted tr p after -> p <> PMeta -> while_polling p -> undisturbed after ->
  (forall a b, tr2 = a ++ (p, Interrupt) :: b -> False) ->
  o = Val tt /\ exists rest, map fst after = [PBye; PJoin; PStop; PUserExit] ++ rest.
Proof.
  intros H [before Et] Np W U Nt.
  destruct (good_then _ (fun _ => loop env exits fuel) (good_poll env) (fun _ => good_loop env exits fuel) tr2) as (n & En & On).
  unfold finally, try_interrupt in H. destruct ((poll env ;;; loop env exits fuel) tr2) as [t1 o1]. cbn [fst snd] in En, On. subst t1.
  assert (Nn : o1 <> Int -> forall a b, n ++ tr2 = a ++ (p, Interrupt) :: b -> no_failure a -> False).
  { intros D a b E F. apply app_split in E as [(l & -> & El)|(l & El & _)]; [eauto|]. destruct (On _ _ _ El Np F). congruence. }
  assert (Fin : forall t oo, (match (at_ env PStop ;;; at_ env PJoin ;;; at_ env PBye) t with (tr, Val _) => (tr, oo) | (tr, Exc) => (tr, Exc) | (tr, Int) => (tr, Int) | (tr, Endless) => (tr, Endless) end) = (tr, o) ->
    exists a', t = a' ++ (p, Interrupt) :: before /\ map fst after = [PBye; PJoin; PStop] ++ map fst a' /\ undisturbed a' /\ o = oo).
  { intros t oo. unfold andthen. rewrite !at_eq. rewrite Et. clear - W U.
    assert (Ev : forall q e t0 l, (q, e) :: t0 = after ++ l -> after <> [] -> exists b, e = Goes b).
    { intros q e t0 l E D. destruct after as [|y r]; [congruence|]. injection E as <- _. inversion U as [|x1 x2 [b Hb] _]. now exists b. }
    assert (In1 : forall q e t0, (q, e) :: t0 = after ++ (p, Interrupt) :: before -> while_polling q = False -> exists r b, after = (q, e) :: r /\ e = Goes b /\ undisturbed r /\ t0 = r ++ (p, Interrupt) :: before).
    { intros q e t0 E D. apply cons_split in E as [(-> & E & _)|(r & -> & E)].
      - injection E as -> _. rewrite D in W. destruct W.
      - inversion U as [|x1 x2 [b Hb] U']. subst. exists r, b. auto. }
    clear Ev. destruct (env (length t)) as [b0| |] eqn:E0.
    2,3: intros E; apply pair_equal_spec in E as [E _]; apply In1 in E as (r & b & _ & D & _); [discriminate|reflexivity].
    destruct (env (length ((PStop, Goes b0) :: t))) as [b1| |] eqn:E1.
    2,3: intros E; apply pair_equal_spec in E as [E _]; apply In1 in E as (r & b & _ & D & _); [discriminate|reflexivity].
    destruct (env (length ((PJoin, Goes b1) :: (PStop, Goes b0) :: t))) as [b2| |] eqn:E2.
    2,3: intros E; apply pair_equal_spec in E as [E _]; apply In1 in E as (r & b & _ & D & _); [discriminate|reflexivity].
    intros E. apply pair_equal_spec in E as [E Eo]. apply In1 in E as (r & b & Ea & _ & Ur & E); [|reflexivity].
    assert (S : forall q e t0 r0, undisturbed r0 -> (q, e) :: t0 = r0 ++ (p, Interrupt) :: before -> while_polling q = False -> exists r, r0 = (q, e) :: r /\ undisturbed r /\ t0 = r ++ (p, Interrupt) :: before).
    { intros q e t0 r0 U0 E' D. apply cons_split in E' as [(-> & E' & _)|(r' & -> & E')].
      - injection E' as -> _. rewrite D in W. destruct W.
      - inversion U0. exists r'. auto. }
    apply S in E as (r' & -> & Ur' & E); [|exact Ur|reflexivity]. apply S in E as (r'' & -> & Ur'' & E); [|exact Ur'|reflexivity].
    exists r''. subst after. auto. }
  destruct o1 as [u| | |].
  - destruct (Fin _ _ H) as (a' & E & _ & U' & _). exfalso. exact (Nn ltac:(discriminate) _ _ E (undisturbed_nf _ U')).
  - destruct (Fin _ _ H) as (a' & E & _ & U' & _). exfalso. exact (Nn ltac:(discriminate) _ _ E (undisturbed_nf _ U')).
  - rewrite at_eq in H. assert (H' : exists oo, exists a', (PUserExit, env (length (n ++ tr2))) :: n ++ tr2 = a' ++ (p, Interrupt) :: before /\ map fst after = [PBye; PJoin; PStop] ++ map fst a' /\ undisturbed a' /\ o = oo /\
        oo = match env (length (n ++ tr2)) with Goes _ => Val tt | Fails => Exc | Interrupt => Int end).
    { destruct (env (length (n ++ tr2))); destruct (Fin _ _ H) as (a' & E & M & U' & O'); eexists _, a'; repeat split; eauto. }
    destruct H' as (oo & a' & E & M & U' & -> & ->). apply cons_split in E as [(-> & E & _)|(r & -> & E)].
    + injection E as <- _. destruct W.
    + inversion U' as [|x1 x2 [b Hb] U2]. cbn in Hb. rewrite Hb. split; [reflexivity|]. exists (map fst r). exact M.
  - exfalso. injection H as <- <-. exact (Nn ltac:(discriminate) _ _ Et (undisturbed_nf _ U)).
Qed.
Lemma agent_cleans env exits fuel tr o p after : agent env exits fuel [] = (tr, o) -> interrupted tr p after -> p <> PMeta -> while_polling p -> undisturbed after ->
  o = Val 0%Z /\ exists rest, map fst after = [PBye; PJoin; PStop; PUserExit] ++ rest.
Proof.
  intros H I Np W U.
  assert (One : forall q e t, interrupted ((q, e) :: t) p after -> while_polling q = False -> exists b, t = tl after ++ (p, Interrupt) :: b /\ exists g, e = Goes g).
  { intros q e t [b E] D. apply cons_split in E as [(E1 & E & _)|(r & Er & E)].
    - injection E as -> _. rewrite D in W. destruct W.
    - exists b. rewrite Er. split; [exact E|]. rewrite Er in U. inversion U as [|x1 x2 [g Hg] _]. now exists g. }
  assert (Rep : forall t, (forall a b, t = a ++ (p, Interrupt) :: b -> undisturbed a -> False) -> (at_ env PReport ;;; ret (-1)%Z) t = (tr, o) -> False).
  { intros t D. unfold andthen. rewrite at_eq. intros E.
    assert (Et : tr = (PReport, env (length t)) :: t) by (destruct (env (length t)); injection E as <- _; reflexivity).
    subst tr. destruct (One _ _ _ I eq_refl) as (b & Eb & _). apply (D _ _ Eb). destruct after; [constructor|]. now inversion U. }
  revert H. unfold agent, try_exception. unfold andthen at 1. rewrite at_eq.
  assert (N1 : forall a b e, [(PClient, e)] = a ++ (p, Interrupt) :: b -> False).
  { intros a b e E. apply cons_split in E as [(_ & E & _)|(r & _ & E)]; [injection E as <- _; destruct W|exact (nil_split _ _ _ E)]. }
  destruct (env (length (@nil (place * event)))) as [g0| |].
  2: { intros H. exfalso. revert H. apply Rep. intros a b E _. exact (N1 _ _ _ E). }
  2: { intros H. injection H as <- <-. exfalso. destruct I as [b I]. exact (N1 _ _ _ I). }
  unfold andthen at 1, run_forever. unfold andthen at 1. rewrite at_eq.
  assert (N2 : forall a b e e', [(PClock, e); (PClient, e')] = a ++ (p, Interrupt) :: b -> False).
  { intros a b e e' E. apply cons_split in E as [(_ & E & _)|(r & _ & E)]; [injection E as <- _; destruct W|exact (N1 _ _ _ E)]. }
  destruct (env (length [(PClient, Goes g0)])) as [g1| |].
  2: { intros H. exfalso. revert H. apply Rep. intros a b E _. exact (N2 _ _ _ _ E). }
  2: { intros H. injection H as <- <-. exfalso. destruct I as [b I]. exact (N2 _ _ _ _ I). }
  destruct (finally _ _ _) as [t2 o2] eqn:R.
  assert (C : forall a, interrupted t2 p a -> undisturbed a -> o2 = Val tt /\ exists rest, map fst a = [PBye; PJoin; PStop; PUserExit] ++ rest).
  { intros a Ia Ua. refine (run_cleans _ _ _ _ _ _ _ _ R Ia Np W Ua _). intros x y E. exact (N2 _ _ _ _ E). }
  destruct o2 as [u| | |].
  - cbn. intros H. injection H as <- <-. destruct (C _ I U) as [_ ?]. auto.
  - intros H. exfalso. revert H. apply Rep. intros a b E Ua. destruct (C a (ex_intro _ b E) Ua). discriminate.
  - intros H. injection H as <- <-. destruct (C _ I U). discriminate.
  - intros H. injection H as <- <-. destruct (C _ I U). discriminate.
Qed.

(** ** C124 *)
Definition quiet {A} (m : M A) : Prop := forall tr, exists new, fst (m tr) = new ++ tr /\ polls new = 0 /\ snd (m tr) <> Endless.
Lemma polls_app a b : polls (a ++ b) = polls a + polls b.
Proof. unfold polls. now rewrite filter_app, app_length. Qed.
Lemma quiet_ret {A} (a : A) : quiet (ret a).
Proof. intros tr. exists []. split; [reflexivity|split; [reflexivity|discriminate]]. Qed.
Lemma quiet_raise {A} : quiet (@raise A).
Proof. intros tr. exists []. split; [reflexivity|split; [reflexivity|discriminate]]. Qed.
Lemma quiet_test env p : p <> PPoll -> quiet (test env p).
Proof.
  intros N tr. exists [(p, env (length tr))]. split; [reflexivity|]. split; [destruct p; (reflexivity || congruence)|].
  cbn. destruct (env (length tr)); discriminate.
Qed.
Ltac quiet2 H o1 := let n2 := fresh "n2" in let E2 := fresh "E2" in let P2 := fresh "P2" in let N2 := fresh "N2" in
  match goal with |- context [?x (?n1 ++ ?tr)] => destruct (H (n1 ++ tr)) as (n2 & E2 & P2 & N2); exists (n2 ++ n1);
    split; [rewrite E2; apply app_assoc|split; [rewrite polls_app; lia|exact N2]] end.
Lemma quiet_then {A B} (m : M A) (k : A -> M B) : quiet m -> (forall a, quiet (k a)) -> quiet (andthen m k).
Proof.
  intros Hm Hk tr. destruct (Hm tr) as (n1 & E1 & P1 & N1). unfold andthen. destruct (m tr) as [t1 o1]. cbn in *. subst t1.
  destruct o1 as [a| | |]; [quiet2 (Hk a) tt| | |congruence]; exists n1; (split; [reflexivity|split; [exact P1|discriminate]]).
Qed.
Lemma quiet_at env p : p <> PPoll -> quiet (at_ env p).
Proof. intros N. apply quiet_then; [now apply quiet_test|intros; apply quiet_ret]. Qed.
Lemma quiet_try {A} (m h : M A) : quiet m -> quiet h -> quiet (try_exception m h).
Proof.
  intros Hm Hh tr. destruct (Hm tr) as (n1 & E1 & P1 & N1). unfold try_exception. destruct (m tr) as [t1 o1]. cbn in *. subst t1.
  destruct o1 as [a| | |]; [|quiet2 Hh tt| |congruence]; exists n1; (split; [reflexivity|split; [exact P1|discriminate]]).
Qed.
Lemma quiet_interrupt {A} (m h : M A) : quiet m -> quiet h -> quiet (try_interrupt m h).
Proof.
  intros Hm Hh tr. destruct (Hm tr) as (n1 & E1 & P1 & N1). unfold try_interrupt. destruct (m tr) as [t1 o1]. cbn in *. subst t1.
  destruct o1 as [a| | |]; [| |quiet2 Hh tt|congruence]; exists n1; (split; [reflexivity|split; [exact P1|discriminate]]).
Qed.
Lemma quiet_try_else {A B} (m : M A) (h e : M B) : quiet m -> quiet h -> quiet e -> quiet (try_exception_else m h e).
Proof.
  intros Hm Hh He tr. destruct (Hm tr) as (n1 & E1 & P1 & N1). unfold try_exception_else. destruct (m tr) as [t1 o1]. cbn in *. subst t1.
  destruct o1 as [a| | |]; [quiet2 He tt|quiet2 Hh tt| |congruence]. exists n1; (split; [reflexivity|split; [exact P1|discriminate]]).
Qed.
Lemma quiet_try_all {A B} (m : M A) (h e : M B) : quiet m -> quiet h -> quiet e -> quiet (try_all_else m h e).
Proof.
  intros Hm Hh He tr. destruct (Hm tr) as (n1 & E1 & P1 & N1). unfold try_all_else. destruct (m tr) as [t1 o1]. cbn in *. subst t1.
  destruct o1 as [a| | |]; [quiet2 He tt|quiet2 Hh tt|quiet2 Hh tt|congruence].
Qed.
Lemma quiet_finally {A} (m : M A) f : quiet m -> quiet f -> quiet (finally m f).
Proof.
  intros Hm Hf tr. destruct (Hm tr) as (n1 & E1 & P1 & N1). unfold finally. destruct (m tr) as [t1 o1]. cbn in *. subst t1.
  destruct (Hf (n1 ++ tr)) as (n2 & E2 & P2 & N2). destruct (f (n1 ++ tr)) as [t2 o2]. cbn in *. subst t2.
  exists (n2 ++ n1). rewrite polls_app. destruct o1; [| | |congruence]; (destruct o2; [| | |congruence]); cbn; (split; [apply app_assoc|split; [lia|discriminate]]).
Qed.
Section Q.
  Variable env : nat -> event.
  Variable exits : nat -> bool.
  Ltac at_q := apply quiet_at; discriminate.
  Ltac step_q := apply quiet_then; [at_q|intros _].
  Lemma quiet_send : quiet (send env).
  Proof. step_q. apply quiet_then; [|intros _; at_q]. apply quiet_try; [|apply quiet_raise]. step_q. apply quiet_finally; at_q. Qed.
  Lemma quiet_disk : quiet (disk_poll env).
  Proof. apply quiet_then; [now apply quiet_test|intros []; [|apply quiet_ret]]. step_q. step_q. apply quiet_send. Qed.
  Lemma quiet_tags : quiet (tag_poll env).
  Proof.
    apply quiet_then; [now apply quiet_test|intros []; [|apply quiet_ret]]. apply quiet_try; [|at_q].
    apply quiet_then; [now apply quiet_test|intros []; [|apply quiet_ret]]. step_q. apply quiet_then; [apply quiet_send|intros _; at_q].
  Qed.
  Lemma quiet_sync : quiet (sync env).
  Proof.
    apply quiet_try; [|at_q]. step_q. step_q. apply quiet_finally; [|at_q].
    apply quiet_then; [now apply quiet_test|intros []; [|apply quiet_ret]]. step_q.
    apply quiet_then; [apply quiet_try_all; at_q|intros _]. apply quiet_then; [apply quiet_send|intros _]. step_q. step_q. apply quiet_try_else; at_q.
  Qed.
  Lemma quiet_rest : quiet (try_exception (disk_poll env) (at_ env PLog) ;;; try_exception (tag_poll env) (at_ env PLog) ;;; sync env).
  Proof.
    apply quiet_then; [apply quiet_try; [apply quiet_disk|at_q]|intros _].
    apply quiet_then; [apply quiet_try; [apply quiet_tags|at_q]|intros _]. apply quiet_sync.
  Qed.
  (** One poll is one entry and quiet statements after it. *)
  Lemma one_poll tr : exists new, fst (poll env tr) = new ++ (PPoll, env (length tr)) :: tr /\ polls new = 0 /\ snd (poll env tr) <> Endless.
  Proof.
    pose proof quiet_rest as Q. unfold poll. set (rest := andthen (try_exception (disk_poll env) _) _) in *. unfold andthen.
    assert (E : exists o, at_ env PPoll tr = ((PPoll, env (length tr)) :: tr, o) /\ o <> Endless).
    { unfold at_, andthen, test. cbn. destruct (env (length tr)); eexists; split; try reflexivity; discriminate. }
    destruct E as (o & -> & N). destruct o as [a| | |]; [apply Q| | |congruence]; exists []; (split; [reflexivity|split; [reflexivity|discriminate]]).
  Qed.

  Variable t : nat.
  Hypothesis T : exit_from t exits.
  (** No poll but the first one after t *)
  Definition settled (tr : trace) : Prop := forall n, polls_again tr n -> n <= t.
  Lemma settled_quiet new tr : polls new = 0 -> settled tr -> settled (new ++ tr).
  Proof.
    intros P S n (after & ev & before & E & L & B). apply app_split in E as [(l & -> & ->)|(l & -> & ->)].
    - apply S. exists l, ev, before. auto.
    - rewrite polls_app in P. unfold polls at 2 in P. cbn in P. lia.
  Qed.
  Lemma settled_poll ev tr : settled tr -> (polls tr <> 0 -> length tr <= t) -> settled ((PPoll, ev) :: tr).
  Proof.
    intros S B n (after & ev' & before & E & L & P). destruct after as [|x after]; injection E as E1 E.
    - subst. auto.
    - apply S. exists after, ev', before. subst. auto.
  Qed.
  Lemma loop_settled fuel : forall tr, settled tr -> settled (fst (loop env exits fuel tr)) /\ (t < length tr + fuel -> fuel <> 0 -> snd (loop env exits fuel tr) <> Endless).
  Proof.
    induction fuel as [|fuel IH]; intros tr S; [split; [exact S|congruence]|]. cbn [loop].
    assert (Sw : settled ((PWait, env (length tr)) :: tr)) by (apply (settled_quiet [(PWait, env (length tr))]); auto).
    set (k := fun stop : bool => _). assert (Ek : andthen (wait env exits) k tr = match env (length tr) with
      | Goes b => k (exits (length tr)) ((PWait, Goes b) :: tr) | Fails => ((PWait, Fails) :: tr, Exc) | Interrupt => ((PWait, Interrupt) :: tr, Int) end).
    { unfold wait, andthen, test. cbv beta. destruct (env (length tr)); reflexivity. }
    rewrite Ek. clear Ek. destruct (env (length tr)) as [b| |]; [|split; [exact Sw|discriminate]..]. unfold k. clear k. destruct (exits (length tr)) eqn:Ex; [split; [exact Sw|discriminate]|].
    assert (Lt : length tr < t). { destruct (Nat.lt_ge_cases (length tr) t); [assumption|]. rewrite T in Ex by assumption. discriminate. }
    set (tr1 := (PWait, Goes b) :: tr) in *. unfold andthen.
    destruct (one_poll tr1) as (new & E & P & N). destruct (poll env tr1) as [t1 o1]. cbn [fst snd] in E, N. subst t1.
    assert (S1 : settled (new ++ (PPoll, env (length tr1)) :: tr1)). { apply settled_quiet; [exact P|]. apply settled_poll; [exact Sw|]. cbn. lia. }
    destruct o1 as [a| | |]; [|split; [exact S1|discriminate]..|congruence].
    destruct (IH _ S1) as [H1 H2]. split; [exact H1|]. intros F _. apply H2; [rewrite app_length; cbn; lia|]. cbn in F. lia.
  Qed.
  Lemma settled_nil : settled [].
  Proof. intros n (after & ev & before & E & _). now destruct after. Qed.
  Lemma run_settled fuel tr : polls tr = 0 -> settled (fst (run_forever env exits fuel tr)) /\ (t < fuel -> snd (run_forever env exits fuel tr) <> Endless).
  Proof.
    intros P0. assert (S0 : settled tr) by (rewrite <- (app_nil_r tr); apply settled_quiet; [exact P0|apply settled_nil]).
    unfold run_forever. set (rest := finally _ _). unfold andthen. destruct (quiet_at env PClock ltac:(discriminate) tr) as (n1 & E1 & P1 & N1).
    destruct (at_ env PClock tr) as [t1 o1]. cbn [fst snd] in E1, N1. subst t1.
    assert (S1 : settled (n1 ++ tr)) by (apply settled_quiet; auto).
    destruct o1 as [[]| | |]; [|split; [exact S1|discriminate]..|congruence].
    unfold rest. clear rest. set (tr1 := n1 ++ tr) in *. assert (Pt : polls tr1 = 0) by (unfold tr1; rewrite polls_app; lia).
    assert (B : settled (fst ((poll env ;;; loop env exits fuel) tr1)) /\ (t < fuel -> snd ((poll env ;;; loop env exits fuel) tr1) <> Endless)).
    { unfold andthen. destruct (one_poll tr1) as (new & E & P & N). destruct (poll env tr1) as [t2 o2]. cbn [fst snd] in E, N. subst t2.
      assert (S2 : settled (new ++ (PPoll, env (length tr1)) :: tr1)). { apply settled_quiet; [exact P|]. apply settled_poll; [exact S1|]. congruence. }
      destruct o2 as [[]| | |]; [|split; [exact S2|discriminate]..|congruence].
      destruct (loop_settled fuel _ S2) as [H1 H2]. split; [exact H1|]. intros F. apply H2; lia. }
    set (f := at_ env PStop ;;; at_ env PJoin ;;; at_ env PBye).
    assert (Qf : quiet f) by (unfold f; step_q; step_q; at_q).
    assert (Qh : quiet (at_ env PUserExit)) by at_q.
    assert (C : settled (fst (try_interrupt (poll env ;;; loop env exits fuel) (at_ env PUserExit) tr1)) /\
      (t < fuel -> snd (try_interrupt (poll env ;;; loop env exits fuel) (at_ env PUserExit) tr1) <> Endless)).
    { unfold try_interrupt. destruct ((poll env ;;; loop env exits fuel) tr1) as [t3 o3]. cbn [fst snd] in B. destruct B as [B1 B2].
      destruct o3; try (split; assumption). destruct (Qh t3) as (n4 & E4 & P4 & N4). rewrite E4. split; [apply settled_quiet; auto|auto]. }
    clear B Qh. unfold finally. destruct (try_interrupt _ _ tr1) as [t3 o3]. cbn [fst snd] in C. destruct C as [C1 C2].
    destruct (Qf t3) as (n4 & E4 & P4 & N4). destruct (f t3) as [t4 o4]. cbn [fst snd] in E4, N4. subst t4.
    assert (S4 : settled (n4 ++ t3)) by (apply settled_quiet; auto).
    destruct o3; try (split; [exact C1|exact C2]); destruct o4; (split; [exact S4|]); intros F; try discriminate; congruence.
  Qed.
  Lemma agent_settled fuel : forall tr o, agent env exits fuel [] = (tr, o) -> settled tr /\ (t < fuel -> o <> Endless).
  Proof.
    intros tr o. unfold agent, try_exception. unfold andthen at 1. destruct (quiet_at env PClient ltac:(discriminate) []) as (n1 & E1 & P1 & N1).
    destruct (at_ env PClient []) as [t1 o1]. cbn [fst snd] in E1, N1. subst t1. rewrite app_nil_r.
    assert (S1 : settled n1). { rewrite <- (app_nil_r n1). apply settled_quiet; [exact P1|apply settled_nil]. }
    assert (R : forall x, settled x -> (at_ env PReport ;;; ret (-1)%Z) x = (tr, o) -> settled tr /\ (t < fuel -> o <> Endless)).
    { intros x Sx H. assert (Q : quiet (at_ env PReport ;;; ret (-1)%Z)) by (apply quiet_then; [at_q|intros; apply quiet_ret]).
      destruct (Q x) as (n & E & P & N). rewrite H in E, N. cbn in E, N. subst tr. split; [apply settled_quiet; auto|auto]. }
    destruct o1 as [[]| | |]; [|apply R; exact S1| |congruence].
    2: { intros [= <- <-]. split; [exact S1|discriminate]. }
    unfold andthen at 1. destruct (run_settled fuel n1 P1) as [H1 H2]. destruct (run_forever env exits fuel n1) as [t2 o2]. cbn [fst snd] in H1, H2.
    destruct o2; cbn [ret].
    - intros [= <- <-]. split; [exact H1|discriminate].
    - apply R. exact H1.
    - intros [= <- <-]. split; [exact H1|discriminate].
    - intros [= <- <-]. split; [exact H1|]. intros F. now apply H2 in F.
  Qed.
End Q.

Lemma exit_ends env exits t fuel tr o : exit_from t exits -> agent env exits fuel [] = (tr, o) ->
  (forall n, polls_again tr n -> n <= t) /\ (t < fuel -> ended o).
Proof.
  intros T H. destruct (agent_settled env exits t T fuel tr o H) as [S N]. split; [exact S|]. intros F. apply N in F. destruct o; cbn; auto.
Qed.

(** ** C123: interrupts that are lost *)
Lemma at_idle env p tr : env (length tr) = Goes false -> at_ env p tr = ((p, Goes false) :: tr, Val tt).
Proof. unfold at_, andthen, test. now intros ->. Qed.
Lemma test_idle env p tr : env (length tr) = Goes false -> test env p tr = ((p, Goes false) :: tr, Val false).
Proof. unfold test. now intros ->. Qed.
Lemma idle_poll env tr : (forall n, length tr <= n -> env n = Goes false) ->
  poll env tr = ([(PSyncEnd, Goes false); (PUnsent, Goes false); (PSyncId, Goes false); (PLock, Goes false); (PTags, Goes false); (PDisk, Goes false); (PPoll, Goes false)] ++ tr, Val tt).
Proof.
  intros I. cbv [poll disk_poll tag_poll sync sync_ try_exception finally andthen ret].
  do 7 ((rewrite at_idle by (cbn; apply I; lia)) || (rewrite test_idle by (cbn; apply I; lia)); cbv iota beta). reflexivity.
Qed.
Lemma idle_loop env exits fuel : (forall n, exits n = false) -> forall tr, (forall n, length tr <= n -> env n = Goes false) ->
  exists new, loop env exits fuel tr = (new ++ tr, Endless) /\ polls new = fuel /\ no_failure new.
Proof.
  intros Ex. induction fuel as [|fuel IH]; intros tr I; [exists []; split; [reflexivity|split; [reflexivity|constructor]]|].
  cbn [loop]. unfold andthen at 1, wait, andthen at 1, test. rewrite I by lia. cbn [ret]. rewrite Ex. unfold andthen.
  rewrite idle_poll by (cbn; intros; apply I; lia).
  match goal with |- context [loop _ _ fuel ?x] => destruct (IH x) as (new & E & P & F); [intros; apply I; cbn in *; lia|] end.
  rewrite E. eexists. split; [rewrite app_assoc; change ((PWait, Goes false) :: tr) with ([(PWait, Goes false)] ++ tr); rewrite !app_assoc; reflexivity|].
  rewrite !polls_app, P. split; [cbn; lia|]. apply Forall_app. split; [apply Forall_app; split; [exact F|]|]; repeat constructor; discriminate.
Qed.

Lemma goes_on env tr0 : poll env [(PClock, Goes false); (PClient, Goes false)] = (tr0, Val tt) -> env 0 = Goes false -> env 1 = Goes false ->
  (forall n, length tr0 <= n -> env n = Goes false) ->
  forall fuel, exists new, agent env (fun _ => false) fuel [] = (new ++ tr0, Endless) /\ polls new = fuel /\ no_failure new.
Proof.
  intros P E0 E1 I fuel. destruct (idle_loop env (fun _ => false) fuel (fun _ => eq_refl) tr0 I) as (new & L & Pn & F).
  exists new. split; [|auto].
  assert (B : (poll env ;;; loop env (fun _ => false) fuel) [(PClock, Goes false); (PClient, Goes false)] = (new ++ tr0, Endless)) by (unfold andthen; now rewrite P).
  unfold agent, try_exception. unfold andthen at 1. rewrite at_idle by exact E0. unfold andthen at 1, run_forever. unfold andthen at 1.
  rewrite at_idle by exact E1. unfold finally, try_interrupt. now rewrite B.
Qed.
Lemma goes_on_at env a x b : poll env [(PClock, Goes false); (PClient, Goes false)] = (a ++ x :: b, Val tt) -> env 0 = Goes false -> env 1 = Goes false ->
  no_failure a -> polls a = 0 -> (forall n, length (a ++ x :: b) <= n -> env n = Goes false) ->
  forall fuel, exists after before, agent env (fun _ => false) fuel [] = (after ++ x :: before, Endless) /\ no_failure after /\ polls after = fuel.
Proof.
  intros P E0 E1 Fa Pa I fuel. destruct (goes_on env _ P E0 E1 I fuel) as (new & E & Pn & F). exists (new ++ a), b. rewrite <- app_assoc.
  split; [exact E|]. split; [now apply Forall_app|]. rewrite polls_app. lia.
Qed.
Definition meta_env (n : nat) : event := if n =? 9 then Interrupt else if n =? 7 then Goes true else Goes false.
Lemma meta_swallowed : forall fuel, exists after before,
  agent meta_env (fun _ => false) fuel [] = (after ++ (PMeta, Interrupt) :: before, Endless) /\ no_failure after /\ polls after = fuel.
Proof.
  apply (goes_on_at meta_env (map (fun p => (p, Goes false)) [PSyncEnd; PLog; PCheck; PLog; PResult; PParse; PClose; PRead; POpen; PEncode; PLog]) (PMeta, Interrupt)
    ((PBuild, Goes false) :: (PUnsent, Goes true) :: map (fun p => (p, Goes false)) [PSyncId; PLock; PTags; PDisk; PPoll; PClock; PClient])).
  - vm_compute. reflexivity.
  - reflexivity.
  - reflexivity.
  - repeat (constructor; [discriminate|]). constructor.
  - reflexivity.
  - cbn [length app map]. intros n H. unfold meta_env. destruct (Nat.eqb_spec n 9); [lia|]. destruct (Nat.eqb_spec n 7); [lia|reflexivity].
Qed.
Definition close_env (n : nat) : event := if n =? 8 then Interrupt else if n =? 9 then Fails else if n =? 3 then Goes true else Goes false.
Lemma close_replaces : forall fuel, exists after before,
  agent close_env (fun _ => false) fuel [] = (after ++ (PClose, Fails) :: (PRead, Interrupt) :: before, Endless) /\ no_failure after /\ polls after = fuel.
Proof.
  intros fuel. destruct (goes_on close_env (map (fun p => (p, Goes false)) [PSyncEnd; PUnsent; PSyncId; PLock; PTags; PLog] ++ (PClose, Fails) :: (PRead, Interrupt) ::
    map (fun p => (p, Goes false)) [POpen; PEncode; PBuild; PUsage] ++ (PDisk, Goes true) :: map (fun p => (p, Goes false)) [PPoll; PClock; PClient])) with (fuel := fuel) as (new & E & P & F).
  - vm_compute. reflexivity.
  - reflexivity.
  - reflexivity.
  - cbn [length app map]. intros n H. unfold close_env. destruct (Nat.eqb_spec n 8); [lia|]. destruct (Nat.eqb_spec n 9); [lia|]. destruct (Nat.eqb_spec n 3); [lia|reflexivity].
  - rewrite app_assoc in E. eexists _, _. split; [exact E|]. split; [|rewrite polls_app, P; cbn; lia].
    apply Forall_app. split; [exact F|]. repeat (constructor; [discriminate|]). constructor.
Qed.

(** ** C125 *)
Definition orderly (l : list thread) : Prop := exists a r, l = Thr Main false a :: r /\ Forall (fun t => t_kind t <> Main /\ t_daemon t = true) r.
Lemma set_dead_tail i r : Forall (fun t => t_kind t <> Main /\ t_daemon t = true) r -> Forall (fun t => t_kind t <> Main /\ t_daemon t = true) (set_dead i r).
Proof. intros F. revert i. induction F as [|t r H F IH]; intros [|i]; cbn; constructor; auto. Qed.
Lemma tstep_orderly e l : orderly l -> orderly (tstep e l).
Proof.
  intros (a & r & -> & F). destruct e as [i k|[|i]]; cbn [tstep].
  - destruct (nth_error _ i) as [t|] eqn:E; [|now exists a, r]. destruct (t_alive t && may_start (t_kind t) k) eqn:B; [|now exists a, r].
    apply andb_prop in B as [_ B]. exists a, (r ++ [Thr k (match daemon_flag k with Some b => b | None => t_daemon t end) true]). split; [reflexivity|].
    apply Forall_app. split; [exact F|]. constructor; [|constructor]. cbn.
    split; [intros ->; destruct (t_kind t); discriminate|]. destruct i as [|i]; cbn in E.
    + injection E as <-. cbn in B. destruct k; try discriminate; reflexivity.
    + apply nth_error_In in E. rewrite Forall_forall in F. apply F in E as [_ ->]. destruct k; reflexivity.
  - exists false, r. auto.
  - exists a, (set_dead i r). split; [reflexivity|]. now apply set_dead_tail.
Qed.
Lemma trun_orderly evs : orderly (trun evs).
Proof.
  unfold trun. assert (O : orderly [Thr Main false true]) by (exists true, []; auto). revert O. generalize [Thr Main false true].
  induction evs as [|e evs IH]; intros l O; [exact O|]. cbn. apply IH. now apply tstep_orderly.
Qed.
Lemma only_main evs t : kept_by (trun evs) t -> t_kind t = Main.
Proof.
  destruct (trun_orderly evs) as (a & r & -> & F). intros ([<-|I] & A & D); [reflexivity|]. rewrite Forall_forall in F. apply F in I as [_ E]. congruence.
Qed.
Lemma over_main evs : process_over (trun evs) = true <-> ~ main_alive (trun evs).
Proof.
  destruct (trun_orderly evs) as (a & r & -> & F). unfold main_alive. cbn [process_over forallb t_alive t_daemon]. split.
  - intros H (t & [<-|I] & K & A).
    + apply andb_prop in H as [H _]. cbn in *. subst. discriminate.
    + rewrite Forall_forall in F. now apply F in I as [? _].
  - intros H. apply andb_true_intro. split.
    + destruct a; [|reflexivity]. exfalso. apply H. exists (Thr Main false true). cbn. auto.
    + apply forallb_forall. intros t I. rewrite Forall_forall in F. apply F in I as [_ ->]. apply orb_true_r.
Qed.
