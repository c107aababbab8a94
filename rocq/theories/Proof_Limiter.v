(** * Proofs about the limiter *)
From Verif Require Import Py Dict_lemmas Model_Limiter Spec_Limiter.
Open Scope Z_scope.

Lemma set_nth_length {A} n (x : A) l : length (set_nth n x l) = length l.
Proof. revert n. induction l as [|y l IH]; intros [|n]; cbn; auto. Qed.
Lemma nth_set_nth_eq {A} n (x y : A) l : nth_error l n = Some y -> nth_error (set_nth n x l) n = Some x.
Proof. revert n. induction l as [|z l IH]; intros [|n]; cbn; try discriminate; auto. Qed.
Lemma nth_set_nth_neq {A} n m (x : A) l : n <> m -> nth_error (set_nth n x l) m = nth_error l m.
Proof. revert n m. induction l as [|z l IH]; intros [|n] [|m] H; cbn; try congruence; auto. Qed.

Definition b2z (b : bool) : Z := if b then 1 else 0.
Definition cnt (f : pc -> bool) (l : list pc) : Z := Z.of_nat (length (filter f l)).
Lemma cnt_cons f p l : cnt f (p :: l) = b2z (f p) + cnt f l.
Proof. unfold cnt. cbn [filter]. destruct (f p); cbn [length b2z]; lia. Qed.
Lemma cnt_nil f : cnt f [] = 0. Proof. reflexivity. Qed.
Lemma cnt_nonneg f l : 0 <= cnt f l. Proof. unfold cnt. lia. Qed.
Lemma cnt_app f l m : cnt f (l ++ m) = cnt f l + cnt f m.
Proof. unfold cnt. rewrite filter_app, app_length. lia. Qed.
Lemma cnt_set f t p q l : nth_error l t = Some p -> cnt f (set_nth t q l) = cnt f l - b2z (f p) + b2z (f q).
Proof.
  revert t. induction l as [|y l IH]; intros [|t]; cbn; try discriminate.
  - intros [= ->]. rewrite !cnt_cons. lia.
  - intros H. rewrite !cnt_cons. rewrite (IH _ H). lia.
Qed.
Lemma cnt_pos f t p l : nth_error l t = Some p -> f p = true -> 1 <= cnt f l.
Proof.
  revert t. induction l as [|y l IH]; intros [|t]; cbn [nth_error]; try discriminate; rewrite cnt_cons.
  - intros [= ->] ->. pose proof (cnt_nonneg f l). cbn [b2z]. lia.
  - intros H H1. specialize (IH _ H H1). destruct (f y); cbn [b2z]; lia.
Qed.

(** How deep a thread holds the lock. *)
Definition depth (p : pc) : nat :=
  match p with
  | IncTest _ | IncRead _ | IncWrite _ _ | IncRelease _ | IncRefused _ => 1
  | Setup _ | Start _ | CtxExit _ | CtxExitRaise _ | DecAcquire (ByLaunch _) => 1
  | DecTest (ByLaunch _) | DecRead (ByLaunch _) | DecWrite (ByLaunch _) _ | DecRelease (ByLaunch _) | DecFailed (ByLaunch _) => 2
  | DecTest ByService | DecRead ByService | DecWrite ByService _ | DecRelease ByService | DecFailed ByService => 1
  | _ => 0
  end%nat.
Definition lock_ok (lk : option (nat * nat)) (t : nat) (p : pc) : Prop :=
  match depth p with O => forall d, lk <> Some (t, d) | S d => lk = Some (t, S d) end.
Definition holds (p : pc) : bool := launching p || serving p.
Lemma holds_split p : b2z (holds p) = b2z (launching p) + b2z (serving p).
Proof. destruct p as [| | | | | | | | | | |[]|[]|[]|[]|[]|[]| | | |]; reflexivity. Qed.
Lemma cnt_holds l : cnt holds l = cnt launching l + cnt serving l.
Proof. induction l as [|p l IH]; [reflexivity|]. rewrite !cnt_cons, holds_split, IH. lia. Qed.

Section Inv.
  Variable limit : Z.
  Hypothesis limit_pos : 0 < limit.

  Definition pinv (v : Z) (p : pc) : Prop :=
    match p with
    | IncRead _ => v < limit
    | IncWrite _ w => w = v /\ v < limit
    | DecRead _ => 0 < v
    | DecWrite _ w => w = v /\ 0 < v
    | DecFailed _ => False
    | _ => True
    end.
  Definition asked t k (D : list lev) := D = [Asked t k].
  Definition up t k (D : list lev) := exists v, D = [Asked t k; Wrote t v (v + 1)].
  Definition launched t k (D : list lev) := exists v s, D = [Asked t k; Wrote t v (v + 1); Began t s].
  Definition updown t k (D : list lev) := exists v w, D = [Asked t k; Wrote t v (v + 1); Wrote t w (w - 1)].
  Definition unserved t k D := asked t k D \/ updown t k D.
  Definition dinv (t : nat) (p : pc) (D : list lev) : Prop :=
    match p with
    | IncAcquire k | IncTest k | IncRead k | IncWrite k _ | IncRefused k => asked t k D
    | IncRelease k | CtxAcquire k | Setup k | Start k => up t k D
    | DecAcquire (ByLaunch k) | DecTest (ByLaunch k) | DecRead (ByLaunch k) | DecWrite (ByLaunch k) _ | DecFailed (ByLaunch k) => up t k D
    | CtxExit k => launched t k D
    | DecRelease (ByLaunch k) | CtxExitRaise k => updown t k D
    | Tell k => unserved t k D
    | HangUp k => exists D0, D = D0 ++ [Told t (refusal k)] /\ unserved t k D0
    | Running | DecAcquire ByService | DecTest ByService | DecRead ByService | DecWrite ByService _ | DecFailed ByService => D = []
    | DecRelease ByService => exists w, D = [Wrote t w (w - 1)]
    | Done =>
        (exists w, D = [Wrote t w (w - 1)]) \/
        exists k, launched t k D \/
          exists D0, unserved t k D0 /\
            (D = D0 ++ [Told t (refusal k); HungUp t] \/ D = D0 ++ [SendRaised t] \/ D = D0 ++ [Told t (refusal k); SendRaised t])
    end.

  Record inv (st : lstate) : Prop := {
    i_thread : forall t p, nth_error (l_threads st) t = Some p ->
       lock_ok (l_lock st) t p /\ pinv (l_value st) p /\ dinv t p (deeds t st);
    i_owner : forall o d, l_lock st = Some (o, d) -> exists p, nth_error (l_threads st) o = Some p /\ depth p = d /\ d <> 0%nat;
    i_value : l_value st = cnt holds (l_threads st);
    i_limit : l_value st <= limit;
    i_chain : chained (l_log st) (l_value st);
    i_known : forall e t, In e (l_log st) -> of_thread t e = true -> (t < length (l_threads st))%nat;
    i_under : forall t, ~ In (Underflow t) (l_log st) }.

  Definition other_lock (t : nat) (lk lk' : option (nat * nat)) : Prop :=
    lk' = lk \/ ((lk = None \/ exists d, lk = Some (t, d)) /\ (lk' = None \/ exists d, lk' = Some (t, d))).

  Lemma deeds_app t v lk th evs log :
    deeds t (LState v lk th (evs ++ log)) = deeds t (LState v lk th log) ++ filter (of_thread t) (rev evs).
  Proof. unfold deeds. cbn. now rewrite rev_app_distr, filter_app. Qed.
  Lemma deeds_log t st st' : l_log st = l_log st' -> deeds t st = deeds t st'.
  Proof. unfold deeds. now intros ->. Qed.

  Lemma deeds_ev t u e v lk th log : of_thread u e = true ->
    deeds t (LState v lk th (e :: log)) = deeds t (LState v lk th log) ++ (if (t =? u)%nat then [e] else []).
  Proof.
    intros H. change (e :: log) with ([e] ++ log). rewrite deeds_app. cbn.
    assert (of_thread t e = (t =? u)%nat) as ->; [|now destruct (t =? u)%nat].
    destruct e; cbn in *; apply Nat.eqb_eq in H; subst; apply Nat.eqb_sym.
  Qed.
  Lemma of_thread_inj t u e : of_thread t e = true -> of_thread u e = true -> t = u.
  Proof. destruct e; cbn; intros H1 H2; apply Nat.eqb_eq in H1, H2; congruence. Qed.
  Lemma deeds_none t st : (forall e, In e (l_log st) -> of_thread t e = false) -> deeds t st = [].
  Proof.
    unfold deeds. intros H. assert (forall e, In e (rev (l_log st)) -> of_thread t e = false) as H1
      by (intros e He; apply H; now apply in_rev).
    revert H1. generalize (rev (l_log st)). intros l. induction l as [|e l IH]; cbn; auto. intros H1.
    rewrite H1 by auto. apply IH. auto.
  Qed.

  (** A step of thread [t] that keeps what it must keep. *)
  Lemma inv_upd st t p p' extra v' lk' evs :
    inv st -> nth_error (l_threads st) t = Some p ->
    (extra = [] \/ extra = [Running]) ->
    other_lock t (l_lock st) lk' -> lock_ok lk' t p' -> (forall d, lk' = Some (t, d) -> depth p' = d /\ d <> 0%nat) ->
    (v' = l_value st \/ depth p <> 0%nat) ->
    pinv v' p' -> dinv t p' (deeds t st ++ rev evs) ->
    v' = l_value st - b2z (holds p) + b2z (holds p') + cnt holds extra ->
    v' <= limit -> chained (evs ++ l_log st) v' ->
    Forall (fun e => of_thread t e = true) evs -> (forall u, ~ In (Underflow u) evs) ->
    inv (LState v' lk' (set_nth t p' (l_threads st) ++ extra) (evs ++ l_log st)).
  Proof.
    intros I Hp Hx Hlk Hok Hown Hv Hpi Hdi Hval Hlim Hch Hev Hun.
    destruct (i_thread _ I _ _ Hp) as [Lp [Pp Dp]].
    assert (t < length (l_threads st))%nat as Ht by (apply nth_error_Some; congruence).
    assert (filter (of_thread t) (rev evs) = rev evs) as Hft.
    { rewrite Forall_forall in Hev.
      assert (forall e, In e (rev evs) -> of_thread t e = true) as H by (intros e He; apply Hev; now apply in_rev).
      revert H. generalize (rev evs). intros l. induction l as [|e l IH]; cbn; auto. intros H. rewrite H by auto. f_equal. auto. }
    assert (forall u, u <> t -> filter (of_thread u) (rev evs) = []) as Hfu.
    { intros u Hu. rewrite Forall_forall in Hev.
      assert (forall e, In e (rev evs) -> of_thread u e = false) as H.
      { intros e He. apply in_rev in He. destruct (of_thread u e) eqn:E; auto. exfalso. apply Hu.
        apply (of_thread_inj u t e); auto. }
      revert H. generalize (rev evs). intros l. induction l as [|e l IH]; cbn; auto. intros H. rewrite H by auto. auto. }
    assert (forall u, deeds u (LState v' lk' (set_nth t p' (l_threads st) ++ extra) (evs ++ l_log st))
                      = deeds u st ++ filter (of_thread u) (rev evs)) as Hd.
    { intros u. rewrite deeds_app. f_equal. }
    split; cbn [l_value l_lock l_threads l_log].
    - intros u q Hq. rewrite Hd. destruct (Nat.lt_ge_cases u (length (l_threads st))) as [Hlt|Hge].
      + rewrite nth_error_app1 in Hq by (rewrite set_nth_length; auto).
        destruct (Nat.eq_dec u t) as [->|Hne].
        * rewrite (nth_set_nth_eq _ _ _ _ Hp) in Hq. injection Hq as <-. rewrite Hft. auto.
        * rewrite nth_set_nth_neq in Hq by auto. rewrite Hfu, app_nil_r by auto.
          destruct (i_thread _ I _ _ Hq) as [Lq [Pq Dq]]. repeat split; auto.
          -- unfold lock_ok in *. destruct Hlk as [->|[Ha Hb]]; auto.
             destruct (depth q) as [|d].
             ++ intros d. destruct Hb as [->|[d2 ->]]; congruence.
             ++ destruct Ha as [Ha|[d2 Ha]]; rewrite Ha in Lq; congruence.
          -- destruct Hv as [->|Hdp]; auto.
             assert (depth q = 0)%nat as Hq0.
             { unfold lock_ok in Lp, Lq. destruct (depth p); [congruence|]. destruct (depth q); auto. congruence. }
             destruct q as [| | | | | | | | | | |[]|[]|[]|[]|[]|[]| | | |]; cbn in Hq0; try discriminate; cbn; auto.
      + rewrite nth_error_app2 in Hq by (rewrite set_nth_length; auto). rewrite set_nth_length in Hq.
        destruct Hx as [->| ->]; [destruct (u - _)%nat; discriminate|].
        destruct (u - length (l_threads st))%nat as [|n] eqn:E; [|destruct n; discriminate]. injection Hq as <-.
        repeat split; cbn; auto.
        * intros d Hd2. destruct Hlk as [->|[Ha Hb]].
          -- destruct (i_owner _ I _ _ Hd2) as [q [Hq _]]. assert (u < length (l_threads st))%nat by (apply nth_error_Some; congruence). lia.
          -- destruct Hb as [->|[d2 ->]]; [discriminate|]. injection Hd2 as <- _. lia.
        * rewrite Hfu by lia. rewrite app_nil_r. apply deeds_none. intros e He.
          destruct (of_thread u e) eqn:E2; auto. pose proof (i_known _ I _ _ He E2). lia.
    - intros o d Hod. destruct (Nat.eq_dec o t) as [->|Hne].
      + exists p'. destruct (Hown _ Hod). split; auto. rewrite nth_error_app1 by (rewrite set_nth_length; auto).
        apply (nth_set_nth_eq _ _ _ _ Hp).
      + destruct Hlk as [->|[Ha Hb]].
        * destruct (i_owner _ I _ _ Hod) as [q [Hq Hd2]]. exists q. split; auto.
          rewrite nth_error_app1 by (rewrite set_nth_length; apply nth_error_Some; congruence).
          now rewrite nth_set_nth_neq by auto.
        * destruct Hb as [->|[d2 ->]]; [discriminate|congruence].
    - rewrite cnt_app, (cnt_set _ _ _ _ _ Hp). rewrite <- (i_value _ I). lia.
    - auto.
    - auto.
    - intros e u He Hu. rewrite app_length, set_nth_length. apply in_app_iff in He as [He|He].
      + rewrite Forall_forall in Hev. rewrite (of_thread_inj u t e); auto. lia.
      + pose proof (i_known _ I _ _ He Hu). lia.
    - intros u He. apply in_app_iff in He as [He|He]; [now apply (Hun u)|now apply (i_under _ I u)].
  Qed.

  Lemma linit_inv : inv linit.
  Proof.
    split; cbn; auto; try lia; try discriminate; try tauto.
    intros [|t] p; discriminate.
  Qed.

  Lemma request_inv st k : inv st -> inv (LState (l_value st) (l_lock st) (l_threads st ++ [IncAcquire k]) (Asked (length (l_threads st)) k :: l_log st)).
  Proof.
    intros I. set (n := length (l_threads st)).
    assert (forall u, deeds u (LState (l_value st) (l_lock st) (l_threads st ++ [IncAcquire k]) (Asked n k :: l_log st))
       = deeds u st ++ if (u =? n)%nat then [Asked n k] else []) as Hd.
    { intros u. rewrite (deeds_ev u n) by (cbn; apply Nat.eqb_refl). reflexivity. }
    split; cbn [l_value l_lock l_threads l_log].
    - intros u p Hu. rewrite Hd. destruct (Nat.lt_ge_cases u n) as [Hlt|Hge].
      + rewrite nth_error_app1 in Hu by auto. destruct (Nat.eqb_spec u n); [lia|]. rewrite app_nil_r. now apply (i_thread _ I).
      + rewrite nth_error_app2 in Hu by auto. destruct (u - length (l_threads st))%nat as [|m] eqn:E; [|destruct m; discriminate].
        injection Hu as <-. assert (u = n) as -> by (unfold n in *; lia). rewrite Nat.eqb_refl.
        repeat split; cbn; auto.
        * intros d Hl. destruct (i_owner _ I _ _ Hl) as [q [Hq _]].
          assert (n < n)%nat by (unfold n at 2; apply nth_error_Some; congruence). lia.
        * unfold asked. rewrite deeds_none; auto. intros e He. destruct (of_thread n e) eqn:E2; auto.
          pose proof (i_known _ I _ _ He E2). unfold n in *. lia.
    - intros o d H. destruct (i_owner _ I _ _ H) as [q [Hq H2]]. exists q. split; auto.
      rewrite nth_error_app1; auto. apply nth_error_Some. congruence.
    - rewrite cnt_app, (i_value _ I). cbn. lia.
    - apply (i_limit _ I).
    - cbn. apply (i_chain _ I).
    - intros e t [<-|He] Ht; rewrite app_length; cbn [length].
      + cbn in Ht. apply Nat.eqb_eq in Ht. unfold n in Ht. lia.
      + pose proof (i_known _ I _ _ He Ht). lia.
    - intros t [H|H]; [discriminate|]. now apply (i_under _ I t).
  Qed.

  Lemma acquire_spec t st st' : acquire t st = Some st' ->
    exists d, st' = LState (l_value st) (Some (t, S d)) (l_threads st) (l_log st) /\
      (l_lock st = None /\ d = 0%nat \/ l_lock st = Some (t, d)).
  Proof.
    unfold acquire. destruct (l_lock st) as [[o d]|] eqn:E.
    - destruct (Nat.eqb_spec o t) as [->|]; [|discriminate]. intros [= <-]. exists d. auto.
    - intros [= <-]. exists 0%nat. auto.
  Qed.

  Lemma tstep_inv t fails st st' : inv st -> tstep limit t fails st = Some st' -> inv st'.
  Proof.
    intros I. unfold tstep. destruct (nth_error (l_threads st) t) as [p|] eqn:Hp; [|discriminate].
    destruct (i_thread _ I _ _ Hp) as [Lp [Pp Dp]].
    pose proof (i_value _ I) as Hval. pose proof (i_limit _ I) as Hlim. pose proof (i_chain _ I) as Hch.
    pose proof (cnt_nonneg holds (l_threads st)) as Hnn.
    assert (holds p = true -> 1 <= l_value st) as Hone.
    { intros H. rewrite Hval. now apply (cnt_pos _ t p). }
    assert (forall p' v' lk' evs, 
      other_lock t (l_lock st) lk' -> lock_ok lk' t p' -> (forall d, lk' = Some (t, d) -> depth p' = d /\ d <> 0%nat) ->
      (v' = l_value st \/ depth p <> 0%nat) -> pinv v' p' -> dinv t p' (deeds t st ++ rev evs) ->
      v' = l_value st - b2z (holds p) + b2z (holds p') -> v' <= limit -> chained (evs ++ l_log st) v' ->
      Forall (fun e => of_thread t e = true) evs -> (forall u, ~ In (Underflow u) evs) ->
      inv (LState v' lk' (set_nth t p' (l_threads st)) (evs ++ l_log st))) as Hupd.
    { intros p' v' lk' evs. intros. rewrite <- (app_nil_r (set_nth t p' (l_threads st))).
      apply (inv_upd st t p p' [] v' lk' evs); auto. rewrite cnt_nil. lia. }
    (* acquiring *)
    assert (forall p' , depth p = 0%nat /\ depth p' = 1%nat \/ depth p = 1%nat /\ depth p' = 2%nat ->
       pinv (l_value st) p' -> dinv t p' (deeds t st) -> holds p' = holds p ->
       option_map (goto t p') (acquire t st) = Some st' -> inv st') as Hacq.
    { intros p' Hd Hpi Hdi Hh H. destruct (acquire t st) as [st1|] eqn:Ha; [|discriminate]. injection H as <-.
      apply acquire_spec in Ha as [d [-> Hd2]]. unfold goto. cbn [l_value l_lock l_threads l_log].
      apply (Hupd p' (l_value st) (Some (t, S d)) []); auto.
      - right. split; [destruct Hd2 as [[-> _]| ->]; eauto|eauto].
      - unfold lock_ok in *. destruct Hd as [[H1 H2]|[H1 H2]]; rewrite H1 in Lp; rewrite H2; destruct Hd2 as [[E ->]|H3]; try congruence.
      - intros d2 [= <-]. unfold lock_ok in *. destruct Hd as [[H1 H2]|[H1 H2]]; rewrite H1 in Lp; rewrite H2; destruct Hd2 as [[E ->]|H3]; split; try congruence; exfalso; try congruence.
      - cbn. now rewrite app_nil_r.
      - rewrite Hh. lia. }
    (* releasing, possibly after an event *)
    assert (forall p' e, depth p = 1%nat /\ depth p' = 0%nat \/ depth p = 2%nat /\ depth p' = 1%nat ->
       pinv (l_value st) p' -> dinv t p' (deeds t st ++ rev e) -> holds p' = holds p ->
       e = [] -> inv (goto t p' (release t st))) as Hrel.
    { intros p' e Hd Hpi Hdi Hh ->. unfold release. unfold lock_ok in Lp.
      destruct Hd as [[H1 H2]|[H1 H2]]; rewrite H1 in Lp; rewrite Lp; unfold goto; cbn [l_value l_lock l_threads l_log].
      - apply (Hupd p' (l_value st) None []); auto; try discriminate.
        + right. rewrite Lp. split; eauto.
        + unfold lock_ok. rewrite H2. discriminate.
        + rewrite Hh. lia.
      - apply (Hupd p' (l_value st) (Some (t, 1%nat)) []); auto.
        + right. rewrite Lp. split; eauto.
        + unfold lock_ok. now rewrite H2.
        + intros d [= <-]. auto.
        + rewrite Hh. lia. }
    (* staying under the same lock, value and log *)
    assert (forall p', depth p' = depth p -> pinv (l_value st) p' -> dinv t p' (deeds t st) -> holds p' = holds p ->
       inv (goto t p' st)) as Hstay.
    { intros p' Hd Hpi Hdi Hh. unfold goto. apply (Hupd p' (l_value st) (l_lock st) []); auto.
      - now left.
      - unfold lock_ok. now rewrite Hd.
      - intros d H. unfold lock_ok in Lp. rewrite Hd. destruct (depth p); [now apply Lp in H|]. rewrite Lp in H. injection H as <-. auto.
      - cbn. now rewrite app_nil_r.
      - rewrite Hh. lia. }
    (* one event, same value and lock *)
    assert (forall p' e, depth p' = depth p -> pinv (l_value st) p' -> dinv t p' (deeds t st ++ [e]) -> holds p' = holds p ->
       of_thread t e = true -> (forall u, e <> Underflow u) -> (forall u a b, e <> Wrote u a b) ->
       inv (goto t p' (note e st))) as Hnote.
    { intros p' e Hd Hpi Hdi Hh He Hu Hw. unfold goto, note. cbn [l_value l_lock l_threads l_log].
      apply (Hupd p' (l_value st) (l_lock st) [e]); auto.
      - now left.
      - unfold lock_ok. now rewrite Hd.
      - intros d H. unfold lock_ok in Lp. rewrite Hd. destruct (depth p); [now apply Lp in H|]. rewrite Lp in H. injection H as <-. auto.
      - rewrite Hh. lia.
      - destruct e; cbn; auto. now destruct (Hw t0 old new).
      - intros u [H|[]]. now apply (Hu u). }
    destruct p; intros Hs.
    - (* IncAcquire *) apply (Hacq (IncTest k)); auto.
    - (* IncTest *) injection Hs as <-. destruct (Z.leb_spec limit (l_value st)); apply Hstay; cbn; auto.
    - (* IncRead *) injection Hs as <-. apply Hstay; cbn in *; auto.
    - (* IncWrite *) injection Hs as <-. destruct Pp as [-> Pp]. unfold goto, assign. cbn [l_value l_lock l_threads l_log].
      apply (Hupd (IncRelease k) (l_value st + 1) (l_lock st) [Wrote t (l_value st) (l_value st + 1)]); cbn; auto; try lia.
      + now left.
      + intros d H. unfold lock_ok in Lp. cbn in Lp. rewrite Lp in H. injection H as <-. auto.
      + cbn in Dp. rewrite Dp. cbn. eexists. reflexivity.
      + constructor; auto. cbn. apply Nat.eqb_refl.
      + intros u [H|[]]. discriminate.
    - (* IncRelease *) injection Hs as <-. apply (Hrel _ []); cbn; rewrite ?app_nil_r; auto.
    - (* IncRefused *) injection Hs as <-. apply (Hrel _ []); cbn; rewrite ?app_nil_r; auto. left. auto.
    - (* CtxAcquire *) apply (Hacq (Setup k)); auto.
    - (* Setup *) injection Hs as <-. destruct fails; apply Hstay; cbn; auto.
    - (* Start *) destruct fails; injection Hs as <-; [apply Hstay; cbn; auto|].
      assert (t < length (l_threads st))%nat as Ht by (apply nth_error_Some; congruence).
      replace (goto t (CtxExit k) (spawn t st)) with
        (LState (l_value st) (l_lock st) (set_nth t (CtxExit k) (l_threads st) ++ [Running]) ([Began t (length (l_threads st))] ++ l_log st)).
      + apply (inv_upd st t (Start k)); auto; cbn; auto; try lia.
        * now left.
        * intros d H. unfold lock_ok in Lp. cbn in Lp. rewrite Lp in H. injection H as <-. auto.
        * cbn in Dp. destruct Dp as [v ->]. cbn. unfold launched. eauto.
        * constructor; auto. cbn. apply Nat.eqb_refl.
        * intros u [H|[]]. discriminate.
      + unfold goto, spawn. cbn [l_value l_lock l_threads l_log]. f_equal.
        clear -Ht. revert t Ht. induction (l_threads st) as [|y l IH]; intros [|t] Ht; cbn in *; try lia; auto. f_equal. apply IH. lia.
    - (* CtxExit *) injection Hs as <-. apply (Hrel _ []); cbn; rewrite ?app_nil_r; auto. right. exists k. auto.
    - (* CtxExitRaise *) injection Hs as <-. apply (Hrel _ []); cbn; rewrite ?app_nil_r; auto. right. auto.
    - (* DecAcquire *) apply (Hacq (DecTest a)); auto; destruct a; cbn in *; auto.
    - (* DecTest *) injection Hs as <-. destruct (Z.leb_spec (l_value st) 0).
      + exfalso. assert (1 <= l_value st) by (apply Hone; destruct a; reflexivity). lia.
      + apply Hstay; destruct a; cbn; auto.
    - (* DecRead *) injection Hs as <-. apply Hstay; destruct a; cbn in *; auto.
    - (* DecWrite *) injection Hs as <-. destruct Pp as [-> Pp]. unfold goto, assign. cbn [l_value l_lock l_threads l_log].
      apply (Hupd (DecRelease a) (l_value st - 1) (l_lock st) [Wrote t (l_value st) (l_value st - 1)]); try (destruct a; cbn; auto; lia).
      + now left.
      + intros d H. unfold lock_ok in Lp. destruct a; cbn in *; rewrite Lp in H; injection H as <-; auto.
      + destruct a; cbn in *.
        * destruct Dp as [v ->]. cbn. unfold updown. eauto.
        * rewrite Dp. cbn. eauto.
      + constructor; auto. cbn. apply Nat.eqb_refl.
      + intros u [H|[]]. discriminate.
    - (* DecRelease *) injection Hs as <-. apply (Hrel _ []); destruct a; cbn in *; rewrite ?app_nil_r; auto.
    - (* DecFailed *) destruct Pp.
    - (* Tell *) destruct fails; injection Hs as <-.
      + apply Hnote; cbn; auto; try discriminate.
        * right. exists k. right. exists (deeds t st). auto.
        * apply Nat.eqb_refl.
      + apply Hnote; cbn; auto; try discriminate.
        * exists (deeds t st). auto.
        * apply Nat.eqb_refl.
    - (* HangUp *) cbn in Dp. destruct Dp as [D0 [HD HU]]. destruct fails; injection Hs as <-; apply Hnote; cbn; auto; try discriminate;
        try apply Nat.eqb_refl; right; exists k; right; exists D0; split; auto; rewrite HD, <- app_assoc; cbn; auto.
    - (* Running *) injection Hs as <-. apply Hstay; cbn; auto.
    - discriminate.
  Qed.

  Lemma act_inv a st st' : inv st -> act limit a st = Some st' -> inv st'.
  Proof.
    intros I. destruct a as [k|t f]; cbn; [intros [= <-]; now apply request_inv|now apply tstep_inv].
  Qed.
  Lemma run_inv l : forall st st', inv st -> run limit l st = Some st' -> inv st'.
  Proof.
    induction l as [|a l IH]; cbn; intros st st' I; [intros [= <-]; auto|].
    destruct (act limit a st) as [st1|] eqn:E; [|discriminate]. intros H. eapply IH; [|exact H]. eapply act_inv; eauto.
  Qed.
  Lemma reach l st : run limit l linit = Some st -> inv st.
  Proof. intros H. eapply run_inv; [apply linit_inv|exact H]. Qed.

  Lemma c27 l st : run limit l linit = Some st ->
    0 <= l_value st <= limit /\ l_value st = count launching st + count serving st /\
    chained (l_log st) (l_value st) /\ (forall t, ~ In (Underflow t) (l_log st)).
  Proof.
    intros H. apply reach in H. pose proof (i_value _ H) as Hv. pose proof (cnt_nonneg holds (l_threads st)).
    repeat split.
    - lia.
    - apply (i_limit _ H).
    - rewrite Hv, cnt_holds. reflexivity.
    - apply (i_chain _ H).
    - apply (i_under _ H).
  Qed.

  Lemma cnt_zero f l : (forall p, In p l -> f p = false) -> cnt f l = 0.
  Proof.
    induction l as [|p l IH]; intros H; [reflexivity|]. rewrite cnt_cons, IH by (intros; apply H; cbn; auto).
    rewrite H by (cbn; auto). reflexivity.
  Qed.
  Lemma c28 l st : run limit l linit = Some st ->
    (forall p, In p (l_threads st) -> launching p = false /\ serving p = false) -> l_value st = 0.
  Proof.
    intros H Hn. destruct (c27 _ _ H) as [_ [-> _]]. unfold count. fold (cnt launching (l_threads st)) (cnt serving (l_threads st)).
    rewrite !cnt_zero; auto; intros p Hp; now apply Hn.
  Qed.
  Lemma c28_done l st : run limit l linit = Some st -> Forall (fun p => p = Done) (l_threads st) -> l_value st = 0.
  Proof.
    intros H Hd. apply (c28 _ _ H). rewrite Forall_forall in Hd. intros p Hp. rewrite (Hd _ Hp). auto.
  Qed.

  (** The lock is never left behind: whoever waits for it waits for a thread that can go on. *)
  Lemma tstep_enabled t p fails st : inv st -> nth_error (l_threads st) t = Some p -> p <> Done ->
    (l_lock st = None \/ exists d, l_lock st = Some (t, d)) -> tstep limit t fails st <> None.
  Proof.
    intros I Hp Hd Hl. unfold tstep. rewrite Hp.
    assert (acquire t st <> None) as Ha.
    { unfold acquire. destruct Hl as [->|[d ->]]; [discriminate|]. rewrite Nat.eqb_refl. discriminate. }
    destruct p; try (destruct fails; discriminate); try congruence;
      destruct (acquire t st); cbn; congruence.
  Qed.
  Lemma no_deadlock l st : run limit l linit = Some st -> (exists p, In p (l_threads st) /\ p <> Done) ->
    exists t, forall fails, tstep limit t fails st <> None.
  Proof.
    intros H [p [Hin Hd]]. apply reach in H. destruct (l_lock st) as [[o d]|] eqn:E.
    - destruct (i_owner _ H _ _ E) as [q [Hq [H1 H2]]]. exists o. intros f. apply (tstep_enabled o q); auto.
      + intros ->. cbn in H1. congruence.
      + right. eauto.
    - apply In_nth_error in Hin as [t Ht]. exists t. intros f. apply (tstep_enabled t p); auto.
  Qed.

  Lemma in_deeds t e st : In e (deeds t st) <-> In e (l_log st) /\ of_thread t e = true.
  Proof. unfold deeds. rewrite filter_In, <- in_rev. tauto. Qed.

  Lemma c29 l st t k : run limit l linit = Some st -> In (Asked t k) (l_log st) ->
    nth_error (l_threads st) t = Some Done -> ~ began t st ->
    net (deeds t st) = 0 /\
    (~ In (SendRaised t) (l_log st) -> visible (deeds t st) = [Asked t k; Told t (refusal k); HungUp t]).
  Proof.
    intros H Ha Hd Hb. apply reach in H. destruct (i_thread _ H _ _ Hd) as [_ [_ D]]. cbn in D.
    assert (In (Asked t k) (deeds t st)) as Hin by (apply in_deeds; cbn; rewrite Nat.eqb_refl; auto).
    assert (forall e, In e (deeds t st) -> In e (l_log st)) as Hlog by (intros e He; now apply in_deeds in He).
    destruct D as [[w Ew]|[k' [L|[D0 [U E]]]]].
    - rewrite Ew in Hin. destruct Hin as [Hin|[]]. discriminate.
    - exfalso. destruct L as [v [s Es]]. apply Hb. exists s. apply Hlog. rewrite Es. cbn. auto.
    - assert (net D0 = 0 /\ (In (Asked t k) D0 -> k' = k /\ visible D0 = [Asked t k])) as [Hn Hk].
      { destruct U as [->|[v [w ->]]]; cbn.
        - split; auto. intros [Hx|[]]. injection Hx as <-. auto.
        - split; [lia|]. intros [Hx|[Hx|[Hx|[]]]]; try discriminate. injection Hx as <-. auto. }
      assert (forall a b, net (a ++ b) = net a + net b) as Happ.
      { intros a b. clear. induction a as [|[] a IH]; cbn; auto. lia. }
      assert (forall a b, visible (a ++ b) = visible a ++ visible b) as Hvis by (intros; unfold visible; apply filter_app).
      assert (In (Asked t k) D0) as Hin0.
      { destruct E as [E|[E|E]]; rewrite E in Hin; apply in_app_iff in Hin as [Hin|Hin]; auto; cbn in Hin;
          repeat (destruct Hin as [Hin|Hin]; try discriminate); destruct Hin. }
      destruct (Hk Hin0) as [-> Hv].
      destruct E as [E|[E|E]]; rewrite E.
      + rewrite Happ, Hn. split; auto. intros _. rewrite Hvis, Hv. reflexivity.
      + rewrite Happ, Hn. split; auto. intros Hs. exfalso. apply Hs, Hlog. rewrite E, in_app_iff. cbn. auto.
      + rewrite Happ, Hn. split; auto. intros Hs. exfalso. apply Hs, Hlog. rewrite E, in_app_iff. cbn. auto.
  Qed.
  (** A request that met a full limiter writes nothing to the counter. *)
  Lemma c29_full st t k st' fails : nth_error (l_threads st) t = Some (IncTest k) -> limit <= l_value st ->
    tstep limit t fails st = Some st' -> l_value st' = l_value st /\ nth_error (l_threads st') t = Some (IncRefused k).
  Proof.
    intros Hp Hl. unfold tstep. rewrite Hp. intros [= <-]. destruct (Z.leb_spec limit (l_value st)); [|lia].
    cbn. split; auto. apply (nth_set_nth_eq _ _ _ _ Hp).
  Qed.
  (** A thread that began a service did so once, after being counted once. *)
  Lemma c29_started l st t : run limit l linit = Some st -> nth_error (l_threads st) t = Some Done -> began t st ->
    exists k v s, deeds t st = [Asked t k; Wrote t v (v + 1); Began t s].
  Proof.
    intros H Hd [s Hs]. apply reach in H. destruct (i_thread _ H _ _ Hd) as [_ [_ D]]. cbn in D.
    assert (In (Began t s) (deeds t st)) as Hin by (apply in_deeds; cbn; rewrite Nat.eqb_refl; auto).
    destruct D as [[w Ew]|[k' [L|[D0 [U E]]]]].
    - rewrite Ew in Hin. destruct Hin as [Hin|[]]. discriminate.
    - destruct L as [v [s' Es]]. eauto.
    - exfalso. destruct E as [E|[E|E]]; rewrite E in Hin; apply in_app_iff in Hin as [Hin|Hin]; cbn in Hin;
       try (repeat (destruct Hin as [Hin|Hin]; try discriminate); contradiction);
       (destruct U as [->|[v [w ->]]]; cbn in Hin; repeat (destruct Hin as [Hin|Hin]; try discriminate); contradiction).
  Qed.
End Inv.

Lemma refusal_informs k : informs k (refusal k).
Proof. destruct k; cbn [informs refusal]; try reflexivity; eexists; unfold server_busy; reflexivity. Qed.
