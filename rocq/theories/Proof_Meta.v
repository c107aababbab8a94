From Coq Require Import QArith.
From Verif Require Import Py Py_lemmas Model_Rpc Spec_Rpc Model_Agent Spec_Agent Proof_Agent Model_Meta Spec_Meta.
From Verif Require Model_Tools Spec_Tools Proof_Tools.
Import Model_Tools.
Open Scope nat_scope.

Section Meta.
  Variable net : nat -> reply.
  Variables serial token : json.
  Notation dstep := (dstep net serial token).
  Notation drun := (drun net serial token).

  Lemma meta_of_fresh s n h : nth n (dicts s) [] = Proof_Tools.fresh_dict h -> nth 0 (lists s) [] = h_ips h -> meta_of s n = Some (told h).
  Proof.
    intros D L. unfold meta_of, entry. rewrite D. cbn [Proof_Tools.fresh_dict].
    unfold told. cbn -[T]. rewrite <- L. reflexivity.
  Qed.
  Lemma first_answer_snoc l o : first_answer (l ++ [o]) =
    match first_answer l with Some h => Some h | None => match o with DSync _ h => h | _ => None end end.
  Proof. induction l as [|[| |sid [h|]|] l IH]; cbn; auto. destruct o as [| |sid [h|]|]; reflexivity. Qed.
  Lemma drun_snoc l o y : drun (l ++ [o]) y = dstep (drun l y) o.
  Proof. unfold Model_Meta.drun. now rewrite fold_left_app. Qed.

  Lemma drun_app l1 l2 y : drun (l1 ++ l2) y = drun l2 (drun l1 y).
  Proof. unfold Model_Meta.drun. apply fold_left_app. Qed.

  (** The cache holds what the first host answered; what was told is that. *)
  Definition truthful (f : option host) (r : json) : Prop :=
    has_metadata r -> exists sid h, f = Some h /\ r = sync_request serial token sid (told h).
  Definition good (f : option host) (y : heap * agent) : Prop :=
    (Proof_Tools.cached f (fst y) \/ g_sent_meta (snd y) = true) /\ Forall (truthful f) (requests y).
  Lemma truthful_more f g r : (forall h, f = Some h -> g = Some h) -> truthful f r -> truthful g r.
  Proof. intros H T0 M. destruct (T0 M) as (sid & h & E & ->). exists sid, h. auto. Qed.
  Lemma sync_sent sid m a : g_sent_meta a = false -> requests (heap0, fst (sync net serial token sid m a)) = sync_calls serial token sid m :: w_sent (g_world a).
  Proof. intros M. destruct (sync_undone net serial token sid m a M) as (ok & r & -> & _). reflexivity. Qed.
  Lemma quiet f s a o : match o with GSync _ _ => False | _ => True end -> good f (s, a) -> good f (s, gstep net serial token a o).
  Proof.
    intros Ho [C T0]. destruct (gstep_change net serial token a o) as [S M _|r N _ S M _|l _ S M _|sid m _ _ _ _ ->]; [| | |destruct Ho].
    - split; cbn [fst snd] in *; [rewrite M; exact C|]. unfold requests in *. cbn [snd] in *. rewrite S. exact T0.
    - split; cbn [fst snd] in *; [rewrite M; exact C|]. unfold requests in *. cbn [snd] in *. rewrite S. constructor; [intros H; destruct (N H)|exact T0].
    - split; cbn [fst snd] in *; [rewrite M; exact C|]. unfold requests in *. cbn [snd] in *. rewrite S. constructor; [intros H; destruct (tags_no_md serial token l H)|exact T0].
  Qed.
  Lemma cached_get f hst s s' n : Proof_Tools.cached f s -> get_meta hst s = (s', n) ->
    let g := match f with Some h => Some h | None => hst end in
    Proof_Tools.cached g s' /\ match g with Some h => exists k, n = Some k /\ meta_of s' k = Some (told h) | None => n = None end.
  Proof.
    intros C E. destruct f as [h|]; cbn zeta; cbn [Proof_Tools.cached] in C.
    - destruct C as (C & (ds & D) & (ls & L)). unfold get_meta in E. rewrite C in E. injection E as <- <-. split.
      + cbn [Proof_Tools.cached meta_cache dicts lists]. rewrite D, L. split; [reflexivity|]. split; eexists; reflexivity.
      + eexists. split; [reflexivity|]. apply meta_of_fresh; cbn [dicts lists].
        * rewrite app_nth2, Nat.sub_diag by lia. rewrite D. reflexivity.
        * rewrite L. reflexivity.
    - subst s. destruct hst as [h|]; cbn in E; injection E as <- <-; [|split; reflexivity].
      split; [split; [reflexivity|]; split; eexists; reflexivity|]. eexists. split; [reflexivity|]. apply meta_of_fresh; reflexivity.
  Qed.
  Lemma good_sync f sid hst s a : good f (s, a) ->
    good (match f with Some h => Some h | None => hst end) (meta_sync net serial token sid hst (s, a)).
  Proof.
    intros [C T0]. assert (X : forall h, f = Some h -> match f with Some h => Some h | None => hst end = Some h) by (intros h ->; reflexivity).
    unfold meta_sync. destruct (g_sent_meta a) eqn:M.
    { split; [right; exact M|]. eapply Forall_impl; [|exact T0]. intros r. now apply truthful_more. }
    destruct C as [C|C]; cbn [fst snd] in C; [|congruence].
    destruct (get_meta hst s) as [s' n] eqn:E. destruct (cached_get f hst s s' n C E) as [C' N]. cbn zeta in C', N.
    set (g := match f with Some h => Some h | None => hst end) in *.
    assert (T1 : Forall (truthful g) (requests (s, a))) by (eapply Forall_impl; [|exact T0]; intros r; now apply truthful_more).
    destruct g as [h|].
    - destruct N as (k & -> & ->). split; cbn [fst snd]; [auto|]. change (requests (s', ?x)) with (requests (heap0, x)). rewrite sync_sent by exact M.
      constructor; [|exact T1]. intros _. exists sid, h. auto.
    - subst n. split; cbn [fst snd]; [auto|]. change (requests (s', ?x)) with (requests (heap0, x)). rewrite sync_sent by exact M.
      constructor; [|exact T1]. intros (p & A & B). exfalso. rewrite sync_methods in B. destruct B as [B|[]]. cbn in A.
      repeat (destruct A as [<-|A]; [discriminate B|]). destruct A.
  Qed.
  Lemma good_run t0 l : good (first_answer l) (drun l (started t0)).
  Proof.
    induction l as [|o l IH] using rev_ind; [split; [left; reflexivity|constructor]|].
    rewrite drun_snoc, first_answer_snoc. destruct (drun l (started t0)) as [s a].
    destruct o as [now disk|tags|sid hst|i]; cbn [Model_Meta.dstep fst snd].
    - apply (quiet _ _ _ (GDisk now disk) Logic.I) in IH. destruct (first_answer l); exact IH.
    - apply (quiet _ _ _ (GTags tags) Logic.I) in IH. destruct (first_answer l); exact IH.
    - now apply good_sync.
    - apply (quiet _ _ _ (GIdentity i) Logic.I) in IH. destruct (first_answer l); exact IH.
  Qed.
  Lemma first_told t0 l r : In r (requests (drun l (started t0))) -> has_metadata r ->
    exists sid h, first_answer l = Some h /\ r = sync_request serial token sid (told h).
  Proof. intros I M. destruct (good_run t0 l) as [_ G]. exact (proj1 (Forall_forall _ _) G r I M). Qed.
  Lemma always_first h l h' : always h l -> first_answer l = Some h' -> h' = h.
  Proof.
    intros A. induction l as [|o l IH]; [discriminate|]. inversion A as [|? ? Ho Hl]; subst. destruct o as [| |sid [h1|]|]; cbn [first_answer]; auto.
    intros [= <-]. exact Ho.
  Qed.
  Lemma unchanged_told t0 l h r : always h l -> In r (requests (drun l (started t0))) -> has_metadata r ->
    exists sid, r = sync_request serial token sid (told h).
  Proof. intros A I M. destruct (first_told t0 l r I M) as (sid & h' & E & ->). exists sid. now rewrite (always_first h l h' A E). Qed.
  (** A sync sends, as long as nothing was accepted. *)
  Lemma sync_tells t0 l sid hst h : g_sent_meta (snd (drun l (started t0))) = false -> first_answer (l ++ [DSync sid hst]) = Some h ->
    requests (drun (l ++ [DSync sid hst]) (started t0)) = sync_request serial token sid (told h) :: requests (drun l (started t0)).
  Proof.
    intros M F. rewrite drun_snoc. destruct (good_run t0 l) as [[C|C] _]; [|congruence]. rewrite first_answer_snoc in F.
    destruct (drun l (started t0)) as [s a]. cbn [Model_Meta.dstep meta_sync fst snd] in *. rewrite M.
    destruct (get_meta hst s) as [s' n] eqn:E. destruct (cached_get _ hst s s' n C E) as [_ N]. cbn zeta in N. rewrite F in N.
    destruct N as (k & -> & ->). change (requests (s', ?x)) with (requests (heap0, x)). now rewrite sync_sent by exact M.
  Qed.
  Lemma sync_flag t0 l sid hst h : g_sent_meta (snd (drun l (started t0))) = false -> first_answer (l ++ [DSync sid hst]) = Some h ->
    (g_sent_meta (snd (drun (l ++ [DSync sid hst]) (started t0))) = true <-> all_acknowledged (net (length (requests (drun l (started t0)))))).
  Proof.
    intros M F. rewrite drun_snoc. destruct (good_run t0 l) as [[C|C] _]; [|congruence]. rewrite first_answer_snoc in F.
    destruct (drun l (started t0)) as [s a]. cbn [Model_Meta.dstep meta_sync fst snd] in *. rewrite M.
    destruct (get_meta hst s) as [s' n] eqn:E. destruct (cached_get _ hst s s' n C E) as [_ N]. cbn zeta in N. rewrite F in N.
    destruct N as (k & -> & ->). cbn [snd]. destruct (sync_undone net serial token sid (Some (told h)) a M) as (ok & r & -> & O & _). exact O.
  Qed.
  Lemma sync_tells_flag t0 l sid hst h : g_sent_meta (snd (drun l (started t0))) = false -> first_answer (l ++ [DSync sid hst]) = Some h ->
    requests (drun (l ++ [DSync sid hst]) (started t0)) = sync_request serial token sid (told h) :: requests (drun l (started t0)) /\
    (g_sent_meta (snd (drun (l ++ [DSync sid hst]) (started t0))) = true <-> all_acknowledged (net (length (requests (drun l (started t0)))))).
  Proof. intros M F. split; [now apply sync_tells|eapply sync_flag; eauto]. Qed.
  (** Once accepted, nothing is told any more. *)
  Lemma accepted_step y o : g_sent_meta (snd y) = true -> g_sent_meta (snd (dstep y o)) = true /\
    exists new, requests (dstep y o) = new ++ requests y /\ Forall (fun r => ~ has_metadata r) new.
  Proof.
    destruct y as [s a]. cbn [snd]. intros M.
    assert (Q : forall g, match g with GSync _ _ => False | _ => True end ->
      g_sent_meta (gstep net serial token a g) = true /\ exists new, requests (s, gstep net serial token a g) = new ++ requests (s, a) /\ Forall (fun r => ~ has_metadata r) new).
    { intros g Hg. unfold requests. cbn [snd]. destruct (gstep_change net serial token a g) as [S M' _|r N _ S M' _|l _ S M' _|sid m _ _ _ _ ->]; [| | |destruct Hg].
      - rewrite S, M'. split; [exact M|]. exists []. auto.
      - rewrite S, M'. split; [exact M|]. exists [r]. auto.
      - rewrite S, M'. split; [exact M|]. exists [tags_request serial token l]. split; auto. constructor; [apply tags_no_md|constructor]. }
    destruct o as [now disk|tags|sid hst|i]; cbn [Model_Meta.dstep fst snd].
    - apply (Q (GDisk now disk) Logic.I).
    - apply (Q (GTags tags) Logic.I).
    - unfold meta_sync. rewrite M. cbn [snd]. split; [exact M|]. exists []. auto.
    - apply (Q (GIdentity i) Logic.I).
  Qed.
  Lemma accepted_run l : forall y, g_sent_meta (snd y) = true -> exists new, requests (drun l y) = new ++ requests y /\ Forall (fun r => ~ has_metadata r) new.
  Proof.
    induction l as [|o l IH]; intros y M; [exists []; auto|]. destruct (accepted_step y o M) as (M' & n1 & E1 & F1).
    destruct (IH _ M') as (n2 & E2 & F2). exists (n2 ++ n1). split; [|now apply Forall_app].
    change (drun (o :: l) y) with (drun l (dstep y o)). now rewrite E2, E1, app_assoc.
  Qed.
  Lemma stale t0 h1 h2 sid1 sid2 : ~ all_acknowledged (net 0) -> all_acknowledged (net 1) ->
    forall l, exists new,
      requests (drun (DSync sid1 (Some h1) :: DSync sid2 (Some h2) :: l) (started t0)) =
        new ++ [sync_request serial token sid2 (told h1); sync_request serial token sid1 (told h1)] /\
      Forall (fun r => ~ has_metadata r) new.
  Proof.
    intros R A l. pose proof (sync_tells t0 [] sid1 (Some h1) h1 eq_refl eq_refl) as E1. cbn [app] in E1.
    assert (M1 : g_sent_meta (snd (drun [DSync sid1 (Some h1)] (started t0))) = false).
    { destruct (g_sent_meta (snd (drun [DSync sid1 (Some h1)] (started t0)))) eqn:M; [|reflexivity]. exfalso.
      apply R. apply (sync_flag t0 [] sid1 (Some h1) h1 eq_refl eq_refl). exact M. }
    pose proof (sync_tells t0 [DSync sid1 (Some h1)] sid2 (Some h2) h1 M1 eq_refl) as E2. rewrite E1 in E2. cbn [app] in E2.
    assert (M2 : g_sent_meta (snd (drun [DSync sid1 (Some h1); DSync sid2 (Some h2)] (started t0))) = true).
    { apply (sync_flag t0 [DSync sid1 (Some h1)] sid2 (Some h2) h1 M1 eq_refl). rewrite E1. exact A. }
    destruct (accepted_run l _ M2) as (new & E & F). exists new. split; [|exact F].
    change (DSync sid1 (Some h1) :: DSync sid2 (Some h2) :: l) with ([DSync sid1 (Some h1); DSync sid2 (Some h2)] ++ l).
    rewrite drun_app, E, E2. reflexivity.
  Qed.

  (** ** C142 *)
  Variables fl round1 : Q -> Q.
  Notation happens := (happens fl round1).
  Notation reported := (reported serial token).
  Lemma reported_more devs l more m r : reported devs l r -> reported (devs ++ more) (l ++ m) r.
  Proof. intros [d st I H|d tl I H|d h sid I H|sid|id t I H]; econstructor; eauto using in_or_app. Qed.
  Lemma disk_is d : disk_of fl round1 d = match v_disk d with
    | Some st => Some ((f_blocks st * f_frsize st)%Z, ((f_blocks st - f_bfree st) * f_frsize st)%Z) | None => None end.
  Proof. unfold disk_of, disk_usage. destruct (v_disk d) as [st|]; cbn; [|reflexivity]. f_equal. f_equal. lia. Qed.
  Lemma script_tags d l : get_tag_list (v_script d) = TagList l -> tagged d l.
  Proof.
    destruct (v_script d) as [| | |output|] eqn:E; try discriminate.
    - intros [= <-]. constructor 2. auto.
    - intros [= <-]. constructor 2. auto.
    - intros H. destruct (Proof_Tools.tag_words_exist output) as (ws & W). rewrite (Proof_Tools.tag_words output ws W) in H. injection H as <-.
      econstructor; eauto.
  Qed.
  Lemma tags_script d l : tagged d l -> get_tag_list (v_script d) = TagList l.
  Proof. intros [output ws E W|[E|E]]; rewrite E; [now apply Proof_Tools.tag_words|reflexivity|reflexivity]. Qed.
  Lemma first_in devs l h : Forall2 happens devs l -> first_answer l = Some h -> exists d, In d devs /\ v_host d = Some h.
  Proof.
    intros F. induction F as [|d o devs l Ho F IH]; [discriminate|].
    assert (N : first_answer l = Some h -> exists d', In d' (d :: devs) /\ v_host d' = Some h) by (intros E; destruct (IH E) as (d' & I & H); exists d'; split; [right; exact I|exact H]).
    destruct o as [| |sid [h'|]|]; cbn [first_answer]; auto. intros [= ->]. exists d. split; [left; reflexivity|].
    destruct Ho as [(sid' & [X|[X|[X|[]]]])|(i & X)]; try discriminate X. injection X as _ X. exact X.
  Qed.
  Lemma dsent devs l d o : Forall2 happens devs l -> happens d o -> forall t0, let y := drun l (started t0) in
    Forall (reported devs l) (requests y) -> Forall (reported (devs ++ [d]) (l ++ [o])) (requests (dstep y o)).
  Proof.
    intros F Ho t0 y G. pose proof (good_run t0 (l ++ [o])) as [_ Gd]. rewrite drun_snoc in Gd. fold y in Gd.
    assert (G' : Forall (reported (devs ++ [d]) (l ++ [o])) (requests y)) by (eapply Forall_impl; [|exact G]; intros r; apply reported_more).
    assert (I : In d (devs ++ [d])) by (apply in_or_app; right; left; reflexivity).
    destruct y as [s a] eqn:Ey. destruct o as [now disk|tags|sid hst|i]; cbn [Model_Meta.dstep fst snd].
    - unfold requests in *. cbn [snd] in *. destruct (disk_sent net serial token now disk a) as (S & _). cbn [gstep]. rewrite S. destruct (g_next a <=? now)%Z; [|exact G'].
      destruct Ho as [(sid' & [X|[X|[X|[]]]])|(i & X)]; try discriminate X. injection X as _ X. rewrite disk_is in X. destruct disk as [[tot us]|]; [|exact G'].
      destruct (v_disk d) as [st|] eqn:E; [|discriminate X]. injection X as <- <-. constructor; [|exact G']. eapply rep_disk; eauto.
    - unfold requests in *. cbn [snd] in *. cbn [gstep]. destruct tags as [tl| | |]; try exact G'.
      destruct Ho as [(sid' & [X|[X|[X|[]]]])|(i & X)]; try discriminate X. injection X as X. apply script_tags in X.
      assert (D : g_tags a = Some tl \/ g_tags a <> Some tl) by (destruct (g_tags a) as [old|]; [|right; discriminate];
        destruct (list_eq_dec (list_eq_dec N.eq_dec) old tl) as [->|D]; [left; reflexivity|right; congruence]).
      destruct D as [D|D]; [rewrite tag_unchanged by exact D; exact G'|]. destruct (tag_changed net serial token tl a D) as (r' & -> & _).
      cbn [fst g_world w_sent]. constructor; [|exact G']. eapply rep_tags; eauto.
    - cbn [Model_Meta.dstep] in Gd. unfold meta_sync in *. destruct (g_sent_meta a) eqn:M; [exact G'|]. destruct (get_meta hst s) as [s' [n|]].
      + destruct (meta_of s' n) as [m|]; [|exact G']. change (requests (s', ?x)) with (requests (heap0, x)) in *. rewrite sync_sent in * by exact M.
        constructor; [|exact G']. inversion Gd as [|? ? T0 _]; subst. destruct T0 as (sid' & h & E & R); [apply is_sync_md; reflexivity|]. cbn [sync_calls]. rewrite R.
        destruct (first_in (devs ++ [d]) (l ++ [DSync sid hst]) h) as (d' & I' & H'); [apply Forall2_app; auto|exact E|]. eapply rep_meta; eauto.
      + change (requests (s', ?x)) with (requests (heap0, x)) in *. rewrite sync_sent in * by exact M. constructor; [|exact G']. apply rep_auth.
    - unfold requests in *. cbn [snd] in *. cbn [gstep]. destruct (null_dec token) as [Et|Et]; [rewrite identity_null by exact Et; exact G'|].
      assert (U : (exists id t, i = Some id /\ utf8_decode id = Some t) \/ forall id, i = Some id -> utf8_decode id = None).
      { destruct i as [id|]; [|right; discriminate]. destruct (utf8_decode id) as [t|] eqn:U; [left; eauto|right; congruence]. }
      destruct U as [(id & t & -> & U)|U]; [|rewrite identity_unsent by auto; exact G'].
      rewrite (identity_sent net serial token (Some id) a Et id t eq_refl U). constructor; [|exact G']. eapply rep_identity; [|exact U].
      apply in_or_app. right. left. reflexivity.
  Qed.
  Lemma only_this t0 devs l : Forall2 happens devs l -> Forall (reported devs l) (requests (drun l (started t0))).
  Proof.
    revert devs. induction l as [|o l IH] using rev_ind; intros devs F; [inversion F; constructor|].
    apply Forall2_app_inv_r in F as (devs1 & devs2 & F1 & F2 & ->). inversion F2 as [|d o' ds os Ho F3]; subst. inversion F3; subst.
    rewrite drun_snoc. eapply dsent; eauto.
  Qed.
  Lemma first_poll_reports t0 d sid st h tags : (t0 <= v_time d)%Z -> v_disk d = Some st -> tagged d tags -> v_host d = Some h ->
    requests (drun (polled fl round1 sid d) (started t0)) =
      [sync_request serial token sid (told h); tags_request serial token tags;
       disk_request serial token (f_blocks st * f_frsize st) ((f_blocks st - f_bfree st) * f_frsize st)].
  Proof.
    intros Ht Hd Hs Hh. apply tags_script in Hs. unfold polled. rewrite Hs, Hh, disk_is, Hd.
    set (o1 := DDisk _ _). set (o2 := DTags _).
    pose proof (sync_tells t0 [o1; o2] sid (Some h) h) as X. cbn [app] in X. rewrite X; clear X; [| |reflexivity].
    - f_equal. change [o1; o2] with ([o1] ++ [o2]). rewrite drun_snoc. unfold o1, o2, Model_Meta.drun. cbn [fold_left Model_Meta.dstep started fst snd]. cbn [gstep].
      destruct (disk_sent net serial token (v_time d) (Some ((f_blocks st * f_frsize st)%Z, ((f_blocks st - f_bfree st) * f_frsize st)%Z)) (agent0 t0)) as (S & _ & G & _).
      unfold requests. cbn [snd]. match goal with |- context [tag_poll net serial token (TagList tags) ?a0] => set (a := a0) in * end.
      destruct (tag_changed net serial token tags a) as (r & -> & _); [rewrite G; discriminate|]. cbn [fst g_world w_sent]. rewrite S.
      cbn [agent0 g_next]. destruct (Z.leb_spec t0 (v_time d)); [reflexivity|lia].
    - change [o1; o2] with ([o1] ++ [o2]). rewrite drun_snoc. unfold o1, o2, Model_Meta.drun. cbn [fold_left Model_Meta.dstep started fst snd].
      destruct (gstep_change net serial token (agent0 t0) (GDisk (v_time d) (Some ((f_blocks st * f_frsize st)%Z, ((f_blocks st - f_bfree st) * f_frsize st)%Z)))) as [_ M _|r _ _ _ M _|tl _ _ M _|s0 m _ _ _ _ Z0]; [| | |discriminate Z0].
      all: match type of M with g_sent_meta ?a1 = _ => destruct (gstep_change net serial token a1 (GTags (TagList tags))) as [_ M2 _|r2 _ _ _ M2 _|tl2 _ _ M2 _|s2 m2 _ _ _ _ Z2]; [| | |discriminate Z2]; rewrite M2, M; reflexivity end.
  Qed.
End Meta.
Lemma only_this_in fl round1 net serial token t0 devs l r : Forall2 (happens fl round1) devs l ->
  In r (requests (drun net serial token l (started t0))) -> reported serial token devs l r.
Proof. intros F I. eapply (proj1 (Forall_forall _ _)); [|exact I]. eapply only_this; eauto. Qed.
