(** * Proofs about the agent's polling *)
From Coq Require Import Permutation.
From Verif Require Import Py Py_lemmas Dict_lemmas Model_Path Model_Rpc Spec_Rpc Proof_Rpc Proof_Rpc2 Model_Agent Spec_Agent.

(** ** Requests *)
Lemma with_calls net l w b : body net l w new_batch = (w, (b, ROk tt)) -> b_abandoned b = false -> with_batch net l w = batch_send net w b.
Proof. intros E A. unfold with_batch. now rewrite E, A. Qed.
Fixpoint fresh (seen l : list text) : bool :=
  match l with [] => true | x :: r => negb (existsb (text_eqb x) seen) && fresh (x :: seen) r end.
Lemma body_ids net (l : list (text * text * list (text * json))) : forall w b seen, b_ids b = map KStr seen -> fresh seen (map (fun c => fst (fst c)) l) = true ->
  exists b', body net (map (fun c => BCallId (JStr (fst (fst c))) (snd (fst c)) (snd c)) l) w b = (w, (b', ROk tt)) /\
    b_abandoned b' = b_abandoned b /\ b_calls b' = b_calls b ++ map (fun c => wire_call (snd (fst c)) (snd c) (JStr (fst (fst c)))) l.
Proof.
  induction l as [|[[i m] p] l IH]; intros w b seen S0 F; cbn [map body].
  - exists b. now rewrite app_nil_r.
  - cbn [map fst snd fresh] in F |- *. apply andb_prop in F as [F1 F]. cbn [bstep]. unfold batch_call_with_id. cbn [key_of]. rewrite S0.
    assert (E : existsb (key_eqb (KStr i)) (map KStr seen) = existsb (text_eqb i) seen).
    { clear. induction seen as [|x seen IH]; auto. cbn [map existsb]. now rewrite IH. }
    rewrite E. apply negb_true_iff in F1. rewrite F1.
    match goal with |- context [body net _ w ?x] => destruct (IH w x (i :: seen)) as (b' & H1 & H2 & H3) end; [cbn [b_ids map]; now f_equal|exact F|].
    exists b'. split; [exact H1|]. split; [exact H2|]. rewrite H3. cbn [b_calls]. rewrite <- app_assoc. reflexivity.
Qed.
Lemma with_ids net l w : fresh [] (map (fun c => fst (fst c)) l) = true ->
  exists b, b_calls b = map (fun c => wire_call (snd (fst c)) (snd c) (JStr (fst (fst c)))) l /\
    with_batch net (map (fun c => BCallId (JStr (fst (fst c))) (snd (fst c)) (snd c)) l) w = batch_send net w b.
Proof.
  intros F. destruct (body_ids net l w new_batch [] eq_refl F) as (b & E & A & C). exists b. split; [exact C|]. now apply with_calls.
Qed.
Lemma key_str t : key_of (JStr t) = Some (KStr t).
Proof. reflexivity. Qed.
Lemma same_str i t : same_id (JStr t) i <-> i = JStr t.
Proof.
  split; [intros [<-|(z & A & _)]; [auto|discriminate]|intros ->; now left].
Qed.
Lemma send_ack net w b w' b' r i : batch_send net w b = (w', (b', r)) ->
  ((exists v, (_ <~ r;; get_result b' (JStr (T i)) None) = ROk v) <-> acknowledged i (net (length (w_sent w)))).
Proof.
  intros E. split.
  - intros (v & G). destruct r as [[]|e|]; try discriminate. cbn [rbind] in G.
    destruct (net (length (w_sent w))) as [| |[j|]] eqn:N; try (unfold batch_send in E; cbn [send] in E; rewrite N in E; discriminate E).
    destruct j as [| | | | |l|]; try (unfold batch_send in E; cbn [send] in E; rewrite N in E; discriminate E).
    exists l. split; auto. split; [apply (send_ok net w b l N); now rewrite E|].
    destruct (send_result_given net w b w' b' l _ v N E G) as (d & I & (_ & i' & M & S0) & Er & _). exists d. apply same_str in S0 as ->. auto.
  - intros (l & N & F & d & I & M & Er). assert (A : answered net w l) by exact N. pose proof (proj2 (send_ok net w b l A) F) as R.
    rewrite E in R. cbn [snd] in R. subst r. cbn [rbind].
    apply (f_equal snd) in E. rewrite (send_read _ _ _ _ A) in E. cbn [snd] in E.
    destruct (proj1 (batch_gives_given b b' l (JStr (T i)) None E ltac:(split; discriminate))) as (d1 & _ & _ & _ & G); [|eauto].
    exists d. split; auto. split; auto. split; auto. exists (JStr (T i)). split; auto. now left.
Qed.
Lemma send_hang net w b : net (length (w_sent w)) = Silent <-> snd (snd (batch_send net w b)) = RHang.
Proof.
  unfold batch_send. cbn [send]. destruct (net (length (w_sent w))) as [| |j]; cbn; try (split; discriminate); [tauto|].
  split; [discriminate|]. destruct j as [[]|]; cbn [batch_read snd]; try discriminate.
  assert (O : forall l, objects l <> RHang).
  { induction l0 as [|x l0 IH]; cbn; try discriminate. destruct x; try discriminate. destruct (objects l0); cbn; congruence. }
  assert (Er : forall ds acc, errors_of acc ds <> RHang).
  { induction ds as [|d ds IH]; intros acc; cbn [errors_of]; try discriminate. destruct (dict_get text_eqb (T "error") d); auto.
    destruct (dict_get text_eqb (T "id") d); try discriminate. match goal with |- context [key_of ?x] => destruct (key_of x); try discriminate end. auto. }
  assert (Re : forall ds acc, results_of acc ds <> RHang).
  { induction ds as [|d ds IH]; intros acc; cbn [results_of]; try discriminate. destruct (dict_get text_eqb (T "id") d), (dict_get text_eqb (T "error") d); auto.
    match goal with |- context [key_of ?x] => destruct (key_of x); try discriminate end. auto. }
  specialize (O l). destruct (objects l) as [ds| |]; cbn [rbind]; try discriminate; [|congruence].
  specialize (Er ds []). destruct (errors_of [] ds); cbn [rbind]; try discriminate; [|congruence].
  specialize (Re ds []). destruct (results_of [] ds); cbn [snd]; congruence.
Qed.
Lemma get_no_hang b i d : get_result b i d <> RHang.
Proof. unfold get_result. repeat match goal with |- (match ?x with _ => _ end) <> _ => destruct x; try discriminate end. Qed.
Lemma rbind_no_hang {A B} (r : rres A) (k : A -> rres B) : r <> RHang -> (forall a, k a <> RHang) -> rbind r k <> RHang.
Proof. intros H1 H2. destruct r; cbn; auto; discriminate. Qed.
Lemma check_no_hang b l : check b l <> RHang.
Proof. induction l as [|i l IH]; cbn; [discriminate|]. apply rbind_no_hang; auto. apply get_no_hang. Qed.
Lemma check_ok b l : check b l = ROk tt <-> forall i, In i l -> exists v, get_result b i None = ROk v.
Proof.
  induction l as [|i l IH]; cbn; [split; [intros _ ? []|auto]|]. split.
  - destruct (get_result b i None) as [v| |] eqn:G; cbn; try discriminate. intros H j [<-|I]; [eauto|]. now apply IH.
  - intros H. destruct (H i (or_introl eq_refl)) as (v & G). rewrite G. cbn. apply IH. auto.
Qed.

Section Agent.
  Variable net : nat -> reply.
  Variables serial token : json.
  Notation disk_poll := (disk_poll net serial token).
  Notation send_tags := (send_tags net serial token).
  Notation tag_poll := (tag_poll net serial token).
  Notation sync_ := (sync_ net serial token).
  Notation sync := (sync net serial token).
  Notation poll := (poll net serial token).
  Notation set_m2m_identity := (set_m2m_identity net serial token).
  Notation gstep := (gstep net serial token).
  Notation grun := (grun net serial token).
  Notation sent a := (w_sent (g_world a)).

  (** *** The four requests: each is one batch *)
  Definition acall (extra : list (text * json)) : text * text * list (text * json) :=
    (T "authenticate_result", T "device.check_auth", [(T "device_class", JStr (T "tuxtunnel")); (T "serial", serial); (T "auth_token", token)] ++ extra).
  Lemma disk_with total used w : exists b, b_calls b = [check_auth serial token [];
        wire_call (T "device.set_disk_space") [(T "disk_capacity", JInt total); (T "disk_used", JInt used)] (JStr (T "set_disk_space_result"))] /\
    with_batch net [auth serial token []; BCallId (JStr (T "set_disk_space_result")) (T "device.set_disk_space")
                        [(T "disk_capacity", JInt total); (T "disk_used", JInt used)]] w = batch_send net w b.
  Proof. exact (with_ids net [acall []; (T "set_disk_space_result", T "device.set_disk_space", [(T "disk_capacity", JInt total); (T "disk_used", JInt used)])] w eq_refl). Qed.
  Lemma tags_with l w : exists b, b_calls b = [check_auth serial token [];
        wire_call (T "device.set_machine_defined_tags") [(T "tag_list", JArr (map JStr l))] (JStr (T "set_machine_defined_tags_result"))] /\
    with_batch net [auth serial token []; BCallId (JStr (T "set_machine_defined_tags_result")) (T "device.set_machine_defined_tags")
                        [(T "tag_list", tags_json l)]] w = batch_send net w b.
  Proof. exact (with_ids net [acall []; (T "set_machine_defined_tags_result", T "device.set_machine_defined_tags", [(T "tag_list", tags_json l)])] w eq_refl). Qed.
  Lemma identity_with t w : exists b, b_calls b = [check_auth serial token [];
        wire_call (T "m2m.associate") [(T "identity", JStr t)] (JStr (T "associate_result"))] /\
    with_batch net [auth serial token []; BCallId (JStr (T "associate_result")) (T "m2m.associate") [(T "identity", JStr t)]] w = batch_send net w b.
  Proof. exact (with_ids net [acall []; (T "associate_result", T "m2m.associate", [(T "identity", JStr t)])] w eq_refl). Qed.
  Definition sync_calls (sid : text) (m : option meta) : json :=
    match m with Some m => sync_request serial token sid m | None => JArr [check_auth serial token [(T "sync_id", JStr sid)]] end.
  Lemma sync_with sid m w : exists b, JArr (b_calls b) = sync_calls sid m /\
    with_batch net (auth serial token [(T "sync_id", JStr sid)] :: sync_meta m) w = batch_send net w b.
  Proof.
    destruct m as [m|].
    - destruct (with_ids net [acall [(T "sync_id", JStr sid)];
        (T "set_agent_version_result", T "device.set_agent_version", [(T "agent_version", agent_version m)]);
        (T "set_machine_revision_result", T "device.set_machine_revision", [(T "revision_code", machine_revision m)]);
        (T "set_model_name_result", T "device.set_model_name", [(T "model_name", model_name m)]);
        (T "set_os_version_result", T "device.set_os_version", [(T "os_version", os_version m)]);
        (T "set_uname_result", T "device.set_uname", [(T "uname", uname m)]);
        (T "set_ip_addresses_result", T "device.set_ip_addresses", [(T "ip_list", ip_list m)])] w eq_refl) as (b & C & E).
      exists b. split; [rewrite C; reflexivity|exact E].
    - destruct (with_ids net [acall [(T "sync_id", JStr sid)]] w eq_refl) as (b & C & E). exists b. split; [rewrite C; reflexivity|exact E].
  Qed.

  (** *** disk_poll *)
  Lemma disk_sent now disk a : sent (fst (disk_poll now disk a)) =
    (if (g_next a <=? now)%Z then match disk with Some (total, used) => [disk_request serial token total used] | None => [] end else []) ++ sent a /\
    g_next (fst (disk_poll now disk a)) = (if (g_next a <=? now)%Z then now + 3600 else g_next a)%Z /\
    g_tags (fst (disk_poll now disk a)) = g_tags a /\ g_sent_meta (fst (disk_poll now disk a)) = g_sent_meta a.
  Proof.
    unfold Model_Agent.disk_poll. destruct (g_next a <=? now)%Z; [|auto]. destruct disk as [[total used]|]; [|auto]. cbn [g_world].
    destruct (disk_with total used (g_world a)) as (b & C & ->). destruct (batch_send net (g_world a) b) as [w r] eqn:E.
    cbn. split; [|auto]. apply (f_equal fst) in E. cbn in E. subst w. cbn. now rewrite C.
  Qed.
  Lemma disk_result now disk a : snd (disk_poll now disk a) = RHang -> disk <> None /\ net (length (sent a)) = Silent.
  Proof.
    unfold Model_Agent.disk_poll. destruct (g_next a <=? now)%Z; [|discriminate]. destruct disk as [[total used]|]; [|discriminate]. cbn [g_world].
    destruct (disk_with total used (g_world a)) as (b & C & ->). destruct (batch_send net (g_world a) b) as [w r] eqn:E. cbn [snd]. intros H.
    split; [discriminate|]. apply (send_hang net (g_world a) b). now rewrite E.
  Qed.

  (** *** tag_poll *)
  Lemma tags_eqb_eq x y : tags_eqb x y = true <-> x = y.
  Proof. apply list_eqb_eq. intros. apply text_eqb_eq. Qed.
  Lemma tag_unchanged l a : g_tags a = Some l -> tag_poll (TagList l) a = (a, ROk tt).
  Proof.
    intros H. unfold Model_Agent.tag_poll, Model_Agent.send_tags. rewrite H. assert (E : tags_eqb l l = true) by now apply tags_eqb_eq. rewrite E.
    destruct a; cbn in *. now rewrite H.
  Qed.
  Lemma tag_changed l a : g_tags a <> Some l -> exists r,
    tag_poll (TagList l) a = (Agent (World (w_id (g_world a)) (tags_request serial token l :: sent a)) (g_next a)
       (match r with ROk _ => Some l | _ => g_tags a end) (g_sent_meta a), match r with RHang => RHang | _ => ROk tt end) /\
    (r = ROk tt <-> acknowledged "set_machine_defined_tags_result" (net (length (sent a)))) /\
    (r = RHang -> net (length (sent a)) = Silent).
  Proof.
    intros H. unfold Model_Agent.tag_poll, Model_Agent.send_tags.
    assert (E : match g_tags a with Some old => tags_eqb l old | None => false end = false).
    { destruct (g_tags a) as [old|]; auto. destruct (tags_eqb l old) eqn:X; auto. apply tags_eqb_eq in X. congruence. }
    rewrite E. destruct (tags_with l (g_world a)) as (b & C & ->). destruct (batch_send net (g_world a) b) as [w [b' r]] eqn:B. cbn [fst snd].
    pose proof (send_ack net (g_world a) b w b' r "set_machine_defined_tags_result" B) as A. pose proof (send_hang net (g_world a) b) as Hh. rewrite B in Hh. cbn [snd] in Hh.
    assert (W : w = World (w_id (g_world a)) (tags_request serial token l :: sent a)).
    { apply (f_equal fst) in B. cbn in B. subst w. unfold tags_request. now rewrite C. }
    set (x := (_ <~ r;; get_result b' (JStr (T "set_machine_defined_tags_result")) None)) in *.
    assert (X : (_ <~ r;; _ <~ get_result b' (JStr (T "set_machine_defined_tags_result")) None;; ROk tt) = (_ <~ x;; ROk tt)).
    { unfold x. destruct r; reflexivity. }
    rewrite X. exists (_ <~ x;; ROk tt). split; [|split].
    - rewrite W. destruct x; reflexivity.
    - rewrite <- A. destruct x as [v| |]; cbn [rbind]; split; try discriminate; eauto; intros (v0 & [=]).
    - intros Hx. apply Hh. destruct x as [v| |] eqn:Ex; try discriminate. unfold x in Ex. destruct r; try discriminate; auto. cbn in Ex. now apply get_no_hang in Ex.
  Qed.

  (** *** sync *)
  Lemma sync_done sid m a : g_sent_meta a = true -> sync sid m a = (a, ROk tt).
  Proof. intros H. unfold Model_Agent.sync, Model_Agent.sync_. now rewrite H. Qed.
  Lemma sync_undone sid m a : g_sent_meta a = false -> exists ok r,
    sync sid m a = (Agent (World (w_id (g_world a)) (sync_calls sid m :: sent a)) (g_next a) (g_tags a) ok, r) /\
    (ok = true <-> all_acknowledged (net (length (sent a)))) /\ (r = ROk tt \/ r = RHang) /\ (r = RHang -> net (length (sent a)) = Silent).
  Proof.
    intros H. unfold Model_Agent.sync, Model_Agent.sync_. rewrite H. destruct (sync_with sid m (g_world a)) as (b & C & ->).
    destruct (batch_send net (g_world a) b) as [w [b' r]] eqn:B. cbn zeta.
    pose proof (fun i => send_ack net (g_world a) b w b' r i B) as A. pose proof (send_hang net (g_world a) b) as Hh. rewrite B in Hh. cbn [snd] in Hh.
    assert (W : w = World (w_id (g_world a)) (sync_calls sid m :: sent a)).
    { apply (f_equal fst) in B. cbn in B. subst w. now rewrite C. }
    subst w. destruct (_ <~ r;; get_result b' (JStr (T "authenticate_result")) None) as [v|e|] eqn:G.
    - destruct r as [[]| |]; try discriminate. cbn [rbind] in A. unfold check_meta. cbn [set_world g_sent_meta]. rewrite H.
      match goal with |- context [check b' ?l] => set (l0 := l) end.
      assert (K : check b' l0 = ROk tt <-> all_acknowledged (net (length (sent a)))).
      { change l0 with (map (fun p => JStr (T (fst p))) metadata). rewrite check_ok. split.
        - intros K. split; [apply A; exists v; exact G|]. intros p I. apply A. apply K. apply in_map_iff. eauto.
        - intros [_ K] i I. apply in_map_iff in I as (p & <- & I). apply A. auto. }
      pose proof (check_no_hang b' l0) as NH. destruct (check b' l0) as [[]|e|]; [| |congruence].
      + exists true, (ROk tt). split; [reflexivity|]. split; [|split; [auto|discriminate]]. split; auto. intros _. now apply K.
      + exists false, (ROk tt). unfold set_world. rewrite H. split; [reflexivity|]. split; [|split; [auto|discriminate]]. split; [discriminate|].
        intros K1. apply K in K1. discriminate.
    - exists false, (ROk tt). unfold set_world. rewrite H. split; [reflexivity|]. split; [|split; [auto|discriminate]]. split; [discriminate|].
      intros [K1 _]. apply A in K1 as (v & K1). congruence.
    - exists false, RHang. unfold set_world. rewrite H. split; [reflexivity|]. split; [|split; [auto|]].
      + split; [discriminate|]. intros [K1 _]. apply A in K1 as (v & K1). congruence.
      + intros _. apply Hh. destruct r; try discriminate; auto. cbn in G. now apply get_no_hang in G.
  Qed.

  (** *** set_m2m_identity *)
  Lemma identity_eq i a : token <> JNull -> set_m2m_identity i a =
      match i with None => (a, ROk None) | Some id => match utf8_decode id with None => (a, ROk None) | Some t =>
                let (w, r) := with_batch net [auth serial token []; BCallId (JStr (T "associate_result")) (T "m2m.associate") [(T "identity", JStr t)]] (g_world a) in
                (set_world w a,
                 match (_ <~ snd r;; _ <~ get_result (fst r) (JStr (T "authenticate_result")) None;;
                        get_result (fst r) (JStr (T "associate_result")) None) with
                 | ROk _ => ROk (Some id)
                 | RRaise _ => ROk None
                 | RHang => RHang
                 end) end end.
  Proof. intros H. unfold Model_Agent.set_m2m_identity. destruct token; congruence || reflexivity. Qed.
  Lemma identity_null i a : token = JNull -> set_m2m_identity i a = (a, ROk None).
  Proof. intros E. unfold Model_Agent.set_m2m_identity. now rewrite E. Qed.
  Lemma null_dec : token = JNull \/ token <> JNull.
  Proof. destruct token; auto; right; discriminate. Qed.
  Lemma identity_step i a : exists new, fst (set_m2m_identity i a) = set_world (World (w_id (g_world a)) (new ++ sent a)) a /\
    (new = [] \/ exists t, new = [identity_request serial token t]).
  Proof.
    assert (D : exists new, a = set_world (World (w_id (g_world a)) (new ++ sent a)) a /\ (new = [] \/ exists t, new = [identity_request serial token t])).
    { exists []. split; [|auto]. destruct a as [[]]; reflexivity. }
    destruct null_dec as [Et|Et]; [now rewrite identity_null by auto|]. rewrite identity_eq by auto.
    destruct i as [id|]; [|exact D]. destruct (utf8_decode id) as [t|]; [|exact D].
    destruct (identity_with t (g_world a)) as (b & C & ->). destruct (batch_send net (g_world a) b) as [w r] eqn:B. cbn [fst].
    exists [identity_request serial token t]. split; [|right; eauto]. apply (f_equal fst) in B. cbn in B. subst w. unfold identity_request. now rewrite C.
  Qed.

  (** *** Requests that have nothing to do with metadata or tags *)
  Lemma methods_check extra : method_of (check_auth serial token extra) = [T "device.check_auth"].
  Proof. reflexivity. Qed.
  Lemma disk_methods total used : methods_of (disk_request serial token total used) = [T "device.check_auth"; T "device.set_disk_space"].
  Proof. reflexivity. Qed.
  Lemma tags_methods l : methods_of (tags_request serial token l) = [T "device.check_auth"; T "device.set_machine_defined_tags"].
  Proof. reflexivity. Qed.
  Lemma identity_methods t : methods_of (identity_request serial token t) = [T "device.check_auth"; T "m2m.associate"].
  Proof. reflexivity. Qed.
  Lemma sync_methods sid m : methods_of (sync_calls sid m) =
    T "device.check_auth" :: match m with Some _ => map (fun p => T (snd p)) metadata | None => [] end.
  Proof. destruct m; reflexivity. Qed.
  Lemma disk_tags total used : tags_in (disk_request serial token total used) = None.
  Proof. reflexivity. Qed.
  Lemma tags_tags l : tags_in (tags_request serial token l) = Some (JArr (map JStr l)).
  Proof. reflexivity. Qed.
  Lemma identity_tags t : tags_in (identity_request serial token t) = None.
  Proof. reflexivity. Qed.
  Lemma sync_tags sid m : tags_in (sync_calls sid m) = None.
  Proof. destruct m; reflexivity. Qed.
  Definition no_metadata (r : json) : Prop := ~ has_metadata r.
  Lemma no_metadata_methods r : (forall p, In p metadata -> ~ In (T (snd p)) (methods_of r)) -> no_metadata r.
  Proof. intros H (p & A & B). exact (H p A B). Qed.
  Lemma disk_no_md total used : no_metadata (disk_request serial token total used).
  Proof. apply no_metadata_methods. rewrite disk_methods. intros p I. cbn in I. repeat (destruct I as [<-|I]; [intros [X|[X|[]]]; discriminate X|]). destruct I. Qed.
  Lemma tags_no_md l : no_metadata (tags_request serial token l).
  Proof. apply no_metadata_methods. rewrite tags_methods. intros p I. cbn in I. repeat (destruct I as [<-|I]; [intros [X|[X|[]]]; discriminate X|]). destruct I. Qed.
  Lemma identity_no_md t : no_metadata (identity_request serial token t).
  Proof. apply no_metadata_methods. rewrite identity_methods. intros p I. cbn in I. repeat (destruct I as [<-|I]; [intros [X|[X|[]]]; discriminate X|]). destruct I. Qed.
  Lemma is_sync_md r : is_sync r -> has_metadata r.
  Proof. intros H. exists ("set_uname_result", "device.set_uname")%string. split; [cbn; tauto|]. rewrite H. right. apply (in_map (fun p => T (snd p)) metadata ("set_uname_result", "device.set_uname")%string). cbn. tauto. Qed.

  (** *** One step *)
  Inductive gchange (a : agent) (o : gop) (a' : agent) : Prop :=
  | ch_none : sent a' = sent a -> g_sent_meta a' = g_sent_meta a -> g_tags a' = g_tags a -> gchange a o a'
  | ch_other r : no_metadata r -> tags_in r = None -> sent a' = r :: sent a -> g_sent_meta a' = g_sent_meta a -> g_tags a' = g_tags a -> gchange a o a'
  | ch_tags l : g_tags a <> Some l -> sent a' = tags_request serial token l :: sent a -> g_sent_meta a' = g_sent_meta a ->
      (acknowledged "set_machine_defined_tags_result" (net (length (sent a))) /\ g_tags a' = Some l \/
       ~ acknowledged "set_machine_defined_tags_result" (net (length (sent a))) /\ g_tags a' = g_tags a) -> gchange a o a'
  | ch_sync sid m : g_sent_meta a = false -> sent a' = sync_calls sid m :: sent a -> g_tags a' = g_tags a ->
      (g_sent_meta a' = true <-> all_acknowledged (net (length (sent a)))) -> o = GSync sid m -> gchange a o a'.
  Lemma gstep_change a o : gchange a o (gstep a o).
  Proof.
    destruct o as [now disk|tags|sid m|i]; cbn [Model_Agent.gstep].
    - destruct (disk_sent now disk a) as (S0 & _ & T0 & M0). destruct (g_next a <=? now)%Z; [|now apply ch_none].
      destruct disk as [[total used]|]; [|now apply ch_none]. eapply ch_other; eauto; [apply disk_no_md|apply disk_tags].
    - destruct tags as [l| | |]; try now apply ch_none. assert (D : {g_tags a = Some l} + {g_tags a <> Some l}).
      { destruct (g_tags a) as [old|]; [|right; discriminate]. destruct (tags_eqb l old) eqn:E; [left; apply tags_eqb_eq in E; congruence|].
        right. intros [= ->]. assert (tags_eqb l l = true) by now apply tags_eqb_eq. congruence. }
      destruct D as [D|D]; [rewrite tag_unchanged by auto; now apply ch_none|].
      destruct (tag_changed l a D) as (r & -> & A & _). cbn [fst]. eapply (ch_tags _ _ _ l); try reflexivity; auto. cbn [g_tags].
      destruct r as [[]| |]; [left; split; auto; now apply A|right|right]; (split; auto; rewrite <- A; discriminate).
    - destruct (g_sent_meta a) eqn:M; [rewrite sync_done by auto; now apply ch_none|].
      destruct (sync_undone sid m a M) as (ok & r & -> & A & _). cbn [fst]. eapply (ch_sync _ _ _ sid m); try reflexivity; auto.
    - destruct (identity_step i a) as (new & -> & [->|(t & ->)]); [now apply ch_none|].
      eapply (ch_other _ _ _ (identity_request serial token t)); try reflexivity. apply identity_no_md.
  Qed.
  Lemma grun_snoc l o a : grun (l ++ [o]) a = gstep (grun l a) o.
  Proof. unfold Model_Agent.grun. now rewrite fold_left_app. Qed.

  (** ** C66 *)
  Lemma accepted_cons r s : metadata_accepted net (r :: s) <-> metadata_accepted net s \/ (is_sync r /\ all_acknowledged (net (length s))).
  Proof.
    split.
    - intros (newer & req & older & E & A & B). destruct newer as [|x newer]; injection E as -> ->; [auto|]. left. exists newer, req, older. auto.
    - intros [(newer & req & older & -> & A & B)|[A B]]; [exists (r :: newer), req, older; auto|exists [], r, s; auto].
  Qed.
  Lemma honest_tail r s : honest net (r :: s) -> honest net s.
  Proof. intros H newer req older p E. apply (H (r :: newer) req older p). now rewrite E. Qed.
  Lemma honest_change a o a' : gchange a o a' -> honest net (sent a') -> honest net (sent a).
  Proof. intros [A _ _|r _ _ A _ _|tags _ A _ _|sid m _ A _ _ _] H; rewrite A in H; auto; eapply honest_tail; eauto. Qed.
  Lemma meta_inv t0 l : readable l \/ honest net (sent (grun l (agent0 t0))) ->
    (g_sent_meta (grun l (agent0 t0)) = true <-> metadata_accepted net (sent (grun l (agent0 t0)))).
  Proof.
    induction l as [|o l IH] using rev_ind; intros Hyp.
    - cbn. split; [discriminate|]. intros (newer & r & older & E & _). destruct newer; discriminate.
    - rewrite grun_snoc in *. set (a := grun l (agent0 t0)) in *. pose proof (gstep_change a o) as G.
      assert (IH' := IH ltac:(destruct Hyp as [Hyp|Hyp]; [left; intros sid I; apply (Hyp sid), in_or_app; auto|right; eapply honest_change; eauto])). clear IH.
      destruct G as [A B C|r Hr A B C D|tags A B C D|sid m M A B C Ho].
      + rewrite A, B. exact IH'.
      + rewrite B, C, accepted_cons, IH'. split; [auto|]. intros [H|[H _]]; auto. apply is_sync_md in H. destruct (Hr H).
      + rewrite B, C, accepted_cons, IH'. split; [auto|]. intros [H|[H _]]; auto. apply is_sync_md in H. destruct (tags_no_md _ H).
      + rewrite A, accepted_cons, C. split.
        * intros H. right. split; auto. unfold is_sync. rewrite sync_methods. destruct m as [m|]; auto.
          exfalso. destruct Hyp as [Hyp|Hyp]; [apply (Hyp sid), in_or_app; right; left; auto|]. rewrite A in Hyp.
          assert (I0 : In ("set_agent_version_result", "device.set_agent_version")%string metadata) by (left; reflexivity).
          specialize (Hyp [] _ _ _ eq_refl I0 (proj2 H _ I0)). rewrite sync_methods in Hyp. destruct Hyp as [X|[]]. discriminate X.
        * intros [H|[_ H]]; auto. apply IH' in H. congruence.
  Qed.
  Theorem sync_sends t0 l a sid m : a = grun l (agent0 t0) -> readable l \/ honest net (sent a) ->
    (~ metadata_accepted net (sent a) -> sent (fst (sync sid (Some m) a)) = sync_request serial token sid m :: sent a) /\
    (metadata_accepted net (sent a) -> sync sid (Some m) a = (a, ROk tt)).
  Proof.
    intros -> Hyp. pose proof (meta_inv t0 l Hyp) as I. set (a := grun l (agent0 t0)) in *. split.
    - intros N. destruct (g_sent_meta a) eqn:M; [destruct N; now apply I|]. destruct (sync_undone sid (Some m) a M) as (ok & r & -> & _). reflexivity.
    - intros N. apply sync_done. now apply I.
  Qed.
  (** No request after the accepted one has metadata *)
  Theorem never_afterwards t0 l a newer request older : a = grun l (agent0 t0) -> readable l \/ honest net (sent a) ->
    sent a = newer ++ request :: older -> is_sync request -> all_acknowledged (net (length older)) -> Forall (fun r => ~ has_metadata r) newer.
  Proof.
    intros ->. revert newer. induction l as [|o l IH] using rev_ind; intros newer Hyp E S0 K.
    - destruct newer; discriminate.
    - rewrite grun_snoc in *. set (a := grun l (agent0 t0)) in *. pose proof (gstep_change a o) as G.
      assert (Hyp' : readable l \/ honest net (sent a)) by (destruct Hyp as [Hyp|Hyp]; [left; intros sid I; apply (Hyp sid), in_or_app; auto|right; eapply honest_change; eauto]).
      pose proof (meta_inv t0 l Hyp') as I. fold a in I.
      assert (X : forall r, (metadata_accepted net (sent a) -> no_metadata r) -> sent (gstep a o) = r :: sent a -> Forall (fun r => ~ has_metadata r) newer).
      { intros r Hr Es. rewrite Es in E. destruct newer as [|x newer]; [constructor|]. injection E as <- E. constructor; [|now apply IH].
        apply Hr. exists newer, request, older. auto. }
      destruct G as [A B C|r Hr A B C D|tags A B C D|sid m M A B C Ho].
      + rewrite A in E. now apply IH.
      + now apply (X r).
      + apply (X (tags_request serial token tags)); auto. intros _. apply tags_no_md.
      + apply (X (sync_calls sid m)); auto. intros Q. apply I in Q. congruence.
  Qed.
  (** get_meta raises: only authentication is sent *)
  Theorem unreadable_sends t0 sid : sent (fst (sync sid None (agent0 t0))) = [JArr [check_auth serial token [(T "sync_id", JStr sid)]]] /\
    ~ metadata_accepted net (sent (agent0 t0)).
  Proof.
    split.
    - destruct (sync_undone sid None (agent0 t0) eq_refl) as (ok & r & -> & _). reflexivity.
    - intros (newer & r & older & E & _). destruct newer; discriminate.
  Qed.

  (** ** C67 *)
  Lemma last_accepted_det s : forall t t', last_accepted net s t -> last_accepted net s t' -> t = t'.
  Proof.
    induction s as [|r s IH]; intros t t' A B; inversion A; inversion B; subst; auto; try congruence; try contradiction.
  Qed.
  Lemma tags_inv t0 l : last_accepted net (sent (grun l (agent0 t0))) (option_map tags_json (g_tags (grun l (agent0 t0)))).
  Proof.
    induction l as [|o l IH] using rev_ind; [constructor|]. rewrite grun_snoc. set (a := grun l (agent0 t0)) in *.
    destruct (gstep_change a o) as [A B C|r Hr Ht B C D|tags A B C [[D E]|[D E]]|sid m M A B C Ho].
    - now rewrite A, C.
    - rewrite B, D. now apply LA_other.
    - rewrite B, E. apply LA_accepted; auto.
    - rewrite B, E. eapply LA_refused; eauto. apply tags_tags.
    - rewrite A, B. apply LA_other; auto. apply sync_tags.
  Qed.
  Lemma tags_json_inj x y : tags_json x = tags_json y -> x = y.
  Proof.
    unfold tags_json. intros [= H]. revert y H. induction x as [|c x IH]; intros [|c' y]; cbn; try discriminate; auto. intros [= -> H]. f_equal. auto.
  Qed.
  Theorem tags_sent t0 l a tags : a = grun l (agent0 t0) ->
    (last_accepted net (sent a) (Some (JArr (map JStr tags))) -> sent (fst (tag_poll (TagList tags) a)) = sent a) /\
    (~ last_accepted net (sent a) (Some (JArr (map JStr tags))) -> sent (fst (tag_poll (TagList tags) a)) = tags_request serial token tags :: sent a).
  Proof.
    intros ->. pose proof (tags_inv t0 l) as I. set (a := grun l (agent0 t0)) in *. split.
    - intros H. pose proof (last_accepted_det _ _ _ I H) as E. destruct (g_tags a) as [x|] eqn:X; [|discriminate]. cbn in E. injection E as E.
      assert (x = tags) as -> by (apply tags_json_inj; unfold tags_json; congruence). now rewrite tag_unchanged.
    - intros H. destruct (tag_changed tags a) as (r & -> & _); [|reflexivity]. intros X. apply H. rewrite X in I. exact I.
  Qed.
  Theorem tags_known t0 l a : a = grun l (agent0 t0) -> exists t, last_accepted net (sent a) t.
  Proof. intros ->. eexists. apply tags_inv. Qed.
  Theorem no_list_no_tags a tags : (forall l, tags <> TagList l) -> sent (fst (tag_poll tags a)) = sent a.
  Proof. destruct tags; auto. intros H. destruct (H l); auto. Qed.

  (** ** C68 *)
  Lemma gstep_next a o : (g_next a <= g_next (gstep a o))%Z \/ exists now disk, o = GDisk now disk /\ (g_next a <= now)%Z.
  Proof.
    destruct o as [now disk|tags|sid m|i]; cbn [Model_Agent.gstep].
    - destruct (disk_sent now disk a) as (_ & -> & _). destruct (Z.leb_spec (g_next a) now); [right; eauto|left; lia].
    - left. destruct tags as [l| | |]; try reflexivity. destruct (g_tags a) as [old|] eqn:Eo.
      + destruct (tags_eqb l old) eqn:E; [apply tags_eqb_eq in E as ->; rewrite tag_unchanged by auto; reflexivity|].
        destruct (tag_changed l a) as (r & -> & _); [|reflexivity]. rewrite Eo. intros [= ->]. assert (tags_eqb l l = true) by now apply tags_eqb_eq. congruence.
      + destruct (tag_changed l a) as (r & -> & _); [congruence|reflexivity].
    - left. destruct (g_sent_meta a) eqn:M; [rewrite sync_done by auto; reflexivity|]. destruct (sync_undone sid m a M) as (ok & r & -> & _). reflexivity.
    - left. destruct (identity_step i a) as (new & -> & _). reflexivity.
  Qed.
  Lemma gstep_next_mono a o : (g_next a <= g_next (gstep a o))%Z.
  Proof.
    destruct (gstep_next a o) as [H|(now & disk & -> & H)]; auto. cbn [Model_Agent.gstep]. destruct (disk_sent now disk a) as (_ & -> & _).
    destruct (Z.leb_spec (g_next a) now); lia.
  Qed.
  Lemma grun_next l : forall a, (g_next a <= g_next (grun l a))%Z.
  Proof. induction l as [|o l IH]; intros a; cbn; [lia|]. etransitivity; [apply gstep_next_mono|apply IH]. Qed.
  Notation sends_disk := (sends_disk net serial token).
  Lemma sends_disk_iff now disk a : sends_disk now disk a <-> (g_next a <= now)%Z /\ disk <> None.
  Proof.
    unfold Spec_Agent.sends_disk. destruct (disk_sent now disk a) as (E & _). rewrite E. split.
    - intros (total & used & -> & H). split; [|discriminate]. destruct (Z.leb_spec (g_next a) now); auto. cbn in H.
      exfalso. apply (f_equal (@length json)) in H. cbn in H. lia.
    - intros [H D]. destruct disk as [[total used]|]; [|congruence]. exists total, used. split; auto. destruct (Z.leb_spec (g_next a) now); [reflexivity|lia].
  Qed.
  Theorem disk_hour t0 l1 now1 disk1 l2 now2 disk2 :
    sends_disk now1 disk1 (grun l1 (agent0 t0)) ->
    sends_disk now2 disk2 (grun (l1 ++ GDisk now1 disk1 :: l2) (agent0 t0)) -> (now1 + 3600 <= now2)%Z.
  Proof.
    rewrite !sends_disk_iff. intros [A _] [B _]. unfold Model_Agent.grun in *. rewrite fold_left_app in B. cbn [fold_left] in B.
    fold (grun l1 (agent0 t0)) in *. set (a := grun l1 (agent0 t0)) in *.
    pose proof (grun_next l2 (gstep a (GDisk now1 disk1))) as L. unfold Model_Agent.grun in L. cbn [Model_Agent.gstep] in L.
    destruct (disk_sent now1 disk1 a) as (_ & N & _). cbn [Model_Agent.gstep] in B. rewrite N in L.
    destruct (Z.leb_spec (g_next a) now1); lia.
  Qed.
  Lemma next_unpolled t0 l : (forall now disk, In (GDisk now disk) l -> (now < t0)%Z) -> g_next (grun l (agent0 t0)) = t0.
  Proof.
    induction l as [|o l IH] using rev_ind; intros H; [reflexivity|]. rewrite grun_snoc.
    specialize (IH (fun n d I => H n d (in_or_app _ _ _ (or_introl I)))). set (a := grun l (agent0 t0)) in *.
    destruct o as [now disk|tags|sid m|i]; cbn [Model_Agent.gstep].
    - destruct (disk_sent now disk a) as (_ & -> & _). specialize (H now disk ltac:(apply in_or_app; right; left; reflexivity)).
      destruct (Z.leb_spec (g_next a) now); lia.
    - rewrite <- IH. destruct tags as [lt| | |]; try reflexivity. destruct (g_tags a) as [old|] eqn:Eo.
      + destruct (tags_eqb lt old) eqn:E; [apply tags_eqb_eq in E as ->; rewrite tag_unchanged by auto; reflexivity|].
        destruct (tag_changed lt a) as (r & -> & _); [|reflexivity]. rewrite Eo. intros [= ->]. assert (tags_eqb lt lt = true) by now apply tags_eqb_eq. congruence.
      + destruct (tag_changed lt a) as (r & -> & _); [congruence|reflexivity].
    - rewrite <- IH. destruct (g_sent_meta a) eqn:M; [rewrite sync_done by auto; reflexivity|]. destruct (sync_undone sid m a M) as (ok & r & -> & _). reflexivity.
    - rewrite <- IH. destruct (identity_step i a) as (new & -> & _). reflexivity.
  Qed.
  Theorem disk_first t0 l now total used : (forall now disk, In (GDisk now disk) l -> (now < t0)%Z) -> (t0 <= now)%Z ->
    sends_disk now (Some (total, used)) (grun l (agent0 t0)).
  Proof. intros H L. apply sends_disk_iff. rewrite next_unpolled by auto. split; [auto|discriminate]. Qed.
  Theorem disk_clock_set_back t0 now disk : (now < t0)%Z -> sent (fst (disk_poll now disk (agent0 t0))) = [].
  Proof. intros H. destruct (disk_sent now disk (agent0 t0)) as (-> & _). cbn. destruct (Z.leb_spec t0 now); [lia|reflexivity]. Qed.
  (** Only disk polls report *)
  Theorem disk_only a o : (forall now disk, o <> GDisk now disk) -> exists new, sent (gstep a o) = new ++ sent a /\ Forall (fun r => ~ has_disk r) new.
  Proof.
    intros N. destruct o as [now disk|tags|sid m|i]; [destruct (N now disk); auto|..]; cbn [Model_Agent.gstep].
    - destruct tags as [l| | |]; try (exists []; split; [reflexivity|constructor]). assert (D : {g_tags a = Some l} + {g_tags a <> Some l}).
      { destruct (g_tags a) as [old|]; [|right; discriminate]. destruct (tags_eqb l old) eqn:E; [left; apply tags_eqb_eq in E; congruence|].
        right. intros [= ->]. assert (tags_eqb l l = true) by now apply tags_eqb_eq. congruence. }
      destruct D as [D|D]; [rewrite tag_unchanged by auto; exists []; split; [reflexivity|constructor]|].
      destruct (tag_changed l a D) as (r & -> & _). exists [tags_request serial token l]. split; [reflexivity|]. constructor; [|constructor].
      unfold has_disk. rewrite tags_methods. intros [X|[X|[]]]; discriminate X.
    - destruct (g_sent_meta a) eqn:M; [rewrite sync_done by auto; exists []; split; [reflexivity|constructor]|].
      destruct (sync_undone sid m a M) as (ok & r & -> & _). exists [sync_calls sid m]. split; [reflexivity|]. constructor; [|constructor].
      unfold has_disk. rewrite sync_methods. destruct m; cbn; intros X; repeat (destruct X as [X|X]; [discriminate X|]); destruct X.
    - destruct (identity_step i a) as (new & -> & [->|(t & ->)]); [exists []; split; [reflexivity|constructor]|].
      exists [identity_request serial token t]. split; [reflexivity|]. constructor; [|constructor]. unfold has_disk. rewrite identity_methods. intros [X|[X|[]]]; discriminate X.
  Qed.

  (** ** C69 *)
  Lemma sync_no_raise sid m a e : snd (sync sid m a) <> RRaise e.
  Proof. unfold Model_Agent.sync. destruct (sync_ sid m a) as [a' []]; discriminate. Qed.
  Theorem poll_no_raise e a x : snd (poll e a) <> RRaise x.
  Proof.
    unfold Model_Agent.poll. destruct (disk_poll (e_now e) (e_disk e) a) as [a1 [[]| |]]; try discriminate.
    all: destruct (tag_poll (e_tags e) a1) as [a2 [[]| |]]; try discriminate; apply sync_no_raise.
  Qed.
  Theorem poll_completes e a : (forall n, net n <> Silent) -> e_tags e <> TagHang -> snd (poll e a) = ROk tt.
  Proof.
    intros H Ht. unfold Model_Agent.poll. destruct (disk_poll (e_now e) (e_disk e) a) as [a1 r1] eqn:E1.
    assert (N1 : r1 <> RHang). { intros ->. destruct (disk_result (e_now e) (e_disk e) a) as [_ X]; [now rewrite E1|]. now apply H in X. }
    assert (S2 : snd (tag_poll (e_tags e) a1) <> RHang).
    { destruct (e_tags e) as [l| | |]; try discriminate; [|congruence]. assert (D : {g_tags a1 = Some l} + {g_tags a1 <> Some l}).
      { destruct (g_tags a1) as [old|]; [|right; discriminate]. destruct (tags_eqb l old) eqn:E; [left; apply tags_eqb_eq in E; congruence|].
        right. intros [= ->]. assert (tags_eqb l l = true) by now apply tags_eqb_eq. congruence. }
      destruct D as [D|D]; [rewrite tag_unchanged by auto; discriminate|]. destruct (tag_changed l a1 D) as (r & -> & _ & Q). cbn.
      destruct r; try discriminate. specialize (Q eq_refl). now apply H in Q. }
    assert (S3 : forall a, snd (sync (e_sync_id e) (e_meta e) a) = ROk tt).
    { intros b. destruct (g_sent_meta b) eqn:M; [now rewrite sync_done|]. destruct (sync_undone (e_sync_id e) (e_meta e) b M) as (ok & r & -> & _ & [->| ->] & Q); auto.
      specialize (Q eq_refl). now apply H in Q. }
    destruct r1; [| |congruence]; (destruct (tag_poll (e_tags e) a1) as [a2 r2]; cbn in S2; destruct r2; [apply S3|apply S3|congruence]).
  Qed.
  Theorem polls_until_exit envs exits : (forall n, net n <> Silent) -> (forall n, e_tags (envs n) <> TagHang) ->
    forall k n a, (forall j, n <= j < n + k -> exits j = false) ->
      (forall fuel, fuel <= k -> run_forever net serial token envs exits fuel n a = (n + fuel, Running)) /\
      (exits (n + k) = true -> forall fuel, k < fuel -> run_forever net serial token envs exits fuel n a = (S (n + k), Returned)).
  Proof.
    intros H Ht. induction k as [|k IH]; intros n a Hj.
    - split; [intros fuel L; assert (fuel = 0) as -> by lia; cbn; now rewrite Nat.add_0_r|].
      intros E fuel L. destruct fuel as [|fuel]; [lia|]. cbn [run_forever]. pose proof (poll_completes (envs n) a H (Ht n)) as P.
      destruct (poll (envs n) a) as [a' r]. cbn in P. subst r. rewrite Nat.add_0_r in E. rewrite E. do 2 f_equal. lia.
    - assert (Hj' : forall j, S n <= j < S n + k -> exits j = false) by (intros j L; apply Hj; lia).
      assert (En : exits n = false) by (apply Hj; lia). pose proof (poll_completes (envs n) a H (Ht n)) as P. split.
      + intros [|fuel] L; [cbn; now rewrite Nat.add_0_r|]. cbn [run_forever]. destruct (poll (envs n) a) as [a' r]. cbn in P. subst r. rewrite En.
        destruct (IH (S n) a' Hj') as [A _]. rewrite A by lia. f_equal. lia.
      + intros E [|fuel] L; [lia|]. cbn [run_forever]. destruct (poll (envs n) a) as [a' r]. cbn in P. subst r. rewrite En.
        destruct (IH (S n) a' Hj') as [_ A]. rewrite A; [f_equal; lia| |lia]. rewrite <- E. f_equal. lia.
  Qed.

  Theorem script_hangs e a : e_tags e = TagHang -> snd (poll e a) = RHang.
  Proof.
    intros E. unfold Model_Agent.poll. rewrite E. destruct (disk_poll (e_now e) (e_disk e) a) as [a1 r1] eqn:E1.
    destruct r1; try reflexivity.
  Qed.

  (** ** C83 *)
  Theorem identity_no_raise i a e : snd (set_m2m_identity i a) <> RRaise e.
  Proof.
    destruct null_dec as [Et|Et]; [now rewrite identity_null by auto|]. rewrite identity_eq by auto.
    destruct i as [id|]; try discriminate. destruct (utf8_decode id); try discriminate. destruct (with_batch _ _ _) as [w r]. cbn [snd].
    match goal with |- match ?x with _ => _ end <> _ => destruct x; discriminate end.
  Qed.
  Theorem identity_acknowledged i a : forall id, token <> JNull ->
    snd (set_m2m_identity i a) = ROk (Some id) <-> i = Some id /\ (exists t, utf8_decode id = Some t) /\
      acknowledged "authenticate_result" (net (length (sent a))) /\ acknowledged "associate_result" (net (length (sent a))).
  Proof.
    intros id Nt. rewrite identity_eq by auto. destruct i as [id'|]; [|split; [discriminate|intros ([=] & _)]].
    destruct (utf8_decode id') as [t|] eqn:U; [|split; [discriminate|intros ([= ->] & (t & X) & _); congruence]].
    destruct (identity_with t (g_world a)) as (b & C & ->). destruct (batch_send net (g_world a) b) as [w [b' r]] eqn:B. cbn [fst snd].
    pose proof (fun i => send_ack net (g_world a) b w b' r i B) as A. rewrite <- !A. split.
    - destruct r as [[]| |]; try discriminate. cbn [rbind]. destruct (get_result b' (JStr (T "authenticate_result")) None) as [v| |]; try discriminate. cbn [rbind].
      destruct (get_result b' (JStr (T "associate_result")) None) as [v'| |]; try discriminate. intros [= ->]. split; auto. split; eauto.
    - intros ([= ->] & _ & (v & G) & (v' & G')). destruct r as [[]| |]; try discriminate. cbn [rbind] in *. rewrite G. cbn [rbind]. now rewrite G'.
  Qed.
  Theorem identity_sent i a : token <> JNull -> forall id t, i = Some id -> utf8_decode id = Some t ->
    sent (fst (set_m2m_identity i a)) = identity_request serial token t :: sent a.
  Proof.
    intros Nt id t -> U. rewrite identity_eq, U by auto. destruct (identity_with t (g_world a)) as (b & C & ->).
    destruct (batch_send net (g_world a) b) as [w r] eqn:B. cbn [fst]. apply (f_equal fst) in B. cbn in B. subst w. unfold identity_request. cbn. now rewrite C.
  Qed.
  Theorem identity_unsent i a : token = JNull \/ (forall id, i = Some id -> utf8_decode id = None) -> set_m2m_identity i a = (a, ROk None).
  Proof.
    intros H. destruct null_dec as [Et|Et]; [now apply identity_null|]. rewrite identity_eq by auto. destruct H as [H|H]; [congruence|].
    destruct i as [id|]; auto. now rewrite (H id).
  Qed.
  Theorem identity_completes i a : (forall n, net n <> Silent) -> snd (set_m2m_identity i a) <> RHang.
  Proof.
    intros H. destruct null_dec as [Et|Et]; [now rewrite identity_null by auto|]. rewrite identity_eq by auto.
    destruct i as [id|]; try discriminate. destruct (utf8_decode id) as [t|]; try discriminate. destruct (identity_with t (g_world a)) as (b & C & ->).
    pose proof (send_hang net (g_world a) b) as Hh. destruct (batch_send net (g_world a) b) as [w [b' r]] eqn:B. cbn [fst snd] in *.
    destruct r as [[]| |]; cbn [rbind]; try discriminate; [|now assert (X := proj2 Hh eq_refl); apply H in X].
    pose proof (get_no_hang b' (JStr (T "authenticate_result")) None). pose proof (get_no_hang b' (JStr (T "associate_result")) None).
    destruct (get_result b' (JStr (T "authenticate_result")) None); cbn [rbind]; try congruence.
    destruct (get_result b' (JStr (T "associate_result")) None); congruence.
  Qed.
End Agent.

(** ** C70 *)
Lemma has_qm u : has_substring (T "?") u = true <-> In (char "?") u.
Proof.
  induction u as [|c u IH]; [cbn; split; [discriminate|intros []]|]. cbn [has_substring]. rewrite orb_true_iff, IH.
  cbn [starts_with T map]. split.
  - intros [H|H]; [|now right]. left. revert H. vm_compute. destruct c as [|p]; try discriminate. intros H. destruct p as [p|p|]; try discriminate.
    all: repeat (destruct p as [p|p|]; try discriminate). all: reflexivity.
  - intros [->|H]; [left; reflexivity|now right].
Qed.
Lemma upto_none c u : ~ In c u -> upto c u = u.
Proof. induction u as [|x u IH]; cbn; auto. intros H. destruct (N.eqb_spec x c); [destruct H; auto|]. f_equal. apply IH. tauto. Qed.
Lemma from_none c u v : ~ In c u -> from c (u ++ c :: v) = Some v.
Proof. induction u as [|x u IH]; cbn; [now rewrite N.eqb_refl|]. intros H. destruct (N.eqb_spec x c); [destruct H; auto|]. apply IH. tauto. Qed.
Lemma from_in c u : In c u -> from c u <> None.
Proof. induction u as [|x u IH]; cbn; [intros []|]. intros [->|H]; [rewrite N.eqb_refl; discriminate|]. destruct (x =? c)%N; [discriminate|auto]. Qed.
Lemma from_not_in c u : ~ In c u -> from c u = None.
Proof. induction u as [|x u IH]; cbn; auto. intros H. destruct (N.eqb_spec x c); [destruct H; auto|]. apply IH. tauto. Qed.
Lemma upto_incl c u x : In x (upto c u) -> In x u.
Proof. induction u as [|y u IH]; cbn; auto. destruct (y =? c)%N; [intros []|]. intros [->|H]; auto. Qed.
Lemma url_or_used c d : url_or c d = used_url c d.
Proof. destruct c as [[]|]; reflexivity. Qed.
Lemma clean_features l : Forall clean l -> clean (join_comma l).
Proof.
  intros F. induction F as [|x l A F IH]; [intros []|]. cbn [join_comma]. destruct l as [|y l]; auto. unfold clean. rewrite !in_app_iff.
  intros [H|[H|H]]; [now apply A|vm_compute in H; destruct H as [H|[]]; discriminate|now apply IH].
Qed.
Theorem url_query configured default features : let u := used_url configured default in let v := m2m_url configured default features in
  clean u -> Forall clean features ->
  (exists rest, v = u ++ rest) /\ (query u <> None -> v = u) /\ (query u = None -> query v = Some (T "features=" ++ join_comma features)).
Proof.
  cbn zeta. intros C F. unfold m2m_url. rewrite url_or_used. set (u := used_url configured default) in *.
  unfold query. rewrite (upto_none _ u) by auto. pose proof (has_qm u) as Q. destruct (has_substring (T "?") u).
  - assert (I : In (char "?") u) by now apply Q. split; [exists []; now rewrite app_nil_r|]. split; auto. intros X. now apply from_in in I.
  - assert (I : ~ In (char "?") u) by (intros I; apply Q in I; discriminate). split; [eexists; reflexivity|]. split; [intros X; now rewrite from_not_in in X|].
    intros _. assert (Cv : clean (u ++ T "?features=" ++ join_comma features)).
    { unfold clean. rewrite !in_app_iff. intros [H|[H|H]]; [auto|vm_compute in H; repeat destruct H as [H|H]; discriminate H || destruct H|now apply (clean_features features F)]. }
    rewrite (upto_none _ _ Cv). change (T "?features=" ++ join_comma features) with (char "?" :: (T "features=" ++ join_comma features)). now apply from_none.
Qed.
Theorem url_prefix configured default features : exists rest, m2m_url configured default features = used_url configured default ++ rest.
Proof. unfold m2m_url. rewrite url_or_used. destruct (has_substring _ _); [exists []; now rewrite app_nil_r|eexists; reflexivity]. Qed.
Theorem url_features configured default features : Permutation features [T "scan"; T "downloads"] ->
  let u := used_url configured default in let v := m2m_url configured default features in clean u ->
  (exists rest, v = u ++ rest) /\ (query u <> None -> v = u) /\
  (query u = None -> query v = Some (T "features=scan,downloads") \/ query v = Some (T "features=downloads,scan")).
Proof.
  intros P u v C. assert (F : Forall clean features).
  { apply Permutation_sym in P. eapply Permutation_Forall; [exact P|]. repeat constructor; intros H; vm_compute in H; repeat destruct H as [H|H]; discriminate H || destruct H. }
  destruct (url_query configured default features C F) as (A & B & D). split; [exact A|]. split; [exact B|]. intros Q. specialize (D Q). unfold v. rewrite D.
  apply Permutation_sym, Permutation_length_2_inv in P as [-> | ->]; auto.
Qed.
Theorem silent_hangs serial token e : e_tags e = TagError -> snd (poll (fun _ => Silent) serial token e (agent0 (e_now e))) = RHang.
Proof.
  intros E. unfold poll. rewrite E. destruct (disk_poll _ serial token (e_now e) (e_disk e) (agent0 (e_now e))) as [a1 r1] eqn:E1.
  destruct (disk_sent (fun _ => Silent) serial token (e_now e) (e_disk e) (agent0 (e_now e))) as (_ & _ & _ & M). rewrite E1 in M. cbn in M.
  assert (S0 : snd (sync (fun _ => Silent) serial token (e_sync_id e) (e_meta e) a1) = RHang).
  { unfold sync, sync_. rewrite M. destruct (sync_with (fun _ => Silent) serial token (e_sync_id e) (e_meta e) (g_world a1)) as (b & _ & ->).
    pose proof (proj1 (send_hang (fun _ => Silent) (g_world a1) b) eq_refl) as Hh. destruct (batch_send _ _ b) as [w [b' r]]. cbn in Hh. subst r. reflexivity. }
  cbn [tag_poll]. destruct r1; [exact S0|exact S0|reflexivity].
Qed.
