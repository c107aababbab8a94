From Verif Require Import Py Py_lemmas Dict_lemmas Model_Bencode Model_Agent Model_Manager Spec_Manager Proof_Manager Model_Start Spec_Start Proof_Tools.

(** ** C94 *)
Lemma newlines_other c r : c <> 13%N -> newlines (c :: r) = c :: newlines r.
Proof.
  intros H. cbn [newlines]. destruct c as [|p]; auto. repeat (destruct p as [p|p|]; auto; try congruence).
Qed.
Lemma newlines_cr r : (forall x, r <> (10 :: x)%N) -> newlines (13%N :: r) = 10%N :: newlines r.
Proof.
  intros H. cbn [newlines]. destruct r as [|[|p] r]; auto. repeat (destruct p as [p|p|]; auto). now destruct (H r).
Qed.
Lemma newlines_fun t t' : unix_lines t t' -> newlines t = t'.
Proof.
  induction 1 as [|r r' H IH|r r' Hx H IH|c r r' Hc H IH]; auto.
  - cbn. now rewrite IH.
  - rewrite newlines_cr by auto. now rewrite IH.
  - rewrite newlines_other by auto. now rewrite IH.
Qed.
Lemma newlines_rel n : forall t, length t <= n -> unix_lines t (newlines t).
Proof.
  induction n as [|n IH]; intros [|c r] H; try constructor; cbn in H; [lia|].
  destruct (N.eq_dec c 13) as [->|Hc].
  - destruct r as [|c' r]; [rewrite newlines_cr by discriminate; constructor; [discriminate|constructor]|].
    destruct (N.eq_dec c' 10) as [->|Hc'].
    + cbn [newlines]. constructor. apply IH. cbn in H. lia.
    + rewrite newlines_cr by congruence. constructor; [congruence|]. apply IH. lia.
  - rewrite newlines_other by auto. constructor; auto. apply IH. lia.
Qed.
Lemma trimmed_strip t v : trimmed t v <-> strip ws_text t = v.
Proof.
  split.
  - intros (a & b & -> & Ha & Hb & H1 & H2). apply strip_unique; auto. split; [exact H1|]. intros c r. apply H2.
  - intros <-. destruct (strip_split ws_text t) as (p & q & E & Hp & Hq & [H1 H2]). exists p, q. repeat split; auto. intros r c. apply H2.
Qed.
Lemma meant_read f given v : meant f given v <-> given_or_read given f = Ok v.
Proof.
  split.
  - destruct 1 as [v Hv|given b t t' v Hg -> Hd Hl Ht]; cbn; [destruct v; congruence|].
    apply newlines_fun in Hl. apply trimmed_strip in Ht. destruct Hg as [-> | ->]; cbn; now rewrite Hd, Hl, Ht.
  - unfold given_or_read. intros H.
    assert (R : (given = None \/ given = Some []) -> read f = Ok v -> meant f given v).
    { intros Hg Hr. destruct f as [| |b]; try discriminate. cbn in Hr. destruct (utf8_decode b) as [t|] eqn:E; [|discriminate].
      injection Hr as <-. econstructor; eauto; [now apply (newlines_rel (length t))|now apply trimmed_strip]. }
    destruct given as [[|x g]|]; auto. injection H as <-. now constructor.
Qed.
Lemma meant_unique f given v w : meant f given v -> meant f given w -> v = w.
Proof. rewrite !meant_read. congruence. Qed.
Lemma default_or d given v : or_default d given v <-> url_or given d = v.
Proof.
  split.
  - destruct 1 as [v H| |]; auto. destruct v; [congruence|reflexivity].
  - intros <-. destruct given as [[|x g]|]; constructor. discriminate.
Qed.
Lemma given_no_hang g f : given_or_read g f <> Hang.
Proof. destruct g as [[|x g]|]; cbn; try discriminate; destruct f as [| |b]; cbn; try discriminate; now destruct (utf8_decode b). Qed.
Lemma constructed o d h c shown : construct o d h = (Ok c, shown) ->
  meant (h_serial h) (o_serial o) (c_serial c) /\ meant (h_auth h) (o_auth o) (c_auth c) /\
  or_default (d_server_url d) (o_server_url o) (c_rpc_url c) /\ or_default (d_remote_dir d) (o_remote_dir o) (c_remote_dir c) /\
  c_m2m_url c = m2m_url (o_m2m_url o) (d_m2m_url d) (d_features d) /\
  shown = [ThreadStarted (c_m2m_url c); TerminalAdded (T "shell") (T "bash -i"); M2mAssigned; ForwardAssigned].
Proof.
  unfold construct. destruct (given_or_read (o_serial o) _) as [s|e|] eqn:Es; try discriminate.
  destruct (given_or_read (o_auth o) _) as [a|e|] eqn:Ea; try discriminate.
  destruct (h_websocket h), (h_thread h); try discriminate. intros [= <- <-]. cbn.
  rewrite !meant_read, !default_or. auto 8.
Qed.
Lemma refused o d h : (forall v, ~ meant (h_serial h) (o_serial o) v) \/ (forall v, ~ meant (h_auth h) (o_auth o) v) \/
    h_websocket h <> None \/ h_thread h <> None -> exists e, construct o d h = (Raise e, []).
Proof.
  intros H. unfold construct. destruct (given_or_read (o_serial o) _) as [s|e|] eqn:Es; [|eauto|now apply given_no_hang in Es].
  destruct (given_or_read (o_auth o) _) as [a|e|] eqn:Ea; [|eauto|now apply given_no_hang in Ea].
  destruct (h_websocket h), (h_thread h); eauto. exfalso. rewrite <- meant_read in Es, Ea.
  destruct H as [H|[H|[H|H]]]; [now apply (H s)|now apply (H a)|congruence..].
Qed.
Lemma unread given f e : given_or_read given f = Raise e <-> unreadable f given e.
Proof.
  split.
  - unfold given_or_read. destruct given as [[|c r]|]; try discriminate; (destruct f as [| |b]; cbn; [intros [= <-]; apply ur_none; auto..|]);
      (destruct (utf8_decode b) eqn:E; [discriminate|]); intros [= <-]; eapply ur_bytes; eauto.
  - intros [[-> | ->] [-> | ->]|b [-> | ->] -> E]; cbn; rewrite ?E; reflexivity.
Qed.
Lemma refused_why o d h e shown : construct o d h = (Raise e, shown) -> shown = [] /\
  (unreadable (h_serial h) (o_serial o) e \/ unreadable (h_auth h) (o_auth o) e \/ h_websocket h = Some e \/ h_thread h = Some e).
Proof.
  unfold construct. destruct (given_or_read (o_serial o) _) as [s|e1|] eqn:Es; [|intros [= <- <-]; apply unread in Es; auto|discriminate].
  destruct (given_or_read (o_auth o) _) as [a|e1|] eqn:Ea; [|intros [= <- <-]; apply unread in Ea; auto|discriminate].
  destruct (h_websocket h), (h_thread h); intros [= <- <-]; auto.
Qed.
Lemma started o d h s a : meant (h_serial h) (o_serial o) s -> meant (h_auth h) (o_auth o) a -> h_websocket h = None -> h_thread h = None ->
  exists c shown, construct o d h = (Ok c, shown).
Proof. rewrite !meant_read. intros Hs Ha Hw Ht. unfold construct. rewrite Hs, Ha, Hw, Ht. eauto. Qed.

(** ** C95 *)
Definition shown_at (u : text) : list visible := [ThreadStarted u; TerminalAdded (T "shell") (T "bash -i"); M2mAssigned; ForwardAssigned].
Lemma startup_prefix l : startup l -> exists u later, shown_at u = l ++ later /\ l <> [].
Proof. intros (o & d & h & c & full & H & later & -> & Hn). apply constructed in H as (_ & _ & _ & _ & _ & E). exists (c_m2m_url c), later. split; auto. Qed.
Lemma finished_shown l : finished l -> exists u, l = shown_at u.
Proof. intros (o & d & h & c & H). apply constructed in H as (_ & _ & _ & _ & _ & E). exists (c_m2m_url c). exact E. Qed.
(** The services matter only for port forwards, the terminals only for terminals. *)
Lemma split_instruction data t s p m : let d := match data with VDict pairs => match decode_pairs pairs with Ok kv => dict_of text_eqb kv | _ => [] end | _ => [] end in
  (forall a, item d "action" = Ok a -> is_text a "open-portforward" = false) ->
  (forall a, item d "action" = Ok a -> is_text a "open-terminal" = false \/ t = terminals m) ->
  on_instruction data (Mgr t s p) = on_instruction data m.
Proof.
  intros d Hf Ht. destruct data; try reflexivity. cbn [on_instruction]. destruct (decode_pairs d0) as [kv|e|] eqn:E; cbn [bind]; auto.
  subst d. destruct (item (dict_of text_eqb kv) "action") as [a|e|] eqn:Ea; cbn [bind]; auto.
  destruct (is_text a "sync"); auto.
  destruct (is_text a "open-terminal") eqn:Et.
  - destruct (Ht a eq_refl) as [X|X]; [congruence|]. subst t. reflexivity.
  - destruct (is_text a "open-echo"); auto. rewrite (Hf a eq_refl). reflexivity.
Qed.

Lemma decode_pairs_map pairs kv : decode_pairs pairs = Ok kv -> byte_keys pairs /\ kv = map dpair pairs.
Proof. intros H. pose proof (decode_pairs_bad _ _ H) as Hb. split; auto. rewrite (decode_pairs_ok _ Hb) in H. congruence. Qed.
Lemma shown_cases u l later : shown_at u = l ++ later -> l <> [] ->
  (terminal_names l = [] /\ (forall n c, ~ In (TerminalAdded n c) l) \/ terminal_names l = [T "shell"] /\ exists n c, In (TerminalAdded n c) l) /\
  (has is_forward l = false /\ ~ In ForwardAssigned l \/ has is_forward l = true /\ In ForwardAssigned l /\ terminal_names l = [T "shell"]).
Proof.
  unfold shown_at. intros H N.
  destruct l as [|v1 l]; [congruence|]. injection H as <- H.
  destruct l as [|v2 l]; [cbn; split; left; split; auto; intros; intros [X|[]]; discriminate|]. injection H as <- H.
  assert (T2 : exists n c, In (TerminalAdded n c) (ThreadStarted u :: TerminalAdded (T "shell") (T "bash -i") :: l)) by (do 2 eexists; right; left; reflexivity).
  destruct l as [|v3 l]; [split; [right; split; [reflexivity|exact T2]|left; split; [reflexivity|intros [X|[X|[]]]; discriminate]]|]. injection H as <- H.
  destruct l as [|v4 l]; [split; [right; split; [reflexivity|exact T2]|left; split; [reflexivity|intros [X|[X|[X|[]]]]; discriminate]]|]. injection H as <- H.
  destruct l; [|discriminate]. split; right; (split; [reflexivity|]); [exact T2|]. split; [cbn; auto|reflexivity].
Qed.
Lemma at_served l data : startup l -> (opens_terminal data -> exists n c, In (TerminalAdded n c) l) -> (opens_forward data -> In ForwardAssigned l) ->
  packet_at l (VDict data) = on_instruction_packet (VDict data) default_manager.
Proof.
  intros Hs Ht Hf. apply startup_prefix in Hs as (u & later & E & N). destruct (shown_cases _ _ _ E N) as [CT CF].
  unfold packet_at, on_instruction_packet.
  replace (on_instruction_at l (VDict data)) with (on_instruction (VDict data) default_manager); [reflexivity|symmetry]. unfold on_instruction_at.
  assert (X : forall kv a, decode_pairs data = Ok kv -> item (dict_of text_eqb kv) "action" = Ok a -> named data "action" a).
  { intros kv a Hd Ha. apply decode_pairs_map in Hd as [Hb ->]. now apply item_named. }
  destruct (decode_pairs data) as [kv|e|] eqn:Ed; [|cbn [on_instruction]; rewrite Ed; reflexivity..]. cbn [bind].
  destruct (item (dict_of text_eqb kv) "action") as [a|e|] eqn:Ea; [|cbn [on_instruction]; rewrite Ed; cbn [bind]; rewrite Ea; reflexivity..]. cbn [bind].
  specialize (X kv a eq_refl Ea).
  assert (Ready : In ForwardAssigned l -> forward_of l = Ok default_manager).
  { intros Hin. unfold forward_of. destruct CF as [[_ CF]|(-> & _ & ->)]; [contradiction|reflexivity]. }
  destruct (is_text a "open-portforward") eqn:E1.
  - apply is_text_iff in E1. subst a. rewrite Ready by (apply Hf; now left).
    cbn [on_instruction]. rewrite Ed. cbn [bind]. rewrite Ea. cbn [bind]. reflexivity.
  - destruct (is_text a "open-portredirect") eqn:E2.
    + apply is_text_iff in E2. subst a. rewrite Ready by (apply Hf; now right).
      cbn [on_instruction]. rewrite Ed. cbn [bind]. rewrite Ea. cbn [bind]. reflexivity.
    + apply split_instruction; rewrite Ed.
      * intros a' Ha'. congruence.
      * intros a' Ha'. destruct (is_text a' "open-terminal") eqn:E3; auto. right. apply is_text_iff in E3.
        assert (a = a') by congruence. subst a a'. destruct CT as [[_ CT]|[-> _]]; [|reflexivity].
        destruct (Ht X) as (n & c & Hin). now apply CT in Hin.
Qed.
Lemma at_unserved l data : startup l -> (opens_terminal data /\ (forall n c, ~ In (TerminalAdded n c) l)) \/ (opens_forward data /\ ~ In ForwardAssigned l) ->
  packet_at l (VDict data) = Ok [].
Proof.
  intros Hs H. apply startup_prefix in Hs as (u & later & E & N). destruct (shown_cases _ _ _ E N) as [CT CF].
  unfold packet_at, on_instruction_at. destruct (decode_pairs data) as [kv|e|] eqn:Ed; cbn [bind]; auto.
  2: { exfalso. revert Ed. clear. induction data as [|[k v] d IH]; cbn; [discriminate|]. destruct k; try discriminate.
       destruct (decode_pairs d) as [kv|e|]; cbn; try discriminate. auto. }
  apply decode_pairs_map in Ed as [Hb ->].
  assert (IT : forall d n, item d n <> Hang) by (intros d n; unfold item; destruct (dict_get _ _ _); discriminate).
  destruct H as [[H Hn]|[H Hn]].
  - pose proof H as H'. apply item_named in H'; auto. rewrite H'. cbn [bind].
    change (is_text (VText (T "open-terminal")) "open-portforward") with false. change (is_text (VText (T "open-terminal")) "open-portredirect") with false.
    destruct CT as [[-> _]|[_ (n & c & X)]]; [|now apply Hn in X]. cbn [on_instruction]. rewrite (decode_pairs_ok _ Hb). cbn [bind]. rewrite H'. cbn [bind].
    change (is_text (VText (T "open-terminal")) "sync") with false. change (is_text (VText (T "open-terminal")) "open-terminal") with true.
    destruct (item _ "port") as [p|e|] eqn:Ep; cbn [bind]; auto; [|now apply IT in Ep].
    destruct (item _ "name") as [x|e|] eqn:Ex; cbn [bind]; auto; [|now apply IT in Ex].
    unfold open_terminal. destruct (hashable x); [|reflexivity]. now destruct x.
  - assert (F : forward_of l = Raise EAttr).
    { unfold forward_of. destruct CF as [[-> _]|(_ & X & _)]; [reflexivity|contradiction]. }
    destruct H as [H|H]; apply item_named in H; auto; rewrite H; cbn [bind].
    + change (is_text (VText (T "open-portforward")) "open-portforward") with true.
      destruct (item _ "service") as [p|e|] eqn:Ep; cbn [bind]; auto; [|now apply IT in Ep].
      destruct (item _ "route") as [x|e|] eqn:Ex; cbn [bind]; auto; [|now apply IT in Ex]. now rewrite F.
    + change (is_text (VText (T "open-portredirect")) "open-portforward") with false. change (is_text (VText (T "open-portredirect")) "open-portredirect") with true.
      destruct (item _ "device_port") as [p|e|] eqn:Ep; cbn [bind]; auto; [|now apply IT in Ep].
      destruct (item _ "m2m_port") as [x|e|] eqn:Ex; cbn [bind]; auto; [|now apply IT in Ex]. now rewrite F.
Qed.
Lemma at_end l data : finished l -> packet_at l (VDict data) = on_instruction_packet (VDict data) default_manager.
Proof.
  intros H. apply at_served.
  - destruct H as (o & d & h & c & H). exists o, d, h, c, l. split; auto. exists []. split; [now rewrite app_nil_r|].
    apply constructed in H as (_ & _ & _ & _ & _ & ->). discriminate.
  - intros _. apply finished_shown in H as (u & ->). do 2 eexists. right. left. reflexivity.
  - intros _. apply finished_shown in H as (u & ->). cbn. auto.
Qed.
