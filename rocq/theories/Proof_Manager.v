(** * Proofs of C26, C36, C40, C41 *)
From Verif Require Import Py Py_lemmas Dict_lemmas Model_Bencode Model_Manager Spec_Manager.

(** ** C41 *)
Lemma dict_of_snoc {V} (kv : list (text * V)) k v : dict_of text_eqb (kv ++ [(k, v)]) = dict_set text_eqb k v (dict_of text_eqb kv).
Proof. unfold dict_of. now rewrite fold_left_app. Qed.
Lemma get_dict_of {V} (kv : list (text * V)) n v : dict_get text_eqb n (dict_of text_eqb kv) = Some v <->
  exists b a, kv = b ++ (n, v) :: a /\ ~ In n (map fst a).
Proof.
  induction kv as [|[k w] kv IH] using rev_ind.
  - split; [discriminate|]. intros (b&a&H&_). destruct b; discriminate.
  - rewrite dict_of_snoc, (get_set text_eqb text_eqb_spec). destruct (text_eqb_spec k n) as [->|N].
    + split.
      * intros [= ->]. exists kv, []. auto.
      * intros (b&a&H&Hn). destruct a as [|x a _] using rev_ind.
        -- apply app_inj_tail in H as [_ [= ->]]. auto.
        -- rewrite app_comm_cons, app_assoc in H. apply app_inj_tail in H as [_ <-].
           exfalso. apply Hn. rewrite map_app, in_app_iff. right; left; auto.
    + rewrite IH. split; intros (b&a&H&Hn).
      * exists b, (a ++ [(k, w)]). subst kv. rewrite <- app_assoc. split; auto. rewrite map_app, in_app_iff. cbn. intuition.
      * destruct a as [|x a _] using rev_ind.
        -- apply app_inj_tail in H as [_ [= -> ->]]. congruence.
        -- rewrite app_comm_cons, app_assoc in H. apply app_inj_tail in H as [-> <-].
           exists b, a. split; auto. rewrite map_app, in_app_iff in Hn. tauto.
Qed.
Definition dpair (p : val * val) : text * val := (match fst p with VBytes k => utf8_ignore k | _ => [] end, decode_string (snd p)).
Lemma decode_pairs_ok d : byte_keys d -> decode_pairs d = Ok (map dpair d).
Proof.
  induction d as [|[k v] d IH]; cbn; auto. intros H. destruct (H k v (or_introl eq_refl)) as [b ->].
  rewrite IH; [reflexivity|]. intros k' v' Hin. apply (H k' v'). right; auto.
Qed.
Lemma decode_pairs_bad d kv : decode_pairs d = Ok kv -> byte_keys d.
Proof.
  revert kv. induction d as [|[k v] d IH]; cbn; [intros _ _ ? ? []|]. intros kv.
  destruct k; try discriminate. destruct (decode_pairs d) eqn:E; try discriminate. intros _ k' v' [[= <- <-]|H]; eauto.
  eapply IH; eauto.
Qed.
Lemma get_named d n v : byte_keys d -> dict_get text_eqb (T n) (dict_of text_eqb (map dpair d)) = Some v <-> named d n v.
Proof.
  intros HB. rewrite get_dict_of. split.
  - intros (b&a&H&Hn). apply map_eq_app in H as (d1&d2&->&<-&H). destruct d2 as [|[k r] d2]; [discriminate|].
    cbn in H. injection H as Hk Hv <-.
    destruct (HB k r) as [kb ->]; [rewrite in_app_iff; right; left; auto|].
    exists d1, kb, r, d2. unfold dpair in Hk, Hv. cbn in *. split; auto. split; auto. split.
    + intros k' r' Hin Hk'. apply Hn. apply in_map_iff. exists (dpair (VBytes k', r')). split; [exact Hk'|]. now apply in_map.
    + subst v. unfold decode_string. auto.
  - intros (d1&k&r&d2&->&Hk&Hn&->). exists (map dpair d1), (map dpair d2). split.
    + rewrite map_app. cbn. unfold dpair at 2. cbn. now rewrite Hk.
    + intros Hin. apply in_map_iff in Hin as ([t v]&Ht&Hin). apply in_map_iff in Hin as ([k' r']&Hp&Hin).
      destruct (HB k' r') as [kb ->]; [rewrite in_app_iff; right; right; auto|].
      unfold dpair in Hp. cbn in *. injection Hp as <- _. eapply Hn; eauto.
Qed.
Lemma item_named d n v : byte_keys d -> item (dict_of text_eqb (map dpair d)) n = Ok v <-> named d n v.
Proof.
  intros HB. rewrite <- get_named by auto. unfold item. destruct (dict_get _ _ _); split; congruence.
Qed.
Lemma named_fun d n v w : byte_keys d -> named d n v -> named d n w -> v = w.
Proof. intros HB H1 H2. apply get_named in H1, H2; auto. congruence. Qed.
Lemma hashable_iff v : hashable v = true <-> channel_no v.
Proof. unfold channel_no. destruct v; cbn; split; intros; try discriminate; try reflexivity; try (split; intros; discriminate); destruct H as [H1 H2]; [destruct (H1 l)|destruct (H2 d)]; auto. Qed.
Lemma channel_ok c : channel_no c -> get_channel c = Ok c.
Proof. intros H. apply hashable_iff in H. unfold get_channel. now rewrite H. Qed.
Lemma channel_inv c c' : get_channel c = Ok c' -> c' = c /\ channel_no c.
Proof. unfold get_channel. destruct (hashable c) eqn:E; [|discriminate]. intros [= <-]. split; auto. now apply hashable_iff. Qed.
Lemma is_text_iff v s : is_text v s = true <-> v = VText (T s).
Proof. unfold is_text. destruct v; try (split; discriminate). rewrite text_eqb_eq. split; congruence. Qed.
Lemma route_iff r c : (forall b, r <> VBytes b) -> route_port r = Ok c <-> route_to c r.
Proof.
  intros NB. split.
  - destruct r; cbn; try discriminate; try (now destruct (NB b)).
    + repeat (destruct t as [|? t]; try discriminate). intros [= <-]. now constructor.
    + repeat (destruct l as [|? l]; try discriminate). intros [= <-]. now constructor.
    + repeat (destruct l as [|? l]; try discriminate). intros [= <-]. now constructor.
    + do 4 (destruct d as [|? d]; try discriminate). destruct p2 as [? ?]. destruct d; try discriminate. intros [= <-]. now constructor.
  - intros []; cbn; subst; auto.
Qed.
Lemma bind_ok {A X} (r : res A) (k : A -> res X) x : bind r k = Ok x -> exists a, r = Ok a /\ k a = Ok x.
Proof. destruct r; cbn; try discriminate. eauto. Qed.
Lemma named_not_bytes d n b : ~ named d n (VBytes b).
Proof. intros (?&?&r&?&_&_&_&H). destruct r; discriminate. Qed.

Lemma on_instruction_ok data m deeds : on_instruction (VDict data) m = Ok deeds ->
  byte_keys data /\ length deeds <= 1 /\ forall e, In e deeds -> asks (terminals m) (services m) data e.
Proof.
  unfold on_instruction. intros H. apply bind_ok in H as (kv&Hkv&H). pose proof (decode_pairs_bad _ _ Hkv) as HB.
  split; auto. rewrite decode_pairs_ok in Hkv by auto. injection Hkv as <-.
  set (d := dict_of text_eqb (map dpair data)) in *.
  assert (forall n v, item d n = Ok v -> named data n v) as IN by (intros n v; apply item_named; auto).
  apply bind_ok in H as (a&Ha&H). apply IN in Ha.
  repeat match type of H with (if is_text ?x ?s then _ else _) = _ =>
    destruct (is_text x s) eqn:?E; [apply is_text_iff in E; subst x|clear E] end.
  - injection H as <-. split; auto. intros e [<-|[]]. now constructor.
  - apply bind_ok in H as (p&Hp&H). apply bind_ok in H as (n&Hn&H). apply IN in Hp, Hn.
    unfold open_terminal in H. destruct (hashable n); [|discriminate].
    destruct n; try (injection H as <-; cbn; split; [lia|tauto]).
    destruct (existsb (text_eqb t) (terminals m)) eqn:E; [|injection H as <-; cbn; split; [lia|tauto]].
    apply existsb_exists in E as (t'&Ht&E). apply text_eqb_eq in E as <-.
    apply bind_ok in H as (c&Hc&H). apply channel_inv in Hc as [-> Hc]. injection H as <-. split; auto.
    intros e [<-|[]]. econstructor; eauto. intros s. apply get_named; auto.
  - apply bind_ok in H as (p&Hp&H). apply bind_ok in H as (c&Hc&H). apply channel_inv in Hc as [-> Hc]. injection H as <-. split; auto.
    intros e [<-|[]]. econstructor; eauto.
  - apply bind_ok in H as (s&Hs&H). apply bind_ok in H as (r&Hr&H). apply IN in Hs, Hr.
    unfold open_service in H. apply bind_ok in H as (c&Hc&H). apply route_iff in Hc; [|intros b ->; now apply named_not_bytes in Hr].
    unfold open in H. apply bind_ok in H as (sv&Hsv&H).
    assert (get_service s m = Ok sv) as G by (destruct s; try discriminate; exact Hsv). clear Hsv.
    unfold get_service in G. destruct (hashable s); [|discriminate]. injection G as <-.
    destruct s; try (injection H as <-; cbn; split; [lia|tauto]).
    destruct (dict_get text_eqb t (services m)) as [[h p]|] eqn:E; [|injection H as <-; cbn; split; [lia|tauto]].
    unfold connect in H. apply bind_ok in H as (c'&Hc'&H). apply channel_inv in Hc' as [-> Hc']. injection H as <-. split; auto.
    intros e [<-|[]]. econstructor; eauto.
  - apply bind_ok in H as (p&Hp&H). apply bind_ok in H as (c&Hc&H). apply bind_ok in H as (c'&Hc'&H). apply channel_inv in Hc' as [-> Hc']. injection H as <-. split; auto.
    intros e [<-|[]]. apply asks_redirect; auto.
  - injection H as <-. split; auto. intros e [<-|[]]. now constructor.
  - apply bind_ok in H as (p&Hp&H). apply bind_ok in H as (c&Hc&H). apply bind_ok in H as (c'&Hc'&H). apply channel_inv in Hc' as [-> Hc']. injection H as <-. split; auto.
    intros e [<-|[]]. apply asks_file; auto.
  - apply bind_ok in H as (p&Hp&H). apply bind_ok in H as (c&Hc&H). apply bind_ok in H as (c'&Hc'&H). apply channel_inv in Hc' as [-> Hc']. injection H as <-. split; auto.
    intros e [<-|[]]. apply asks_command; auto.
  - injection H as <-. split; auto. intros e [<-|[]]. now constructor.
  - injection H as <-. cbn; split; [lia|tauto].
Qed.
Lemma asked_is_done data m e : byte_keys data -> asks (terminals m) (services m) data e -> on_instruction (VDict data) m = Ok [e].
Proof.
  intros HB H. unfold on_instruction. rewrite decode_pairs_ok by auto. cbn [bind]. set (d := dict_of text_eqb (map dpair data)) in *.
  assert (forall n v, named data n v -> item d n = Ok v) as IN by (intros n v; apply item_named; auto).
  destruct H as [Ha|name c Ha Hn Ht Hp Hc size Hs|c Ha Hp Hc|name route host port c Ha Hn Hs Hr Hro Hc|p c Ha Hd Hp Hc|Ha|path c Ha Hp Hc Hx|cmd c Ha Hp Hc Hx|Ha];
    apply IN in Ha; rewrite Ha; cbn [bind];
    repeat match goal with |- context[is_text ?x ?s] => let r := eval vm_compute in (is_text x s) in change (is_text x s) with r; cbn iota end; auto.
  - rewrite (IN _ _ Hp), (IN _ _ Hn). cbn [bind]. unfold open_terminal. cbn [hashable].
    assert (existsb (text_eqb name) (terminals m) = true) as ->. { apply existsb_exists. exists name. split; auto. apply text_eqb_refl. }
    rewrite channel_ok by auto. cbn. repeat f_equal. destruct size as [s|].
    + exact (proj2 (get_named data "size" s HB) (proj1 (Hs s) eq_refl)).
    + change (dict_get text_eqb (T "size") d = None).
      destruct (dict_get text_eqb (T "size") d) as [s|] eqn:E; auto. apply (get_named data "size" s HB), Hs in E. discriminate.
  - rewrite (IN _ _ Hp). cbn [bind]. rewrite channel_ok by auto. auto.
  - rewrite (IN _ _ Hn), (IN _ _ Hr). cbn [bind]. unfold open_service.
    assert (route_port route = Ok c) as ->. { apply route_iff; auto. intros b ->. now apply named_not_bytes in Hr. }
    cbn [bind]. unfold open. cbn. rewrite Hs. cbn. unfold connect. rewrite channel_ok by auto. auto.
  - rewrite (IN _ _ Hd), (IN _ _ Hp). cbn [bind]. rewrite channel_ok by auto. auto.
  - rewrite (IN _ _ Hp), (IN _ _ Hx). cbn [bind]. rewrite channel_ok by auto. auto.
  - rewrite (IN _ _ Hp), (IN _ _ Hx). cbn [bind]. rewrite channel_ok by auto. auto.
Qed.
Lemma no_hang data m : on_instruction data m <> Hang.
Proof.
  assert (forall d n, item d n <> Hang) as HI by (intros d n; unfold item; destruct (dict_get _ _ _); discriminate).
  assert (forall c, get_channel c <> Hang) as HC by (intros c; unfold get_channel; destruct (hashable c); discriminate).
  assert (forall {A X} (r : res A) (k : A -> res X), r <> Hang -> (forall a, k a <> Hang) -> bind r k <> Hang) as HB by (intros A X [] k; cbn; auto; congruence).
  unfold on_instruction. destruct data; try discriminate. apply HB.
  { induction d as [|[k v] d IH]; cbn; [discriminate|]. destruct k; try discriminate. apply HB; auto; discriminate. }
  intros kv. apply HB; auto. intros a.
  repeat (match goal with |- (if ?b then _ else _) <> Hang => destruct b end; try discriminate).
  - apply HB; auto; intros p. apply HB; auto; intros n. unfold open_terminal. destruct (hashable n); [|discriminate].
    destruct n; try discriminate. destruct (existsb _ _); [|discriminate]. apply HB; auto; discriminate.
  - apply HB; auto; intros p. apply HB; auto; discriminate.
  - apply HB; auto; intros p. apply HB; auto; intros r. unfold open_service. apply HB.
    { destruct r; cbn; try discriminate; repeat (match goal with |- match ?l with _ => _ end <> Hang => destruct l end; try discriminate). }
    intros c. unfold open. apply HB; [|intros [s|]; [apply HB; auto; discriminate|discriminate]].
    destruct p; try discriminate; unfold get_service; destruct (hashable _); discriminate.
  - repeat (apply HB; auto; intros ?); discriminate.
  - repeat (apply HB; auto; intros ?); discriminate.
  - repeat (apply HB; auto; intros ?); discriminate.
Qed.
Lemma c41 data m : exists deeds, on_instruction_packet (VDict data) m = Ok deeds /\ length deeds <= 1 /\
  forall e, In e deeds <-> byte_keys data /\ asks (terminals m) (services m) data e.
Proof.
  unfold on_instruction_packet. destruct (on_instruction (VDict data) m) as [deeds|x|] eqn:E.
  - exists deeds. split; auto. pose proof (on_instruction_ok _ _ _ E) as (H1&H2&H3). split; auto.
    intros e. split; [auto|]. intros [_ He]. apply asked_is_done in He; auto. rewrite He in E. injection E as <-. left; auto.
  - exists []. split; auto. cbn. split; [lia|]. intros e. split; [tauto|]. intros [HB He]. apply asked_is_done in He; auto. congruence.
  - now apply no_hang in E.
Qed.
Lemma c41_other data m : (forall d, data <> VDict d) -> on_instruction_packet data m = Ok [].
Proof. intros H. destruct data; auto. destruct (H d); auto. Qed.

(** ** C26 *)
Lemma irun_snoc l c st : irun (l ++ [c]) st = set_identity (fst (fst c)) (snd (fst c)) (snd c) (irun l st).
Proof. unfold irun. now rewrite fold_left_app. Qed.
Lemma notified_settled calls i : notified (irun calls iinit) = Some i <-> settled calls i.
Proof.
  split.
  - revert i. induction calls as [|[[t tok] a] calls IH] using rev_ind; [discriminate|]. intros i.
    rewrite irun_snoc. cbn [fst snd]. unfold set_identity. destruct t as [[|b t]|]; try (intros H; apply settled_still; [now apply IH|cbn; auto]; fail).
    destruct (notified (irun calls iinit)) as [n|] eqn:E.
    + destruct (bytes_eqb n (b :: t)) eqn:Eb.
      * rewrite E. intros [= <-]. apply bytes_eqb_eq in Eb as ->. apply settled_still; [now apply IH|cbn; auto].
      * destruct tok; [|discriminate]. destruct (utf8_decode (b :: t)) eqn:U; [|discriminate]. destruct a; [|discriminate].
        intros [= <-]. apply settled_now; congruence.
    + destruct tok; [|discriminate]. destruct (utf8_decode (b :: t)) eqn:U; [|discriminate]. destruct a; [|discriminate].
      intros [= <-]. apply settled_now; congruence.
  - induction 1 as [before i N V|calls c i H IH Hc]; rewrite irun_snoc; cbn [fst snd].
    + unfold set_identity. destruct i as [|b i]; [congruence|].
      destruct (match notified (irun before iinit) with Some n => bytes_eqb n (b :: i) | None => false end) eqn:E.
      * destruct (notified _) eqn:En; [|discriminate]. apply bytes_eqb_eq in E. congruence.
      * destruct (utf8_decode (b :: i)); cbn; congruence.
    + destruct c as [[t tok] a]. cbn [fst snd] in *. destruct Hc as [-> | [-> | ->]]; auto. unfold set_identity. rewrite IH.
      destruct i; auto. now rewrite bytes_eqb_refl.
Qed.
Lemma reported_unless_settled calls i answer : i <> [] -> utf8_decode i <> None -> ~ settled calls i ->
  reports (irun (calls ++ [(Some i, true, answer)]) iinit) = (i, answer) :: reports (irun calls iinit).
Proof.
  intros N V H. rewrite irun_snoc. cbn [fst snd]. unfold set_identity. destruct i as [|b i]; [congruence|].
  destruct (match notified (irun calls iinit) with Some n => bytes_eqb n (b :: i) | None => false end) eqn:E.
  - destruct (notified _) eqn:En; [|discriminate]. apply bytes_eqb_eq in E. subst. apply notified_settled in En. tauto.
  - destruct (utf8_decode (b :: i)); [reflexivity|congruence].
Qed.
Lemma settled_not_reported calls i tok answer : settled calls i ->
  reports (irun (calls ++ [(Some i, tok, answer)]) iinit) = reports (irun calls iinit).
Proof.
  intros H. apply notified_settled in H. rewrite irun_snoc. cbn [fst snd]. unfold set_identity. rewrite H.
  destruct i; auto. now rewrite bytes_eqb_refl.
Qed.
Lemma only_told calls : forall i a, In (i, a) (reports (irun calls iinit)) -> i <> [] /\ In (Some i, true, a) calls.
Proof.
  induction calls as [|[[t tok] a0] calls IH] using rev_ind; [intros ? ? []|]. intros i a. rewrite irun_snoc. cbn [fst snd].
  assert (In (i, a) (reports (irun calls iinit)) -> i <> [] /\ In (Some i, true, a) (calls ++ [(t, tok, a0)])) as Old.
  { intros H. apply IH in H as [H1 H2]. split; auto. apply in_app_iff. auto. }
  unfold set_identity. destruct t as [[|b t]|]; auto.
  destruct (match notified (irun calls iinit) with Some n => bytes_eqb n (b :: t) | None => false end); auto.
  destruct tok; auto. destruct (utf8_decode (b :: t)); auto. cbn. intros [[= <- <-]|H]; auto.
  split; [discriminate|]. apply in_app_iff. right; left; auto.
Qed.
Lemma blank_not_reported calls tok a t : t = None \/ t = Some [] -> irun (calls ++ [(t, tok, a)]) iinit = irun calls iinit.
Proof. intros H. rewrite irun_snoc. destruct H as [->| ->]; reflexivity. Qed.

(** ** C36 *)
Lemma registered_snoc regs r m : registered (regs ++ [r]) m = add_service (reg_name r) (reg_port r) (snd r) (registered regs m).
Proof. unfold registered. now rewrite fold_left_app. Qed.
Lemma zeqb_spec a b : reflect (a = b) (Z.eqb a b).
Proof. apply Z.eqb_spec. Qed.
Lemma services_get terms regs n h p : dict_get text_eqb n (services (registered regs (no_services terms))) = Some (h, p) <->
  exists before after, regs = before ++ (n, p, h) :: after /\ ~ In n (map reg_name after).
Proof.
  induction regs as [|r regs IH] using rev_ind.
  - split; [discriminate|]. intros (b&a&H&_). destruct b; discriminate.
  - rewrite registered_snoc. unfold add_service. cbn. rewrite (get_set text_eqb text_eqb_spec).
    destruct r as [[n' p'] h']. unfold reg_name, reg_port. cbn. destruct (text_eqb_spec n' n) as [->|N].
    + split.
      * intros [= -> ->]. exists regs, []. auto.
      * intros (b&a&H&Hn). destruct a as [|x a _] using rev_ind.
        -- apply app_inj_tail in H as [_ [= -> ->]]. auto.
        -- rewrite app_comm_cons, app_assoc in H. apply app_inj_tail in H as [_ <-].
           exfalso. apply Hn. rewrite map_app, in_app_iff. right; left; auto.
    + rewrite IH. split; intros (b&a&H&Hn).
      * exists b, (a ++ [(n', p', h')]). subst regs. rewrite <- app_assoc. split; auto. rewrite map_app, in_app_iff. cbn. intuition.
      * destruct a as [|x a _] using rev_ind.
        -- apply app_inj_tail in H as [_ [= -> -> ->]]. congruence.
        -- rewrite app_comm_cons, app_assoc in H. apply app_inj_tail in H as [-> <-].
           exists b, a. split; auto. rewrite map_app, in_app_iff in Hn. tauto.
Qed.
Lemma ports_get terms regs n p : dict_get Z.eqb p (ports (registered regs (no_services terms))) = Some n <->
  exists before h after, regs = before ++ (n, p, h) :: after /\ ~ In p (map reg_port after).
Proof.
  induction regs as [|r regs IH] using rev_ind.
  - split; [discriminate|]. intros (b&h&a&H&_). destruct b; discriminate.
  - rewrite registered_snoc. unfold add_service. cbn. rewrite (get_set Z.eqb zeqb_spec).
    destruct r as [[n' p'] h']. unfold reg_name, reg_port. cbn. destruct (zeqb_spec p' p) as [->|N].
    + split.
      * intros [= ->]. exists regs, h', []. auto.
      * intros (b&h&a&H&Hn). destruct a as [|x a _] using rev_ind.
        -- apply app_inj_tail in H as [_ [= -> ->]]. auto.
        -- rewrite app_comm_cons, app_assoc in H. apply app_inj_tail in H as [_ <-].
           exfalso. apply Hn. rewrite map_app, in_app_iff. right; left; auto.
    + rewrite IH. split; intros (b&h&a&H&Hn).
      * exists b, h, (a ++ [(n', p', h')]). subst regs. rewrite <- app_assoc. split; auto. rewrite map_app, in_app_iff. cbn. intuition.
      * destruct a as [|x a _] using rev_ind.
        -- apply app_inj_tail in H as [_ [= -> -> ->]]. congruence.
        -- rewrite app_comm_cons, app_assoc in H. apply app_inj_tail in H as [-> <-].
           exists b, h, a. split; auto. rewrite map_app, in_app_iff in Hn. tauto.
Qed.
Lemma open_by_name terms before n p h after c : ~ In n (map reg_name after) -> channel_no c ->
  open c (VText n) None (registered (before ++ (n, p, h) :: after) (no_services terms)) = Ok [Connect h (VInt p) c].
Proof.
  intros N C. unfold open, get_service. cbn [hashable bind].
  assert (dict_get text_eqb n (services (registered (before ++ (n, p, h) :: after) (no_services terms))) = Some (h, p)) as ->.
  { apply services_get. eauto. }
  unfold connect. rewrite channel_ok by auto. auto.
Qed.
Lemma open_unknown_name terms regs n c : ~ In n (map reg_name regs) -> open c (VText n) None (registered regs (no_services terms)) = Ok [].
Proof.
  intros N. unfold open, get_service. cbn [hashable bind].
  destruct (dict_get text_eqb n _) as [[h p]|] eqn:E; auto. apply services_get in E as (b&a&->&_). exfalso. apply N.
  rewrite map_app, in_app_iff. right; left; auto.
Qed.
Lemma open_unknown_port terms regs p v c : p <> 0%Z -> ~ In p (map reg_port regs) -> open c v (Some p) (registered regs (no_services terms)) = Ok [].
Proof.
  intros NZ N. unfold open. apply Z.eqb_neq in NZ. rewrite NZ.
  assert (get_service_on_port p (registered regs (no_services terms)) = Ok None) as G.
  { unfold get_service_on_port. destruct (dict_get Z.eqb p _) eqn:E; auto. apply ports_get in E as (b&h&a&->&_). exfalso. apply N.
    rewrite map_app, in_app_iff. right; left; auto. }
  destruct v; rewrite G; auto.
Qed.
Lemma open_by_port terms before n p h after v c : p <> 0%Z -> NoDup (map reg_name (before ++ (n, p, h) :: after)) ->
  ~ In p (map reg_port after) -> channel_no c ->
  open c v (Some p) (registered (before ++ (n, p, h) :: after) (no_services terms)) = Ok [Connect h (VInt p) c].
Proof.
  intros NZ ND N C. unfold open. apply Z.eqb_neq in NZ. rewrite NZ.
  assert (get_service_on_port p (registered (before ++ (n, p, h) :: after) (no_services terms)) = Ok (Some (h, p))) as G.
  { unfold get_service_on_port.
    assert (dict_get Z.eqb p (ports (registered (before ++ (n, p, h) :: after) (no_services terms))) = Some n) as ->. { apply ports_get. eauto. }
    assert (dict_get text_eqb n (services (registered (before ++ (n, p, h) :: after) (no_services terms))) = Some (h, p)) as ->; auto.
    apply services_get. exists before, after. split; auto. rewrite map_app in ND. cbn in ND. apply NoDup_remove_2 in ND.
    rewrite in_app_iff in ND. tauto. }
  destruct v; rewrite G; cbn [bind]; unfold connect; rewrite channel_ok by auto; auto.
Qed.

(** ** C40 *)
Lemma trun_snoc l o st : trun (l ++ [o]) st = tstep o (trun l st).
Proof. unfold trun. now rewrite fold_left_app. Qed.
Lemma close_loop_spec fails l st : NoDup l -> let st' := close_loop fails l st in
  t_next st' = t_next st /\ t_list st' = t_list st /\
  t_calls st' = rev (filter (fun p => negb (is_closed st p)) l) ++ t_calls st /\
  (forall p, In p (t_closed st') <-> In p (t_closed st) \/ In p l /\ ~ In p fails).
Proof.
  revert st. induction l as [|p l IH]; cbn; intros st ND.
  - repeat split; auto. tauto.
  - inversion ND as [|? ? Hp ND']; subst. destruct (is_closed st p) eqn:E.
    + destruct (IH st ND') as (H1&H2&H3&H4). cbn. repeat split; auto.
      * rewrite H4. tauto.
      * rewrite H4. intros [H|[[<-|H] H']]; auto. left. apply existsb_exists in E as (x&Hx&Ex). apply Nat.eqb_eq in Ex as ->. auto.
    + match goal with |- context[close_loop fails l ?s] => destruct (IH s ND') as (H1&H2&H3&H4); set (s1 := s) in * end.
      cbn in H1, H2. repeat split; auto.
      * assert (filter (fun q => negb (is_closed s1 q)) l = filter (fun q => negb (is_closed st q)) l) as FE;
          [|rewrite FE in H3; rewrite H3; change (t_calls s1) with (p :: t_calls st); cbn; now rewrite <- app_assoc].
        apply filter_ext_in. intros q Hq. f_equal. unfold is_closed. subst s1. cbn. destruct (existsb (Nat.eqb p) fails); auto. cbn.
        assert (q =? p = false) as ->; auto. apply Nat.eqb_neq. congruence.
      * rewrite H4. subst s1. cbn. destruct (existsb (Nat.eqb p) fails) eqn:F; [tauto|]. cbn. intros [[<-|H]|H]; auto; [|tauto].
        right. split; auto. intros Hin. assert (existsb (Nat.eqb p) fails = true); [|congruence]. apply existsb_exists. exists p. rewrite Nat.eqb_refl. auto.
      * rewrite H4. subst s1. cbn. destruct (existsb (Nat.eqb p) fails) eqn:F; cbn.
        -- intros [H|[[<-|H] H']]; auto. exfalso. apply H'. apply existsb_exists in F as (x&Hx&Ex). apply Nat.eqb_eq in Ex as ->. auto.
        -- tauto.
Qed.
Lemma filter_is_launch_snoc l o : length (filter is_launch (l ++ [o])) = length (filter is_launch l) + if is_launch o then 1 else 0.
Proof. rewrite filter_app, app_length. cbn. destruct (is_launch o); auto. Qed.
Lemma is_closed_iff st p : is_closed st p = true <-> In p (t_closed st).
Proof.
  unfold is_closed. rewrite existsb_exists. split; [intros (x&H&E); apply Nat.eqb_eq in E as ->; auto|].
  intros H. exists p. rewrite Nat.eqb_refl. auto.
Qed.
Lemma launched_snoc ops o p : launched (ops ++ [o]) p <-> launched ops p \/ o = Launch true /\ p = length (filter is_launch ops).
Proof.
  split.
  - intros (b&a&H&E). destruct a as [|x a _] using rev_ind.
    + apply app_inj_tail in H as [-> ->]. auto.
    + rewrite app_comm_cons, app_assoc in H. apply app_inj_tail in H as [-> <-]. left. exists b, a. auto.
  - intros [(b&a&->&E)|[-> ->]].
    + exists b, (a ++ [o]). now rewrite <- app_assoc.
    + exists ops, []. auto.
Qed.
Record tinv (ops : list top) (st : tstate) : Prop := {
  T_next : t_next st = length (filter is_launch ops);
  T_nodup : NoDup (t_list st);
  T_own : forall p, In p (t_list st) -> launched ops p;
  T_lt : forall p, launched ops p -> p < t_next st;
  T_keep : forall p, launched_since_close ops p -> ~ In p (t_closed st) -> In p (t_list st) }.
Lemma prune_nodup st : NoDup (t_list st) -> NoDup (t_list (prune st)).
Proof. intros. cbn. now apply NoDup_filter. Qed.
Lemma tinv_run ops : tinv ops (trun ops tinit).
Proof.
  induction ops as [|o ops IH] using rev_ind.
  - constructor; cbn; auto; try constructor; try tauto.
    + intros p (b&a&H&_). destruct b; discriminate.
    + intros p (b&a&H&_). destruct b; discriminate.
  - rewrite trun_snoc. set (st := trun ops tinit) in *. destruct IH as [I1 I2 I3 I4 I5].
    assert (forall p, launched_since_close (ops ++ [o]) p -> (o = Launch true /\ p = length (filter is_launch ops)) \/ launched_since_close ops p /\ forall f, o <> CloseAll f) as LS.
    { intros p (b&a&H&E&N). destruct a as [|x a _] using rev_ind.
      - apply app_inj_tail in H as [-> ->]. auto.
      - rewrite app_comm_cons, app_assoc in H. apply app_inj_tail in H as [-> <-]. right. split.
        + exists b, a. repeat split; auto. intros f Hf. apply (N f). apply in_app_iff; auto.
        + intros f ->. apply (N f). apply in_app_iff. right; left; auto. }
    destruct o as [ok|p|fails]; cbn [tstep].
    + assert (forall p, In p (t_list (prune st)) -> launched ops p) as IP by (cbn; intros p H; apply filter_In in H; apply I3; tauto).
      destruct ok; constructor; cbn [t_next t_list t_closed prune].
      * rewrite filter_is_launch_snoc. cbn. lia.
      * apply nodup_snoc; [now apply (prune_nodup st)|]. intros H. apply IP, I4 in H. lia.
      * intros p H. apply launched_snoc. apply in_app_iff in H as [H|[<-|[]]]; [left; now apply IP|right; auto].
      * intros p H. apply launched_snoc in H as [H|[_ ->]]; [apply I4 in H; lia|lia].
      * intros p H C. apply in_app_iff. apply LS in H as [[_ ->]|[H _]]; [right; left; lia|]. left. apply filter_In. split; [auto|].
        destruct (is_closed st p) eqn:E; auto. apply is_closed_iff in E. tauto.
      * rewrite filter_is_launch_snoc. cbn. lia.
      * now apply (prune_nodup st).
      * intros p H. apply launched_snoc. left; now apply IP.
      * intros p H. apply launched_snoc in H as [H|[? ?]]; [apply I4 in H; lia|discriminate].
      * intros p H C. apply LS in H as [[? ?]|[H _]]; [discriminate|]. apply filter_In. split; [auto|].
        destruct (is_closed st p) eqn:E; auto. apply is_closed_iff in E. tauto.
    + constructor; cbn.
      * rewrite filter_is_launch_snoc. cbn. lia.
      * auto.
      * intros q H. apply launched_snoc. auto.
      * intros q H. apply launched_snoc in H as [H|[? ?]]; [apply I4 in H; lia|discriminate].
      * intros q H C. apply LS in H as [[? ?]|[H _]]; [discriminate|]. apply I5; auto.
    + pose proof (close_loop_spec fails (t_list (prune st)) (prune st) (prune_nodup st I2)) as (C1&C2&C3&C4).
      constructor; cbn [t_next t_list t_closed].
      * rewrite C1, filter_is_launch_snoc. cbn. lia.
      * constructor.
      * intros q [].
      * intros q H. apply launched_snoc in H as [H|[? ?]]; [apply I4 in H; rewrite C1; cbn; lia|discriminate].
      * intros q H C. apply LS in H as [[? ?]|[H N]]; [discriminate|]. destruct (N fails). auto.
Qed.
Lemma filter_filter_same {A} (f : A -> bool) l : filter f (filter f l) = filter f l.
Proof. induction l as [|a l IH]; cbn; auto. destruct (f a) eqn:E; cbn; rewrite ?E, ?IH; auto. Qed.
Lemma prune_in st p : In p (t_list (prune st)) <-> In p (t_list st) /\ ~ In p (t_closed st).
Proof. cbn. rewrite filter_In. rewrite <- is_closed_iff. destruct (is_closed st p); cbn; intuition congruence. Qed.
Lemma c40_lists ops st : st = trun ops tinit ->
  NoDup (t_list st) /\ (forall p, In p (t_list st) -> launched ops p) /\
  (forall p, launched_since_close ops p -> ~ In p (t_closed st) -> In p (t_list st)).
Proof. intros ->. destruct (tinv_run ops). auto. Qed.
Lemma c40_forgets ops ok st st' : st = trun ops tinit -> st' = trun (ops ++ [Launch ok]) tinit ->
  forall p, In p (t_list st') <-> (In p (t_list st) /\ ~ In p (t_closed st)) \/ (ok = true /\ p = length (filter is_launch ops)).
Proof.
  intros -> ->. rewrite trun_snoc. pose proof (T_next _ _ (tinv_run ops)) as N. set (st := trun ops tinit) in *. intros p.
  assert (In p (t_list (prune st)) <-> In p (t_list st) /\ ~ In p (t_closed st)) as P.
  { cbn. rewrite filter_In. rewrite <- is_closed_iff. destruct (is_closed st p); cbn; intuition congruence. }
  cbn [tstep]. destruct ok; cbn [t_list].
  - rewrite in_app_iff, P. cbn. rewrite N. intuition.
  - rewrite P. intuition congruence.
Qed.
Lemma c40_close ops fails st st' : st = trun ops tinit -> st' = trun (ops ++ [CloseAll fails]) tinit ->
  t_list st' = [] /\
  (exists calls, t_calls st' = rev calls ++ t_calls st /\ NoDup calls /\ forall p, In p calls <-> In p (t_list st) /\ ~ In p (t_closed st)) /\
  (forall p, In p (t_list st) -> ~ In p fails -> In p (t_closed st')).
Proof.
  intros -> ->. rewrite trun_snoc. pose proof (T_nodup _ _ (tinv_run ops)) as ND. set (st := trun ops tinit) in *.
  pose proof (close_loop_spec fails (t_list (prune st)) (prune st) (prune_nodup st ND)) as (C1&C2&C3&C4).
  cbn [tstep t_list t_calls t_closed]. split; auto. split.
  - exists (t_list (prune st)). split.
    + rewrite C3. f_equal. f_equal. exact (filter_filter_same (fun p => negb (is_closed st p)) (t_list st)).
    + split; [now apply prune_nodup|]. apply prune_in.
  - intros p Hp Hf. rewrite C4. cbn [prune t_closed t_list]. destruct (is_closed st p) eqn:E.
    + left. now apply is_closed_iff.
    + right. split; auto. apply filter_In. rewrite E. auto.
Qed.
Lemma stale_port terms h c : channel_no c ->
  open c VNone (Some 80%Z) (registered [(T "web", 80%Z, h); (T "web", 81%Z, h)] (no_services terms)) = Ok [Connect h (VInt 81) c].
Proof. intros C. cbn. unfold connect. rewrite channel_ok by auto. auto. Qed.
Lemma defaults name port : In (name, port) [("web"%string, 80); ("ext"%string, 81); ("extalt"%string, 8000); ("alt"%string, 8080)]%Z ->
  forall c, channel_no c -> open c (VText (T name)) None default_manager = Ok [Connect (T "127.0.0.1") (VInt port) c] /\
    open c VNone (Some port) default_manager = Ok [Connect (T "127.0.0.1") (VInt port) c].
Proof.
  intros H c C. assert (forall s, connect s c = Ok [Connect (fst s) (VInt (snd s)) c]) as CN.
  { intros s. unfold connect. rewrite channel_ok by auto. auto. }
  destruct H as [[= <- <-]|[[= <- <-]|[[= <- <-]|[[= <- <-]|[]]]]]; unfold open; cbn -[connect]; rewrite !CN; auto.
Qed.
