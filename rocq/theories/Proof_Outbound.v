From Verif Require Import Py Py_lemmas Dict_lemmas Model_Bencode Spec_Bencode Proof_Bencode Model_Packets
  Spec_Packets Proof_Packets Model_Client Spec_Client Proof_Client Proof_Client2 Proof_Client3 Proof_Client4 Proof_Client5 Proof_Client6 Proof_Client7
  Proof_Through Spec_Outbound.

(** ** The head of an encoded list *)
Lemma dlist_keeps s : forall acc v r, dlist s acc = Ok (v, r) -> exists tl, v = VList (rev acc ++ tl).
Proof.
  induction s as [s IH] using length_ind. intros acc v r. rewrite dlist_eq.
  destruct (decode_rest s) as [[x s']|e|] eqn:E; cbn [bind fst snd]; try discriminate.
  assert (Hl : length s' < length s) by (eapply decode_rest_progress; eauto).
  assert (G : dlist s' (x :: acc) = Ok (v, r) -> exists tl, v = VList (rev acc ++ tl)).
  { intros H. destruct (IH s' Hl _ _ _ H) as [tl ->]. exists (x :: tl). cbn. rewrite <- app_assoc. reflexivity. }
  destruct x; auto. intros [= <- _]. exists []. rewrite app_nil_r. reflexivity.
Qed.
Lemma dlist_ints zs : forall s acc, dlist (concat (map (fun z => B "i" ++ bytes_of_int z ++ B "e") zs) ++ s) acc = dlist s (rev (map VInt zs) ++ acc).
Proof.
  induction zs as [|z zs IH]; intros s acc; cbn [map concat]; [reflexivity|].
  rewrite <- app_assoc, (dlist_step _ (VInt z) _ _ (decode_enc_int z _)) by discriminate. rewrite IH. cbn [rev]. rewrite <- app_assoc. reflexivity.
Qed.
Lemma join_ints zs : forall l b, join_res (map add_encode (map VInt zs ++ l)) = Ok b ->
  exists b', b = concat (map (fun z => B "i" ++ bytes_of_int z ++ B "e") zs) ++ b'.
Proof.
  induction zs as [|z zs IH]; intros l b; cbn [map app join_res concat]; [eauto|]. cbn [add_encode bind].
  destruct (join_res (map add_encode (map VInt zs ++ l))) as [j|e|] eqn:E; cbn [bind]; try discriminate. intros [= <-].
  destruct (IH _ _ E) as [b' ->]. exists b'. rewrite <- !app_assoc. reflexivity.
Qed.
Lemma encode_head zs l b : encode (VList (map VInt zs ++ l)) = Ok b -> exists tl, decode b = Ok (VList (map VInt zs ++ tl)).
Proof.
  unfold encode. cbn [add_encode]. destruct (join_res (map add_encode (map VInt zs ++ l))) as [j|e|] eqn:E; cbn [bind]; try discriminate.
  destruct (join_ints _ _ _ E) as [b' ->]. intros H.
  set (s := B "l" ++ (concat (map (fun z => B "i" ++ bytes_of_int z ++ B "e") zs) ++ b') ++ B "e") in *.
  destruct (decode s) as [w|e|] eqn:Ed; cbn [bind] in H; try discriminate.
  assert (b = s) as -> by (destruct w; congruence). rewrite Ed. unfold decode in Ed.
  destruct (decode_rest s) as [[v r]|e|] eqn:Er; cbn [bind fst] in Ed; try discriminate. injection Ed as <-.
  unfold s in Er. change (B "l") with ["l"%byte] in Er. cbn [app] in Er. rewrite decode_rest_cons in Er.
  change (beqb "l" "e") with false in Er. change (beqb "l" "i") with false in Er. change (beqb "l" "l") with true in Er. cbn match in Er.
  rewrite <- app_assoc in Er.
  rewrite dlist_ints in Er. apply dlist_keeps in Er as [tl ->]. exists tl. rewrite app_nil_r, rev_involutive. reflexivity.
Qed.
Lemma encode_exact v b : py_object v -> encode v = Ok b -> decode b = Ok (norm v).
Proof.
  intros Hp H. destruct (encode_ok _ _ Hp H) as (_ & _ & _ & G). unfold decode. specialize (G []). rewrite app_nil_r in G. rewrite G. reflexivity.
Qed.

(** ** Messages that say nothing on channel [n] *)
Definition mute (n : Z) (e : effect) : Prop := forall x, heard_of e <> Some (n, x).
Lemma heard_mute n l : Forall (mute n) l -> heard n l = [].
Proof.
  induction 1 as [|e l He _ IH]; [reflexivity|]. unfold heard in *. cbn [flat_map]. rewrite IH, app_nil_r.
  destruct (heard_of e) as [[m x]|] eqn:E; [|reflexivity]. destruct (Z.eqb_spec m n) as [->|]; [|reflexivity]. destruct (He x E).
Qed.
Lemma heard_app n l m : heard n (l ++ m) = heard n l ++ heard n m.
Proof. apply flat_map_app. Qed.
Lemma as_bytes_head p b : as_bytes p = Ok b -> exists tl, decode b = Ok (VList (VInt (pc_type (pk_class p)) :: tl)).
Proof.
  unfold as_bytes, packet_encode. destruct (get_attrs p (pc_attrs (pk_class p))) as [vs|e|]; cbn [bind]; try discriminate. intros H.
  destruct (encode_head [pc_type (pk_class p)] vs b H) as [tl Ht]. exists tl. exact Ht.
Qed.
Lemma channel_names name t : type_of_name name = Some t -> t = 5%Z \/ t = 22%Z \/ t = 11%Z ->
  In name channel_packets.
Proof.
  intros H. apply (get_in _ String.eqb_spec) in H. cbn in H.
  repeat (destruct H as [H|H]; [injection H as <- <-; intros [T|[T|T]]; try discriminate; cbn; auto|]). destruct H.
Qed.
Lemma create_named_type name args kw p : create_named name args kw = Ok p -> type_of_name name = Some (pc_type (pk_class p)).
Proof.
  unfold create_named, create. destruct (type_of_name name) as [t|]; [|discriminate].
  destruct (dict_get Z.eqb t registry) as [c|] eqn:E; [|discriminate]. apply registry_get in E as [_ <-].
  unfold construct. destruct (init_args _ _ _) as [p1|e|]; cbn [bind]; try discriminate. destruct (init_kwargs _ _) as [p2|e|]; cbn [bind]; try discriminate.
  destruct (init_attrs _ _) as [p3|e|]; cbn [bind]; try discriminate. intros [= <-]. reflexivity.
Qed.
Lemma other_name name args kw b n : ~ In name channel_packets ->
  (p <- create_named name args kw ;; as_bytes p) = Ok b -> mute n (Sent b).
Proof.
  intros Hn. destruct (create_named name args kw) as [p|e|] eqn:E; cbn [bind]; try discriminate. intros H x.
  apply create_named_type in E. apply as_bytes_head in H as [tl Hd]. cbn [heard_of]. rewrite Hd.
  set (t := pc_type (pk_class p)) in *.
  destruct tl as [|v tl]; [discriminate|]. destruct v as [| |m| | | | | |]; try discriminate.
  destruct (Z.eqb_spec t 5) as [T|_]; [destruct Hn; eapply channel_names; eauto|].
  destruct (Z.eqb_spec t 22) as [T|_]; [destruct Hn; eapply channel_names; eauto|].
  destruct (Z.eqb_spec t 11) as [T|_]; [destruct Hn; eapply channel_names; eauto|]. discriminate.
Qed.
(** A packet for channel [m] says nothing on channel [n]. *)
Lemma head_mute t m l b n : m <> n -> encode (VList (VInt t :: VInt m :: l)) = Ok b -> mute n (Sent b).
Proof.
  intros Hm H x. destruct (encode_head [t; m] l b H) as [tl Hd]. cbn [map app] in Hd. cbn [heard_of]. rewrite Hd.
  destruct (t =? 5)%Z; [destruct tl as [|[] tl]; congruence|]. destruct (t =? 22)%Z; [destruct tl as [|[] tl]; congruence|]. destruct (t =? 11)%Z; congruence.
Qed.
Lemma bytes_write m d : (p <- create_named "request_send" [] [("channel"%string, VInt m); ("data"%string, VBytes d)] ;; as_bytes p) =
  encode (VList [VInt 5; VInt m; VBytes d]).
Proof. reflexivity. Qed.
Lemma bytes_control m j : (p <- create_named "request_send_control" [] [("channel"%string, VInt m); ("data"%string, VText j)] ;; as_bytes p) =
  match utf8_encode j with Some d => encode (VList [VInt 22; VInt m; VBytes d]) | None => Raise EUnicodeEncode end.
Proof.
  unfold create_named, create. change (type_of_name "request_send_control") with (Some 22%Z). cbv match.
  replace (dict_get Z.eqb 22%Z registry) with (Some (PClass "RequestSendControlPacket" 22%Z [("channel"%string, AInt); ("data"%string, ABytes)])) by (vm_compute; reflexivity).
  unfold construct. cbn [init_args pc_attrs bind init_kwargs coerce]. destruct (utf8_encode j); reflexivity.
Qed.
Lemma bytes_close m : (p <- create_named "request_close" [] [("port"%string, VInt m)] ;; as_bytes p) = encode (VList [VInt 11; VInt m]).
Proof. reflexivity. Qed.

(** ** Open channels are registered under their numbers *)
Definition placed (st : state) : Prop := forall o c, chan_of st o = Some c -> ch_closed c = false -> registered st (ch_no c) = Some o.
Lemma placed_upd o f st : (forall c, ch_no (f c) = ch_no c) -> (forall c, ch_closed c = true -> ch_closed (f c) = true) -> placed st -> placed (upd_chan o f st).
Proof.
  intros Hn Hc P o2 c2. unfold chan_of, upd_chan, with_heap, registered. cbn. rewrite nth_upd. destruct (o =? o2); [|apply P].
  destruct (nth_error (st_heap st) o2) as [c3|] eqn:E; cbn; [|discriminate]. intros [= <-] Ho. rewrite Hn. apply P; auto.
  destruct (ch_closed c3) eqn:E3; auto. rewrite Hc in Ho; auto.
Qed.
Lemma placed_new m st : dict_get Z.eqb m (st_chans st) = None -> placed st -> placed (new_state m st).
Proof.
  intros Hm P o2 c2. unfold chan_of, registered, new_state. cbn. intros Ho Hcl. rewrite (get_set _ Z.eqb_spec).
  destruct (Nat.lt_ge_cases o2 (length (st_heap st))) as [Hl|Hl].
  - rewrite nth_error_app1 in Ho by auto. pose proof (P _ _ Ho Hcl) as R. unfold registered in R. destruct (Z.eqb_spec m (ch_no c2)) as [->|]; auto. congruence.
  - rewrite nth_error_app2 in Ho by auto. destruct (o2 - length (st_heap st)) as [|k] eqn:E; [|destruct k; discriminate]. injection Ho as <-.
    cbn. rewrite Z.eqb_refl. f_equal. lia.
Qed.
Lemma placed_del m o1 st : numbered st -> registered st m = Some o1 -> object_closed st o1 -> placed st -> placed (with_chans (dict_del Z.eqb m (st_chans st)) st).
Proof.
  intros A Hr (c1 & Hc1 & Hcl1) P o2 c2 H2 Hcl. unfold registered. cbn. rewrite (get_del _ Z.eqb_spec) by apply A. pose proof (P _ _ H2 Hcl) as R.
  destruct (Z.eqb_spec m (ch_no c2)) as [->|]; [|exact R]. unfold chan_of in *. cbn in H2. assert (o2 = o1) as -> by congruence. congruence.
Qed.
Lemma read_upd o count c c' d h : nth_error h o = Some c -> chan_read count c = (d, c') ->
  upd o (fun _ => c') h = upd o (fun c => Chan (ch_no c) (ch_closed c) (ch_data_cb c') (ch_close_cb c') (ch_ctl_cb c') (ch_deque c') (ch_event c')) h.
Proof.
  intros E1 Er. apply chan_read_no in Er as (N1 & C1 & _). revert o E1. induction h as [|y h IH]; intros [|k]; cbn; try discriminate.
  - intros [= ->]. rewrite <- N1, <- C1. destruct c'; reflexivity.
  - intros Hk. f_equal. apply IH; auto.
Qed.
Lemma placed_omicro st st' : omicro st st' -> placed st -> placed st'.
Proof.
  intros H. destruct H as [st b|st n Hg|st o count c d c' Hc Hr|st o d x t]; intros P.
  - exact P.
  - now apply placed_new.
  - change (placed (with_heap (upd o (fun _ => c') (st_heap st)) st)). rewrite (read_upd _ _ _ _ _ _ Hc Hr).
    refine (placed_upd o _ st _ _ P); auto.
  - apply placed_upd; auto.
Qed.
Definition stays (st st' : state) : Prop := numbered st -> placed st -> numbered st' /\ placed st'.
Lemma stays_star st st' : star omicro st st' -> stays st st'.
Proof.
  intros H N P. split; [eapply numbered_star; [apply ostar; exact H|exact N]|]. revert P. eapply star_inv; [apply placed_omicro|exact H].
Qed.
Lemma step_stays env et i st st' r : step env et i st = (st', r) -> stays st st'.
Proof.
  apply (step_through env et stays).
  - intros s N P; auto.
  - intros a b c A B N P. destruct (A N P). auto.
  - intros s s' H N P. apply H; auto.
  - intros e s _ N P. split; [exact N|exact P].
  - assert (U : forall o s, stays s (upd_chan o chan_shut s)).
    { intros o s N P. split; [apply numbered_heap; auto; now apply upd_no|now apply placed_upd]. }
    intros o c s _ _. unfold shut_state. destruct (ch_close_cb c); apply U.
  - intros o c k d s _ _ _ N P. split; [exact N|exact P].
  - intros o c d s _ _ _ N P. split; [apply (numbered_heap s); auto; now apply upd_no|exact (placed_upd o (chan_push d) s (fun _ => eq_refl) (fun c H => H) P)].
  - intros o c k d s _ _ N P. split; [exact N|exact P].
  - intros m s Hm. apply stays_star, star_one, om_new. exact Hm.
  - intros m o s Hr Hc N P. split; [apply (numbered_micro s); [apply mi_del|exact N]|eapply placed_del; eauto].
  - intros s s' Hh Hc _ N P. unfold numbered, placed, chan_of, registered in *. rewrite Hh, Hc. auto.
  - intros name args kw s s' x _ H. apply send_star in H as [H _]. now apply stays_star.
  - intros tr e p t s s' x _ H. apply do_op_star in H as [H _]. now apply stays_star.
  - destruct i as [e|p|cmd k|]; auto. intros s s' x H. apply do_op_star in H as [H _]. now apply stays_star.
Qed.
Lemma run_stays env et l : forall st st', run env et l st = Some st' -> stays st st'.
Proof.
  induction l as [|i l IH]; intros st st'; [intros [= <-] N P; auto|]. rewrite run_cons. destruct (step env et i st) as [s x] eqn:E. intros H.
  assert (H' : run env et l s = Some st') by (destruct x; congruence || discriminate). intros N P.
  destruct (step_stays _ _ _ _ _ _ E N P). eapply IH; eauto.
Qed.
Lemma reached_placed st : reached st -> numbered st /\ placed st.
Proof.
  intros (env & et & u & l & H). apply (run_stays _ _ _ _ _ H); [apply numbered_init|]. intros o c. unfold chan_of. cbn. destruct o; discriminate.
Qed.

Section Outbound.
  Variable env : list effect -> effect -> list (op * bool) * option exn.
  Variable error_text : list effect -> text.
  Variable o : nat.
  Variable n : Z.
  Hypothesis alone : leave_alone env o.
  Notation step := (step env error_text).
  Notation run := (run env error_text).
  Notation run_handler := (run_handler env error_text).

  Definition fine (st : state) : Prop := numbered st /\ placed st /\ exists c, chan_of st o = Some c /\ ch_no c = n.
  Definition hush (st st' : state) : Prop := fine st -> fine st' /\ (object_closed st o -> object_closed st' o) /\
    (object_closed st' o \/ grows (mute n) st st').
  Lemma hush_refl st : hush st st.
  Proof. intros H. split; [exact H|]. split; auto. right. now apply grows_refl. Qed.
  Lemma hush_trans a b c : hush a b -> hush b c -> hush a c.
  Proof.
    intros A X H. destruct (A H) as (Hb & Cb & Gb). destruct (X Hb) as (Hc & Cc & Gc). split; [exact Hc|]. split; auto.
    destruct Gc as [Gc|Gc]; auto. destruct Gb as [Gb|Gb]; auto. right. eapply grows_trans; eauto.
  Qed.
  (** Changes of nothing but the rest of the state *)
  Lemma hush_same st st' : st_heap st' = st_heap st -> st_chans st' = st_chans st -> grows (mute n) st st' -> hush st st'.
  Proof.
    intros Hh Hc Hg (A & P & C). unfold fine, numbered, placed, object_closed, chan_of, registered in *. rewrite Hh, Hc. auto 7.
  Qed.
  Lemma hush_emit e st : mute n e -> hush st (emit e st).
  Proof. intros H. apply hush_same; try reflexivity. exists [e]. split; auto. Qed.
  Lemma hush_upd o' f st : (forall c, ch_no (f c) = ch_no c) -> (forall c, ch_closed c = true -> ch_closed (f c) = true) -> hush st (upd_chan o' f st).
  Proof.
    intros Hn Hc (A & P & c & C & N). split; [split; [|split]|split].
    - apply numbered_heap; auto. now apply upd_no.
    - now apply placed_upd.
    - unfold chan_of, upd_chan, with_heap in *. cbn. rewrite nth_upd, C. destruct (o' =? o); cbn; eauto. exists (f c). split; auto. now rewrite Hn.
    - intros (c0 & H0 & H1). unfold object_closed, chan_of, upd_chan, with_heap in *. cbn. rewrite nth_upd, H0. destruct (o' =? o); cbn; eauto.
    - right. now apply grows_refl.
  Qed.
  Lemma hush_new m st : dict_get Z.eqb m (st_chans st) = None -> hush st (new_state m st).
  Proof.
    intros Hm (A & P & c & C & N). split; [split; [|split]|split].
    - eapply numbered_omicro; [apply om_new; exact Hm|exact A].
    - now apply placed_new.
    - exists c. split; auto. now apply nth_error_app_old.
    - intros (c0 & H0 & H1). exists c0. split; auto. now apply nth_error_app_old.
    - right. now apply grows_refl.
  Qed.
  Lemma hush_get m st : hush st (snd (get_channel m st)).
  Proof. destruct (get_channel_spec m st) as [(o1 & _ & ->)|[H ->]]; cbn; [apply hush_refl|now apply hush_new]. Qed.
  Lemma hush_del m o1 st : registered st m = Some o1 -> object_closed st o1 -> hush st (with_chans (dict_del Z.eqb m (st_chans st)) st).
  Proof.
    intros Hr Hc (A & P & C). split; [split; [|split]|split].
    - apply (numbered_micro st); [apply mi_del|exact A].
    - eapply placed_del; eauto.
    - exact C.
    - intros X; exact X.
    - right. now apply grows_refl.
  Qed.

  Lemma send_hush name args kw st st' r : (forall b, (p <- create_named name args kw ;; as_bytes p) = Ok b -> fine st -> mute n (Sent b) \/ object_closed st o) ->
    send env name args kw st = (st', r) -> hush st st'.
  Proof.
    intros Hm. unfold send. destruct (p <- create_named name args kw ;; as_bytes p) as [b|e|] eqn:E.
    - intros H. apply send_bytes_spec in H as [-> _]. intros F. destruct (Hm b eq_refl F) as [M|M].
      + now apply hush_emit.
      + split; [exact F|]. split; auto.
    - intros [= <- _]. apply hush_refl.
    - intros [= <- _]. apply hush_refl.
  Qed.
  (** Two open channels have different numbers. *)
  Lemma other_number o1 c1 st : fine st -> chan_of st o1 = Some c1 -> ch_closed c1 = false -> o1 <> o -> ch_no c1 <> n \/ object_closed st o.
  Proof.
    intros (A & P & c & C & N) H1 Hcl1 Hne. destruct (ch_closed c) eqn:E; [right; exists c; auto|]. left. intros H.
    pose proof (P _ _ H1 Hcl1) as R1. pose proof (P _ _ C E) as R. rewrite H in R1. rewrite N in R. congruence.
  Qed.
  Lemma op_hush p st st' r : by_channels_only p -> elsewhere o p -> do_op env p st = (st', r) -> hush st st'.
  Proof.
    intros Hb He. destruct p as [m|o1 d|o1 j|o1|o1 count|o1 d x t|name args kw]; cbn [do_op].
    - intros [= <- _]. apply hush_get.
    - unfold chan_write. destruct (nth_error (st_heap st) o1) as [c1|] eqn:E1; [|intros [= <- _]; apply hush_refl].
      destruct (ch_closed c1) eqn:Ec; [intros [= <- _]; apply hush_refl|]. apply send_hush. intros b Hs F. rewrite bytes_write in Hs.
      destruct (other_number o1 c1 st F E1 Ec He) as [H|H]; auto. left. eapply head_mute; eauto.
    - unfold chan_control. destruct (nth_error (st_heap st) o1) as [c1|] eqn:E1; [|intros [= <- _]; apply hush_refl].
      destruct (ch_closed c1) eqn:Ec; [intros [= <- _]; apply hush_refl|]. apply send_hush. intros b Hs F. rewrite bytes_control in Hs.
      destruct (utf8_encode j); [|discriminate].
      destruct (other_number o1 c1 st F E1 Ec He) as [H|H]; auto. left. eapply head_mute; eauto.
    - unfold chan_close. destruct (nth_error (st_heap st) o1) as [c1|] eqn:E1; [|intros [= <- _]; apply hush_refl].
      destruct (ch_closed c1) eqn:Ec; [intros [= <- _]; apply hush_refl|]. apply send_hush. intros b Hs F. rewrite bytes_close in Hs.
      destruct (other_number o1 c1 st F E1 Ec He) as [H|H]; auto. left. eapply head_mute; eauto.
    - destruct (nth_error (st_heap st) o1) as [c1|] eqn:E1; [|intros [= <- _]; apply hush_refl].
      destruct (chan_read count c1) as [d c'] eqn:Er. intros [= <- _].
      eapply hush_trans; [|apply hush_emit; intros y; discriminate]. unfold upd_chan. rewrite (read_upd _ _ _ _ _ _ E1 Er).
      apply (hush_upd o1); auto.
    - intros [= <- _]. apply hush_upd; auto.
    - apply send_hush. intros b Hs _. left. eapply other_name; eauto.
  Qed.
  Lemma aside_mute e : aside e -> mute n e.
  Proof. intros H x. destruct e; try discriminate. destruct H. Qed.
  Lemma hush_rest st st' : st_heap st' = st_heap st -> st_chans st' = st_chans st -> st_trace st' = st_trace st -> hush st st'.
  Proof. intros A C T. apply hush_same; auto. now apply grows_refl. Qed.
  Lemma step_hush i st st' r : match i with InOp p => by_channels_only p /\ elsewhere o p | _ => True end -> step i st = (st', r) -> hush st st'.
  Proof.
    intros Hi. apply (step_through env error_text hush).
    - apply hush_refl.
    - apply hush_trans.
    - intros s s' H F. apply H; [apply F|exact F].
    - intros e s He. apply hush_emit. now apply aside_mute.
    - intros o1 c s _ _. unfold shut_state. destruct (ch_close_cb c); [eapply hush_trans; [|apply hush_emit; intros y; discriminate]|]; apply hush_upd; auto.
    - intros o1 c k d s _ _ _. apply hush_emit. intros y. discriminate.
    - intros o1 c d s _ _ _. eapply hush_trans; [|apply hush_emit; intros y; discriminate]. apply hush_upd; auto.
    - intros o1 c k d s _ _. apply hush_emit. intros y. discriminate.
    - apply hush_new.
    - apply hush_del.
    - apply hush_rest.
    - intros name args kw s s' x Hn. apply send_hush. intros b Hb _. left. eapply other_name; eauto.
    - intros tr e p t s s' x Hin. destruct (alone _ _ _ _ Hin). now apply op_hush.
    - destruct i as [e|p|cmd k|]; auto. intros s s' x. now apply op_hush.
  Qed.

  (** What is said through [o] itself *)
  Lemma send_heard name args kw v x st st' r : fine st -> py_object v -> Encodable v -> (p <- create_named name args kw ;; as_bytes p) = encode v ->
    (forall b, decode b = Ok (norm v) -> heard_of (Sent b) = Some (n, x)) -> send env name args kw st = (st', r) ->
    fine st' /\ exists new, adds st st' new /\ heard n new = [x].
  Proof.
    intros F Hp He Eb Hh. destruct (encode_encodable v Hp He) as [b Hb]. unfold send. rewrite Eb, Hb. intros H.
    apply send_bytes_spec in H as [-> _]. split; [exact F|]. exists [Sent b]. split; [reflexivity|].
    unfold heard. cbn [flat_map]. rewrite (Hh b (encode_exact v b Hp Hb)), Z.eqb_refl. reflexivity.
  Qed.
  Lemma own_op p st st' r : fine st -> ~ object_closed st o -> speakable o p -> ~ elsewhere o p -> step (InOp p) st = (st', r) ->
    fine st' /\ exists new, adds st st' new /\ heard n new = says o p.
  Proof.
    intros F Ho Hs He H. cbn [Model_Client.step] in H. apply guard_spec in H as (r' & H & _).
    pose proof F as (_ & _ & c & C & N). assert (Hcl : ch_closed c = false) by (destruct (ch_closed c) eqn:E; auto; destruct Ho; exists c; auto).
    unfold speakable in Hs. destruct p as [m|o1 d|o1 j|o1|o1 count|o1 d x t|name args kw]; cbn [elsewhere] in He; try (destruct He; exact I);
      (destruct (Nat.eq_dec o1 o) as [->|]; [|destruct (He n0)]); cbn [says] in Hs |- *; rewrite Nat.eqb_refl in *; cbn [do_op] in H.
    - unfold chan_write in H. unfold chan_of in C. rewrite C, Hcl, N in H. inversion Hs; subst.
      eapply (send_heard _ _ _ _ (SData d)); [exact F| | |apply bytes_write| |exact H].
      + repeat constructor. assumption.
      + eapply en_seq; [apply items_list|]. repeat constructor. eapply en_octets; constructor.
      + intros b Hb. cbn [heard_of]. rewrite Hb. reflexivity.
    - unfold chan_control in H. unfold chan_of in C. rewrite C, Hcl, N in H. pose proof (bytes_control n j) as Eb. destruct (utf8_encode j) as [d|] eqn:Ej.
      + inversion Hs; subst. eapply (send_heard _ _ _ _ (SControl d)); [exact F| | |exact Eb| |exact H].
        * repeat constructor. assumption.
        * eapply en_seq; [apply items_list|]. repeat constructor. eapply en_octets; constructor.
        * intros b Hb. cbn [heard_of]. rewrite Hb. reflexivity.
      + unfold send in H. rewrite Eb in H. injection H as <- _. split; [exact F|]. exists []. split; [unfold adds; now rewrite app_nil_r|reflexivity].
    - unfold chan_close in H. unfold chan_of in C. rewrite C, Hcl, N in H.
      eapply (send_heard _ _ _ _ SClose); [exact F| | |apply bytes_close| |exact H].
      + repeat constructor.
      + eapply en_seq; [apply items_list|]. repeat constructor.
      + intros b Hb. cbn [heard_of]. rewrite Hb. reflexivity.
  Qed.
  Lemma elsewhere_dec p : elsewhere o p \/ ~ elsewhere o p.
  Proof. destruct p as [|o1|o1|o1| | |]; cbn; auto; (destruct (Nat.eq_dec o1 o); auto). Qed.
  Lemma elsewhere_says p : elsewhere o p -> says o p = [].
  Proof. destruct p as [|o1|o1|o1| | |]; cbn; auto; (intros H; destruct (Nat.eqb_spec o1 o); auto; contradiction). Qed.
  Lemma grows_adds st st' : grows (mute n) st st' -> exists new, adds st st' new /\ heard n new = [].
  Proof.
    intros (new & E & M). exists (rev new). split; [unfold adds, history; rewrite E; apply rev_app_distr|]. apply heard_mute.
    rewrite Forall_forall in *. intros e He. apply M. now apply in_rev.
  Qed.
  Lemma closed_step i st st' r : step i st = (st', r) -> object_closed st o -> object_closed st' o.
  Proof. intros H C. apply step_spec in H as [H _]. destruct (silent_star o _ _ H C) as (new & _ & _ & C'). exact C'. Qed.
  Lemma closed_run l : forall st st', run l st = Some st' -> object_closed st o -> object_closed st' o.
  Proof. intros st st' H C. apply run_star in H. destruct (silent_star o _ _ H C) as (new & _ & _ & C'). exact C'. Qed.
  Lemma heard_step i st st' r : fine st -> ~ object_closed st' o ->
    match i with InOp p => by_channels_only p /\ speakable o p | _ => True end -> step i st = (st', r) ->
    fine st' /\ exists new, adds st st' new /\ heard n new = spoken o [i].
  Proof.
    intros F Ho Hi H.
    assert (G : match i with InOp p => by_channels_only p /\ elsewhere o p | _ => True end -> spoken o [i] = [] ->
      fine st' /\ exists new, adds st st' new /\ heard n new = spoken o [i]).
    { intros A E. destruct (step_hush i _ _ _ A H F) as (F' & _ & [C|C]); [destruct (Ho C)|]. split; [exact F'|]. rewrite E. now apply grows_adds. }
    destruct i as [e|p|cmd k|]; [now apply G| |now apply G|now apply G]. destruct Hi as [B S]. unfold spoken. cbn [flat_map]. rewrite app_nil_r.
    destruct (elsewhere_dec p) as [E|E].
    - unfold spoken in G. cbn [flat_map] in G. rewrite app_nil_r in G. apply G; auto. now apply elsewhere_says.
    - apply (own_op p _ _ _ F) in H; auto. intros C. apply Ho. eapply closed_step; eauto.
  Qed.
  Lemma adds_trans a b c x y : adds a b x -> adds b c y -> adds a c (x ++ y).
  Proof. unfold adds. intros -> ->. now rewrite app_assoc. Qed.
  Lemma heard_run l : forall st st', fine st -> ~ object_closed st' o ->
    Forall (fun i => match i with InOp p => by_channels_only p /\ speakable o p | _ => True end) l -> run l st = Some st' ->
    exists new, adds st st' new /\ heard n new = spoken o l.
  Proof.
    induction l as [|i l IH]; intros st st' F Ho Hl; [intros [= <-]; exists []; split; [unfold adds; now rewrite app_nil_r|reflexivity]|].
    rewrite run_cons. destruct (step i st) as [s x] eqn:E. intros H. assert (H' : run l s = Some st') by (destruct x; congruence || discriminate).
    inversion Hl as [|? ? Hi Hl']; subst. assert (Hs : ~ object_closed s o) by (intros C; apply Ho; eapply closed_run; eauto).
    destruct (heard_step i _ _ _ F Hs Hi E) as (F' & n1 & A1 & E1). destruct (IH s st' F' Ho Hl' H') as (n2 & A2 & E2).
    exists (n1 ++ n2). split; [eapply adds_trans; eauto|]. rewrite heard_app, E1, E2. unfold spoken. rewrite <- flat_map_app. reflexivity.
  Qed.
End Outbound.

Lemma c108 env et l st st' o c : leave_alone env o -> reached st -> chan_of st o = Some c ->
  Forall (fun i => match i with InOp p => by_channels_only p /\ speakable o p | _ => True end) l ->
  run env et l st = Some st' -> ~ object_closed st' o ->
  exists new, adds st st' new /\ heard (ch_no c) new = spoken o l.
Proof.
  intros Ha Hr Hc Hl H Ho. destruct (reached_placed st Hr) as [N P]. apply (heard_run env et o (ch_no c) Ha l st st'); auto. split; [exact N|]. split; [exact P|]. eauto.
Qed.
