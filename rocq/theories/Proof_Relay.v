From Verif Require Import Py Py_lemmas Dict_lemmas Model_Bencode Spec_Bencode Model_Packets Spec_Packets
  Model_Client Spec_Client Proof_Client Proof_Client2 Proof_Client3 Proof_Client4 Proof_Client5 Proof_Client6 Proof_Client7
  Proof_Through Spec_Outbound Proof_Outbound Spec_Early Proof_Early Model_Relay Spec_Relay.

(** ** What a step of the client tells the service *)
Section Track.
  Variable env : list effect -> effect -> list (op * bool) * option exn.
  Variable error_text : list effect -> text.
  Variables (o kd : nat) (kc : option nat).
  Hypothesis Henv : nobody_replaces env o.
  Notation step := (step env error_text).
  Notation run := (run env error_text).

  (** The callbacks of [o] among effects: data, or the closing *)
  Definition told (e : effect) : list (option bytes) :=
    match e with
    | DataCb k o' d => if (o' =? o) && (k =? kd) then [Some d] else []
    | CloseCb k o' => if (o' =? o) && is_cb kc k then [None] else []
    | _ => []
    end.
  Definition fed (l : list effect) : list (option bytes) := flat_map told l.
  Lemma fed_app a b : fed (a ++ b) = fed a ++ fed b.
  Proof. apply flat_map_app. Qed.

  Definition held (st : state) (c : chan) : Prop := chan_of st o = Some c /\ ch_data_cb c = Some kd /\ ch_close_cb c = kc.
  Definition seat (st : state) : Prop := numbered st /\ exists c, held st c.
  (** What the service is told when the channel closes *)
  Definition ends : list (option bytes) := match kc with Some _ => [None] | None => [] end.
  Definition change (c c' : chan) (l : list (option bytes)) : Prop :=
    if ch_closed c then ch_closed c' = true /\ l = []
    else exists ds, l = map Some ds ++ (if ch_closed c' then ends else []).
  Lemma change_trans c1 c2 c3 l m : change c1 c2 l -> change c2 c3 m -> change c1 c3 (l ++ m).
  Proof.
    unfold change. destruct (ch_closed c1).
    - intros [-> ->] [-> ->]. auto.
    - intros (ds & ->). destruct (ch_closed c2).
      + intros [-> ->]. exists ds. rewrite !app_nil_r. reflexivity.
      + intros (es & ->). exists (ds ++ es). rewrite map_app, app_nil_r, app_assoc. reflexivity.
  Qed.
  Lemma change_none c c' : ch_closed c' = ch_closed c -> change c c' [].
  Proof. unfold change. intros ->. destruct (ch_closed c); auto. exists []. reflexivity. Qed.
  Definition track (st st' : state) : Prop := numbered st -> numbered st' /\ forall c, held st c ->
    exists c' new, held st' c' /\ ch_no c' = ch_no c /\ st_trace st' = new ++ st_trace st /\ change c c' (fed (rev new)).
  Lemma track_refl st : track st st.
  Proof. intros N. split; auto. intros c H. exists c, []. repeat split; try apply H. now apply change_none. Qed.
  Lemma track_trans a b c : track a b -> track b c -> track a c.
  Proof.
    intros A X N. destruct (A N) as [Nb Gb]. destruct (X Nb) as [Nc Gc]. split; auto. intros c1 H1.
    destruct (Gb _ H1) as (c2 & n2 & H2 & E2 & T2 & C2). destruct (Gc _ H2) as (c3 & n3 & H3 & E3 & T3 & C3).
    exists c3, (n3 ++ n2). split; auto. split; [congruence|]. split; [rewrite T3, T2; apply app_assoc|].
    rewrite rev_app_distr, fed_app. eapply change_trans; eauto.
  Qed.
  (** Changes that keep the channels' numbers and callbacks and tell nothing *)
  Lemma track_quiet st st' new : numbered st' -> (forall c, held st c -> exists c', held st' c' /\ ch_no c' = ch_no c /\ ch_closed c' = ch_closed c) ->
    st_trace st' = new ++ st_trace st -> fed (rev new) = [] -> track st st'.
  Proof.
    intros N H T F _. split; auto. intros c Hc. destruct (H c Hc) as (c' & H1 & H2 & H3). exists c', new. split; auto. split; auto. split; auto.
    rewrite F. now apply change_none.
  Qed.
  Lemma track_emit e st : told e = [] -> track st (emit e st).
  Proof.
    intros He N. apply (track_quiet st (emit e st) [e]); auto.
    - intros c Hc. exists c. auto.
    - cbn. now rewrite He.
  Qed.
  Lemma track_rest st st' : st_heap st' = st_heap st -> st_chans st' = st_chans st -> st_trace st' = st_trace st -> track st st'.
  Proof.
    intros Hh Hc Ht N. apply (track_quiet st st' []); auto.
    - unfold numbered, registered, chan_of in *. rewrite Hh, Hc. exact N.
    - intros c. unfold held, chan_of. rewrite Hh. intros H. exists c. auto.
  Qed.
  Lemma track_upd o1 f st : (forall c, ch_no (f c) = ch_no c) ->
    (o1 = o -> forall c, ch_closed (f c) = ch_closed c /\ ch_data_cb (f c) = ch_data_cb c /\ ch_close_cb (f c) = ch_close_cb c) -> track st (upd_chan o1 f st).
  Proof.
    intros Hn Hf N. apply (track_quiet st (upd_chan o1 f st) []); auto.
    - apply numbered_heap; auto. now apply upd_no.
    - intros c (H1 & H2 & H3). unfold held, chan_of, upd_chan, with_heap in *. cbn. rewrite nth_upd, H1. destruct (Nat.eqb_spec o1 o) as [E|]; cbn; [|exists c; auto].
      destruct (Hf E c) as (E1 & E2 & E3). exists (f c). rewrite E1, E2, E3, Hn. auto.
  Qed.
  Lemma track_new m st : dict_get Z.eqb m (st_chans st) = None -> track st (new_state m st).
  Proof.
    intros Hm N. apply (track_quiet st (new_state m st) []); auto.
    - eapply numbered_omicro; [apply om_new; exact Hm|exact N].
    - intros c (H1 & H2). exists c. split; auto. split; auto. now apply nth_error_app_old.
  Qed.
  Lemma track_send name args kw st st' r : send env name args kw st = (st', r) -> track st st'.
  Proof.
    unfold send. destruct (p <- create_named name args kw ;; as_bytes p) as [b|e|].
    - intros H. apply send_bytes_spec in H as [-> _]. now apply track_emit.
    - intros [= <- _]. apply track_refl.
    - intros [= <- _]. apply track_refl.
  Qed.
  Lemma track_op p st st' r : keeps_callbacks o p -> do_op env p st = (st', r) -> track st st'.
  Proof.
    intros Hk. destruct p as [m|o1 d|o1 j|o1|o1 count|o1 d x t|name args kw]; cbn [do_op].
    - intros [= <- _]. destruct (get_channel_spec m st) as [(o1 & _ & ->)|[H ->]]; cbn; [apply track_refl|now apply track_new].
    - unfold chan_write. destruct (nth_error (st_heap st) o1) as [c1|]; [|intros [= <- _]; apply track_refl].
      destruct (ch_closed c1); [intros [= <- _]; apply track_refl|apply track_send].
    - unfold chan_control. destruct (nth_error (st_heap st) o1) as [c1|]; [|intros [= <- _]; apply track_refl].
      destruct (ch_closed c1); [intros [= <- _]; apply track_refl|apply track_send].
    - unfold chan_close. destruct (nth_error (st_heap st) o1) as [c1|]; [|intros [= <- _]; apply track_refl].
      destruct (ch_closed c1); [intros [= <- _]; apply track_refl|apply track_send].
    - destruct (nth_error (st_heap st) o1) as [c1|] eqn:E1; [|intros [= <- _]; apply track_refl].
      destruct (chan_read count c1) as [d c'] eqn:Er. intros [= <- _]. eapply track_trans; [|now apply track_emit].
      unfold chan_read in Er. destruct (read_loop _ _) as [out q] in Er. injection Er as _ <-. intros N.
      match goal with |- numbered ?s /\ _ => apply (track_quiet st s []); [| |reflexivity|reflexivity|exact N] end.
      + apply (numbered_heap st); auto. intros o2 c2 H2. rewrite nth_upd, H2. destruct (Nat.eqb_spec o1 o2) as [->|]; cbn; [|eauto].
        rewrite E1 in H2. injection H2 as ->. eexists. split; reflexivity.
      + intros c (H1 & H2 & H3). unfold held, chan_of, upd_chan, with_heap in *. cbn. rewrite nth_upd, H1. destruct (Nat.eqb_spec o1 o) as [->|]; cbn; [|exists c; auto].
        rewrite E1 in H1. injection H1 as ->. eexists. split; [split; [reflexivity|split; assumption]|]. split; reflexivity.
    - intros [= <- _]. apply track_upd; auto. intros ->. destruct Hk. reflexivity.
    - apply track_send.
  Qed.
  Lemma track_step i st st' r : match i with InOp p => keeps_callbacks o p | _ => True end -> step i st = (st', r) -> track st st'.
  Proof.
    intros Hi. apply (step_through env error_text track).
    - apply track_refl.
    - apply track_trans.
    - intros s s' H N. now apply H.
    - intros e s He. apply track_emit. destruct e; try reflexivity; destruct He.
    - intros o1 c1 s H1 Hcl. destruct (Nat.eq_dec o1 o) as [->|Ho].
      + intros N. split; [|].
        * unfold shut_state. destruct (ch_close_cb c1); apply (numbered_heap s); auto; now apply upd_no.
        * intros c (H2 & H3 & H4). assert (c1 = c) as -> by (unfold chan_of in *; congruence). unfold shut_state. rewrite H4.
          exists (chan_shut c), (match kc with Some k => [CloseCb k o] | None => [] end). split; [split; [destruct kc|auto]|].
          { unfold chan_of, upd_chan, with_heap in *. cbn. rewrite nth_upd, Nat.eqb_refl, H2. reflexivity. }
          { unfold chan_of, upd_chan, with_heap in *. cbn. rewrite nth_upd, Nat.eqb_refl, H2. reflexivity. }
          split; auto. split; [destruct kc; reflexivity|]. unfold change. rewrite Hcl. exists []. unfold ends. destruct kc as [k|] eqn:Ek; cbn; rewrite ?Nat.eqb_refl, ?Ek; cbn; rewrite ?Nat.eqb_refl; reflexivity.
      + assert (U : track s (upd_chan o1 chan_shut s)) by (apply track_upd; [auto|intros E; destruct (Ho E)]).
        unfold shut_state. destruct (ch_close_cb c1); auto. eapply track_trans; [exact U|]. apply track_emit. cbn.
        destruct (Nat.eqb_spec o1 o); [contradiction|reflexivity].
    - intros o1 c1 k d s H1 Hcl Hk. intros N. split; [exact N|]. intros c H. exists c, [DataCb k o1 d]. split; auto. split; auto. split; auto. cbn.
      destruct ((o1 =? o) && (k =? kd)) eqn:E; [|now apply change_none]. apply andb_true_iff in E as [E _]. apply Nat.eqb_eq in E as ->.
      destruct H as [H _]. assert (c1 = c) as -> by congruence. unfold change. rewrite Hcl. exists [d]. reflexivity.
    - intros o1 c1 d s H1 Hcl Hk. destruct (Nat.eq_dec o1 o) as [->|Ho].
      + intros N. split; [apply (numbered_heap s); auto; now apply upd_no|]. intros c (H2 & H3 & H4). congruence.
      + eapply track_trans; [apply (track_upd o1 (chan_push d)); [auto|intros E; destruct (Ho E)]|now apply track_emit].
    - intros o1 c1 k d s _ _. now apply track_emit.
    - intros m s Hm. now apply track_new.
    - intros m o1 s _ _ N. apply (track_quiet s _ []); auto.
      + apply (numbered_micro s); [apply mi_del|exact N].
      + intros c H. exists c. auto.
    - intros s s' A1 A2 A3. now apply track_rest.
    - intros name args kw s s' x _. apply track_send.
    - intros tr e p t s s' x Hin. apply track_op. pose proof (Henv tr e) as F. rewrite Forall_forall in F. apply (F _ Hin).
    - destruct i as [e|p|cmd k|]; auto. intros s s' x. now apply track_op.
  Qed.
End Track.

(** ** A service and the client, turn by turn *)
Definition word_said (w : word) : said := match w with WData d => SData d | WClose => SClose end.
Definition word_short (w : word) : Prop := match w with WData d => short d | WClose => True end.
Lemma word_says o ws : spoken o (map (fun w => InOp (word_op o w)) ws) = map word_said ws.
Proof. induction ws as [|w ws IH]; [reflexivity|]. cbn [map spoken flat_map]. unfold spoken in IH. rewrite IH. destruct w; cbn; rewrite Nat.eqb_refl; reflexivity. Qed.
Lemma fresh_new st st' new : st_trace st' = new ++ st_trace st -> fresh st st' = rev new.
Proof.
  intros E. unfold fresh. rewrite E, app_length. replace (length new + length (st_trace st) - length (st_trace st)) with (length new) by lia.
  now rewrite firstn_app, Nat.sub_diag, firstn_all, app_nil_r.
Qed.

Section Turns.
  Variables S X A : Type.
  Variable busy : S -> bool.
  Variable on_data : X -> bytes -> S -> S * list word.
  Variable on_close : X -> S -> S * list word.
  Variable act : A -> bool -> S -> S * list word.
  (** What the peer sends *)
  Variable good : bytes -> Prop.
  Hypothesis data_short : forall x d s, good d -> Forall word_short (snd (on_data x d s)).
  Hypothesis close_short : forall x s, Forall word_short (snd (on_close x s)).
  Hypothesis act_short : forall a b s, Forall word_short (snd (act a b s)).
  Variable env : list effect -> effect -> list (op * bool) * option exn.
  Variable error_text : list effect -> text.
  Variables (o kd : nat) (kc : option nat) (n : Z).
  Hypothesis Henv : respected env o.
  Notation step := (step env error_text).
  Notation run := (run env error_text).
  Notation move_step := (move_step S X A busy on_data on_close act env error_text o kd kc).
  Notation move_run := (move_run S X A busy on_data on_close act env error_text o kd kc).
  Notation feed := (feed S X on_data on_close o kd kc).

  Inductive turn := Gave (x : X) (d : bytes) | Shut (x : X) | Did (a : A) (shut : bool).
  Inductive turns : S -> list turn -> S -> list word -> Prop :=
  | tn_nil s : turns s [] s []
  | tn_gave s x d s1 w evs s2 ws : busy s = false -> on_data x d s = (s1, w) -> turns s1 evs s2 ws -> turns s (Gave x d :: evs) s2 (w ++ ws)
  | tn_shut s x s1 w evs s2 ws : busy s = false -> on_close x s = (s1, w) -> turns s1 evs s2 ws -> turns s (Shut x :: evs) s2 (w ++ ws)
  | tn_did s a b s1 w evs s2 ws : act a b s = (s1, w) -> turns s1 evs s2 ws -> turns s (Did a b :: evs) s2 (w ++ ws).
  Lemma turns_app s e1 s1 w1 : turns s e1 s1 w1 -> forall e2 s2 w2, turns s1 e2 s2 w2 -> turns s (e1 ++ e2) s2 (w1 ++ w2).
  Proof.
    induction 1; intros e2 s3 w2 T; cbn [app]; auto; rewrite <- app_assoc.
    - eapply tn_gave; eauto.
    - eapply tn_shut; eauto.
    - eapply tn_did; eauto.
  Qed.
  Definition gifts (l : list turn) : list bytes := flat_map (fun e => match e with Gave _ d => [d] | _ => [] end) l.
  Definition deeds (l : list turn) : list A := flat_map (fun e => match e with Did a _ => [a] | _ => [] end) l.
  Definition calm (e : turn) : Prop := match e with Gave _ _ => True | Shut _ => False | Did _ b => b = false end.
  Definition late (e : turn) : Prop := match e with Did _ b => b = true | _ => False end.
  Lemma late_gifts l : Forall late l -> gifts l = [].
  Proof. induction 1 as [|e l H HF IH]; [reflexivity|]. destruct e; cbn; destruct H; auto. Qed.
  Lemma turns_short s evs s' ws : turns s evs s' ws -> Forall good (gifts evs) -> Forall word_short ws.
  Proof.
    induction 1 as [|s x d s1 w evs s2 ws _ E _ IH|s x s1 w evs s2 ws _ E _ IH|s a b s1 w evs s2 ws E _ IH]; intros HG; [constructor| | |]; apply Forall_app; split; auto.
    - pose proof (data_short x d s) as G. rewrite E in G. inversion HG; auto.
    - inversion HG; auto.
    - pose proof (close_short x s) as G. now rewrite E in G.
    - pose proof (act_short a b s) as G. now rewrite E in G.
  Qed.

  Definition sound (st : state) : Prop := numbered st /\ placed st /\ exists c, held o kd kc st c /\ ch_no c = n.
  Lemma sound_fine st : sound st -> fine o n st.
  Proof. intros (N & P & c & (H & _) & E). split; auto. split; auto. eauto. Qed.
  Lemma sound_step i st st' r : match i with InOp p => keeps_callbacks o p | _ => True end -> step i st = (st', r) -> sound st -> sound st'.
  Proof.
    intros Hi H (N & P & c & Hc & E). destruct (step_stays _ _ _ _ _ _ H N P) as [N' P']. split; auto. split; auto.
    destruct (track_step env error_text o kd kc (proj2 Henv) i _ _ _ Hi H N) as [_ T]. destruct (T c Hc) as (c' & new & Hc' & E' & _). exists c'. split; auto. congruence.
  Qed.
  Lemma word_keeps w : keeps_callbacks o (word_op o w).
  Proof. destruct w; exact I. Qed.
  Lemma open_iff st c : chan_of st o = Some c -> object_closed st o <-> ch_closed c = true.
  Proof. intros H. split; [intros (c' & H1 & H2); congruence|intros E; exists c; auto]. Qed.
  Lemma sound_dec st : sound st -> object_closed st o \/ ~ object_closed st o.
  Proof. intros (_ & _ & c & (H & _) & _). pose proof (open_iff _ _ H) as I. destruct (ch_closed c); [left; now apply I|right; intros G; apply I in G; discriminate]. Qed.
  Lemma sound_shut st : sound st -> (object_closed st o -> shut_now o st = true) /\ (~ object_closed st o -> shut_now o st = false).
  Proof.
    intros (_ & _ & c & (H & _) & _). pose proof (open_iff _ _ H) as I. unfold shut_now. unfold chan_of in H. rewrite H. split; intros G; [now apply I|].
    destruct (ch_closed c); auto. destruct G. now apply I.
  Qed.
  Lemma sound_inst st c : sound st -> chan_of st o = Some c -> ch_closed c = false -> inst n o kd (concat (ch_deque c)) st.
  Proof.
    intros ((N1 & N2) & P & c1 & (H1 & H2 & H3) & E) H Hcl. assert (c1 = c) as -> by congruence. split; [|split; [|split; auto]].
    - exists c. split; auto. split; auto. split; auto. exists []. reflexivity.
    - rewrite <- E. now apply P.
    - intros n' Hn. destruct (N2 _ _ Hn) as (c2 & E2 & <-). unfold chan_of in H. congruence.
  Qed.
  Lemma fed_handed l : flat_map (fun x => match x with Some d => [d] | None => [] end) (fed o kd kc l) =
    flat_map (fun p => match fst p with Some k => if k =? kd then [snd p] else [] | None => [] end) (handed o l).
  Proof.
    induction l as [|e l IH]; [reflexivity|]. cbn [fed flat_map handed]. rewrite flat_map_app. fold (fed o kd kc l). rewrite IH. destruct e; cbn [told]; try reflexivity.
    - destruct (_ =? o); cbn [andb flat_map app fst snd]; [|reflexivity]. destruct (_ =? kd); reflexivity.
    - destruct (_ =? o); cbn [andb flat_map app fst snd]; [|reflexivity]. destruct (is_cb kc _); reflexivity.
    - destruct (_ =? o); reflexivity.
  Qed.
  (** One input to the client while the channel is open *)
  Lemma told_step i st st' r : match i with InOp p => keeps_callbacks o p | _ => True end -> sound st -> ~ object_closed st o -> step i st = (st', r) ->
    sound st' /\ exists new, adds st st' new /\ fresh st st' = new /\
      (fed o kd kc new = map Some (routed n [i]) /\ ~ object_closed st' o \/
       fed o kd kc new = ends kc /\ routed n [i] = [] /\ object_closed st' o /\ exists e, i = InEvent e).
  Proof.
    intros Hi Hs Ho H. assert (Hs' := sound_step _ _ _ _ Hi H Hs). split; auto.
    pose proof Hs as (N & P & c & Hc & E). pose proof (proj1 Hc) as Hc0.
    assert (Hcl : ch_closed c = false) by (destruct (ch_closed c) eqn:X1; auto; destruct Ho; exists c; auto).
    destruct (track_step env error_text o kd kc (proj2 Henv) i _ _ _ Hi H N) as [_ T]. destruct (T c Hc) as (c' & new & Hc' & E' & Ht & Hch).
    pose proof (sound_inst st c Hs Hc0 Hcl) as Hin.
    destruct (handed_step env error_text n o kd _ i st st' r Hin N H) as (new' & Ha & Hh).
    assert (new' = rev new) as ->.
    { apply trace_adds in Ha. rewrite Ht in Ha. apply app_inv_tail in Ha. now rewrite Ha, rev_involutive. }
    exists (rev new). split; auto. split; [now apply fresh_new|].
    unfold change in Hch. rewrite Hcl in Hch. destruct Hch as (ds & Hd).
    assert (Eds : ds = routed n [i]).
    { pose proof (fed_handed (rev new)) as F. rewrite Hh, Hd in F. clear -F.
      assert (A1 : forall ds r, flat_map (fun x : option bytes => match x with Some d => [d] | None => [] end) (map Some ds ++ (if r : bool then ends kc else [])) = ds).
      { clear. induction ds as [|d ds IH]; intros r; [unfold ends; destruct r, kc; reflexivity|]. cbn. now rewrite IH. }
      rewrite A1 in F. rewrite F. generalize (routed n [i]). clear. induction l as [|d l IH]; [reflexivity|]. cbn. rewrite Nat.eqb_refl. cbn. now rewrite IH. }
    pose proof (open_iff _ _ (proj1 Hc')) as I.
    assert (Hopen : undisturbed n o [i] -> ch_closed c' = false).
    { intros U. pose proof (good_step env error_text n o kd _ (proj2 Henv) i U st Hin) as G. rewrite H in G. cbn in G. destruct G as [(c2 & G1 & _ & G2 & _) _].
      destruct Hc' as [Hc' _]. congruence. }
    assert (Hq : match i with InEvent _ => True | _ => ch_closed c' = false end).
    { destruct i as [e|p|cmd k|]; auto; apply Hopen; (split; [|split]).
      all: try (intros [G|[]]; discriminate). all: try (intros m [G|[]]; discriminate). intros q [[= <-]|[]]; exact Hi. }
    assert (Hr : routed n [i] <> [] -> ch_closed c' = false).
    { intros R. apply Hopen. cbn [routed] in R. destruct (route_of i) as [[n' d]|] eqn:Er; [|destruct R; reflexivity].
      apply route_of_some in Er as (m & -> & Hm). split; [|split].
      - intros [G|[]]; discriminate.
      - intros m' [[= <-]|[]] (rest & G). clear -Hm G. unfold is_route, carries in Hm. destruct Hm as (x1 & Hm). inversion G as [t b G1 _|x y G1 _]; subst; congruence.
      - intros q [G|[]]; discriminate. }
    rewrite Hd, Eds. destruct (ch_closed c') eqn:Ec.
    - right. destruct (routed n [i]) as [|d rd] eqn:Ert; [|discriminate Hr; discriminate]. split; auto. split; auto. split; [now apply I|].
      destruct i; try discriminate Hq. eauto.
    - left. rewrite app_nil_r. split; auto. intros G. apply I in G. discriminate.
  Qed.
  Lemma quiet_step i st st' r : match i with InOp p => keeps_callbacks o p | _ => True end -> sound st -> object_closed st o -> step i st = (st', r) ->
    sound st' /\ object_closed st' o /\ fed o kd kc (fresh st st') = [].
  Proof.
    intros Hi Hs Ho H. assert (Hs' := sound_step _ _ _ _ Hi H Hs). split; auto. split; [eapply closed_step; eauto|].
    pose proof Hs as (N & P & c & Hc & E). destruct (track_step env error_text o kd kc (proj2 Henv) i _ _ _ Hi H N) as [_ T].
    destruct (T c Hc) as (c' & new & Hc' & E' & Ht & Hch). rewrite (fresh_new _ _ _ Ht). unfold change in Hch.
    apply (open_iff _ _ (proj1 Hc)) in Ho. rewrite Ho in Hch. apply Hch.
  Qed.
  (** What the service is told only depends on the callbacks *)
  Fixpoint feeds (x : X) (l : list (option bytes)) (s : S) : S * list word :=
    match l with
    | [] => (s, [])
    | y :: r => let '(s1, w1) := match y with Some d => on_data x d s | None => on_close x s end in
                let '(s2, w2) := feeds x r s1 in (s2, w1 ++ w2)
    end.
  Lemma feed_feeds x l : forall s, feed x l s = feeds x (fed o kd kc l) s.
  Proof.
    induction l as [|e l IH]; intros s; [reflexivity|]. cbn [Model_Relay.feed fed flat_map]. fold (fed o kd kc l).
    destruct e; cbn [told app]; try (rewrite IH; destruct (feeds x _ s); reflexivity).
    - destruct (_ && _); cbn [app feeds].
      + destruct (on_data x d s) as [s1 w1]. rewrite IH. reflexivity.
      + rewrite IH. destruct (feeds x _ s); reflexivity.
    - destruct (_ && _); cbn [app feeds].
      + destruct (on_close x s) as [s1 w1]. rewrite IH. reflexivity.
      + rewrite IH. destruct (feeds x _ s); reflexivity.
  Qed.
  Lemma speak_sound ws : forall st st', sound st -> speak env error_text o ws st = Some st' -> sound st' /\ (object_closed st o <-> object_closed st' o).
  Proof.
    unfold speak. induction ws as [|w ws IH]; intros st st' Hs; cbn [map]; [intros [= <-]; split; [auto|reflexivity]|].
    rewrite run_cons. destruct (step (InOp (word_op o w)) st) as [s1 r] eqn:E. intros H. assert (H' : run (map (fun w0 => InOp (word_op o w0)) ws) s1 = Some st') by (destruct r; congruence || discriminate).
    assert (G : sound s1 /\ (object_closed st o <-> object_closed s1 o)).
    { destruct (sound_dec st Hs) as [C|C].
      - destruct (quiet_step (InOp (word_op o w)) _ _ _ (word_keeps w) Hs C E) as (S1 & C1 & _). split; auto. split; auto.
      - destruct (told_step (InOp (word_op o w)) _ _ _ (word_keeps w) Hs C E) as (S1 & new & _ & _ & [[_ C1]|(_ & _ & _ & e & X1)]); [|discriminate X1].
        split; auto. split; intros; contradiction. }
    destruct G as [S1 C1]. destruct (IH s1 st' S1 H') as [S2 C2]. split; auto. rewrite C1. exact C2.
  Qed.
  Lemma speak_heard ws st st' : sound st -> Forall word_short ws -> ~ object_closed st' o -> speak env error_text o ws st = Some st' ->
    exists new, adds st st' new /\ heard n new = map word_said ws.
  Proof.
    intros Hs Hw Ho H. unfold speak in H. rewrite <- (word_says o ws). apply (heard_run env error_text o n (proj1 Henv) _ st st'); auto; [now apply sound_fine|].
    rewrite Forall_map. eapply Forall_impl; [|exact Hw]. intros w Hs1. destruct w; cbn; (split; [exact I|]); unfold speakable; cbn; rewrite Nat.eqb_refl; auto.
  Qed.
  (** The service's turn when the channel closes *)
  Definition shuts (x : X) : list turn := match kc with Some _ => [Shut x] | None => [] end.
  Definition mild (m : @move X A) : Prop := match m with Rest (InOp p) _ => hands_off o p | _ => True end.
  Lemma move_open m st s st' s' : mild m -> Forall good (routed n (rest_inputs [m])) -> sound st -> ~ object_closed st o -> move_step m (st, s) = Some (st', s') -> sound st' /\
    (~ object_closed st' o /\ (exists evs ws, turns s evs s' ws /\ gifts evs = routed n (rest_inputs [m]) /\ deeds evs = own_steps [m] /\ Forall calm evs /\
       exists new, adds st st' new /\ heard n new = map word_said ws) \/
     object_closed st' o /\ routed n (rest_inputs [m]) = [] /\ own_steps [m] = [] /\ exists i x ws, m = Rest i x /\ turns s (shuts x) s' ws).
  Proof.
    intros Hm HG Hs Ho. destruct m as [i x|a]; cbn [Model_Relay.move_step rest_inputs own_steps flat_map app].
    - destruct (waits S busy i s) eqn:Hw; [discriminate|]. destruct (step i st) as [st1 r] eqn:E. intros H.
      assert (H' : (let '(s1, ws) := feed x (fresh st st1) s in match speak env error_text o ws st1 with Some st2 => Some (st2, s1) | None => None end) = Some (st', s'))
        by (destruct r; congruence || discriminate). clear H.
      assert (Hk : match i with InOp p => keeps_callbacks o p | _ => True end) by (destruct i; auto; apply Hm).
      destruct (told_step _ _ _ _ Hk Hs Ho E) as (S1 & new & Ha & Hf & Hcase). rewrite Hf, feed_feeds in H'.
      destruct (feeds x (fed o kd kc new) s) as [s1 ws] eqn:Ef. destruct (speak env error_text o ws st1) as [st2|] eqn:Es; [|discriminate]. injection H' as <- <-.
      destruct (speak_sound _ _ _ S1 Es) as [S2 C2]. split; auto. destruct Hcase as [[F C1]|(F & R & C1 & e & ->)].
      + left. assert (C3 : ~ object_closed st2 o) by (rewrite <- C2; exact C1). split; auto.
        assert (Hh : exists new1, adds st st1 new1 /\ heard n new1 = []).
        { destruct (heard_step env error_text o n (proj1 Henv) i st st1 r (sound_fine _ Hs) C1) as (_ & new1 & A1 & A2).
          - destruct i as [e|p| |]; auto. destruct Hm as (M1 & M2 & _). split; auto. unfold speakable. rewrite (elsewhere_says o p M2). constructor.
          - exact E.
          - exists new1. split; auto. rewrite A2. destruct i as [e|p| |]; try reflexivity. cbn. now rewrite (elsewhere_says o p (proj1 (proj2 Hm))). }
        assert (Hx : exists evs, turns s evs s1 ws /\ gifts evs = routed n [i] /\ deeds evs = [] /\ Forall calm evs).
        { rewrite F in Ef. cbn [routed] in *. destruct (route_of i) as [[n' d]|] eqn:Er; [destruct (Z.eqb n' n)|]; cbn [map feeds] in *.
          - apply route_of_some in Er as (m & -> & _). destruct (on_data x d s) as [s2 w2] eqn:Ed. injection Ef as <- <-. exists [Gave x d]. split; [|split; [|split]]; try reflexivity.
            + eapply tn_gave; [exact Hw|exact Ed|apply tn_nil].
            + repeat constructor.
          - injection Ef as <- <-. exists []. split; [apply tn_nil|]. auto.
          - injection Ef as <- <-. exists []. split; [apply tn_nil|]. auto. }
        destruct Hx as (evs & T & G & D & Ca). exists evs, ws. split; auto. split; auto. split; auto. split; auto.
        destruct Hh as (n1 & A1 & B1). destruct (speak_heard ws st1 st2 S1 (turns_short _ _ _ _ T (eq_ind_r (Forall good) HG G)) C3 Es) as (n2 & A2 & B2).
        exists (n1 ++ n2). split; [eapply adds_trans; eauto|]. now rewrite heard_app, B1, B2.
      + right. split; [now apply C2|]. split; auto. split; auto. rewrite F in Ef. exists (InEvent e), x, ws. split; [reflexivity|]. unfold ends, shuts in *. destruct kc; cbn [feeds] in Ef.
        * destruct (on_close x s) as [s2 w2] eqn:Ed. injection Ef as <- <-. eapply tn_shut; [exact Hw|exact Ed|apply tn_nil].
        * injection Ef as <- <-. apply tn_nil.
    - destruct (act a (shut_now o st) s) as [s1 ws] eqn:Ea. destruct (speak env error_text o ws st) as [st2|] eqn:Es; [|discriminate]. intros [= <- <-].
      destruct (speak_sound _ _ _ Hs Es) as [S2 C2]. split; auto. left. assert (C3 : ~ object_closed st2 o) by (rewrite <- C2; exact Ho). split; auto.
      rewrite (proj2 (sound_shut st Hs) Ho) in Ea. assert (T : turns s [Did a false] s1 (ws ++ [])) by (eapply tn_did; [exact Ea|apply tn_nil]). rewrite app_nil_r in T.
      exists [Did a false], ws. split; auto. split; auto. split; auto. split; [repeat constructor|].
      exact (speak_heard ws st st2 Hs (turns_short _ _ _ _ T (Forall_nil _)) C3 Es).
  Qed.
  Lemma move_shut m st s st' s' : mild m -> sound st -> object_closed st o -> move_step m (st, s) = Some (st', s') -> sound st' /\ object_closed st' o /\
    exists evs ws, turns s evs s' ws /\ deeds evs = own_steps [m] /\ Forall late evs.
  Proof.
    intros Hm Hs Ho. destruct m as [i x|a]; cbn [Model_Relay.move_step own_steps flat_map app].
    - destruct (waits S busy i s); [discriminate|]. destruct (step i st) as [st1 r] eqn:E. intros H.
      assert (H' : (let '(s1, ws) := feed x (fresh st st1) s in match speak env error_text o ws st1 with Some st2 => Some (st2, s1) | None => None end) = Some (st', s'))
        by (destruct r; congruence || discriminate). clear H.
      assert (Hk : match i with InOp p => keeps_callbacks o p | _ => True end) by (destruct i; auto; apply Hm).
      destruct (quiet_step _ _ _ _ Hk Hs Ho E) as (S1 & C1 & F). rewrite feed_feeds, F in H'. cbn [feeds speak map] in H'. injection H' as <- <-.
      split; auto. split; auto. exists [], []. split; [apply tn_nil|]. auto.
    - destruct (act a (shut_now o st) s) as [s1 ws] eqn:Ea. destruct (speak env error_text o ws st) as [st2|] eqn:Es; [|discriminate]. intros [= <- <-].
      destruct (speak_sound _ _ _ Hs Es) as [S2 C2]. split; auto. split; [now apply C2|]. rewrite (proj1 (sound_shut st Hs) Ho) in Ea.
      exists [Did a true], (ws ++ []). split; [eapply tn_did; [exact Ea|apply tn_nil]|]. split; auto. repeat constructor.
  Qed.
  Lemma others_mild l : others o l -> Forall mild l.
  Proof. auto. Qed.
  Lemma rest_app (a b : list (@move X A)) : rest_inputs (a ++ b) = rest_inputs a ++ rest_inputs b.
  Proof. apply flat_map_app. Qed.
  Lemma own_app (a b : list (@move X A)) : own_steps (a ++ b) = own_steps a ++ own_steps b.
  Proof. apply flat_map_app. Qed.
  Lemma routed_app a b : routed n (a ++ b) = routed n a ++ routed n b.
  Proof. induction a as [|i a IH]; [reflexivity|]. cbn [app routed]. destruct (route_of i) as [[n' d]|]; auto. destruct (Z.eqb n' n); cbn; now rewrite IH. Qed.
  Lemma gifts_app a b : gifts (a ++ b) = gifts a ++ gifts b.
  Proof. apply flat_map_app. Qed.
  Lemma deeds_app a b : deeds (a ++ b) = deeds a ++ deeds b.
  Proof. apply flat_map_app. Qed.
  Lemma run_shut l : forall st s st' s', Forall mild l -> sound st -> object_closed st o -> move_run l (st, s) = Some (st', s') -> sound st' /\ object_closed st' o /\
    exists evs ws, turns s evs s' ws /\ deeds evs = own_steps l /\ Forall late evs.
  Proof.
    induction l as [|m l IH]; intros st s st' s' Hl Hs Ho; cbn [Model_Relay.move_run].
    - intros [= <- <-]. split; auto. split; auto. exists [], []. split; [apply tn_nil|]. auto.
    - inversion Hl as [|? ? Hm Hl']; subst. destruct (move_step m (st, s)) as [[st1 s1]|] eqn:E; [|discriminate]. intros H.
      destruct (move_shut _ _ _ _ _ Hm Hs Ho E) as (S1 & C1 & e1 & w1 & T1 & D1 & L1).
      destruct (IH _ _ _ _ Hl' S1 C1 H) as (S2 & C2 & e2 & w2 & T2 & D2 & L2). split; auto. split; auto.
      exists (e1 ++ e2), (w1 ++ w2). split; [eapply turns_app; eauto|]. split; [|now apply Forall_app].
      rewrite deeds_app, D1, D2. change (m :: l) with ([m] ++ l). symmetry. apply own_app.
  Qed.
  (** The whole run: as long as the channel is open; then it is closed once; then no more. *)
  Lemma run_turns l : forall st s st' s', Forall mild l -> Forall good (routed n (rest_inputs l)) -> sound st -> ~ object_closed st o -> move_run l (st, s) = Some (st', s') -> sound st' /\
    (~ object_closed st' o /\ (exists evs ws, turns s evs s' ws /\ gifts evs = routed n (rest_inputs l) /\ deeds evs = own_steps l /\ Forall calm evs /\
       exists new, adds st st' new /\ heard n new = map word_said ws) \/
     object_closed st' o /\ exists l1 l2 e1 x e2 ws y, l = l1 ++ l2 /\ move_run l1 (st, s) = Some y /\ object_closed (fst y) o /\
       (forall l0 m l3 y0, l1 = l0 ++ m :: l3 -> move_run l0 (st, s) = Some y0 -> ~ object_closed (fst y0) o) /\
       turns s (e1 ++ shuts x ++ e2) s' ws /\ gifts e1 = routed n (rest_inputs l1) /\ deeds (e1 ++ e2) = own_steps l /\ Forall calm e1 /\ Forall late e2).
  Proof.
    induction l as [|m l IH]; intros st s st' s' Hl HG Hs Ho; cbn [Model_Relay.move_run].
    - intros [= <- <-]. split; auto. left. split; auto. exists [], []. split; [apply tn_nil|]. split; auto. split; auto. split; auto.
      exists []. split; [unfold adds; now rewrite app_nil_r|reflexivity].
    - inversion Hl as [|? ? Hm Hl']; subst. destruct (move_step m (st, s)) as [[st1 s1]|] eqn:E; [|discriminate]. intros H.
      assert (Rm : forall a, rest_inputs (m :: a) = rest_inputs [m] ++ rest_inputs a) by (intros a; exact (rest_app [m] a)).
      assert (Om : own_steps (m :: l) = own_steps [m] ++ own_steps l) by exact (own_app [m] l).
      rewrite (Rm l), routed_app in HG. apply Forall_app in HG as [HG1 HG2].
      destruct (move_open _ _ _ _ _ Hm HG1 Hs Ho E) as (S1 & [(C1 & e1 & w1 & T1 & G1 & D1 & K1 & n1 & A1 & B1)|(C1 & R1 & O1 & i & x & w1 & _ & T1)]).
      + destruct (IH _ _ _ _ Hl' HG2 S1 C1 H) as (S2 & [(C2 & e2 & w2 & T2 & G2 & D2 & K2 & n2 & A2 & B2)|(C2 & l1 & l2 & e2 & x & e3 & w2 & y & El & Hy & Cy & Hmin & T2 & G2 & D2 & K2 & L2)]).
        * split; auto. left. split; auto. exists (e1 ++ e2), (w1 ++ w2). split; [eapply turns_app; eauto|].
          split; [now rewrite gifts_app, G1, G2, (Rm l), routed_app|]. split; [now rewrite deeds_app, D1, D2, Om|]. split; [now apply Forall_app|].
          exists (n1 ++ n2). split; [eapply adds_trans; eauto|]. now rewrite heard_app, B1, B2, map_app.
        * split; auto. right. split; auto. exists (m :: l1), l2, (e1 ++ e2), x, e3, (w1 ++ w2), y. split; [now rewrite El|].
          split; [cbn [Model_Relay.move_run]; now rewrite E|]. split; auto. split.
          { intros [|m0 l0] m1 l3 y0 Eq; cbn [app Model_Relay.move_run]; [intros [= <-]; exact Ho|]. injection Eq as <- Eq. rewrite E. eauto. }
          split; [rewrite <- app_assoc; eapply turns_app; eauto|]. split; [now rewrite gifts_app, G1, G2, (Rm l1), routed_app|].
          split; [rewrite <- app_assoc, deeds_app, D1, D2, Om; reflexivity|]. split; [now apply Forall_app|exact L2].
      + destruct (run_shut _ _ _ _ _ Hl' S1 C1 H) as (S2 & C2 & e2 & w2 & T2 & D2 & L2). split; auto. right. split; auto.
        exists [m], l, [], x, e2, (w1 ++ w2), (st1, s1). split; auto. split; [cbn [Model_Relay.move_run]; now rewrite E|]. split; auto. split.
        { intros [|m0 l0] m1 l3 y0 Eq; cbn [Model_Relay.move_run]; [intros [= <-]; exact Ho|]. injection Eq as _ Eq. destruct l0; discriminate. }
        split; [exact (turns_app _ _ _ _ T1 _ _ _ T2)|]. split; [cbn [gifts flat_map]; now rewrite R1|].
        split; [cbn [app]; now rewrite D2, Om, O1|]. auto.
  Qed.
End Turns.
Lemma seated_sound st o kd kc c : perched st o kd kc c -> sound o kd kc (ch_no c) st /\ ~ object_closed st o.
Proof.
  intros (R & H & E & D & K). destruct (reached_placed st R) as [N P]. split.
  - split; auto. split; auto. exists c. split; auto. split; auto.
  - intros (c' & H' & E'). congruence.
Qed.
