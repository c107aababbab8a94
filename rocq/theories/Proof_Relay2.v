From Verif Require Import Py Py_lemmas Spec_Bencode Model_Process Spec_Process Proof_Process Proof_Process2 Model_Forward Spec_Forward Proof_Forward
  Model_Client Spec_Client Proof_Client Proof_Client2 Proof_Client3 Proof_Client4 Proof_Client5 Proof_Client6 Proof_Client7
  Spec_Outbound Proof_Outbound Spec_Early Model_Relay Spec_Relay Proof_Relay.

Lemma all_true {A} (l : list A) : Forall (fun _ => True) l.
Proof. induction l; auto. Qed.

(** ** Runs *)
Section Parts.
  Variables S X A : Type.
  Variable busy : S -> bool.
  Variable on_data : X -> bytes -> S -> S * list word.
  Variable on_close : X -> S -> S * list word.
  Variable act : A -> bool -> S -> S * list word.
  Variable good : bytes -> Prop.
  Hypothesis data_short : forall x d s, good d -> Forall word_short (snd (on_data x d s)).
  Hypothesis close_short : forall x s, Forall word_short (snd (on_close x s)).
  Hypothesis act_short : forall a b s, Forall word_short (snd (act a b s)).
  Variable env : list effect -> effect -> list (op * bool) * option exn.
  Variable error_text : list effect -> text.
  Variables (o kd : nat) (kc : option nat).
  Hypothesis Henv : respected env o.
  Notation move_run := (move_run S X A busy on_data on_close act env error_text o kd kc).
  Notation turns := (turns S X A busy on_data on_close act).
  Lemma move_app a b y : move_run (a ++ b) y = match move_run a y with Some y' => move_run b y' | None => None end.
  Proof. revert y. induction a as [|m a IH]; intros y; [reflexivity|]. cbn [app Model_Relay.move_run]. destruct (Model_Relay.move_step _ _ _ _ _ _ _ _ _ _ _ _ m y); auto. Qed.
  Lemma relay st c s l st' s' : perched st o kd kc c -> others o l -> Forall good (routed (ch_no c) (rest_inputs l)) -> move_run l (st, s) = Some (st', s') ->
    exists evs ws l1, turns s evs s' ws /\ deeds X A evs = own_steps l /\ gifts X A evs = routed (ch_no c) (rest_inputs l1) /\
      open_part (fun l0 => move_run l0 (st, s)) o l l1 /\
      (~ object_closed st' o /\ l1 = l /\ Forall (calm X A) evs /\ (exists new, adds st st' new /\ heard (ch_no c) new = map word_said ws) \/
       object_closed st' o /\ exists e1 x e2, evs = e1 ++ shuts X A kc x ++ e2 /\ Forall (calm X A) e1 /\ Forall (late X A) e2).
  Proof.
    intros Hs Hl HG H. destruct (seated_sound _ _ _ _ _ Hs) as [Hi Ho].
    destruct (run_turns S X A busy on_data on_close act good data_short close_short act_short env error_text o kd kc (ch_no c) Henv l st s st' s' Hl HG Hi Ho H)
      as (S' & [(C & evs & ws & T & G & D & K & new & A1 & B1)|(C & l1 & l2 & e1 & x & e2 & ws & y & El & Hy & Cy & Hmin & T & G & D & K & L)]).
    - exists evs, ws, l. split; auto. split; auto. split; auto. split.
      + exists []. split; [now rewrite app_nil_r|]. split; [|now left]. intros l0 m l3 [st0 s0] El Hy Cy. cbn [fst] in Cy. apply C.
        rewrite El, move_app, Hy in H. unfold others in Hl. rewrite El in Hl. apply Forall_app in Hl as [Hl1 Hl2].
        assert (HG0 : Forall good (routed (ch_no c) (rest_inputs l0))) by (rewrite El, (rest_app X A l0 (m :: l3)), routed_app in HG; now apply Forall_app in HG).
        assert (S0 : sound o kd kc (ch_no c) st0).
        { now destruct (run_turns S X A busy on_data on_close act good data_short close_short act_short env error_text o kd kc (ch_no c) Henv l0 st s st0 s0 Hl1 HG0 Hi Ho Hy) as [S0 _]. }
        now destruct (run_shut S X A busy on_data on_close act env error_text o kd kc (ch_no c) Henv (m :: l3) st0 s0 st' s' Hl2 S0 Cy H) as (_ & C' & _).
      + left. split; auto. split; auto. split; auto. exists new. auto.
    - exists (e1 ++ shuts X A kc x ++ e2), ws, l1. split; auto. split; [|split; [|split]].
      + rewrite <- D. unfold deeds, shuts. rewrite !flat_map_app. destruct kc; reflexivity.
      + rewrite <- G. unfold gifts, shuts. rewrite !flat_map_app. fold (gifts X A e2). rewrite (late_gifts X A e2 L). destruct kc; cbn [flat_map app]; apply app_nil_r.
      + exists l2. split; auto. split; auto. right. exists y. auto.
      + right. split; auto. exists e1, x, e2. auto.
  Qed.
End Parts.

(** ** Port forward *)
Notation fturns chunk := (turns tunnel unit tunnel_step tunnel_busy tunnel_data tunnel_close (tunnel_act chunk)).
Lemma chunk_short chunk (d : bytes) : (Z.of_nat chunk < 2 ^ 63)%Z -> length d <= chunk -> short d.
Proof. unfold short. lia. Qed.
Definition talk (chunk : nat) (t : tunnel) (a : tunnel_step) (b : bool) : Prop :=
  let '(t', w) := tunnel_act chunk a b t in
  match w with
  | [] => t_rest t' = t_rest t /\ (t_loop t' = LGone -> t_loop t = LGone \/ a = TLeave 0)
  | [WData d] => d <> [] /\ length d <= chunk /\ d ++ t_rest t' = t_rest t /\ t_loop t' <> LGone /\ t_loop t <> LGone
  | [WClose] => t_rest t' = t_rest t /\ t_loop t = LLeaving /\ t_loop t' = LGone
  | _ => False
  end /\ (t_loop t = LGone -> w = [] /\ t_loop t' = LGone).
Lemma tunnel_talk chunk t a b : talk chunk t a b.
Proof.
  unfold talk. destruct t as [ti tl te tr]. cbn [t_in t_loop t_event t_rest].
  destruct a as [s|ok|s|ok| | |r|r sok|el]; cbn [tunnel_act t_in t_loop t_event t_rest with_in with_loop].
  - auto.
  - destruct tl; cbn; auto; split; auto; discriminate.
  - destruct tl; cbn; auto; split; auto; discriminate.
  - destruct tl; cbn; auto. destruct (c_pc ti); cbn; auto; try (split; [split; auto; destruct ok; discriminate|discriminate]); split; auto; discriminate.
  - auto.
  - destruct tl; cbn; auto. split; [split; auto; destruct te; discriminate|discriminate].
  - destruct r as [l|]; destruct tl; cbn; auto; try (split; [split; auto; discriminate|discriminate]).
    split; [split; auto; destruct b; [discriminate|destruct l; discriminate]|discriminate].
  - destruct tl as [| | |[|mask l]| |]; cbn; auto. destruct (Model_Forward.readable mask).
    + destruct r as [n|]; [|cbn; split; [split; auto; discriminate|discriminate]].
      destruct (firstn (Nat.min chunk (S n)) tr) as [|x d] eqn:E.
      * cbn. split; [split; auto; discriminate|discriminate].
      * assert (Hl : length (x :: d) <= chunk) by (rewrite <- E, firstn_length; lia).
        assert (Hr : (x :: d) ++ skipn (Nat.min chunk (S n)) tr = tr) by (rewrite <- E; apply firstn_skipn).
        destruct sok; cbn; (split; [|discriminate]); (split; [discriminate|]); split; auto; split; auto; split; try discriminate; destruct l; discriminate.
    + cbn. split; [|discriminate]. split; auto. destruct l; discriminate.
  - destruct tl; cbn; auto. destruct (Z.eqb_spec el 0) as [->|]; cbn; (split; [|discriminate]); auto.
Qed.
Lemma gone_talk chunk t evs t' ws : fturns chunk t evs t' ws -> t_loop t = LGone -> ws = [] /\ t_rest t' = t_rest t /\ t_loop t' = LGone.
Proof.
  induction 1 as [|s x d s1 w evs s2 ws _ E _ IH|s x s1 w evs s2 ws _ E _ IH|s a b s1 w evs s2 ws E _ IH]; intros G; auto.
  - injection E as <- <-. apply IH. exact G.
  - injection E as <- <-. apply IH. exact G.
  - pose proof (tunnel_talk chunk s a b) as T. unfold talk in T. rewrite E in T. destruct T as [T1 T2]. destruct (T2 G) as [-> G']. destruct T1 as [T1 _].
    destruct (IH G') as (-> & R & L). rewrite R. auto.
Qed.
Lemma turns_talk chunk t evs t' ws : fturns chunk t evs t' ws -> t_loop t <> LGone ->
  exists ds cl, map word_said ws = map SData ds ++ cl /\ concat ds ++ t_rest t' = t_rest t /\
    Forall (fun d : bytes => d <> [] /\ length d <= chunk) ds /\ (cl = [] \/ cl = [SClose] /\ t_loop t' = LGone) /\
    (t_loop t' = LGone -> ~ In (TLeave 0) (deeds unit tunnel_step evs) -> cl = [SClose]).
Proof.
  induction 1 as [s|s x d s1 w evs s2 ws _ E _ IH|s x s1 w evs s2 ws _ E _ IH|s a b s1 w evs s2 ws E T IH]; intros G.
  - exists [], []. repeat split; auto. contradiction.
  - injection E as <- <-. apply IH. exact G.
  - injection E as <- <-. apply IH. exact G.
  - pose proof (tunnel_talk chunk s a b) as Tk. unfold talk in Tk. rewrite E in Tk. destruct Tk as [T1 T2].
    assert (Hev : deeds unit tunnel_step (Did unit tunnel_step a b :: evs) = a :: deeds unit tunnel_step evs) by reflexivity.
    destruct w as [|[d|] [|]]; try contradiction.
    + destruct T1 as [T1 T3]. assert (Dec : t_loop s1 = LGone \/ t_loop s1 <> LGone) by (destruct (t_loop s1); auto; right; discriminate).
      destruct Dec as [L|L].
      * destruct (gone_talk _ _ _ _ _ T L) as (-> & R & L2). exists [], []. split; auto. split; [cbn; congruence|]. split; auto. split; auto.
        intros _ N. destruct N. rewrite Hev. left. destruct (T3 L) as [|]; [contradiction|auto].
      * destruct (IH L) as (ds & cl & H1 & H2 & H3 & H4 & H5). exists ds, cl. split; auto. split; [congruence|]. split; auto. split; auto.
        intros L2 N. apply H5; auto. intros I. apply N. rewrite Hev. now right.
    + destruct T1 as (N1 & N2 & N3 & N4 & N5). destruct (IH N4) as (ds & cl & H1 & H2 & H3 & H4 & H5). exists (d :: ds), cl.
      split; [cbn; now rewrite H1|]. split; [cbn; rewrite <- app_assoc, H2; exact N3|]. split; [constructor; auto|]. split; auto.
      intros L2 N. apply H5; auto. intros I. apply N. rewrite Hev. now right.
    + destruct T1 as (N1 & N2 & N3). destruct (gone_talk _ _ _ _ _ T N3) as (-> & R & L). exists [], [SClose]. split; auto. split; [cbn; congruence|]. split; auto.
Qed.
Lemma tunnel_shorts chunk a b t : (Z.of_nat chunk < 2 ^ 63)%Z -> Forall word_short (snd (tunnel_act chunk a b t)).
Proof.
  intros Hc. pose proof (tunnel_talk chunk t a b) as T. unfold talk in T. destruct (tunnel_act chunk a b t) as [t' w]. cbn [snd]. destruct T as [T _].
  destruct w as [|[d|] [|]]; try contradiction; auto; repeat constructor. cbn. destruct T as (_ & L & _). eapply chunk_short; eauto.
Qed.

Definition act_of (chunk : nat) (a : tunnel_step) (t : tunnel) : list Model_Forward.action :=
  match a, t_loop t with
  | TCallback s, _ => [StepM s]
  | TConnects ok, LConnecting => [Connects ok]
  | TConnect s, LConnecting => [StepC s]
  | _, _ => []
  end.
Lemma act_in chunk a b t : t_in (fst (tunnel_act chunk a b t)) = crun (act_of chunk a t) (t_in t).
Proof.
  destruct t as [ti tl te tr]. destruct a as [s|ok|s|ok| | |r|r sok|el]; cbn [tunnel_act act_of t_in t_loop]; try reflexivity; try (destruct tl; reflexivity).
  - destruct tl; try reflexivity. destruct (c_pc ti); reflexivity.
  - destruct r; destruct tl; reflexivity.
  - destruct tl as [| | |[|mask l]| |]; try reflexivity. destruct (Model_Forward.readable mask); [|reflexivity].
    destruct r as [n|]; [|reflexivity]. cbn [t_rest]. destruct (firstn _ tr); [reflexivity|]. destruct sok; reflexivity.
Qed.
Lemma step_keeps a c : (forall d, a <> Arrives d) -> a <> Closes -> arrived (cstep a c) = arrived c /\ Model_Forward.chan_closed (cstep a c) = Model_Forward.chan_closed c.
Proof.
  intros H1 H2. destruct a as [d| |s|ok|s]; [destruct (H1 d eq_refl)|destruct H2; reflexivity| | |]; cbn [cstep].
  - unfold step_m, set_m, set_buffer, set_socket, set_shut, sendall. destruct c as [mp cp lk so bu cc sh ar de sf]. cbn.
    destruct mp as [|d|d| |cl|cl [|d r]|cl f| |]; try destruct lk; try destruct so; cbn; auto.
  - destruct (c_pc c); cbn; auto.
  - unfold step_c, set_c, set_buffer, set_socket, set_shut, sendall. destruct c as [mp cp lk so bu cc sh ar de sf]. cbn.
    destruct cp as [| | | |[|d r]|f|f| |]; try destruct lk; try destruct so; cbn; auto.
Qed.
Lemma act_keeps chunk a t : arrived (crun (act_of chunk a t) (t_in t)) = arrived (t_in t) /\ Model_Forward.chan_closed (crun (act_of chunk a t) (t_in t)) = Model_Forward.chan_closed (t_in t).
Proof. destruct a; cbn [act_of]; try (destruct (t_loop t)); cbn [crun fold_left]; auto; apply step_keeps; discriminate. Qed.
Lemma turns_in chunk t evs t' ws : fturns chunk t evs t' ws -> exists acts, t_in t' = crun acts (t_in t).
Proof.
  induction 1 as [s|s x d s1 w evs s2 ws _ E _ (acts & IH)|s x s1 w evs s2 ws _ E _ (acts & IH)|s a b s1 w evs s2 ws E _ (acts & IH)].
  - exists []. reflexivity.
  - injection E as <- <-. exists (Arrives d :: acts). exact IH.
  - injection E as <- <-. exists (Closes :: acts). exact IH.
  - exists (act_of chunk a s ++ acts). rewrite crun_app, <- (act_in chunk a b), E. exact IH.
Qed.
Lemma idle t : tunnel_busy t = false -> m_pc (t_in t) = MIdle.
Proof. unfold tunnel_busy. destruct (m_pc (t_in t)); discriminate || auto. Qed.
Lemma calm_in chunk t evs t' ws : fturns chunk t evs t' ws -> Forall (calm unit tunnel_step) evs -> Model_Forward.chan_closed (t_in t) = false ->
  arrived (t_in t') = arrived (t_in t) ++ gifts unit tunnel_step evs /\ Model_Forward.chan_closed (t_in t') = false.
Proof.
  induction 1 as [s|s x d s1 w evs s2 ws Hb E _ IH|s x s1 w evs s2 ws _ E _ IH|s a b s1 w evs s2 ws E _ IH]; intros HF C; [now rewrite app_nil_r| | |];
    inversion HF as [|? ? Hc HF']; subst.
  - injection E as <- <-. apply idle in Hb. destruct s as [ti tl te tr]. cbn [with_in t_in t_loop] in *. cbn [cstep] in IH. rewrite Hb, C in IH. cbn in IH.
    destruct (IH HF' eq_refl) as [-> ->]. rewrite <- app_assoc. auto.
  - destruct Hc.
  - pose proof (act_in chunk a b s) as Ei. rewrite E in Ei. cbn in Ei. destruct (act_keeps chunk a s) as [K1 K2]. rewrite <- Ei in K1, K2. rewrite <- K1.
    apply IH; auto. congruence.
Qed.
Lemma late_in chunk t evs t' ws : fturns chunk t evs t' ws -> Forall (late unit tunnel_step) evs ->
  arrived (t_in t') = arrived (t_in t) /\ Model_Forward.chan_closed (t_in t') = Model_Forward.chan_closed (t_in t).
Proof.
  induction 1 as [s|s x d s1 w evs s2 ws Hb E _ IH|s x s1 w evs s2 ws _ E _ IH|s a b s1 w evs s2 ws E _ IH]; intros HF; [auto| | |];
    inversion HF as [|? ? Hc HF']; subst; try (destruct Hc; fail).
  pose proof (act_in chunk a b s) as Ei. rewrite E in Ei. cbn in Ei. destruct (act_keeps chunk a s) as [K1 K2]. rewrite <- Ei in K1, K2. rewrite <- K1, <- K2. auto.
Qed.
Lemma turns_split S X A busy on_data on_close act s e1 e2 s' ws : turns S X A busy on_data on_close act s (e1 ++ e2) s' ws ->
  exists s1 w1 w2, turns S X A busy on_data on_close act s e1 s1 w1 /\ turns S X A busy on_data on_close act s1 e2 s' w2 /\ ws = w1 ++ w2.
Proof.
  revert s ws. induction e1 as [|e e1 IH]; intros s ws H; cbn [app] in H; [exists s, [], ws; split; [apply tn_nil|auto]|].
  inversion H; subst.
  - match goal with G : turns _ _ _ _ _ _ _ _ (e1 ++ e2) _ _ |- _ => destruct (IH _ _ G) as (s3 & w1 & w2 & T1 & T2 & ->) end.
    eexists s3, _, w2. split; [eapply tn_gave; eauto|]. split; auto. apply app_assoc.
  - match goal with G : turns _ _ _ _ _ _ _ _ (e1 ++ e2) _ _ |- _ => destruct (IH _ _ G) as (s3 & w1 & w2 & T1 & T2 & ->) end.
    eexists s3, _, w2. split; [eapply tn_shut; eauto|]. split; auto. apply app_assoc.
  - match goal with G : turns _ _ _ _ _ _ _ _ (e1 ++ e2) _ _ |- _ => destruct (IH _ _ G) as (s3 & w1 & w2 & T1 & T2 & ->) end.
    eexists s3, _, w2. split; [eapply tn_did; eauto|]. split; auto. apply app_assoc.
Qed.
Lemma forward_relay env et o kd kc chunk l st c event stream st' t : (Z.of_nat chunk < 2 ^ 63)%Z -> respected env o -> seated st o kd kc c -> others o l ->
  forward_session env et o kd kc chunk l st event stream = Some (st', t) ->
    exists evs ws l1, fturns chunk (tunnel_start event stream) evs t ws /\ deeds unit tunnel_step evs = own_steps l /\
      gifts unit tunnel_step evs = routed (ch_no c) (rest_inputs l1) /\
      open_part (fun l0 => forward_session env et o kd kc chunk l0 st event stream) o l l1 /\
      (~ object_closed st' o /\ l1 = l /\ Forall (calm _ _) evs /\ (exists new, adds st st' new /\ heard (ch_no c) new = map word_said ws) \/
       object_closed st' o /\ exists e1 x e2, evs = e1 ++ Shut unit tunnel_step x :: e2 /\ Forall (calm _ _) e1 /\ Forall (late _ _) e2).
Proof.
  intros Hc He Hs Hl H. unfold forward_session in H.
  exact (relay tunnel unit tunnel_step tunnel_busy tunnel_data tunnel_close (tunnel_act chunk) (fun _ => True) (fun x d s _ => @Forall_nil _ word_short) (fun x s => @Forall_nil _ word_short) (fun a b s => tunnel_shorts chunk a b s Hc) env et o kd (Some kc) He st c _ l st' t Hs Hl (all_true _) H).
Qed.
Lemma c110 env et o kd kc chunk l st c event stream st' t : (Z.of_nat chunk < 2 ^ 63)%Z -> respected env o -> seated st o kd kc c -> others o l ->
  forward_session env et o kd kc chunk l st event stream = Some (st', t) -> ~ object_closed st' o ->
  exists new ds cl, adds st st' new /\ heard (ch_no c) new = map SData ds ++ cl /\ concat ds ++ t_rest t = stream /\
    Forall (fun d : bytes => d <> [] /\ length d <= chunk) ds /\ (cl = [] \/ cl = [SClose] /\ t_loop t = LGone) /\
    (t_loop t = LGone -> ~ In (TLeave 0) (own_steps l) -> cl = [SClose]).
Proof.
  intros Hc He Hs Hl H Ho. destruct (forward_relay _ _ _ _ _ _ _ _ _ _ _ _ _ Hc He Hs Hl H) as (evs & ws & l1 & T & D & G & P & [(C & -> & K & new & A1 & B1)|[C _]]); [|contradiction].
  destruct (turns_talk _ _ _ _ _ T) as (ds & cl & H1 & H2 & H3 & H4 & H5); [discriminate|]. exists new, ds, cl. rewrite D in H5. rewrite B1. repeat split; auto.
Qed.
Lemma c111 env et o kd kc chunk l st c event stream st' t : (Z.of_nat chunk < 2 ^ 63)%Z -> respected env o -> seated st o kd kc c -> others o l ->
  forward_session env et o kd kc chunk l st event stream = Some (st', t) ->
  exists l1, open_part (fun l0 => forward_session env et o kd kc chunk l0 st event stream) o l l1 /\
    let got := routed (ch_no c) (rest_inputs l1) in
    arrived (t_in t) = got /\ (Model_Forward.chan_closed (t_in t) = true <-> object_closed st' o) /\
    (send_failed (t_in t) = false -> is_prefix (Model_Forward.delivered (t_in t)) (concat got) /\ (settled (t_in t) -> Model_Forward.delivered (t_in t) = concat got)).
Proof.
  intros Hc He Hs Hl H. destruct (forward_relay _ _ _ _ _ _ _ _ _ _ _ _ _ Hc He Hs Hl H) as (evs & ws & l1 & T & D & G & P & Hx).
  exists l1. split; auto. cbn zeta. rewrite <- G.
  assert (HA : arrived (t_in t) = gifts unit tunnel_step evs /\ (Model_Forward.chan_closed (t_in t) = true <-> object_closed st' o)).
  { destruct Hx as [(C & -> & K & _)|(C & e1 & x & e2 & -> & K & L)].
    - destruct (calm_in _ _ _ _ _ T K eq_refl) as [-> ->]. split; auto. split; [discriminate|contradiction].
    - destruct (turns_split _ _ _ _ _ _ _ _ _ _ _ _ T) as (s1 & w1 & w2 & T1 & T2 & _). destruct (calm_in _ _ _ _ _ T1 K eq_refl) as [E1 E2].
      inversion T2 as [| |s x' s2 w evs s3 ws' Hb E T3|]; subst. injection E as <- <-. destruct (late_in _ _ _ _ _ T3 L) as [F1 F2].
      apply idle in Hb. destruct s1 as [ti tl te tr]. cbn [with_in t_in t_loop] in *. cbn [cstep] in F1, F2. rewrite Hb, E2 in F1, F2. cbn in F1, F2.
      rewrite F1, F2, E1. cbn. split; [|split; auto]. unfold gifts. rewrite flat_map_app. cbn [flat_map app]. fold (gifts unit tunnel_step e2). now rewrite (late_gifts _ _ _ L), app_nil_r. }
  destruct HA as [HA HC]. split; auto. split; auto. destruct (turns_in _ _ _ _ _ T) as (acts & Ei). cbn [tunnel_start t_in] in Ei. rewrite <- HA, Ei. apply in_order.
Qed.

(** ** Terminal *)
Notation tturns limit := (turns pst term_os Model_Process.event term_busy term_data term_close (term_act limit)).
Definition proj (limit : nat) (e : turn term_os Model_Process.event) : list Model_Process.event :=
  match e with
  | Gave _ _ x d => [Data d (fst (fst x))]
  | Shut _ _ x => [CloseChannel (snd (fst x)) (snd x)]
  | Did _ _ a _ => match a with Data _ _ | CloseChannel _ _ => [] | Reads n _ _ => if n <=? limit then [a] else [] | _ => [a] end
  end.
Lemma prun_app' a b p : prun (a ++ b) p = prun b (prun a p).
Proof. apply fold_left_app. Qed.
Lemma turns_prun limit p evs p' ws : tturns limit p evs p' ws -> p' = prun (flat_map (proj limit) evs) p.
Proof.
  induction 1 as [s|s x d s1 w evs s2 ws _ E _ IH|s x s1 w evs s2 ws _ E _ IH|s a b s1 w evs s2 ws E _ IH]; [reflexivity| | |]; cbn [flat_map]; rewrite prun_app', IH; f_equal.
  - unfold term_data in E. injection E as <- _. reflexivity.
  - unfold term_close in E. injection E as <- _. reflexivity.
  - destruct a; cbn [term_act] in E; cbn [proj]; try (injection E as <- _; reflexivity). destruct (n <=? limit); injection E as <- _; reflexivity.
Qed.
Lemma proj_prints limit evs : prints (flat_map (proj limit) evs) = prints (deeds _ _ evs).
Proof.
  induction evs as [|e evs IH]; [reflexivity|]. unfold prints in *. cbn [flat_map deeds]. fold (deeds term_os Model_Process.event evs). rewrite !map_app, !concat_app, IH.
  f_equal. destruct e as [x d|x|a b]; try reflexivity. destruct a; try reflexivity. cbn. destruct (n <=? limit); reflexivity.
Qed.
Lemma proj_output limit evs : terminal_output (flat_map (proj limit) evs) = terminal_output (deeds _ _ evs).
Proof.
  induction evs as [|e evs IH]; [reflexivity|]. cbn [flat_map deeds]. fold (deeds term_os Model_Process.event evs).
  destruct e as [x d|x|a b]; try exact IH. destruct a; cbn [proj app terminal_output]; try exact IH.
  - destruct ok; [apply proj_prints|reflexivity].
  - destruct (n <=? limit); cbn; exact IH.
Qed.
Lemma proj_datas limit evs : datas (flat_map (proj limit) evs) = gifts _ _ evs.
Proof.
  induction evs as [|e evs IH]; [reflexivity|]. unfold datas in *. cbn [flat_map gifts]. fold (gifts term_os Model_Process.event evs). rewrite map_app, concat_app, IH.
  f_equal. destruct e as [x d|x|a b]; try reflexivity. destruct a; try reflexivity. cbn. destruct (n <=? limit); reflexivity.
Qed.
Lemma closes_app a b : closes_of (a ++ b) = closes_of a + closes_of b.
Proof. unfold closes_of. now rewrite filter_app, app_length. Qed.
Lemma datas_app a b : data_of (a ++ b) = data_of a ++ data_of b.
Proof. apply flat_map_app. Qed.
Lemma asked_data d ws p : asked p <= asked (on_data d ws p) /\ written (on_data d ws p) = written p /\ Model_Process.chan_closed (on_data d ws p) = Model_Process.chan_closed p.
Proof.
  unfold on_data, ask_close. destruct (fd_open p).
  - destruct (write_loop _ _ _ _) as [acc ok]. destruct ok; cbn; [auto|]. destruct (Model_Process.chan_closed p) eqn:E; cbn; auto.
  - destruct (fd p); [destruct d; auto|]; destruct (Model_Process.chan_closed p) eqn:E; cbn; auto.
Qed.
Lemma repeat_close k : data_of (map word_said (repeat WClose k)) = [] /\ closes_of (map word_said (repeat WClose k)) = k.
Proof. induction k as [|k [I1 I2]]; [auto|]. cbn. unfold closes_of in *. cbn. auto. Qed.
Lemma act_words limit a b p p' w : Model_Process.chan_closed p = false -> term_act limit a b p = (p', w) ->
  Model_Process.chan_closed p' = false /\ written p' = written p ++ concat (data_of (map word_said w)) /\ asked p' = asked p + closes_of (map word_said w).
Proof.
  intros C E. assert (Q : forall e, match e with Data _ _ | CloseChannel _ _ | Reads _ _ _ => False | _ => True end ->
    Model_Process.chan_closed (pstep e p) = false /\ written (pstep e p) = written p /\ asked (pstep e p) = asked p).
  { intros e He. destruct e; try destruct He; cbn [pstep]; auto.
    - destruct (ph p); auto. destruct ok; auto.
    - destruct (ph p); auto.
    - destruct (ph p); auto.
    - destruct (kid p); auto.
    - destruct (kid p); auto.
    - destruct (ph p); auto.
    - destruct (ph p); auto.
    - destruct (ph p); auto.
    - destruct (close_io kill_ok thread_ok p) as (_ & A1 & A2 & _ & A3 & _). rewrite A1, A2, A3. auto.
    - destruct (nth_error (waiters p) i) as [wt|]; auto. destruct (w_phase wt); auto.
    - destruct (nth_error (waiters p) i) as [wt|]; auto. destruct (w_phase wt); auto. destruct (kid p); auto.
    - destruct (nth_error (waiters p) i) as [wt|]; auto. destruct (w_phase wt); auto. unfold Model_Process.act. destruct (_ && _)%bool; [destruct kill_ok|]; cbn; auto. }
  destruct a; cbn [term_act] in E; 
    try (match type of E with (pstep ?e p, []) = _ =>
           pose proof (Q e I) as Q0; apply pair_equal_spec in E as [<- <-];
           change (closes_of (map word_said [])) with 0; change (concat (data_of (map word_said []))) with (@nil byte); rewrite app_nil_r, Nat.add_0_r; exact Q0
         end).
  - destruct (n <=? limit).
    + injection E as <- <-. cbn [pstep]. destruct (ph p) eqn:Ep; try (cbn; rewrite app_nil_r, Nat.add_0_r; auto; fail). rewrite C.
      destruct send_ok; [destruct hangup|]; cbn; rewrite app_nil_r, Nat.add_0_r; auto.
    + injection E as <- <-. cbn. rewrite app_nil_r, Nat.add_0_r. auto.
  - injection E as <- <-. cbn. rewrite app_nil_r, Nat.add_0_r. auto.
  - injection E as <- <-. cbn. rewrite app_nil_r, Nat.add_0_r. auto.
Qed.
Lemma calm_words limit p evs p' ws : tturns limit p evs p' ws -> Forall (calm _ _) evs -> Model_Process.chan_closed p = false ->
  Model_Process.chan_closed p' = false /\ written p' = written p ++ concat (data_of (map word_said ws)) /\ asked p' = asked p + closes_of (map word_said ws).
Proof.
  induction 1 as [s|s x d s1 w evs s2 ws _ E _ IH|s x s1 w evs s2 ws _ E _ IH|s a b s1 w evs s2 ws E _ IH]; intros HF C.
  - cbn. rewrite app_nil_r, Nat.add_0_r. auto.
  - inversion HF as [|? ? _ HF']; subst. unfold term_data in E. cbn [pstep] in E. rewrite C in E. injection E as <- <-. destruct (asked_data d (fst (fst x)) s) as (A1 & A2 & A3).
    destruct (IH HF') as (I1 & I2 & I3); [congruence|]. destruct (repeat_close (asked (on_data d (fst (fst x)) s) - asked s)) as [R1 R2].
    rewrite map_app, datas_app, closes_app, R1, R2. split; auto. split; [rewrite I2, A2; reflexivity|lia].
  - inversion HF as [|? ? Hx _]; subst. destruct Hx.
  - inversion HF as [|? ? _ HF']; subst. destruct (act_words _ _ _ _ _ _ C E) as (A1 & A2 & A3). destruct (IH HF' A1) as (I1 & I2 & I3). split; auto.
    rewrite map_app, datas_app, closes_app, concat_app. split; [rewrite I2, A2; symmetry; apply app_assoc|lia].
Qed.
Lemma term_shorts limit a b p : (Z.of_nat limit < 2 ^ 63)%Z -> Forall word_short (snd (term_act limit a b p)).
Proof.
  intros Hl. destruct a; cbn [term_act snd]; auto. destruct (Nat.leb_spec n limit); [|constructor]. cbn. destruct (ph p); auto. constructor; [|constructor].
  cbn. unfold short. pose proof (firstn_le_length n (pending p)). assert (length (firstn n (pending p)) <= n) by (rewrite firstn_length; lia). lia.
Qed.
Lemma data_shorts x d p : True -> Forall word_short (snd (term_data x d p)).
Proof. intros _. cbn. apply Forall_forall. intros w Hw. apply repeat_spec in Hw as ->. exact I. Qed.
Lemma terminal_relay env et o kd kc limit l st c t0 st' p : (Z.of_nat limit < 2 ^ 63)%Z -> respected env o -> seated st o kd kc c -> others o l ->
  terminal_session env et o kd kc limit l st t0 = Some (st', p) ->
    exists evs ws l1, tturns limit (pinit t0) evs p ws /\ deeds _ _ evs = own_steps l /\ gifts _ _ evs = routed (ch_no c) (rest_inputs l1) /\
      open_part (fun l0 => terminal_session env et o kd kc limit l0 st t0) o l l1 /\
      (~ object_closed st' o /\ l1 = l /\ Forall (calm _ _) evs /\ (exists new, adds st st' new /\ heard (ch_no c) new = map word_said ws) \/
       object_closed st' o /\ exists e1 x e2, evs = e1 ++ Shut term_os Model_Process.event x :: e2 /\ Forall (calm _ _) e1 /\ Forall (late _ _) e2).
Proof.
  intros Hc He Hs Hl H. unfold terminal_session in H.
  exact (relay pst term_os Model_Process.event term_busy term_data term_close (term_act limit) (fun _ => True) data_shorts (fun x s => @Forall_nil _ word_short) (fun a b s => term_shorts limit a b s Hc) env et o kd (Some kc) He st c _ l st' p Hs Hl (all_true _) H).
Qed.
Lemma c112 env et o kd kc limit l st c t0 st' p : (Z.of_nat limit < 2 ^ 63)%Z -> respected env o -> seated st o kd kc c -> others o l ->
  terminal_session env et o kd kc limit l st t0 = Some (st', p) -> ~ object_closed st' o ->
  exists new, adds st st' new /\ concat (data_of (heard (ch_no c) new)) ++ pending p = terminal_output (own_steps l) /\
    closes_of (heard (ch_no c) new) = asked p /\ Forall (fun x => ~ is_control_said x) (heard (ch_no c) new).
Proof.
  intros Hc He Hs Hl H Ho. destruct (terminal_relay _ _ _ _ _ _ _ _ _ _ _ _ Hc He Hs Hl H) as (evs & ws & l1 & T & D & G & P & [(C & -> & K & new & A1 & B1)|[C _]]); [|contradiction].
  exists new. split; auto. rewrite B1. destruct (calm_words _ _ _ _ _ T K eq_refl) as (C1 & W & Q). cbn in W, Q. rewrite <- W, Q. split; [|split; [reflexivity|rewrite Forall_map; apply Forall_forall; intros [d|] _ []]].
  apply turns_prun in T. destruct (relayed_run t0 (flat_map (proj limit) evs)) as (lost & R1 & R2). rewrite <- T in R1, R2. rewrite (R2 C1) in R1. cbn in R1.
  now rewrite R1, proj_output, D.
Qed.
Lemma closed_stays evs : forall p, Model_Process.chan_closed p = true -> Model_Process.chan_closed (prun evs p) = true.
Proof.
  induction evs as [|e evs IH]; intros p C; [exact C|]. cbn. apply IH. destruct (Model_Process.chan_closed (pstep e p)) eqn:E; auto.
  destruct e; try (match type of E with _ (pstep ?e p) = _ => pose proof (proj2 (proj2 (step_input e p I)) E) end; congruence).
  cbn [pstep] in E. rewrite C in E. congruence.
Qed.
Lemma c113 env et o kd kc limit l st c t0 st' p : (Z.of_nat limit < 2 ^ 63)%Z -> respected env o -> seated st o kd kc c -> others o l ->
  terminal_session env et o kd kc limit l st t0 = Some (st', p) ->
  exists l1, open_part (fun l0 => terminal_session env et o kd kc limit l0 st t0) o l l1 /\
    (Model_Process.chan_closed p = true <-> object_closed st' o) /\
    let got := routed (ch_no c) (rest_inputs l1) in
    (exists parts, Model_Process.input p = concat parts /\ Forall2 Spec_Process.prefix parts got) /\
    (asked p = 0 -> ~ object_closed st' o -> Model_Process.input p = concat got).
Proof.
  intros Hc He Hs Hl H. destruct (terminal_relay _ _ _ _ _ _ _ _ _ _ _ _ Hc He Hs Hl H) as (evs & ws & l1 & T & D & G & P & Hx).
  exists l1. split; auto. cbn zeta. rewrite <- G, <- (proj_datas limit). pose proof (turns_prun _ _ _ _ _ T) as E. destruct (fed_run t0 (flat_map (proj limit) evs)) as [F1 F2].
  rewrite <- E in F1, F2. destruct Hx as [(C & -> & K & _)|(C & e1 & x & e2 & -> & K & L)].
  - destruct (calm_words _ _ _ _ _ T K eq_refl) as [E1 _]. split; [split; [congruence|contradiction]|]. split; auto.
  - split; [|split; auto; contradiction]. split; auto. intros _. clear -T. destruct (turns_split _ _ _ _ _ _ _ _ _ _ _ _ T) as (s1 & w1 & w2 & _ & T2 & _).
    apply turns_prun in T2. rewrite T2. cbn [flat_map proj app]. cbn [prun fold_left]. apply closed_stays. cbn [pstep].
    destruct (Model_Process.chan_closed s1) eqn:Ec; auto. now destruct (close_io (snd (fst x)) (snd x) (with_chan_closed s1)) as (_ & _ & -> & _).
Qed.
(** The closing of the channel reaches the process *)
Lemma c114 env et o kd kc limit l i x st c t0 st1 p st2 p' : (Z.of_nat limit < 2 ^ 63)%Z -> respected env o -> seated st o kd kc c -> others o (l ++ [Rest i x]) ->
  terminal_session env et o kd kc limit l st t0 = Some (st1, p) -> ~ object_closed st1 o ->
  terminal_session env et o kd kc limit (l ++ [Rest i x]) st t0 = Some (st2, p') -> object_closed st2 o ->
  p' = pstep (CloseChannel (snd (fst x)) (snd x)) p.
Proof.
  intros Hc He Hs Hl H1 Ho H2 C2. destruct (seated_sound _ _ _ _ _ Hs) as [Hi Hno]. unfold others in Hl. apply Forall_app in Hl as [Hl1 Hl2]. inversion Hl2 as [|? ? Hm _]; subst.
  unfold terminal_session in *. rewrite move_app, H1 in H2. cbn [move_run] in H2.
  match type of H2 with (match ?t with _ => _ end) = _ => destruct t as [[st3 p3]|] eqn:E end; [|discriminate]. injection H2 as -> ->.
  assert (S1 : sound o kd (Some kc) (ch_no c) st1) by now destruct (run_turns pst term_os Model_Process.event term_busy term_data term_close (term_act limit) (fun _ => True) data_shorts (fun x s => @Forall_nil _ word_short) (fun a b s => term_shorts limit a b s Hc) env et o kd (Some kc) (ch_no c) He l st _ st1 p Hl1 (all_true _) Hi Hno H1) as [S1 _].
  destruct (move_open pst term_os Model_Process.event term_busy term_data term_close (term_act limit) (fun _ => True) data_shorts (fun x s => @Forall_nil _ word_short) (fun a b s => term_shorts limit a b s Hc) env et o kd (Some kc) (ch_no c) He (Rest i x) _ _ _ _ Hm (all_true _) S1 Ho E) as (_ & [(C & _)|(_ & _ & _ & i' & x' & ws & [= <- <-] & T)]); [contradiction|].
  apply turns_prun in T. exact T.
Qed.
Lemma c114_hup env et o kd kc limit l i x st c t0 st1 p st2 p' : (Z.of_nat limit < 2 ^ 63)%Z -> respected env o -> seated st o kd kc c -> others o (l ++ [Rest i x]) ->
  terminal_session env et o kd kc limit l st t0 = Some (st1, p) -> ~ object_closed st1 o ->
  terminal_session env et o kd kc limit (l ++ [Rest i x]) st t0 = Some (st2, p') -> object_closed st2 o ->
  kid p <> Unborn -> ph p <> Forked -> closed p = false -> snd (fst x) = true -> In (SIGHUP, now p, kid p) (signals p').
Proof.
  intros Hc He Hs Hl H1 Ho H2 C2 K P C X. assert (Hl1 : others o l) by (unfold others in *; apply Forall_app in Hl as [Hl _]; exact Hl).
  rewrite (c114 _ _ _ _ _ _ _ _ _ _ _ _ _ _ _ _ Hc He Hs Hl H1 Ho H2 C2), X.
  destruct (terminal_relay _ _ _ _ _ _ _ _ _ _ _ _ Hc He Hs Hl1 H1) as (evs & ws & l1 & T & _ & _ & _ & [(_ & _ & Ka & _)|[C' _]]); [|contradiction].
  destruct (calm_words _ _ _ _ _ T Ka eq_refl) as [E1 _]. apply turns_prun in T. subst p. now apply (hup_after_spawn t0 (flat_map (proj limit) evs) (snd x)).
Qed.
Lemma c114_never env et o kd kc limit l i x l2 st c t0 st1 p st2 p2 st3 p' : (Z.of_nat limit < 2 ^ 63)%Z -> respected env o -> seated st o kd kc c -> others o (l ++ Rest i x :: l2) ->
  terminal_session env et o kd kc limit l st t0 = Some (st1, p) -> ~ object_closed st1 o ->
  terminal_session env et o kd kc limit (l ++ [Rest i x]) st t0 = Some (st2, p2) -> object_closed st2 o ->
  pid p = false -> closed p = false -> terminal_session env et o kd kc limit (l ++ Rest i x :: l2) st t0 = Some (st3, p') -> signals p' = [].
Proof.
  intros Hc He Hs Hl H1 Ho H2 C2 P C H3. change (l ++ Rest i x :: l2) with (l ++ [Rest i x] ++ l2) in *. rewrite app_assoc in Hl, H3. unfold others in Hl. apply Forall_app in Hl as [Hl1 Hl2].
  pose proof (c114 _ _ _ _ _ _ _ _ _ _ _ _ _ _ _ _ Hc He Hs Hl1 H1 Ho H2 C2) as E2.
  assert (Hl0 : others o l) by (unfold others in *; apply Forall_app in Hl1 as [Hl1 _]; exact Hl1).
  destruct (terminal_relay _ _ _ _ _ _ _ _ _ _ _ _ Hc He Hs Hl0 H1) as (evs & ws & l1 & T & _ & _ & _ & [(_ & _ & Ka & _)|[C' _]]); [|contradiction].
  destruct (calm_words _ _ _ _ _ T Ka eq_refl) as [E1 _]. apply turns_prun in T.
  destruct (seated_sound _ _ _ _ _ Hs) as [Hi Hno]. unfold terminal_session in H2, H3. rewrite move_app, H2 in H3.
  assert (S2 : sound o kd (Some kc) (ch_no c) st2) by now destruct (run_turns pst term_os Model_Process.event term_busy term_data term_close (term_act limit) (fun _ => True) data_shorts (fun x s => @Forall_nil _ word_short) (fun a b s => term_shorts limit a b s Hc) env et o kd (Some kc) (ch_no c) He _ st _ st2 p2 Hl1 (all_true _) Hi Hno H2) as [S2 _].
  destruct (run_shut pst term_os Model_Process.event term_busy term_data term_close (term_act limit) env et o kd (Some kc) (ch_no c) He l2 st2 p2 st3 p' Hl2 S2 C2 H3) as (_ & _ & e2 & w2 & T2 & _).
  apply turns_prun in T2. rewrite T2, E2, T. change (prun ?a (pstep ?e ?q)) with (prun (e :: a) q). rewrite <- prun_app'.
  eapply closed_too_early; [reflexivity|now rewrite <- T|now rewrite <- T|now rewrite <- T].
Qed.
Lemma c114_signals env et o kd kc limit l st c t0 st' p : (Z.of_nat limit < 2 ^ 63)%Z -> respected env o -> seated st o kd kc c -> others o l ->
  terminal_session env et o kd kc limit l st t0 = Some (st', p) ->
  times SIGHUP (signals p) <= 1 /\ times SIGKILL (signals p) <= 1 /\ (forall s t k, In (s, t, k) (signals p) -> exists_ k).
Proof.
  intros Hc He Hs Hl H. destruct (terminal_relay _ _ _ _ _ _ _ _ _ _ _ _ Hc He Hs Hl H) as (evs & ws & l1 & T & _). apply turns_prun in T.
  destruct (c37 t0 _ p T) as (A1 & A2 & A3 & _). auto.
Qed.
