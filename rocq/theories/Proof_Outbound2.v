From Verif Require Import Py Model_Bencode Spec_Bencode Model_Client Spec_Client Model_Services Spec_Services Proof_Services Proof_Services2
  Spec_Outbound Proof_Outbound.

Lemma spoken_ops o l : spoken o l = flat_map (says o) (ops_on o l).
Proof.
  induction l as [|i l IH]; [reflexivity|]. unfold spoken, ops_on in *. cbn [flat_map]. rewrite flat_map_app, IH. f_equal.
  destruct i as [e|p|cmd k|]; try reflexivity. destruct p as [|o1|o1|o1| | |]; try reflexivity;
    cbn [says flat_map app]; destruct (o1 =? o) eqn:E; cbn [flat_map]; try reflexivity; cbn [says]; rewrite E, ?app_nil_r; reflexivity.
Qed.
Lemma speakable_ops o l : Forall (fun i => match i with InOp p => by_channels_only p | _ => True end) l -> Forall (speakable o) (ops_on o l) ->
  Forall (fun i => match i with InOp p => by_channels_only p /\ speakable o p | _ => True end) l.
Proof.
  induction 1 as [|i l Hi _ IH]; intros H; constructor.
  - destruct i as [e|p|cmd k|]; auto. split; [exact Hi|]. destruct p as [|o1|o1|o1| | |]; try constructor;
      unfold ops_on in H; cbn [flat_map] in H; apply Forall_app in H as [H _]; unfold speakable; cbn [says]; destruct (o1 =? o) eqn:E;
      try constructor; inversion H as [|? ? H1 _]; subst; unfold speakable in H1; cbn [says] in H1; rewrite E in H1; auto.
    inversion H1; auto.
  - apply IH. unfold ops_on in *. cbn [flat_map] in H. apply Forall_app in H. apply H.
Qed.

Section Service.
  Variable json : out -> text.
  Variable o : nat.
  Hypothesis sound : sound_json json.
  Notation ops := (flat_map (op_of json o)).
  Lemma data_says m : data_of (flat_map (says o) (op_of json o m)) = messages [m].
  Proof. destruct m as [d|s t u v|rc| |]; cbn; rewrite ?Nat.eqb_refl; cbn; try reflexivity; destruct (utf8_encode _); reflexivity. Qed.
  Lemma data_app a b : data_of (a ++ b) = data_of a ++ data_of b.
  Proof. apply flat_map_app. Qed.
  Lemma data_ops ms : data_of (flat_map (says o) (ops ms)) = messages ms.
  Proof.
    induction ms as [|m ms IH]; [reflexivity|]. cbn [flat_map]. rewrite flat_map_app, data_app, IH, data_says. change (m :: ms) with ([m] ++ ms).
    rewrite messages_app. reflexivity.
  Qed.
  Lemma says_data ds : flat_map (says o) (ops (map OData ds)) = map SData ds.
  Proof. induction ds as [|d ds IH]; [reflexivity|]. cbn [map flat_map op_of app says]. rewrite Nat.eqb_refl, IH. reflexivity. Qed.
  Lemma says_ctl s t u v : exists b, utf8_encode (json (OControl s t u v)) = Some b /\ flat_map (says o) (op_of json o (OControl s t u v)) = [SControl b].
  Proof. destruct (sound (OControl s t u v)) as (b & E & _). exists b. split; auto. cbn. rewrite Nat.eqb_refl, E. reflexivity. Qed.
  Lemma speakable_out m : Forall short (messages [m]) -> Forall (speakable o) (op_of json o m).
  Proof.
    intros H. destruct m as [d|s t u v|rc| |]; cbn [op_of]; repeat constructor; unfold speakable; cbn [says]; rewrite Nat.eqb_refl.
    - cbn in H. inversion H; subst. repeat constructor. assumption.
    - destruct (sound (OControl s t u v)) as (b & -> & Hb). repeat constructor. exact Hb.
    - destruct (sound (OComplete rc)) as (b & -> & Hb). repeat constructor. exact Hb.
    - repeat constructor.
  Qed.
  Lemma speakable_outs ms : Forall short (messages ms) -> Forall (speakable o) (ops ms).
  Proof.
    induction ms as [|m ms IH]; intros H; [constructor|]. change (m :: ms) with ([m] ++ ms) in H. rewrite messages_app in H. apply Forall_app in H as [H1 H2].
    cbn [flat_map]. apply Forall_app. split; [now apply speakable_out|auto].
  Qed.
End Service.
Lemma prefix_concat {A} (a b : list (list A)) : prefix a b -> prefix (concat a) (concat b).
Proof. intros [c ->]. exists (concat c). apply concat_app. Qed.
Lemma prefix_flat {A B} (f : A -> list B) a b : prefix a b -> prefix (flat_map f a) (flat_map f b).
Proof. intros [c ->]. exists (flat_map f c). apply flat_map_app. Qed.
Lemma prefix_trans {A} (a b c : list A) : prefix a b -> prefix b c -> prefix a c.
Proof. intros [x ->] [y ->]. exists (x ++ y). now rewrite app_assoc. Qed.
Lemma pieces_short chunk ds : (Z.of_nat chunk < 2 ^ 63)%Z -> Forall (fun d : bytes => d <> [] /\ length d <= chunk) ds -> Forall short ds.
Proof. intros Hc H. eapply Forall_impl; [|exact H]. intros d [_ Hl]. unfold short. lia. Qed.

Section Wire.
  Variable env : list effect -> effect -> list (op * bool) * option exn.
  Variable et : list effect -> text.
  Variables (l : list input) (st st' : state) (o : nat) (c : chan) (json : out -> text) (ms : list out).
  Hypothesis Ha : leave_alone env o.
  Hypothesis Hr : reached st.
  Hypothesis Hc : chan_of st o = Some c.
  Hypothesis Hl : Forall (fun i => match i with InOp p => by_channels_only p | _ => True end) l.
  Hypothesis H : run env et l st = Some st'.
  Hypothesis Ho : ~ object_closed st' o.
  Hypothesis Hj : sound_json json.
  Hypothesis Hp : prefix (ops_on o l) (flat_map (op_of json o) ms).
  Hypothesis Hs : Forall short (messages ms).
  Lemma wire : exists new, adds st st' new /\ heard (ch_no c) new = flat_map (says o) (ops_on o l).
  Proof.
    rewrite <- spoken_ops. apply (c108 env et l); auto. apply speakable_ops; auto.
    pose proof (speakable_outs json o Hj ms Hs) as S. destruct Hp as [x E]. rewrite E in S. apply Forall_app in S. apply S.
  Qed.
  Lemma wire_prefix content : prefix (concat (messages ms)) content ->
    exists new, adds st st' new /\ prefix (concat (data_of (heard (ch_no c) new))) content.
  Proof.
    intros Hm. destruct wire as (new & A & E). exists new. split; [exact A|]. rewrite E. eapply prefix_trans; [|exact Hm]. apply prefix_concat.
    rewrite <- (data_ops json o ms). apply (prefix_flat (fun x => match x with SData d => [d] | _ => [] end)), prefix_flat. exact Hp.
  Qed.
End Wire.
Lemma prefix_refl {A} (a : list A) : prefix a a.
Proof. exists []. now rewrite app_nil_r. Qed.
Lemma c109_prefix env et l st st' o c json w chunk path content fs r : leave_alone env o -> reached st -> chan_of st o = Some c ->
  Forall (fun i => match i with InOp p => by_channels_only p | _ => True end) l -> run env et l st = Some st' -> ~ object_closed st' o -> sound_json json ->
  0 < chunk -> (Z.of_nat chunk < 2 ^ 63)%Z -> file_run w chunk path content sinit = (fs, r) -> prefix (ops_on o l) (flat_map (op_of json o) (sent fs)) ->
  exists new, adds st st' new /\ prefix (concat (data_of (heard (ch_no c) new))) content.
Proof.
  intros Ha Hr Hc Hl H Ho Hj H0 H63 Hf Hp. destruct (file_run_spec w chunk path content fs r H0 Hf) as (_ & P & Q).
  eapply (wire_prefix env et l); eauto. eapply pieces_short; eauto.
Qed.
Lemma c109_command env et l st st' o c json w chunk polls stdout rc1 rc2 fs r : leave_alone env o -> reached st -> chan_of st o = Some c ->
  Forall (fun i => match i with InOp p => by_channels_only p | _ => True end) l -> run env et l st = Some st' -> ~ object_closed st' o -> sound_json json ->
  0 < chunk -> (Z.of_nat chunk < 2 ^ 63)%Z -> command_run w chunk polls stdout rc1 rc2 sinit = (fs, r) -> prefix (ops_on o l) (flat_map (op_of json o) (sent fs)) ->
  exists new, adds st st' new /\ prefix (concat (data_of (heard (ch_no c) new))) stdout.
Proof.
  intros Ha Hr Hc Hl H Ho Hj H0 H63 Hf Hp. destruct (command_run_data w chunk H0 polls stdout rc1 rc2 fs r Hf) as (_ & P & Q).
  eapply (wire_prefix env et l); eauto. eapply pieces_short; eauto.
Qed.
Lemma c109_whole env et l st st' o c json w chunk path content fs r : leave_alone env o -> reached st -> chan_of st o = Some c ->
  Forall (fun i => match i with InOp p => by_channels_only p | _ => True end) l -> run env et l st = Some st' -> ~ object_closed st' o -> sound_json json ->
  0 < chunk -> (Z.of_nat chunk < 2 ^ 63)%Z -> polite w -> sane_os w -> file_run w chunk (VText path) content sinit = (fs, r) -> s_closed fs = false ->
  ops_on o l = flat_map (op_of json o) (sent fs) ->
  exists new ds, adds st st' new /\
    (heard (ch_no c) new = map SData ds ++ [SClose] /\ concat ds = content \/
     prefix (concat ds) content /\ exists status msg b, utf8_encode (json (OControl "remote-file" "error" status msg)) = Some b /\
       heard (ch_no c) new = map SData ds ++ [SControl b; SClose]).
Proof.
  intros Ha Hr Hc Hl H Ho Hj H0 H63 Hpo Hsa Hf Hopen Hp. destruct (file_run_spec w chunk (VText path) content fs r H0 Hf) as (_ & P & Q).
  destruct (wire env et l st st' o c json (sent fs)) as (new & A & E); auto; [rewrite Hp; apply prefix_refl|eapply pieces_short; eauto|].
  rewrite Hp in E. destruct (file_run_polite w chunk path content fs r H0 Hpo Hsa Hf) as (ds & tail & Es & Ht & _).
  exists new, ds. split; [exact A|]. rewrite Es in E, Q. rewrite flat_map_app, flat_map_app, says_data in E.
  destruct (Ht Hopen) as [[-> Hd]|(status & msg & ->)].
  - left. split; auto. rewrite E. cbn. rewrite Nat.eqb_refl. reflexivity.
  - right. rewrite messages_app, messages_data, app_nil_r in Q. split; [exact Q|]. exists status, msg.
    destruct (says_ctl json o Hj "remote-file" "error" status msg) as (b & E1 & E2). exists b. split; auto. rewrite E. f_equal. cbn [flat_map]. rewrite flat_map_app, E2.
    cbn. rewrite Nat.eqb_refl. reflexivity.
Qed.
