From Verif Require Import Py Py_lemmas Model_Bencode Model_Packets Model_Path Model_Remote Spec_Remote Proof_Path Proof_Remote Proof_Remote2 Proof_Remote3 Proof_Remote4 Proof_Remote5 Proof_Remote6 Proof_Remote7.

Lemma last_dot b r b' r' : ~ In dot r -> ~ In dot r' -> b ++ dot :: r = b' ++ dot :: r' -> b = b' /\ r = r'.
Proof.
  intros N N'. revert b'. induction b as [|c b IH]; intros [|c' b'] E; cbn in E.
  - injection E as E. auto.
  - injection E as E1 E2. elim N. rewrite E2. apply in_or_app. right. now left.
  - injection E as E1 E2. elim N'. rewrite <- E2. apply in_or_app. right. now left.
  - injection E as E1 E2. subst c'. destruct (IH b' E2) as [-> ->]. auto.
Qed.
Lemma dots_prefix k r b x : ~ In dot r -> repeat dot k ++ r = b ++ dot :: x -> forall c, In c b -> c = dot.
Proof.
  intros N. revert b. induction k as [|k IH]; intros b E c H.
  - elim N. cbn in E. rewrite E. apply in_or_app. right. now left.
  - destruct b as [|d b]; [destruct H|]. cbn in E. injection E as E1 E2. destruct H as [<-|H]; auto. now apply (IH b E2).
Qed.
Lemma no_ext name b x : (~ In dot name \/ exists k r, name = repeat dot k ++ r /\ ~ In dot r) -> (exists c, In c b /\ c <> dot) -> name <> b ++ dot :: x.
Proof.
  intros [N|(k & r & -> & N)] (c & H & C) E.
  - apply N. rewrite E. apply in_or_app. right. now left.
  - apply C. eapply dots_prefix; eauto.
Qed.
Lemma extension_unique name b x b' x' : extension name b x -> extension name b' x' -> b = b' /\ x = x'.
Proof.
  intros [E [[-> H]|(r & -> & R & H)]] [E' [[-> H']|(r' & -> & R' & H')]].
  - rewrite app_nil_r in *. subst. auto.
  - elim (no_ext name b' r' H H' E').
  - elim (no_ext name b r H' H E).
  - rewrite E in E'. destruct (last_dot _ _ _ _ R R' E') as [-> ->]. auto.
Qed.

Section Cfg.
  Variable cfg : config.
  Notation sdir := (snapshot_dir cfg).
  Notation ddir := (download_dir cfg).
  Notation Sl := (place cfg (snapshot_dir cfg)).
  Notation Dl := (place cfg (download_dir cfg)).
  Notation resolve' f p := (resolve f (cwd cfg) p).

  Lemma serve p w fp : absolute (root cfg) -> upload_file cfg p w = (w, inl fp) -> may_serve cfg p (place cfg fp).
  Proof. intros A U. destruct (upload_file_ok cfg p w fp A U) as [[-> ->]|(-> & _ & W)]; [now left|now right]. Qed.
  Lemma copied p u w l : absolute (root cfg) -> let w' := after (add_upload cfg p u) w in
    w_fs w' l = w_fs w l \/ (l = Sl /\ w_fs w l = None /\ w_fs w' l = Some Dir) \/
    (l = place cfg (join sdir u) /\ exists src b k, may_serve cfg p src /\ w_fs w src = Some (File b) /\ w_fs w' l = Some (File (firstn k b))).
  Proof.
    intros A. cbv zeta. unfold after. destruct (add_upload_any cfg p u w l) as [H|[H|(H & fp & b & k & U & F & E)]]; auto.
    right. right. split; auto. exists (place cfg fp), b, k. split; auto. eapply serve; eauto.
  Qed.
  Lemma announced p u w w' n : absolute (root cfg) -> add_upload cfg p u w = (w', inl n) ->
    exists src b, may_serve cfg p src /\ w_fs w src = Some (File b) /\ w_fs w' (place cfg (join sdir u)) = Some (File b) /\ n = Z.of_nat (length b).
  Proof.
    intros A E. destruct (add_upload_ok cfg _ _ _ _ _ E) as (fp & b & U & F & _ & F' & N & _). exists (place cfg fp), b. split; auto. eapply serve; eauto.
  Qed.
  Lemma backref_open p pt u w : root cfg <> [] -> utf8_decode p = Some pt -> has_backref pt -> w_fs (after (handle cfg (ROpen u p)) w) = w_fs w.
  Proof.
    intros R D H. unfold after. cbn [handle]. unfold on_open, attempt.
    assert (X : fst ((let! p0 := decode8 p in let! u0 := decode8 u in add_upload cfg p0 u0) w) = w).
    { unfold bindM, decode8. rewrite D. cbn [ret]. destruct (utf8_decode u) as [t|]; [|reflexivity]. cbn [ret]. now rewrite backref_refused. }
    set (m := let! p0 := decode8 p in let! u0 := decode8 u in add_upload cfg p0 u0) in *. clearbody m. unfold bindM.
    destruct (m w) as [w1 r]. cbn [fst] in X. subst w1.
    assert (SD : forall n a k, w_fs (fst (send n a k w)) = w_fs w) by (intros n a k; apply (st_send _ pre_fs); reflexivity).
    destruct r; apply SD.
  Qed.
  Lemma ids_confined q u t w l : normal (temp cfg) -> upload_request q u -> utf8_decode u = Some t -> plain t ->
    w_fs (after (handle cfg q) w) l <> w_fs w l -> l = Sl \/ l = Sl ++ [t].
  Proof.
    intros TN Q U P N. destruct (loc_eqb_spec l Sl); [now left|]. destruct (loc_eqb_spec l (Sl ++ [t])); [now right|].
    exfalso. apply N. eapply upload_touches; eauto. now rewrite snap_place.
  Qed.
  Lemma data_from_snapshot t o s w w' d : normal (temp cfg) -> plain t -> read_upload cfg t o s w = (w', inl d) ->
    exists b, w_fs w (Sl ++ [t]) = Some (File b) /\ read_slice b o s = Ok d.
  Proof. intros TN P R. destruct (read_ok cfg _ _ _ _ _ _ R) as (b & F & S & _). rewrite snap_place in F by assumption. eauto. Qed.
  Lemma absolute_ids t l b w : faultless w -> path_isdir (w_fs w) (cwd cfg) sdir = true -> absolute t -> resolve' (w_fs w) t = Ok l -> w_fs w l = Some (File b) ->
    (forall o n, (Z.of_nat o < 2 ^ 63)%Z -> (Z.of_nat n < 2 ^ 63)%Z -> result (read_upload cfg t (Z.of_nat o) (Z.of_nat n)) w = inl (slice b o n)) /\
    w_fs (after (close_upload cfg t) w) l = None.
  Proof.
    intros FL I A R F. pose proof (shot_absolute cfg t l b w A I R F) as SH. unfold result, after. split.
    - intros o n B1 B2. rewrite (read_shot cfg _ _ _ _ _ SH FL), slice_ok by assumption. reflexivity.
    - rewrite (close_shot cfg t b w SH FL). cbn. rewrite join_absolute by assumption. rewrite (resolve_place cfg _ _ _ R). apply set_same.
  Qed.
  Lemma chunks_sound p t w w1 n size d w2 : add_upload cfg p t w = (w1, inl n) -> reading cfg (fun _ _ => False) t size 0 w1 d w2 ->
    w_fs w1 (place cfg (join sdir t)) = Some (File d) /\ n = Z.of_nat (length d).
  Proof.
    intros E R. destruct (opened cfg _ _ _ _ _ E) as (fp & b & U & F & N & SH).
    pose proof (reading_sound cfg (fun _ _ => False) t size b (fun _ _ _ X => False_ind _ X) _ _ _ _ R SH) as ->. cbn. split; auto. apply SH.
  Qed.
  Lemma chunks_sound_events p t w w1 n size d w2 : normal (temp cfg) -> plain t -> tree (w_fs w) -> add_upload cfg p t w = (w1, inl n) ->
    reading cfg (spares cfg (Sl ++ [t])) t size 0 w1 d w2 ->
    w_fs w1 (Sl ++ [t]) = Some (File d) /\ n = Z.of_nat (length d).
  Proof.
    intros TN P T E R. destruct (opened cfg _ _ _ _ _ E) as (fp & b & U & F & N & SH).
    pose proof (add_upload_tree cfg p t w T) as T1. rewrite E in T1.
    pose proof (reading_events cfg TN t size b w1 d w2 P T1 SH R) as ->. split; auto. now apply shot_plain.
  Qed.
  Lemma chunks_complete p t w w1 n size : add_upload cfg p t w = (w1, inl n) -> faultless w1 -> 0 < size -> (Z.of_nat size < 2 ^ 63)%Z -> (n < 2 ^ 63)%Z ->
    exists d w2, reading cfg (fun _ _ => False) t size 0 w1 d w2.
  Proof.
    intros E FL S1 S2 N. destruct (opened cfg _ _ _ _ _ E) as (fp & b & U & F & -> & SH). exists b, w1.
    change b with (skipn 0 b) at 1. apply (reading_complete cfg _ t size b w1 SH FL S1 N S2 (S (length b))); lia.
  Qed.

  Lemma assemble i p0 o0 d0 dp t content cs p pt o d f w0 w1 w2 w3 :
    utf8_decode i = Some t -> utf8_decode p = Some pt -> utf8_encode (join ddir t) = Some dp ->
    place cfg (join ddir t) <> Sl -> place cfg (join ddir t) <> Dl -> tree (w_fs w0) -> f <> 0%Z ->
    replied cfg (RWrite i p0 [] (Z.of_nat o0) d0 0) w0 w1 0 ->
    writing cfg (place cfg (join ddir t)) i dp cs w1 w2 ->
    replied cfg (RWrite i p dp (Z.of_nat o) d f) w2 w3 0 ->
    Forall (chunk_of content) ((o0, d0) :: cs ++ [(o, d)]) -> covers content ((o0, d0) :: cs ++ [(o, d)]) ->
    exists q, chosen cfg (w_fs w2) pt q /\ w_fs w2 (place cfg q) = None /\ w_fs w3 (place cfg q) = Some (File content) /\
      w_fs w3 (place cfg (join ddir t)) = None /\
      forall l, l <> place cfg (join ddir t) -> l <> place cfg q -> w_fs w3 l = w_fs w2 l.
  Proof.
    intros I DP E N1 N2 T FZ R0 WR R FA CV. inversion FA as [|x y F0 FA']; subst. apply Forall_app in FA'. destruct FA' as [F1 F2]. inversion F2 as [|x y F3 _]; subst.
    pose proof (first_part cfg i t content I p0 o0 d0 w0 w1 T R0 F0) as P1.
    pose proof (more_parts cfg i dp t content E (fun X => N1 (eq_sym X)) (fun X => N2 (eq_sym X)) cs w1 w2 _ WR F1 P1) as P2.
    destruct (last_part cfg i dp t content E (fun X => N1 (eq_sym X)) (fun X => N2 (eq_sym X)) p pt o d f w2 w3 (rev cs ++ [(o0, d0)]) R FZ DP F3) as (q & A1 & A2 & A3 & A4 & A5); [|exact P2|].
    - intros k K. destruct (CV k K) as (o' & d' & H & H'). exists o', d'. split; auto. destruct H as [H|H].
      + right. apply in_or_app. right. now left.
      + apply in_app_or in H. destruct H as [H|[H|[]]]; [right; apply in_or_app; left; now apply in_rev in H|now left].
    - exists q. auto.
  Qed.
  Lemma single i p pt t content f w w' : utf8_decode i = Some t -> utf8_decode p = Some pt -> tree (w_fs w) -> f <> 0%Z ->
    replied cfg (RWrite i p [] 0 content f) w w' 0 ->
    exists g q, (forall l, l <> place cfg (join ddir t) -> l <> Dl -> g l = w_fs w l) /\ chosen cfg g pt q /\ g (place cfg q) = None /\
      w_fs w' (place cfg q) = Some (File content) /\ w_fs w' (place cfg (join ddir t)) = None /\
      forall l, l <> place cfg (join ddir t) -> l <> place cfg q -> w_fs w' l = g l.
  Proof.
    intros I DP T FZ R. destruct (single_packet cfg i p pt t 0 content f w w' I DP T FZ R) as (g & q & A1 & A2 & A3 & A4 & A5 & A6).
    exists g, q. repeat (split; [assumption|]). split; auto. rewrite A4. do 2 f_equal. unfold write_bytes. destruct content; [reflexivity|].
    cbn. rewrite ?app_nil_r. now rewrite ?skipn_nil, ?app_nil_r.
  Qed.
  Lemma assemble_succeeds i p0 o0 d0 dp t content cs p pt o d f w0 ld :
    messages_ok cfg -> encodable (temp cfg) -> normal (temp cfg) -> plain t -> short i -> short dp ->
    utf8_decode i = Some t -> utf8_decode p = Some pt -> utf8_encode (join ddir t) = Some dp ->
    faultless w0 -> tree (w_fs w0) -> w_fs w0 (place cfg (temp cfg)) = Some Dir ->
    w_fs w0 Dl = None \/ w_fs w0 Dl = Some Dir -> w_fs w0 (Dl ++ [t]) <> Some Dir ->
    resolve' (w_fs w0) (dest cfg pt) = Ok ld -> w_fs w0 ld = None -> ld <> Dl -> ld <> Dl ++ [t] -> f <> 0%Z ->
    Forall (chunk_of content) ((o0, d0) :: cs ++ [(o, d)]) -> covers content ((o0, d0) :: cs ++ [(o, d)]) -> (Z.of_nat (length content) < 2 ^ 63)%Z ->
    exists w1 w2 w3, replied cfg (RWrite i p0 [] (Z.of_nat o0) d0 0) w0 w1 0 /\
      writing cfg (place cfg (join ddir t)) i dp cs w1 w2 /\ replied cfg (RWrite i p dp (Z.of_nat o) d f) w2 w3 0 /\
      w_fs w3 ld = Some (File content).
  Proof.
    intros MS TE TN P SI SD I DP E FL T TD DD LN R N ND NL FZ FA CV LEN.
    assert (BD : Forall (fun c : nat * bytes => (Z.of_nat (fst c) < 2 ^ 63)%Z) ((o0, d0) :: cs ++ [(o, d)])).
    { eapply Forall_impl; [|exact FA]. intros c [C _]. lia. }
    inversion BD as [|x y B0 B']; subst. apply Forall_app in B'. destruct B' as [B1 B2]. inversion B2 as [|x y B3 _]; subst. cbn [fst] in *.
    destruct (first_live cfg i dp t pt ld MS TN TE P I E SI SD ND NL p0 o0 d0 w0 B0 FL T TD DD LN (conj R N)) as (w1 & R1 & L1).
    destruct (writing_live cfg i dp t pt ld MS TN TE P I E SI SD NL cs B1 w1 L1) as (w2 & WR & L2).
    destruct (final_live cfg i dp t pt ld MS TN TE P I E SI SD NL p o d f w2 DP B3 FZ L2) as (w3 & R3).
    exists w1, w2, w3. repeat (split; [assumption|]).
    destruct (assemble i p0 o0 d0 dp t content cs p pt o d f w0 w1 w2 w3) as (q & [C1 C2] & Q1 & Q2 & _); auto.
    - rewrite down_place by assumption. intros X. apply (f_equal (@length text)) in X. rewrite app_length, D_eq, S_eq, !app_length in X by assumption. cbn in X. lia.
    - rewrite down_place by assumption. intros X. apply (f_equal (@length text)) in X. rewrite app_length in X. cbn in X. lia.
    - destruct L2 as (_ & _ & _ & _ & R2 & N2).
      assert (NE : path_exists (w_fs w2) (cwd cfg) (dest cfg pt) = false) by (unfold path_exists, lookup; now rewrite R2, N2).
      assert (q = dest cfg pt) as ->.
      { destruct C2 as [C2|(d1 & n1 & b1 & x1 & k1 & _ & _ & X & _)]; auto. cbv zeta in X. congruence. }
      rewrite (resolve_place cfg _ _ _ R2). exact Q2.
  Qed.

  (** C48 *)
  Lemma stores s p pt w w' : utf8_decode p = Some pt -> copy_download cfg s p w = (w', inl tt) ->
    exists q, chosen cfg (w_fs w) pt q /\ w_fs w (place cfg q) = None /\
      forall b, tree (w_fs w) -> w_fs w (place cfg s) = Some (File b) ->
        w_fs w' (place cfg q) = Some (File b) /\ w_fs w' (place cfg s) = None /\ forall l, l <> place cfg s -> l <> place cfg q -> w_fs w' l = w_fs w l.
  Proof.
    intros D E. destruct (copy_download_cases cfg s p pt w D) as [(q & CH & _ & EQ)|[_ EQ]]; rewrite E in EQ; [|discriminate].
    symmetry in EQ. exists q. split; auto. split; [now apply (store_ok cfg s q w w' (proj1 CH))|].
    intros b T F. destruct (stored cfg s q w w' b T (proj1 CH) F EQ) as (A1 & A2 & A3 & _). auto.
  Qed.
  Lemma too_many s p pt w : utf8_decode p = Some pt -> all_taken cfg (w_fs w) pt -> copy_download cfg s p w = (w, inr RTooMany).
  Proof.
    intros D (d & n & b & x & S1 & E1 & T1 & T2). destruct (copy_download_cases cfg s p pt w D) as [(q & [C1 C2] & _ & EQ)|[_ EQ]]; auto.
    exfalso. cbv zeta in T1, T2. destruct C2 as [->|(d' & n' & b' & x' & k & S2 & E2 & _ & K & -> & _)]; [congruence|].
    destruct (splits_unique _ _ _ _ _ S1 S2) as [<- <-]. destruct (extension_unique _ _ _ _ _ E1 E2) as [<- <-]. rewrite (T2 k K) in C1. discriminate.
  Qed.

  (** C51 *)
  Lemma source_ok p fp w : source cfg p fp -> upload_file cfg p w = (w, inl fp).
  Proof.
    intros [[-> ->]|(H & -> & NB)]; [reflexivity|]. unfold upload_file.
    destruct (starts_with [0%N] p) eqn:E; [apply starts_with_spec in E; destruct E as [r ->]; now elim H|].
    change (join (root cfg) (lstrip_slash p)) with (dest cfg p).
    assert (V : validate_path (dest cfg p) = true).
    { unfold validate_path. apply negb_true_iff. destruct (existsb _ _) eqn:X; auto. apply existsb_exists in X. destruct X as (c & I & C).
      destruct (text_eqb_spec [dot; dot] c) as [<-|]; [now elim NB|discriminate]. }
    assert (SW : starts_with (root cfg) (dest cfg p) = true).
    { apply starts_with_spec. unfold dest, join. destruct (starts_with [slash] (lstrip_slash p)) eqn:A.
      - apply starts_with_spec in A. destruct A as [r A]. elim (lstrip_rel p). now exists r.
      - destruct (root cfg) as [|c r]; [now eexists|]. destruct (ends_slash _); eexists; [reflexivity|]. reflexivity. }
    rewrite V, SW. reflexivity.
  Qed.
  Lemma space_margin p u fp w blocks frsize bfree b l : source cfg p fp -> statvfs cfg = Some (blocks, frsize, bfree) ->
    hd None (w_faults w) = None -> resolve' (w_fs w) fp = Ok l -> w_fs w l = Some (File b) ->
    (result (add_upload cfg p u) w = inr RLowDisk <-> (bfree * frsize - Z.of_nat (length b) < 50000000)%Z) /\
    (result (add_upload cfg p u) w = inr RLowDisk -> w_fs (after (add_upload cfg p u) w) = w_fs w).
  Proof. intros H. apply low_disk. now apply source_ok. Qed.
  Lemma space_unknown p u fp w : source cfg p fp -> statvfs cfg = None -> result (add_upload cfg p u) w <> inr RLowDisk.
  Proof. intros H. apply (no_usage cfg p u fp w). now apply source_ok. Qed.

  (** C44 *)
  Lemma frozen p t w w1 n es : normal (temp cfg) -> absolute (root cfg) -> plain t -> tree (w_fs w) -> add_upload cfg p t w = (w1, inl n) ->
    spared cfg (Sl ++ [t]) es w1 ->
    exists src b, may_serve cfg p src /\ w_fs w src = Some (File b) /\ n = Z.of_nat (length b) /\
      let w2 := events cfg es w1 in
      (forall o s w3 d, read_upload cfg t (Z.of_nat o) (Z.of_nat s) w2 = (w3, inl d) -> d = slice b o s) /\
      (forall o s, faultless w2 -> (Z.of_nat o < 2 ^ 63)%Z -> (Z.of_nat s < 2 ^ 63)%Z -> read_upload cfg t (Z.of_nat o) (Z.of_nat s) w2 = (w2, inl (slice b o s))).
  Proof.
    intros TN A P T E SP. destruct (isolation cfg TN p t w w1 n es P T E SP) as (fp & b & U & F & N & R1 & R2).
    exists (place cfg fp), b. split; [eapply serve; eauto|]. split; [exact F|]. split; [exact N|]. cbv zeta in *. split; [|exact R2].
    intros o s w3 d R. apply R1 in R. eapply slice_inv; eauto.
  Qed.
  Lemma polite_spares t w e : normal (temp cfg) -> plain t -> polite cfg t w e -> spares cfg (Sl ++ [t]) w e.
  Proof.
    intros TN P. destruct e as [[u p|u o s|u|i p d o x f]|f]; cbn [polite spares]; auto.
    - intros (t' & U & P' & N) t'' U'. rewrite U in U'. injection U' as <-. rewrite snap_place by assumption. intros X. apply app_inv_head in X. congruence.
    - intros (t' & U & P' & N) t'' U'. rewrite U in U'. injection U' as <-. rewrite snap_place by assumption. intros X. apply app_inv_head in X. congruence.
    - assert (NW : forall t', plain t' -> ~ within (place cfg (join ddir t')) (Sl ++ [t])).
      { intros t' P' [r X]. rewrite down_place in X by assumption. rewrite S_eq, D_eq in X by assumption. rewrite <- !app_assoc in X. apply app_inv_head in X. discriminate X. }
      intros (t' & P' & I & D). split.
      + intros E t'' I'. rewrite I in I'. injection I' as <-. auto.
      + intros t'' D' NE. destruct D as [D|D]; rewrite D' in D; injection D as ->; [now elim NE|auto].
  Qed.
  Lemma polite_spared t es : normal (temp cfg) -> plain t -> forall w, all_polite cfg t es w -> spared cfg (Sl ++ [t]) es w.
  Proof. intros TN P. induction es as [|e es IH]; intros w; cbn; [auto|]. intros [H1 H2]. split; [now apply polite_spares|auto]. Qed.
  Lemma frozen_polite p t w w1 n es : normal (temp cfg) -> absolute (root cfg) -> plain t -> tree (w_fs w) -> add_upload cfg p t w = (w1, inl n) ->
    all_polite cfg t es w1 ->
    exists src b, may_serve cfg p src /\ w_fs w src = Some (File b) /\ n = Z.of_nat (length b) /\
      let w2 := events cfg es w1 in
      (forall o s w3 d, read_upload cfg t (Z.of_nat o) (Z.of_nat s) w2 = (w3, inl d) -> d = slice b o s) /\
      (forall o s, faultless w2 -> (Z.of_nat o < 2 ^ 63)%Z -> (Z.of_nat s < 2 ^ 63)%Z -> read_upload cfg t (Z.of_nat o) (Z.of_nat s) w2 = (w2, inl (slice b o s))).
  Proof. intros. eapply frozen; eauto using polite_spared. Qed.

  (** C52 *)
  Lemma close_removes u t b w : normal (temp cfg) -> utf8_decode u = Some t -> plain t -> tree (w_fs w) -> w_fs w (Sl ++ [t]) = Some (File b) -> faultless w ->
    w_fs (after (handle cfg (RClose u)) w) (Sl ++ [t]) = None.
  Proof.
    intros TN U P T F FL. rewrite close_fs, U. rewrite (close_shot cfg t b w (plain_shot cfg TN t b w P T F) FL). cbn. rewrite snap_place by assumption. apply set_same.
  Qed.
  Lemma close_changes u t w l : utf8_decode u = Some t -> let w' := after (handle cfg (RClose u)) w in
    w_fs w' l = w_fs w l \/ (l = Sl /\ w_fs w l = None /\ w_fs w' l = Some Dir) \/
    (l = place cfg (join sdir t) /\ (exists b, w_fs w l = Some (File b)) /\ w_fs w' l = None).
  Proof. intros U. cbv zeta. rewrite close_fs, U. apply close_any. Qed.
  Lemma close_again u w : faultless w -> let w' := after (handle cfg (RClose u)) w in w_fs (after (handle cfg (RClose u)) w') = w_fs w'.
  Proof.
    intros FL. cbv zeta. rewrite !close_fs. destruct (utf8_decode u) as [t|] eqn:U; [|reflexivity].
    assert (E : after (handle cfg (RClose u)) w = fst (close_upload cfg t w)).
    { unfold after. cbn [handle]. unfold on_close, catch, bindM, decode8. rewrite U. cbn [ret]. destruct (close_upload cfg t w) as [w1 [[]|e]]; reflexivity. }
    rewrite E. now apply close_twice.
  Qed.
End Cfg.

(** ** A file system given by a list, for examples *)
Definition fs_of (t : list (loc * node)) : fs := fun l =>
  match l with
  | [] => Some Dir
  | _ => match find (fun x => loc_eqb (fst x) l) t with Some x => Some (snd x) | None => None end
  end.
Definition treeb (t : list (loc * node)) : bool :=
  forallb (fun x => match fs_of t (removelast (fst x)) with Some Dir => true | _ => false end) t.
Lemma fs_of_tree t : treeb t = true -> tree (fs_of t).
Proof.
  intros H. split; [reflexivity|]. intros l n N. unfold treeb in H. rewrite forallb_forall in H.
  unfold fs_of in N at 1. destruct (l ++ [n]) as [|a r] eqn:E; [now destruct l|]. rewrite <- E in N.
  destruct (find _ t) as [x|] eqn:F; [|now elim N]. apply find_some in F. destruct F as [I F].
  destruct x as [lx nx]. cbn [fst] in F. destruct (loc_eqb_spec lx (l ++ [n])) as [->|]; [|discriminate].
  specialize (H _ I). cbn [fst] in H. rewrite removelast_last in H. destruct (fs_of t l) as [[]|]; congruence.
Qed.
