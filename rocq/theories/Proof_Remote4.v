From Verif Require Import Py Py_lemmas Model_Bencode Model_Packets Model_Path Model_Remote Spec_Remote Proof_Path Proof_Remote Proof_Remote2 Proof_Remote3.
From Verif Require Spec_Bencode Proof_Bencode.

(** ** Text that can be encoded *)
Ltac dm := zify; Z.to_euclidean_division_equations; lia.
Lemma e1 a : (a < 128)%N -> utf8_enc1 a = Some [a].
Proof. intros H. unfold utf8_enc1. destruct (N.ltb_spec a 128); [reflexivity|lia]. Qed.
Lemma e2 a b : (194 <= a <= 223)%N -> (128 <= b <= 191)%N -> utf8_enc1 ((a - 192) * 64 + (b - 128)) = Some [a; b].
Proof.
  intros Ha Hb. set (c := ((a - 192) * 64 + (b - 128))%N). assert (E : c = ((a - 192) * 64 + (b - 128))%N) by reflexivity. clearbody c.
  unfold utf8_enc1. destruct (N.ltb_spec c 128); [lia|]. destruct (N.ltb_spec c 2048); [|lia]. do 2 f_equal; [|f_equal]; dm.
Qed.
Lemma e3 a b d c : (224 <= a <= 239)%N -> (128 <= b <= 191)%N -> (128 <= d <= 191)%N -> c = ((a - 224) * 4096 + (b - 128) * 64 + (d - 128))%N ->
  (2048 <= c)%N -> ~ (55296 <= c <= 57343)%N -> utf8_enc1 c = Some [a; b; d].
Proof.
  intros Ha Hb Hd E H1 H2. unfold utf8_enc1. destruct (N.ltb_spec c 128); [lia|]. destruct (N.ltb_spec c 2048); [lia|].
  destruct (N.ltb_spec c 65536); [|lia]. destruct (N.leb_spec 55296 c), (N.leb_spec c 57343); cbn [andb]; try lia;
  (do 2 f_equal; [dm|f_equal; [dm|f_equal; dm]]).
Qed.
Lemma e4 a b d e c : (240 <= a <= 244)%N -> (128 <= b <= 191)%N -> (128 <= d <= 191)%N -> (128 <= e <= 191)%N ->
  c = ((a - 240) * 262144 + (b - 128) * 4096 + (d - 128) * 64 + (e - 128))%N -> (65536 <= c)%N -> (c < 1114112)%N -> utf8_enc1 c = Some [a; b; d; e].
Proof.
  intros Ha Hb Hd He E H1 H2. unfold utf8_enc1. destruct (N.ltb_spec c 128); [lia|]. destruct (N.ltb_spec c 2048); [lia|].
  destruct (N.ltb_spec c 65536); [lia|]. destruct (N.ltb_spec c 1114112); [|lia].
  (do 2 f_equal; [dm|f_equal; [dm|f_equal; [dm|f_equal; dm]]]).
Qed.
Lemma dec_enc n : forall s t, length s <= n -> utf8_dec s = Some t -> utf8_enc t = Some s.
Proof.
  induction n as [|n IH]; intros s t L H.
  { destruct s; [|cbn in L; lia]. now injection H as <-. }
  destruct s as [|a s1]; [now injection H as <-|]. cbn [utf8_dec] in H.
  assert (G : forall s c l r, length s <= n -> option_map (cons c) (utf8_dec s) = Some r -> utf8_enc1 c = Some l -> utf8_enc r = Some (l ++ s)).
  { intros s c l r Ls E V. destruct (utf8_dec s) as [t'|] eqn:D; [|discriminate]. injection E as <-. cbn. now rewrite V, (IH s t'). }
  destruct (N.ltb_spec a 128).
  { apply (G s1 a [a]); auto using e1. cbn in L. lia. }
  unfold is_cont in H. destruct (N.leb_spec 194 a), (N.leb_spec a 223); cbn [andb] in H.
  { destruct s1 as [|b s2]; [discriminate|]. destruct (N.leb_spec 128 b), (N.leb_spec b 191); cbn [andb] in H; try discriminate.
    eapply (G s2 _ [a; b]); [cbn in L; lia|exact H|]. apply e2; lia. }
  all: destruct (N.leb_spec 224 a), (N.leb_spec a 239); cbn [andb] in H; try lia; try discriminate.
  all: try (destruct (N.leb_spec 240 a), (N.leb_spec a 244); cbn [andb] in H; try lia; try discriminate).
  all: try (destruct s1 as [|b [|c s2]]; try discriminate;
    destruct (N.leb_spec 128 b), (N.leb_spec b 191); cbn [andb] in H; try discriminate;
    destruct (N.leb_spec 128 c), (N.leb_spec c 191); cbn [andb] in H; try discriminate;
    match type of H with context [(2048 <=? ?cp)%N] => set (cp' := cp) in *; assert (cp' = cp) by reflexivity; clearbody cp' end;
    destruct (N.leb_spec 2048 cp'); cbn [andb] in H; try discriminate;
    destruct (N.leb_spec 55296 cp'), (N.leb_spec cp' 57343); cbn [andb negb] in H; try discriminate;
    (eapply (G s2 _ [a; b; c]); [cbn in L; lia|exact H|]; apply e3; lia)).
  all: destruct s1 as [|b [|c [|d s2]]]; try discriminate;
    destruct (N.leb_spec 128 b), (N.leb_spec b 191); cbn [andb] in H; try discriminate;
    destruct (N.leb_spec 128 c), (N.leb_spec c 191); cbn [andb] in H; try discriminate;
    destruct (N.leb_spec 128 d), (N.leb_spec d 191); cbn [andb] in H; try discriminate;
    match type of H with context [(65536 <=? ?cp)%N] => set (cp' := cp) in *; assert (cp' = cp) by reflexivity; clearbody cp' end;
    destruct (N.leb_spec 65536 cp'); cbn [andb] in H; try discriminate;
    destruct (N.ltb_spec cp' 1114112); cbn [andb] in H; try discriminate;
    (eapply (G s2 _ [a; b; c; d]); [cbn in L; lia|exact H|]; apply e4; lia).
Qed.
Lemma utf8_encode_decode b t : utf8_decode b = Some t -> utf8_encode t = Some b.
Proof.
  unfold utf8_decode, utf8_encode. intros H. rewrite (dec_enc _ _ _ (le_n _) H). cbn. now rewrite n2b_b2n.
Qed.
Lemma encodable_enc t : encodable t <-> utf8_enc t <> None.
Proof. unfold encodable, utf8_encode. destruct (utf8_enc t); cbn; split; congruence. Qed.
Lemma decoded_encodable b t : utf8_decode b = Some t -> encodable t.
Proof. intros H. unfold encodable. rewrite (utf8_encode_decode _ _ H). discriminate. Qed.
Lemma enc_app a b : utf8_enc a <> None -> utf8_enc b <> None -> utf8_enc (a ++ b) <> None.
Proof.
  intros Ha Hb. induction a as [|c a IH]; [exact Hb|]. cbn in Ha |- *. destruct (utf8_enc1 c); [|congruence].
  destruct (utf8_enc a); [|congruence]. destruct (utf8_enc (a ++ b)); [discriminate|]. apply IH. discriminate.
Qed.
Lemma join_encodable a b : encodable a -> encodable b -> encodable (join a b).
Proof.
  rewrite !encodable_enc. intros Ha Hb. unfold join. destruct (starts_with _ b); auto. destruct a as [|c a]; auto.
  destruct (ends_slash _); [now apply enc_app|]. apply enc_app; auto. apply enc_app; auto. discriminate.
Qed.
Lemma encodable_some t : encodable t -> exists b, utf8_encode t = Some b.
Proof. unfold encodable. destruct (utf8_encode t); [eauto|congruence]. Qed.

(** ** Sending replies *)
Definition open_class := PClass "OpenRemoteFileResult" 25%Z [("upload_id"%string, ABytes); ("size"%string, AInt); ("fail"%string, AInt); ("fail_reason"%string, ABytes)].
Definition read_class := PClass "ReadRemoteFileResult" 28%Z [("upload_id"%string, ABytes); ("offset"%string, AInt); ("size"%string, AInt); ("data"%string, ABytes); ("fail"%string, AInt); ("fail_reason"%string, ABytes)].
Definition write_class := PClass "WriteRemoteFileResult" 32%Z [("id"%string, ABytes); ("position"%string, AInt); ("chunk_size"%string, AInt); ("device_path"%string, ABytes); ("fail"%string, AInt); ("fail_reason"%string, ABytes)].
Definition open_reply (u : bytes) (z k : Z) (r : bytes) : packet :=
  Packet open_class [("upload_id"%string, VBytes u); ("size"%string, VInt z); ("fail"%string, VInt k); ("fail_reason"%string, VBytes r)].
Definition read_reply (u : bytes) (o s : Z) (d : bytes) (k : Z) (r : bytes) : packet :=
  Packet read_class [("upload_id"%string, VBytes u); ("offset"%string, VInt o); ("size"%string, VInt s); ("data"%string, VBytes d); ("fail"%string, VInt k); ("fail_reason"%string, VBytes r)].
Definition write_reply (i : bytes) (pos n : Z) (dp : bytes) (k : Z) (r : bytes) : packet :=
  Packet write_class [("id"%string, VBytes i); ("position"%string, VInt pos); ("chunk_size"%string, VInt n); ("device_path"%string, VBytes dp); ("fail"%string, VInt k); ("fail_reason"%string, VBytes r)].
Definition sent (w : world) (p : packet) : world := W (w_fs w) (w_faults w) (p :: w_sent w).
Lemma list_bytes l : Forall (fun v => exists b, v = VBytes b /\ short b \/ exists z, v = VInt z) l -> exists b, encode (VList l) = Ok b.
Proof.
  intros H. apply Proof_Bencode.encode_encodable.
  - constructor. eapply Forall_impl; [|exact H]. intros v (b & [[-> S]|[z ->]]); now constructor.
  - eapply Spec_Bencode.en_seq; [apply Spec_Bencode.items_list|]. eapply Forall_impl; [|exact H]. intros v (b & [[-> S]|[z ->]]).
    + eapply Spec_Bencode.en_octets. constructor.
    + apply Spec_Bencode.en_int.
Qed.
Ltac fields := repeat constructor; first [eexists; left; split; [reflexivity|assumption]|exists []; right; eexists; reflexivity].
Lemma bytes_open u z k r : short u -> short r -> exists b, as_bytes (open_reply u z k r) = Ok b.
Proof. intros. apply (list_bytes [VInt 25; VBytes u; VInt z; VInt k; VBytes r]). fields. Qed.
Lemma bytes_read u o s d k r : short u -> short d -> short r -> exists b, as_bytes (read_reply u o s d k r) = Ok b.
Proof. intros. apply (list_bytes [VInt 28; VBytes u; VInt o; VInt s; VBytes d; VInt k; VBytes r]). fields. Qed.
Lemma bytes_write i pos n dp k r : short i -> short dp -> short r -> exists b, as_bytes (write_reply i pos n dp k r) = Ok b.
Proof. intros. apply (list_bytes [VInt 32; VBytes i; VInt pos; VInt n; VBytes dp; VInt k; VBytes r]). fields. Qed.
Lemma create_open a kw : create_named "open_remote_file_result" a kw = construct open_class a kw.
Proof. reflexivity. Qed.
Lemma create_read a kw : create_named "read_remote_file_result" a kw = construct read_class a kw.
Proof. reflexivity. Qed.
Lemma create_write a kw : create_named "write_remote_file_result" a kw = construct write_class a kw.
Proof. reflexivity. Qed.
Lemma short_nil : short [].
Proof. unfold short. cbn. lia. Qed.
Lemma send_ok name a kw p w : create_named name a kw = Ok p -> (exists b, as_bytes p = Ok b) -> send name a kw w = (sent w p, inl tt).
Proof. intros H [b B]. unfold send, bindM, pure_res. now rewrite H, B. Qed.
Lemma send_open_kw u z k t r w : short u -> short r -> utf8_encode t = Some r ->
  send "open_remote_file_result" [] [("upload_id"%string, VBytes u); ("size"%string, VInt z); ("fail"%string, VInt k); ("fail_reason"%string, VText t)] w
  = (sent w (open_reply u z k r), inl tt).
Proof.
  intros S1 S2 H. apply send_ok; [|now apply bytes_open]. rewrite create_open. unfold construct. cbn - [utf8_encode]. rewrite H. reflexivity.
Qed.
Lemma send_open_args u z w : short u ->
  send "open_remote_file_result" [VBytes u; VInt z; VInt 0; VText []] [] w = (sent w (open_reply u z 0 []), inl tt).
Proof. intros S. apply send_ok; [reflexivity|apply bytes_open; auto using short_nil]. Qed.
Lemma send_read u o s v d k t r w : short u -> short d -> short r -> coerce v = Ok (VBytes d) -> utf8_encode t = Some r ->
  send "read_remote_file_result" [] [("upload_id"%string, VBytes u); ("offset"%string, VInt o); ("size"%string, VInt s); ("data"%string, v);
    ("fail"%string, VInt k); ("fail_reason"%string, VText t)] w = (sent w (read_reply u o s d k r), inl tt).
Proof.
  intros S1 S2 S3 H1 H2. apply send_ok; [|now apply bytes_read]. rewrite create_read. unfold construct. cbn - [utf8_encode coerce]. rewrite H1.
  cbn - [utf8_encode]. rewrite H2. reflexivity.
Qed.
Lemma send_write i pos n dp k r w : short i -> short dp -> short r ->
  send "write_remote_file_result" [VBytes i; VInt pos; VInt n; VBytes dp; VInt k; VBytes r] [] w
  = (sent w (write_reply i pos n dp k r), inl tt).
Proof. intros. apply send_ok; [reflexivity|now apply bytes_write]. Qed.

Section Cfg.
  Variable cfg : config.
  Notation sdir := (snapshot_dir cfg).
  Notation ddir := (download_dir cfg).
  Notation Sl := (place cfg (snapshot_dir cfg)).
  Notation Dl := (place cfg (download_dir cfg)).
  Variable msgs : messages_ok cfg.

  Lemma reason_ok e t b : utf8_encode t = Some b -> short b ->
    exists r, utf8_encode (if is_remote e then err_text cfg e else t) = Some r /\ short r.
  Proof. intros H S. destruct (is_remote e) eqn:E; [now apply msgs|eauto]. Qed.

  Lemma on_open_cases u p w : short u -> let m := let! p := decode8 p in let! u := decode8 u in add_upload cfg p u in
    match m w with
    | (w1, inl z) => on_open cfg u p w = (sent w1 (open_reply u z 0 []), inl tt) /\ w_sent w1 = w_sent w
    | (w1, inr e) => exists r, on_open cfg u p w = (sent w1 (open_reply u (-1) 1 r), inl tt) /\ w_sent w1 = w_sent w /\ short r
    end.
  Proof.
    intros SU. cbv zeta. assert (S : steps Silent (let! p := decode8 p in let! u := decode8 u in add_upload cfg p u)).
    { pose proof pre_silent as HP. apply st_bind; auto using st_decode. intros pt. apply st_bind; auto using st_decode. intros ut.
      apply st_add_upload; auto using ed_silent. }
    specialize (S w). unfold on_open, attempt. set (m := let! p := decode8 p in let! u := decode8 u in add_upload cfg p u) in *.
    clearbody m. unfold bindM. destruct (m w) as [w1 [z|e]] eqn:E; cbn [fst] in S.
    - split; auto. now rewrite send_open_args.
    - destruct (reason_ok e (T "open failed, see dataplicity.log") (B "open failed, see dataplicity.log") eq_refl ltac:(vm_compute; reflexivity)) as (r & R & SR).
      exists r. split; auto. now apply send_open_kw.
  Qed.
  Lemma on_read_cases u o s w : short u -> (s = (-1)%Z -> forall l b, w_fs w l = Some (File b) -> short b) ->
    let m := let! u := decode8 u in read_upload cfg u o s in
    match m w with
    | (w1, inl d) => on_read cfg u o s w = (sent w1 (read_reply u o s d 0 []), inl tt) /\ w_sent w1 = w_sent w /\ short d
    | (w1, inr e) => exists r, on_read cfg u o s w = (sent w1 (read_reply u o s [] 1 r), inl tt) /\ w_sent w1 = w_sent w /\ short r
    end.
  Proof.
    intros SU FS. cbv zeta. assert (S : steps Silent (let! u := decode8 u in read_upload cfg u o s)).
    { pose proof pre_silent as HP. apply st_bind; auto using st_decode. intros pt. apply st_read_upload; auto using ed_silent. }
    specialize (S w). unfold on_read, attempt.
    assert (SD : forall w1 d, (let! u := decode8 u in read_upload cfg u o s) w = (w1, inl d) -> short d).
    { intros w1 d E. unfold bindM, decode8 in E. destruct (utf8_decode u) as [t|]; [|discriminate]. cbn [ret] in E.
      destruct (read_ok _ _ _ _ _ _ _ E) as (b & N & R & _). revert R. unfold read_slice.
      destruct (_ <? _)%Z; [discriminate|]. destruct (_ || _) eqn:O; [discriminate|]. apply orb_false_iff in O as [_ O].
      apply Z.leb_gt in O. unfold max_off in O. unfold short, Spec_Bencode.short in *.
      destruct (Z.eqb_spec s (-1)) as [S1|_]; [specialize (FS S1 _ _ N); intros [= <-]; rewrite skipn_length; lia|].
      destruct (Z.ltb_spec s 0); [discriminate|]. intros [= <-]. rewrite firstn_length. lia. }
    set (m := let! u := decode8 u in read_upload cfg u o s) in *.
    clearbody m. unfold bindM. destruct (m w) as [w1 [d|e]] eqn:E; cbn [fst] in S.
    - specialize (SD _ _ eq_refl). split; auto. apply send_read; auto using short_nil.
    - destruct (reason_ok e (T "read failed, see dataplicity.log") (B "read failed, see dataplicity.log") eq_refl ltac:(vm_compute; reflexivity)) as (r & R & SR).
      exists r. split; auto. apply send_read; auto using short_nil.
  Qed.

  (** The three stages of a write *)
  Definition stage1 (i d : bytes) (dt : text) : M text :=
    match dt with [] => let! t := decode8 i in add_download cfg t | _ => ret dt end.
  Definition stage2 (s : text) (o : Z) (x : bytes) : M unit := match x with [] => ret tt | _ => write_file cfg s o x end.
  Definition stage3 (s : text) (p : bytes) (f : Z) : M unit := if (f =? 0)%Z then ret tt else copy_download cfg s p.
  Lemma silent_stage1 i d dt : steps Silent (stage1 i d dt).
  Proof.
    pose proof pre_silent as HP. unfold stage1. destruct dt; [|now apply st_ret]. apply st_bind; auto using st_decode. intros t. apply st_add_download; auto using ed_silent.
  Qed.
  Lemma silent_stage2 s o x : steps Silent (stage2 s o x).
  Proof. pose proof pre_silent as HP. unfold stage2. destruct x; [now apply st_ret|apply st_write; auto; apply ed_silent]. Qed.
  Lemma silent_stage3 s p f : steps Silent (stage3 s p f).
  Proof.
    pose proof pre_silent as HP. unfold stage3. destruct (f =? 0)%Z; [now apply st_ret|]. apply st_copy_download; auto using ed_silent.
    - intros; apply nm_silent.
    - intros; apply cr_silent.
  Qed.
  Lemma stage1_path i d dt w w1 s : utf8_decode d = Some dt -> stage1 i d dt w = (w1, inl s) ->
    (dt = [] /\ exists t, utf8_decode i = Some t /\ s = join ddir t) \/ (dt <> [] /\ s = dt /\ w1 = w).
  Proof.
    unfold stage1. intros D. destruct dt as [|c dt].
    - unfold bindM, decode8. destruct (utf8_decode i) as [t|] eqn:I; [|discriminate]. cbn [ret]. intros E. left. split; auto. exists t. split; auto.
      now apply download_value in E.
    - intros [= <- <-]. right. split; [discriminate|auto].
  Qed.
  Lemma device_encodes i d dt w w1 s : encodable (temp cfg) -> short d -> utf8_decode d = Some dt ->
    (forall t b, utf8_decode i = Some t -> utf8_encode (join ddir t) = Some b -> short b) ->
    stage1 i d dt w = (w1, inl s) -> exists dp, utf8_encode s = Some dp /\ short dp.
  Proof.
    intros ET SD D SI E. destruct (stage1_path _ _ _ _ _ _ D E) as [(-> & t & I & ->)|(N & -> & _)].
    - destruct (encodable_some (join ddir t)) as [b B]; [|eauto]. apply join_encodable; [|eapply decoded_encodable; eauto].
      apply join_encodable; auto. discriminate.
    - exists d. split; auto. now apply utf8_encode_decode.
  Qed.
  (** What a write request does and answers *)
  Inductive wrote (i p d : bytes) (o : Z) (x : bytes) (f : Z) (w : world) : world -> packet -> Prop :=
  | wrote_1 dt w1 e r : utf8_decode d = Some dt -> stage1 i d dt w = (w1, inr e) ->
      wrote i p d o x f w w1 (write_reply i o (Z.of_nat (length x)) d 1 r)
  | wrote_2 dt w1 s dp w2 e r w3 : utf8_decode d = Some dt -> stage1 i d dt w = (w1, inl s) -> utf8_encode s = Some dp ->
      stage2 s o x w1 = (w2, inr e) -> w3 = fst (remove cfg s (sent w2 (write_reply i o (Z.of_nat (length x)) dp 2 r))) ->
      wrote i p d o x f w w3 (write_reply i o (Z.of_nat (length x)) dp 2 r)
  | wrote_3 dt w1 s dp w2 w3 e r : utf8_decode d = Some dt -> stage1 i d dt w = (w1, inl s) -> utf8_encode s = Some dp ->
      stage2 s o x w1 = (w2, inl tt) -> stage3 s p f w2 = (w3, inr e) ->
      wrote i p d o x f w w3 (write_reply i o (Z.of_nat (length x)) dp 3 r)
  | wrote_0 dt w1 s dp w2 w3 : utf8_decode d = Some dt -> stage1 i d dt w = (w1, inl s) -> utf8_encode s = Some dp ->
      stage2 s o x w1 = (w2, inl tt) -> stage3 s p f w2 = (w3, inl tt) ->
      wrote i p d o x f w w3 (write_reply i (o + Z.of_nat (length x)) (Z.of_nat (length x)) dp 0 []).
  Lemma on_write_cases i p d o x f w dt : encodable (temp cfg) -> reply_fits cfg (RWrite i p d o x f) w -> utf8_decode d = Some dt ->
    exists w' q w2, on_write cfg i p d o x f w = (w2, inl tt) /\ wrote i p d o x f w w' q /\
      w_fs w2 = w_fs w' /\ w_faults w2 = w_faults w' /\ w_sent w2 = q :: w_sent w /\ exists b, as_bytes q = Ok b.
  Proof.
    intros ET (SI & SD & SJ) D. unfold on_write. unfold bindM at 1, decode8 at 1. rewrite D. cbn [ret].
    unfold bindM at 1, attempt at 1.
    change (match dt with [] => let! t := decode8 i in add_download cfg t | _ :: _ => ret dt end) with (stage1 i d dt).
    pose proof (silent_stage1 i d dt w) as S1. destruct (stage1 i d dt w) as [w1 [s|e]] eqn:E1; cbn [fst] in S1.
    2:{ exists w1, (write_reply i o (Z.of_nat (length x)) d 1 (encode_replace (err_text cfg e))).
        rewrite send_write by (auto; apply msgs). eexists. split; [reflexivity|]. split; [econstructor; eauto|].
        cbn [sent w_fs w_faults w_sent]. unfold Silent in *. repeat split; try congruence. apply bytes_write; auto. apply msgs. }
    destruct (device_encodes _ _ _ _ _ _ ET SD D SJ E1) as (dp & EP & SP).
    unfold bindM at 1, pure_res. rewrite EP. unfold bindM at 1, attempt at 1.
    change (match x with [] => ret tt | _ :: _ => write_file cfg s o x end) with (stage2 s o x).
    pose proof (silent_stage2 s o x w1) as S2. destruct (stage2 s o x w1) as [w2 [[]|e]] eqn:E2; cbn [fst] in S2.
    2:{ unfold bindM at 1. rewrite send_write by (auto; apply msgs).
        set (q := write_reply i o (Z.of_nat (length x)) dp 2 (encode_replace (err_text cfg e))).
        exists (fst (remove cfg s (sent w2 q))), q, (fst (remove cfg s (sent w2 q))).
        pose proof (st_remove cfg Silent pre_silent s (ed_silent _) (sent w2 q)) as SR. split; [|split; [eapply wrote_2; eauto|]].
        - unfold catch. destruct (remove cfg s (sent w2 q)) as [w3 [[]|e3]]; reflexivity.
        - unfold Silent in *. cbn in SR. repeat split; try congruence. apply bytes_write; auto; apply msgs. }
    unfold bindM at 1, attempt.
    change (if (f =? 0)%Z then ret tt else copy_download cfg s p) with (stage3 s p f).
    pose proof (silent_stage3 s p f w2) as S3. destruct (stage3 s p f w2) as [w3 [[]|e]] eqn:E3; cbn [fst] in S3; unfold Silent in *.
    - exists w3, (write_reply i (o + Z.of_nat (length x)) (Z.of_nat (length x)) dp 0 []).
      rewrite send_write by (auto using short_nil). eexists. split; [reflexivity|]. split; [eapply wrote_0; eauto|].
      cbn [sent w_fs w_faults w_sent]. repeat split; try congruence. apply bytes_write; auto using short_nil.
    - exists w3, (write_reply i o (Z.of_nat (length x)) dp 3 (encode_replace (err_text cfg e))).
      rewrite send_write by (auto; apply msgs). eexists. split; [reflexivity|]. split; [eapply wrote_3; eauto|].
      cbn [sent w_fs w_faults w_sent]. repeat split; try congruence. apply bytes_write; auto. apply msgs.
  Qed.

  (** ** One reply *)
  Lemma one_reply q w : encodable (temp cfg) -> reply_fits cfg q w ->
    match q with RClose _ => False | RWrite _ _ d _ _ _ => utf8_decode d <> None | _ => True end ->
    exists w' fail, replied cfg q w w' fail.
  Proof.
    intros ET RF H. destruct q as [u p|u o s|u|i p d o x f]; [| |contradiction|].
    - pose proof (on_open_cases u p w RF) as X. cbv zeta in X. unfold replied. cbn [handle].
      destruct ((let! p := decode8 p in let! u := decode8 u in add_upload cfg p u) w) as [w1 [z|e]].
      + destruct X as [X1 X2]. rewrite X1. do 3 eexists. split; [reflexivity|]. split; [cbn; now rewrite X2|]. repeat split. apply bytes_open; auto using short_nil.
      + destruct X as (r & X1 & X2 & X3). rewrite X1. do 3 eexists. split; [reflexivity|]. split; [cbn; now rewrite X2|]. repeat split. now apply bytes_open.
    - destruct RF as [SU FS]. pose proof (on_read_cases u o s w SU FS) as X. cbv zeta in X. unfold replied. cbn [handle].
      destruct ((let! u := decode8 u in read_upload cfg u o s) w) as [w1 [z|e]].
      + destruct X as (X1 & X2 & X3). rewrite X1. do 3 eexists. split; [reflexivity|]. split; [cbn; now rewrite X2|]. repeat split. apply bytes_read; auto using short_nil.
      + destruct X as (r & X1 & X2 & X3). rewrite X1. do 3 eexists. split; [reflexivity|]. split; [cbn; now rewrite X2|]. repeat split. apply bytes_read; auto using short_nil.
    - destruct (utf8_decode d) as [dt|] eqn:D; [|congruence].
      destruct (on_write_cases i p d o x f w dt ET RF D) as (w' & q & w2 & A1 & WR & A2 & A3 & A4 & A5).
      unfold replied. cbn [handle]. rewrite A1.
      destruct WR; do 3 eexists; (split; [reflexivity|]); (split; [exact A4|]); repeat split; auto.
  Qed.
  Lemma no_reply i p d o x f w : utf8_decode d = None -> handle cfg (RWrite i p d o x f) w = (w, inr (RPy EUnicodeDecode)).
  Proof. intros D. cbn. unfold on_write, bindM, decode8. now rewrite D. Qed.
End Cfg.
