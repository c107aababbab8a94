(** * Proofs about the small tools *)
From Coq Require Import QArith Lqa.
From Verif Require Import Py Py_lemmas Model_Agent Model_Tools Spec_Tools.
Open Scope nat_scope.

(** ** White space *)
Lemma ws_text_white c : ws_text c = true <-> white c.
Proof.
  unfold white, space, spaces, ws_text. cbn [In]. lia.
Qed.
Lemma separator_between c : separator c = true <-> between c.
Proof. unfold separator, between. rewrite orb_true_iff, N.eqb_eq, ws_text_white. reflexivity. Qed.
Lemma separator_not c : separator c = false <-> ~ between c.
Proof. rewrite <- separator_between. destruct (separator c); split; congruence. Qed.

(** ** C71 *)
Lemma split_words s : forall piece, Forall (fun c => ~ between c) piece ->
  exists ws, filter (fun t => match t with [] => false | _ => true end) (split_at separator piece s) =
    ws /\ words (rev piece ++ s) ws.
Proof.
  induction s as [|c s IH]; intros piece F; cbn [split_at].
  - cbn [filter]. rewrite app_nil_r. destruct piece as [|x piece].
    + exists []. split; [reflexivity|constructor].
    + assert (N : rev (x :: piece) <> []) by (cbn; now destruct (rev piece)). exists [rev (x :: piece)]. split.
      * destruct (rev (x :: piece)) eqn:E; [congruence|reflexivity].
      * rewrite <- (app_nil_r (rev (x :: piece))) at 1. constructor; auto; [now apply Forall_rev|constructor].
  - destruct (separator c) eqn:E.
    + apply separator_between in E. destruct (IH [] (Forall_nil _)) as (ws & A & W). cbn [rev app] in W. cbn [filter]. rewrite A.
      destruct piece as [|x piece].
      * exists ws. split; [reflexivity|]. cbn. now constructor.
      * assert (N : rev (x :: piece) <> []) by (cbn; now destruct (rev piece)). exists (rev (x :: piece) :: ws). split.
        -- destruct (rev (x :: piece)) eqn:Er; [congruence|reflexivity].
        -- apply W_word; auto; [now apply Forall_rev|right; eauto|now constructor].
    + apply separator_not in E. destruct (IH (c :: piece)) as (ws & A & W); [now constructor|]. exists ws. split; auto.
      cbn [rev] in W. now rewrite <- app_assoc in W.
Qed.
Lemma words_nonempty s ws : words s ws -> Forall (fun w => w <> [] /\ Forall (fun c => ~ between c) w) ws.
Proof. induction 1; auto. Qed.
Lemma slice25 {A} (s : list A) : slice_to s 25 = firstn 25 s.
Proof. reflexivity. Qed.
Lemma words_nil s ws : words s ws -> s = [] -> ws = [].
Proof. destruct 1 as [|c s ws B W|w s ws N F E W]; intros H; auto; [discriminate|]. apply app_eq_nil in H as [-> _]. congruence. Qed.
Lemma words_det s ws : words s ws -> forall ws', words s ws' -> ws = ws'.
Proof.
  induction 1 as [|c s ws B W IH|w s ws N F E W IH]; intros ws' W'.
  - symmetry. now apply (words_nil [] ws').
  - inversion W' as [|c' s' ws'' B' W''|w s' ws'' N F E W'' Hs]; subst; auto. destruct w as [|x w]; [congruence|]. injection Hs as -> Hs.
    inversion F; contradiction.
  - inversion W' as [Hs|c' s' ws'' B' W'' Hs|w' s' ws'' N' F' E' W'' Hs]; subst.
    + symmetry in Hs. apply app_eq_nil in Hs as [-> _]. congruence.
    + destruct w as [|x w]; [congruence|]. injection Hs as -> Hs. inversion F; contradiction.
    + assert (X : w = w' /\ s = s').
      { clear - F F' E E' Hs. revert w' F' Hs. induction w as [|x w IH]; intros w' F' Hs.
        - destruct w' as [|y w']; [auto|]. cbn in Hs. destruct E as [->|(c & r & -> & B)]; [discriminate|]. injection Hs as -> Hs. inversion F'; contradiction.
        - destruct w' as [|y w'].
          + cbn in Hs. destruct E' as [->|(c & r & -> & B)]; [discriminate|]. injection Hs as -> Hs. inversion F; contradiction.
          + injection Hs as -> Hs. inversion F; inversion F'; subst. destruct (IH ltac:(auto) w' ltac:(auto) ltac:(congruence)) as [-> ->]. auto. }
      destruct X as [-> ->]. f_equal. now apply IH.
Qed.
Theorem tags_are_words output : exists ws, words (utf8_ignore output) ws /\ tags_of output = map (firstn 25) ws.
Proof.
  unfold tags_of. destruct (split_words (utf8_ignore output) [] (Forall_nil _)) as (ws & E & W). exists ws. split; [exact W|]. rewrite E.
  apply map_ext_in. intros w I. rewrite slice25. f_equal. apply strip_id. intros c Ic.
  pose proof (proj1 (Forall_forall _ _) (words_nonempty _ _ W) w I) as [_ F]. rewrite Forall_forall in F. specialize (F c Ic).
  destruct (ws_text c) eqn:X; auto. apply ws_text_white in X. destruct F. now right.
Qed.
Theorem tags_clean output t : In t (tags_of output) -> t <> [] /\ length t <= 25 /\ Forall (fun c => ~ between c) t.
Proof.
  destruct (tags_are_words output) as (ws & W & ->). intros I. apply in_map_iff in I as (w & <- & I).
  pose proof (proj1 (Forall_forall _ _) (words_nonempty _ _ W) w I) as [N F]. split; [|split].
  - destruct w; [congruence|discriminate].
  - apply firstn_le_length.
  - rewrite Forall_forall in *. intros c Ic. apply F. rewrite <- (firstn_skipn 25 w). apply in_or_app. auto.
Qed.
Lemma utf8_ign_dec n : forall s t, length s <= n -> utf8_dec s = Some t -> utf8_ign s = t.
Proof.
  induction n as [|n IH]; intros s t L H.
  - destruct s; [|cbn in L; lia]. cbn in *. congruence.
  - destruct s as [|a s]; [cbn in *; congruence|]. cbn [utf8_dec utf8_ign] in *. cbn [length] in L.
    assert (X : forall x s' t, length s' <= n -> option_map (cons x) (utf8_dec s') = Some t -> x :: utf8_ign s' = t).
    { intros x s' t' L' H'. destruct (utf8_dec s') as [t2|] eqn:E; [|discriminate]. injection H' as <-. f_equal. apply IH; auto. }
    destruct (a <? 128)%N; [apply X; auto; lia|].
    destruct ((194 <=? a) && (a <=? 223))%N.
    { destruct s as [|b s]; [discriminate|]. destruct (is_cont b); [|discriminate]. apply X; auto. cbn in L. lia. }
    destruct ((224 <=? a) && (a <=? 239))%N.
    { destruct s as [|b [|c s]]; try discriminate. cbn zeta in *. destruct (is_cont b && is_cont c && _ && _); [|discriminate]. apply X; auto. cbn in L. lia. }
    destruct ((240 <=? a) && (a <=? 244))%N; [|discriminate].
    destruct s as [|b [|c [|d s]]]; try discriminate. cbn zeta in *. destruct (is_cont b && is_cont c && is_cont d && _ && _); [|discriminate]. apply X; auto. cbn in L. lia.
Qed.
Theorem output_text output t : utf8_decode output = Some t -> utf8_ignore output = t.
Proof. apply (utf8_ign_dec (length (b2n output))). lia. Qed.

(** ** C72 *)
Theorem disk_consistent fl round1 st : possible st -> let u := disk_usage fl round1 st in
  (0 <= used u /\ used u <= total u /\ 0 <= free u /\ used u + free u <= total u)%Z.
Proof. unfold possible. intros (A & B & C & D). cbn. nia. Qed.
Lemma percent_ratio fl : monotone fl -> keeps fl 0 -> keeps fl 1 -> keeps fl 100 -> forall a b, (0 <= a <= b)%Z -> (b <> 0)%Z ->
  (0 <= fl (fl (inject_Z a / inject_Z b) * 100) <= 100)%Q.
Proof.
  unfold keeps. intros M K0 K1 K100 a b H Nb. assert (P : (0 < inject_Z b)%Q) by (change 0%Q with (inject_Z 0); rewrite <- Zlt_Qlt; lia).
  assert (L : (0 <= inject_Z a / inject_Z b)%Q). { apply Qle_shift_div_l; auto. rewrite Qmult_0_l. change 0%Q with (inject_Z 0). rewrite <- Zle_Qle. lia. }
  assert (U : (inject_Z a / inject_Z b <= 1)%Q). { apply Qle_shift_div_r; auto. rewrite Qmult_1_l. rewrite <- Zle_Qle. lia. }
  apply M in L, U. rewrite K0 in L. rewrite K1 in U. set (x := fl (inject_Z a / inject_Z b)%Q) in *.
  assert (L' : (0 <= x * 100)%Q) by lra. assert (U' : (x * 100 <= 100)%Q) by lra. apply M in L', U'. rewrite K0 in L'. rewrite K100 in U'. auto.
Qed.
Theorem disk_counts fl round1 st : counts st (disk_usage fl round1 st).
Proof. unfold counts, disk_usage. cbn [total used free]. repeat split; ring. Qed.
Theorem disk_part st : possible st -> let u := disk_usage (fun x => x) (fun x => x) st in
  (percent u * inject_Z (used u + free u) == inject_Z (used u) * 100)%Q.
Proof.
  intros P. pose proof (disk_consistent (fun x => x) (fun x => x) st P) as C. cbn zeta in *. destruct C as (C1 & C2 & C3 & _).
  unfold disk_usage in *. cbn [percent used free total] in *. unfold usage_percent.
  match goal with |- context [(?t =? 0)%Z] => destruct (Z.eqb_spec t 0) as [E|N] end.
  - match type of C1 with (0 <= ?u)%Z => match type of C3 with (0 <= ?f)%Z => assert (u = 0%Z) as -> by lia end end. ring.
  - field. intros H. apply N. apply (inject_Z_injective _ 0). exact H.
Qed.
Theorem percent_range fl round1 st : monotone fl -> keeps fl 0 -> keeps fl 1 -> keeps fl 100 -> monotone round1 -> keeps round1 0 -> keeps round1 100 ->
  possible st -> (0 <= percent (disk_usage fl round1 st) <= 100)%Q.
Proof.
  intros M K0 K1 K100 M1 R0 R100 (A & B & C & D). unfold keeps in R0, R100. cbn. unfold usage_percent. set (u := (f_blocks st * f_frsize st - f_bfree st * f_frsize st)%Z).
  set (t := (u + f_bavail st * f_frsize st)%Z). destruct (Z.eqb_spec t 0) as [E|E].
  - rewrite R0. lra.
  - destruct (percent_ratio fl M K0 K1 K100 u t ltac:(unfold t, u in *; nia) E) as [L U]. apply M1 in L, U. rewrite R0 in L. rewrite R100 in U. auto.
Qed.
(** An empty disk *)
Theorem percent_empty fl round1 st : keeps round1 0 -> f_blocks st = f_bfree st -> f_bavail st = 0%Z -> (percent (disk_usage fl round1 st) == 0)%Q.
Proof. intros R0 A B. cbn. unfold usage_percent. rewrite A, B. replace (_ =? 0)%Z with true by lia. exact R0. Qed.

(** ** C73 *)
Lemma until_app name r : ~ In x00 name -> until x00 (name ++ x00 :: r) = name.
Proof.
  induction name as [|c name IH]; intros H; [reflexivity|]. cbn [app until]. destruct (beqb_spec c x00) as [->|N]; [destruct H; now left|].
  f_equal. apply IH. intros I. apply H. now right.
Qed.
Lemma size_pos is64 : struct_size is64 <> 0.
Proof. now destruct is64. Qed.
Lemma range_mult n k : k <> 0 -> range (n * k) k = map (fun i => i * k) (seq 0 n).
Proof.
  intros H. unfold range. f_equal. f_equal. replace (n * k + k - 1) with (n * k + (k - 1)) by lia. rewrite Nat.div_add_l by auto.
  rewrite Nat.div_small by lia. lia.
Qed.
Lemma entries_length is64 ifaces es : Forall2 (fun p e => entry is64 (fst p) (snd p) e) ifaces es -> length (concat es) = length ifaces * struct_size is64.
Proof.
  induction 1 as [|p e ifaces es (junk & fam & rest & _ & _ & _ & _ & _ & L) F IH]; [reflexivity|]. cbn [concat length]. rewrite app_length, IH, L. cbn. reflexivity.
Qed.
Definition readable_name (name : bytes) : text := map (fun n => if (n <? 128)%N then n else 65533%N) (b2n name).
Definition dots (addr : bytes) : text :=
  match b2n addr with [a; b; c; d] => dec_N a ++ T "." ++ dec_N b ++ T "." ++ dec_N c ++ T "." ++ dec_N d | _ => [] end.
Lemma entry_read is64 name addr e rest : entry is64 name addr e ->
  let iface := firstn (struct_size is64) (e ++ rest) in
  until x00 iface = name /\ inet_ntoa (firstn 4 (skipn 20 iface)) = Ok (dots addr).
Proof.
  intros (junk & fam & tail & E & N & L1 & L2 & L3 & L4) iface. assert (I : iface = e).
  { unfold iface. replace (struct_size is64) with (length e) by (now rewrite L4; destruct is64). rewrite firstn_app, Nat.sub_diag, firstn_O, app_nil_r. apply firstn_all. }
  rewrite I. split.
  - rewrite E, <- app_assoc. cbn [app]. now apply until_app.
  - assert (S0 : firstn 4 (skipn 20 e) = addr).
    { rewrite E. set (n := name ++ x00 :: junk) in *. rewrite app_assoc. assert (L : length (n ++ fam) = 20) by (rewrite app_length; lia).
      rewrite skipn_app, L, Nat.sub_diag, skipn_O. rewrite (skipn_all2 (n ++ fam)) by lia. cbn [app].
      rewrite firstn_app, L3, Nat.sub_diag, firstn_O, app_nil_r. rewrite <- L3. apply firstn_all. }
    rewrite S0. unfold inet_ntoa, dots. destruct addr as [|a [|b [|c [|d [|]]]]]; try discriminate. reflexivity.
Qed.
Theorem interfaces_read is64 ifaces buffer size : stored is64 ifaces buffer size ->
  interfaces_in is64 buffer size = Ok (map (fun p => (readable_name (fst p), dots (snd p))) ifaces).
Proof.
  intros (es & unused & -> & -> & F). rewrite (entries_length _ _ _ F). unfold interfaces_in. rewrite range_mult by apply size_pos.
  enough (G : forall k pre, length pre = k * struct_size is64 ->
    map_res (fun offset => let iface := firstn (struct_size is64) (skipn offset (pre ++ concat es ++ unused)) in
             let name := until x00 iface in ip <- inet_ntoa (firstn 4 (skipn 20 iface));; Ok (ascii_replace name, ip))
          (map (fun i => i * struct_size is64) (seq k (length ifaces))) = Ok (map (fun p => (readable_name (fst p), dots (snd p))) ifaces)).
  { exact (G 0 [] eq_refl). }
  induction F as [|p e ifaces es E F IH]; intros k pre L; [reflexivity|]. cbn [length seq map map_res].
  assert (Sk : skipn (k * struct_size is64) (pre ++ concat (e :: es) ++ unused) = e ++ concat es ++ unused).
  { rewrite <- L, skipn_app, skipn_all, Nat.sub_diag, skipn_O. cbn [concat app]. now rewrite <- app_assoc. }
  rewrite Sk. destruct (entry_read is64 (fst p) (snd p) e (concat es ++ unused) E) as [A B]. cbn zeta in *. rewrite A, B. cbn [bind].
  specialize (IH (S k) (pre ++ e)). assert (Le : length e = struct_size is64) by (destruct E as (? & ? & ? & _ & _ & _ & _ & _ & Le); rewrite Le; now destruct is64).
  rewrite app_length, L, Le in IH. specialize (IH ltac:(cbn; lia)). cbn [concat]. rewrite <- !app_assoc in *. rewrite IH. reflexivity.
Qed.
Lemma readable_ascii name : ascii name -> readable_name name = b2n name.
Proof.
  unfold ascii, readable_name. induction 1 as [|n l H F IH]; [reflexivity|]. cbn [map]. rewrite IH. f_equal. destruct (N.ltb_spec n 128); [auto|lia].
Qed.
Lemma dots_dotted addr : length addr = 4 -> dotted addr (dots addr).
Proof. destruct addr as [|a [|b [|c [|d [|]]]]]; try discriminate. intros _. exists a, b, c, d. split; reflexivity. Qed.
Lemma dec_dot a b x y : dec_N a ++ T "." ++ x = dec_N b ++ T "." ++ y -> a = b /\ x = y.
Proof.
  intros H. assert (X : dec_N a = dec_N b /\ x = y).
  { pose proof (dec_N_digits a) as Fa. pose proof (dec_N_digits b) as Fb. revert H Fb. generalize (dec_N b) as m. induction (dec_N a) as [|c l IH]; intros m H Fb.
    - destruct m as [|c m]; [cbn in H; injection H; auto|]. cbn in H. injection H as <- _. inversion Fb; discriminate.
    - inversion Fa; subst. destruct m as [|c' m]; cbn in H; injection H as -> H; [discriminate|]. inversion Fb; subst.
      destruct (IH ltac:(auto) m H ltac:(auto)) as [-> ->]. auto. }
  destruct X as [X ->]. split; auto. rewrite <- (dec_N_value a), <- (dec_N_value b). now rewrite X.
Qed.
Theorem dotted_inj x y t : dotted x t -> dotted y t -> x = y.
Proof.
  intros (a & b & c & d & -> & ->) (a' & b' & c' & d' & -> & E). apply dec_dot in E as [E1 E]. apply dec_dot in E as [E2 E]. apply dec_dot in E as [E3 E].
  apply to_N_inj in E1 as <-, E2 as <-, E3 as <-. f_equal; f_equal; f_equal; f_equal. apply to_N_inj. rewrite <- (dec_N_value (Byte.to_N d)), <- (dec_N_value (Byte.to_N d')). now rewrite E.
Qed.
Theorem interfaces_exact is64 ifaces buffer size : stored is64 ifaces buffer size -> Forall (fun p => ascii (fst p)) ifaces ->
  exists l, interfaces_in is64 buffer size = Ok l /\ Forall2 (fun p q => fst q = b2n (fst p) /\ dotted (snd p) (snd q)) ifaces l.
Proof.
  intros H A. eexists. split; [exact (interfaces_read _ _ _ _ H)|]. destruct H as (es & unused & _ & _ & F). revert es F A.
  induction ifaces as [|p ifaces IH]; intros es F A; [constructor|]. inversion F as [|? e ? es' E F']; inversion A as [|? ? A1 A2]; subst. constructor; [|eauto].
  split; [exact (readable_ascii _ A1)|]. apply dots_dotted. now destruct E as (? & ? & ? & _ & _ & _ & _ & L & _).
Qed.
(** Whatever the names *)
Theorem addresses_exact is64 ifaces buffer size : stored is64 ifaces buffer size ->
  Forall2 (fun p ip => dotted (snd p) ip) ifaces (get_ip_address_list (interfaces_in is64 buffer size)).
Proof.
  intros H. rewrite (interfaces_read _ _ _ _ H). cbn. rewrite map_map. cbn. destruct H as (es & unused & _ & _ & F). revert es F.
  induction ifaces as [|p ifaces IH]; intros es F; [constructor|]. inversion F as [|? e ? es' E F']; subst. constructor; [|eauto].
  apply dots_dotted. now destruct E as (? & ? & ? & _ & _ & _ & _ & L & _).
Qed.

(** Names that are not ASCII cannot be told apart *)
Theorem names_blurred is64 a1 a2 name1 name2 addr e1 e2 : name1 = [a1] -> name2 = [a2] -> (128 <= Byte.to_N a1)%N -> (128 <= Byte.to_N a2)%N ->
  entry is64 name1 addr e1 -> entry is64 name2 addr e2 -> interfaces_in is64 e1 (length e1) = interfaces_in is64 e2 (length e2).
Proof.
  intros -> -> H1 H2 E1 E2.
  assert (X : forall name e, entry is64 name addr e -> stored is64 [(name, addr)] e (length e)).
  { intros name e E. exists [e], []. cbn [concat]. rewrite !app_nil_r. split; auto. }
  rewrite (interfaces_read _ _ _ _ (X _ _ E1)), (interfaces_read _ _ _ _ (X _ _ E2)). cbn. unfold readable_name. cbn.
  destruct (N.ltb_spec (Byte.to_N a1) 128); [lia|]. destruct (N.ltb_spec (Byte.to_N a2) 128); [lia|]. reflexivity.
Qed.

(** ** Stripping *)
Lemma lstrip_split ws s : exists p, s = p ++ lstrip ws s /\ Forall (fun c => ws c = true) p /\ forall c r, lstrip ws s = c :: r -> ws c = false.
Proof.
  induction s as [|c s (p & E & F & N)]; cbn [lstrip].
  - exists []. split; auto. split; auto. discriminate.
  - destruct (ws c) eqn:W; [exists (c :: p); split; [cbn; now f_equal|auto]|]. exists []. split; auto. split; auto. intros c' r [= -> _]. auto.
Qed.
Lemma lstrip_unique ws p m : Forall (fun c => ws c = true) p -> (forall c r, m = c :: r -> ws c = false) -> lstrip ws (p ++ m) = m.
Proof.
  induction 1 as [|c p H F IH]; intros N; cbn [app lstrip].
  - destruct m as [|c m]; auto. now rewrite lstrip_id by eauto.
  - rewrite H. auto.
Qed.
Lemma lstrip_all ws p : Forall (fun c => ws c = true) p -> lstrip ws p = [].
Proof. intros F. rewrite <- (app_nil_r p). now apply lstrip_unique. Qed.
Definition ends_bare (ws : N -> bool) (m : list N) : Prop := (forall c r, m = c :: r -> ws c = false) /\ (forall c r, m = r ++ [c] -> ws c = false).
Lemma strip_unique ws p m q : Forall (fun c => ws c = true) p -> Forall (fun c => ws c = true) q -> ends_bare ws m -> strip ws (p ++ m ++ q) = m.
Proof.
  intros Fp Fq [A B]. unfold strip, rstrip. destruct m as [|c m].
  - cbn [app]. assert (E : lstrip ws (p ++ q) = []) by (apply lstrip_all; now apply Forall_app). rewrite E. reflexivity.
  - rewrite lstrip_unique; auto; [|intros x r [= -> _]; eauto]. rewrite rev_app_distr, lstrip_unique.
    + apply rev_involutive.
    + now apply Forall_rev.
    + intros x r E. apply (B x (rev r)). apply (f_equal (@rev BinNums.N)) in E. rewrite rev_involutive in E. cbn in E. exact E.
Qed.
Lemma strip_split ws s : exists p q, s = p ++ strip ws s ++ q /\ Forall (fun c => ws c = true) p /\ Forall (fun c => ws c = true) q /\ ends_bare ws (strip ws s).
Proof.
  destruct (lstrip_split ws s) as (p & E & F & N). destruct (lstrip_split ws (rev (lstrip ws s))) as (q & E2 & F2 & N2).
  assert (M : lstrip ws s = strip ws s ++ rev q).
  { unfold strip, rstrip. apply (f_equal (@rev BinNums.N)) in E2. rewrite rev_involutive, rev_app_distr in E2. exact E2. }
  exists p, (rev q). rewrite <- M. split; auto. split; auto. split; [now apply Forall_rev|]. split.
  - intros c r H. apply (N c (r ++ rev q)). now rewrite M, H.
  - intros c r H. apply (N2 c (rev r)). unfold strip, rstrip in H. apply (f_equal (@rev BinNums.N)) in H. rewrite rev_involutive, rev_app_distr in H. exact H.
Qed.

(** ** C74 *)
Lemma ws_blank b : ws_bytes (Byte.to_N b) = true <-> blank b.
Proof. unfold ws_bytes, blank. cbn [In]. lia. Qed.
Lemma ws_blanks p : Forall (fun c => ws_bytes c = true) (b2n p) <-> Forall blank p.
Proof. unfold b2n. rewrite Forall_map. split; intros F; eapply Forall_impl; try exact F; intros a; apply ws_blank. Qed.
Lemma b2n_split s p m q : b2n s = p ++ m ++ q -> exists p' m' q', s = p' ++ m' ++ q' /\ b2n p' = p /\ b2n m' = m /\ b2n q' = q.
Proof.
  unfold b2n. intros E. apply map_eq_app in E as (p' & r & -> & <- & E). apply map_eq_app in E as (m' & q' & -> & <- & <-).
  exists p', m', q'. auto.
Qed.
Lemma bstrip_trimmed s : trimmed s (bstrip s).
Proof.
  destruct (strip_split ws_bytes (b2n s)) as (p & q & E & Fp & Fq & A & C). apply b2n_split in E as (p' & m' & q' & -> & <- & Em & <-).
  assert (X : bstrip (p' ++ m' ++ q') = m') by (unfold bstrip; rewrite <- Em; apply n2b_b2n). rewrite X. rewrite <- Em in A, C. exists p', q'. split; auto.
  split; [now apply ws_blanks|]. split; [now apply ws_blanks|]. split.
  - intros x r -> H. apply ws_blank in H. cbn in A. rewrite (A _ _ eq_refl) in H. discriminate.
  - intros x r -> H. apply ws_blank in H. rewrite b2n_app in C. rewrite (C _ _ eq_refl) in H. discriminate.
Qed.
Lemma trimmed_bstrip s t : trimmed s t -> bstrip s = t.
Proof.
  intros (p & q & -> & Fp & Fq & A & C). unfold bstrip. rewrite !b2n_app, strip_unique; [apply n2b_b2n| | |].
  - now apply ws_blanks.
  - now apply ws_blanks.
  - split.
    + intros c r E. destruct t as [|x t]; [discriminate|]. cbn in E. injection E as <- _. destruct (ws_bytes (Byte.to_N x)) eqn:W; auto. apply ws_blank in W. destruct (A _ _ eq_refl W).
    + intros c r E. unfold b2n in E. apply map_eq_app in E as (r' & l & -> & _ & E). destruct l as [|x [|]]; try discriminate. cbn in E. injection E as <-.
      destruct (ws_bytes (Byte.to_N x)) eqn:W; auto. apply ws_blank in W. destruct (C _ _ eq_refl W).
Qed.
Lemma lower1_lowered x y : lowered x y <-> lower1 x = y.
Proof.
  unfold lowered, lower1. cbn zeta. destruct ((65 <=? Byte.to_N x)%N && (Byte.to_N x <=? 90)%N) eqn:E; [|split; congruence].
  assert (L : (Byte.to_N x + 32 < 256)%N) by lia. split.
  - intros <-. apply byte_of_to_N.
  - intros <-. now apply to_N_byte_of.
Qed.
Lemma lower_lowered s t : Forall2 lowered s t <-> lower s = t.
Proof.
  split.
  - induction 1 as [|x y s t H F IH]; [reflexivity|]. cbn. f_equal; auto. now apply lower1_lowered.
  - intros <-. induction s as [|x s IH]; cbn; constructor; auto. now apply lower1_lowered.
Qed.
Lemma partition_some s k v : partition_colon s = Some (k, v) <-> s = k ++ x3a :: v /\ ~ In x3a k.
Proof.
  split.
  - revert k. induction s as [|c s IH]; intros k; cbn; [discriminate|]. destruct (beqb_spec c x3a) as [->|N].
    + intros [= <- ->]. auto.
    + destruct (partition_colon s) as [[k' v']|]; [|discriminate]. intros [= <- ->]. destruct (IH k' eq_refl) as [-> H]. split; auto. cbn. intros [X|X]; auto.
  - intros [-> H]. induction k as [|c k IH]; [reflexivity|]. cbn. destruct (beqb_spec c x3a) as [->|N]; [destruct H; now left|].
    rewrite IH; auto. intros I. apply H. now right.
Qed.
Lemma revision_line_iff line v : revision_line line v <->
  exists key rest, partition_colon line = Some (key, rest) /\ bytes_eqb (lower (bstrip key)) (B "revision") = true /\ v = lower (bstrip rest).
Proof.
  split.
  - intros (key & rest & k & u & E & N & Tk & Fk & Tu & Fu). exists key, rest. split; [now apply partition_some|].
    rewrite (trimmed_bstrip _ _ Tk), (trimmed_bstrip _ _ Tu). split; [apply bytes_eqb_eq|symmetry]; now apply lower_lowered.
  - intros (key & rest & P & E & ->). apply partition_some in P as [-> N]. apply bytes_eqb_eq in E.
    exists key, rest, (bstrip key), (bstrip rest). split; auto. split; auto. split; [apply bstrip_trimmed|]. split; [now apply lower_lowered|].
    split; [apply bstrip_trimmed|]. now apply lower_lowered.
Qed.
Lemma revision_line_det line v v' : revision_line line v -> revision_line line v' -> v = v'.
Proof. rewrite !revision_line_iff. intros (k & r & P & _ & ->) (k' & r' & P' & _ & ->). congruence. Qed.
Lemma find_revision_some ls v : find_revision ls = Some v <->
  exists l1 l l2, ls = l1 ++ l :: l2 /\ Forall (fun x => forall u, ~ revision_line x u) l1 /\ revision_line l v.
Proof.
  induction ls as [|l ls IH]; cbn [find_revision].
  - split; [discriminate|]. intros ([|] & ? & ? & E & _); discriminate.
  - assert (Yes : revision_line l v -> exists l1 l0 l2, l :: ls = l1 ++ l0 :: l2 /\ Forall (fun x => forall u, ~ revision_line x u) l1 /\ revision_line l0 v).
    { intros H. exists [], l, ls. auto. }
    assert (No : (forall u, ~ revision_line l u) -> (find_revision ls = Some v <-> exists l1 l0 l2, l :: ls = l1 ++ l0 :: l2 /\ Forall (fun x => forall u, ~ revision_line x u) l1 /\ revision_line l0 v)).
    { intros H. rewrite IH. split.
      - intros (l1 & l0 & l2 & -> & F & R). exists (l :: l1), l0, l2. auto.
      - intros (l1 & l0 & l2 & E & F & R). destruct l1 as [|x l1]; injection E as <- ->; [now apply H in R|]. inversion F; eauto 10. }
    destruct (partition_colon l) as [[k r]|] eqn:P; [|apply No; intros u R; apply revision_line_iff in R as (? & ? & R & _); congruence].
    cbn zeta. destruct (bytes_eqb (lower (bstrip k)) (B "revision")) eqn:E.
    + split.
      * intros [= <-]. apply Yes. apply revision_line_iff. eauto.
      * intros (l1 & l0 & l2 & El & F & R). destruct l1 as [|x l1]; injection El as <- ->.
        -- apply revision_line_iff in R as (k' & r' & P' & _ & ->). congruence.
        -- inversion F as [|? ? Hx Fx]; subst. destruct (Hx (lower (bstrip r))). apply revision_line_iff. eauto.
    + apply No. intros u R. apply revision_line_iff in R as (k' & r' & P' & X & _). congruence.
Qed.
Lemma find_revision_none ls : find_revision ls = None <-> Forall (fun x => forall u, ~ revision_line x u) ls.
Proof.
  split.
  - intros H. apply Forall_forall. intros l I u R.
    assert (X : exists v, find_revision ls = Some v).
    { clear H. revert I. induction ls as [|x ls IH]; [intros []|]. intros I. cbn [find_revision]. destruct (partition_colon x) as [[k r]|] eqn:P.
      - cbn zeta. destruct (bytes_eqb _ _) eqn:E; [eauto|]. destruct I as [->|I]; auto. apply revision_line_iff in R as (k' & r' & P' & X & _). congruence.
      - destruct I as [->|I]; auto. apply revision_line_iff in R as (k' & r' & P' & _). congruence. }
    destruct X; congruence.
  - intros F. destruct (find_revision ls) as [v|] eqn:E; auto. apply find_revision_some in E as (l1 & l & l2 & -> & _ & R).
    apply Forall_elt in F. now apply F in R.
Qed.
Lemma lines_of_lines s : forall line, ~ In x0a line -> lines (rev line ++ s) (lines_of line s).
Proof.
  induction s as [|c s IH]; intros line N; cbn [lines_of].
  - rewrite app_nil_r. destruct line as [|x line]; [constructor|]. apply L_last; [cbn; now destruct (rev line)|]. now rewrite <- in_rev.
  - destruct (beqb_spec c x0a) as [->|Nc].
    + cbn [rev]. apply L_line; [now rewrite <- in_rev|]. apply (IH []). auto.
    + specialize (IH (c :: line)). cbn [rev] in IH. rewrite <- app_assoc in IH. apply IH. intros [X|X]; auto.
Qed.
Lemma lines_none ls : lines [] ls -> ls = [].
Proof.
  remember [] as s eqn:E. destruct 1 as [|l N|l r ls N]; auto; [congruence|]. destruct l; discriminate.
Qed.
Lemma lines_of_app l r line : ~ In x0a l -> lines_of line (l ++ x0a :: r) = (rev line ++ l ++ [x0a]) :: lines_of [] r.
Proof.
  revert line. induction l as [|c l IH]; intros line N; cbn [app lines_of].
  - cbn. reflexivity.
  - destruct (beqb_spec c x0a) as [->|Nc]; [destruct N; now left|]. rewrite IH by (intros I; apply N; now right). cbn [rev]. now rewrite <- !app_assoc.
Qed.
Lemma lines_of_last l line : ~ In x0a l -> lines_of line l = match rev line ++ l with [] => [] | x => [x] end.
Proof.
  revert line. induction l as [|c l IH]; intros line N; cbn [lines_of].
  - rewrite app_nil_r. destruct line as [|x line]; [reflexivity|]. destruct (rev (x :: line)) eqn:E; [cbn in E; now destruct (rev line)|reflexivity].
  - destruct (beqb_spec c x0a) as [->|Nc]; [destruct N; now left|]. rewrite IH by (intros I; apply N; now right). cbn [rev]. now rewrite <- app_assoc.
Qed.
Lemma lines_det s ls : lines s ls -> lines_of [] s = ls.
Proof.
  induction 1 as [|l H N|l r ls N L IH]; [reflexivity| |].
  - rewrite lines_of_last by auto. cbn. destruct l; congruence.
  - rewrite lines_of_app by auto. cbn. now rewrite IH.
Qed.
Theorem revision_found content ls l1 l l2 v : lines content ls -> ls = l1 ++ l :: l2 -> Forall (fun x => forall u, ~ revision_line x u) l1 -> revision_line l v ->
  get_machine_revision (Some content) = match utf8_decode v with Some t => Ok (Some t) | None => Raise EUnicodeDecode end.
Proof.
  intros L E F R. unfold get_machine_revision. rewrite (lines_det _ _ L). replace (find_revision ls) with (Some v); auto. symmetry. apply find_revision_some. eauto 10.
Qed.
Theorem revision_absent content ls : lines content ls -> Forall (fun x => forall u, ~ revision_line x u) ls -> get_machine_revision (Some content) = Ok None.
Proof. intros L F. unfold get_machine_revision. rewrite (lines_det _ _ L). now rewrite (proj2 (find_revision_none ls) F). Qed.
Theorem lines_exist content : exists ls, lines content ls.
Proof. eexists. apply (lines_of_lines content []). auto. Qed.

(** ** C76 *)
Lemma zeros_apart : forallb (fun z => forallb (fun y => (y =? z) || (y + 9 <? z) || (z + 9 <? y))%N zeros) zeros = true.
Proof. vm_compute. reflexivity. Qed.
Lemma zeros_facts : forallb (fun z => ((z =? 48) || (127 <=? z))%N && forallb (fun d => negb (ws_text (z + d))) [0;1;2;3;4;5;6;7;8;9]%N) zeros = true.
Proof. vm_compute. reflexivity. Qed.
Lemma decimal_digit c d : decimal c = Some d <-> digit c d.
Proof.
  unfold decimal, digit. split.
  - destruct (find _ zeros) as [z|] eqn:F; [|discriminate]. intros [= <-]. apply find_some in F as [I H]. split; [lia|]. exists z. split; auto. lia.
  - intros (L & z & I & ->). destruct (find _ zeros) as [y|] eqn:F.
    + apply find_some in F as [Iy H]. pose proof (proj1 (forallb_forall _ _) zeros_apart z I) as A. cbn beta in A. rewrite forallb_forall in A. specialize (A y Iy). f_equal. lia.
    + pose proof (find_none _ _ F z I) as H. cbn beta in H. lia.
Qed.
Lemma digit_not_ws c d : digit c d -> ws_text c = false /\ (c < 127 -> c = 48 + d)%N.
Proof.
  intros (L & z & I & ->). pose proof (proj1 (forallb_forall _ _) zeros_facts z I) as A. cbn beta in A. apply andb_prop in A as [A W]. rewrite forallb_forall in W. split.
  - assert (M : In d [0;1;2;3;4;5;6;7;8;9]%N).
    { cbn [In]. lia. }
    specialize (W d M). now destruct (ws_text (z + d)).
  - lia.
Qed.
Lemma to_ascii_digit c d : digit c d <-> is_digit (to_ascii c) = true /\ d = (to_ascii c - 48)%N.
Proof.
  unfold to_ascii. split.
  - intros D. destruct (digit_not_ws c d D) as [W E]. pose proof (proj1 D) as L. destruct (N.ltb_spec c 127) as [H|H].
    + specialize (E H). unfold is_digit. lia.
    + rewrite W. rewrite (proj2 (decimal_digit c d) D). unfold is_digit. lia.
  - destruct (N.ltb_spec c 127) as [H|H].
    + unfold is_digit. intros [A ->]. split; [lia|]. exists 48%N. split; [left; reflexivity|lia].
    + destruct (ws_text c); [intros [A _]; discriminate|]. destruct (decimal c) as [d'|] eqn:D; [|intros [A _]; discriminate].
      apply decimal_digit in D. pose proof (proj1 D) as L. intros [_ ->]. now replace (48 + d' - 48)%N with d' by lia.
Qed.
Lemma to_ascii_space c : ws_bytes (to_ascii c) = true <-> space c.
Proof.
  unfold to_ascii. destruct (N.ltb_spec c 127) as [H|H].
  - unfold ws_bytes, space, spaces. cbn [In]. lia.
  - destruct (ws_text c) eqn:W.
    + split; [|reflexivity]. intros _. apply ws_text_white in W as [W|W]; auto. cbn [In] in W. lia.
    + assert (N : ~ space c) by (intros S0; assert (ws_text c = true) by (apply ws_text_white; now left); congruence).
      destruct (decimal c) as [d|] eqn:D; [|split; [discriminate|tauto]]. apply decimal_digit in D. pose proof (proj1 D). split; [|tauto]. unfold ws_bytes. lia.
Qed.
Lemma to_ascii_low c x : (x < 127)%N -> is_digit x = false -> ws_bytes x = false -> x <> 63%N -> to_ascii c = x <-> c = x.
Proof.
  intros L D W Q. unfold to_ascii. destruct (N.ltb_spec c 127) as [H|H]; [reflexivity|]. split; [|lia]. destruct (ws_text c); [intros <-; discriminate|].
  destruct (decimal c) as [d|] eqn:E; [|intros <-; congruence]. apply decimal_digit in E. pose proof (proj1 E). intros <-. unfold is_digit in D. lia.
Qed.
Definition val (ds : list N) (acc : N) : N := fold_left (fun a d => 10 * a + d)%N ds acc.
Lemma digits_us_numeral n : forall s acc v, length s <= n -> (digits_us (map to_ascii s) false acc = Some v <-> exists ds, numeral s ds /\ v = val ds acc) .
Proof.
  induction n as [|n IH]; intros s acc v L.
  - destruct s; [|cbn in L; lia]. cbn. split; [discriminate|]. intros (ds & H & _). inversion H.
  - destruct s as [|c s]; [cbn; split; [discriminate|]; intros (ds & H & _); inversion H|]. cbn [length] in L. cbn [map digits_us].
    destruct (is_digit (to_ascii c)) eqn:D.
    + set (d := (to_ascii c - 48)%N). assert (Dc : digit c d) by now apply to_ascii_digit.
      assert (Du : forall d', digit c d' -> d' = d) by (intros d' X; apply to_ascii_digit in X as [_ ->]; reflexivity).
      destruct s as [|c2 s].
      * cbn. split.
        -- intros [= <-]. exists [d]. split; [now constructor|reflexivity].
        -- intros (ds & H & ->). inversion H as [? d' X| ? d' ? ds' X Y|]; subst; [|inversion Y]. now rewrite (Du _ X).
      * cbn [map digits_us]. destruct (is_digit (to_ascii c2)) eqn:D2.
        -- specialize (IH (c2 :: s) (10 * acc + d)%N v ltac:(cbn in *; lia)). cbn [map digits_us] in IH. rewrite D2 in IH. rewrite IH. split.
           ++ intros (ds & H & ->). exists (d :: ds). split; [now constructor|reflexivity].
           ++ intros (ds & H & ->). inversion H as [|? d' ? ds' X Y| ? d' ? ds' X Y]; subst.
              ** rewrite (Du _ X). eauto.
              ** discriminate D2.
        -- assert (U : (to_ascii c2 =? 95)%N = true <-> c2 = 95%N) by (rewrite N.eqb_eq; apply to_ascii_low; try reflexivity; discriminate).
           destruct ((to_ascii c2 =? 95)%N) eqn:E2.
           ++ assert (c2 = 95%N) as -> by now apply U. cbn [andb]. specialize (IH s (10 * acc + d)%N v ltac:(cbn in *; lia)). rewrite IH. split.
              ** intros (ds & H & ->). exists (d :: ds). split; [now apply N_under|reflexivity].
              ** intros (ds & H & ->). inversion H as [|? d' ? ds' X Y| ? d' ? ds' X Y]; subst.
                 --- exfalso. inversion Y as [? ? X2|? ? ? ? X2|? ? ? ? X2]; subst; apply to_ascii_digit in X2 as [X2 _]; discriminate X2.
                 --- rewrite (Du _ X). eauto.
           ++ cbn [andb]. split; [discriminate|]. intros (ds & H & _). exfalso. inversion H as [|? d' ? ds' X Y| ? d' ? ds' X Y]; subst.
              ** inversion Y as [? ? X2|? ? ? ? X2|? ? ? ? X2]; subst; apply to_ascii_digit in X2 as [X2 _]; congruence.
              ** assert (X2 := proj2 U eq_refl). discriminate X2.
    + rewrite andb_false_r. split; [discriminate|]. intros (ds & H & _). exfalso. inversion H as [? ? X2|? ? ? ? X2|? ? ? ? X2]; subst; apply to_ascii_digit in X2 as [X2 _]; congruence.
Qed.
Lemma numeral_count s ds : numeral s ds -> length (filter is_digit (map to_ascii s)) = length ds.
Proof.
  induction 1 as [c d D|c d s ds D H IH|c d s ds D H IH]; apply to_ascii_digit in D as [D _]; cbn [map filter]; rewrite D; cbn; auto.
Qed.
Lemma map_split {A B} (f : A -> B) s a b c : map f s = a ++ b ++ c -> exists a' b' c', s = a' ++ b' ++ c' /\ map f a' = a /\ map f b' = b /\ map f c' = c.
Proof.
  intros E. apply map_eq_app in E as (p' & r & -> & <- & E). apply map_eq_app in E as (m' & q' & -> & <- & <-). exists p', m', q'. auto.
Qed.
Lemma spaces_map p : Forall (fun c => ws_bytes c = true) (map to_ascii p) <-> Forall space p.
Proof. rewrite Forall_map. split; intros F; eapply Forall_impl; try exact F; intros a; apply to_ascii_space. Qed.
Lemma numeral_ends s ds : numeral s ds -> (exists c r, s = c :: r /\ is_digit (to_ascii c) = true) /\ (exists c r, s = r ++ [c] /\ is_digit (to_ascii c) = true).
Proof.
  induction 1 as [c d D|c d s ds D H [_ (x & r & -> & X)]|c d s ds D H [_ (x & r & -> & X)]]; apply to_ascii_digit in D as [D _]; (split; [eauto|]).
  - exists c, []. auto.
  - exists x, (c :: r). auto.
  - exists x, (c :: 95%N :: r). auto.
Qed.
Lemma no_digit_ws x : is_digit x = true -> ws_bytes x = false.
Proof. apply is_digit_not_ws. Qed.
Lemma py_int_plain ws s x r : strip ws s = x :: r -> x <> 45%N -> x <> 43%N -> py_int ws s = option_map Z.of_N (digits_us (x :: r) false 0).
Proof. intros E A B. unfold py_int. rewrite E. destruct x as [|y]; auto. repeat (destruct y as [y|y|]; auto; try congruence). Qed.
Lemma py_int_written s z : py_int ws_bytes (map to_ascii s) = Some z <-> exists k, written s z k.
Proof.
  split.
  - intros H. destruct (strip_split ws_bytes (map to_ascii s)) as (p & q & E & Fp & Fq & _). unfold py_int in H. set (m := strip ws_bytes (map to_ascii s)) in *.
    apply map_split in E as (p' & m' & q' & -> & <- & Em & <-). apply (proj1 (spaces_map p')) in Fp. apply (proj1 (spaces_map q')) in Fq.
    assert (Plain : forall n v, digits_us (map to_ascii n) false 0 = Some v -> exists ds, numeral n ds /\ v = value ds).
    { intros n v X. now apply (digits_us_numeral (length n)) in X. }
    destruct m' as [|c m'].
    + cbn in Em. subst m. rewrite <- Em in H. discriminate.
    + cbn [map] in Em. rewrite <- Em in H.
      assert (Signs : (to_ascii c = 45 -> c = 45)%N /\ (to_ascii c = 43 -> c = 43)%N) by (split; intros X; (eapply to_ascii_low; [..|exact X]); reflexivity || discriminate).
      assert (Body : option_map Z.of_N (digits_us (map to_ascii (c :: m')) false 0) = Some z -> exists k, written (p' ++ (c :: m') ++ q') z k).
      { clear H. destruct (digits_us (map to_ascii (c :: m')) false 0) as [v|] eqn:V; cbn [option_map]; [|intros X0; discriminate X0]. intros X0; injection X0 as <-. destruct (Plain _ _ V) as (ds & Hn & ->). exists (length ds).
        exists p', [], (c :: m'), q', ds. repeat split; auto. }
      assert (Minus : to_ascii c = 45%N -> option_map (fun n => (- Z.of_N n)%Z) (digits_us (map to_ascii m') false 0) = Some z -> exists k, written (p' ++ (c :: m') ++ q') z k).
      { intros X. apply (proj1 Signs) in X as ->. clear H. destruct (digits_us (map to_ascii m') false 0) as [v|] eqn:V; cbn [option_map]; [|intros X0; discriminate X0]. intros X0; injection X0 as <-. destruct (Plain _ _ V) as (ds & Hn & ->).
        exists (length ds). exists p', (T "-"), m', q', ds. repeat split; auto. }
      assert (Plus : to_ascii c = 43%N -> option_map Z.of_N (digits_us (map to_ascii m') false 0) = Some z -> exists k, written (p' ++ (c :: m') ++ q') z k).
      { intros X. apply (proj2 Signs) in X as ->. clear H. destruct (digits_us (map to_ascii m') false 0) as [v|] eqn:V; cbn [option_map]; [|intros X0; discriminate X0]. intros X0; injection X0 as <-. destruct (Plain _ _ V) as (ds & Hn & ->).
        exists (length ds). exists p', (T "+"), m', q', ds. repeat split; auto. }
      cbn [map] in Body. destruct (N.eq_dec (to_ascii c) 45) as [X|X]; [rewrite X in H; auto|]. destruct (N.eq_dec (to_ascii c) 43) as [Y|Y]; [rewrite Y in H; auto|].
      apply Body. destruct (to_ascii c) as [|y]; auto. repeat (destruct y as [y|y|]; auto; try congruence).
  - intros (k & p & sign & n & q & ds & -> & Fp & Fq & Hn & _ & Hz). destruct (numeral_ends n ds Hn) as [(c1 & r1 & E1 & D1) (c2 & r2 & E2 & D2)].
    assert (V : digits_us (map to_ascii n) false 0 = Some (value ds)) by (apply (digits_us_numeral (length n)); eauto).
    assert (Bare : forall pre, (pre = [] \/ exists x, pre = [x] /\ ws_bytes (to_ascii x) = false) -> strip ws_bytes (map to_ascii (p ++ pre ++ n ++ q)) = map to_ascii (pre ++ n)).
    { intros pre Hp. rewrite (app_assoc pre), (map_app to_ascii p), (map_app to_ascii (pre ++ n)). apply strip_unique; [now apply spaces_map|now apply spaces_map|]. split.
      - intros c r E. destruct Hp as [->|(x & -> & W)]; cbn [app map] in E; [rewrite E1 in E; cbn in E|]; injection E as <- _; auto. now apply no_digit_ws.
      - intros c r E. rewrite E2, app_assoc, map_app in E. cbn [map] in E. apply app_inj_tail in E as [_ <-]. now apply no_digit_ws. }
    destruct Hz as [[[->| ->] ->]|[-> ->]].
    + specialize (Bare [] (or_introl eq_refl)). cbn [app] in Bare |- *. rewrite E1 in Bare at 2. cbn [map] in Bare. rewrite (py_int_plain _ _ _ _ Bare).
      * change (to_ascii c1 :: map to_ascii r1) with (map to_ascii (c1 :: r1)). rewrite <- E1, V. reflexivity.
      * intros X. rewrite X in D1. discriminate D1.
      * intros X. rewrite X in D1. discriminate D1.
    + unfold py_int. rewrite (Bare (T "+")); [|right; exists 43%N; split; reflexivity]. change (map to_ascii (T "+" ++ n)) with (43%N :: map to_ascii n). cbv iota beta. now rewrite V.
    + unfold py_int. rewrite (Bare (T "-")); [|right; exists 45%N; split; reflexivity]. change (map to_ascii (T "-" ++ n)) with (45%N :: map to_ascii n). cbv iota beta. now rewrite V.
Qed.
Lemma written_count s z k : written s z k -> length (filter is_digit (map to_ascii s)) = k.
Proof.
  intros (p & sign & n & q & ds & -> & Fp & Fq & Hn & -> & Hz). rewrite !map_app, !filter_app, !app_length, (numeral_count _ _ Hn).
  assert (X : forall p, Forall space p -> length (filter is_digit (map to_ascii p)) = 0).
  { intros p0 F. apply spaces_map in F. induction F as [|x l W F IH]; [reflexivity|]. cbn [filter]. destruct (is_digit x) eqn:D; [apply is_digit_not_ws in D; congruence|auto]. }
  rewrite (X p Fp), (X q Fq). assert (Y : length (filter is_digit (map to_ascii sign)) = 0) by (destruct Hz as [[[->| ->] _]|[-> _]]; reflexivity). rewrite Y. cbn. apply Nat.add_0_r.
Qed.
Theorem written_det s z k z' k' : written s z k -> written s z' k' -> z = z' /\ k = k'.
Proof.
  intros A B. split; [|now rewrite <- (written_count _ _ _ A), <- (written_count _ _ _ B)].
  assert (X : py_int ws_bytes (map to_ascii s) = Some z) by (apply py_int_written; eauto). assert (Y : py_int ws_bytes (map to_ascii s) = Some z') by (apply py_int_written; eauto). congruence.
Qed.
Theorem environ_int limit s z k default : written s z k -> (forall m, limit = Some m -> k <= m) -> get_environ_int limit (Some s) default = z.
Proof.
  intros W L. assert (X : py_int ws_bytes (map to_ascii s) = Some z) by (apply py_int_written; eauto). unfold get_environ_int, int_of_text. cbn zeta.
  destruct limit as [m|]; [|now rewrite X]. rewrite (written_count _ _ _ W). destruct (Nat.ltb_spec m k); [specialize (L m eq_refl); lia|]. now rewrite X.
Qed.
Theorem environ_default limit s default : (forall z k, ~ written s z k) -> get_environ_int limit (Some s) default = default.
Proof.
  intros N. assert (X : py_int ws_bytes (map to_ascii s) = None).
  { destruct (py_int ws_bytes (map to_ascii s)) as [z|] eqn:E; auto. apply py_int_written in E as (k & E). now apply N in E. }
  unfold get_environ_int, int_of_text. cbn zeta. destruct limit as [m|]; [destruct (m <? _)|]; now rewrite ?X.
Qed.
Theorem environ_too_long m s z k default : written s z k -> m < k -> get_environ_int (Some m) (Some s) default = default.
Proof. intros W L. unfold get_environ_int, int_of_text. cbn zeta. rewrite (written_count _ _ _ W). now destruct (Nat.ltb_spec m k); [|lia]. Qed.
Lemma ones_written n : exists z, written (repeat 49%N (S n)) z (S n).
Proof.
  assert (D : digit 49 1) by (split; [lia|]; exists 48%N; split; [left; reflexivity|reflexivity]).
  assert (H : exists ds, numeral (repeat 49%N (S n)) ds /\ length ds = S n).
  { induction n as [|n (ds & H & L)]; [exists [1%N]; split; [now constructor|reflexivity]|]. exists (1%N :: ds). split; [now apply N_more|cbn; lia]. }
  destruct H as (ds & H & L). exists (Z.of_N (value ds)). exists [], [], (repeat 49%N (S n)), [], ds. rewrite app_nil_r. repeat split; auto.
Qed.

(** ** C77 *)
Theorem killed_iff l : forall n k, clock_check l n = (k, Killed) <-> exists l1 t l2, l = l1 ++ t :: l2 /\ k = n + S (length l1) /\
  Forall (fun u => running u = true /\ ~ jump u) l1 /\ running t = true /\ jump t.
Proof.
  induction l as [|t l IH]; intros n k; cbn [clock_check].
  - split; [discriminate|]. intros ([|] & ? & ? & E & _); discriminate.
  - cbn zeta. destruct (running t) eqn:R.
    + destruct (Qle_bool (after t - before t) 180) eqn:Q.
      * assert (N : ~ jump t) by (unfold jump; apply Qle_bool_iff in Q; lra). rewrite IH. split.
        -- intros (l1 & t0 & l2 & -> & -> & F & X). exists (t :: l1), t0, l2. cbn [length]. split; auto. split; [lia|]. auto.
        -- intros (l1 & t0 & l2 & E & -> & F & X). destruct l1 as [|u l1]; injection E as -> ->; [tauto|]. exists l1, t0, l2. inversion F; subst. cbn [length]. split; auto. split; [lia|auto].
      * assert (N : jump t). { unfold jump. apply Qnot_le_lt. intros X. apply Qle_bool_iff in X. congruence. } split.
        -- intros [= <-]. exists [], t, l. cbn. split; auto. split; [lia|auto].
        -- intros (l1 & t0 & l2 & E & -> & F & X). destruct l1 as [|u l1]; injection E as <- ->; [cbn; f_equal; lia|]. inversion F as [|? ? [_ Y] Z]; subst. contradiction.
    + split; [discriminate|]. intros (l1 & t0 & l2 & E & -> & F & X & Y). destruct l1 as [|u l1]; injection E as <- ->; [congruence|]. inversion F as [|? ? [Z _]]; subst. congruence.
Qed.
Theorem stopped_iff l : forall n k, clock_check l n = (k, Stopped) <-> exists l1 t l2, l = l1 ++ t :: l2 /\ k = n + length l1 /\
  Forall (fun u => running u = true /\ ~ jump u) l1 /\ running t = false.
Proof.
  induction l as [|t l IH]; intros n k; cbn [clock_check].
  - split; [discriminate|]. intros ([|] & ? & ? & E & _); discriminate.
  - cbn zeta. destruct (running t) eqn:R.
    + destruct (Qle_bool (after t - before t) 180) eqn:Q.
      * assert (N : ~ jump t) by (unfold jump; apply Qle_bool_iff in Q; lra). rewrite IH. split.
        -- intros (l1 & t0 & l2 & -> & -> & F & X). exists (t :: l1), t0, l2. cbn [length]. split; auto. split; [lia|]. auto.
        -- intros (l1 & t0 & l2 & E & -> & F & X). destruct l1 as [|u l1]; injection E as -> ->; [congruence|]. exists l1, t0, l2. inversion F; subst. cbn [length]. split; auto. split; [lia|auto].
      * assert (N : jump t). { unfold jump. apply Qnot_le_lt. intros X. apply Qle_bool_iff in X. congruence. }
        split; [discriminate|]. intros (l1 & t0 & l2 & E & -> & F & X). destruct l1 as [|u l1]; injection E as <- ->; [congruence|]. inversion F as [|? ? [_ Y] Z]; subst. contradiction.
    + split.
      * intros [= <-]. exists [], t, l. cbn. split; auto.
      * intros (l1 & t0 & l2 & E & -> & F & X). destruct l1 as [|u l1]; injection E as <- ->; [cbn; f_equal; lia|]. inversion F as [|? ? [Z _]]; subst. congruence.
Qed.

(** ** C75 *)
Definition fresh_dict (h : host) : list (text * mval) :=
  [(T "agent_version", Str (Some (h_version h))); (T "machine_revision", Str (h_revision h)); (T "model_name", Str (Some (h_model h)));
   (T "os_version", Str (Some (h_os h))); (T "uname", Str (Some (h_uname h))); (T "ip_list", Ref 0)].
Definition cached (h : option host) (s : heap) : Prop :=
  match h with
  | None => s = heap0
  | Some h => meta_cache s = Some 0 /\ (exists ds, dicts s = fresh_dict h :: ds) /\ (exists ls, lists s = h_ips h :: ls)
  end.
Lemma put_cons {A} n (x y : A) l : n <> 0 -> exists l', put n x (y :: l) = y :: l'.
Proof. destruct n; [congruence|]. cbn. eauto. Qed.
Lemma mrun_snoc s l o : mrun s (l ++ [o]) = fst (mstep (mrun s l) o).
Proof. unfold mrun. now rewrite fold_left_app. Qed.
Lemma first_host_snoc l o : first_host (l ++ [o]) = match first_host l with Some h => Some h | None => match o with MGet h => h | _ => None end end.
Proof. induction l as [|[[h|]|n d|n d] l IH]; cbn; auto. destruct o as [[h|]| |]; reflexivity. Qed.
Lemma cached_run l : Forall spares_first l -> cached (first_host l) (mrun heap0 l).
Proof.
  induction l as [|o l IH] using rev_ind; intros F; [reflexivity|]. apply Forall_app in F as [F Fo]. specialize (IH F). inversion Fo as [|? ? Ho _]; subst.
  rewrite mrun_snoc, first_host_snoc. destruct (first_host l) as [h|]; cbn [cached] in IH |- *.
  - destruct IH as (C & (ds & D) & (ls & L)). destruct o as [h'|n d|n d]; cbn [mstep fst spares_first] in *.
    + unfold get_meta. rewrite C. cbn [fst meta_cache dicts lists]. rewrite D. split; [reflexivity|]. split; [eexists; reflexivity|eauto].
    + cbn [fst meta_cache dicts lists]. rewrite D. destruct (put_cons n d (fresh_dict h) ds Ho) as (l' & ->). split; [exact C|]. split; [eexists; reflexivity|eauto].
    + cbn [fst meta_cache dicts lists]. rewrite L. destruct (put_cons n d (h_ips h) ls Ho) as (l' & ->). split; [exact C|]. split; [eauto|eexists; reflexivity].
  - rewrite IH. destruct o as [[h'|]|[|n] d|[|n] d]; cbn; auto. split; [reflexivity|]. split; eexists; reflexivity.
Qed.
Theorem cache_private l o s n : Forall spares_first l -> mstep (mrun heap0 l) o = (s, Some n) -> exists h, first_host (l ++ [o]) = Some h /\ view s n = fresh_view h.
Proof.
  intros F E. pose proof (cached_run l F) as C. rewrite first_host_snoc. destruct (first_host l) as [h|]; cbn [cached] in C.
  - destruct C as (C & (ds & D) & (ls & L)). exists h. split; auto. destruct o as [h'|m d|m d]; try discriminate. cbn [mstep] in E. unfold get_meta in E. rewrite C in E.
    injection E as <- <-. unfold view. cbn [dicts lists]. rewrite app_nth2, Nat.sub_diag by lia. rewrite D. cbn [nth]. cbn. unfold see. cbn [lists]. rewrite L. reflexivity.
  - rewrite C in E. destruct o as [[h'|]|m d|m d]; try discriminate. cbn in E. injection E as <- <-. exists h'. split; reflexivity.
Qed.
Theorem cache_read_only l o s n : Forall reads_only l -> mstep (mrun heap0 l) o = (s, Some n) -> exists h, first_host (l ++ [o]) = Some h /\ view s n = fresh_view h.
Proof. intros F. apply cache_private. eapply Forall_impl; [|exact F]. intros []; cbn; tauto. Qed.
(** The first dictionary is the cache *)
Theorem cache_exposed h hst d s n : mstep (mrun heap0 [MGet (Some h); MDict 0 d]) (MGet hst) = (s, Some n) -> nth n (dicts s) [] = d.
Proof. cbn. intros [= <- <-]. reflexivity. Qed.
(** All dictionaries share one list of addresses *)
Theorem ip_list_shared h hst l s n : mstep (mrun heap0 [MGet (Some h); MGet hst; MList 0 l]) (MGet hst) = (s, Some n) -> dict_get text_eqb (T "ip_list") (view s n) = Some (inr l).
Proof. cbn. intros [= <- <-]. reflexivity. Qed.
(** ** As stated in Prop_Tools *)
Theorem tag_words output ws : words (utf8_ignore output) ws -> get_tag_list (Prints output) = TagList (map (firstn 25) ws).
Proof. intros H. destruct (tags_are_words output) as (ws' & H' & E). cbn [get_tag_list]. rewrite E. now rewrite (words_det _ _ H _ H'). Qed.
Theorem tag_words_exist output : exists ws, words (utf8_ignore output) ws.
Proof. destruct (tags_are_words output) as (ws & H & _). now exists ws. Qed.
Theorem tag_list_clean s tags t : get_tag_list s = TagList tags -> In t tags -> t <> [] /\ length t <= 25 /\ Forall (fun c => ~ between c) t.
Proof. destruct s; cbn; intros E; try discriminate E; injection E as <-; try easy. apply tags_clean. Qed.
Theorem revision_text content ls l1 l l2 v t : lines content ls -> ls = l1 ++ l :: l2 -> Forall (fun x => forall u, ~ revision_line x u) l1 ->
  revision_line l v -> utf8_decode v = Some t -> get_machine_revision (Some content) = Ok (Some t).
Proof. intros A B0 C D E. rewrite (revision_found _ _ _ _ _ _ A B0 C D). now rewrite E. Qed.
Theorem lines_one content : exists ls, lines content ls /\ forall ls', lines content ls' -> ls' = ls.
Proof. destruct (lines_exist content) as (ls & H). exists ls. split; [exact H|]. intros ls' H'. rewrite <- (lines_det _ _ H). symmetry. now apply lines_det. Qed.
Theorem environ_limit m : exists s z k, written s z k /\ forall default, get_environ_int (Some m) (Some s) default = default.
Proof.
  destruct (ones_written m) as (z & H). exists (repeat 49%N (S m)), z, (S m). split; [exact H|]. intros d. eapply environ_too_long; [exact H|lia].
Qed.
