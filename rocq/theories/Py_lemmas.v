From Verif Require Import Py.
Ltac Zify.zify_post_hook ::= Z.div_mod_to_equations.

(** ** Bytes *)
Lemma beqb_spec a b : reflect (a = b) (beqb a b).
Proof.
  unfold beqb. destruct (Byte.eqb a b) eqn:E; constructor.
  - now apply byte_dec_bl.
  - intros ->. rewrite (byte_dec_lb (eq_refl b)) in E. discriminate.
Qed.
Lemma beqb_refl a : beqb a a = true.
Proof. destruct (beqb_spec a a); congruence. Qed.
Lemma beqb_eq a b : beqb a b = true <-> a = b.
Proof. destruct (beqb_spec a b); split; congruence. Qed.
Lemma beqb_neq a b : beqb a b = false <-> a <> b.
Proof. destruct (beqb_spec a b); split; congruence. Qed.

Lemma list_eqb_eq {A} (eqb : A -> A -> bool) :
  (forall a b, eqb a b = true <-> a = b) ->
  forall l1 l2, list_eqb eqb l1 l2 = true <-> l1 = l2.
Proof.
  intros H l1; induction l1 as [|a l1 IH]; intros [|b l2]; cbn; try (split; congruence).
  rewrite andb_true_iff, H, IH. split; [intros [-> ->]; auto|intros [= -> ->]; auto].
Qed.
Lemma bytes_eqb_eq a b : bytes_eqb a b = true <-> a = b.
Proof. apply list_eqb_eq, beqb_eq. Qed.
Lemma text_eqb_eq a b : text_eqb a b = true <-> a = b.
Proof. apply list_eqb_eq. intros; apply N.eqb_eq. Qed.
Lemma bytes_eqb_refl a : bytes_eqb a a = true.
Proof. now apply bytes_eqb_eq. Qed.
Lemma text_eqb_refl a : text_eqb a a = true.
Proof. now apply text_eqb_eq. Qed.
Lemma bytes_eqb_spec a b : reflect (a = b) (bytes_eqb a b).
Proof. apply iff_reflect. symmetry. apply bytes_eqb_eq. Qed.
Lemma text_eqb_spec a b : reflect (a = b) (text_eqb a b).
Proof. apply iff_reflect. symmetry. apply text_eqb_eq. Qed.

Lemma to_N_lt b : (Byte.to_N b < 256)%N.
Proof. pose proof (Byte.to_N_bounded b). lia. Qed.
Lemma to_N_inj a b : Byte.to_N a = Byte.to_N b -> a = b.
Proof. intros H. apply (f_equal Byte.of_N) in H. rewrite !Byte.of_to_N in H. congruence. Qed.
Lemma byte_of_to_N b : byte_of (Byte.to_N b) = b.
Proof. unfold byte_of. now rewrite Byte.of_to_N. Qed.
Lemma to_N_byte_of n : (n < 256)%N -> Byte.to_N (byte_of n) = n.
Proof.
  intros H. unfold byte_of. destruct (Byte.of_N n) eqn:E.
  - now apply Byte.to_of_N.
  - apply Byte.of_N_None_iff in E. lia.
Qed.
Lemma n2b_b2n s : n2b (b2n s) = s.
Proof. unfold n2b, b2n. rewrite map_map. erewrite map_ext; [apply map_id|]. apply byte_of_to_N. Qed.
Lemma b2n_n2b s : Forall (fun n => (n < 256)%N) s -> b2n (n2b s) = s.
Proof.
  unfold n2b, b2n. rewrite map_map. induction 1; cbn; auto. rewrite to_N_byte_of, IHForall; auto.
Qed.
Lemma b2n_app a b : b2n (a ++ b) = b2n a ++ b2n b.
Proof. apply map_app. Qed.
Lemma n2b_app a b : n2b (a ++ b) = n2b a ++ n2b b.
Proof. apply map_app. Qed.
Lemma b2n_inj a b : b2n a = b2n b -> a = b.
Proof. intros H. rewrite <- (n2b_b2n a), H. apply n2b_b2n. Qed.
Lemma length_b2n a : length (b2n a) = length a.
Proof. apply map_length. Qed.
Lemma b2n_lt s : Forall (fun n => (n < 256)%N) (b2n s).
Proof. apply Forall_forall. intros x Hx. apply in_map_iff in Hx as [b [<- _]]. apply to_N_lt. Qed.

(** ** Lexicographic order *)
Lemma bytes_ltb_irrefl a : bytes_ltb a a = false.
Proof. induction a; cbn; auto. rewrite beqb_refl, IHa. rewrite N.ltb_irrefl. reflexivity. Qed.
Lemma bytes_ltb_trans a b c : bytes_ltb a b = true -> bytes_ltb b c = true -> bytes_ltb a c = true.
Proof.
  revert b c; induction a as [|x a IH]; intros [|y b] [|z c]; cbn; try congruence; auto.
  rewrite !orb_true_iff, !andb_true_iff, !N.ltb_lt, !beqb_eq.
  intros [H|[-> H]] [H'|[-> H']]; auto.
  - left. lia.
  - right. split; eauto.
Qed.
Lemma bytes_ltb_total a b : bytes_ltb a b = false -> bytes_ltb b a = false -> a = b.
Proof.
  revert b; induction a as [|x a IH]; intros [|y b]; cbn; try congruence.
  rewrite !orb_false_iff, !andb_false_iff, !N.ltb_ge, !beqb_neq.
  intros [H1 H2] [H3 H4]. assert (x = y) as -> by (apply to_N_inj; lia).
  f_equal. apply IH; intuition congruence.
Qed.
Lemma bytes_ltb_asym a b : bytes_ltb a b = true -> bytes_ltb b a = false.
Proof.
  intros H. destruct (bytes_ltb b a) eqn:E; auto.
  pose proof (bytes_ltb_trans _ _ _ H E). rewrite bytes_ltb_irrefl in *. congruence.
Qed.

(** ** Decimal numbers *)
Definition digits_value (s : list N) (acc : N) : N :=
  fold_left (fun a c => (10 * a + (c - 48))%N) s acc.

Lemma digits_value_app a b acc : digits_value (a ++ b) acc = digits_value b (digits_value a acc).
Proof. apply fold_left_app. Qed.

Lemma digits_fuel_app fuel n acc : exists ds,
  digits_fuel fuel n acc = ds ++ acc /\ Forall (fun c => is_digit c = true) ds.
Proof.
  revert n acc; induction fuel as [|f IH]; intros n acc; cbn [digits_fuel].
  - exists []; split; auto.
  - assert (Hd : is_digit (48 + n mod 10) = true) by (unfold is_digit; lia).
    destruct (n / 10 =? 0)%N.
    + exists [(48 + n mod 10)%N]. auto.
    + destruct (IH (n / 10)%N ((48 + n mod 10)%N :: acc)) as [ds [-> H]].
      exists (ds ++ [(48 + n mod 10)%N]). rewrite <- app_assoc. split; auto.
      apply Forall_app; auto.
Qed.

Lemma digits_fuel_value fuel n acc :
  (n < 2 ^ N.of_nat fuel)%N -> fuel <> 0 ->
  digits_value (digits_fuel fuel n acc) 0 = digits_value acc n.
Proof.
  revert n acc; induction fuel as [|f IH]; intros n acc Hn Hf; [congruence|].
  cbn [digits_fuel]. destruct (N.eqb_spec (n / 10) 0) as [E|E].
  - unfold digits_value; cbn [fold_left]. f_equal. lia.
  - rewrite IH.
    + unfold digits_value; cbn [fold_left]. f_equal. lia.
    + replace (N.of_nat (S f)) with (N.succ (N.of_nat f)) in Hn by lia.
      rewrite N.pow_succ_r' in Hn. lia.
    + intros ->. cbn in Hn. lia.
Qed.

Lemma size_nat_bound n : (n < 2 ^ N.of_nat (S (N.size_nat n)))%N.
Proof.
  assert (H : N.of_nat (N.size_nat n) = N.size n).
  { destruct n as [|p]; [reflexivity|]. cbn. induction p; cbn [Pos.size_nat Pos.size]; auto;
      rewrite Nat2N.inj_succ, IHp; reflexivity. }
  rewrite Nat2N.inj_succ, H, N.pow_succ_r'. pose proof (N.size_gt n). lia.
Qed.

Lemma dec_N_digits n : Forall (fun c => is_digit c = true) (dec_N n).
Proof. unfold dec_N. destruct (digits_fuel_app (S (N.size_nat n)) n []) as [ds [-> H]]. now rewrite app_nil_r. Qed.
Lemma dec_N_value n : digits_value (dec_N n) 0 = n.
Proof. unfold dec_N. rewrite digits_fuel_value; auto. apply size_nat_bound. Qed.
Lemma dec_N_nonempty n : dec_N n <> [].
Proof.
  unfold dec_N. cbn [digits_fuel]. destruct (_ =? 0)%N; [discriminate|].
  destruct (digits_fuel_app (N.size_nat n) (n / 10) [(48 + n mod 10)%N]) as [ds [-> _]].
  now destruct ds.
Qed.
Lemma dec_N_cons n : exists c r, dec_N n = c :: r /\ is_digit c = true.
Proof.
  pose proof (dec_N_digits n). pose proof (dec_N_nonempty n). destruct (dec_N n) as [|c r]; [congruence|].
  inversion H; eauto.
Qed.

Lemma digits_us_digits s prev acc :
  Forall (fun c => is_digit c = true) s -> s <> [] \/ prev = true ->
  digits_us s prev acc = Some (digits_value s acc).
Proof.
  revert prev acc; induction s as [|c s IH]; intros prev acc H Hn.
  - cbn. destruct Hn as [Hn| ->]; congruence.
  - inversion H as [|? ? Hc Hs]; subst. cbn. rewrite Hc. rewrite IH; auto.
Qed.

Lemma is_digit_not_ws c : is_digit c = true -> ws_bytes c = false.
Proof. unfold is_digit, ws_bytes. lia. Qed.
Lemma is_digit_not_ws_text c : is_digit c = true -> ws_text c = false.
Proof. unfold is_digit, ws_text. lia. Qed.

Lemma lstrip_id ws c r : ws c = false -> lstrip ws (c :: r) = c :: r.
Proof. cbn. now intros ->. Qed.
Lemma rstrip_id ws c r : ws c = false -> rstrip ws (r ++ [c]) = r ++ [c].
Proof. intros H. unfold rstrip. rewrite rev_app_distr. cbn. rewrite H. cbn. now rewrite rev_involutive. Qed.
Lemma strip_id ws s :
  (forall c, In c s -> ws c = false) -> strip ws s = s.
Proof.
  intros H. unfold strip. destruct s as [|c s]; auto.
  rewrite lstrip_id by (apply H; now left).
  destruct (@exists_last _ (c :: s)) as [l [a E]]; [discriminate|].
  rewrite E. apply rstrip_id. apply H. rewrite E. apply in_or_app. right. now left.
Qed.

(** [int(str(z)) = z] *)
Lemma py_int_dec ws z :
  (forall c, is_digit c = true -> ws c = false) -> ws 45%N = false ->
  py_int ws (dec_Z z) = Some z.
Proof.
  intros Hd Hm. unfold py_int, dec_Z.
  pose proof (fun n => proj1 (Forall_forall _ _) (dec_N_digits n)) as HD.
  destruct (Z.ltb_spec z 0).
  - rewrite strip_id.
    + rewrite digits_us_digits; [|apply dec_N_digits|left; apply dec_N_nonempty].
      rewrite dec_N_value. cbn. f_equal. lia.
    + intros c [<-|Hc]; eauto.
  - rewrite strip_id by eauto.
    destruct (dec_N_cons (Z.to_N z)) as [c [r [E Hc]]].
    assert (Hus : digits_us (dec_N (Z.to_N z)) false 0 = Some (Z.to_N z)).
    { rewrite digits_us_digits; [|apply dec_N_digits|left; apply dec_N_nonempty]. now rewrite dec_N_value. }
    rewrite E in *.
    assert (c <> 45%N /\ c <> 43%N) as [H45 H43] by (unfold is_digit in Hc; lia).
    assert (G : option_map Z.of_N (digits_us (c :: r) false 0) = Some z).
    { rewrite Hus. cbn. f_equal. lia. }
    destruct c as [|p]; [exact G|].
    do 6 (destruct p as [p|p|]; try exact G; try congruence).
Qed.

Lemma dec_Z_lt z : Forall (fun n => (n < 256)%N) (dec_Z z).
Proof.
  assert (G : forall n, Forall (fun n => (n < 256)%N) (dec_N n)).
  { intros n. eapply Forall_impl; [|apply dec_N_digits]. unfold is_digit. intros; lia. }
  unfold dec_Z. destruct (z <? 0)%Z; auto. constructor; auto. lia.
Qed.

Lemma int_of_bytes_of_int z : int_of_bytes (bytes_of_int z) = Some z.
Proof.
  unfold int_of_bytes, bytes_of_int. rewrite b2n_n2b by apply dec_Z_lt.
  apply py_int_dec; auto using is_digit_not_ws.
Qed.

(** ** UTF-8 *)
Ltac inv_some H :=
  match type of H with
  | Some ?x = Some ?y => apply (f_equal (fun o => match o with Some v => v | None => x end)) in H;
                         cbv beta iota in H; subst y
  end.

Lemma utf8_enc1_lt c l : utf8_enc1 c = Some l -> Forall (fun n => (n < 256)%N) l.
Proof.
  unfold utf8_enc1. intros H.
  repeat match type of H with context [if ?b then _ else _] => destruct b eqn:? end;
    try discriminate; inv_some H; repeat (apply Forall_cons; [lia|]); apply Forall_nil.
Qed.
Lemma utf8_enc_lt t l : utf8_enc t = Some l -> Forall (fun n => (n < 256)%N) l.
Proof.
  revert l; induction t as [|c t IH]; cbn; intros l H.
  - injection H as <-. constructor.
  - destruct (utf8_enc1 c) eqn:E1; [|discriminate]. destruct (utf8_enc t) eqn:E2; [|discriminate].
    injection H as <-. apply Forall_app. split; eauto using utf8_enc1_lt.
Qed.

Lemma utf8_dec_enc1 c l s : utf8_enc1 c = Some l -> utf8_dec (l ++ s) = option_map (cons c) (utf8_dec s).
Proof.
  unfold utf8_enc1. intros H.
  repeat match type of H with context [if ?b then _ else _] => destruct b eqn:? end;
    try discriminate; inv_some H; cbn [app utf8_dec].
  - replace (c <? 128)%N with true by lia. reflexivity.
  - replace (192 + c / 64 <? 128)%N with false by lia.
    replace ((194 <=? 192 + c / 64) && (192 + c / 64 <=? 223))%N with true by lia.
    replace (is_cont (128 + c mod 64)) with true by (unfold is_cont; lia).
    do 2 f_equal. lia.
  - replace (224 + c / 4096 <? 128)%N with false by lia.
    replace ((194 <=? 224 + c / 4096) && (224 + c / 4096 <=? 223))%N with false by lia.
    replace ((224 <=? 224 + c / 4096) && (224 + c / 4096 <=? 239))%N with true by lia.
    set (cp := ((_ - 224) * 4096 + _ + _)%N).
    assert (cp = c) as -> by (unfold cp; clear -Heqb1 Heqb0; lia).
    replace (is_cont (128 + (c / 64) mod 64)) with true by (unfold is_cont; lia).
    replace (is_cont (128 + c mod 64)) with true by (unfold is_cont; lia).
    replace (2048 <=? c)%N with true by lia. rewrite Heqb2. reflexivity.
  - replace (240 + c / 262144 <? 128)%N with false by lia.
    replace ((194 <=? 240 + c / 262144) && (240 + c / 262144 <=? 223))%N with false by lia.
    replace ((224 <=? 240 + c / 262144) && (240 + c / 262144 <=? 239))%N with false by lia.
    replace ((240 <=? 240 + c / 262144) && (240 + c / 262144 <=? 244))%N with true by lia.
    set (cp := ((_ - 240) * 262144 + _ + _ + _)%N).
    assert (cp = c) as -> by (unfold cp; clear -Heqb1 Heqb2; lia).
    replace (is_cont (128 + (c / 4096) mod 64)) with true by (unfold is_cont; lia).
    replace (is_cont (128 + (c / 64) mod 64)) with true by (unfold is_cont; lia).
    replace (is_cont (128 + c mod 64)) with true by (unfold is_cont; lia).
    replace (65536 <=? c)%N with true by lia.
    replace (c <? 1114112)%N with true by lia. reflexivity.
Qed.

Lemma utf8_dec_enc t l : utf8_enc t = Some l -> utf8_dec l = Some t.
Proof.
  revert l; induction t as [|c t IH]; cbn [utf8_enc]; intros l H.
  - injection H as <-. reflexivity.
  - destruct (utf8_enc1 c) eqn:E1; [|discriminate]. destruct (utf8_enc t) eqn:E2; [|discriminate].
    injection H as <-. erewrite utf8_dec_enc1 by eauto. erewrite IH by eauto. reflexivity.
Qed.
Lemma utf8_decode_encode t b : utf8_encode t = Some b -> utf8_decode b = Some t.
Proof.
  unfold utf8_encode, utf8_decode. destruct (utf8_enc t) eqn:E; [|discriminate].
  intros [= <-]. rewrite b2n_n2b by eauto using utf8_enc_lt. now apply utf8_dec_enc.
Qed.
Lemma utf8_encode_inj t1 t2 b : utf8_encode t1 = Some b -> utf8_encode t2 = Some b -> t1 = t2.
Proof. intros H1 H2. apply utf8_decode_encode in H1, H2. congruence. Qed.
