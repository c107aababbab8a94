From Verif Require Import Py Py_lemmas Model_Bencode Spec_Bencode Proof_Bencode Model_Client Model_Depth Spec_Depth.
From Coq Require Import Lia.

Definition same {A} (a b : res A) : Prop := a = b \/ refused a.
Lemma same_refl {A} (a : res A) : same a a. Proof. now left. Qed.
Lemma same_value {A} (b : res A) : same (Raise EValue) b. Proof. right. now right. Qed.
Lemma same_bind {A B} (a a' : res A) (k k' : A -> res B) : same a a' -> (forall x, a' = Ok x -> same (k x) (k' x)) -> same (bind a k) (bind a' k').
Proof. intros [->|[->| ->]] H; [destruct a'; cbn; auto using same_refl|right; now left|apply same_value]. Qed.
Lemma limited_int_same m b : limited_int m b = int_of_bytes b \/ limited_int m b = None.
Proof. unfold limited_int. destruct m as [k|]; [|auto]. destruct (_ <? _); auto. Qed.
Lemma number_same m s : forall acc, same (ldec_number m s acc) (dec_number s acc).
Proof.
  induction s as [|c s IH]; intros acc; cbn; [apply same_refl|]. destruct (_ && _); [|apply IH]. destruct (negb _); [apply same_refl|].
  destruct (limited_int_same m acc) as [-> | ->]; [apply same_refl|apply same_value].
Qed.
Lemma size_same m f : forall s acc, same (ldec_size m f s acc) (dec_size f s acc).
Proof.
  induction f as [|f IH]; intros s acc; cbn; [apply same_refl|]. destruct s as [|c s]; [apply IH|]. destruct (beqb c ":"); [|apply IH].
  destruct (limited_int_same m acc) as [-> | ->]; [apply same_refl|apply same_value].
Qed.
Lemma dec_same m f :
  (forall d s, same (ldec m f d s) (dec f s)) /\ (forall d s acc, same (ldec_list m f d s acc) (dec_list f s acc)) /\
  (forall d s acc, same (ldec_dict m f d s acc) (dec_dict f s acc)).
Proof.
  induction f as [|f (IHd & IHl & IHk)]; cbn; (split; [|split]); try (intros; apply same_refl).
  - intros [|d] s; [right; now left|]. destruct s as [|c s]; [apply same_refl|].
    destruct (beqb c "e"); [apply same_refl|]. destruct (beqb c "i"); [apply number_same|]. destruct (beqb c "l"); [apply IHl|].
    destruct (beqb c "d"); [apply IHk|apply size_same].
  - intros d s acc. apply same_bind; [apply IHd|]. intros [v r] _. cbn. destruct v; try apply IHl. apply same_refl.
  - intros d s acc. apply same_bind; [apply IHd|]. intros [v r] _. cbn. destruct v;
      try (apply same_bind; [apply IHd|]; intros [y r'] _; apply IHk). apply same_refl.
Qed.
Lemma decode_same L s : ldecode L s = decode s \/ refused (ldecode L s).
Proof. unfold ldecode, decode, decode_rest. apply same_bind; [apply dec_same|]. intros x _. apply same_refl. Qed.

(** ** Enough *)
Lemma digits_app a b : digits (a ++ b) = digits a + digits b.
Proof. unfold digits. now rewrite filter_app, app_length. Qed.
Lemma digits_cons c s : digits s <= digits (c :: s).
Proof. unfold digits. cbn. destruct (is_digit _); cbn; lia. Qed.
Definition fits (m : option nat) (n : nat) : Prop := forall k, m = Some k -> n <= k.
Lemma limited_int_fits m b : fits m (digits b) -> limited_int m b = int_of_bytes b.
Proof.
  unfold limited_int, digits. destruct m as [k|]; [|reflexivity]. intros F. specialize (F k eq_refl).
  destruct (Nat.ltb_spec k (length (filter (fun c => is_digit (Byte.to_N c)) b))); [lia|reflexivity].
Qed.
Lemma fits_le m a b : a <= b -> fits m b -> fits m a.
Proof. intros L F k E. specialize (F k E). lia. Qed.
Ltac fit F := eapply fits_le; [|exact F]; rewrite ?digits_app; cbn [app]; lia.
Lemma number_fits m s : forall acc, fits m (digits s + digits acc) -> ldec_number m s acc = dec_number s acc.
Proof.
  induction s as [|c s IH]; intros acc F; cbn; [reflexivity|]. pose proof (digits_app [c] s) as A. cbn [app] in A. rewrite limited_int_fits by fit F.
  destruct (_ && _); [reflexivity|]. apply IH. fit F.
Qed.
Lemma size_fits m f : forall s acc, fits m (digits s + digits acc) -> ldec_size m f s acc = dec_size f s acc.
Proof.
  induction f as [|f IH]; intros s acc F; cbn; [reflexivity|]. destruct s as [|c s].
  - apply IH. rewrite app_nil_r. exact F.
  - pose proof (digits_app [c] s) as A. cbn [app] in A. rewrite limited_int_fits by fit F. destruct (beqb c ":"); [reflexivity|]. apply IH. fit F.
Qed.
Lemma dec_suffix f s v r : dec f s = Ok (v, r) -> exists p, s = p ++ r.
Proof.
  intros E. apply (decode_rest_suffix s v). rewrite <- (dec_enough (max f (decode_fuel s)) s) by lia. rewrite (dec_mono_le f); [exact E|lia|congruence].
Qed.
Lemma nesting_app p r : nesting (p ++ r) = nesting p + nesting r.
Proof. unfold nesting. rewrite !count_occ_app. lia. Qed.
Lemma nesting_cons c r : nesting r <= nesting (c :: r).
Proof. change (c :: r) with ([c] ++ r). rewrite nesting_app. lia. Qed.
Lemma dec_fits m f :
  (forall d s, nesting s < d -> fits m (digits s) -> ldec m f d s = dec f s) /\
  (forall d s acc, nesting s < d -> fits m (digits s) -> ldec_list m f d s acc = dec_list f s acc) /\
  (forall d s acc, nesting s < d -> fits m (digits s) -> ldec_dict m f d s acc = dec_dict f s acc).
Proof.
  induction f as [|f (IHd & IHl & IHk)]; cbn; (split; [|split]); try reflexivity.
  - intros [|d] s N F; [lia|]. destruct s as [|c s]; [reflexivity|]. pose proof (digits_app [c] s) as A. cbn [app] in A. pose proof (eq_refl : digits [] = 0) as Z.
    destruct (beqb c "e"); [reflexivity|]. destruct (beqb c "i"); [apply number_fits; fit F|].
    destruct (beqb c "l") eqn:El; [apply beqb_eq in El; subst c; apply IHl; [unfold nesting in *; cbn in N; lia|fit F]|].
    destruct (beqb c "d") eqn:Ed; [apply beqb_eq in Ed; subst c; apply IHk; [unfold nesting in *; cbn in N; lia|fit F]|].
    apply size_fits. fit F.
  - intros d s acc N F. rewrite (IHd _ _ N F). destruct (dec f s) as [[v r]| |] eqn:E; cbn; try reflexivity.
    apply dec_suffix in E as [p ->]. rewrite nesting_app in N. pose proof (digits_app p r) as A.
    destruct v; try (apply IHl; [lia|fit F]). reflexivity.
  - intros d s acc N F. rewrite (IHd _ _ N F). destruct (dec f s) as [[v r]| |] eqn:E; cbn; try reflexivity.
    apply dec_suffix in E as [p ->]. rewrite nesting_app in N. pose proof (digits_app p r) as A.
    assert (R : forall k, (y <- ldec m f d r ;; ldec_dict m f d (snd y) ((k, fst y) :: acc)) = (y <- dec f r ;; dec_dict f (snd y) ((k, fst y) :: acc))).
    { intros k. rewrite (IHd d r) by first [lia|fit F]. destruct (dec f r) as [[y r']| |] eqn:E; cbn; try reflexivity.
      apply dec_suffix in E as [p' ->]. rewrite nesting_app in N. pose proof (digits_app p' r') as A'. apply IHk; [lia|fit F]. }
    destruct v; try apply R. reflexivity.
Qed.
Lemma decode_within L s : within L s -> ldecode L s = decode s.
Proof. intros [N F]. unfold ldecode, decode, decode_rest. now rewrite (proj1 (dec_fits _ _) _ _ N F). Qed.

(** ** Not enough *)
Lemma lists_refused m d : forall f n s, d <= n -> 2 * d < f -> ldec m f d (repeat "l"%byte n ++ s) = Raise EOther.
Proof.
  induction d as [|d IH]; intros [|f] n s N F; try lia; [reflexivity|]. destruct n as [|n]; [lia|]. cbn.
  destruct f as [|f]; [lia|]. cbn. now rewrite IH by lia.
Qed.
Lemma deep_refused L n s : frames L <= n -> ldecode L (repeat "l"%byte n ++ s) = Raise EOther.
Proof. intros H. unfold ldecode. rewrite lists_refused; [reflexivity|exact H|]. unfold decode_fuel. rewrite app_length, repeat_length. lia. Qed.
Lemma number_refused m k ds r : m = Some k -> Forall (fun c => is_digit (Byte.to_N c) = true) ds ->
  forall acc, k < length (filter (fun c => is_digit (Byte.to_N c)) acc) + length ds -> ldec_number m (ds ++ "e"%byte :: r) acc = Raise EValue.
Proof.
  intros -> D. induction D as [|c ds Dc _ IH]; intros acc H; cbn.
  - change (match limited_int (Some k) acc with Some z => Ok (VInt z, r) | None => Raise EValue end = Raise EValue). unfold limited_int.
    destruct (Nat.ltb_spec k (length (filter (fun c => is_digit (Byte.to_N c)) acc))); [reflexivity|cbn in H; lia].
  - rewrite Dc. cbn. apply IH. rewrite filter_app, app_length. cbn. rewrite Dc. cbn in *. lia.
Qed.
Lemma long_refused L k ds s : frames L <> 0 -> max_digits L = Some k -> Forall (fun c => is_digit (Byte.to_N c) = true) ds -> k < length ds ->
  ldecode L ("i"%byte :: ds ++ "e"%byte :: s) = Raise EValue.
Proof.
  intros N M D H. unfold ldecode, decode_fuel. rewrite Nat.add_1_r. cbn [ldec]. destruct (frames L) as [|d]; [congruence|].
  change (beqb "i" "e") with false. change (beqb "i" "i") with true. cbv iota. rewrite (number_refused _ k); [reflexivity|exact M|exact D|cbn; lia].
Qed.

(** ** Hanging is never an artefact of the fuel *)
Lemma limited_hang L s : ldecode L s = Hang -> stuck s.
Proof. intros H. apply decode_stuck. destruct (decode_same L s) as [<-|[E|E]]; congruence. Qed.
Lemma lsize_nil m f : forall acc, ldec_size m f [] acc = Hang.
Proof. induction f; cbn; auto. Qed.
Lemma lsize_fuel m s : forall f1 f2 acc, length s < f1 -> length s < f2 -> ldec_size m f1 s acc = ldec_size m f2 s acc.
Proof.
  induction s as [|c s IH]; intros f1 f2 acc H1 H2; [now rewrite !lsize_nil|]. cbn in H1, H2. destruct f1 as [|f1]; [lia|]. destruct f2 as [|f2]; [lia|]. cbn.
  destruct (beqb c ":"); auto. apply IH; lia.
Qed.
Lemma ldec_progress m f d s v r : ldec m f d s = Ok (v, r) -> length r < length s.
Proof.
  intros E. destruct (proj1 (dec_same m f) d s) as [H|[H|H]]; try congruence. rewrite E in H. symmetry in H. now apply (proj1 (dec_progress f)) in H.
Qed.
Lemma ldec_fuel m n :
  (forall d s f1 f2, length s <= n -> 2 * n + 1 <= f1 -> 2 * n + 1 <= f2 -> ldec m f1 d s = ldec m f2 d s) /\
  (forall d s acc f1 f2, length s <= n -> 2 * n + 2 <= f1 -> 2 * n + 2 <= f2 -> ldec_list m f1 d s acc = ldec_list m f2 d s acc) /\
  (forall d s acc f1 f2, length s <= n -> 2 * n + 2 <= f1 -> 2 * n + 2 <= f2 -> ldec_dict m f1 d s acc = ldec_dict m f2 d s acc).
Proof.
  induction n as [n IHn] using (well_founded_induction lt_wf).
  assert (D : forall d s f1 f2, length s <= n -> 2 * n + 1 <= f1 -> 2 * n + 1 <= f2 -> ldec m f1 d s = ldec m f2 d s).
  { intros d s f1 f2 Hs H1 H2. destruct f1 as [|f1]; [lia|]. destruct f2 as [|f2]; [lia|]. destruct d as [|d]; [reflexivity|].
    destruct s as [|c s]; [reflexivity|]. cbn in Hs |- *. destruct (IHn (n - 1)) as (_ & IHl & IHk); [lia|].
    destruct (beqb c "e"); auto. destruct (beqb c "i"); auto.
    destruct (beqb c "l"); [apply IHl; lia|]. destruct (beqb c "d"); [apply IHk; lia|]. apply lsize_fuel; lia. }
  split; [exact D|]. split.
  - intros d s acc f1 f2 Hs H1 H2. destruct f1 as [|f1]; [lia|]. destruct f2 as [|f2]; [lia|]. cbn.
    rewrite (D d s f1 f2) by lia. destruct (ldec m f2 d s) as [[x r]| |] eqn:E; auto. cbn.
    apply ldec_progress in E. destruct (IHn (n - 1)) as (_ & IHl & IHk); [lia|]. destruct x; auto; apply IHl; lia.
  - intros d s acc f1 f2 Hs H1 H2. destruct f1 as [|f1]; [lia|]. destruct f2 as [|f2]; [lia|]. cbn.
    rewrite (D d s f1 f2) by lia. destruct (ldec m f2 d s) as [[x r]| |] eqn:E; auto. cbn.
    apply ldec_progress in E. rewrite (D d r f1 f2) by lia. destruct (ldec m f2 d r) as [[y r2]| |] eqn:E2; auto. cbn.
    apply ldec_progress in E2. destruct (IHn (n - 1)) as (_ & IHl & IHk); [lia|]. destruct x; auto; apply IHk; lia.
Qed.
Lemma limited_fuel L s f : decode_fuel s <= f -> ldecode L s = (x <- ldec (max_digits L) f (frames L) s ;; Ok (fst x)).
Proof. intros H. unfold ldecode. rewrite (proj1 (ldec_fuel _ (length s)) _ _ (decode_fuel s) f); auto; unfold decode_fuel in *; lia. Qed.

(** ** Sessions *)
Lemma lstep_same env text L i st : (lstep env text L i st = step env text i st /\ forall d, i = InEvent (EvBinary d) -> ldecode L d = decode d) \/
  exists d, i = InEvent (EvBinary d) /\ refused (ldecode L d) /\ lstep env text L i st = (st, Ok tt).
Proof.
  destruct i as [e|p|c k|]; try (left; split; [reflexivity|discriminate]). destruct e as [| |d| |]; try (left; split; [reflexivity|discriminate]). cbn.
  destruct (decode_same L d) as [E|R].
  - left. split; [|intros d' [= <-]; exact E]. unfold guard, lon_binary, on_binary. now rewrite E.
  - right. exists d. split; [reflexivity|]. split; [exact R|]. unfold guard, lon_binary. now destruct R as [-> | ->].
Qed.
Lemma sessions env text l : forall st, exists k, without_refused l k /\ lrun env text l st = run env text k st.
Proof.
  induction l as [|[L i] l IH]; intros st; [exists []; split; [constructor|reflexivity]|]. cbn.
  destruct (lstep_same env text L i st) as [[E K]|(d & -> & R & E)]; rewrite E.
  - destruct (step env text i st) as [st' o] eqn:Es. destruct (IH st') as (k & W & H). exists (i :: k). split; [now constructor|].
    cbn. rewrite Es. now destruct o.
  - destruct (IH st) as (k & W & H). exists k. split; [now constructor|exact H].
Qed.
