From Coq Require Import Permutation Sorted.
From Verif Require Import Py Py_lemmas Model_Bencode Spec_Bencode.

(** ** Induction on values *)
Section ValInd.
  Variable P : val -> Prop.
  Hypothesis HB : forall b, P (VBytes b).
  Hypothesis HT : forall t, P (VText t).
  Hypothesis HI : forall z, P (VInt z).
  Hypothesis HBo : forall b, P (VBool b).
  Hypothesis HN : P VNone.
  Hypothesis HO : forall n, P (VOther n).
  Hypothesis HL : forall l, Forall P l -> P (VList l).
  Hypothesis HTu : forall l, Forall P l -> P (VTuple l).
  Hypothesis HD : forall d, Forall (fun p => P (fst p) /\ P (snd p)) d -> P (VDict d).
  Fixpoint val_ind' (v : val) : P v :=
    match v with
    | VBytes b => HB b
    | VText t => HT t
    | VInt z => HI z
    | VBool b => HBo b
    | VNone => HN
    | VOther n => HO n
    | VList l => HL l ((fix go l := match l return Forall P l with
                          | [] => Forall_nil _
                          | x :: r => Forall_cons _ (val_ind' x) (go r) end) l)
    | VTuple l => HTu l ((fix go l := match l return Forall P l with
                          | [] => Forall_nil _
                          | x :: r => Forall_cons _ (val_ind' x) (go r) end) l)
    | VDict d => HD d ((fix go d := match d return Forall (fun p => P (fst p) /\ P (snd p)) d with
                          | [] => Forall_nil _
                          | x :: r => Forall_cons x (conj (val_ind' (fst x)) (val_ind' (snd x))) (go r) end) d)
    end.
End ValInd.

(** ** Progress and fuel *)
Lemma bind_ok {A B} (r : res A) (k : A -> res B) b :
  bind r k = Ok b -> exists a, r = Ok a /\ k a = Ok b.
Proof. destruct r; cbn; try discriminate. eauto. Qed.

Lemma dec_number_progress s acc v r : dec_number s acc = Ok (v, r) -> length r < length s.
Proof.
  revert acc; induction s as [|c s IH]; intros acc; cbn; [discriminate|].
  destruct (_ && _).
  - destruct (negb _); [discriminate|]. destruct (int_of_bytes acc); [|discriminate].
    intros [= _ <-]. lia.
  - intros H. apply IH in H. lia.
Qed.

Lemma py_read_split z s a r : py_read z s = Ok (a, r) -> s = a ++ r.
Proof.
  unfold py_read. destruct (_ || _); [discriminate|]. destruct (z <? 0)%Z.
  - intros [= <- <-]. now rewrite app_nil_r.
  - intros [= <- <-]. symmetry. apply firstn_skipn.
Qed.

Lemma dec_size_progress f s acc v r : dec_size f s acc = Ok (v, r) ->
  exists a, v = VBytes a /\ length a + length r < length s.
Proof.
  revert s acc; induction f as [|f IH]; intros s acc; cbn; [discriminate|].
  destruct s as [|c s].
  - intros H. apply IH in H as [a [? ?]]. cbn in *; lia.
  - destruct (beqb c ":").
    + destruct (int_of_bytes acc); [|discriminate]. intros H.
      apply bind_ok in H as [[a b] [H1 H2]]. injection H2 as <- <-.
      apply py_read_split in H1. exists a. subst s. cbn. rewrite app_length. split; [auto|lia].
    + intros H. apply IH in H as [a [? ?]]. exists a. cbn. split; [auto|lia].
Qed.

Lemma dec_progress f :
  (forall s v r, dec f s = Ok (v, r) -> length r < length s) /\
  (forall s acc v r, dec_list f s acc = Ok (v, r) -> length r < length s) /\
  (forall s acc v r, dec_dict f s acc = Ok (v, r) -> length r < length s).
Proof.
  induction f as [|f (IHd & IHl & IHk)]; cbn; (split; [|split]); try (intros; discriminate).
  - intros [|c s] v r; [discriminate|].
    destruct (beqb c "e"); [intros [= _ <-]; cbn; lia|].
    destruct (beqb c "i"); [intros H; apply dec_number_progress in H; cbn; lia|].
    destruct (beqb c "l"); [intros H; apply IHl in H; cbn; lia|].
    destruct (beqb c "d"); [intros H; apply IHk in H; cbn; lia|].
    intros H; apply dec_size_progress in H as [a [? ?]]; cbn; lia.
  - intros s acc v r H. apply bind_ok in H as [[x s1] [H1 H2]]. apply IHd in H1. cbn [fst snd] in H2.
    destruct x; try (apply IHl in H2; lia). injection H2 as <- <-. lia.
  - intros s acc v r H. apply bind_ok in H as [[x s1] [H1 H2]]. apply IHd in H1. cbn [fst snd] in H2.
    destruct x;
      try (apply bind_ok in H2 as [[y s2] [H3 H4]]; apply IHd in H3; cbn [fst snd] in *; apply IHk in H4; lia).
    destruct (forallb _ _); [|discriminate]. injection H2 as <- <-. lia.
Qed.

Lemma dec_size_nil f acc : dec_size f [] acc = Hang.
Proof. revert acc; induction f; cbn; auto. Qed.

Lemma dec_size_fuel f1 f2 s acc : length s < f1 -> length s < f2 -> dec_size f1 s acc = dec_size f2 s acc.
Proof.
  revert f1 f2 acc; induction s as [|c s IH]; intros f1 f2 acc H1 H2.
  - now rewrite !dec_size_nil.
  - cbn in H1, H2. destruct f1 as [|f1]; [lia|]. destruct f2 as [|f2]; [lia|]. cbn.
    destruct (beqb c ":"); auto. apply IH; lia.
Qed.

Lemma dec_fuel_indep n :
  (forall s f1 f2, length s <= n -> 2 * n + 1 <= f1 -> 2 * n + 1 <= f2 -> dec f1 s = dec f2 s) /\
  (forall s acc f1 f2, length s <= n -> 2 * n + 2 <= f1 -> 2 * n + 2 <= f2 -> dec_list f1 s acc = dec_list f2 s acc) /\
  (forall s acc f1 f2, length s <= n -> 2 * n + 2 <= f1 -> 2 * n + 2 <= f2 -> dec_dict f1 s acc = dec_dict f2 s acc).
Proof.
  induction n as [n IHn] using (well_founded_induction lt_wf).
  assert (D : forall s f1 f2, length s <= n -> 2 * n + 1 <= f1 -> 2 * n + 1 <= f2 -> dec f1 s = dec f2 s).
  { intros s f1 f2 Hs H1 H2. destruct f1 as [|f1]; [lia|]. destruct f2 as [|f2]; [lia|].
    destruct s as [|c s]; [reflexivity|]. cbn in Hs |- *.
    destruct (IHn (n - 1)) as (_ & IHl & IHk); [lia|].
    destruct (beqb c "e"); auto. destruct (beqb c "i"); auto.
    destruct (beqb c "l"); [apply IHl; lia|]. destruct (beqb c "d"); [apply IHk; lia|].
    apply dec_size_fuel; lia. }
  split; [exact D|]. split.
  - intros s acc f1 f2 Hs H1 H2. destruct f1 as [|f1]; [lia|]. destruct f2 as [|f2]; [lia|]. cbn.
    rewrite (D s f1 f2) by lia. destruct (dec f2 s) as [[x r]| |] eqn:E; auto. cbn.
    apply (proj1 (dec_progress f2)) in E. destruct (IHn (n - 1)) as (_ & IHl & IHk); [lia|].
    destruct x; auto; apply IHl; lia.
  - intros s acc f1 f2 Hs H1 H2. destruct f1 as [|f1]; [lia|]. destruct f2 as [|f2]; [lia|]. cbn.
    rewrite (D s f1 f2) by lia. destruct (dec f2 s) as [[x r]| |] eqn:E; auto. cbn.
    apply (proj1 (dec_progress f2)) in E. rewrite (D r f1 f2) by lia.
    destruct (dec f2 r) as [[y r2]| |] eqn:E2; auto. cbn.
    apply (proj1 (dec_progress f2)) in E2. destruct (IHn (n - 1)) as (_ & IHl & IHk); [lia|].
    destruct x; auto; apply IHk; lia.
Qed.

Lemma dec_enough f s : decode_fuel s <= f -> dec f s = decode_rest s.
Proof. intros H. unfold decode_rest. apply (proj1 (dec_fuel_indep (length s))); unfold decode_fuel in *; lia. Qed.
Lemma dec_list_enough f s acc : decode_fuel s < f -> dec_list f s acc = dec_list (S (decode_fuel s)) s acc.
Proof. intros H. apply (proj1 (proj2 (dec_fuel_indep (length s)))); unfold decode_fuel in *; lia. Qed.
Lemma dec_dict_enough f s acc : decode_fuel s < f -> dec_dict f s acc = dec_dict (S (decode_fuel s)) s acc.
Proof. intros H. apply (proj2 (proj2 (dec_fuel_indep (length s)))); unfold decode_fuel in *; lia. Qed.

Lemma dec_size_mono f s acc : dec_size f s acc <> Hang -> dec_size (S f) s acc = dec_size f s acc.
Proof.
  revert s acc; induction f as [|f IH]; intros s acc H; [cbn in H; congruence|].
  destruct s as [|c s]; [now rewrite !dec_size_nil|].
  cbn [dec_size] in *. destruct (beqb c ":"); auto.
Qed.

Lemma dec_mono f :
  (forall s, dec f s <> Hang -> dec (S f) s = dec f s) /\
  (forall s acc, dec_list f s acc <> Hang -> dec_list (S f) s acc = dec_list f s acc) /\
  (forall s acc, dec_dict f s acc <> Hang -> dec_dict (S f) s acc = dec_dict f s acc).
Proof.
  induction f as [|f (IHd & IHl & IHk)]; [cbn; repeat split; intros; congruence|].
  split; [|split].
  - intros [|c s] H; [reflexivity|]. cbn [dec] in H |- *.
    destruct (beqb c "e"); auto. destruct (beqb c "i"); auto.
    destruct (beqb c "l"); [now apply IHl|]. destruct (beqb c "d"); [now apply IHk|].
    now apply dec_size_mono.
  - intros s acc H. cbn [dec_list] in H. change (dec_list (S (S f)) s acc) with
      (x <- dec (S f) s ;; match fst x with VNone => Ok (VList (rev acc), snd x) | v => dec_list (S f) (snd x) (v :: acc) end).
    cbn [dec_list].
    destruct (dec f s) as [[x r]|e|] eqn:E; cbn in H; try congruence;
      (rewrite IHd by congruence); rewrite E; cbn; auto.
    destruct x; auto; apply IHl; auto.
  - intros s acc H. cbn [dec_dict] in H. change (dec_dict (S (S f)) s acc) with
      (x <- dec (S f) s ;; match fst x with
        | VNone => if forallb (fun p => hashable (fst p)) (rev acc)
                   then Ok (VDict (dict_of key_eqb (rev acc)), snd x) else Raise EType
        | k => y <- dec (S f) (snd x) ;; dec_dict (S f) (snd y) ((k, fst y) :: acc) end).
    cbn [dec_dict].
    destruct (dec f s) as [[x r]|e|] eqn:E; cbn [bind fst snd] in H |- *; try congruence;
      (rewrite IHd by congruence); rewrite E; cbn [bind fst snd]; auto.
    destruct (dec f r) as [[y r2]|e|] eqn:E2.
    + rewrite IHd by congruence. rewrite E2. cbn [bind fst snd] in H |- *. destruct x; auto; apply IHk; auto.
    + rewrite IHd by congruence. rewrite E2. destruct x; auto.
    + cbn [bind] in H. destruct x; congruence.
Qed.

Lemma dec_mono_le f g s : f <= g -> dec f s <> Hang -> dec g s = dec f s.
Proof.
  induction 1 as [|g Hg IH]; auto. intros H. rewrite <- IH by auto.
  apply (proj1 (dec_mono g)). rewrite IH; auto.
Qed.

(** Running out of fuel in the model means not terminating at all, whatever the fuel. *)
Lemma decode_hang_iff s : decode_rest s = Hang <-> forall f, dec f s = Hang.
Proof.
  split; [|intros H; apply H].
  intros H f. destruct (dec f s) eqn:E; auto; exfalso.
  - assert (dec (max f (decode_fuel s)) s = dec f s) by (apply dec_mono_le; [lia|congruence]).
    rewrite dec_enough in H0 by lia. congruence.
  - assert (dec (max f (decode_fuel s)) s = dec f s) by (apply dec_mono_le; [lia|congruence]).
    rewrite dec_enough in H0 by lia. congruence.
Qed.

(** Equations for the decoder without fuel. *)
Definition dlist s acc := dec_list (S (decode_fuel s)) s acc.
Definition ddict s acc := dec_dict (S (decode_fuel s)) s acc.
Definition dsize s acc := dec_size (S (length s)) s acc.

Lemma dsize_cons c s acc : dsize (c :: s) acc =
  if beqb c ":" then
    match int_of_bytes acc with
    | Some size => x <- py_read size s ;; Ok (VBytes (fst x), snd x)
    | None => Raise EValue end
  else dsize s (acc ++ [c]).
Proof. reflexivity. Qed.
Lemma dsize_nil acc : dsize [] acc = Hang.
Proof. apply dec_size_nil. Qed.

Lemma decode_rest_nil : decode_rest [] = Raise EDecode.
Proof. reflexivity. Qed.
Lemma decode_rest_cons c s : decode_rest (c :: s) =
  if beqb c "e" then Ok (VNone, s)
  else if beqb c "i" then dec_number s []
  else if beqb c "l" then dlist s []
  else if beqb c "d" then ddict s []
  else dsize s [c].
Proof.
  unfold decode_rest. unfold decode_fuel. cbn [length].
  replace (2 * S (length s) + 1) with (S (S (decode_fuel s))) by (unfold decode_fuel; lia).
  cbn [dec]. destruct (beqb c "e"); auto. destruct (beqb c "i"); auto.
  destruct (beqb c "l"); auto. destruct (beqb c "d"); auto.
  apply dec_size_fuel; unfold decode_fuel; lia.
Qed.
Lemma dlist_eq s acc : dlist s acc =
  x <- decode_rest s ;;
  match fst x with VNone => Ok (VList (rev acc), snd x) | v => dlist (snd x) (v :: acc) end.
Proof.
  unfold dlist at 1. cbn [dec_list]. rewrite (dec_enough (decode_fuel s)) by lia.
  destruct (decode_rest s) as [[x r]| |] eqn:E; auto. cbn [bind fst snd].
  apply (proj1 (dec_progress _)) in E.
  destruct x; auto; apply dec_list_enough; unfold decode_fuel; lia.
Qed.
Lemma ddict_eq s acc : ddict s acc =
  x <- decode_rest s ;;
  match fst x with
  | VNone => if forallb (fun p => hashable (fst p)) (rev acc)
             then Ok (VDict (dict_of key_eqb (rev acc)), snd x) else Raise EType
  | k => y <- decode_rest (snd x) ;; ddict (snd y) ((k, fst y) :: acc) end.
Proof.
  unfold ddict at 1. cbn [dec_dict]. rewrite (dec_enough (decode_fuel s)) by lia.
  destruct (decode_rest s) as [[x r]| |] eqn:E; auto. cbn [bind fst snd].
  apply (proj1 (dec_progress _)) in E.
  rewrite (dec_enough (decode_fuel s)) by (unfold decode_fuel; lia).
  destruct (decode_rest r) as [[y r2]| |] eqn:E2; cbn [bind fst snd]; auto.
  apply (proj1 (dec_progress _)) in E2.
  destruct x; auto; apply dec_dict_enough; unfold decode_fuel; lia.
Qed.
Lemma decode_rest_progress s v r : decode_rest s = Ok (v, r) -> length r < length s.
Proof. apply (proj1 (dec_progress _)). Qed.

(** Induction following the decoder: by length of the input. *)
Lemma length_ind (P : bytes -> Prop) :
  (forall s, (forall r, length r < length s -> P r) -> P s) -> forall s, P s.
Proof. intros H. apply (well_founded_induction (well_founded_ltof _ (@length byte))). exact H. Qed.

(** ** Sorting by key *)
Section Sort.
  Context {A : Type}.
  Implicit Types l : list (bytes * A).

  Definition key_lt (x y : bytes * A) : Prop := bytes_ltb (fst x) (fst y) = true.

  Lemma insert_key_perm x l : Permutation (insert_key x l) (x :: l).
  Proof.
    induction l as [|y l IH]; cbn; auto. destruct (bytes_ltb _ _); auto.
    rewrite IH. apply perm_swap.
  Qed.
  Lemma sort_keys_perm l : Permutation (sort_keys l) l.
  Proof. induction l as [|x l IH]; cbn; auto. rewrite insert_key_perm. now constructor. Qed.

  Lemma insert_key_sorted x l :
    StronglySorted key_lt l -> ~ In (fst x) (map fst l) -> StronglySorted key_lt (insert_key x l).
  Proof.
    induction l as [|y l IH]; cbn; intros Hs Hn.
    - repeat constructor.
    - inversion Hs as [|? ? Hs' Hf]; subst. destruct (bytes_ltb (fst y) (fst x)) eqn:E.
      + constructor; [apply IH; auto|]. rewrite insert_key_perm. constructor; auto.
      + assert (bytes_ltb (fst x) (fst y) = true) as E'.
        { destruct (bytes_ltb (fst x) (fst y)) eqn:E2; auto.
          exfalso. apply Hn. left. now apply bytes_ltb_total. }
        constructor; auto. constructor; auto. eapply Forall_impl; [|exact Hf].
        unfold key_lt. intros z Hz. eapply bytes_ltb_trans; eauto.
  Qed.
  Lemma sort_keys_sorted l : NoDup (map fst l) -> StronglySorted key_lt (sort_keys l).
  Proof.
    induction l as [|x l IH]; cbn; intros H; [constructor|].
    inversion H as [|? ? Hn Hd]; subst. apply insert_key_sorted; auto.
    rewrite (Permutation_map fst (sort_keys_perm l)). auto.
  Qed.

  Lemma sorted_unique l1 l2 :
    StronglySorted key_lt l1 -> StronglySorted key_lt l2 -> Permutation l1 l2 -> l1 = l2.
  Proof.
    revert l2; induction l1 as [|x l1 IH]; intros l2 H1 H2 HP.
    - apply Permutation_nil in HP. auto.
    - destruct l2 as [|y l2]; [symmetry in HP; apply Permutation_nil in HP; discriminate|].
      inversion H1 as [|? ? Hs1 Hf1]; subst. inversion H2 as [|? ? Hs2 Hf2]; subst.
      assert (x = y) as ->.
      { assert (Hx : In x (y :: l2)) by (rewrite <- HP; now left).
        assert (Hy : In y (x :: l1)) by (rewrite HP; now left).
        destruct Hx as [->|Hx]; auto. destruct Hy as [->|Hy]; auto. exfalso.
        rewrite Forall_forall in Hf1, Hf2. specialize (Hf1 _ Hy). specialize (Hf2 _ Hx).
        unfold key_lt in *. pose proof (bytes_ltb_trans _ _ _ Hf1 Hf2) as Hc.
        rewrite bytes_ltb_irrefl in Hc. discriminate. }
      f_equal. apply IH; auto. eapply Permutation_cons_inv; eauto.
  Qed.

  Lemma sort_keys_unique l1 l2 :
    NoDup (map fst l1) -> Permutation l1 l2 -> sort_keys l1 = sort_keys l2.
  Proof.
    intros Hn HP. apply sorted_unique.
    - now apply sort_keys_sorted.
    - apply sort_keys_sorted. now rewrite <- (Permutation_map fst HP).
    - now rewrite !sort_keys_perm.
  Qed.
End Sort.

Lemma insert_key_map {A B} (g : A -> B) x l :
  insert_key (fst x, g (snd x)) (map (fun p => (fst p, g (snd p))) l)
  = map (fun p => (fst p, g (snd p))) (insert_key x l).
Proof. induction l as [|y l IH]; cbn; auto. destruct (bytes_ltb _ _); cbn; congruence. Qed.
Lemma sort_keys_map {A B} (g : A -> B) l :
  sort_keys (map (fun p => (fst p, g (snd p))) l) = map (fun p => (fst p, g (snd p))) (sort_keys l).
Proof.
  induction l as [|y l IH]; auto. cbn [map sort_keys fold_right].
  change (fold_right insert_key [] ?l) with (sort_keys l). rewrite IH. apply insert_key_map.
Qed.

(** ** Decoding what [enc_bytes] and [i...e] produce *)
Lemma dsize_run ds acc t :
  ~ In ":"%byte ds -> dsize (ds ++ ":"%byte :: t) acc =
  match int_of_bytes (acc ++ ds) with
  | Some size => x <- py_read size t ;; Ok (VBytes (fst x), snd x)
  | None => Raise EValue end.
Proof.
  revert acc; induction ds as [|c ds IH]; intros acc Hn.
  - cbn [app]. rewrite dsize_cons. now rewrite app_nil_r.
  - cbn [app]. rewrite dsize_cons. destruct (beqb_spec c ":"%byte) as [->|Hc]; [exfalso; apply Hn; now left|].
    rewrite IH by (intros H; apply Hn; now right). now rewrite <- app_assoc.
Qed.

Lemma py_read_exact b t : short b -> py_read (Z.of_nat (length b)) (b ++ t) = Ok (b, t).
Proof.
  unfold short, py_read. intros H.
  replace ((_ <? _) || _)%Z with false by lia.
  replace (_ <? 0)%Z with false by lia.
  rewrite Z.min_l by (rewrite app_length; lia). rewrite Nat2Z.id.
  rewrite firstn_app, skipn_app, Nat.sub_diag, firstn_all, skipn_all. cbn. now rewrite app_nil_r.
Qed.

Lemma bytes_of_nat_cons z : (0 <= z)%Z -> exists c r,
  bytes_of_int z = c :: r /\ Forall (fun c => is_digit (Byte.to_N c) = true) (c :: r).
Proof.
  intros Hz. unfold bytes_of_int, dec_Z. replace (z <? 0)%Z with false by lia.
  pose proof (dec_N_digits (Z.to_N z)) as Hd. destruct (dec_N_cons (Z.to_N z)) as (c & r & E & _).
  rewrite E in Hd |- *. exists (byte_of c), (n2b r). split; [reflexivity|].
  change (byte_of c :: n2b r) with (n2b (c :: r)). unfold n2b. rewrite Forall_map.
  eapply Forall_impl; [|exact Hd]. cbn beta. intros a Ha. rewrite to_N_byte_of; auto.
  unfold is_digit in Ha. lia.
Qed.

Lemma digit_byte_neq c b : is_digit (Byte.to_N c) = true -> is_digit (Byte.to_N b) = false -> beqb c b = false.
Proof. intros H1 H2. apply beqb_neq. intros ->. congruence. Qed.

Lemma decode_enc_bytes b t : short b -> decode_rest (enc_bytes b ++ t) = Ok (VBytes b, t).
Proof.
  intros Hs. unfold enc_bytes.
  destruct (bytes_of_nat_cons (Z.of_nat (length b))) as (c & r & E & Hd); [lia|].
  pose proof (int_of_bytes_of_int (Z.of_nat (length b))) as Hi. rewrite E in *.
  cbn [app]. rewrite decode_rest_cons. inversion Hd as [|? ? Hc Hr]; subst.
  rewrite !(digit_byte_neq c) by (auto; reflexivity).
  rewrite <- !app_assoc. cbn [app]. rewrite dsize_run.
  - cbn [app]. rewrite Hi, py_read_exact; auto.
  - rewrite Forall_forall in Hr. intros Hin. apply Hr in Hin. discriminate.
Qed.

Lemma dec_number_run ds acc t :
  Forall (fun c => is_digit (Byte.to_N c) = true \/ c = "-"%byte) ds ->
  dec_number (ds ++ t) acc = dec_number t (acc ++ ds).
Proof.
  revert acc; induction ds as [|c ds IH]; intros acc H.
  - now rewrite app_nil_r.
  - inversion H as [|? ? Hc Hr]; subst. cbn [app dec_number].
    replace (negb (is_digit (Byte.to_N c)) && negb (beqb c "-")) with false.
    + rewrite IH by auto. now rewrite <- app_assoc.
    + destruct Hc as [->| ->]; reflexivity.
Qed.

Lemma bytes_of_int_chars z : Forall (fun c => is_digit (Byte.to_N c) = true \/ c = "-"%byte) (bytes_of_int z).
Proof.
  destruct (Z.ltb_spec z 0).
  - unfold bytes_of_int, dec_Z. replace (z <? 0)%Z with true by lia. cbn [n2b map].
    constructor; [right; reflexivity|]. rewrite Forall_map. eapply Forall_impl; [|apply dec_N_digits].
    cbn beta. intros a Ha. left. rewrite to_N_byte_of; auto. unfold is_digit in Ha. lia.
  - destruct (bytes_of_nat_cons z) as (c & r & E & Hd); [lia|]. rewrite E.
    eapply Forall_impl; [|exact Hd]. auto.
Qed.

Lemma decode_enc_int z t : decode_rest ((B "i" ++ bytes_of_int z ++ B "e") ++ t) = Ok (VInt z, t).
Proof.
  change (B "i") with ["i"%byte]. change (B "e") with ["e"%byte]. cbn [app]. rewrite decode_rest_cons.
  change (beqb "i" "e") with false. change (beqb "i" "i") with true. cbn match.
  rewrite <- app_assoc. cbn [app]. rewrite dec_number_run by apply bytes_of_int_chars.
  cbn [app dec_number]. change (negb (is_digit (to_N "e")) && negb (beqb "e" "-")) with true.
  change (negb (beqb "e" "e")) with false. cbn match. now rewrite int_of_bytes_of_int.
Qed.

(** ** The decoded form of a value *)
Definition kb (v : val) : bytes := match v with VBytes b => b | _ => [] end.
Fixpoint norm (v : val) : val :=
  match v with
  | VText t => match utf8_encode t with Some b => VBytes b | None => VNone end
  | VList l | VTuple l => VList (map norm l)
  | VDict d => VDict (map (fun p => (VBytes (fst p), snd p))
                      (sort_keys (map (fun p => (kb (fst p), norm (snd p))) d)))
  | _ => v
  end.

Lemma dlist_step s v r acc : decode_rest s = Ok (v, r) -> v <> VNone -> dlist s acc = dlist r (v :: acc).
Proof. intros H Hv. rewrite dlist_eq, H. cbn [bind fst snd]. destruct v; congruence. Qed.
Lemma dlist_end t acc : dlist (B "e" ++ t) acc = Ok (VList (rev acc), t).
Proof. rewrite dlist_eq. reflexivity. Qed.
Lemma ddict_step s k r v r' acc : decode_rest s = Ok (k, r) -> k <> VNone ->
  decode_rest r = Ok (v, r') -> ddict s acc = ddict r' ((k, v) :: acc).
Proof. intros H Hk H'. rewrite ddict_eq, H. cbn [bind fst snd]. rewrite H'. cbn [bind fst snd]. destruct k; congruence. Qed.
Lemma ddict_end t acc : ddict (B "e" ++ t) acc =
  if forallb (fun p => hashable (fst p)) (rev acc)
  then Ok (VDict (dict_of key_eqb (rev acc)), t) else Raise EType.
Proof. rewrite ddict_eq. reflexivity. Qed.

(** [good v]: encodes, and the decoder reads it back; [bad v]: refused by [encode]. *)
Definition good (v : val) : Prop :=
  Encodable v /\ norm v <> VNone /\
  exists b, add_encode v = Ok b /\ forall t, decode_rest (b ++ t) = Ok (norm v, t).
Definition bad (v : val) : Prop :=
  ~ Encodable v /\
  ((exists e, add_encode v = Raise e) \/
   (exists b, add_encode v = Ok b /\ forall t, decode_rest (b ++ t) = Raise EDecode)).

Lemma seq_enc l : Forall (fun v => good v \/ bad v) l ->
  (Forall Encodable l /\ exists b, join_res (map add_encode l) = Ok b /\
     forall acc t, dlist (b ++ t) acc = dlist t (rev (map norm l) ++ acc))
  \/ (~ Forall Encodable l /\
     ((exists e, join_res (map add_encode l) = Raise e) \/
      (exists b, join_res (map add_encode l) = Ok b /\ forall acc t, dlist (b ++ t) acc = Raise EDecode))).
Proof.
  induction 1 as [|v l Hv Hl IH]; cbn [map join_res].
  - left. split; auto. exists []. split; auto.
  - destruct Hv as [(HE & Hn & b & Eb & Hb)|(HE & Hv)].
    + rewrite Eb. cbn [bind]. destruct IH as [(HF & c & Ec & Hc)|(HF & [(e & Ee)|(c & Ec & Hc)])].
      * left. split; [constructor; auto|]. rewrite Ec. cbn [bind]. exists (b ++ c). split; auto.
        intros acc t. rewrite <- app_assoc. rewrite (dlist_step _ _ _ _ (Hb _)) by auto.
        rewrite Hc. cbn [rev]. now rewrite <- app_assoc.
      * right. split; [intros H; inversion H; auto|]. left. rewrite Ee. cbn. eauto.
      * right. split; [intros H; inversion H; auto|]. right. rewrite Ec. cbn [bind]. exists (b ++ c). split; auto.
        intros acc t. rewrite <- app_assoc. rewrite (dlist_step _ _ _ _ (Hb _)) by auto. apply Hc.
    + right. split; [intros H; inversion H; auto|]. destruct Hv as [(e & ->)|(b & -> & Hb)]; cbn [bind]; eauto.
      destruct IH as [(HF & c & Ec & Hc)|(HF & [(e & Ee)|(c & Ec & Hc)])].
      * right. rewrite Ec. cbn [bind]. exists (b ++ c). split; auto. intros acc t.
        rewrite <- app_assoc, dlist_eq, Hb. reflexivity.
      * left. rewrite Ee. cbn. eauto.
      * right. rewrite Ec. cbn [bind]. exists (b ++ c). split; auto. intros acc t.
        rewrite <- app_assoc, dlist_eq, Hb. reflexivity.
Qed.

Lemma dict_enc (s : list (bytes * val)) :
  Forall (fun p => short (fst p) /\ (good (snd p) \/ bad (snd p))) s ->
  let j := join_res (map (fun p => enc_item (fst p, add_encode (snd p))) s) in
  (Forall (fun p => Encodable (snd p)) s /\ exists b, j = Ok b /\
     forall acc t, ddict (b ++ t) acc = ddict t (rev (map (fun p => (VBytes (fst p), norm (snd p))) s) ++ acc))
  \/ (~ Forall (fun p => Encodable (snd p)) s /\
     ((exists e, j = Raise e) \/
      (exists b, j = Ok b /\ forall acc t, ddict (b ++ t) acc = Raise EDecode))).
Proof.
  induction 1 as [|[k v] s [Hk Hv] Hs IH]; cbn [map join_res] in *.
  - left. split; auto. exists []. split; auto.
  - cbn [fst snd] in *. change (enc_item (k, add_encode v)) with (x <- add_encode v ;; Ok (enc_bytes k ++ x)).
    destruct Hv as [(HE & Hn & b & Eb & Hb)|(HE & Hv)].
    + rewrite Eb. cbn [bind]. destruct IH as [(HF & c & Ec & Hc)|(HF & [(e & Ee)|(c & Ec & Hc)])].
      * left. split; [constructor; auto|]. rewrite Ec. cbn [bind]. eexists. split; [reflexivity|].
        intros acc t. rewrite <- !app_assoc.
        rewrite (ddict_step _ _ _ _ _ _ (decode_enc_bytes k _ Hk)) by (try discriminate; apply Hb).
        rewrite Hc. cbn [rev fst snd]. now rewrite <- app_assoc.
      * right. split; [intros H; inversion H; auto|]. left. rewrite Ee. cbn. eauto.
      * right. split; [intros H; inversion H; auto|]. right. rewrite Ec. cbn [bind]. eexists. split; [reflexivity|].
        intros acc t. rewrite <- !app_assoc.
        rewrite (ddict_step _ _ _ _ _ _ (decode_enc_bytes k _ Hk)) by (try discriminate; apply Hb). apply Hc.
    + right. split; [intros H; inversion H; auto|]. destruct Hv as [(e & ->)|(b & -> & Hb)]; cbn [bind]; eauto.
      assert (G : forall acc t, ddict ((enc_bytes k ++ b) ++ t) acc = Raise EDecode).
      { intros acc t. rewrite <- app_assoc. rewrite ddict_eq, decode_enc_bytes by auto. cbn [bind fst snd].
        now rewrite Hb. }
      destruct IH as [(HF & c & Ec & Hc)|(HF & [(e & Ee)|(c & Ec & Hc)])].
      * right. rewrite Ec. cbn [bind]. eexists. split; [reflexivity|]. intros acc t. rewrite <- app_assoc. apply G.
      * left. rewrite Ee. cbn. eauto.
      * right. rewrite Ec. cbn [bind]. eexists. split; [reflexivity|]. intros acc t. rewrite <- app_assoc. apply G.
Qed.

Lemma bytes_keys_some {A} (g : val -> A) d :
  Forall (fun p => exists k, fst p = VBytes k) d ->
  bytes_keys (map (fun p => (fst p, g (snd p))) d)
  = Some (map (fun p => (kb (fst p), g (snd p))) d).
Proof.
  induction 1 as [|[k v] d [k' Hk] Hd IH]; cbn; auto. cbn in Hk. subst k. rewrite IH. reflexivity.
Qed.
Lemma bytes_keys_none {A} (g : val -> A) (d : list (val * val)) :
  Forall (fun p => exists k, fst p = VBytes k) d \/
  bytes_keys (map (fun p => (fst p, g (snd p))) d) = None.
Proof.
  induction d as [|[k v] d IH]; [left; constructor|].
  cbn. destruct k; auto. destruct IH as [IH|IH].
  - left. constructor; eauto. cbn; eauto.
  - right. now rewrite IH.
Qed.

Lemma dict_set_new {V} k (v : V) d :
  (forall p, In p d -> key_eqb (fst p) k = false) -> dict_set key_eqb k v d = d ++ [(k, v)].
Proof.
  induction d as [|[k' v'] d IH]; cbn; auto. intros H. pose proof (H (k', v') (or_introl eq_refl)) as E; cbn [fst] in E; rewrite E.
  rewrite IH; auto.
Qed.
Lemma dict_of_nodup (s : list (bytes * val)) :
  NoDup (map fst s) ->
  dict_of key_eqb (map (fun p => (VBytes (fst p), snd p)) s) = map (fun p => (VBytes (fst p), snd p)) s.
Proof.
  intros H. unfold dict_of.
  assert (G : forall s acc : list (bytes * val), NoDup (map fst (acc ++ s)) ->
     fold_left (fun d p => dict_set key_eqb (fst p) (snd p) d)
       (map (fun p => (VBytes (fst p), snd p)) s) (map (fun p => (VBytes (fst p), snd p)) acc)
     = map (fun p => (VBytes (fst p), snd p)) (acc ++ s)).
  { clear. induction s as [|[k v] s IH]; intros acc H; cbn [map fold_left].
    - now rewrite app_nil_r.
    - cbn [fst snd]. rewrite dict_set_new.
      + change [(VBytes k, v)] with (map (fun p : bytes * val => (VBytes (fst p), snd p)) [(k, v)]).
        rewrite <- map_app. rewrite IH by (rewrite <- app_assoc; exact H). now rewrite <- app_assoc.
      + intros p Hp. apply in_map_iff in Hp as [[k2 v2] [<- Hin]]. cbn.
        destruct (bytes_eqb_spec k2 k) as [->|]; auto. exfalso.
        rewrite map_app in H. cbn in H. apply NoDup_remove_2 in H. apply H. apply in_or_app. left.
        apply in_map_iff. exists (k, v2). auto. }
  apply (G s []). exact H.
Qed.

Lemma map_pair_norm (s : list (bytes * val)) :
  map (fun p => (VBytes (fst p), norm (snd p))) s
  = map (fun p => (VBytes (fst p), snd p)) (map (fun p => (fst p, norm (snd p))) s).
Proof. now rewrite map_map. Qed.

Lemma NoDup_kb d : Forall (fun p : val * val => exists k, fst p = VBytes k) d ->
  NoDup (map fst d) -> NoDup (map fst (map (fun p => (kb (fst p), snd p)) d)).
Proof.
  intros Hf Hn. rewrite map_map. cbn [fst].
  induction d as [|[k v] d IH]; cbn in *; [constructor|].
  inversion Hn as [|? ? Hni Hnd]; subst. inversion Hf as [|? ? [k' Hk] Hfd]; subst. cbn in Hk. subst k.
  constructor; auto. cbn. intros Hin. apply Hni. apply in_map_iff in Hin as [[k2 v2] [E Hin]].
  rewrite Forall_forall in Hfd. destruct (Hfd _ Hin) as [k3 E3]. cbn in *. subst k2. cbn in E. subst.
  apply in_map_iff. exists (VBytes k', v2). auto.
Qed.

Lemma enc_good_or_bad v : py_object v -> good v \/ bad v.
Proof.
  induction v as [b|t|z|b| |n|l IH|l IH|d IH] using val_ind'; intros Hp; inversion Hp; subst.
  - left. split; [eapply en_octets; constructor|]. split; [discriminate|]. cbn [add_encode norm]. eexists.
    split; [reflexivity|]. intros t. now apply decode_enc_bytes.
  - destruct (utf8_encode t) as [b|] eqn:E.
    + left. split; [eapply en_octets; constructor; eauto|]. cbn [add_encode norm]. rewrite E.
      split; [discriminate|]. eexists. split; [reflexivity|]. intros u. apply decode_enc_bytes; auto.
    + right. split.
      * intros H. inversion H as [? b Hb| |? l Hl|]; subst; [inversion Hb; congruence|inversion Hl].
      * left. cbn. rewrite E. eauto.
  - left. split; [constructor|]. split; [discriminate|]. cbn [add_encode norm]. eexists. split; [reflexivity|].
    intros t. apply decode_enc_int.
  - right. split.
    + intros H. inversion H as [? c Hc| |? l Hl|]; subst; [inversion Hc|inversion Hl].
    + right. cbn [add_encode]. destruct b; eexists; (split; [reflexivity|]); intros t; reflexivity.
  - right. split; [|left; cbn; eauto].
    intros H. inversion H as [? c Hc| |? l Hl|]; subst; [inversion Hc|inversion Hl].
  - right. split; [|left; cbn; eauto].
    intros H. inversion H as [? c Hc| |? l Hl|]; subst; [inversion Hc|inversion Hl].
  - assert (HI : Forall (fun v => good v \/ bad v) l).
    { rewrite Forall_forall in *. auto. }
    unfold good, bad. cbn [add_encode norm]. destruct (seq_enc l HI) as [(HF & b & Eb & Hb)|(HF & [(e & Ee)|(b & Eb & Hb)])].
    + left. split; [eapply en_seq; [constructor|auto]|]. split; [discriminate|]. rewrite Eb. cbn [bind].
      eexists. split; [reflexivity|]. intros t. change (B "l") with ["l"%byte]. cbn [app].
      rewrite decode_rest_cons. change (decode_rest _) with (dlist ((b ++ B "e") ++ t) []).
      rewrite <- app_assoc. rewrite Hb. rewrite app_nil_r, dlist_end. now rewrite rev_involutive.
    + right. split; [|left; rewrite Ee; cbn; eauto].
      intros H. inversion H as [? c Hc| |? l' Hl|]; subst; [inversion Hc|inversion Hl; subst; auto].
    + right. split; [|right; rewrite Eb; cbn [bind]].
      * intros H. inversion H as [? c Hc| |? l' Hl|]; subst; [inversion Hc|inversion Hl; subst; auto].
      * eexists. split; [reflexivity|]. intros t. change (B "l") with ["l"%byte]. cbn [app].
        rewrite decode_rest_cons. cbn match. change (beqb "l" "e") with false. change (beqb "l" "i") with false.
        change (beqb "l" "l") with true. cbn match. rewrite <- app_assoc. apply Hb.
  - assert (HI : Forall (fun v => good v \/ bad v) l).
    { rewrite Forall_forall in *. auto. }
    unfold good, bad. cbn [add_encode norm]. destruct (seq_enc l HI) as [(HF & b & Eb & Hb)|(HF & [(e & Ee)|(b & Eb & Hb)])].
    + left. split; [eapply en_seq; [constructor|auto]|]. split; [discriminate|]. rewrite Eb. cbn [bind].
      eexists. split; [reflexivity|]. intros t. change (B "l") with ["l"%byte]. cbn [app].
      rewrite decode_rest_cons. change (decode_rest _) with (dlist ((b ++ B "e") ++ t) []).
      rewrite <- app_assoc. rewrite Hb. rewrite app_nil_r, dlist_end. now rewrite rev_involutive.
    + right. split; [|left; rewrite Ee; cbn; eauto].
      intros H. inversion H as [? c Hc| |? l' Hl|]; subst; [inversion Hc|inversion Hl; subst; auto].
    + right. split; [|right; rewrite Eb; cbn [bind]].
      * intros H. inversion H as [? c Hc| |? l' Hl|]; subst; [inversion Hc|inversion Hl; subst; auto].
      * eexists. split; [reflexivity|]. intros t. change (B "l") with ["l"%byte]. cbn [app].
        rewrite decode_rest_cons. cbn match. change (beqb "l" "e") with false. change (beqb "l" "i") with false.
        change (beqb "l" "l") with true. cbn match. rewrite <- app_assoc. apply Hb.
  - unfold good, bad. cbn [add_encode norm].
    destruct (bytes_keys_none add_encode d) as [Hk|Hk].
    2:{ right. split; [|left; rewrite Hk; eauto].
        intros H. inversion H as [? c Hc| |? l' Hl|? HF]; subst; [inversion Hc|inversion Hl|].
        rewrite (bytes_keys_some add_encode d) in Hk; [discriminate|].
        eapply Forall_impl; [|exact HF]. cbn. tauto. }
    rewrite (bytes_keys_some add_encode d Hk).
    set (s0 := map (fun p => (kb (fst p), snd p)) d).
    assert (Hn0 : NoDup (map fst s0)) by (apply NoDup_kb; auto).
    replace (map (fun p => (kb (fst p), add_encode (snd p))) d)
      with (map (fun p => (fst p, add_encode (snd p))) s0) by (unfold s0; now rewrite map_map).
    replace (map (fun p => (kb (fst p), norm (snd p))) d)
      with (map (fun p => (fst p, norm (snd p))) s0) by (unfold s0; now rewrite map_map).
    rewrite !sort_keys_map. rewrite (map_map _ enc_item). set (s := sort_keys s0).
    assert (HPs : Permutation s s0) by apply sort_keys_perm.
    assert (HE0 : Forall (fun p => Encodable (snd p)) s0 <->
                  Forall (fun p => (exists k, fst p = VBytes k) /\ Encodable (snd p)) d).
    { unfold s0. rewrite Forall_map. cbn. split; intros HH.
      - rewrite Forall_forall in *. intros p Hp'. split; [now apply Hk|now apply HH].
      - eapply Forall_impl; [|exact HH]. cbn; tauto. }
    assert (HI : Forall (fun p => short (fst p) /\ (good (snd p) \/ bad (snd p))) s).
    { rewrite HPs. unfold s0. rewrite Forall_map. rewrite Forall_forall in *. intros [k v] Hin. cbn.
      destruct (Hk _ Hin) as [k' Ek]. cbn in Ek. subst k. cbn.
      match goal with H : forall x, In x d -> py_object _ /\ py_object _ |- _ => destruct (H _ Hin) as [Hpk Hpv] end.
      cbn in *. inversion Hpk; subst. split; auto. now apply (IH _ Hin). }
    assert (HEs : Forall (fun p => Encodable (snd p)) s <-> Forall (fun p => Encodable (snd p)) s0) by (split; apply Permutation_Forall; [exact HPs|now symmetry]).
    destruct (dict_enc s HI) as [(HF & b & Eb & Hb)|(HF & [(e & Ee)|(b & Eb & Hb)])].
    + left. split; [apply en_dict; tauto|]. split; [discriminate|]. rewrite Eb. cbn [bind].
      eexists. split; [reflexivity|]. intros t. change (B "d") with ["d"%byte]. cbn [app].
      rewrite decode_rest_cons. change (beqb "d" "e") with false. change (beqb "d" "i") with false.
      change (beqb "d" "l") with false. change (beqb "d" "d") with true. cbn match.
      rewrite <- app_assoc. rewrite Hb, app_nil_r, ddict_end, rev_involutive.
      rewrite map_pair_norm. replace (forallb _ _) with true.
      * do 3 f_equal. apply dict_of_nodup. rewrite map_map. cbn [fst].
        eapply Permutation_NoDup; [|exact Hn0]. apply Permutation_map. now symmetry.
      * symmetry. apply forallb_forall. intros p Hin. apply in_map_iff in Hin as [? [<- _]]. reflexivity.
    + right. split; [|left; rewrite Ee; cbn; eauto].
      intros H. inversion H as [? c Hc| |? l' Hl|]; subst; [inversion Hc|inversion Hl|tauto].
    + right. split.
      * intros H. inversion H as [? c Hc| |? l' Hl|]; subst; [inversion Hc|inversion Hl|tauto].
      * right. rewrite Eb. cbn [bind].
      eexists. split; [reflexivity|]. intros t. change (B "d") with ["d"%byte]. cbn [app].
      rewrite decode_rest_cons. change (beqb "d" "e") with false. change (beqb "d" "i") with false.
      change (beqb "d" "l") with false. change (beqb "d" "d") with true. cbn match.
      rewrite <- app_assoc. apply Hb.
Qed.

(** ** Consequences *)
Lemma dr_nil b X : decode_rest (b ++ []) = X -> decode_rest b = X.
Proof. now rewrite app_nil_r. Qed.
Lemma good_encode v : good v -> exists b, encode v = Ok b /\ add_encode v = Ok b /\
  forall t, decode_rest (b ++ t) = Ok (norm v, t).
Proof.
  intros (_ & Hn & b & Eb & Hb). exists b. split; [|auto]. unfold encode. rewrite Eb. cbn [bind].
  unfold decode. rewrite (dr_nil b _ (Hb [])). cbn [bind fst]. destruct (norm v); congruence.
Qed.
Lemma bad_encode v : bad v -> exists e, encode v = Raise e.
Proof.
  intros (_ & [(e & Ee)|(b & Eb & Hb)]); unfold encode.
  - rewrite Ee. cbn. eauto.
  - rewrite Eb. cbn [bind]. unfold decode. rewrite (dr_nil b _ (Hb [])). cbn. eauto.
Qed.

Lemma encode_ok v b : py_object v -> encode v = Ok b ->
  Encodable v /\ norm v <> VNone /\ add_encode v = Ok b /\ forall t, decode_rest (b ++ t) = Ok (norm v, t).
Proof.
  intros Hp He. destruct (enc_good_or_bad v Hp) as [Hg|Hb].
  - destruct (good_encode v Hg) as (b' & E & E2 & H). destruct Hg as (? & ? & _).
    assert (b' = b) as -> by congruence. auto.
  - destruct (bad_encode v Hb) as (e & E). congruence.
Qed.
Lemma encode_encodable v : py_object v -> Encodable v -> exists b, encode v = Ok b.
Proof.
  intros Hp He. destruct (enc_good_or_bad v Hp) as [Hg|[Hb _]]; [|tauto].
  destruct (good_encode v Hg) as (b & E & _). eauto.
Qed.

Lemma Forall2_map_r {A B} (R : A -> B -> Prop) (f : A -> B) l :
  Forall (fun x => R x (f x)) l -> Forall2 R l (map f l).
Proof. induction 1; cbn; constructor; auto. Qed.

Lemma norm_same v : Encodable v -> py_object v -> same_data v (norm v) /\ Wire (norm v).
Proof.
  induction v as [b|t|z|b| |n|l IH|l IH|d IH] using val_ind'; intros He Hp;
    inversion He as [? c Hc| |? l' Hl HF|? HF]; subst;
    try (now inversion Hc); try (now inversion Hl).
  - split; [|constructor]. eapply sd_octets; constructor.
  - inversion Hc; subst. cbn. match goal with H : utf8_encode t = _ |- _ => rewrite H end.
    split; [|constructor]. eapply sd_octets; constructor; eauto.
  - split; constructor.
  - inversion Hl; subst. inversion Hp as [| | | | | |? HP| |]; subst. cbn [norm].
    rewrite Forall_forall in IH, HF, HP. split.
    + eapply sd_seq; [constructor|constructor|]. apply Forall2_map_r. apply Forall_forall. intros x Hx. apply IH; auto.
    + constructor. apply Forall_map, Forall_forall. intros x Hx. apply IH; auto.
  - inversion Hl; subst. inversion Hp as [| | | | | | |? HP|]; subst. cbn [norm].
    rewrite Forall_forall in IH, HF, HP. split.
    + eapply sd_seq; [constructor|constructor|]. apply Forall2_map_r. apply Forall_forall. intros x Hx. apply IH; auto.
    + constructor. apply Forall_map, Forall_forall. intros x Hx. apply IH; auto.
  - inversion Hp as [| | | | | | | |? HN HP]; subst. cbn [norm].
    set (m := map (fun p => (kb (fst p), norm (snd p))) d).
    pose proof (sort_keys_perm m) as HPm. rewrite Forall_forall in IH, HF, HP. split.
    + eapply sd_dict with (d'' := map (fun p => (VBytes (fst p), snd p)) m).
      * now apply Permutation_map.
      * unfold m. rewrite map_map. cbn [fst snd]. apply Forall2_map_r. apply Forall_forall. intros [k v] Hx.
        destruct (HF _ Hx) as [[k' Ek] Hv]. cbn in *. subst k. split; auto.
        apply (IH _ Hx); auto. apply (HP _ Hx).
    + constructor.
      * apply Forall_map. eapply Permutation_Forall; [symmetry; exact HPm|]. unfold m. rewrite Forall_map.
        apply Forall_forall. intros [k v] Hx. cbn. split; [eauto|]. apply (IH _ Hx); [apply (HF _ Hx)|apply (HP _ Hx)].
      * rewrite map_map. cbn [fst]. rewrite <- (map_map fst VBytes). apply FinFun.Injective_map_NoDup; [intros ? ?; congruence|].
        eapply Permutation_NoDup; [apply Permutation_map; symmetry; exact HPm|]. unfold m.
        pose proof (NoDup_kb d) as G. rewrite map_map in G |- *. apply G; auto.
        apply Forall_forall. intros p Hx. apply (HF _ Hx).
Qed.

Lemma octets_fun v b c : octets v b -> octets v c -> b = c.
Proof. intros H1 H2; inversion H1; subst; inversion H2; congruence. Qed.
Lemma items_fun v l m : items v l -> items v m -> l = m.
Proof. intros H1 H2; inversion H1; subst; inversion H2; congruence. Qed.
Lemma octets_items v b l : octets v b -> items v l -> False.
Proof. intros H1 H2; inversion H1; subst; inversion H2. Qed.

Lemma Forall2_flip' {A B} (R : A -> B -> Prop) (S : B -> A -> Prop) l m :
  Forall (fun x => forall y, R x y -> S y x) l -> Forall2 R l m -> Forall2 S m l.
Proof. intros HF H2. induction H2; inversion HF; subst; constructor; auto. Qed.

Lemma same_data_sym_in v : forall w, same_data v w -> same_data w v.
Proof.
  induction v as [b|t|z|b| |n|l IH|l IH|d IH] using val_ind'; intros w H;
    inversion H as [? ? c H1 H2| |? ? l1 l2 H1 H2 HF|? ? d'' HP HF]; subst;
    try (now inversion H1); try (eapply sd_octets; eassumption); try (now constructor).
  - inversion H1; subst. eapply sd_seq; [exact H2|exact H1|]. eapply Forall2_flip'; eauto.
  - inversion H1; subst. eapply sd_seq; [exact H2|exact H1|]. eapply Forall2_flip'; eauto.
  - assert (HF' : Forall2 (fun p q => fst p = fst q /\ same_data (snd p) (snd q)) d'' d).
    { eapply Forall2_flip'; [|exact HF]. eapply Forall_impl; [|exact IH]. cbn. intros [k v] [_ Hv] [k' v'] [E S]. cbn in *. auto. }
    destruct (Permutation_Forall2 (Permutation_sym HP) HF') as (d0 & HP0 & HF0).
    eapply sd_dict; eauto.
Qed.
Lemma same_data_sym v w : same_data v w -> same_data w v.
Proof. apply same_data_sym_in. Qed.

Lemma Forall2_trans' {A} (R : A -> A -> Prop) l m n :
  Forall (fun x => forall y z, R x y -> R y z -> R x z) l -> Forall2 R l m -> Forall2 R m n -> Forall2 R l n.
Proof.
  intros HF H2. revert n. induction H2; intros n H3; inversion H3; subst; constructor; inversion HF; subst; eauto.
Qed.

Lemma same_data_trans_in v : forall w u, same_data v w -> same_data w u -> same_data v u.
Proof.
  induction v as [b|t|z|b| |n|l IH|l IH|d IH] using val_ind'; intros w u H H';
    inversion H as [? ? c H1 H2| |? ? l1 l2 H1 H2 HF|? ? d'' HP HF]; subst;
    inversion H' as [? ? c' H1' H2'| |? ? l1' l2' H1' H2' HF'|? ? d2 HP' HF']; subst;
    try (now inversion H1); try (now inversion H1'); try (now inversion H2); try assumption;
    try (match goal with A : octets ?w _, B : items ?w _ |- _ => exfalso; exact (octets_items _ _ _ A B) end).
  - rewrite (octets_fun _ _ _ H2 H1') in *. eapply sd_octets; eassumption.
  - rewrite (octets_fun _ _ _ H2 H1') in *. eapply sd_octets; eassumption.
  - rewrite (items_fun _ _ _ H2 H1') in *. inversion H1; subst.
    eapply sd_seq; [exact H1|exact H2'|]. eapply Forall2_trans'; eauto.
  - rewrite (items_fun _ _ _ H2 H1') in *. inversion H1; subst.
    eapply sd_seq; [exact H1|exact H2'|]. eapply Forall2_trans'; eauto.
  - destruct (Permutation_Forall2 HP HF') as (d0 & HP0 & HF0).
    eapply sd_dict; [transitivity d2; eauto|].
    eapply Forall2_trans'; [|exact HF|exact HF0].
    eapply Forall_impl; [|exact IH]. cbn. intros [k v] [_ Hv] [k' v'] [k2 v2] [E S] [E2 S2]. cbn in *. split; [congruence|eauto].
Qed.
Lemma same_data_trans v w u : same_data v w -> same_data w u -> same_data v u.
Proof. apply same_data_trans_in. Qed.

Lemma same_data_norm_eq v : forall w, Encodable v -> py_object v -> py_object w -> same_data v w ->
  Encodable w /\ add_encode v = add_encode w.
Proof.
  induction v as [b|t|z|b| |n|l IH|l IH|d IH] using val_ind'; intros w He Hp Hpw H;
    inversion H as [? ? c H1 H2| |? ? l1 l2 H1 H2 HF|? ? d'' HP HF]; subst;
    try (now inversion H1).
  - inversion H1; subst. split; [eapply en_octets; eauto|]. inversion H2 as [|? ? E]; subst; cbn; auto. now rewrite E.
  - inversion H1 as [|? ? E1]; subst. split; [eapply en_octets; eauto|]. cbn. rewrite E1.
    inversion H2 as [|? ? E]; subst; cbn; auto. now rewrite E.
  - auto.
  - inversion H1; subst.
    assert (HE : Forall Encodable l1) by (inversion He as [? ? Hc| |? ? Hc|]; subst; inversion Hc; subst; auto).
    assert (HPl : Forall py_object l1) by (inversion Hp; auto).
    assert (HPw : Forall py_object l2) by (inversion H2; subst; inversion Hpw; auto).
    assert (G : Forall Encodable l2 /\ map add_encode l1 = map add_encode l2).
    { clear -IH HF HE HPl HPw. induction HF as [|x y l m Hxy HF IHF]; [auto|].
      inversion IH; inversion HE; inversion HPl; inversion HPw; subst.
      destruct IHF as [? ?]; auto. match goal with H : forall w, _ |- _ => destruct (H y) as [? ?]; auto end.
      split; [constructor; auto|cbn; congruence]. }
    destruct G as [G1 G2]. split; [eapply en_seq; eauto|].
    inversion H2; subst; cbn [add_encode]; now rewrite G2.
  - inversion H1; subst.
    assert (HE : Forall Encodable l1) by (inversion He as [? ? Hc| |? ? Hc|]; subst; inversion Hc; subst; auto).
    assert (HPl : Forall py_object l1) by (inversion Hp; auto).
    assert (HPw : Forall py_object l2) by (inversion H2; subst; inversion Hpw; auto).
    assert (G : Forall Encodable l2 /\ map add_encode l1 = map add_encode l2).
    { clear -IH HF HE HPl HPw. induction HF as [|x y l m Hxy HF IHF]; [auto|].
      inversion IH; inversion HE; inversion HPl; inversion HPw; subst.
      destruct IHF as [? ?]; auto. match goal with H : forall w, _ |- _ => destruct (H y) as [? ?]; auto end.
      split; [constructor; auto|cbn; congruence]. }
    destruct G as [G1 G2]. split; [eapply en_seq; eauto|].
    inversion H2; subst; cbn [add_encode]; now rewrite G2.
  - assert (HE : Forall (fun p => (exists k, fst p = VBytes k) /\ Encodable (snd p)) d)
      by (inversion He as [? ? Hc| |? ? Hc|]; subst; [inversion Hc|inversion Hc|auto]).
    inversion Hp as [| | | | | | | |? HN HPd]; subst. inversion Hpw as [| | | | | | | |? HN' HPd']; subst.
    assert (HPd'' : Forall (fun p => py_object (fst p) /\ py_object (snd p)) d'') by (eapply Permutation_Forall; eauto).
    assert (G : Forall (fun p => (exists k, fst p = VBytes k) /\ Encodable (snd p)) d'' /\
                map (fun p => (kb (fst p), add_encode (snd p))) d = map (fun p => (kb (fst p), add_encode (snd p))) d'').
    { clear -IH HF HE HPd HPd''. induction HF as [|x y l m Hxy HF IHF]; [auto|].
      inversion IH as [|? ? [_ IHx] IHl]; inversion HE as [|? ? [Hk Hx] HEl]; inversion HPd as [|? ? [_ Px] HPl];
        inversion HPd'' as [|? ? [_ Py] HPm]; subst.
      destruct IHF as [? ?]; auto. destruct Hxy as [Ek Es]. destruct (IHx (snd y)) as [? ?]; auto.
      split; [constructor; auto; rewrite <- Ek; auto|cbn; congruence]. }
    destruct G as [G1 G2].
    assert (G1' : Forall (fun p => (exists k, fst p = VBytes k) /\ Encodable (snd p)) d')
      by (eapply Permutation_Forall; [symmetry|]; eauto).
    split; [now apply en_dict|]. cbn [add_encode].
    rewrite (bytes_keys_some add_encode d) by (eapply Forall_impl; [|exact HE]; cbn; tauto).
    rewrite (bytes_keys_some add_encode d') by (eapply Forall_impl; [|exact G1']; cbn; tauto).
    rewrite (sort_keys_unique (map (fun p => (kb (fst p), add_encode (snd p))) d)
               (map (fun p => (kb (fst p), add_encode (snd p))) d')); auto.
    + pose proof (NoDup_kb d) as HH. rewrite map_map in HH |- *. apply HH; auto.
      eapply Forall_impl; [|exact HE]; cbn; tauto.
    + rewrite G2. apply Permutation_map. now symmetry.
Qed.

(** ** The property lemmas C01-C04 *)
Lemma c01 v : py_object v -> Encodable v ->
  exists b w, encode v = Ok b /\ decode b = Ok w /\ same_data v w /\ Wire w.
Proof.
  intros Hp He. destruct (encode_encodable v Hp He) as (b & Eb).
  destruct (encode_ok v b Hp Eb) as (_ & _ & _ & Hd). exists b, (norm v).
  destruct (norm_same v He Hp) as [HS HW]. repeat split; auto.
  unfold decode. rewrite (dr_nil b _ (Hd [])). reflexivity.
Qed.

Lemma c02 v w b c : py_object v -> py_object w -> encode v = Ok b -> encode w = Ok c ->
  (b = c <-> same_data v w).
Proof.
  intros Hv Hw Eb Ec.
  destruct (encode_ok v b Hv Eb) as (He & _ & Ab & Hd). destruct (encode_ok w c Hw Ec) as (He' & _ & Ac & Hd').
  split.
  - intros ->. assert (E : norm v = norm w).
    { specialize (Hd []). specialize (Hd' []). congruence. }
    eapply same_data_trans; [apply norm_same; auto|]. rewrite E. apply same_data_sym, norm_same; auto.
  - intros H. destruct (same_data_norm_eq v w He Hv Hw H) as [_ E]. congruence.
Qed.

Lemma c03_stream v b t : py_object v -> encode v = Ok b ->
  exists w, decode b = Ok w /\ decode_rest (b ++ t) = Ok (w, t) /\ decode (b ++ t) = Ok w.
Proof.
  intros Hv Eb. destruct (encode_ok v b Hv Eb) as (He & _ & Ab & Hd). exists (norm v).
  repeat split; auto; unfold decode; [rewrite (dr_nil b _ (Hd []))|rewrite Hd]; reflexivity.
Qed.
Lemma c03_prefix v w b t : py_object v -> py_object w -> encode v = Ok b -> encode w = Ok (b ++ t) -> t = [].
Proof.
  intros Hv Hw Eb Ec.
  destruct (encode_ok v b Hv Eb) as (He & _ & Ab & Hd). destruct (encode_ok w _ Hw Ec) as (He' & _ & Ac & Hd').
  specialize (Hd' []). rewrite app_nil_r, Hd in Hd'. congruence.
Qed.

Lemma c04 v : py_object v ->
  (Encodable v -> exists b, encode v = Ok b) /\ (~ Encodable v -> exists e, encode v = Raise e).
Proof.
  intros Hp. split; [now apply encode_encodable|]. intros Hn.
  destruct (enc_good_or_bad v Hp) as [[? _]|Hb]; [tauto|now apply bad_encode].
Qed.

(** ** Exceptions, extension, weight, hanging inputs *)
Definition decode_exn (e : exn) : Prop := e = EDecode \/ e = EValue \/ e = EType \/ e = EOverflow.

Lemma dec_number_exn s acc e : dec_number s acc = Raise e -> decode_exn e.
Proof.
  unfold decode_exn. revert acc; induction s as [|c s IH]; cbn; intros acc; [intros [= <-]; auto|].
  destruct (_ && _); [|apply IH]. destruct (negb _); [intros [= <-]; auto|].
  destruct (int_of_bytes acc); [discriminate|intros [= <-]; auto].
Qed.
Lemma dec_number_no_hang s acc : dec_number s acc <> Hang.
Proof.
  revert acc; induction s as [|c s IH]; cbn; intros acc; [discriminate|].
  destruct (_ && _); [|apply IH]. destruct (negb _); [discriminate|].
  destruct (int_of_bytes acc); discriminate.
Qed.
Lemma dsize_exn s acc e : dsize s acc = Raise e -> decode_exn e.
Proof.
  unfold decode_exn. revert acc; induction s as [|c s IH]; intros acc; [rewrite dsize_nil; discriminate|].
  rewrite dsize_cons. destruct (beqb c ":"); [|apply IH].
  destruct (int_of_bytes acc) as [z|]; [|intros [= <-]; auto].
  unfold py_read. destruct (_ || _); [intros [= <-]; auto 6|]. destruct (z <? 0)%Z; discriminate.
Qed.

Lemma decode_exn_all s :
  (forall e, decode_rest s = Raise e -> decode_exn e) /\
  (forall acc e, dlist s acc = Raise e -> decode_exn e) /\
  (forall acc e, ddict s acc = Raise e -> decode_exn e).
Proof.
  induction s as [s IH] using length_ind.
  assert (D : forall e, decode_rest s = Raise e -> decode_exn e).
  { intros e. destruct s as [|c s].
    - rewrite decode_rest_nil. intros [= <-]. now left.
    - rewrite decode_rest_cons. destruct (IH s) as (_ & IHl & IHk); [cbn; lia|].
      destruct (beqb c "e"); [discriminate|]. destruct (beqb c "i"); [apply dec_number_exn|].
      destruct (beqb c "l"); [apply IHl|]. destruct (beqb c "d"); [apply IHk|]. apply dsize_exn. }
  split; [exact D|]. split.
  - intros acc e. rewrite dlist_eq. destruct (decode_rest s) as [[x r]|e'|] eqn:E; cbn [bind fst snd].
    + apply decode_rest_progress in E. destruct (IH r E) as (_ & IHl & _). destruct x; try apply IHl. discriminate.
    + intros [= <-]. auto.
    + discriminate.
  - intros acc e. rewrite ddict_eq. destruct (decode_rest s) as [[x r]|e'|] eqn:E; cbn [bind fst snd].
    + apply decode_rest_progress in E. destruct (IH r E) as (IHd & _ & _).
      assert (G : x <> VNone -> forall k, (y <- decode_rest r ;; ddict (snd y) ((k, fst y) :: acc)) = Raise e -> decode_exn e).
      { intros _ k. destruct (decode_rest r) as [[y r2]|e'|] eqn:E2; cbn [bind fst snd].
        - apply decode_rest_progress in E2. apply (IH r2); lia.
        - intros [= <-]. auto.
        - discriminate. }
      destruct x; try (apply G; discriminate).
      destruct (forallb _ _); [discriminate|]. intros [= <-]. unfold decode_exn. auto.
    + intros [= <-]. auto.
    + discriminate.
Qed.

Lemma c06_exns s e : decode s = Raise e -> decode_exn e.
Proof.
  unfold decode. destruct (decode_rest s) as [[x r]|e'|] eqn:E; cbn; try discriminate.
  intros [= <-]. now apply (decode_exn_all s).
Qed.

(** Reading on: input that decodes to anything but a bytes object at the very end
    of the input decodes the same way when more input follows. *)
Lemma dec_number_ext s acc v r q : dec_number s acc = Ok (v, r) ->
  dec_number (s ++ q) acc = Ok (v, r ++ q) /\ exists z, v = VInt z.
Proof.
  revert acc; induction s as [|c s IH]; intros acc; cbn; [discriminate|].
  destruct (_ && _); [|apply IH]. destruct (negb _); [discriminate|].
  destruct (int_of_bytes acc); [|discriminate]. intros [= <- <-]. eauto.
Qed.
Lemma dsize_ext s acc v r q : dsize s acc = Ok (v, r) ->
  (exists b, v = VBytes b) /\ (dsize (s ++ q) acc = Ok (v, r ++ q) \/ r = []).
Proof.
  revert acc; induction s as [|c s IH]; intros acc; [rewrite dsize_nil; discriminate|].
  cbn [app]. rewrite !dsize_cons. destruct (beqb c ":"); [|apply IH].
  destruct (int_of_bytes acc) as [z|]; [|discriminate]. intros H.
  apply bind_ok in H as [[a t] [H1 H2]]. injection H2 as <- <-. split; [eauto|].
  pose proof (py_read_split _ _ _ _ H1) as Hs. cbn [snd].
  destruct t as [|x t]; [auto|]. left. revert H1. unfold py_read.
  destruct (_ || _); [discriminate|]. destruct (z <? 0)%Z; [discriminate|].
  intros [= Ha Ht]. assert (Hz : (z < Z.of_nat (length s))%Z).
  { apply (f_equal (@length byte)) in Ht. rewrite skipn_length in Ht. cbn in Ht. lia. }
  rewrite Z.min_l in Ha, Ht by lia. rewrite Z.min_l by (rewrite app_length; lia).
  rewrite firstn_app, skipn_app. replace (Z.to_nat z - length s) with 0 by lia. cbn [firstn skipn].
  rewrite app_nil_r, Ha, Ht. reflexivity.
Qed.

Lemma decode_ext s :
  (forall v r q, decode_rest s = Ok (v, r) ->
     decode_rest (s ++ q) = Ok (v, r ++ q) \/ (r = [] /\ exists b, v = VBytes b)) /\
  (forall acc v r q, dlist s acc = Ok (v, r) -> dlist (s ++ q) acc = Ok (v, r ++ q)) /\
  (forall acc v r q, ddict s acc = Ok (v, r) -> ddict (s ++ q) acc = Ok (v, r ++ q)).
Proof.
  induction s as [s IH] using length_ind.
  assert (D : forall v r q, decode_rest s = Ok (v, r) ->
     decode_rest (s ++ q) = Ok (v, r ++ q) \/ (r = [] /\ exists b, v = VBytes b)).
  { intros v r q. destruct s as [|c s]; [rewrite decode_rest_nil; discriminate|].
    cbn [app]. rewrite !decode_rest_cons. destruct (IH s) as (_ & IHl & IHk); [cbn; lia|].
    destruct (beqb c "e"); [intros [= <- <-]; auto|].
    destruct (beqb c "i"); [intros H; left; now apply dec_number_ext|].
    destruct (beqb c "l"); [intros H; left; auto|]. destruct (beqb c "d"); [intros H; left; auto|].
    intros H. destruct (dsize_ext _ _ _ _ q H) as [Hb [H2|H2]]; auto. }
  assert (F : forall v r, decode_rest s = Ok (v, r) -> r <> [] -> forall q, decode_rest (s ++ q) = Ok (v, r ++ q)).
  { intros v r H Hr q. destruct (D v r q H) as [?|[? _]]; congruence. }
  assert (N : forall r, decode_rest s = Ok (VNone, r) -> forall q, decode_rest (s ++ q) = Ok (VNone, r ++ q)).
  { intros r H q. destruct (D _ r q H) as [?|[_ [b ?]]]; congruence. }
  split; [exact D|]. split.
  - intros acc v r q. rewrite !dlist_eq.
    destruct (decode_rest s) as [[x s1]|e|] eqn:E; cbn [bind fst snd]; try discriminate.
    pose proof (decode_rest_progress _ _ _ E) as Hp.
    assert (G : forall x', x' = x -> x' <> VNone -> dlist s1 (x' :: acc) = Ok (v, r) ->
        (x0 <- decode_rest (s ++ q);; match fst x0 with VNone => Ok (VList (rev acc), snd x0)
           | v0 => dlist (snd x0) (v0 :: acc) end) = Ok (v, r ++ q)).
    { intros x' -> Hx H. assert (s1 <> []) as Hs1.
      { intros ->. rewrite dlist_eq in H. discriminate. }
      rewrite (F _ _ eq_refl Hs1). cbn [bind fst snd]. destruct (IH s1 Hp) as (_ & IHl & _).
      apply IHl with (q := q) in H. destruct x; congruence. }
    destruct x; try (apply G; [reflexivity|discriminate]).
    intros [= <- <-]. rewrite (N _ eq_refl). reflexivity.
  - intros acc v r q. rewrite !ddict_eq.
    destruct (decode_rest s) as [[x s1]|e|] eqn:E; cbn [bind fst snd]; try discriminate.
    pose proof (decode_rest_progress _ _ _ E) as Hp.
    assert (G : x <> VNone -> (y <- decode_rest s1 ;; ddict (snd y) ((x, fst y) :: acc)) = Ok (v, r) ->
        (x0 <- decode_rest (s ++ q);; match fst x0 with
           | VNone => if forallb (fun p => hashable (fst p)) (rev acc)
             then Ok (VDict (dict_of key_eqb (rev acc)), snd x0) else Raise EType
           | k => y <- decode_rest (snd x0) ;; ddict (snd y) ((k, fst y) :: acc) end) = Ok (v, r ++ q)).
    { intros Hx H. assert (s1 <> []) as Hs1 by (intros ->; discriminate).
      rewrite (F _ _ eq_refl Hs1). cbn [bind fst snd].
      apply bind_ok in H as [[y s2] [Ey H]]. cbn [fst snd] in H.
      assert (s2 <> []) as Hs2 by (intros ->; rewrite ddict_eq in H; discriminate).
      pose proof (decode_rest_progress _ _ _ Ey) as Hp2.
      destruct (IH s1 Hp) as (IHd & _ & _). destruct (IHd _ _ q Ey) as [Ey'|[? _]]; [|congruence].
      destruct (IH s2) as (_ & _ & IHk); [lia|]. apply IHk with (q := q) in H.
      rewrite Ey'. cbn [bind fst snd]. destruct x; congruence. }
    destruct x; try (apply G; discriminate).
    destruct (forallb _ _) eqn:EF; [|discriminate]. intros [= <- <-]. rewrite (N _ eq_refl). cbn [bind fst snd]. reflexivity.
Qed.

Lemma decode_ext_container p v q : decode p = Ok v -> (forall b, v <> VBytes b) -> decode (p ++ q) = Ok v.
Proof.
  unfold decode. intros H Hv. apply bind_ok in H as [[x r] [E H]]. cbn in H. injection H as ->.
  destruct (decode_ext p) as (D & _ & _). destruct (D _ _ q E) as [E'|[_ [b Hb]]]; [|exfalso; eapply Hv; eauto].
  rewrite E'. reflexivity.
Qed.

Lemma norm_list_like v l : items v l -> exists m, norm v = VList m.
Proof. intros H; inversion H; cbn; eauto. Qed.

Lemma join_res_nonempty_head {A} (c : A) r : c :: r <> []. Proof. discriminate. Qed.

Lemma c07 v l b p : py_object v -> items v l -> encode v = Ok b -> proper_prefix p b ->
  forall w, decode p <> Ok w.
Proof.
  intros Hv Hl Eb (q & Hq & ->) w Hw. destruct (encode_ok v _ Hv Eb) as (He & _ & Ab & Hd).
  specialize (Hd []). rewrite app_nil_r in Hd.
  unfold decode in Hw. apply bind_ok in Hw as [[x r] [E H]]. cbn in H. injection H as ->.
  destruct (decode_ext p) as (D & _ & _). destruct (D _ _ q E) as [E'|[-> [y ->]]].
  - rewrite E' in Hd. injection Hd as _ Hr. apply app_eq_nil in Hr as [_ ->]. congruence.
  - (* the prefix would decode as a string, but it starts with "l" or is empty *)
    destruct p as [|c p]; [discriminate|].
    assert (c = "l"%byte) as ->.
    { inversion Hl; subst; cbn [add_encode] in Ab; apply bind_ok in Ab as [j [_ Ab]];
        change (B "l") with ["l"%byte] in Ab; cbn [app] in Ab; congruence. }
    rewrite decode_rest_cons in E. change (beqb "l" "e") with false in E. change (beqb "l" "i") with false in E.
    change (beqb "l" "l") with true in E. cbn match in E.
    destruct (decode_ext p) as (_ & L & _). pose proof (L _ _ _ q E) as E2.
    cbn [app] in Hd. rewrite decode_rest_cons in Hd. change (beqb "l" "e") with false in Hd. change (beqb "l" "i") with false in Hd.
    change (beqb "l" "l") with true in Hd. cbn match in Hd. rewrite E2 in Hd. cbn in Hd. congruence.
Qed.

Lemma list_sum_cons x l : list_sum (x :: l) = x + list_sum l.
Proof. reflexivity. Qed.
Lemma sum_map_app {A} (f : A -> nat) l m : list_sum (map f (l ++ m)) = list_sum (map f l) + list_sum (map f m).
Proof. induction l; cbn [app map]; rewrite ?list_sum_cons; [reflexivity|]. rewrite IHl. lia. Qed.
Lemma sum_map_rev {A} (f : A -> nat) l : list_sum (map f (rev l)) = list_sum (map f l).
Proof. induction l; cbn [rev]; auto. rewrite sum_map_app, IHl. cbn [map]. rewrite !list_sum_cons. cbn [list_sum fold_right]. lia. Qed.

Definition pair_weight (p : val * val) : nat := weight (fst p) + weight (snd p).
Lemma dict_set_weight k v d :
  list_sum (map pair_weight (dict_set key_eqb k v d)) <= weight k + weight v + list_sum (map pair_weight d).
Proof.
  induction d as [|[k' v'] d IH]; cbn [dict_set]; [cbn; unfold pair_weight; cbn; lia|].
  destruct (key_eqb k' k); cbn [map]; rewrite !list_sum_cons; unfold pair_weight at 1 3; cbn [fst snd]; lia.
Qed.
Lemma dict_of_weight kv : list_sum (map pair_weight (dict_of key_eqb kv)) <= list_sum (map pair_weight kv).
Proof.
  unfold dict_of.
  assert (G : forall d, list_sum (map pair_weight (fold_left (fun d p => dict_set key_eqb (fst p) (snd p) d) kv d))
              <= list_sum (map pair_weight kv) + list_sum (map pair_weight d)).
  { induction kv as [|[k v] kv IH]; intros d; cbn [fold_left map]; [cbn; lia|].
    rewrite IH, list_sum_cons. pose proof (dict_set_weight k v d). unfold pair_weight at 3. cbn [fst snd]. lia. }
  specialize (G []). cbn in G. lia.
Qed.
Lemma weight_dict d : weight (VDict d) = 1 + list_sum (map pair_weight d).
Proof. reflexivity. Qed.
Lemma weight_list d : weight (VList d) = 1 + list_sum (map weight d).
Proof. reflexivity. Qed.

Lemma decode_weight s :
  (forall v r, decode_rest s = Ok (v, r) -> weight v + length r <= length s) /\
  (forall acc v r, dlist s acc = Ok (v, r) -> weight v + length r <= length s + list_sum (map weight acc)) /\
  (forall acc v r, ddict s acc = Ok (v, r) -> weight v + length r <= length s + list_sum (map pair_weight acc)).
Proof.
  induction s as [s IH] using length_ind.
  assert (D : forall v r, decode_rest s = Ok (v, r) -> weight v + length r <= length s).
  { intros v r. destruct s as [|c s]; [rewrite decode_rest_nil; discriminate|].
    rewrite !decode_rest_cons. destruct (IH s) as (_ & IHl & IHk); [cbn; lia|]. cbn [length].
    destruct (beqb c "e"); [intros [= <- <-]; cbn; lia|].
    destruct (beqb c "i").
    { intros H. pose proof (dec_number_progress _ _ _ _ H). apply (dec_number_ext _ _ _ _ []) in H as [_ [z ->]]. cbn. lia. }
    destruct (beqb c "l"); [intros H; apply IHl in H; cbn in H; lia|].
    destruct (beqb c "d"); [intros H; apply IHk in H; cbn in H; lia|].
    intros H. apply dec_size_progress in H as [a [-> ?]]. cbn. lia. }
  split; [exact D|]. split.
  - intros acc v r. rewrite !dlist_eq.
    destruct (decode_rest s) as [[x s1]|e|] eqn:E; cbn [bind fst snd]; try discriminate.
    pose proof (decode_rest_progress _ _ _ E) as Hp. pose proof (D _ _ eq_refl) as Hw.
    assert (G : forall x', x' = x -> dlist s1 (x' :: acc) = Ok (v, r) ->
       weight v + length r <= length s + list_sum (map weight acc)).
    { intros x' -> H. destruct (IH s1 Hp) as (_ & IHl & _). apply IHl in H. cbn [map] in H.
      rewrite list_sum_cons in H. lia. }
    destruct x; try (apply G; reflexivity).
    intros [= <- <-]. rewrite weight_list, sum_map_rev. lia.
  - intros acc v r. rewrite !ddict_eq.
    destruct (decode_rest s) as [[x s1]|e|] eqn:E; cbn [bind fst snd]; try discriminate.
    pose proof (decode_rest_progress _ _ _ E) as Hp. pose proof (D _ _ eq_refl) as Hw.
    assert (G : (y <- decode_rest s1 ;; ddict (snd y) ((x, fst y) :: acc)) = Ok (v, r) ->
       weight v + length r <= length s + list_sum (map pair_weight acc)).
    { intros H. apply bind_ok in H as [[y s2] [Ey H]]. cbn [fst snd] in H.
      destruct (IH s1 Hp) as (IHd & _ & _). pose proof (IHd _ _ Ey) as Hy.
      pose proof (decode_rest_progress _ _ _ Ey) as Hp2.
      destruct (IH s2) as (_ & _ & IHk); [lia|]. apply IHk in H. cbn [map] in H.
      rewrite list_sum_cons in H. unfold pair_weight at 1 in H. cbn [fst snd] in H. lia. }
    destruct x; try exact G.
    destruct (forallb _ _); [|discriminate]. intros [= <- <-]. rewrite weight_dict.
    pose proof (dict_of_weight (rev acc)) as Hd. rewrite sum_map_rev in Hd. lia.
Qed.

Lemma c08 s v : decode s = Ok v -> weight v <= length s.
Proof.
  unfold decode. intros H. apply bind_ok in H as [[x r] [E H]]. injection H as ->.
  apply (decode_weight s) in E. lia.
Qed.

(** ** Hanging inputs *)
Lemma dsize_hang s acc : dsize s acc = Hang <-> ~ In ":"%byte s.
Proof.
  revert acc; induction s as [|c s IH]; intros acc.
  - rewrite dsize_nil. split; auto.
  - rewrite dsize_cons. destruct (beqb_spec c ":"%byte) as [->|Hc].
    + split; [|intros H; exfalso; apply H; now left].
      destruct (int_of_bytes acc) as [z|]; [|discriminate]. unfold py_read.
      destruct (_ || _); [discriminate|]. destruct (z <? 0)%Z; discriminate.
    + rewrite IH. cbn. intuition congruence.
Qed.

Lemma stuck_iff s :
  (decode_rest s = Hang <-> stuck s) /\
  (forall acc, dlist s acc = Hang <-> stuck_list s) /\
  (forall acc, ddict s acc = Hang <-> stuck_dict s).
Proof.
  induction s as [s IH] using length_ind.
  assert (D : decode_rest s = Hang <-> stuck s).
  { destruct s as [|c s]; [split; [discriminate|intros H; inversion H]|].
    rewrite decode_rest_cons. destruct (IH s) as (_ & IHl & IHk); [cbn; lia|].
    destruct (beqb_spec c "e"%byte) as [->|He].
    { split; [discriminate|intros H; inversion H as [? ? Ht| |]; exfalso; apply Ht; red; auto]. }
    destruct (beqb_spec c "i"%byte) as [->|Hi].
    { split; [intros H; now apply dec_number_no_hang in H|intros H; inversion H as [? ? Ht| |]; exfalso; apply Ht; red; auto]. }
    destruct (beqb_spec c "l"%byte) as [->|Hl].
    { rewrite IHl. split; [now constructor|]. intros H; inversion H as [? ? Ht| |]; subst; auto. exfalso; apply Ht; red; auto. }
    destruct (beqb_spec c "d"%byte) as [->|Hd].
    { rewrite IHk. split; [now constructor|]. intros H; inversion H as [? ? Ht| |]; subst; auto. exfalso; apply Ht; red; auto. }
    rewrite dsize_hang. split.
    - intros H. constructor; auto. unfold type_byte. tauto.
    - intros H; inversion H; subst; congruence. }
  split; [exact D|]. split.
  - intros acc. rewrite dlist_eq. destruct (decode_rest s) as [[x r]|e|] eqn:E; cbn [bind fst snd].
    + pose proof (decode_rest_progress _ _ _ E) as Hp. destruct (IH r Hp) as (_ & IHl & _).
      assert (G : x <> VNone -> stuck_list r <-> stuck_list s).
      { intros Hx. split; [intros; eapply sl_next; eauto|].
        intros H. inversion H as [? Hs|? v r' E' Hv Hr]; subst; [|congruence]. apply D in Hs. discriminate. }
      destruct x; try (rewrite IHl; apply G; discriminate).
      split; [discriminate|]. intros H. inversion H as [? Hs|? v r' E' Hv Hr]; subst; [apply D in Hs; discriminate|congruence].
    + split; [discriminate|]. intros H. inversion H as [? Hs|? v r' E' Hv Hr]; subst; [apply D in Hs; discriminate|congruence].
    + split; auto. intros _. constructor. now apply D.
  - intros acc. rewrite ddict_eq. destruct (decode_rest s) as [[x r]|e|] eqn:E; cbn [bind fst snd].
    + pose proof (decode_rest_progress _ _ _ E) as Hp. destruct (IH r Hp) as (IHr & _ & _).
      assert (G : x <> VNone -> (y <- decode_rest r ;; ddict (snd y) ((x, fst y) :: acc)) = Hang <-> stuck_dict s).
      { intros Hx. destruct (decode_rest r) as [[y r2]|e|] eqn:E2; cbn [bind fst snd].
        - pose proof (decode_rest_progress _ _ _ E2) as Hp2. destruct (IH r2) as (_ & _ & IHk); [lia|]. rewrite IHk.
          split; [intros; eapply sk_next; eauto|]. intros H.
          inversion H as [? Hs|? k r' E' Hv Hr|? k r' v r3 E' Hv E3 Hr]; subst.
          + apply D in Hs. discriminate.
          + assert (r' = r) as -> by congruence. apply IHr in Hr. congruence.
          + assert (r' = r) as -> by congruence. assert (r3 = r2) as -> by congruence. auto.
        - split; [discriminate|]. intros H. inversion H as [? Hs|? k r' E' Hv Hr|? k r' v r3 E' Hv E3 Hr]; subst.
          + apply D in Hs. discriminate.
          + assert (r' = r) as -> by congruence. apply IHr in Hr. congruence.
          + assert (r' = r) as -> by congruence. congruence.
        - split; auto. intros _. eapply sk_val; eauto. now apply IHr. }
      destruct x; try (apply G; discriminate).
      split; [destruct (forallb _ _); discriminate|]. intros H.
      inversion H as [? Hs|? k r' E' Hv Hr|? k r' v r3 E' Hv E3 Hr]; subst; [apply D in Hs; discriminate|congruence|congruence].
    + split; [discriminate|]. intros H.
      inversion H as [? Hs|? k r' E' Hv Hr|? k r' v r3 E' Hv E3 Hr]; subst; [apply D in Hs; discriminate|congruence|congruence].
    + split; auto. intros _. constructor. now apply D.
Qed.

Lemma decode_stuck s : decode s = Hang <-> stuck s.
Proof.
  rewrite <- (proj1 (stuck_iff s)). unfold decode. destruct (decode_rest s); cbn; split; congruence.
Qed.

Scheme stuck_mut := Minimality for stuck Sort Prop
  with stuck_list_mut := Minimality for stuck_list Sort Prop
  with stuck_dict_mut := Minimality for stuck_dict Sort Prop.
Combined Scheme stuck_all from stuck_mut, stuck_list_mut, stuck_dict_mut.

Lemma decode_rest_suffix s v r : decode_rest s = Ok (v, r) -> exists p, s = p ++ r.
Proof.
  assert (S : forall f,
    (forall s v r, dec f s = Ok (v, r) -> exists p, s = p ++ r) /\
    (forall s acc v r, dec_list f s acc = Ok (v, r) -> exists p, s = p ++ r) /\
    (forall s acc v r, dec_dict f s acc = Ok (v, r) -> exists p, s = p ++ r)).
  { clear. induction f as [|f (IHd & IHl & IHk)]; cbn; (split; [|split]); try (intros; discriminate).
    - intros [|c s] v r; [discriminate|].
      assert (G : (exists p, s = p ++ r) -> exists p, c :: s = p ++ r).
      { intros [p ->]. exists (c :: p). reflexivity. }
      destruct (beqb c "e"); [intros [= _ <-]; apply G; exists []; reflexivity|].
      destruct (beqb c "i").
      { intros H. apply G. clear -H. revert H. generalize (@nil byte). induction s as [|a s IH]; intros acc; cbn; [discriminate|].
        destruct (_ && _).
        - destruct (negb _); [discriminate|]. destruct (int_of_bytes acc); [|discriminate]. intros [= _ <-]. now exists [a].
        - intros H. apply IH in H as [p ->]. now exists (a :: p). }
      destruct (beqb c "l"); [intros H; apply G; eauto|]. destruct (beqb c "d"); [intros H; apply G; eauto|].
      intros H. apply G. clear -H. revert s H. generalize [c]. induction f as [|f IH]; intros acc s; cbn; [discriminate|].
      destruct s as [|a s]; [intros H; apply IH in H as [p Hp]; eauto|].
      destruct (beqb a ":").
      + destruct (int_of_bytes acc); [|discriminate]. intros H.
        apply bind_ok in H as [[x y] [H1 H2]]. injection H2 as <- <-. apply py_read_split in H1. subst s.
        now exists (a :: x).
      + intros H. apply IH in H as [p ->]. now exists (a :: p).
    - intros s acc v r H. apply bind_ok in H as [[x s1] [H1 H2]]. apply IHd in H1 as [p ->]. cbn [fst snd] in H2.
      destruct x; try (apply IHl in H2 as [p' ->]; exists (p ++ p'); now rewrite app_assoc).
      injection H2 as <- <-. eauto.
    - intros s acc v r H. apply bind_ok in H as [[x s1] [H1 H2]]. apply IHd in H1 as [p ->]. cbn [fst snd] in H2.
      destruct x; try (apply bind_ok in H2 as [[y s2] [H3 H4]]; apply IHd in H3 as [p2 ->]; cbn [fst snd] in *;
        apply IHk in H4 as [p3 ->]; exists (p ++ p2 ++ p3); now rewrite !app_assoc).
      destruct (forallb _ _); [|discriminate]. injection H2 as <- <-. eauto. }
  apply S.
Qed.

(** A hanging input ends in a suffix without any colon that starts a string. *)
Lemma stuck_suffix s : stuck s -> exists p c q, s = p ++ c :: q /\ ~ type_byte c /\ ~ In ":"%byte q.
Proof.
  set (R := fun s : bytes => exists p c q, s = p ++ c :: q /\ ~ type_byte c /\ ~ In ":"%byte q).
  assert (X : forall p s, R s -> R (p ++ s)).
  { intros p s0 (p0 & c & q & -> & H). exists (p ++ p0), c, q. rewrite <- app_assoc. auto. }
  assert (forall s, (stuck s -> R s)) as G.
  { apply (stuck_mut R R R); try (intros; assumption).
    - intros c s0 H1 H2. exists [], c, s0. auto.
    - intros s0 _ H. apply (X ["l"%byte]). exact H.
    - intros s0 _ H. apply (X ["d"%byte]). exact H.
    - intros s0 v r E _ _ H. apply decode_rest_suffix in E as [p ->]. now apply X.
    - intros s0 v r E _ _ H. apply decode_rest_suffix in E as [p ->]. now apply X.
    - intros s0 k r v r' E _ E' _ H. apply decode_rest_suffix in E as [p ->]. apply decode_rest_suffix in E' as [p' ->].
      now do 2 apply X. }
  apply G.
Qed.
