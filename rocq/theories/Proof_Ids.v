(** Proofs of C107 *)
From Coq Require FinFun.
From Verif Require Import Py Model_Ids Spec_Ids.

Lemma irun_snoc l t : irun (l ++ [t]) = istep t (irun l).
Proof. unfold irun. now rewrite fold_left_app. Qed.
Lemma count_snoc l t u : count_occ Nat.eq_dec (l ++ [t]) u = (count_occ Nat.eq_dec l u + if (u =? t)%nat then 1 else 0)%nat.
Proof.
  induction l as [|x l IH]; cbn.
  - destruct (Nat.eq_dec t u) as [->|N]; [now rewrite Nat.eqb_refl|]. destruct (Nat.eqb_spec u t); congruence.
  - destruct (Nat.eq_dec x u); rewrite IH; lia.
Qed.
Lemma alone_snoc l t : alone (l ++ [t]) -> alone l.
Proof.
  intros H n a b Ha Hb. destruct (Nat.le_gt_cases n (length l)) as [L|L].
  - specialize (H n a b). rewrite firstn_app in H. replace (n - length l)%nat with 0%nat in H by lia. cbn in H. rewrite app_nil_r in H. auto.
  - rewrite firstn_all2 in * by lia. specialize (H (length l) a b). rewrite firstn_app, Nat.sub_diag in H. cbn in H. rewrite app_nil_r, firstn_all in H. auto.
Qed.
Lemma alone_now l t u : alone l -> amid l t -> amid l u -> t = u.
Proof. intros H. specialize (H (length l) t u). now rewrite firstn_all in H. Qed.

(** Where a thread is, from the number of its steps *)
Lemma where_at l t : match (count_occ Nat.eq_dec l t mod 3)%nat with
  | 0%nat => i_threads (irun l) t = IIdle | 1%nat => exists v, i_threads (irun l) t = IRead v | _ => i_threads (irun l) t = IWrote end.
Proof.
  revert t. induction l as [|x l IH] using rev_ind; intros t; [reflexivity|]. rewrite irun_snoc, count_snoc. specialize (IH t).
  set (c := count_occ Nat.eq_dec l t) in *.
  destruct (Nat.eqb_spec t x) as [<-|N].
  - assert (M := Nat.mod_upper_bound c 3 ltac:(lia)). rewrite Nat.add_mod by lia. change (1 mod 3)%nat with 1%nat.
    unfold istep. destruct (c mod 3)%nat as [|[|[|k]]] eqn:E; [| | |lia]; cbn -[Nat.add].
    + rewrite IH. cbn. unfold goes. rewrite Nat.eqb_refl. eauto.
    + destruct IH as [v ->]. cbn. unfold goes. now rewrite Nat.eqb_refl.
    + rewrite IH. cbn. unfold goes. now rewrite Nat.eqb_refl.
  - rewrite Nat.add_0_r. assert (K : i_threads (istep x (irun l)) t = i_threads (irun l) t).
    { unfold istep. destruct (i_threads (irun l) x); cbn; unfold goes; destruct (Nat.eqb_spec t x); congruence. }
    rewrite K. exact IH.
Qed.
Lemma amid_pc l t : amid l t <-> i_threads (irun l) t <> IIdle.
Proof.
  unfold amid. assert (W := where_at l t). assert (M := Nat.mod_upper_bound (count_occ Nat.eq_dec l t) 3 ltac:(lia)).
  destruct (count_occ Nat.eq_dec l t mod 3)%nat as [|[|k]].
  - split; [lia|congruence].
  - destruct W as [v ->]. split; [discriminate|lia].
  - rewrite W. split; [discriminate|lia].
Qed.

Definition next_ids (n : nat) : list Z := map Z.of_nat (seq 2 n).
Lemma next_ids_S n : next_ids (S n) = next_ids n ++ [Z.of_nat n + 2]%Z.
Proof. unfold next_ids. rewrite seq_S, map_app. cbn. do 2 f_equal. lia. Qed.

Lemma alone_inv l : alone l ->
  let s := irun l in let n := length (i_given s) in
  map snd (rev (i_given s)) = next_ids n /\
  ((forall t, i_threads s t = IIdle) /\ i_call_id s = (Z.of_nat n + 1)%Z \/
   exists t, (forall u, u <> t -> i_threads s u = IIdle) /\
     (i_threads s t = IRead (Z.of_nat n + 1) /\ i_call_id s = (Z.of_nat n + 1)%Z \/ i_threads s t = IWrote /\ i_call_id s = (Z.of_nat n + 2)%Z)).
Proof.
  induction l as [|x l IH] using rev_ind; [intros _; cbn; split; auto|]. intros A. assert (A0 := alone_snoc _ _ A). specialize (IH A0).
  cbn zeta in *. rewrite irun_snoc. set (s := irun l) in *. destruct IH as [G [[I C]|(t & I & P)]].
  - unfold istep. rewrite I. cbn. split; [exact G|]. right. exists x. unfold goes. rewrite Nat.eqb_refl, C. split; [|auto].
    intros u N. destruct (Nat.eqb_spec u x); congruence.
  - assert (x = t) as ->.
    { destruct (Nat.eq_dec x t) as [E|N]; auto. exfalso. apply N. apply (alone_now (l ++ [x])); auto; apply amid_pc; rewrite irun_snoc; fold s; unfold istep.
      - rewrite (I x N). cbn. unfold goes. rewrite Nat.eqb_refl. discriminate.
      - rewrite (I x N). cbn. unfold goes. destruct (Nat.eqb_spec t x); [congruence|]. destruct P as [[-> _]|[-> _]]; discriminate. }
    unfold istep. destruct P as [[P C]|[P C]]; rewrite P; cbn [i_given i_threads i_call_id].
    + split; [exact G|]. right. exists t. unfold goes. rewrite Nat.eqb_refl. split; [|right; split; [auto|lia]].
      intros u N. destruct (Nat.eqb_spec u t); [congruence|auto].
    + cbn [length rev]. rewrite map_app, G, next_ids_S. split; [now rewrite C|]. left. rewrite C. split; [|lia].
      intros u. unfold goes. destruct (Nat.eqb_spec u t); auto.
Qed.
Lemma alone_ids l : alone l -> map snd (given l) = map Z.of_nat (seq 2 (length (given l))).
Proof. intros A. unfold given. rewrite rev_length. exact (proj1 (alone_inv l A)). Qed.
Lemma alone_distinct l : alone l -> NoDup (map snd (given l)).
Proof.
  intros A. rewrite (alone_ids l A). apply FinFun.Injective_map_NoDup; [|apply seq_NoDup]. intros a b H. lia.
Qed.

(** However they interleave *)
Lemma given_count l t : count_occ Nat.eq_dec (map fst (given l)) t = (count_occ Nat.eq_dec l t / 3)%nat.
Proof.
  unfold given. induction l as [|x l IH] using rev_ind; [reflexivity|]. rewrite irun_snoc, count_snoc. assert (W := where_at l x).
  set (c := count_occ Nat.eq_dec l) in *.
  assert (M := Nat.mod_upper_bound (c x) 3 ltac:(lia)). assert (Q := Nat.div_mod (c x) 3 ltac:(lia)).
  destruct (Nat.eqb_spec t x) as [->|N].
  - unfold istep. destruct (c x mod 3)%nat as [|[|[|k]]] eqn:F; [| | |lia].
    + rewrite W. cbn [i_given]. rewrite IH. assert (K := Nat.div_unique (c x + 1) 3 (c x / 3) 1 ltac:(lia) ltac:(lia)). lia.
    + destruct W as [v ->]. cbn [i_given]. rewrite IH. assert (K := Nat.div_unique (c x + 1) 3 (c x / 3) 2 ltac:(lia) ltac:(lia)). lia.
    + rewrite W. cbn [i_given rev]. rewrite map_app. cbn [map fst]. rewrite count_snoc, IH, Nat.eqb_refl.
      assert (K := Nat.div_unique (c x + 1) 3 (c x / 3 + 1) 0 ltac:(lia) ltac:(lia)). lia.
  - rewrite Nat.add_0_r, <- IH. unfold istep. destruct (i_threads (irun l) x); cbn [i_given]; auto.
    cbn [rev]. rewrite map_app. cbn [map fst]. rewrite count_snoc. destruct (Nat.eqb_spec t x); [congruence|lia].
Qed.
Lemma bounded_inv l : (1 <= i_call_id (irun l) <= 1 + Z.of_nat (length l))%Z /\
  (forall t v, i_threads (irun l) t = IRead v -> (1 <= v)%Z /\ (v <= Z.of_nat (length l))%Z) /\
  (forall t, i_threads (irun l) t = IWrote -> (2 <= i_call_id (irun l))%Z) /\
  Forall (fun p => (2 <= snd p)%Z) (i_given (irun l)).
Proof.
  induction l as [|x l IH] using rev_ind; [cbn; repeat split; try lia; try discriminate; constructor|].
  rewrite irun_snoc, app_length, Nat2Z.inj_add. cbn [length]. set (s := irun l) in *. destruct IH as (A & B & C & D). unfold istep.
  destruct (i_threads s x) as [|v|] eqn:E; cbn [i_call_id i_threads i_given]; unfold goes.
  - split; [lia|]. split; [|split]; auto.
    + intros t v. destruct (Nat.eqb_spec t x); [intros [= <-]; lia|intros H; apply B in H; lia].
    + intros t. destruct (Nat.eqb_spec t x); [discriminate|apply C].
  - destruct (B x v E) as [B1 B2]. split; [lia|]. split; [|split]; auto.
    + intros t w. destruct (Nat.eqb_spec t x); [discriminate|intros K; apply B in K; lia].
    + intros. lia.
  - split; [lia|]. split; [|split].
    + intros t w. destruct (Nat.eqb_spec t x); [discriminate|intros H; apply B in H; lia].
    + intros t. destruct (Nat.eqb_spec t x); [discriminate|apply C].
    + constructor; auto. cbn. eapply C; eauto.
Qed.
Lemma never_one l t i : In (t, i) (given l) -> (2 <= i)%Z.
Proof. intros H. unfold given in H. apply in_rev in H. destruct (bounded_inv l) as (_ & _ & _ & F). rewrite Forall_forall in F. exact (F _ H). Qed.
