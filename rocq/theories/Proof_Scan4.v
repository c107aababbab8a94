From Verif Require Import Py Py_lemmas Dict_lemmas Model_Path Model_Scan Spec_Scan.

(** ** Scanner threads (C57-C59) *)
Lemma set_nth_same {A} (l : list A) i x y : nth_error l i = Some y -> nth_error (set_nth i x l) i = Some x.
Proof.
  unfold set_nth. revert i. induction l as [|a l IH]; intros [|i]; cbn; try discriminate; auto.
Qed.
Lemma set_nth_other {A} (l : list A) i j x : i <> j -> nth_error (set_nth i x l) j = nth_error l j.
Proof.
  unfold set_nth. revert i j. induction l as [|a l IH]; intros [|i] [|j] N; cbn; try reflexivity; try lia; auto.
Qed.
Lemma set_nth_split {A} (l : list A) i y : nth_error l i = Some y -> exists a b, l = a ++ y :: b /\ length a = i /\ forall x, set_nth i x l = a ++ x :: b.
Proof.
  unfold set_nth. revert i. induction l as [|z l IH]; intros [|i]; cbn; try discriminate.
  - intros [= ->]. exists [], l. auto.
  - intros H. destruct (IH i H) as (a & b & -> & L & E). exists (z :: a), b. cbn. split; [auto|]. split; [now rewrite L|]. intros x. now rewrite E.
Qed.
Lemma srun_snoc l a s : srun (l ++ [a]) s = sstep (srun l s) a.
Proof. unfold srun. now rewrite fold_left_app. Qed.
Lemma results_snoc l a : results (l ++ [a]) = results l ++ match a with Scanned _ (Some d) => [d] | _ => [] end.
Proof.
  induction l as [|b l IH]; [destruct a as [| | |? []| | | | | |]; reflexivity|]. cbn [app results]. destruct b as [| | |? []| | | | | |]; rewrite IH; reflexivity.
Qed.

Definition holding (pc : spc) : list bytes := match pc with POpen d | PWrite d _ | PNotify d => [d] | _ => [] end.
Definition file_ok (pc : spc) (f : option bytes) : Prop :=
  match pc with PWrite d k => f = Some (firstn k d) | PNotify d => f = Some d | _ => True end.
(** The lock, the threads and the file *)
Definition SInv (R : list bytes) (s : scanner) : Prop :=
  (forall t th, nth_error (sc_threads s) t = Some th -> inside th -> sc_lock s = Some t /\ file_ok (t_pc th) (sc_file s) /\ incl (holding (t_pc th)) R) /\
  (forall t, sc_lock s = Some t -> exists th, nth_error (sc_threads s) t = Some th /\ inside th).

Lemma sinv_move R R' s t th pc' file' sent' : SInv R s -> nth_error (sc_threads s) t = Some th -> inside th -> incl R R' ->
  (match pc' with PLock | PDone => False | _ => True end) -> file_ok pc' file' -> incl (holding pc') R' ->
  SInv R' (Sc (sc_lock s) (set_thread s t (Th pc' (t_call th))) (sc_pending s) file' sent').
Proof.
  intros [I1 I2] N In Ri Pc Fi Ho. destruct (I1 t th N In) as (L & _ & _). unfold set_thread. split; cbn [sc_threads sc_lock sc_file].
  - intros u uh Hu Iu. destruct (Nat.eq_dec t u) as [<-|NE].
    + rewrite (set_nth_same _ _ _ th) in Hu by auto. injection Hu as <-. cbn. auto.
    + rewrite set_nth_other in Hu by auto. destruct (I1 u uh Hu Iu) as (L' & _). congruence.
  - intros u Hu. assert (u = t) as -> by congruence. eexists. split; [eapply set_nth_same; eauto|]. unfold inside. cbn. now destruct pc'.
Qed.
Lemma incl_app_l {A} (a b : list A) : incl a (a ++ b). Proof. intros x I. apply in_or_app. auto. Qed.
Lemma sinv_more R R' s : SInv R s -> incl R R' -> SInv R' s.
Proof. intros [I1 I2] Ri. split; auto. intros t th N In. destruct (I1 t th N In) as (A & B & C). repeat split; auto. eapply incl_tran; eauto. Qed.
Lemma sinv_step R s a : SInv R s -> SInv (R ++ match a with Scanned _ (Some d) => [d] | _ => [] end) (sstep s a).
Proof.
  intros I. assert (M : SInv (R ++ match a with Scanned _ (Some d) => [d] | _ => [] end) s) by (eapply sinv_more; eauto using incl_app_l).
  destruct a as [r|ok|t|t r|t ok|t n|t|t|t ok|t]; cbn [sstep];
    try (destruct (nth_error (sc_threads s) t) as [th|] eqn:N; [|exact M]).
  - destruct (sc_lock s) eqn:L; [exact M|]. destruct M as [I1 I2]. split; cbn [sc_threads sc_lock sc_file]; [|discriminate].
    intros u uh Hu Iu. destruct (I1 u uh Hu Iu) as (A & _). congruence.
  - destruct (sc_pending s) as [|r rest] eqn:P; [exact M|]. destruct M as [I1 I2]. destruct ok; [|split; auto]. split; cbn [sc_threads sc_lock sc_file].
    + intros u uh Hu Iu. destruct (Nat.lt_ge_cases u (length (sc_threads s))) as [LT|GE].
      * rewrite nth_error_app1 in Hu by auto. auto.
      * rewrite nth_error_app2 in Hu by auto. destruct (u - length (sc_threads s)) as [|k]; cbn in Hu; [injection Hu as <-; elim Iu|now destruct k].
    + intros u Hu. destruct (I2 u Hu) as (uh & A & B). exists uh. split; auto. now apply nth_error_app_old.
  - destruct (t_pc th) eqn:Pc; try exact M. destruct (sc_lock s) eqn:L; [exact M|]. destruct M as [I1 I2]. unfold set_thread. split; cbn [sc_threads sc_lock sc_file].
    + intros u uh Hu Iu. destruct (Nat.eq_dec t u) as [<-|NE].
      * rewrite (set_nth_same _ _ _ th) in Hu by auto. injection Hu as <-. cbn. split; [auto|]. split; [auto|]. intros x [].
      * rewrite set_nth_other in Hu by auto. destruct (I1 u uh Hu Iu) as (A & _). congruence.
    + intros u [= <-]. eexists. split; [eapply set_nth_same; eauto|]. cbn. auto.
  - destruct (t_pc th) eqn:Pc; try exact M. eapply sinv_move; [exact I|exact N| | | | |].
    + unfold inside. now rewrite Pc.
    + apply incl_app_l.
    + now destruct r.
    + now destruct r.
    + destruct r; cbn; [intros x [<-|[]]; apply in_or_app; right; now left|intros x []].
  - destruct (t_pc th) eqn:Pc; try exact M.
    assert (In0 : inside th) by (unfold inside; now rewrite Pc). destruct (proj1 I t th N In0) as (_ & _ & Ho). rewrite Pc in Ho.
    destruct ok; (eapply sinv_move; [exact I|exact N|exact In0|apply incl_app_l|exact Logic.I| |]).
    + reflexivity.
    + rewrite app_nil_r. exact Ho.
    + exact Logic.I.
    + intros x [].
  - destruct (t_pc th) eqn:Pc; try exact M.
    assert (In0 : inside th) by (unfold inside; now rewrite Pc). destruct (proj1 I t th N In0) as (_ & _ & Ho). rewrite Pc in Ho.
    eapply sinv_move; [exact I|exact N|exact In0|apply incl_app_l|exact Logic.I|reflexivity|]. rewrite app_nil_r. exact Ho.
  - destruct (t_pc th) eqn:Pc; try exact M.
    assert (In0 : inside th) by (unfold inside; now rewrite Pc).
    eapply sinv_move; [exact I|exact N|exact In0|apply incl_app_l|exact Logic.I|exact Logic.I|intros x []].
  - destruct (t_pc th) eqn:Pc; try exact M. destruct (length d <=? n) eqn:Le; [|exact M].
    assert (In0 : inside th) by (unfold inside; now rewrite Pc). destruct (proj1 I t th N In0) as (_ & Fi & Ho). rewrite Pc in Fi, Ho. cbn in Fi.
    eapply sinv_move; [exact I|exact N|exact In0|apply incl_app_l|exact Logic.I| |rewrite app_nil_r; exact Ho].
    cbn. rewrite Fi. rewrite firstn_all2; [auto|]. now apply Nat.leb_le.
  - destruct (t_pc th) eqn:Pc; try exact M.
    assert (In0 : inside th) by (unfold inside; now rewrite Pc).
    eapply sinv_move; [exact I|exact N|exact In0|apply incl_app_l|exact Logic.I|exact Logic.I|intros x []].
  - destruct (t_pc th) eqn:Pc; try exact M.
    assert (In0 : inside th) by (unfold inside; now rewrite Pc). destruct (proj1 I t th N In0) as (L & _). destruct M as [I1 I2]. unfold set_thread. split; cbn [sc_threads sc_lock sc_file]; [|discriminate].
    intros u uh Hu Iu. destruct (Nat.eq_dec t u) as [<-|NE].
    + rewrite (set_nth_same _ _ _ th) in Hu by auto. injection Hu as <-. elim Iu.
    + rewrite set_nth_other in Hu by auto. destruct (I1 u uh Hu Iu) as (A & _). congruence.
Qed.
Lemma sinv_run f l : SInv (results l) (srun l (sinit f)).
Proof.
  induction l as [|a l IH] using rev_ind.
  - split; cbn; [intros [|t]; discriminate|discriminate].
  - rewrite srun_snoc, results_snoc. now apply sinv_step.
Qed.
Lemma one_scan f l t t' th th' : nth_error (sc_threads (srun l (sinit f))) t = Some th -> nth_error (sc_threads (srun l (sinit f))) t' = Some th' ->
  inside th -> inside th' -> t = t'.
Proof.
  intros A B C D. destruct (sinv_run f l) as [I _]. destruct (I t th A C) as (L & _). destruct (I t' th' B D) as (L' & _). congruence.
Qed.
(** A success packet appears only when the file is the whole result of that thread's scan *)
Lemma success_after_write f l a n : let s := srun l (sinit f) in sc_sent (sstep s a) = (n, true) :: sc_sent s ->
  exists t d, a = Notified t true /\ nth_error (sc_threads s) t = Some (Th (PNotify d) (Some n)) /\ sc_file s = Some d /\ In d (results l).
Proof.
  intros s. pose proof (sinv_run f l) as [I _]. fold s in I.
  assert (X : forall (x : nat * bool) y, y <> x :: y) by (intros x y E; apply (f_equal (@length _)) in E; cbn in E; lia).
  destruct a as [r|ok|t|t r|t ok|t k|t|t|t ok|t]; cbn [sstep];
    try (destruct (nth_error (sc_threads s) t) as [th|] eqn:N; [|intros E; now apply X in E]);
    try (destruct (t_pc th) eqn:Pc; try (intros E; now apply X in E)); cbn [sc_sent];
    try (intros E; now apply X in E).
  - destruct (sc_lock s); intros E; now apply X in E.
  - destruct (sc_pending s) as [|[m|] rest]; [|destruct ok|destruct ok]; cbn [sc_sent]; try (intros E; now apply X in E); discriminate.
  - destruct (sc_lock s); intros E; now apply X in E.
  - destruct ok; intros E; now apply X in E.
  - destruct (length d <=? n0); intros E; now apply X in E.
  - destruct (t_call th) as [m|] eqn:Ca; [|intros E; now apply X in E]. destruct ok; [|intros E; now apply X in E]. intros [= ->].
    assert (In0 : inside th) by (unfold inside; now rewrite Pc). destruct (I t th N In0) as (_ & Fi & Ho). rewrite Pc in Fi, Ho. cbn in Fi.
    exists t, d. split; [reflexivity|]. split; [rewrite N; destruct th; cbn in *; congruence|]. split; [exact Fi|]. apply Ho. now left.
Qed.

(** ** Answers *)
Definition is_req (n : nat) (r : option nat) : nat := match r with Some m => if m =? n then 1 else 0 | None => 0 end.
Definition owes (n : nat) (th : sthread) : nat := match t_pc th with PRelease | PDone => 0 | _ => is_req n (t_call th) end.
Definition cnt (n : nat) (s : scanner) : nat :=
  list_sum (map (is_req n) (sc_pending s)) + list_sum (map (owes n) (sc_threads s)) + list_sum (map (fun x => is_req n (Some (fst x))) (sc_sent s)).
Definition asks (n : nat) (s : scanner) (a : saction) : nat :=
  match a with Call r => match sc_lock s with None => is_req n r | Some _ => 0 end | _ => 0 end.
Lemma sum_app a b : list_sum (a ++ b) = list_sum a + list_sum b.
Proof. apply list_sum_app. Qed.
Lemma sum_cons x l : list_sum (x :: l) = x + list_sum l. Proof. reflexivity. Qed.
Lemma cnt_move n s t th pc' lock' file' sent' : nth_error (sc_threads s) t = Some th ->
  cnt n (Sc lock' (set_thread s t (Th pc' (t_call th))) (sc_pending s) file' sent') + owes n th + list_sum (map (fun x => is_req n (Some (fst x))) (sc_sent s)) =
  cnt n s + owes n (Th pc' (t_call th)) + list_sum (map (fun x => is_req n (Some (fst x))) sent').
Proof.
  intros N. unfold cnt, set_thread. cbn [sc_pending sc_threads sc_sent]. destruct (set_nth_split _ _ _ N) as (a & b & E & _ & E2).
  rewrite E2, E, !map_app, !sum_app. cbn [map]. rewrite !sum_cons. lia.
Qed.
Lemma cnt_step n s a : cnt n (sstep s a) <= cnt n s + asks n s a /\ (~ fails a -> cnt n (sstep s a) = cnt n s + asks n s a).
Proof.
  destruct a as [r|ok|t|t r|t ok|t k|t|t|t ok|t]; cbn [sstep asks];
    try (destruct (nth_error (sc_threads s) t) as [th|] eqn:N; [|lia]);
    try (destruct (t_pc th) eqn:Pc; try lia).
  - destruct (sc_lock s); [lia|]. unfold cnt. cbn [sc_pending sc_threads sc_sent]. rewrite map_app, sum_app. cbn [map]. rewrite sum_cons. cbn [list_sum fold_right]. lia.
  - destruct (sc_pending s) as [|r rest] eqn:P; [lia|]. unfold cnt. destruct ok; cbn [sc_pending sc_threads sc_sent]; rewrite P; cbn [map]; rewrite ?map_app, ?sum_app; cbn [map]; rewrite ?sum_cons.
    + change (owes n (Th PLock r)) with (is_req n r). cbn [list_sum fold_right]. lia.
    + destruct r; cbn [map fst]; rewrite ?sum_cons; cbn [is_req]; lia.
  - destruct (sc_lock s); [lia|]. pose proof (cnt_move n s t th PScan (Some t) (sc_file s) (sc_sent s) N) as H. unfold owes in H. rewrite Pc in H. cbn [t_pc t_call] in H. lia.
  - pose proof (cnt_move n s t th (match r with Some d => POpen d | None => PRelease end) (sc_lock s) (sc_file s) (sc_sent s) N) as H.
    unfold owes in H. rewrite Pc in H. destruct r; cbn [t_pc t_call] in H; [lia|]. split; [lia|]. intros X. now elim X.
  - destruct ok.
    + pose proof (cnt_move n s t th (PWrite d 0) (sc_lock s) (Some []) (sc_sent s) N) as H. unfold owes in H. rewrite Pc in H. cbn [t_pc t_call] in H. lia.
    + pose proof (cnt_move n s t th PRelease (sc_lock s) (sc_file s) (sc_sent s) N) as H. unfold owes in H. rewrite Pc in H. cbn [t_pc t_call] in H. split; [lia|]. intros X. now elim X.
  - pose proof (cnt_move n s t th (PWrite d (n0 + k)) (sc_lock s) (Some (firstn (n0 + k) d)) (sc_sent s) N) as H. unfold owes in H. rewrite Pc in H. cbn [t_pc t_call] in H. lia.
  - pose proof (cnt_move n s t th PRelease (sc_lock s) (sc_file s) (sc_sent s) N) as H. unfold owes in H. rewrite Pc in H. cbn [t_pc t_call] in H. split; [lia|]. intros X. now elim X.
  - destruct (length d <=? n0); [|lia].
    pose proof (cnt_move n s t th (PNotify d) (sc_lock s) (sc_file s) (sc_sent s) N) as H. unfold owes in H. rewrite Pc in H. cbn [t_pc t_call] in H. lia.
  - set (sent' := match t_call th with Some n => if ok then (n, true) :: sc_sent s else sc_sent s | None => sc_sent s end).
    pose proof (cnt_move n s t th PRelease (sc_lock s) (sc_file s) sent' N) as H. unfold owes in H. rewrite Pc in H. cbn [t_pc t_call] in H.
    subst sent'. destruct (t_call th) as [m|]; [|cbn [is_req] in H; lia]. destruct ok.
    + cbn [map fst] in H. rewrite sum_cons in H. lia.
    + split; [lia|]. intros X. now elim X.
  - pose proof (cnt_move n s t th PDone None (sc_file s) (sc_sent s) N) as H. unfold owes in H. rewrite Pc in H. cbn [t_pc t_call] in H. lia.
Qed.
Definition asked (n : nat) (l : list saction) : nat := list_sum (map (fun a => match a with Call r => is_req n r | _ => 0 end) l).
Lemma cnt_asked n f l : cnt n (srun l (sinit f)) <= asked n l.
Proof.
  induction l as [|a l IH] using rev_ind; [cbn; lia|]. rewrite srun_snoc. unfold asked in *. rewrite map_app, sum_app. cbn [map]. rewrite sum_cons. cbn [list_sum fold_right].
  destruct (cnt_step n (srun l (sinit f)) a) as [H _]. unfold asks in H. destruct a; try lia. destruct (sc_lock _); lia.
Qed.
Lemma asked_count n l : asked n l = count_occ Nat.eq_dec (requests l) n.
Proof.
  induction l as [|a l IH]; [reflexivity|]. unfold asked in *. cbn [map]. rewrite sum_cons, IH. unfold requests. cbn [flat_map]. destruct a as [[m|]| | | | | | | | |]; cbn [app is_req]; try reflexivity.
  cbn [count_occ]. destruct (Nat.eq_dec m n) as [->|NE]; [now rewrite Nat.eqb_refl|]. apply Nat.eqb_neq in NE. now rewrite NE.
Qed.
Lemma sent_count n (l : list (nat * bool)) : list_sum (map (fun x => is_req n (Some (fst x))) l) = count_occ Nat.eq_dec (map fst l) n.
Proof.
  induction l as [|[m b] l IH]; [reflexivity|]. cbn [map fst]. rewrite sum_cons, IH. cbn [count_occ is_req]. destruct (Nat.eq_dec m n) as [->|NE]; [now rewrite Nat.eqb_refl|].
  apply Nat.eqb_neq in NE. now rewrite NE.
Qed.
(** No request is answered more often than it was made *)
Lemma answers_bounded f l n : count_occ Nat.eq_dec (map fst (sc_sent (srun l (sinit f)))) n <= count_occ Nat.eq_dec (requests l) n.
Proof. rewrite <- asked_count, <- sent_count. pose proof (cnt_asked n f l) as H. unfold cnt in H. lia. Qed.
Lemma one_answer f l : NoDup (requests l) -> NoDup (map fst (sc_sent (srun l (sinit f)))) /\ incl (map fst (sc_sent (srun l (sinit f)))) (requests l).
Proof.
  intros N. split.
  - apply (NoDup_count_occ Nat.eq_dec). intros n. pose proof (answers_bounded f l n). apply (NoDup_count_occ Nat.eq_dec) with (x := n) in N. lia.
  - intros n I. apply (count_occ_In Nat.eq_dec) in I. apply (count_occ_In Nat.eq_dec). pose proof (answers_bounded f l n). lia.
Qed.
(** Without failures, requests that found no scan running are answered once all is quiet *)
Lemma sent_more s a x : In x (sc_sent s) -> In x (sc_sent (sstep s a)).
Proof.
  destruct a as [r|ok|t|t r|t ok|t k|t|t|t ok|t]; cbn [sstep];
    try (destruct (nth_error (sc_threads s) t) as [th|] eqn:N; [|auto]);
    try (destruct (t_pc th) eqn:Pc; auto); cbn [sc_sent]; auto.
  - now destruct (sc_lock s).
  - destruct (sc_pending s) as [|[m|] rest]; [auto| |]; destruct ok; cbn; auto.
  - now destruct (sc_lock s).
  - now destruct ok.
  - now destruct (_ <=? _).
  - destruct (t_call th); [|auto]. destruct ok; cbn; auto.
Qed.
Lemma cnt_keeps n l s : Forall (fun a => ~ fails a) l -> cnt n s <= cnt n (srun l s).
Proof.
  revert s. induction l as [|a l IH]; intros s F; [cbn; lia|]. inversion F as [|? ? F1 F2]; subst. specialize (IH (sstep s a) F2). change (srun (a :: l) s) with (srun l (sstep s a)).
  destruct (cnt_step n s a) as [_ H]. specialize (H F1). lia.
Qed.
Lemma answered f l1 n l2 : Forall (fun a => ~ fails a) l2 -> sc_lock (srun l1 (sinit f)) = None ->
  settled (srun (l1 ++ Call (Some n) :: l2) (sinit f)) -> In n (map fst (sc_sent (srun (l1 ++ Call (Some n) :: l2) (sinit f)))).
Proof.
  intros F L [P T]. set (s1 := srun l1 (sinit f)) in *. assert (E : srun (l1 ++ Call (Some n) :: l2) (sinit f) = srun l2 (sstep s1 (Call (Some n)))).
  { unfold s1, srun. rewrite fold_left_app. reflexivity. }
  rewrite E in *. pose proof (cnt_keeps n l2 (sstep s1 (Call (Some n))) F) as H.
  destruct (cnt_step n s1 (Call (Some n))) as [_ H2]. specialize (H2 (fun X => X)). cbn [asks is_req] in H2. rewrite L, Nat.eqb_refl in H2.
  set (s := srun l2 _) in *. unfold cnt in H at 2. rewrite P in H. cbn [map list_sum fold_right] in H. rewrite sent_count in H.
  assert (Z : list_sum (map (owes n) (sc_threads s)) = 0).
  { clear - T. induction T as [|th r Hd T IH]; [reflexivity|]. cbn [map]. rewrite sum_cons, IH. unfold owes. now rewrite Hd. }
  apply (count_occ_In Nat.eq_dec). lia.
Qed.

(** ** The result file *)
Lemma file_kept f l : no_failure l -> (forall th, In th (sc_threads (srun l (sinit f))) -> ~ writing th) ->
  sc_file (srun l (sinit f)) = f \/ exists d, sc_file (srun l (sinit f)) = Some d /\ In d (results l).
Proof.
  intros NF W. set (good := fun s R => (exists t th, nth_error (sc_threads s) t = Some th /\ writing th) \/ sc_file s = f \/ exists d, sc_file s = Some d /\ In d R).
  assert (G : good (srun l (sinit f)) (results l)).
  { clear W. induction l as [|a l IH] using rev_ind; [right; now left|].
    unfold no_failure in NF. apply Forall_app in NF. destruct NF as [NF NA]. specialize (IH NF). pose proof (sinv_run f l) as SI. rewrite srun_snoc, results_snoc. set (s := srun l (sinit f)) in *.
    assert (KEEP : forall s' R', sc_file s' = sc_file s -> incl (results l) R' -> (sc_file s = f \/ exists d, sc_file s = Some d /\ In d (results l)) -> good s' R').
    { intros s' R' E1 E2 [H|(d & H & I)]; right; [left; congruence|right; exists d; split; [congruence|auto]]. }
    assert (IA : incl (results l) (results l ++ match a with Scanned _ (Some d) => [d] | _ => [] end)) by apply incl_app_l.
    destruct IH as [(u & uh & Hu & Wu)|IH].
    - (* someone is writing *)
      assert (Iu : inside uh) by (unfold inside, writing in *; destruct (t_pc uh); auto).
      destruct (proj1 SI u uh Hu Iu) as (Lu & Fu & Ru).
      assert (STAY : forall s', nth_error (sc_threads s') u = Some uh -> good s' (results l ++ match a with Scanned _ (Some d) => [d] | _ => [] end)) by (intros s' X; left; eauto).
      assert (OTHER : forall t th, nth_error (sc_threads s) t = Some th -> inside th -> t = u /\ th = uh).
      { intros t th Ht It. destruct (proj1 SI t th Ht It) as (Lt & _). assert (t = u) by congruence. subst. split; congruence. }
      destruct a as [r|ok|t|t r|t ok|t k|t|t|t ok|t]; cbn [sstep];
        try (destruct (nth_error (sc_threads s) t) as [th|] eqn:N; [|now apply STAY]);
        try (destruct (t_pc th) eqn:Pc; try (now apply STAY);
             try (destruct (OTHER t th N) as [-> ->]; [unfold inside; now rewrite Pc|]; unfold writing in Wu; rewrite Pc in Wu; try contradiction)).
      + rewrite Lu. now apply STAY.
      + destruct (sc_pending s) as [|r rest]; [now apply STAY|]. destruct ok; apply STAY; cbn; auto. now apply nth_error_app_old.
      + rewrite Lu. now apply STAY.
      + left. cbn [sc_threads]. unfold set_thread. eexists u, _. split; [eapply set_nth_same; eauto|exact Logic.I].
      + inversion NA as [|? ? X]. now elim X.
      + destruct (length d <=? n) eqn:Le; [|now apply STAY]. rewrite Pc in Fu, Ru. cbn in Fu. right. right. exists d. cbn [sc_file]. split; [|apply IA; apply Ru; now left].
        rewrite Fu. f_equal. apply firstn_all2. now apply Nat.leb_le.
    - destruct a as [r|ok|t|t r|t ok|t k|t|t|t ok|t]; cbn [sstep];
        try (destruct (nth_error (sc_threads s) t) as [th|] eqn:N; [|now apply KEEP]);
        try (destruct (t_pc th) eqn:Pc; try (now apply KEEP)).
      + destruct (sc_lock s); now apply KEEP.
      + destruct (sc_pending s) as [|r rest]; [now apply KEEP|]. destruct ok; now apply KEEP.
      + destruct (sc_lock s); now apply KEEP.
      + destruct ok; [|now apply KEEP]. left. cbn [sc_threads]. unfold set_thread. eexists t, _. split; [eapply set_nth_same; eauto|exact Logic.I].
      + left. cbn [sc_threads]. unfold set_thread. eexists t, _. split; [eapply set_nth_same; eauto|exact Logic.I].
      + destruct (length d <=? n); now apply KEEP. }
  destruct G as [(t & th & N & X)|G]; [|exact G]. apply nth_error_In in N. now elim (W th N).
Qed.

(** ** Runs that go wrong *)
Definition whole : bytes := B "{}".
Lemma dropped_request : exists l n, In n (requests l) /\ settled (srun l (sinit None)) /\
  ~ In n (map fst (sc_sent (srun l (sinit None)))) /\ Forall (fun a => ~ fails a) l.
Proof.
  exists [Call (Some 0); Spawn true; Acquire 0; Call (Some 1); Scanned 0 (Some whole); Opened 0 true; Wrote 0 2; Closed 0; Notified 0 true; Released 0], 1.
  split; [cbn; auto|]. split; [split; [reflexivity|repeat constructor]|]. split; [cbn; intros [X|[]]; discriminate|]. repeat constructor; exact (fun X => X).
Qed.
Lemma failed_request : exists l n, requests l = [n] /\ settled (srun l (sinit None)) /\ sc_sent (srun l (sinit None)) = [].
Proof.
  exists [Call (Some 0); Spawn true; Acquire 0; Scanned 0 None; Released 0], 0. split; [reflexivity|]. split; [split; [reflexivity|repeat constructor]|reflexivity].
Qed.
Lemma torn : exists f l b, sc_file (srun l (sinit f)) = Some b /\ f <> Some b /\ ~ In b (results l) /\ no_failure l.
Proof.
  exists None, [Call None; Spawn true; Acquire 0; Scanned 0 (Some whole); Opened 0 true; Wrote 0 1], (B "{").
  split; [reflexivity|]. split; [discriminate|]. split; [cbn; intros [X|[]]; discriminate|repeat constructor].
Qed.
Lemma torn_for_good : exists f l b, sc_file (srun l (sinit f)) = Some b /\ f <> Some b /\ ~ In b (results l) /\ settled (srun l (sinit f)).
Proof.
  exists (Some whole), [Call None; Spawn true; Acquire 0; Scanned 0 (Some whole); Opened 0 true; Wrote 0 1; WriteFails 0; Released 0], (B "{").
  split; [reflexivity|]. split; [discriminate|]. split; [cbn; intros [X|[]]; discriminate|]. split; [reflexivity|repeat constructor].
Qed.
