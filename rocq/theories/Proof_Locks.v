From Verif Require Import Py Model_Locks Spec_Locks.
From Coq Require Import Lia.

(** ** Order of the locks *)
Definition rank (l : lock) : nat := match l with LTerminals | LServices | LSync | LScan => 0 | _ => 1 end.
Definition may_take (H : list lock) (l : lock) : Prop := (In l H /\ reentrant l = true) \/ forall h, In h H -> rank h < rank l /\ reentrant h = true.
(** [p] keeps to it when run inside [H]; inside of locks there are no loops. *)
Fixpoint ok (H : list lock) (p : prog) : Prop :=
  match p with
  | Skip | Do | Raise => True
  | Seq p q | Choice p q | Try p q | Finally p q => ok H p /\ ok H q
  | Any f => H = [] /\ forall n, ok [] (f n)
  | Loop p => H = [] /\ ok [] p
  | With l p => may_take H l /\ ok (l :: H) p
  | Start p => ok [] p
  end.
Fixpoint held (s : list frame) : list lock := match s with [] => [] | FRelease l :: r => l :: held r | _ :: r => held r end.
Definition okf (H : list lock) (f : frame) : Prop := match f with FDo p | FCatch p | FFinally p => ok H p | FRelease l => may_take H l | FReraise => True end.
Fixpoint oks (s : list frame) : Prop := match s with [] => True | f :: r => okf (held r) f /\ oks r end.

Lemma ok_main : ok [] main.
Proof.
  assert (T1 : forall l, may_take [] l) by (intros l; right; intros h []).
  assert (T2 : forall l H, reentrant l = true -> may_take (l :: H) l) by (intros l H R; left; split; [now left|exact R]).
  assert (T3 : forall s, may_take [LServices] (LService s)) by (intros s; right; intros h [<-|[]]; cbn; auto).
  assert (T4 : forall l a, reentrant l = true -> may_take [a; l] l) by (intros l a R; left; split; [right; now left|exact R]).
  cbn. repeat match goal with |- _ /\ _ => split | |- forall _, _ => intro | |- True => exact I | |- [] = [] => reflexivity end;
    auto using T1, T2, T3, T4.
Qed.

(** ** Invariant *)
Definition owns (o : option (nat * nat)) (i : nat) : nat := match o with Some (j, n) => if i =? j then n else 0 | None => 0 end.
Record inv (st : state) : Prop := {
  inv_ok : forall i t, nth_error (threads st) i = Some t -> oks (stack t);
  inv_count : forall i t l, nth_error (threads st) i = Some t -> count_occ lock_eq (held (stack t)) l = owns (owner st l) i;
  inv_owner : forall l j n, owner st l = Some (j, n) -> j < length (threads st) /\ n <> 0 }.

Lemma nth_update {A} i j (x : A) l : nth_error (update i x l) j = if i =? j then match nth_error l j with Some _ => Some x | None => None end else nth_error l j.
Proof. revert i j. induction l as [|a l IH]; intros [|i] [|j]; cbn; auto. now destruct (i =? j). Qed.
Lemma length_update {A} i (x : A) l : length (update i x l) = length l.
Proof. revert i. induction l as [|a l IH]; intros [|i]; cbn; auto. Qed.

(** A step that leaves the locks alone *)
Lemma inv_set i t t' st : inv st -> nth_error (threads st) i = Some t -> held (stack t') = held (stack t) -> oks (stack t') -> inv (set_thread i t' st).
Proof.
  intros [O C W] E H K. split.
  - intros j u. cbn. rewrite nth_update. destruct (Nat.eqb_spec i j) as [<-|N]; [|apply O]. rewrite E. now intros [= <-].
  - intros j u l. cbn. rewrite nth_update. destruct (Nat.eqb_spec i j) as [<-|N]; [|apply C]. rewrite E. intros [= <-]. rewrite H. now apply C.
  - intros l j n. cbn. rewrite length_update. apply W.
Qed.
Lemma inv_add p st : inv st -> ok [] p -> inv (add_thread (Th false [FDo p]) st).
Proof.
  intros [O C W] K. split.
  - intros j u. cbn. intros E. destruct (Nat.lt_ge_cases j (length (threads st))) as [L|L].
    + rewrite nth_error_app1 in E by exact L. now apply O in E.
    + rewrite nth_error_app2 in E by exact L. destruct (j - length (threads st)) as [|k]; [|now destruct k]. injection E as <-. cbn. auto.
  - intros j u l. cbn. intros E. destruct (Nat.lt_ge_cases j (length (threads st))) as [L|L].
    + rewrite nth_error_app1 in E by exact L. now apply C.
    + rewrite nth_error_app2 in E by exact L. destruct (j - length (threads st)) as [|k] eqn:D; [|now destruct k]. injection E as <-. cbn.
      unfold owns. destruct (owner st l) as [[o n]|] eqn:Eo; [|reflexivity]. apply W in Eo as [Lo _]. destruct (Nat.eqb_spec j o); [lia|reflexivity].
  - intros l j n E. apply W in E as [L N]. cbn. rewrite app_length. cbn. lia.
Qed.
Lemma inv_acquire l i t st st' p r : inv st -> nth_error (threads st) i = Some t -> stack t = FDo (With l p) :: r -> acquire l i st = Some st' ->
  inv (set_thread i (Th false (FDo p :: FRelease l :: r)) st').
Proof.
  intros [O C W] E Es A. pose proof (O _ _ E) as K. rewrite Es in K. destruct K as [[K0 K1] K2].
  assert (Li : i < length (threads st)) by (apply nth_error_Some; congruence).
  pose proof (C i t) as Ci. rewrite Es in Ci. cbn [held] in Ci.
  assert (A' : st' = set_owner l (Some (i, S (owns (owner st l) i))) st /\ forall j, j <> i -> owns (owner st l) j = 0).
  { revert A. unfold acquire. destruct (owner st l) as [[o n]|]; cbn.
    - destruct (Nat.eqb_spec i o) as [<-|]; cbn; [|discriminate]. destruct (reentrant l); [|discriminate]. intros [= <-]. split; [reflexivity|].
      intros j N. destruct (Nat.eqb_spec j i); congruence.
    - intros [= <-]. auto. }
  destruct A' as [-> Other]. clear A. split.
  - intros j u. cbn. rewrite nth_update. destruct (Nat.eqb_spec i j) as [<-|N]; [|apply O]. rewrite E. intros [= <-]. cbn. auto.
  - intros j u l'. cbn. rewrite nth_update. destruct (Nat.eqb_spec i j) as [<-|N].
    + rewrite E. intros [= <-]. cbn. destruct (lock_eq l l') as [<-|D]; cbn; [rewrite Nat.eqb_refl; f_equal; exact (Ci l E)|exact (Ci l' E)].
    + intros Ej. destruct (lock_eq l l') as [<-|D]; [|now apply C]. cbn. destruct (Nat.eqb_spec j i); [congruence|]. rewrite (C _ _ l Ej). auto.
  - intros l' j n. cbn. rewrite length_update. destruct (lock_eq l l'); [intros [= <- <-]; auto|apply W].
Qed.
Lemma inv_release l i t st b r : inv st -> nth_error (threads st) i = Some t -> stack t = FRelease l :: r -> inv (set_thread i (Th b r) (release l st)).
Proof.
  intros [O C W] E Es. pose proof (O _ _ E) as K. rewrite Es in K. destruct K as [_ K2].
  assert (Li : i < length (threads st)) by (apply nth_error_Some; congruence).
  pose proof (fun l' => C i t l' E) as Ci. rewrite Es in Ci. cbn [held count_occ] in Ci.
  pose proof (Ci l) as Cl. destruct (lock_eq l l) as [_|]; [|congruence].
  assert (R : exists n, owner st l = Some (i, S n) /\ count_occ lock_eq (held r) l = n).
  { unfold owns in Cl. destruct (owner st l) as [[o n]|]; [|discriminate]. destruct (Nat.eqb_spec i o) as [<-|]; [|discriminate]. exists (pred n). split; [|lia]. do 2 f_equal. lia. }
  destruct R as (n & Eo & Cr).
  assert (R : release l st = set_owner l (match n with 0 => None | S _ => Some (i, n) end) st) by (unfold release; rewrite Eo; now destruct n).
  rewrite R. clear R. split.
  - intros j u. cbn. rewrite nth_update. destruct (Nat.eqb_spec i j) as [<-|N]; [|apply O]. rewrite E. now intros [= <-].
  - intros j u l'. cbn. rewrite nth_update. destruct (Nat.eqb_spec i j) as [<-|N].
    + rewrite E. intros [= <-]. cbn. destruct (lock_eq l l') as [<-|D].
      * rewrite Cr. destruct n; cbn; [reflexivity|]. now rewrite Nat.eqb_refl.
      * specialize (Ci l'). now destruct (lock_eq l l').
    + intros Ej. destruct (lock_eq l l') as [<-|D]; [|now apply C]. rewrite (C _ _ l Ej), Eo. destruct n; cbn; destruct (Nat.eqb_spec j i); congruence.
  - intros l' j m. cbn. rewrite length_update. destruct (lock_eq l l'); [|apply W]. destruct n; [discriminate|]. intros [= <- <-]. auto.
Qed.

Lemma inv_step c i st st' : inv st -> step c i st = Some st' -> inv st'.
Proof.
  intros I. unfold step. destruct (nth_error (threads st) i) as [[b s]|] eqn:E; [|discriminate].
  pose proof (inv_ok _ I _ _ E) as K. cbn in K. destruct s as [|f r]; [now destruct b|]. destruct K as [Kf Kr].
  assert (G : forall b' s', held s' = held (f :: r) -> oks s' -> inv (set_thread i (Th b' s') st)) by (intros b' s' H1 H2; exact (inv_set _ _ (Th b' s') _ I E H1 H2)).
  destruct b, f as [p|l|h|q|].
  - intros [= <-]. now apply G.
  - intros [= <-]. exact (inv_release _ _ _ _ _ _ I E eq_refl).
  - intros [= <-]. apply G; cbn in *; auto.
  - intros [= <-]. apply G; cbn in *; auto.
  - intros [= <-]. now apply G.
  - destruct p; cbn in Kf.
    + intros [= <-]. now apply G.
    + intros [= <-]. destruct c as [|[|c]]; try (now apply G). exact I.
    + intros [= <-]. now apply G.
    + intros [= <-]. apply G; cbn; tauto.
    + intros [= <-]. destruct Kf. apply G; cbn; [reflexivity|]. destruct (c =? 0); auto.
    + intros [= <-]. destruct Kf as [Hr Kf]. apply G; cbn; [reflexivity|]. rewrite Hr. auto.
    + intros [= <-]. destruct Kf as [Hr Kf]. destruct (c =? 0); apply G; cbn; auto. rewrite Hr. auto.
    + destruct (acquire l i st) as [st1|] eqn:A; [|discriminate]. intros [= <-]. exact (inv_acquire _ _ _ _ _ _ _ I E eq_refl A).
    + intros [= <-]. apply G; cbn; tauto.
    + intros [= <-]. apply G; cbn; tauto.
    + intros [= <-]. destruct (c =? 0); [|now apply G]. apply inv_add; [now apply G|exact Kf].
  - intros [= <-]. exact (inv_release _ _ _ _ _ _ I E eq_refl).
  - intros [= <-]. now apply G.
  - intros [= <-]. apply G; cbn in *; auto.
  - intros [= <-]. now apply G.
Qed.
Lemma inv_init : inv init.
Proof.
  split.
  - intros [|[|i]] t; cbn; intros [= <-]. cbn [stack oks okf held]. split; [exact ok_main|exact I].
  - intros [|[|i]] t l; cbn; intros [= <-]. reflexivity.
  - discriminate.
Qed.
Lemma inv_run sch : forall st, inv st -> inv (run sch st).
Proof.
  induction sch as [|[i c] sch IH]; intros st I; [exact I|]. cbn. apply IH. destruct (step c i st) eqn:E; [exact (inv_step _ _ _ _ I E)|exact I].
Qed.
Lemma inv_reachable st : reachable st -> inv st.
Proof. intros [sch ->]. apply inv_run, inv_init. Qed.

Lemma in_held l s : In l (held s) <-> In (FRelease l) s.
Proof.
  induction s as [|f s IH]; [reflexivity|]. destruct f as [p|l'|h|q|]; cbn [held In]; rewrite IH; split; intros H; auto;
    try (destruct H as [H|H]; [discriminate|exact H]).
  - destruct H as [->|H]; auto.
  - destruct H as [[= ->]|H]; auto.
Qed.
Lemma inside_owner st i l : inv st -> inside st i l -> exists n, owner st l = Some (i, n).
Proof.
  intros I (t & E & H). apply in_held in H. apply (count_occ_In lock_eq) in H. rewrite (inv_count _ I _ _ l E) in H.
  unfold owns in H. destruct (owner st l) as [[j n]|]; [|lia]. destruct (Nat.eqb_spec i j) as [<-|]; [eauto|lia].
Qed.
Lemma owner_inside st i l n : inv st -> owner st l = Some (i, n) -> inside st i l.
Proof.
  intros I E. destruct (inv_owner _ I _ _ _ E) as [L N]. destruct (nth_error (threads st) i) as [t|] eqn:Et; [|apply nth_error_None in Et; lia].
  exists t. split; [exact Et|]. apply in_held, (count_occ_In lock_eq). rewrite (inv_count _ I _ _ l Et), E. cbn. rewrite Nat.eqb_refl. lia.
Qed.
Lemma exclusive st i j l : reachable st -> inside st i l -> inside st j l -> i = j.
Proof. intros R Hi Hj. apply inv_reachable in R. destruct (inside_owner _ _ _ R Hi) as [n E]. destruct (inside_owner _ _ _ R Hj) as [m E']. congruence. Qed.
(** A thread that cannot go on waits for a lock of another thread. *)
Lemma blocked st i t : inv st -> nth_error (threads st) i = Some t -> stack t <> [] -> can_go st i \/
  exists l p r j, t = Th false (FDo (With l p) :: r) /\ inside st j l /\ i <> j /\ forall h, In h (held r) -> rank h < rank l /\ reentrant h = true.
Proof.
  intros I E N. destruct t as [b [|f r]]; [now destruct N|].
  assert (D : (exists l p, f = FDo (With l p) /\ b = false /\ acquire l i st = None) \/ can_go st i).
  { destruct b, f as [p|l|h|q|]; try (right; unfold can_go, step; rewrite E; discriminate).
    destruct p; try (right; unfold can_go, step; rewrite E; discriminate).
    destruct (acquire l i st) eqn:A; [right; unfold can_go, step; rewrite E, A; discriminate|]. left. eauto. }
  destruct D as [(l & p & -> & -> & A)|]; [|auto]. right. exists l, p, r.
  unfold acquire in A. destruct (owner st l) as [[j n]|] eqn:Eo; [|discriminate]. exists j. split; [reflexivity|]. split; [exact (owner_inside _ _ _ _ I Eo)|].
  pose proof (inv_ok _ I _ _ E) as K. cbn in K. destruct K as [[[[Hin Re]|Rk] _] _].
  - exfalso. apply (count_occ_In lock_eq) in Hin. pose proof (inv_count _ I _ _ l E) as C. cbn in C. rewrite C, Eo in Hin. cbn in Hin.
    rewrite Re in A. destruct (i =? j); [discriminate|lia].
  - split; [|exact Rk]. intros <-. destruct (owner_inside _ _ _ _ I Eo) as (t & Et & Hin). rewrite E in Et. injection Et as <-. cbn in Hin.
    destruct Hin as [Hin|Hin]; [discriminate|]. apply in_held in Hin. apply Rk in Hin. lia.
Qed.
Lemma live_all st i : reachable st -> i < length (threads st) -> finished st i \/ live st i.
Proof.
  intros R L. apply inv_reachable in R. rename R into I.
  assert (B : forall k i, (exists t, nth_error (threads st) i = Some t /\ exists h, In h (held (stack t)) /\ 2 <= rank h + k) -> live st i).
  { clear i L. induction k as [|k IH]; intros i (t & E & h & Hh & Rh).
    - exfalso. destruct h; cbn in Rh; lia.
    - assert (N : stack t <> []) by (intros Z; rewrite Z in Hh; destruct Hh).
      destruct (blocked _ _ _ I E N) as [G|(l & p & r & j & -> & (u & Eu & Hu) & Nij & Rk)]; [now apply Goes|].
      apply (Waits st i j l); [now exists p, r|now exists u|exact Nij|]. apply IH. exists u. split; [exact Eu|]. exists l. split; [now apply in_held|].
      cbn in Hh. apply Rk in Hh. lia. }
  destruct (nth_error (threads st) i) as [t|] eqn:E; [|apply nth_error_None in E; lia].
  destruct t as [b [|f s]]; [left; now exists b|]. right.
  destruct (blocked _ _ _ I E ltac:(discriminate)) as [G|(l & p & r & j & Et & (u & Eu & Hu) & Nij & Rk)]; [now apply Goes|].
  apply (Waits st i j l); [exists p, r; congruence|now exists u|exact Nij|]. apply (B 2). exists u. split; [exact Eu|]. exists l. split; [now apply in_held|lia].
Qed.

(** ** Nobody keeps a lock by itself *)
Fixpoint size (p : prog) : nat :=
  match p with
  | Skip | Do | Raise | Any _ | Loop _ | Start _ => 1
  | Seq p q | Choice p q => S (size p + size q)
  | With _ p => S (S (size p))
  | Try p q => S (S (size p + size q))
  | Finally p q => S (S (S (size p + size q)))
  end.
Definition fsize (f : frame) : nat := match f with FDo p => size p | FRelease _ | FReraise => 1 | FCatch h => S (size h) | FFinally q => S (S (size q)) end.
(** Work left inside of locks *)
Fixpoint left_inside (s : list frame) : nat := match s with [] => 0 | f :: r => match held (f :: r) with [] => 0 | _ => fsize f + left_inside r end end.
Lemma left_none s : held s = [] -> left_inside s = 0.
Proof. destruct s as [|f r]; [reflexivity|]. cbn [left_inside]. now intros ->. Qed.
Lemma left_some f r : held (f :: r) <> [] -> left_inside (f :: r) = fsize f + left_inside r.
Proof. cbn [left_inside]. now destruct (held (f :: r)). Qed.
Lemma size_pos p : 0 < size p.
Proof. destruct p; cbn; lia. Qed.

(** What a step does to the stack of the thread that makes it *)
Lemma step_self c i st st' t : step c i st = Some st' -> nth_error (threads st) i = Some t -> oks (stack t) -> st' = st \/
  exists t', nth_error (threads st') i = Some t' /\ (held (stack t) <> [] -> left_inside (stack t') < left_inside (stack t)).
Proof.
  intros X E K. unfold step in X. rewrite E in X. destruct t as [b [|f r]]; [now destruct b|].
  assert (D : st' = st \/ (f = FDo Do -> b = false -> c < 2)) by (destruct c as [|[|c]]; auto; destruct b, f as [p| | | |]; try (right; discriminate); destruct p; try (right; discriminate); left; congruence).
  destruct D as [D|D]; [now left|right]. cbn [stack oks] in *. destruct K as [Kf _].
  assert (Set_ : forall u st0, threads st0 = threads st -> nth_error (threads (set_thread i u st0)) i = Some u)
    by (intros u st0 T; cbn; rewrite nth_update, Nat.eqb_refl, T, E; reflexivity).
  assert (G : forall b' s' st0, threads st0 = threads st -> (held (f :: r) <> [] -> left_inside s' < left_inside (f :: r)) ->
    exists t', nth_error (threads (set_thread i (Th b' s') st0)) i = Some t' /\ (held (f :: r) <> [] -> left_inside (stack t') < left_inside (f :: r)))
    by (intros b' s' st0 T L; exists (Th b' s'); split; [now apply Set_|exact L]).
  assert (P1 : forall l, threads (release l st) = threads st) by (intros l; unfold release; destruct (owner st l) as [[? [|[|?]]]|]; reflexivity).
  assert (P2 : forall l st1, acquire l i st = Some st1 -> threads st1 = threads st)
    by (intros l st1; unfold acquire; destruct (owner st l) as [[o n]|]; [destruct ((i =? o) && reentrant l)|]; intros [= <-]; reflexivity).
  assert (Pop : fsize f <> 0 -> held (f :: r) <> [] -> left_inside r < left_inside (f :: r)) by (intros N H; rewrite (left_some _ _ H); lia).
  assert (Push : forall g, fsize g < fsize f -> held (f :: r) = held r -> held (g :: r) = held r -> held (f :: r) <> [] -> left_inside (g :: r) < left_inside (f :: r))
    by (intros g L H1 H2 N; rewrite !left_some by congruence; lia).
  assert (Push2 : forall g g', fsize g + fsize g' < fsize f -> held (f :: r) = held r -> held (g :: g' :: r) = held r -> held (g' :: r) = held r -> held (f :: r) <> [] -> left_inside (g :: g' :: r) < left_inside (f :: r))
    by (intros g g' L H1 H2 H3 N; rewrite !left_some by congruence; lia).
  destruct b, f as [p|l|h|q|]; cbn [fsize] in *.
  - injection X as <-. apply G; [reflexivity|]. apply Pop. pose proof (size_pos p). lia.
  - injection X as <-. apply G; [apply P1|]. now apply Pop.
  - injection X as <-. apply G; [reflexivity|]. apply Push; [cbn; lia|reflexivity|reflexivity].
  - injection X as <-. apply G; [reflexivity|]. apply Push2; [cbn; lia|reflexivity|reflexivity|reflexivity].
  - injection X as <-. apply G; [reflexivity|]. now apply Pop.
  - destruct p; cbn [ok okf size] in *.
    + injection X as <-. apply G; [reflexivity|]. now apply Pop.
    + injection X as <-. destruct c as [|[|c]]; [| |specialize (D eq_refl eq_refl); lia]; (apply G; [reflexivity|now apply Pop]).
    + injection X as <-. apply G; [reflexivity|]. now apply Pop.
    + injection X as <-. apply G; [reflexivity|]. apply Push2; [cbn; lia|reflexivity|reflexivity|reflexivity].
    + injection X as <-. apply G; [reflexivity|]. destruct (c =? 0); apply Push; cbn; auto; lia.
    + injection X as <-. destruct Kf as [Hr _]. apply G; [reflexivity|]. cbn [held]. intros N. now destruct N.
    + injection X as <-. destruct Kf as [Hr _]. destruct (c =? 0); (apply G; [reflexivity|]; cbn [held]; intros N; now destruct N).
    + destruct (acquire l i st) as [st1|] eqn:A; [|discriminate]. injection X as <-. apply G; [exact (P2 _ _ A)|].
      intros N. rewrite (left_some _ _ N), !left_some by discriminate. cbn [fsize size]. lia.
    + injection X as <-. apply G; [reflexivity|]. apply Push2; [cbn; lia|reflexivity|reflexivity|reflexivity].
    + injection X as <-. apply G; [reflexivity|]. apply Push2; [cbn; lia|reflexivity|reflexivity|reflexivity].
    + injection X as <-. destruct (c =? 0); [|apply G; [reflexivity|]; now apply Pop].
      exists (Th false r). split; [|now apply Pop]. cbn. rewrite nth_error_app1; [apply (Set_ (Th false r) st eq_refl)|].
      rewrite length_update. apply nth_error_Some. congruence.
  - injection X as <-. apply G; [apply P1|]. now apply Pop.
  - injection X as <-. apply G; [reflexivity|]. now apply Pop.
  - injection X as <-. apply G; [reflexivity|]. apply Push; [cbn; lia|reflexivity|reflexivity].
  - injection X as <-. apply G; [reflexivity|]. now apply Pop.
Qed.

(** The steps of others *)
Lemma step_other c j i st st' t : step c j st = Some st' -> i <> j -> nth_error (threads st) i = Some t -> nth_error (threads st') i = Some t.
Proof.
  intros X N E. unfold step in X. destruct (nth_error (threads st) j) as [[b s]|] eqn:Ej; [|discriminate].
  assert (Set_ : forall u st0, threads st0 = threads st -> nth_error (threads (set_thread j u st0)) i = Some t)
    by (intros u st0 T; cbn; rewrite nth_update, T; destruct (Nat.eqb_spec j i); [congruence|exact E]).
  assert (P1 : forall l, threads (release l st) = threads st) by (intros l; unfold release; destruct (owner st l) as [[? [|[|?]]]|]; reflexivity).
  assert (P2 : forall l st1, acquire l j st = Some st1 -> threads st1 = threads st)
    by (intros l st1; unfold acquire; destruct (owner st l) as [[o n]|]; [destruct ((j =? o) && reentrant l)|]; intros [= <-]; reflexivity).
  destruct b, s as [|f r]; try discriminate; destruct f as [p|l|h|q|]; try (injection X as <-; apply Set_; auto; fail).
  destruct p; try (injection X as <-; destruct c as [|[|c]]; first [apply Set_; reflexivity|exact E]); try (injection X as <-; apply Set_; reflexivity).
  - destruct (acquire l j st) as [st1|] eqn:A; [|discriminate]. injection X as <-. apply Set_. exact (P2 _ _ A).
  - injection X as <-. destruct (c =? 0); [|now apply Set_]. cbn. rewrite nth_error_app1; [now apply (Set_ (Th false r) st)|].
    rewrite length_update. apply nth_error_Some. congruence.
Qed.
Lemma execution_inv who choice st : execution who choice st -> forall n, inv (st n).
Proof. intros [R X] n. induction n as [|n IH]; [now apply inv_reachable|]. exact (inv_step _ _ _ _ IH (X n)). Qed.
Lemma leaves who choice st i : execution who choice st -> goes_on st i -> again_and_again (fun n => forall l, ~ inside (st n) i l).
Proof.
  intros Ex A n. pose proof (execution_inv _ _ _ Ex) as V. destruct Ex as [_ X].
  (* it stays at its place, or less is left inside of the locks *)
  assert (Next : forall d n t, nth_error (threads (st n)) i = Some t -> held (stack t) <> [] ->
    nth_error (threads (st (n + d))) i = Some t \/ exists m t', n <= m /\ nth_error (threads (st m)) i = Some t' /\ left_inside (stack t') < left_inside (stack t)).
  { clear n. induction d as [|d IH]; intros n t E H; [left; now rewrite Nat.add_0_r|]. destruct (IH n t E H) as [E1|R]; [|now right]. rewrite Nat.add_succ_r.
    pose proof (X (n + d)) as Xd. destruct (Nat.eq_dec i (who (n + d))) as [->|N]; [|left; exact (step_other _ _ _ _ _ _ Xd N E1)].
    destruct (step_self _ _ _ _ _ Xd E1 (inv_ok _ (V _) _ _ E1)) as [->|(t' & E' & D)]; [now left|].
    right. exists (S (n + d)), t'. split; [lia|]. split; [exact E'|auto]. }
  assert (Go : forall w n t, left_inside (stack t) < w -> nth_error (threads (st n)) i = Some t -> exists m, n <= m /\ forall l, ~ inside (st m) i l).
  { clear n. induction w as [|w IH]; intros n t L E; [lia|]. destruct (held (stack t)) as [|h hs] eqn:H.
    - exists n. split; [lia|]. intros l (t' & E' & Hin). rewrite E in E'. injection E' as <-. apply in_held in Hin. now rewrite H in Hin.
    - destruct (A n) as (m & Lm & Nm). replace m with (n + (m - n)) in Nm by lia. destruct (Next (m - n) n t E) as [E1|(k & t' & Lk & E' & D)]; [now rewrite H|congruence|].
      destruct (IH k t') as (m' & Lm' & Fm); [lia|exact E'|]. exists m'. split; [lia|exact Fm]. }
  destruct (nth_error (threads (st n)) i) as [t|] eqn:E; [exact (Go _ n t (Nat.lt_succ_diag_r _) E)|].
  exists n. split; [lia|]. intros l (t & Et & _). congruence.
Qed.

Lemma released st l : reachable st -> (forall i, ~ inside st i l) -> forall i, acquire l i st <> None.
Proof.
  intros R F i. apply inv_reachable in R. unfold acquire. destruct (owner st l) as [[j n]|] eqn:E; [|discriminate].
  destruct (F j (owner_inside _ _ _ _ R E)).
Qed.

(** ** The main thread syncing for ever *)
Definition ending : list frame := [FCatch Do; FFinally Do].
Definition looped : frame := FDo (Loop (Do & sync)).
Definition phase (r : nat) : list frame * bool :=
  match r with
  | 0 => (looped :: ending, false)
  | 1 => (FDo (Do & sync) :: looped :: ending, false)
  | 2 => (FDo Do :: FDo sync :: looped :: ending, false)
  | 3 => (FDo sync :: looped :: ending, false)
  | 4 => (FDo (With LSync (Finally Do Do)) :: FCatch Do :: looped :: ending, false)
  | 5 => (FDo (Finally Do Do) :: FRelease LSync :: FCatch Do :: looped :: ending, true)
  | 6 => (FDo Do :: FFinally Do :: FRelease LSync :: FCatch Do :: looped :: ending, true)
  | 7 => (FFinally Do :: FRelease LSync :: FCatch Do :: looped :: ending, true)
  | 8 => (FDo Do :: FRelease LSync :: FCatch Do :: looped :: ending, true)
  | 9 => (FRelease LSync :: FCatch Do :: looped :: ending, true)
  | _ => (FCatch Do :: looped :: ending, false)
  end.
Definition at_phase (r : nat) (st : state) : Prop :=
  threads st = [Th false (fst (phase r)); Th false [FDo m2m]; Th false [FDo clock]] /\
  owner st LSync = if snd (phase r) then Some (0, 1) else None.
Lemma next_phase r st : r < 11 -> at_phase r st ->
  exists st', step (if r =? 0 then 1 else 0) 0 st = Some st' /\ at_phase (if r =? 10 then 0 else S r) st'.
Proof.
  intros L [T O]. do 11 (destruct r as [|r]; [unfold step; rewrite T; cbn in O |- *; unfold acquire, release; rewrite ?O; cbn;
    eexists; (split; [reflexivity|]); split; cbn; rewrite ?T; [reflexivity|]; first [exact O|reflexivity]|]). lia.
Qed.
Definition syncs (n : nat) : state := run (map (fun k => (0, if k mod 11 =? 0 then 1 else 0)) (seq 0 n)) (run (repeat (0, 0) 10) init).
Lemma run_app a b st : run (a ++ b) st = run b (run a st).
Proof. revert st. induction a as [|[i c] a IH]; intros st; [reflexivity|]. cbn. apply IH. Qed.
Lemma mod_next n : S n mod 11 = if n mod 11 =? 10 then 0 else S (n mod 11).
Proof.
  pose proof (Nat.div_mod_eq n 11) as D. pose proof (Nat.mod_upper_bound n 11 ltac:(lia)) as U. destruct (Nat.eqb_spec (n mod 11) 10) as [E|E].
  - symmetry. apply (Nat.mod_unique _ _ (S (n / 11))); lia.
  - symmetry. apply (Nat.mod_unique _ _ (n / 11)); lia.
Qed.
Lemma syncs_S n : syncs (S n) = match step (if n mod 11 =? 0 then 1 else 0) 0 (syncs n) with Some s => s | None => syncs n end.
Proof. unfold syncs. rewrite seq_S, map_app, run_app. reflexivity. Qed.
Lemma syncs_phase n : at_phase (n mod 11) (syncs n).
Proof.
  induction n as [|n IH]; [split; vm_compute; reflexivity|].
  destruct (next_phase _ _ (Nat.mod_upper_bound n 11 ltac:(lia)) IH) as (st' & E & N). rewrite syncs_S, E, mod_next. exact N.
Qed.
Lemma syncs_for_ever : execution (fun _ => 0) (fun n => if n mod 11 =? 0 then 1 else 0) syncs /\ again_and_again (fun n => inside (syncs n) 0 LSync).
Proof.
  split; [split|].
  - eexists. unfold syncs. cbn [seq map]. reflexivity.
  - intros n. destruct (next_phase _ _ (Nat.mod_upper_bound n 11 ltac:(lia)) (syncs_phase n)) as (st' & E & _). now rewrite syncs_S, E.
  - intros n. exists (5 + n * 11). split; [lia|]. destruct (syncs_phase (5 + n * 11)) as [T _]. rewrite Nat.mod_add in T by lia.
    eexists. rewrite T. split; [reflexivity|]. cbn. auto.
Qed.
Lemma syncs_go_on : goes_on syncs 0.
Proof.
  intros n. exists (S n). split; [lia|]. destruct (syncs_phase n) as [T _]. destruct (syncs_phase (S n)) as [T' _]. rewrite T, T', mod_next.
  pose proof (Nat.mod_upper_bound n 11 ltac:(lia)) as U. remember (n mod 11) as r. clear - U. do 11 (destruct r as [|r]; [discriminate|]). lia.
Qed.

(** ** Those that sync *)
Lemma held_alone s : oks s -> In LSync (held s) -> held s = [LSync].
Proof.
  induction s as [|f s IH]; [intros _ []|]. intros [K Ks]. destruct f as [p|l|h|q|]; cbn [held okf] in *; try exact (IH Ks).
  intros [->|H].
  - destruct K as [[_ K]|K]; [discriminate|]. destruct (held s) as [|h t]; [reflexivity|]. destruct (K h (or_introl eq_refl)) as [L _]. cbn in L. lia.
  - specialize (IH Ks H). rewrite IH in K. destruct K as [[[<-|[]] K]|K]; [discriminate|]. destruct (K LSync (or_introl eq_refl)) as [_ Z]. discriminate.
Qed.
Lemma alone st k l : reachable st -> inside st k LSync -> inside st k l -> l = LSync.
Proof.
  intros R (t & E & H) (t' & E' & H'). rewrite E in E'. injection E' as <-. apply inv_reachable in R. apply in_held in H, H'.
  rewrite (held_alone _ (inv_ok _ R _ _ E) H) in H'. now destruct H' as [<-|[]].
Qed.
Lemma others st k i : reachable st -> inside st k LSync -> i <> k -> i < length (threads st) -> finished st i \/ wants st i LSync \/ live_without k st i.
Proof.
  intros R Hk Nk L. pose proof (fun l => alone _ _ l R Hk) as Al. apply inv_reachable in R. rename R into I.
  assert (B : forall w i, i <> k -> (exists t, nth_error (threads st) i = Some t /\ exists h, In h (held (stack t)) /\ 2 <= rank h + w) -> live_without k st i).
  { clear i L Nk. induction w as [|w IH]; intros i Nk (t & E & h & Hh & Rh).
    - exfalso. destruct h; cbn in Rh; lia.
    - assert (N : stack t <> []) by (intros Z; rewrite Z in Hh; destruct Hh).
      destruct (blocked _ _ _ I E N) as [G|(l & p & r & j & -> & (u & Eu & Hu) & Nij & Rk)]; [now apply Goes_without|].
      cbn in Hh. apply Rk in Hh as [Hh _]. destruct (Nat.eq_dec j k) as [->|Nj].
      + rewrite (Al l) in Hh by now exists u. cbn in Hh. lia.
      + apply (Waits_without k st i j l); [exact Nk|now exists p, r|now exists u|exact Nij|]. apply IH; [exact Nj|]. exists u. split; [exact Eu|]. exists l. split; [now apply in_held|]. lia. }
  destruct (nth_error (threads st) i) as [t|] eqn:E; [|apply nth_error_None in E; lia].
  destruct t as [b [|f s]]; [left; now exists b|]. right.
  destruct (blocked _ _ _ I E ltac:(discriminate)) as [G|(l & p & r & j & Et & (u & Eu & Hu) & Nij & Rk)]; [right; now apply Goes_without|].
  destruct (Nat.eq_dec j k) as [->|Nj].
  - left. rewrite (Al l) in Et by now exists u. exists p, r. congruence.
  - right. apply (Waits_without k st i j l); [exact Nk|exists p, r; congruence|now exists u|exact Nij|].
    apply (B 2); [exact Nj|]. exists u. split; [exact Eu|]. exists l. split; [now apply in_held|lia].
Qed.

(** The main thread is in a sync and the other thread, told to sync, waits for it. *)
Definition busy : list (nat * nat) :=
  repeat (0, 0) 10 ++ [(0, 1)] ++ repeat (0, 0) 4 ++
  [(1, 0); (1, 0); (1, 1); (1, 0); (1, 0); (1, 0)] ++ repeat (1, 1) 5 ++ repeat (1, 0) 6.
Definition silent : state := run (busy ++ [(0, 0)]) init.
Lemma silent_waits n : execution (fun _ => 0) (fun _ => 2) (fun _ => silent) /\ inside silent 0 LSync /\ wants silent 1 LSync /\ step n 1 silent = None.
Proof.
  split; [split; [eexists; reflexivity|intros _; vm_compute; reflexivity]|].
  split; [eexists; split; [vm_compute; reflexivity|cbn; auto 10]|]. split; [eexists _, _; vm_compute; reflexivity|vm_compute; reflexivity].
Qed.
Lemma silent_for_ever who choice st : execution who choice st -> st 0 = silent -> (forall n, who n = 0 -> 2 <= choice n) ->
  forall n, who n <> 1 /\ inside (st n) 0 LSync /\ wants (st n) 1 LSync.
Proof.
  intros Ex S0 Ch. pose proof (execution_inv _ _ _ Ex) as V. destruct Ex as [_ X].
  assert (T : exists r0 p r1, nth_error (threads silent) 0 = Some (Th false (FDo Do :: r0)) /\ In (FRelease LSync) r0 /\
    nth_error (threads silent) 1 = Some (Th false (FDo (With LSync p) :: r1))).
  { eexists _, _, _. split; [vm_compute; reflexivity|]. split; [cbn; auto 10|vm_compute; reflexivity]. }
  destruct T as (r0 & p & r1 & T0 & In0 & T1).
  assert (K : forall n, nth_error (threads (st n)) 0 = Some (Th false (FDo Do :: r0)) /\ nth_error (threads (st n)) 1 = Some (Th false (FDo (With LSync p) :: r1)) /\ who n <> 1).
  { assert (W1 : forall n, nth_error (threads (st n)) 0 = Some (Th false (FDo Do :: r0)) -> nth_error (threads (st n)) 1 = Some (Th false (FDo (With LSync p) :: r1)) -> who n <> 1).
    { intros n E0 E1 W. pose proof (X n) as Xn. rewrite W in Xn. unfold step in Xn. rewrite E1 in Xn.
      destruct (inside_owner (st n) 0 LSync (V n)) as [k Eo]; [eexists; split; [exact E0|now right]|]. unfold acquire in Xn. rewrite Eo in Xn. discriminate. }
    induction n as [|n (E0 & E1 & W)]; [rewrite S0; repeat split; auto; apply W1; now rewrite S0|].
    pose proof (X n) as Xn. pose proof (step_other _ _ 1 _ _ _ Xn ltac:(congruence) E1) as E1'.
    assert (E0' : nth_error (threads (st (S n))) 0 = Some (Th false (FDo Do :: r0))).
    { destruct (Nat.eq_dec 0 (who n)) as [Z|Z]; [|exact (step_other _ _ _ _ _ _ Xn Z E0)]. pose proof (Ch n (eq_sym Z)) as C. rewrite <- Z in Xn.
      unfold step in Xn. rewrite E0 in Xn. destruct (choice n) as [|[|c]]; [lia|lia|]. injection Xn as <-. exact E0. }
    auto. }
  intros n. destruct (K n) as (E0 & E1 & W). split; [exact W|]. split; [eexists; split; [exact E0|now right]|eexists _, _; exact E1].
Qed.
Lemma packets_stop : exists st0, (exists p r, nth_error (threads st0) 1 = Some (Th false (FDo (With LSync p) :: r))) /\
  (forall n, execution (fun _ => 0) (fun _ => 2) (fun _ => st0) /\ step n 1 st0 = None) /\
  forall who choice st, execution who choice st -> st 0 = st0 -> (forall n, who n = 0 -> 2 <= choice n) ->
    forall n, who n <> 1 /\ inside (st n) 0 LSync /\ wants (st n) 1 LSync.
Proof.
  exists silent. split; [exact (proj1 (proj2 (proj2 (silent_waits 0))))|]. split; [|exact silent_for_ever].
  intros n. destruct (silent_waits n) as (E & _ & _ & N). exact (conj E N).
Qed.
