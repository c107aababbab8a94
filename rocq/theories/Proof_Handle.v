(** * Proofs about descriptor numbers (C135) *)
From Verif Require Import Py Model_Handle Spec_Handle.

Lemma upd_same {A} (f : nat -> A) i x : upd f i x i = x.
Proof. unfold upd. now rewrite Nat.eqb_refl. Qed.
Lemma upd_other {A} (f : nat -> A) i x j : j <> i -> upd f i x j = f j.
Proof. intros H. unfold upd. destruct (Nat.eqb_spec j i); congruence. Qed.

(** The number a terminal has had since it was created *)
Definition number_of (p : tpc) : option nat := match p with TNew => None | TForked fd | TCopy fd | TClosed fd | TForgot fd => Some fd end.
Definition holds_open (p : tpc) : option nat := match p with TForked fd | TCopy fd => Some fd | _ => None end.
Definition tidy (t : term) : Prop :=
  match t_fd t with Some fd => t_pc t = TCopy fd \/ t_pc t = TClosed fd | None => match t_pc t with TCopy _ | TClosed _ => False | _ => True end end /\
  match c_pc t with CWrite fd _ | CIoctl fd => number_of (t_pc t) = Some fd | _ => True end.
Definition inv (st : hst) : Prop :=
  (forall i, tidy (terms st i)) /\ (forall i fd, holds_open (t_pc (terms st i)) = Some fd -> table st fd = Some (Pty i)).

Lemma inv_term st i t : inv st -> tidy t -> holds_open (t_pc t) = holds_open (t_pc (terms st i)) -> inv (with_term st i t).
Proof.
  intros [A B] T H. split; cbn [with_term table terms].
  - intros j. destruct (Nat.eq_dec j i) as [->|N]; [now rewrite upd_same|rewrite upd_other; auto].
  - intros j fd. destruct (Nat.eq_dec j i) as [->|N]; [rewrite upd_same, H|rewrite upd_other by auto]; apply B.
Qed.
Lemma inv_touch st i fd u : inv st -> inv (touch st i fd u).
Proof. unfold touch. destruct (table st fd); auto. Qed.
Lemma inv_cpc st i p : inv st -> match p with CWrite fd _ | CIoctl fd => number_of (t_pc (terms st i)) = Some fd | _ => True end -> inv (with_cpc st i p).
Proof. intros I H. apply inv_term; auto. destruct (proj1 I i) as [A _]. split; auto. Qed.
Lemma fd_number t fd : tidy t -> t_fd t = Some fd -> number_of (t_pc t) = Some fd.
Proof. intros [A _] H. rewrite H in A. destruct A as [-> | ->]; reflexivity. Qed.
Lemma free_other st i fd : inv st -> is_open st fd = false -> holds_open (t_pc (terms st i)) <> Some fd.
Proof. intros [_ B] H E. unfold is_open in H. rewrite (B _ _ E) in H. discriminate. Qed.
Lemma hstep_inv e st : inv st -> inv (hstep e st).
Proof.
  intros I. destruct I as [T W] eqn:EI; clear EI. destruct e as [i fd|i|i|i|i|fd n|fd n|i d|i|i n ok]; cbn [hstep]; pose proof T as T0; try specialize (T0 i).
  - destruct (t_pc (terms st i)) eqn:P; auto. destruct (is_open st fd) eqn:O; auto. split; unfold with_tpc; cbn [with_term with_table table terms].
    + intros j. destruct (Nat.eq_dec j i) as [->|N]; [rewrite upd_same|rewrite upd_other; auto]. destruct T0 as [A B]. rewrite P in A, B. split; cbn.
      * destruct (t_fd (terms st i)); auto. destruct A; discriminate.
      * destruct (c_pc (terms st i)); auto; discriminate.
    + intros j k. destruct (Nat.eq_dec j i) as [->|N].
      * rewrite upd_same. cbn. intros [= ->]. now rewrite upd_same.
      * rewrite upd_other by auto. intros H. destruct (Nat.eq_dec k fd) as [->|M]; [destruct (free_other st j fd I O H)|]. rewrite upd_other by auto. now apply W.
  - destruct (t_pc (terms st i)) eqn:P; auto. apply inv_term; auto.
    + destruct T0 as [A B]. rewrite P in B. split; cbn; auto.
    + now rewrite P.
  - destruct (t_pc (terms st i)); auto. now apply inv_touch.
  - destruct (t_pc (terms st i)) eqn:P; auto. split; unfold with_tpc; cbn [with_term with_table table terms].
    + intros j. destruct (Nat.eq_dec j i) as [->|N]; [rewrite upd_same|rewrite upd_other; auto]. destruct T0 as [A B]. rewrite P in A, B. split; cbn; auto.
      destruct (t_fd (terms st i)); auto. destruct A as [A|A]; [|discriminate]. injection A as ->. auto.
    + intros j k. destruct (Nat.eq_dec j i) as [->|N]; [rewrite upd_same; discriminate|]. rewrite upd_other by auto. intros H.
      destruct (Nat.eq_dec k fd) as [->|M]; [|rewrite upd_other by auto; now apply W].
      assert (X : holds_open (t_pc (terms st i)) = Some fd) by now rewrite P. apply W in X, H. congruence.
  - destruct (t_pc (terms st i)) eqn:P; auto. apply inv_term; auto.
    + destruct T0 as [A B]. rewrite P in B. split; cbn; auto.
    + now rewrite P.
  - destruct (is_open st fd) eqn:O; auto. split; auto. cbn [with_table table terms]. intros j k H.
    destruct (Nat.eq_dec k fd) as [->|M]; [destruct (free_other st j fd I O H)|]. rewrite upd_other by auto. now apply W.
  - destruct (table st fd) as [[j|m]|] eqn:E; auto. destruct (m =? n); auto. split; auto. cbn [with_table table terms]. intros j k H.
    destruct (Nat.eq_dec k fd) as [->|M]; [|rewrite upd_other by auto; now apply W]. rewrite (W _ _ H) in E. discriminate.
  - destruct (c_pc (terms st i)); auto. destruct (t_fd (terms st i)) eqn:F; auto. apply inv_cpc; auto. now apply fd_number.
  - destruct (c_pc (terms st i)); auto. destruct (t_fd (terms st i)) eqn:F; auto. now apply inv_cpc.
  - destruct (c_pc (terms st i)) as [|fd [|x d]| | |fd] eqn:P; auto.
    + now apply inv_cpc.
    + destruct (ok && is_open st fd); [|now apply inv_cpc]. apply inv_touch. apply inv_cpc; auto. destruct T0 as [_ B]. now rewrite P in B.
    + apply inv_cpc; auto. destruct (t_fd (terms st i)); exact Logic.I.
    + apply inv_cpc; auto. destruct (t_fd (terms st i)) eqn:F; [now apply fd_number|exact Logic.I].
    + apply inv_touch. now apply inv_cpc.
Qed.
Lemma hinit_inv t0 : inv (hinit t0).
Proof. split; [intros i; split; exact I|discriminate]. Qed.
Lemma hrun_inv l : forall st, inv st -> inv (hrun l st).
Proof. induction l as [|e l IH]; intros st H; [exact H|]. apply IH. now apply hstep_inv. Qed.

(** What a step adds *)
Lemma touch_uses st i fd u : uses (touch st i fd u) = match table st fd with Some w => (i, w, u) :: uses st | None => uses st end.
Proof. unfold touch. destruct (table st fd); reflexivity. Qed.
Definition fresh_use (st : hst) (x : nat * owner * use) : Prop :=
  match x with (i, w, _) => exists fd, table st fd = Some w /\ number_of (t_pc (terms st i)) = Some fd end.
Lemma adds_use e st : inv st -> uses (hstep e st) = uses st \/ exists x, uses (hstep e st) = x :: uses st /\ fresh_use st x /\
  match e with Reads i => fst (fst x) = i /\ exists fd, t_pc (terms st i) = TCopy fd | Step i _ _ => fst (fst x) = i | _ => False end.
Proof.
  intros [T W]. destruct e as [i fd|i|i|i|i|fd n|fd n|i d|i|i n ok]; cbn [hstep]; try (left; repeat (match goal with |- context [match ?x with _ => _ end] => destruct x end); reflexivity).
  - destruct (t_pc (terms st i)) as [|fd|fd|fd|fd] eqn:P; auto. rewrite touch_uses. destruct (table st fd) as [w|] eqn:E; auto. right.
    eexists. split; [reflexivity|]. split; [|cbn; split; [reflexivity|now exists fd]]. exists fd. now rewrite P.
  - destruct (T i) as [_ B]. destruct (c_pc (terms st i)) as [|fd [|x d]| | |fd] eqn:P; auto.
    + destruct (ok && is_open st fd); auto. rewrite touch_uses. cbn [with_cpc with_term table uses]. destruct (table st fd) as [w|] eqn:E; auto. right.
      eexists. split; [reflexivity|]. split; [|reflexivity]. now exists fd.
    + rewrite touch_uses. cbn [with_cpc with_term table uses]. destruct (table st fd) as [w|] eqn:E; auto. right.
      eexists. split; [reflexivity|]. split; [|reflexivity]. now exists fd.
Qed.
Lemma open_own st i w u : inv st -> ~ has_closed st i -> fresh_use st (i, w, u) -> w = Pty i.
Proof.
  intros [T W] N (fd & E & P). unfold has_closed in N. assert (H : holds_open (t_pc (terms st i)) = Some fd).
  { destruct (t_pc (terms st i)); cbn in *; try discriminate; auto; now destruct N. }
  apply W in H. congruence.
Qed.
Theorem misdirected t0 l e i w u : let st := hrun l (hinit t0) in uses (hstep e st) = (i, w, u) :: uses st -> w = Pty i \/ has_closed st i.
Proof.
  intros st H. assert (I : inv st) by apply hrun_inv, hinit_inv. destruct (adds_use e st I) as [E|(x & E & F & _)].
  - exfalso. rewrite E in H. apply (f_equal (@length _)) in H. cbn in H. lia.
  - rewrite E in H. injection H as ->. destruct (t_pc (terms st i)) eqn:P; unfold has_closed; rewrite ?P; auto; left; apply (open_own st i w u); auto; unfold has_closed; now rewrite P.
Qed.
(** A callback that starts after the number is forgotten does nothing. *)
Theorem forgotten t0 l i fd d : let st := hrun l (hinit t0) in t_pc (terms st i) = TForgot fd -> hstep (Input i d) st = st /\ hstep (Resize i) st = st.
Proof.
  intros st H. assert (I : inv st) by apply hrun_inv, hinit_inv. destruct (proj1 I i) as [A _]. rewrite H in A. cbn [hstep].
  destruct (t_fd (terms st i)); [destruct A; discriminate|]. now destruct (c_pc (terms st i)).
Qed.

(** ** Exclusion *)
Definition excluded (st : hst) : Prop := forall i, match t_pc (terms st i) with TClosed _ | TForgot _ => c_pc (terms st i) = CIdle | _ => True end.
Lemma excluded_term st i t : excluded st -> match t_pc t with TClosed _ | TForgot _ => c_pc t = CIdle | _ => True end -> excluded (with_term st i t).
Proof. intros E H j. cbn. destruct (Nat.eq_dec j i) as [->|N]; [now rewrite upd_same|rewrite upd_other by auto; apply E]. Qed.
Lemma excluded_same st st' : terms st' = terms st -> excluded st -> excluded st'.
Proof. unfold excluded. now intros ->. Qed.
Lemma touch_terms st i fd u : terms (touch st i fd u) = terms st.
Proof. unfold touch. now destruct (table st fd). Qed.
Lemma hstep_excluded e r st : inv st -> exclusive (e :: r) st -> excluded st -> excluded (hstep e st).
Proof.
  intros [T _] [X _] E. destruct e as [i fd|i|i|i|i|fd n|fd n|i d|i|i n ok]; cbn [hstep]; try (specialize (T i); specialize (E i) as Ei).
  - destruct (t_pc (terms st i)) eqn:P; auto. destruct (is_open st fd); auto. apply excluded_term; [|exact I]. now apply (excluded_same st).
  - destruct (t_pc (terms st i)) eqn:P; auto. apply excluded_term; auto.
  - destruct (t_pc (terms st i)) eqn:P; auto. apply (excluded_same st); auto. apply touch_terms.
  - destruct (t_pc (terms st i)) eqn:P; auto. apply excluded_term; [now apply (excluded_same st)|]. exact X.
  - destruct (t_pc (terms st i)) eqn:P; auto. apply excluded_term; auto.
  - destruct (is_open st fd); auto.
  - destruct (table st fd) as [[j|m]|]; auto. destruct (m =? n); auto.
  - destruct (c_pc (terms st i)) eqn:C; auto. destruct (t_fd (terms st i)) eqn:F; auto. apply excluded_term; auto. cbn.
    destruct T as [A _]. rewrite F in A. destruct A as [A|A]; rewrite A in X |- *; [exact I|destruct X].
  - destruct (c_pc (terms st i)) eqn:C; auto. destruct (t_fd (terms st i)) eqn:F; auto. apply excluded_term; auto. cbn.
    destruct T as [A _]. rewrite F in A. destruct A as [A|A]; rewrite A in X |- *; [exact I|destruct X].
  - destruct (c_pc (terms st i)) as [|fd [|x d]| | |fd] eqn:C; auto; assert (N : forall p, excluded (with_cpc st i p)) by
      (intros p; apply excluded_term; auto; cbn; destruct (t_pc (terms st i)); auto; discriminate); auto.
    + destruct (ok && is_open st fd); auto. eapply excluded_same; [apply touch_terms|apply N].
    + eapply excluded_same; [apply touch_terms|apply N].
Qed.
Lemma run_exclusive l : forall st, inv st -> excluded st -> own_only st -> exclusive l st -> own_only (hrun l st).
Proof.
  induction l as [|e l IH]; intros st I E O X; [exact O|]. change (own_only (hrun l (hstep e st))).
  apply IH; [now apply hstep_inv|now apply (hstep_excluded e l)| |apply X].
  unfold own_only. destruct (adds_use e st I) as [U|([[i w] u] & U & F & K)]; rewrite U; auto. constructor; auto.
  apply (open_own st i w u); auto. intros H. specialize (E i). unfold has_closed in H.
  destruct e as [| |j| | | | | | |j n ok]; try contradiction; cbn in K.
  - destruct K as [-> (fd & K)]. now rewrite K in H.
  - subst j. cbn [hstep] in U. destruct (t_pc (terms st i)); try contradiction; rewrite E in U; apply (f_equal (@length _)) in U; cbn in U; lia.
Qed.
Theorem exclusive_own t0 l : exclusive l (hinit t0) -> own_only (hrun l (hinit t0)).
Proof. intros H. apply run_exclusive; auto; [apply hinit_inv|intros i; exact I|constructor]. Qed.

(** ** Without it *)
Theorem reused t0 l i j fd d : let st := hrun l (hinit t0) in
  t_pc (terms st i) = TCopy fd -> c_pc (terms st i) = CIdle -> t_pc (terms st j) = TNew -> d <> [] -> (forall k, k < fd -> table st k <> None) ->
  let evs := [CloseFd i; Fork j fd; Input i d; Step i (length d) true] in
  kernel_like evs st /\ uses (hrun evs st) = (i, Pty j, UWrite d) :: uses st.
Proof.
  intros st P C N D L evs. assert (I : inv st) by apply hrun_inv, hinit_inv. assert (J : j <> i) by (intros ->; congruence).
  assert (F : t_fd (terms st i) = Some fd).
  { destruct (proj1 I i) as [A _]. rewrite P in A. destruct (t_fd (terms st i)); [destruct A as [A|A]; congruence|destruct A]. }
  set (s1 := hstep (CloseFd i) st). assert (E1 : s1 = with_tpc (with_table st fd None) i (TClosed fd)) by (unfold s1; cbn [hstep]; now rewrite P).
  assert (O1 : table s1 fd = None) by (rewrite E1; cbn; apply upd_same).
  assert (J1 : terms s1 j = terms st j) by (rewrite E1; cbn; now rewrite upd_other).
  assert (I1 : terms s1 i = Term (TClosed fd) (Some fd) CIdle) by (rewrite E1; cbn; rewrite upd_same; now rewrite F, C).
  set (s2 := hstep (Fork j fd) s1). assert (E2 : s2 = with_tpc (with_table s1 fd (Some (Pty j))) j (TForked fd)).
  { unfold s2. cbn [hstep]. rewrite J1, N. unfold is_open. now rewrite O1. }
  assert (O2 : table s2 fd = Some (Pty j)) by (rewrite E2; cbn; apply upd_same).
  assert (I2 : terms s2 i = Term (TClosed fd) (Some fd) CIdle) by (rewrite E2; cbn; rewrite upd_other by auto; exact I1).
  set (s3 := hstep (Input i d) s2). assert (E3 : s3 = with_cpc s2 i (CWrite fd d)) by (unfold s3; cbn [hstep]; now rewrite I2).
  assert (O3 : table s3 fd = Some (Pty j)) by (rewrite E3; exact O2).
  assert (I3 : c_pc (terms s3 i) = CWrite fd d) by (rewrite E3; cbn; now rewrite upd_same).
  assert (U3 : uses s3 = uses st) by (rewrite E3, E2, E1; reflexivity).
  split.
  - change (True /\ lowest s1 fd /\ True /\ True /\ True). split; auto. split; auto. split; auto. intros k Hk. rewrite E1. cbn. rewrite upd_other by lia. now apply L.
  - change (uses (hstep (Step i (length d) true) s3) = (i, Pty j, UWrite d) :: uses st). cbn [hstep]. rewrite I3. destruct d as [|x d]; [now destruct D|].
    unfold is_open. rewrite O3. cbn [andb]. rewrite touch_uses. cbn [with_cpc with_term table uses]. rewrite O3, U3.
    rewrite firstn_all2 by (cbn; lia). reflexivity.
Qed.
(** The same when a write is under way, for anything else that is opened meanwhile *)
Theorem reused_other t0 l i fd m d : let st := hrun l (hinit t0) in
  t_pc (terms st i) = TCopy fd -> c_pc (terms st i) = CWrite fd d -> d <> [] -> (forall k, k < fd -> table st k <> None) ->
  let evs := [CloseFd i; Forget i; Opens fd m; Step i (length d) true] in
  kernel_like evs st /\ uses (hrun evs st) = (i, Other m, UWrite d) :: uses st.
Proof.
  intros st P C D L evs.
  set (s1 := hstep (CloseFd i) st). assert (E1 : s1 = with_tpc (with_table st fd None) i (TClosed fd)) by (unfold s1; cbn [hstep]; now rewrite P).
  assert (O1 : table s1 fd = None) by (rewrite E1; cbn; apply upd_same).
  assert (I1 : t_pc (terms s1 i) = TClosed fd /\ c_pc (terms s1 i) = CWrite fd d) by (rewrite E1; cbn; rewrite upd_same; auto).
  set (s2 := hstep (Forget i) s1). assert (E2 : s2 = with_term s1 i (Term (TForgot fd) None (c_pc (terms s1 i)))) by (unfold s2; cbn [hstep]; now rewrite (proj1 I1)).
  assert (O2 : table s2 = table s1) by (rewrite E2; reflexivity).
  assert (I2 : c_pc (terms s2 i) = CWrite fd d) by (rewrite E2; cbn; rewrite upd_same; apply I1).
  set (s3 := hstep (Opens fd m) s2). assert (E3 : s3 = with_table s2 fd (Some (Other m))) by (unfold s3; cbn [hstep]; unfold is_open; now rewrite O2, O1).
  assert (O3 : table s3 fd = Some (Other m)) by (rewrite E3; cbn; apply upd_same).
  assert (I3 : c_pc (terms s3 i) = CWrite fd d) by (rewrite E3; exact I2).
  assert (U3 : uses s3 = uses st) by (rewrite E3, E2, E1; reflexivity).
  split.
  - change (True /\ True /\ lowest s2 fd /\ True /\ True). split; auto. split; auto. split; auto. split; [now rewrite O2|].
    intros k Hk. rewrite O2, E1. cbn. rewrite upd_other by lia. now apply L.
  - change (uses (hstep (Step i (length d) true) s3) = (i, Other m, UWrite d) :: uses st). cbn [hstep]. rewrite I3. destruct d as [|x d]; [now destruct D|].
    unfold is_open. rewrite O3. cbn [andb]. rewrite touch_uses. cbn [with_cpc with_term table uses]. rewrite O3, U3.
    rewrite firstn_all2 by (cbn; lia). reflexivity.
Qed.
