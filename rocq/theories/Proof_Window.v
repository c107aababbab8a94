(** * The window size of terminals (C85, C86) *)
From Verif Require Import Py Py_lemmas Model_Path Model_Rpc Model_Window Spec_Window.

Lemma short_number j z : short_int j = Ok z <-> number j z.
Proof.
  split.
  - destruct j as [|[]|z'| | | |]; cbn; try discriminate.
    + intros [= <-]. constructor.
    + intros [= <-]. constructor.
    + destruct (Z.leb_spec (-32768) z'), (Z.leb_spec z' 32767); cbn; try discriminate. intros [= <-]. constructor. lia.
  - intros [z' H| |]; cbn; auto. destruct (Z.leb_spec (-32768) z'), (Z.leb_spec z' 32767); cbn; auto; lia.
Qed.
Lemma pack_shape s b : pack s = Ok b <-> shape s (snd b) (fst b).
Proof.
  destruct b as [x y]. cbn [fst snd]. unfold pack. split.
  - destruct s as [| | | |t|l|d]; cbn [items bind]; try discriminate.
    + destruct t as [|a [|b [|c t]]]; cbn; discriminate.
    + destruct l as [|a [|b [|c l]]]; try discriminate.
      destruct (short_int b) as [v| |] eqn:B; cbn; try discriminate. destruct (short_int a) as [u| |] eqn:A; cbn; try discriminate.
      intros [= -> ->]. constructor; now apply short_number.
    + destruct d as [|[? ?] [|[? ?] [|? d]]]; cbn; discriminate.
  - intros H. inversion H as [a b cols lines A B]; subst. cbn [items bind]. apply short_number in A, B. rewrite B. cbn. rewrite A. reflexivity.
Qed.
Lemma shape_det s c l c' l' : shape s c l -> shape s c' l' -> c = c' /\ l = l'.
Proof. intros H H'. apply (pack_shape s (l, c)) in H. apply (pack_shape s (l', c')) in H'. rewrite H in H'. injection H' as -> ->. auto. Qed.

Section Run.
  Variable s0 : json.
  Definition hist st := stored st ++ [size (winit s0)].
  Definition good st w := exists c l, latest (hist st) c l /\ shows w c l.
  Record inv (st : wst) : Prop := {
    i_size : exists h, hist st = size st :: h;
    i_sizing : forall b, phase_of st = Sizing b -> pack (size st) = Ok b;
    i_packed : forall b, m2m_of st = Packed b -> pack (size st) = Ok b;
    i_live : phase_of st = Copying ->
      match m2m_of st with
      | Idle | Resizing _ => good st (window st)
      | Stored | Checked => (forall b, pack (size st) <> Ok b) -> good st (window st)
      | Packed _ => True
      end }.

  Lemma latest_packed st b : inv st -> pack (size st) = Ok b -> good st (set_window b).
  Proof.
    intros I P. destruct (i_size _ I) as [h E]. exists (snd b), (fst b). split; [|reflexivity].
    rewrite E. constructor. now apply pack_shape.
  Qed.
  Lemma inv_init : inv (winit s0).
  Proof. constructor; cbn; try discriminate. exists []. reflexivity. Qed.

  Lemma inv_step st e : inv st -> sets e -> unhurried_step st e -> inv (wstep e st).
  Proof.
    intros I SE U. pose proof I as [IS IZ IP IL]. destruct e as [data|ok|ok| |ok| | |].
    - cbn. destruct (m2m_of st) eqn:M; auto. destruct (on_control data) as [[s|]| |]; auto.
      constructor; cbn; auto; try discriminate.
    - cbn in SE. subst ok. cbn. destruct (m2m_of st) as [|s| | |b] eqn:M; auto.
      + constructor; cbn.
        * eexists. reflexivity.
        * intros b P. unfold unhurried_step in U. rewrite P, M in U. contradiction.
        * discriminate.
        * intros P N. specialize (IL P). destruct IL as (c & l & L & W). exists c, l. split; auto. cbn. unfold hist in *. cbn.
          apply latest_before; auto. intros (c' & l' & X). apply (N (l', c')). now apply pack_shape.
      + destruct (has_fd (phase_of st)) eqn:F; constructor; cbn; auto; try discriminate.
        intros P. rewrite P in F. discriminate.
      + destruct (has_fd (phase_of st)) eqn:F.
        * destruct (pack (size st)) as [b| |] eqn:K.
          -- constructor; cbn; rewrite ?K; auto. congruence.
          -- constructor; cbn; rewrite ?K; auto; [discriminate|]. intros P. apply IL; auto. discriminate.
          -- constructor; cbn; rewrite ?K; auto; [discriminate|]. intros P. apply IL; auto. discriminate.
        * constructor; cbn; auto; try discriminate. intros P. rewrite P in F. discriminate.
      + specialize (IP b eq_refl). destruct (phase_of st) eqn:P; constructor; cbn; rewrite ?P; auto; try discriminate.
        * intros _. apply (latest_packed _ _ I IP).
    - cbn. destruct (phase_of st); auto. constructor; cbn; auto; destruct ok; discriminate.
    - cbn. destruct (phase_of st) eqn:P; auto. destruct (pack (size st)) as [b| |] eqn:K; constructor; cbn; rewrite ?K; auto; try discriminate; try congruence.
    - cbn. destruct (phase_of st) as [| |b| | | |] eqn:P; auto. specialize (IZ b eq_refl). destruct ok.
      + constructor; cbn; auto; try discriminate. intros _. pose proof (latest_packed _ _ I IZ) as G.
        destruct (m2m_of st); auto.
      + constructor; cbn; auto; discriminate.
    - cbn. destruct (phase_of st) eqn:P; auto. constructor; cbn; auto; discriminate.
    - cbn. destruct (phase_of st) eqn:P; auto. constructor; cbn; auto; discriminate.
    - cbn. destruct (phase_of st) eqn:P; auto. constructor; cbn; auto; discriminate.
  Qed.
  Lemma inv_run evs : forall st, inv st -> Forall sets evs -> unhurried st evs -> inv (wrun evs st).
  Proof.
    induction evs as [|e evs IH]; intros st I S U; cbn; auto.
    inversion S; subst. destruct U as [U1 U2]. apply IH; auto using inv_step.
  Qed.
  Lemma window_is_latest evs : Forall sets evs -> unhurried (winit s0) evs ->
    let st := wrun evs (winit s0) in phase_of st = Copying -> m2m_of st = Idle ->
    exists c l, latest (stored st ++ [size (winit s0)]) c l /\ shows (window st) c l.
  Proof. intros S U st P M. pose proof (inv_run evs _ inv_init S U) as I. pose proof (i_live _ I P) as L. fold st in L. rewrite M in L. exact L. Qed.
End Run.

(** ** Control data *)
Lemma items_two s : (exists a b r, items s = Ok (a :: b :: r)) <-> match s with JArr l => 2 <= length l | JStr t => 2 <= length t | JObj e => 2 <= length e | _ => False end.
Proof.
  destruct s as [| | | |t|l|d]; cbn; split; try (intros (? & ? & ? & ?); discriminate); try contradiction;
    try (intros (? & ? & ? & [= E]); apply (f_equal (@length _)) in E; rewrite ?map_length in E; cbn in E; lia).
  - destruct t as [|? [|? t]]; cbn; intros; try lia. eauto.
  - destruct l as [|? [|? l]]; cbn; intros; try lia. eauto.
  - destruct d as [|? [|? d]]; cbn; intros; try lia. eauto.
Qed.
Lemma control_asks j s : on_control (Some j) = Ok (Some s) <-> asks j s.
Proof.
  unfold asks. split.
  - destruct j as [| | | | | |d]; try discriminate. cbn [on_control]. unfold get_or.
    destruct (dict_get text_eqb (T "type") d) as [[| | | |t| |]|] eqn:K; try discriminate.
    destruct (text_eqb t (T "window_resize")) eqn:Q; try discriminate. apply text_eqb_eq in Q. subst t.
    destruct (dict_get text_eqb (T "size") d) as [s'|] eqn:Z; try discriminate.
    destruct (items s') as [[|a [|b r]]| |] eqn:L; cbn [bind]; try discriminate. intros [= <-].
    exists d. split; [reflexivity|]. split; [exact K|]. split; [exact Z|]. apply items_two. eauto.
  - intros (d & -> & K & Z & N). apply items_two in N. destruct N as (a & b & r & L).
    cbn [on_control]. unfold get_or. rewrite K. rewrite (proj2 (text_eqb_eq _ _) eq_refl). rewrite Z, L. reflexivity.
Qed.
Lemma other_ignored data st : (forall j s, data = Some j -> ~ asks j s) -> wstep (Control data) st = st.
Proof.
  intros N. cbn. destruct (m2m_of st); auto. destruct (on_control data) as [[s|]| |] eqn:E; auto.
  destruct data as [j|]; [|discriminate]. apply control_asks in E. now apply N in E.
Qed.
Lemma step_asks j s st : m2m_of st = Idle -> asks j s -> wstep (Control (Some j)) st = with_m2m st (Resizing s).
Proof. intros M A. apply control_asks in A. cbn [wstep]. now rewrite M, A. Qed.
Lemma not_proper s : ~ proper s -> match pack s with Ok _ => False | _ => True end.
Proof. intros N. destruct (pack s) as [b| |] eqn:K; auto. apply N. apply pack_shape in K. red. eauto. Qed.
Ltac run := cbn [wrun fold_left wstep with_m2m with_phase with_window m2m_of phase_of size window stored has_fd].
(** While the terminal runs and nothing else is going on, a message is carried out *)
Lemma resized j s c l st : phase_of st = Copying -> m2m_of st = Idle -> asks j s -> shape s c l ->
  let st' := wrun [Control (Some j); M2M true; M2M true; M2M true; M2M true] st in
  shows (window st') c l /\ m2m_of st' = Idle /\ phase_of st' = Copying.
Proof.
  intros P M A S. apply (pack_shape s (l, c)) in S. destruct st as [z p m w h]. cbn in P, M. subst p m.
  cbn [wrun fold_left]. rewrite (step_asks j s) by (reflexivity || exact A). run. rewrite S. run. repeat split.
Qed.
(** and one that is not proper changes no window *)
Lemma improper_kept j s st ok1 ok2 ok3 : phase_of st = Copying -> m2m_of st = Idle -> asks j s -> ~ proper s ->
  let st' := wrun [Control (Some j); M2M ok1; M2M ok2; M2M ok3] st in
  window st' = window st /\ m2m_of st' = Idle /\ phase_of st' = Copying.
Proof.
  intros P M A S. apply not_proper in S. destruct st as [z p m w h]. cbn in P, M. subst p m.
  cbn [wrun fold_left]. rewrite (step_asks j s) by (reflexivity || exact A). run. destruct (pack s); [contradiction| |]; run; auto.
Qed.
(** A size that is not proper and comes before the start ends the terminal *)
Lemma improper_kills j s s0 ok1 ok2 : asks j s -> ~ proper s ->
  phase_of (wrun [Control (Some j); M2M ok1; M2M ok2; Fork true; InitRead] (winit s0)) = Broken.
Proof.
  intros A S. apply not_proper in S. unfold winit. cbn [wrun fold_left]. rewrite (step_asks j s) by (reflexivity || exact A). run.
  destruct (pack s); [contradiction| |]; reflexivity.
Qed.
Lemma improper_start s0 : s0 <> JNull -> ~ proper s0 -> phase_of (wrun [Fork true; InitRead] (winit s0)) = Broken.
Proof.
  intros N S. apply not_proper in S. unfold winit. replace (match s0 with JNull => JArr [JInt 80; JInt 24] | _ => s0 end) with s0 by (destruct s0; congruence).
  run. destruct (pack s0); [contradiction| |]; reflexivity.
Qed.
(** The race *)
Lemma race j s s0 c l c' l' : asks j s -> shape s c l -> shape (size (winit s0)) c' l' ->
  let st := wrun [Fork true; InitRead; Control (Some j); M2M true; M2M true; M2M true; M2M true; InitSet true] (winit s0) in
  phase_of st = Copying /\ m2m_of st = Idle /\ stored st = [s] /\ shows (window st) c' l'.
Proof.
  intros A S S0. apply (pack_shape s (l, c)) in S. apply (pack_shape _ (l', c')) in S0.
  revert S0. unfold winit. set (z := match s0 with JNull => _ | _ => _ end). cbn [size]. intros S0.
  assert (E : wstep InitRead (wstep (Fork true) (WS z Starting Idle None [])) = WS z (Sizing (l', c')) Idle None []) by (run; now rewrite S0).
  cbn [wrun fold_left]. rewrite E. rewrite (step_asks j s) by (reflexivity || exact A). run. rewrite S. run. repeat split.
Qed.
(** The descriptor is used only while it is open *)
Lemma starting_quiet s0 evs : let st := wrun evs (winit s0) in phase_of st = Starting ->
  window st = None /\ match m2m_of st with Checked | Packed _ => False | _ => True end.
Proof.
  cbn zeta. induction evs as [|e evs IH] using rev_ind; [cbn; auto|]. unfold wrun in *. rewrite fold_left_app. cbn [fold_left].
  set (st := fold_left (fun s e => wstep e s) evs (winit s0)) in *. destruct st as [z p m w h]. cbn [phase_of window m2m_of] in IH.
  destruct e as [data|ok|ok| |ok| | |]; cbn; try (destruct p; cbn; try discriminate; auto; destruct ok; discriminate).
  - destruct m; cbn; auto. destruct (on_control data) as [[s|]| |]; cbn; auto.
  - assert (Ph : phase_of (wstep (M2M ok) (WS z p m w h)) = p) by (destruct m; cbn; auto; destruct p; cbn; auto; try (destruct (pack z); auto); destruct ok; auto).
    cbn in Ph. rewrite Ph. intros ->. destruct (IH eq_refl) as [-> B]. destruct m; cbn; auto; contradiction.
  - destruct p; cbn; try discriminate; auto. destruct (pack z); discriminate.
Qed.
Lemma only_open s0 evs e : let st := wrun evs (winit s0) in window (wstep e st) <> window st -> open_window (phase_of st).
Proof.
  cbn zeta. pose proof (starting_quiet s0 evs) as Q. cbn zeta in Q. set (st := wrun evs (winit s0)) in *. destruct st as [z p m w h]. cbn [phase_of window m2m_of] in *.
  assert (D : open_window p \/ p = Starting \/ p = Ending \/ p = Over) by (destruct p; cbn; auto). destruct D as [D|D]; [auto|].
  intros N. exfalso. apply N. destruct e as [data|ok|ok| |ok| | |]; cbn.
  - destruct m; auto. destruct (on_control data) as [[s|]| |]; auto.
  - destruct m; auto; destruct D as [->|[->| ->]]; cbn; auto; try (destruct (Q eq_refl) as [_ []]). destruct (pack z); reflexivity.
  - destruct p; auto.
  - destruct p; auto.
  - destruct D as [->|[->| ->]]; reflexivity.
  - destruct p; auto.
  - destruct p; auto.
  - destruct p; auto.
Qed.
