(** * Proofs about the command line *)
From Verif Require Import Py Py_lemmas Model_Cmdline Spec_Cmdline.
From Verif Require Model_Start Model_Agent Model_App Spec_App Model_Logging Spec_Logging Proof_Logging.

Definition deed_of (x : wish) : deed * text := match x with Switch w => (On w, []) | Value y v => (Set_ y, v) end.
Definition grant1 (s : settings) (x : wish) : settings := match x with Switch w => switched w s | Value y v => stored y v s end.
Definition grant (l : list wish) (s : settings) : settings := fold_left grant1 l s.
Lemma act_wishes : forall l rest s, act (map deed_of l ++ rest) s = act rest (grant l s).
Proof. induction l as [|[w|x v] l IH]; intros rest s; [reflexivity| |]; exact (IH _ _). Qed.

(** ** Words *)
Lemma cut : forall (full n rest : text), full = n ++ rest -> n = firstn (length n) full /\ length n <= length full.
Proof. intros full n rest ->. rewrite firstn_app, Nat.sub_diag, firstn_all, firstn_O, app_nil_r, app_length. split; [reflexivity|lia]. Qed.

Ltac other H k o := let E := fresh in assert (E := H o (skipn k o) ltac:(cbn; tauto) eq_refl); discriminate E.
Ltac clash H k :=
  exfalso; destruct H as [H|H]; [discriminate H|];
  first [ other H k (T "--server-url") | other H k (T "--serial") | other H k (T "--log-level") | other H k (T "--log-file") ].
Definition name_read (n : text) (d : deed) : Prop :=
  text_eqb n dashes = false /\ (forall neg, classify neg main_options n = Option_ d true None) /\
  forall v, text_eqb (n ++ equals :: v) dashes = false /\ forall neg, classify neg main_options (n ++ equals :: v) = Option_ d true (Some (true, v)).
Ltac read_it := split; [reflexivity|split; [intro; vm_compute; reflexivity|intro; split; [reflexivity|intro; vm_compute; reflexivity]]].
Ltac go_name :=
  let L := fresh "L" in let K := fresh "K" in let k := fresh "k" in
  intros n (L & (rest & E) & H); destruct (cut _ _ _ E) as [E' K]; clear E rest; remember (length n) as k eqn:Ek; clear Ek; subst n;
  cbn in K.
Lemma long_switch_read : forall w n, stands_for n (long_switch w) -> name_read n (On w).
Proof.
  intros w; destruct w; go_name;
  (do 3 (destruct k as [|k]; [lia|])); 
  (do 5 (destruct k as [|k]; [first [read_it | clash H 3 | clash H 4 | clash H 5]|])); lia.
Qed.
Lemma long_setting_read : forall x n, stands_for n (long_setting x) -> name_read n (Set_ x).
Proof.
  intros x; destruct x; go_name;
  (do 3 (destruct k as [|k]; [lia|]));
  (do 11 (first [exfalso; lia | destruct k as [|k]; [first [read_it | clash H 3 | clash H 4 | clash H 5 | clash H 6]|]])).
Qed.

(** ** Several letters in one word *)
Definition cluster_read (d : deed) (t : text) : read_ :=
  match t with
  | [] => Next [] d
  | c :: v => if (c =? equals)%N then explicit_arg main_options false true d v else explicit_arg main_options false false d t
  end.
Lemma partition_cons : forall c r, (c =? equals)%N = false -> partition (c :: r) = (c :: fst (partition r), snd (partition r)).
Proof. intros c r H. cbn [partition]. rewrite H. destruct (partition r); reflexivity. Qed.
Lemma letter_read : forall c d t, dict_get text_eqb [dash; c] main_options = Some d -> In c every_letter ->
  text_eqb (dash :: c :: t) dashes = false /\
  forall neg, exists e, classify neg main_options (dash :: c :: t) = Option_ d false e /\ consume main_options d false e = cluster_read d t.
Proof.
  intros c d t D I. assert (C : (c =? dash)%N = false) by (destruct I as [<-|[<-|[<-|[<-|[<-|[<-|[]]]]]]]; reflexivity).
  split; [destruct I as [<-|[<-|[<-|[<-|[<-|[<-|[]]]]]]]; reflexivity|]. intro neg.
  destruct t as [|e t].
  - exists None. split; [|reflexivity]. unfold classify. cbn [negb]. rewrite D. cbn. rewrite C. reflexivity.
  - destruct (e =? equals)%N eqn:E.
    + exists (Some (true, t)). split.
      * apply N.eqb_eq in E as ->. destruct I as [<-|[<-|[<-|[<-|[<-|[<-|[]]]]]]]; vm_compute in D; injection D as <-; vm_compute; reflexivity.
      * cbn [consume cluster_read]. rewrite E. reflexivity.
    + exists (Some (false, e :: t)). split.
      * assert (Q : partition (dash :: c :: e :: t) = (dash :: c :: e :: fst (partition t), snd (partition t))).
        { assert (C' : (c =? equals)%N = false) by (destruct I as [<-|[<-|[<-|[<-|[<-|[<-|[]]]]]]]; reflexivity).
          rewrite !partition_cons by (assumption || reflexivity). reflexivity. }
        unfold classify, option_tuples. rewrite Q. generalize (fst (partition t)) (snd (partition t)). intros n v.
        destruct I as [<-|[<-|[<-|[<-|[<-|[<-|[]]]]]]]; vm_compute in D; injection D as <-; destruct v; reflexivity.
      * cbn [consume cluster_read]. rewrite E. reflexivity.
Qed.
Lemma switch_letter : forall w, dict_get text_eqb [dash; short_switch w] main_options = Some (On w) /\ In (short_switch w) every_letter.
Proof. intros []; split; try reflexivity; cbn; tauto. Qed.
Lemma setting_letter : forall x c, short_setting x c -> dict_get text_eqb [dash; c] main_options = Some (Set_ x) /\ In c every_letter.
Proof. intros x c []; split; try reflexivity; cbn; tauto. Qed.
Lemma cluster_switch : forall w c d t, dict_get text_eqb [dash; c] main_options = Some d -> In c every_letter ->
  cluster_read (On w) (c :: t) = before (On w) (cluster_read d t).
Proof.
  intros w c d t D I. unfold cluster_read at 1. destruct I as [<-|[<-|[<-|[<-|[<-|[<-|[]]]]]]]; vm_compute in D; injection D as <-; cbn [explicit_arg takes_value];
    destruct t as [|e t]; try reflexivity; cbn; destruct (e =? equals)%N; reflexivity.
Qed.
Fixpoint befores (ws : list switch) (k : read_) : read_ := match ws with [] => k | w :: r => before (On w) (befores r k) end.
Lemma cluster_switches : forall ws w c d t, dict_get text_eqb [dash; c] main_options = Some d -> In c every_letter ->
  cluster_read (On w) (map short_switch ws ++ c :: t) = befores (w :: ws) (cluster_read d t).
Proof.
  induction ws as [|w' ws IH]; intros w c d t D I; [exact (cluster_switch w c d t D I)|].
  destruct (switch_letter w') as [D' I']. cbn [map app]. rewrite (cluster_switch w _ (On w') _ D' I'), (IH w' c d t D I). reflexivity.
Qed.
Lemma cluster_only : forall ws w, cluster_read (On w) (map short_switch ws) = Next (map (fun w => (On w, [])) (removelast (w :: ws))) (On (last ws w)).
Proof.
  induction ws as [|w' ws IH]; intro w; [reflexivity|].
  destruct (switch_letter w') as [D I]. cbn [map]. rewrite (cluster_switch w _ (On w') _ D I), IH. cbn [before].
  change (removelast (w :: w' :: ws)) with (w :: removelast (w' :: ws)). cbn [map].
  assert (L : last ws w' = last (w' :: ws) w).
  { clear. destruct ws as [|a ws]; [reflexivity|]. cbn [last]. revert a. induction ws as [|b ws IH]; intro a; [reflexivity|exact (IH b)]. }
  rewrite L. reflexivity.
Qed.
Lemma befores_done : forall ws l x, befores ws (Done l x) = Done (map (fun w => (On w, [])) ws ++ l) x.
Proof. induction ws as [|w ws IH]; intros l x; [reflexivity|]. cbn [befores]. rewrite IH. reflexivity. Qed.
Lemma befores_next : forall ws l d, befores ws (Next l d) = Next (map (fun w => (On w, [])) ws ++ l) d.
Proof. induction ws as [|w ws IH]; intros l d; [reflexivity|]. cbn [befores]. rewrite IH. reflexivity. Qed.

(** A word of options: how it is read *)
Definition word_read (a : text) (k : read_) : Prop :=
  text_eqb a dashes = false /\ forall neg, exists d long e, classify neg main_options a = Option_ d long e /\ consume main_options d long e = k.
Lemma cluster_word : forall ws x c t, short_setting x c ->
  word_read (dash :: map short_switch ws ++ c :: t) (befores ws (cluster_read (Set_ x) t)).
Proof.
  intros [|w ws] x c t S; destruct (setting_letter x c S) as [D I].
  - destruct (letter_read c _ t D I) as [A B]. split; [exact A|]. intro neg. destruct (B neg) as (e & E & Q). exists (Set_ x), false, e. split; assumption.
  - destruct (switch_letter w) as [D' I']. destruct (letter_read _ _ (map short_switch ws ++ c :: t) D' I') as [A B]. split; [exact A|].
    intro neg. destruct (B neg) as (e & E & Q). exists (On w), false, e. split; [exact E|]. rewrite Q. exact (cluster_switches ws w c _ t D I).
Qed.
Inductive effect_of (neg : text -> bool) (l : list wish) : list text -> Prop :=
| Alone : forall a, word_read a (Done (map deed_of l) false) -> effect_of neg l [a]
| AloneNext : forall a k w, word_read a (Next k (On w)) -> k ++ [(On w, [])] = map deed_of l -> effect_of neg l [a]
| WithNext : forall a k x v, word_read a (Next k (Set_ x)) -> plain neg v -> k ++ [(Set_ x, v)] = map deed_of l -> effect_of neg l [a; v].
Lemma map_switches : forall ws, map deed_of (map Switch ws) = map (fun w => (On w, [])) ws.
Proof. intro ws. rewrite map_map. reflexivity. Qed.
Lemma written_effect : forall neg a l, written neg a l -> effect_of neg l a.
Proof.
  intros neg a l W. destruct W as [w n H|w ws|x n v H P|x n v H|ws x c v S P|ws x c v S N E|ws x c v S].
  - destruct (long_switch_read w n H) as (A & B & _). apply (AloneNext _ _ _ [] w); [|reflexivity]. split; [exact A|].
    intro neg'. exists (On w), true, None. split; [apply B|reflexivity].
  - destruct (switch_letter w) as [D I]. destruct (letter_read _ _ (map short_switch ws) D I) as [A B].
    apply (AloneNext _ _ _ (map (fun w => (On w, [])) (removelast (w :: ws))) (last ws w)).
    + split; [exact A|]. intro neg'. destruct (B neg') as (e & E & Q). exists (On w), false, e. split; [exact E|]. rewrite Q. apply cluster_only.
    + rewrite map_switches. change [(On (last ws w), @nil N)] with (map (fun w => (On w, @nil N)) [last ws w]). rewrite <- map_app. f_equal.
      assert (L : last ws w = last (w :: ws) w) by (destruct ws; reflexivity). rewrite L. symmetry. apply app_removelast_last. discriminate.
  - destruct (long_setting_read x n H) as (A & B & _). apply (WithNext _ _ _ [] x v); [|exact P|reflexivity]. split; [exact A|].
    intro neg'. exists (Set_ x), true, None. split; [apply B|reflexivity].
  - destruct (long_setting_read x n H) as (_ & _ & B). destruct (B v) as [A C]. apply Alone. split; [exact A|].
    intro neg'. exists (Set_ x), true, (Some (true, v)). split; [apply C|destruct v; reflexivity].
  - assert (W := cluster_word ws x c [] S). cbn [cluster_read] in W. rewrite befores_next, app_nil_r in W.
    apply (WithNext _ _ _ _ x v W P). rewrite map_app, map_switches. reflexivity.
  - assert (W := cluster_word ws x c v S). assert (Q : cluster_read (Set_ x) v = Done [(Set_ x, v)] false).
    { destruct v as [|e v]; [contradiction|]. unfold cluster_read. assert (G : (e =? equals)%N = false) by (apply N.eqb_neq; intros ->; exact (E v eq_refl)).
      rewrite G. reflexivity. }
    rewrite Q, befores_done in W. apply Alone. rewrite map_app, map_switches. exact W.
  - assert (W := cluster_word ws x c (equals :: v) S). assert (Q : cluster_read (Set_ x) (equals :: v) = Done [(Set_ x, v)] false).
    { destruct v; reflexivity. }
    rewrite Q, befores_done in W. apply Alone. rewrite map_app, map_switches. exact W.
Qed.

(** ** Arguments and options *)
Definition from_table {A} (P : text -> A -> Prop) (t : list (text * A)) : Prop := forall n a, In (n, a) t -> P n a.
Lemma get_in : forall n d (t : list (text * deed)), dict_get text_eqb n t = Some d -> In (n, d) t.
Proof.
  intros n d. induction t as [|[k e] t IH]; intro E; [discriminate|]. cbn [dict_get] in E. destruct (text_eqb k n) eqn:K.
  - injection E as ->. apply text_eqb_eq in K as ->. left. reflexivity.
  - right. exact (IH E).
Qed.
Lemma starts_iff : forall p t, starts p t = true <-> exists r, t = p ++ r.
Proof.
  induction p as [|a p IH]; intro t; cbn; [split; [intros _; exists t; reflexivity|reflexivity]|].
  destruct t as [|b t]; [split; [discriminate|intros [r E]; discriminate E]|]. split.
  - intro E. apply Bool.andb_true_iff in E as [A B]. apply N.eqb_eq in A as ->. apply IH in B as [r ->]. exists r. reflexivity.
  - intros [r E]. injection E as -> ->. rewrite N.eqb_refl. apply IH. exists r. reflexivity.
Qed.
Lemma partition_some : forall t n v, partition t = (n, Some v) -> t = n ++ equals :: v.
Proof.
  induction t as [|c t IH]; intros n v E; [discriminate|]. cbn [partition] in E. destruct (c =? equals)%N eqn:C.
  - injection E as <- <-. apply N.eqb_eq in C as ->. reflexivity.
  - destruct (partition t) as [n' [v'|]]; [|discriminate]. injection E as <- <-. cbn. f_equal. apply IH. reflexivity.
Qed.
Lemma partition_none : forall t n, partition t = (n, None) -> t = n.
Proof.
  induction t as [|c t IH]; intros n E; [injection E as <-; reflexivity|]. cbn [partition] in E. destruct (c =? equals)%N; [discriminate|].
  destruct (partition t) as [n' [v'|]]; [discriminate|]. injection E as <-. f_equal. apply IH. reflexivity.
Qed.
Lemma partition_app : forall n v, (forall c, In c n -> (c =? equals)%N = false) -> partition (n ++ equals :: v) = (n, Some v).
Proof. induction n as [|c n IH]; intros v H; [reflexivity|]. cbn. rewrite (H c (or_introl eq_refl)), (IH v (fun d I => H d (or_intror I))). reflexivity. Qed.
Lemma partition_no : forall n, (forall c, In c n -> (c =? equals)%N = false) -> partition n = (n, None).
Proof. induction n as [|c n IH]; intro H; [reflexivity|]. cbn. rewrite (H c (or_introl eq_refl)), (IH (fun d I => H d (or_intror I))). reflexivity. Qed.
(** The table: letters and long names *)
Definition letter_of (d : deed) (c : N) : Prop := In ([dash; c], d) main_options /\ In c every_letter.
Lemma table_entry : forall n d, In (n, d) main_options -> (exists c, n = [dash; c] /\ In c every_letter) \/ In n every_long.
Proof.
  intros n d I. unfold main_options in I. cbn [In] in I.
  repeat (destruct I as [I|I]; [injection I as <- _; first [left; eexists; split; [reflexivity|cbn; tauto]|right; cbn; tauto]|]). destruct I.
Qed.
Lemma long_entry : forall n, In n every_long -> exists d, In (n, d) main_options.
Proof.
  intros n I. cbn in I. repeat (destruct I as [<-|I]; [eexists; unfold main_options; cbn [In]; repeat (first [left; reflexivity|right])|]). destruct I.
Qed.
Lemma long_no_equals : forall n rest, In (n ++ rest) every_long -> forall c, In c n -> (c =? equals)%N = false.
Proof.
  intros n rest I c C. assert (J : In c (n ++ rest)) by (apply in_or_app; left; exact C).
  assert (F : forallb (forallb (fun c => negb (c =? equals)%N)) every_long = true) by reflexivity.
  rewrite forallb_forall in F. specialize (F _ I). rewrite forallb_forall in F. specialize (F _ J). destruct (c =? equals)%N; [discriminate|reflexivity].
Qed.
Lemma long_two : forall n, In n every_long -> exists r, n = dash :: dash :: r.
Proof. intros n I. cbn in I. repeat (destruct I as [<-|I]; [eexists; reflexivity|]). destruct I. Qed.
Lemma long_cut : forall n rest, 2 <= length n -> In (n ++ rest) every_long -> exists r, n = dash :: dash :: r.
Proof. intros [|a [|b n]] rest L I; cbn in L; try lia. destruct (long_two _ I) as [r E]. injection E as -> -> _. exists n. reflexivity. Qed.
Lemma in_filter_starts : forall n, 2 <= length n -> (exists rest, In (n ++ rest) every_long) -> filter (fun e => starts n (fst e)) main_options <> [].
Proof.
  intros n L [rest I] E. destruct (long_entry _ I) as [d D]. assert (F : In (n ++ rest, d) (filter (fun e => starts n (fst e)) main_options)).
  { apply filter_In. split; [exact D|]. apply starts_iff. exists rest. reflexivity. }
  rewrite E in F. destruct F.
Qed.
Lemma tuples_not_argument : forall a, Forall (fun k => k <> Argument) (option_tuples main_options a).
Proof.
  intro a. unfold option_tuples. destruct (partition a) as [n0 v0]. destruct (is_long a).
  - apply Forall_forall. intros k I. apply in_map_iff in I as (e & <- & _). discriminate.
  - apply Forall_forall. intros k I. apply in_concat in I as (l0 & I0 & I). apply in_map_iff in I0 as (e & <- & _).
    match type of I with context [text_eqb ?p ?q] => destruct (text_eqb p q) end; [destruct I as [<-|[]]; discriminate|].
    match type of I with context [starts ?p ?q] => destruct (starts p q) end; [destruct I as [<-|[]]; discriminate|destruct I].
Qed.
Lemma tuples_like : forall c r, option_tuples main_options (dash :: c :: r) <> [] -> like_option (dash :: c :: r).
Proof.
  intros c r H. remember (dash :: c :: r) as a eqn:Ea. unfold option_tuples in H. destruct (partition a) as [n v] eqn:P. destruct (is_long a) eqn:Lo.
  - destruct (filter (fun e => starts n (fst e)) main_options) as [|[m d] l] eqn:F; [contradiction|].
    assert (I : In (m, d) (filter (fun e => starts n (fst e)) main_options)) by (rewrite F; left; reflexivity).
    apply filter_In in I as [I S]. apply starts_iff in S as [rest S]. cbn in S. subst m.
    assert (N : exists t, n = dash :: dash :: t).
    { subst a. cbn in Lo. apply N.eqb_eq in Lo as ->. rewrite partition_cons in P by reflexivity. rewrite partition_cons in P by reflexivity.
      apply pair_equal_spec in P as [P _]. cbn in P. eexists. symmetry. exact P. }
    destruct (table_entry _ _ I) as [(c' & E & C')|L].
    + destruct N as [t ->]. cbn in E. injection E as <- E. cbn in C'. exfalso. repeat (destruct C' as [C'|C']; [discriminate C'|]). destruct C'.
    + destruct v as [v|]; [apply partition_some in P|apply partition_none in P]; rewrite P.
      * apply (LikeLongEquals n rest v); [destruct N as [t ->]; cbn; lia|exact L].
      * apply (LikeLong n rest); [destruct N as [t ->]; cbn; lia|exact L].
  - assert (Q : exists m d, In (m, d) main_options /\ (m = firstn 2 a \/ exists rest, m = a ++ rest)).
    { destruct (concat _) as [|k ks] eqn:F in H; [contradiction|]. match type of F with ?l = _ => assert (I : In k l) by (rewrite F; left; reflexivity) end.
      apply in_concat in I as (l0 & I0 & I). apply in_map_iff in I0 as ([m d] & <- & M). exists m, d. split; [exact M|]. cbn [fst] in I.
      destruct (text_eqb m (firstn 2 a)) eqn:T1; [left; apply text_eqb_eq; exact T1|]. destruct (starts a m) eqn:T2; [right; apply starts_iff; exact T2|destruct I]. }
    destruct Q as (m & d & M & Q). subst a. cbn in Lo. destruct (table_entry _ _ M) as [(c' & -> & C')|L].
    + destruct Q as [Q|[rest Q]]; cbn in Q; injection Q as ->; apply LikeShort; exact C'.
    + exfalso. destruct (long_two _ L) as [t E]. subst m. destruct Q as [Q|[rest Q]]; cbn in Q; injection Q; intros; subst; discriminate Lo.
Qed.
Lemma like_tuples : forall a, like_option a -> option_tuples main_options a <> [].
Proof.
  intros a K. destruct K as [c r I|n rest L I|n rest v L I].
  - intro Z. unfold option_tuples in Z. assert (Lo : is_long (dash :: c :: r) = false) by (cbn in I; cbn; repeat (destruct I as [<-|I]; [reflexivity|]); destruct I).
    destruct (partition (dash :: c :: r)). rewrite Lo in Z. cbn in I. repeat (destruct I as [<-|I]; [discriminate Z|]). destruct I.
  - destruct (long_cut n rest L I) as [t N]. unfold option_tuples. rewrite (partition_no n (long_no_equals n rest I)).
    assert (Lo : is_long n = true) by (rewrite N; reflexivity). rewrite Lo. intro Z. apply map_eq_nil in Z. revert Z. apply in_filter_starts; [exact L|exists rest; exact I].
  - destruct (long_cut n rest L I) as [t N]. unfold option_tuples. rewrite (partition_app n v (long_no_equals n rest I)).
    assert (Lo : is_long (n ++ equals :: v) = true) by (rewrite N; reflexivity). rewrite Lo. intro Z. apply map_eq_nil in Z. revert Z. apply in_filter_starts; [exact L|exists rest; exact I].
Qed.
Lemma argument_iff : forall neg v, classify neg main_options v = Argument <-> plain neg v.
Proof.
  intros neg v. destruct v as [|c r]; [split; [left; discriminate|reflexivity]|].
  destruct (c =? dash)%N eqn:C.
  2:{ split; [intros _; left; intros r' E; injection E as -> _; discriminate C|]. intros _. cbn [classify]. rewrite C. reflexivity. }
  apply N.eqb_eq in C as ->. destruct r as [|c r]; [split; [right; left; reflexivity|reflexivity]|]. split.
  - intro E. right. right. split.
    + intro K. revert E. unfold classify. change (negb (dash =? dash)%N) with false. cbn iota.
      destruct (dict_get text_eqb (dash :: c :: r) main_options) eqn:G; [discriminate|].
      destruct (match partition (dash :: c :: r) with (n0, Some v) => _ | (_, None) => None end) as [k|] eqn:Ek.
      { destruct (partition (dash :: c :: r)) as [n0 [v|]]; [|discriminate]. destruct (dict_get text_eqb n0 main_options); [|discriminate]. injection Ek as <-. discriminate. }
      assert (T := tuples_not_argument (dash :: c :: r)).
      assert (X : option_tuples main_options (dash :: c :: r) <> []) by (apply like_tuples; exact K).
      destruct (option_tuples main_options (dash :: c :: r)) as [|k [|k' ks]]; [contradiction|inversion T; subst; intros ->; contradiction|discriminate].
    + revert E. unfold classify. change (negb (dash =? dash)%N) with false. cbn iota.
      destruct (dict_get text_eqb (dash :: c :: r) main_options) eqn:G; [discriminate|].
      destruct (match partition (dash :: c :: r) with (n0, Some v) => _ | (_, None) => None end) as [k|] eqn:Ek.
      { destruct (partition (dash :: c :: r)) as [n0 [v|]]; [|discriminate]. destruct (dict_get text_eqb n0 main_options); [|discriminate]. injection Ek as <-. discriminate. }
      assert (T := tuples_not_argument (dash :: c :: r)).
      destruct (option_tuples main_options (dash :: c :: r)) as [|k [|k' ks]]; [|inversion T; subst; intros ->; contradiction|discriminate].
      destruct (neg (dash :: c :: r)); [left; reflexivity|]. destruct (existsb (N.eqb 32) (dash :: c :: r)) eqn:X; [|discriminate].
      intros _. right. apply existsb_exists in X as (y & Y & Q). apply N.eqb_eq in Q as <-. exact Y.
  - intros [P|[P|[K H]]]; [exfalso; exact (P _ eq_refl)|discriminate P|].
    unfold classify. change (negb (dash =? dash)%N) with false. cbn iota.
    assert (D : forall n d, In (n, d) main_options -> n = dash :: c :: r -> False).
    { intros n d I E. subst n. apply K. destruct (table_entry _ _ I) as [(c' & E & C')|L].
      - injection E as -> ->. apply LikeShort. exact C'.
      - apply (LikeLong _ []); [cbn; lia|rewrite app_nil_r; exact L]. }
    destruct (dict_get text_eqb (dash :: c :: r) main_options) eqn:G; [exfalso; exact (D _ _ (get_in _ _ _ G) eq_refl)|].
    destruct (match partition (dash :: c :: r) with (n0, Some v) => _ | (_, None) => None end) as [k|] eqn:Ek.
    { exfalso. destruct (partition (dash :: c :: r)) as [n0 [v|]] eqn:P; [|discriminate]. destruct (dict_get text_eqb n0 main_options) eqn:G0; [|discriminate].
      apply partition_some in P. apply get_in in G0. apply K. rewrite P. destruct (table_entry _ _ G0) as [(c' & -> & C')|L].
      - apply LikeShort. exact C'.
      - apply (LikeLongEquals n0 [] v); [destruct (long_two _ L) as [t ->]; cbn; lia|rewrite app_nil_r; exact L]. }
    destruct (option_tuples main_options (dash :: c :: r)) as [|k ks] eqn:X.
    2:{ exfalso. apply K, tuples_like. rewrite X. discriminate. }
    destruct H as [H|H]; [rewrite H; reflexivity|]. destruct (neg (dash :: c :: r)); [reflexivity|].
    assert (Y : existsb (N.eqb 32) (dash :: c :: r) = true) by (apply existsb_exists; exists 32%N; split; [exact H|reflexivity]). rewrite Y. reflexivity.
Qed.

(** ** A line *)
Section Neg.
  Variable neg : text -> bool.
  Notation main := (walk neg main_options (Some (sub_command neg))).
  Lemma plain_argument : forall v, plain neg v -> text_eqb v dashes = false /\ classify neg main_options v = Argument.
  Proof.
    intros v P. split; [|apply argument_iff; exact P]. destruct (text_eqb v dashes) eqn:E; [|reflexivity]. exfalso. apply text_eqb_eq in E as ->.
    destruct P as [P|[P|[P _]]]; [exact (P [dash] eq_refl)|discriminate P|]. apply P. apply (LikeLong dashes (T "help")); [cbn; lia|cbn; tauto].
  Qed.
  Lemma act_all : forall l s, act (map deed_of l) s = inl (grant l s).
  Proof. intros l s. rewrite <- (app_nil_r (map deed_of l)). rewrite act_wishes. reflexivity. Qed.
  Lemma walk_written : forall a l r s x, effect_of neg l a -> main (a ++ r) s x = main r (grant l s) x.
  Proof.
    intros a l r s x E. destruct E as [a [A B]|a k w [A B] K|a k y v [A B] P K]; destruct (B neg) as (d & long & e & C & Q);
      cbn [app walk]; rewrite A, C, Q.
    - rewrite act_all, Bool.orb_false_r. reflexivity.
    - cbn [takes_value]. rewrite K, act_all. reflexivity.
    - cbn [takes_value]. destruct (plain_argument v P) as [A' C']. rewrite A', C', K, act_all. reflexivity.
  Qed.
  Lemma ambiguous_written : forall a l r, effect_of neg l a -> ambiguous neg main_options (a ++ r) = ambiguous neg main_options r.
  Proof.
    intros a l r E. destruct E as [a [A B]|a k w [A B] K|a k y v [A B] P K]; destruct (B neg) as (d & long & e & C & Q);
      cbn [app ambiguous]; rewrite A, C; try reflexivity.
    destruct (plain_argument v P) as [A' C']. rewrite A', C'. reflexivity.
  Qed.
  Lemma walk_line : forall a l, line neg a l -> forall r s x, main (a ++ r) s x = main r (grant l s) x.
  Proof.
    induction 1 as [|a l b m W _ IH]; intros r s x; [reflexivity|]. rewrite <- app_assoc, (walk_written _ _ _ _ _ (written_effect neg _ _ W)), IH.
    unfold grant. rewrite fold_left_app. reflexivity.
  Qed.
  Lemma ambiguous_line : forall a l, line neg a l -> forall r, ambiguous neg main_options (a ++ r) = ambiguous neg main_options r.
  Proof. induction 1 as [|a l b m W _ IH]; intro r; [reflexivity|]. rewrite <- app_assoc, (ambiguous_written _ _ _ (written_effect neg _ _ W)). apply IH. Qed.
  Lemma parse_line : forall a l r, line neg a l ->
    parse_args neg (a ++ r) = if ambiguous neg main_options r then Exit 2 else main r (grant l defaults) false.
  Proof. intros a l r L. unfold parse_args, parse_with. rewrite (ambiguous_line _ _ L), (walk_line _ _ L). reflexivity. Qed.
  Lemma name_parsed : forall name words s, named words name -> ambiguous neg main_options words = false /\
    main words s false = Parsed (match name with Some n => with_sub n s | None => s end).
  Proof.
    intros [n|] words s N.
    - destruct N as [-> [->| ->]]; split; reflexivity.
    - cbn in N. subst. split; reflexivity.
  Qed.
End Neg.

(** ** What is asked for in the end *)
Lemma last_same : forall x l t, last_value x (l ++ [Value x t]) (Some t).
Proof. intros x l t. exists l, []. split; [reflexivity|intros t' []]. Qed.
Lemma last_other : forall x l v w, last_value x l v -> (forall t, w <> Value x t) -> last_value x (l ++ [w]) v.
Proof.
  intros x l [t|] w H N; cbn in *.
  - destruct H as (a & b & -> & B). exists a, (b ++ [w]). split; [rewrite <- app_assoc; reflexivity|].
    intros t' I. apply in_app_or in I as [I|[I|[]]]; [exact (B t' I)|exact (N t' I)].
  - intros t I. apply in_app_or in I as [I|[I|[]]]; [exact (H t I)|exact (N t I)].
Qed.
Lemma says_grant : forall l, says l None (grant l defaults).
Proof.
  induction l as [|x l IH] using rev_ind.
  - constructor; cbn; try (intros t []); try reflexivity; try (split; [discriminate|intros []]).
    exists None. split; [intros t []|reflexivity].
  - unfold grant. rewrite fold_left_app. fold (grant l defaults). cbn [fold_left]. remember (grant l defaults) as s. clear Heqs.
    destruct IH as [(lv & L & Lv) F S M Se A R D Q Su].
    destruct x as [w|y v]; [destruct w|destruct y]; constructor; cbn [grant1 switched stored s_log_level s_log_file s_debug s_server_url s_m2m_url s_quiet s_serial s_auth s_remote_dir s_sub];
      try (apply last_same); try (apply last_other; [assumption|intros t X; discriminate X]); try assumption;
      try (exists lv; split; [apply last_other; [assumption|intros t X; discriminate X]|assumption]);
      try (eexists (Some _); split; [apply last_same|reflexivity]);
      (split; [intro X; apply in_or_app; first [left; apply D; exact X | left; apply Q; exact X | right; left; reflexivity]
              |intro X; first [reflexivity | apply in_app_or in X as [X|[X|[]]]; [first [apply D; exact X|apply Q; exact X]|discriminate X]]]).
Qed.
Theorem understood : forall neg words l last name, line neg words l -> named last name ->
  exists s, parse_args neg (words ++ last) = Parsed s /\ says l name s.
Proof.
  intros neg words l last name L N. rewrite (parse_line neg _ _ _ L). destruct (name_parsed neg name last (grant l defaults) N) as [A B].
  rewrite A, B. eexists. split; [reflexivity|]. assert (S := says_grant l). destruct name as [n|]; [|exact S].
  destruct S. constructor; assumption || reflexivity.
Qed.

(** ** The hint: the same line after --debug *)
Definition debugging (s : settings) : settings := switched Debug s.
Lemma act_debug : forall l s, act l (debugging s) = match act l s with inl s' => inl (debugging s') | inr c => inr c end.
Proof.
  induction l as [|[d v] l IH]; intro s; [reflexivity|]. destruct d as [| |w|x]; try reflexivity; cbn [act].
  - rewrite <- IH. destruct w; reflexivity.
  - rewrite <- IH. destruct x; reflexivity.
Qed.
Lemma walk_debug : forall neg table f, (forall g, f = Some g -> forall a r s x, g a r (debugging s) x = but_debug (g a r s x)) ->
  forall n l s x, length l <= n -> walk neg table f l (debugging s) x = but_debug (walk neg table f l s x).
Proof.
  intros neg table f F. induction n as [|n IH]; intros l s x L; destruct l as [|a r]; cbn in L; try lia; [destruct x; reflexivity|destruct x; reflexivity|].
  cbn [walk]. destruct (text_eqb a dashes); [destruct f; reflexivity|].
  destruct (classify neg table a) as [| | |d long e]; [|apply IH; lia|reflexivity|].
  - destruct f as [g|]; [exact (F g eq_refl _ _ _ _)|apply IH; lia].
  - destruct (consume table d long e) as [|k y|k d']; [reflexivity| |].
    + rewrite act_debug. destruct (act k s); [apply IH; lia|reflexivity].
    + destruct (takes_value d').
      * destruct r as [|v r']; [reflexivity|]. cbn in L. destruct (text_eqb v dashes); [reflexivity|]. destruct (classify neg table v); try reflexivity.
        rewrite act_debug. destruct (act (k ++ [(d', v)]) s); [apply IH; lia|reflexivity].
      * rewrite act_debug. destruct (act (k ++ [(d', [])]) s); [apply IH; lia|reflexivity].
Qed.
Lemma sub_debug : forall neg a r s x, sub_command neg a r (debugging s) x = but_debug (sub_command neg a r s x).
Proof.
  intros neg a r s x. unfold sub_command, parse_with. destruct (existsb (text_eqb a) sub_commands); [|reflexivity]. destruct (ambiguous neg sub_options r); [reflexivity|].
  change (with_sub a (debugging s)) with (debugging (with_sub a s)). apply (walk_debug neg sub_options None ltac:(discriminate) (length r)). lia.
Qed.
Theorem hint : forall neg argv, parse_args neg (T "--debug" :: argv) = but_debug (parse_args neg argv).
Proof.
  intros neg argv. unfold parse_args, parse_with. change (ambiguous neg main_options (T "--debug" :: argv)) with (ambiguous neg main_options argv).
  destruct (ambiguous neg main_options argv); [reflexivity|].
  change (walk neg main_options (Some (sub_command neg)) (T "--debug" :: argv) defaults false) with (walk neg main_options (Some (sub_command neg)) argv (debugging defaults) false).
  apply (walk_debug neg main_options (Some (sub_command neg)) ltac:(intros g E a r s x; injection E as <-; apply sub_debug) (length argv)). lia.
Qed.

(** ** Only 0 and 2 *)
Lemma act_exit : forall l s c, act l s = inr c -> c = 0%Z.
Proof. induction l as [|[d v] l IH]; intros s c E; [discriminate|]. destruct d; cbn [act] in E; try (injection E as <-; reflexivity); exact (IH _ _ E). Qed.
Definition settled (p : parsed) : Prop := (exists s, p = Parsed s) \/ refused p.
Lemma settled2 : settled (Exit 2). Proof. right; right; reflexivity. Qed.
Lemma settled_finish : forall s x, settled (finish s x).
Proof. intros s []; [apply settled2|left; eexists; reflexivity]. Qed.
Lemma walk_settled : forall neg table f, (forall g, f = Some g -> forall a r s x, settled (g a r s x)) ->
  forall n l s x, length l <= n -> settled (walk neg table f l s x).
Proof.
  intros neg table f F. induction n as [|n IH]; intros l s x L; destruct l as [|a r]; cbn in L; try lia; try (apply settled_finish).
  cbn [walk]. destruct (text_eqb a dashes); [destruct f; [apply settled2|apply settled_finish]|].
  assert (A : forall k s, match act k s with inr c => settled (Exit c) | inl _ => True end).
  { intros k s0. destruct (act k s0) eqn:E; [trivial|]. apply act_exit in E as ->. right; left; reflexivity. }
  destruct (classify neg table a) as [| | |d long e]; [|apply IH; lia|apply settled2|].
  - destruct f as [g|]; [exact (F g eq_refl _ _ _ _)|apply IH; lia].
  - destruct (consume table d long e) as [|k y|k d']; [apply settled2| |].
    + specialize (A k s). destruct (act k s); [apply IH; lia|exact A].
    + destruct (takes_value d').
      * destruct r as [|v r']; [apply settled2|]. cbn in L. destruct (text_eqb v dashes); [apply settled2|]. destruct (classify neg table v); try apply settled2.
        specialize (A (k ++ [(d', v)]) s). destruct (act (k ++ [(d', v)]) s); [apply IH; lia|exact A].
      * specialize (A (k ++ [(d', [])]) s). destruct (act (k ++ [(d', [])]) s); [apply IH; lia|exact A].
Qed.
Lemma sub_settled : forall neg a r s x, settled (sub_command neg a r s x).
Proof.
  intros neg a r s x. unfold sub_command, parse_with. destruct (existsb (text_eqb a) sub_commands); [|apply settled2]. destruct (ambiguous neg sub_options r); [apply settled2|].
  apply (walk_settled neg sub_options None ltac:(discriminate) (length r)). lia.
Qed.
Theorem parse_settled : forall neg argv, settled (parse_args neg argv).
Proof.
  intros neg argv. unfold parse_args, parse_with. destruct (ambiguous neg main_options argv); [apply settled2|].
  apply (walk_settled neg main_options (Some (sub_command neg)) ltac:(intros g E a r s x; injection E as <-; apply sub_settled) (length argv)). lia.
Qed.

(** ** A value that looks like an option *)
Theorem dash_refused : forall neg words l n x v rest, line neg words l -> stands_for n (long_setting x) -> ~ plain neg v ->
  parse_args neg (words ++ n :: v :: rest) = Exit 2.
Proof.
  intros neg words l n x v rest L N P. rewrite (parse_line neg _ _ _ L). destruct (ambiguous neg main_options (n :: v :: rest)); [reflexivity|].
  destruct (long_setting_read x n N) as (A & B & _). cbn [walk]. rewrite A, (B neg). cbn [consume takes_value].
  destruct (text_eqb v dashes); [reflexivity|]. destruct (classify neg main_options v) eqn:C; try reflexivity. apply argument_iff in C. contradiction.
Qed.

(** ** Nothing is made up *)
Definition value_of (s : settings) (x : setting) : option text :=
  match x with
  | LogLevel => Some (s_log_level s) | LogFile => s_log_file s | ServerUrl => s_server_url s | M2mUrl => s_m2m_url s
  | Serial => s_serial s | Auth => s_auth s | RemoteDir => s_remote_dir s
  end.
Definition part_of (a v : text) : Prop := exists pre, a = pre ++ v.
Definition kept (s : settings) (l : list text) (s' : settings) : Prop := forall x v, value_of s' x = Some v -> value_of s x = Some v \/ comes_from l v.
Lemma part_cons : forall c a v, part_of a v -> part_of (c :: a) v.
Proof. intros c a v [p ->]. exists (c :: p). reflexivity. Qed.
Lemma part_refl : forall a, part_of a a.
Proof. intro a. exists []. reflexivity. Qed.
Lemma partition_part : forall t v, snd (partition t) = Some v -> part_of t v.
Proof.
  induction t as [|c t IH]; intros v E; [discriminate|]. cbn [partition] in E. destruct (c =? equals)%N.
  - injection E as <-. apply part_cons, part_refl.
  - destruct (partition t) as [n v']. cbn in E. apply part_cons, IH. exact E.
Qed.
Definition fed (a : text) (l : list (deed * text)) : Prop := forall x v, In (Set_ x, v) l -> part_of a v.
Definition read_fed (a : text) (k : read_) : Prop := match k with Bad => True | Done l _ => fed a l | Next l _ => fed a l end.
Lemma fed_mono : forall a b l, (forall v, part_of a v -> part_of b v) -> fed a l -> fed b l.
Proof. intros a b l H F x v I. exact (H v (F x v I)). Qed.
Lemma fed_before : forall a d k, takes_value d = false -> read_fed a k -> read_fed a (before d k).
Proof. intros a d [|l x|l d'] T H; [exact H| |]; intros y v [E|I]; try (injection E as -> _; discriminate T); exact (H y v I). Qed.
Lemma read_fed_mono : forall a b k, (forall v, part_of a v -> part_of b v) -> read_fed a k -> read_fed b k.
Proof. intros a b [|l x|l d] H F; [exact F| |]; exact (fed_mono _ _ _ H F). Qed.
Lemma explicit_fed : forall table n v long sep d, length v <= n -> read_fed v (explicit_arg table long sep d v).
Proof.
  intros table. induction n as [|n IH]; intros v long sep d L.
  - destruct v; [|cbn in L; lia]. cbn. destruct (takes_value d); cbn; [|trivial]. intros x w [E|[]]. injection E as _ <-. apply part_refl.
  - destruct v as [|c v']; cbn [explicit_arg]; (destruct (takes_value d) eqn:T; [cbn; intros x w [E|[]]; injection E as _ <-; apply part_refl|]); [exact Logic.I|].
    destruct long; [exact Logic.I|]. destruct (sep || (c =? dash)%N)%bool; [exact Logic.I|]. destruct (dict_get text_eqb [dash; c] table) as [d'|].
    + apply (fed_before _ _ _ T). destruct v' as [|c' v'']; [intros x w []|]. cbn in L.
      destruct (c' =? equals)%N.
      * apply (read_fed_mono v''); [intros w W; apply part_cons, part_cons; exact W|]. apply IH. lia.
      * apply (read_fed_mono (c' :: v'')); [intros w W; apply part_cons; exact W|]. apply IH. cbn. lia.
    + intros x w [E|[]]. injection E as -> _. discriminate T.
Qed.
Lemma classify_fed : forall neg table a d long e, classify neg table a = Option_ d long e -> read_fed a (consume table d long e).
Proof.
  intros neg table a d long e C. assert (E : match e with Some (_, v) => part_of a v | None => True end).
  { destruct a as [|c r]; [discriminate|]. cbn [classify] in C. destruct (negb (c =? dash)%N); [discriminate|].
    destruct (dict_get text_eqb (c :: r) table); [injection C as _ _ <-; trivial|]. destruct r as [|c2 r]; [discriminate|].
    assert (Q := partition_part (c :: c2 :: r)). remember (partition (c :: c2 :: r)) as p eqn:Ep.
    assert (K : forall k, In k (option_tuples table (c :: c2 :: r)) -> k = Option_ d long e -> match e with Some (_, v) => part_of (c :: c2 :: r) v | None => True end).
    { intros k I ->. unfold option_tuples in I. rewrite <- Ep in I. destruct p as [n v]. destruct (is_long (c :: c2 :: r)).
      - apply in_map_iff in I as (x & X & _). injection X as _ _ <-. destruct v as [v|]; cbn; [|trivial]. exact (Q v eq_refl).
      - apply in_concat in I as (l0 & I0 & I). apply in_map_iff in I0 as (x & <- & _).
        match type of I with context [text_eqb ?p ?q] => destruct (text_eqb p q) end; [destruct I as [I|[]]; injection I as _ _ <-; exists [c; c2]; reflexivity|].
        match type of I with context [starts ?p ?q] => destruct (starts p q) end; [destruct I as [I|[]]; injection I as _ _ <-; trivial|destruct I]. }
    destruct (match p with (n0, Some v) => _ | (_, None) => None end) as [k|] eqn:Ek.
    - subst k. destruct p as [n0 [v|]]; [|discriminate]. destruct (dict_get text_eqb n0 table); [|discriminate]. injection Ek as _ _ <-. exact (Q v eq_refl).
    - destruct (option_tuples table (c :: c2 :: r)) as [|k [|k' ks]].
      + destruct (neg (c :: c2 :: r)); [discriminate|]. destruct (existsb (N.eqb 32) (c :: c2 :: r)); discriminate.
      + exact (K k (or_introl eq_refl) C).
      + discriminate. }
  destruct e as [[sep v]|]; [|intros x w []]. apply (read_fed_mono v); [|exact (explicit_fed table (length v) v long sep d (le_n _))].
  intros w [p ->]. destruct E as [q ->]. exists (q ++ p). rewrite app_assoc. reflexivity.
Qed.
Lemma act_values : forall l s s', act l s = inl s' -> forall x v, value_of s' x = Some v -> value_of s x = Some v \/ In (Set_ x, v) l.
Proof.
  induction l as [|[d w] l IH]; intros s s' A x v V; [injection A as <-; left; exact V|].
  destruct d as [| |sw|y]; try discriminate; cbn [act] in A; destruct (IH _ _ A x v V) as [H|H]; try (right; right; exact H).
  - left. destruct sw, x; exact H.
  - destruct y, x; cbn in H; try (left; exact H); injection H as <-; right; left; reflexivity.
Qed.
Lemma sub_deed : forall neg a d long e, classify neg sub_options a = Option_ d long e -> d = Help.
Proof.
  intros neg a d long e C. assert (T : forall n d, dict_get text_eqb n sub_options = Some d -> d = Help).
  { intros n d0 E. cbn in E. repeat (match type of E with context [if ?b then _ else _] => destruct b end; [injection E as <-; reflexivity|]). discriminate. }
  assert (M : forall p, In p sub_options -> snd p = Help) by (intros p [<-|[<-|[]]]; reflexivity).
  destruct a as [|c r]; [discriminate|]. cbn [classify] in C. destruct (negb (c =? dash)%N); [discriminate|].
  destruct (dict_get text_eqb (c :: r) sub_options) eqn:G; [injection C as <- _ _; exact (T _ _ G)|]. destruct r as [|c2 r]; [discriminate|].
  destruct (match partition (c :: c2 :: r) with (n0, Some v) => _ | (_, None) => None end) as [k|] eqn:Ek.
  - subst k. destruct (partition (c :: c2 :: r)) as [n0 [v|]]; [|discriminate]. destruct (dict_get text_eqb n0 sub_options) eqn:G0; [|discriminate]. injection Ek as <- _ _. exact (T _ _ G0).
  - assert (K : forall k, In k (option_tuples sub_options (c :: c2 :: r)) -> k = Option_ d long e -> d = Help).
    { intros k I ->. unfold option_tuples in I. destruct (partition (c :: c2 :: r)) as [n v]. destruct (is_long (c :: c2 :: r)).
      - apply in_map_iff in I as (x & X & P). injection X as <- _ _. apply filter_In in P as [P _]. exact (M x P).
      - apply in_concat in I as (l0 & I0 & I). apply in_map_iff in I0 as (x & <- & P).
        match type of I with context [text_eqb ?p ?q] => destruct (text_eqb p q) end; [destruct I as [I|[]]; injection I as <- _ _; exact (M x P)|].
        match type of I with context [starts ?p ?q] => destruct (starts p q) end; [destruct I as [I|[]]; injection I as <- _ _; exact (M x P)|destruct I]. }
    destruct (option_tuples sub_options (c :: c2 :: r)) as [|k [|k' ks]].
    + destruct (neg (c :: c2 :: r)); [discriminate|]. destruct (existsb (N.eqb 32) (c :: c2 :: r)); discriminate.
    + exact (K k (or_introl eq_refl) C).
    + discriminate.
Qed.
Lemma explicit_first : forall table long sep d v, takes_value d = false ->
  match explicit_arg table long sep d v with
  | Bad => True | Done l _ => exists r, l = (d, []) :: r | Next l _ => exists r, l = (d, []) :: r
  end.
Proof.
  intros table long sep d v T. destruct v as [|c v]; cbn [explicit_arg]; rewrite T; [exact Logic.I|].
  destruct long; [exact Logic.I|]. destruct (sep || (c =? dash)%N)%bool; [exact Logic.I|]. destruct (dict_get text_eqb [dash; c] table) as [d'|]; [|eexists; reflexivity].
  match goal with |- context [before d ?k] => destruct k end; cbn; try exact Logic.I; eexists; reflexivity.
Qed.
Lemma sub_nothing : forall neg n l s x s', length l <= n -> walk neg sub_options None l s x = Parsed s' -> l = [] /\ s' = s /\ x = false.
Proof.
  intros neg. assert (Z : forall n l s s', length l <= n -> walk neg sub_options None l s true = Parsed s' -> False).
  { induction n as [|n IH]; intros l s s' L W; destruct l as [|a r]; cbn in L; try lia; try discriminate.
    cbn [walk] in W. destruct (text_eqb a dashes); [discriminate|]. destruct (classify neg sub_options a) as [| | |d long e] eqn:C;
      [exact (IH r s s' ltac:(lia) W)|exact (IH r s s' ltac:(lia) W)|discriminate|].
    apply sub_deed in C as ->. destruct e as [[sep v]|]; cbn [consume] in W; [|discriminate].
    assert (F := explicit_first sub_options long sep Help v eq_refl). destruct (explicit_arg sub_options long sep Help v) as [|k y|k d']; [discriminate| |].
    - destruct F as [q ->]. discriminate.
    - destruct F as [q ->]. destruct (takes_value d'); [|discriminate]. destruct r as [|v' r']; [discriminate|]. destruct (text_eqb v' dashes); [discriminate|].
      destruct (classify neg sub_options v'); discriminate. }
  intros n l s x s' L W. destruct l as [|a r]; [cbn in W; destruct x; [discriminate|injection W as <-; repeat split]|]. exfalso.
  cbn [walk] in W. destruct (text_eqb a dashes); [discriminate|]. destruct (classify neg sub_options a) as [| | |d long e] eqn:C;
    [exact (Z (length r) r s s' (le_n _) W)|exact (Z (length r) r s s' (le_n _) W)|discriminate|].
  apply sub_deed in C as ->. destruct e as [[sep v]|]; cbn [consume] in W; [|discriminate].
  assert (F := explicit_first sub_options long sep Help v eq_refl). destruct (explicit_arg sub_options long sep Help v) as [|k y|k d']; [discriminate| |].
  - destruct F as [q ->]. discriminate.
  - destruct F as [q ->]. destruct (takes_value d'); [|discriminate]. destruct r as [|v' r']; [discriminate|]. destruct (text_eqb v' dashes); [discriminate|].
    destruct (classify neg sub_options v'); discriminate.
Qed.
Lemma sub_parsed : forall neg a r s x s', sub_command neg a r s x = Parsed s' -> r = [] /\ s' = with_sub a s /\ In a sub_commands /\ x = false.
Proof.
  intros neg a r s x s' E. unfold sub_command, parse_with in E. destruct (existsb (text_eqb a) sub_commands) eqn:X; [|discriminate].
  destruct (ambiguous neg sub_options r); [discriminate|]. destruct (sub_nothing neg (length r) r _ _ _ (le_n _) E) as (-> & -> & ->). split; [reflexivity|]. split; [reflexivity|]. split; [|reflexivity].
  apply existsb_exists in X as (y & Y & Q). apply text_eqb_eq in Q as ->. exact Y.
Qed.
Lemma act_sub : forall l s s', act l s = inl s' -> s_sub s' = s_sub s.
Proof. induction l as [|[d v] l IH]; intros s s' A; [injection A as <-; reflexivity|]. destruct d as [| |w|x]; try discriminate; cbn [act] in A; rewrite (IH _ _ A); [destruct w|destruct x]; reflexivity. Qed.
Definition named_last (s : settings) (l : list text) (s' : settings) : Prop :=
  s_sub s' = s_sub s \/ exists pre n, l = pre ++ [n] /\ s_sub s' = Some n /\ In n sub_commands.
Lemma comes_cons : forall a l v, comes_from l v -> comes_from (a :: l) v.
Proof. intros a l v (b & p & I & E). exists b, p. split; [right; exact I|exact E]. Qed.
Lemma later : forall a l s s1 s', (forall x v, value_of s1 x = Some v -> value_of s x = Some v \/ comes_from (a :: l) v) -> s_sub s1 = s_sub s ->
  kept s1 l s' /\ named_last s1 l s' -> kept s (a :: l) s' /\ named_last s (a :: l) s'.
Proof.
  intros a l s s1 s' H S [K N]. split.
  - intros x v V. destruct (K x v V) as [V'|C]; [exact (H x v V')|right; apply comes_cons; exact C].
  - destruct N as [N|(pre & n & -> & N & M)]; [left; congruence|]. right. exists (a :: pre), n. repeat split; assumption.
Qed.
Lemma walk_kept : forall neg n l s x s', length l <= n -> walk neg main_options (Some (sub_command neg)) l s x = Parsed s' -> kept s l s' /\ named_last s l s'.
Proof.
  intros neg. induction n as [|n IH]; intros l s x s' L W; destruct l as [|a r]; cbn in L; try lia;
    try (destruct x; [discriminate|]; injection W as <-; split; [intros y v V; left; exact V|left; reflexivity]).
  cbn [walk] in W. destruct (text_eqb a dashes); [discriminate|].
  destruct (classify neg main_options a) as [| | |d long e] eqn:C; [| |discriminate|].
  - apply sub_parsed in W as (-> & -> & M & _). split; [intros y v V; left; destruct y; exact V|]. right. exists [], a. repeat split. exact M.
  - apply (later a r s s s'); [intros y v V; left; exact V|reflexivity|]. exact (IH r s _ s' ltac:(lia) W).
  - apply classify_fed in C. destruct (consume main_options d long e) as [|k y|k d']; [discriminate| |].
    + destruct (act k s) as [s1|] eqn:A; [|discriminate]. apply (later a r s s1 s'); [|exact (act_sub _ _ _ A)|exact (IH r s1 _ s' ltac:(lia) W)].
      intros z v V. destruct (act_values _ _ _ A z v V) as [V'|I]; [left; exact V'|]. right. destruct (C z v I) as [p E]. exists a, p. split; [left; reflexivity|exact E].
    + destruct (takes_value d') eqn:T.
      * destruct r as [|v r']; [discriminate|]. cbn in L. destruct (text_eqb v dashes); [discriminate|]. destruct (classify neg main_options v); try discriminate.
        destruct (act (k ++ [(d', v)]) s) as [s1|] eqn:A; [|discriminate].
        apply (later a (v :: r') s s1 s'); [|exact (act_sub _ _ _ A)|].
        -- intros z w V. destruct (act_values _ _ _ A z w V) as [V'|I]; [left; exact V'|]. right. apply in_app_or in I as [I|[I|[]]].
           ++ destruct (C z w I) as [p E]. exists a, p. split; [left; reflexivity|exact E].
           ++ injection I as _ <-. exists v, []. split; [right; left; reflexivity|reflexivity].
        -- apply (later v r' s1 s1 s'); [intros z w V; left; exact V|reflexivity|]. exact (IH r' s1 _ s' ltac:(lia) W).
      * destruct (act (k ++ [(d', [])]) s) as [s1|] eqn:A; [|discriminate].
        apply (later a r s s1 s'); [|exact (act_sub _ _ _ A)|exact (IH r s1 _ s' ltac:(lia) W)].
        intros z w V. destruct (act_values _ _ _ A z w V) as [V'|I]; [left; exact V'|]. right. apply in_app_or in I as [I|[I|[]]].
        -- destruct (C z w I) as [p E]. exists a, p. split; [left; reflexivity|exact E].
        -- injection I as -> _. discriminate T.
Qed.
Theorem only_given : forall neg argv s, parse_args neg argv = Parsed s ->
  (s_log_level s = T "INFO" \/ comes_from argv (s_log_level s)) /\
  (forall v, s_log_file s = Some v \/ s_server_url s = Some v \/ s_m2m_url s = Some v \/ s_serial s = Some v \/ s_auth s = Some v \/ s_remote_dir s = Some v ->
    comes_from argv v) /\
  (forall n, s_sub s = Some n -> (n = T "run" \/ n = T "version") /\ exists pre, argv = pre ++ [n]).
Proof.
  intros neg argv s E. unfold parse_args, parse_with in E. destruct (ambiguous neg main_options argv); [discriminate|].
  destruct (walk_kept neg (length argv) argv _ _ _ (le_n _) E) as [K N]. split; [|split].
  - destruct (K LogLevel _ eq_refl) as [H|H]; [left; injection H as H; symmetry; exact H|right; exact H].
  - assert (A : forall x v, x <> LogLevel -> value_of s x = Some v -> comes_from argv v).
    { intros x v X V. destruct (K x v V) as [H|H]; [|exact H]. destruct x; cbn in H; congruence || discriminate. }
    intros v [H|[H|[H|[H|[H|H]]]]];
      [apply (A LogFile)|apply (A ServerUrl)|apply (A M2mUrl)|apply (A Serial)|apply (A Auth)|apply (A RemoteDir)]; (discriminate || exact H).
  - intros n H. destruct N as [N|(pre & m & -> & N & M)]; [cbn in N; congruence|]. rewrite H in N. injection N as <-. split; [|exists pre; reflexivity].
    destruct M as [<-|[<-|[]]]; [left|right]; reflexivity.
Qed.
Theorem after_name : forall neg words l n rest, line neg words l -> n = T "run" \/ n = T "version" -> rest <> [] -> refused (parse_args neg (words ++ n :: rest)).
Proof.
  intros neg words l n rest L N R. destruct (parse_settled neg (words ++ n :: rest)) as [[s E]|H]; [|exact H]. exfalso. revert E.
  rewrite (parse_line neg _ _ _ L). destruct (ambiguous neg main_options (n :: rest)); [discriminate|]. intro E.
  assert (Q : walk neg main_options (Some (sub_command neg)) (n :: rest) (grant l defaults) false = sub_command neg n rest (grant l defaults) false) by (destruct N as [->| ->]; reflexivity).
  rewrite Q in E. apply sub_parsed in E as [E _]. contradiction.
Qed.

(** ** What the options come to *)
Lemma last_unique : forall x l v w, last_value x l v -> last_value x l w -> v = w.
Proof.
  assert (H : forall x l t w, last_value x l (Some t) -> last_value x l w -> Some t = w).
  { intros x l t w (a & b & -> & B) W. destruct w as [t'|].
    - destruct W as (a' & b' & E & B'). revert a' E. induction a as [|y a IH]; intros [|y' a'] E; cbn in E.
      + injection E as -> _. reflexivity.
      + exfalso. injection E as _ ->. apply (B t'). apply in_or_app. right. left. reflexivity.
      + exfalso. injection E as _ <-. apply (B' t). apply in_or_app. right. left. reflexivity.
      + injection E as _ E. exact (IH a' E).
    - exfalso. apply (W t). apply in_or_app. right. left. reflexivity. }
  intros x l [v|] [w|] V W; try reflexivity; [exact (H _ _ _ _ V W)|exact (H _ _ _ _ V W)|symmetry; exact (H _ _ _ _ W V)].
Qed.
Theorem client_made : forall neg words l s d h c seen, line neg words l -> parse_args neg (words ++ [T "run"]) = Parsed s ->
  Model_Start.construct (client_options s) d h = (Ok c, seen) ->
  forall x v, v <> [] -> last_value x l (Some v) ->
  match x with
  | ServerUrl => Model_Start.c_rpc_url c = v
  | M2mUrl => exists q, Model_Start.c_m2m_url c = v ++ q
  | Serial => Model_Start.c_serial c = v
  | Auth => Model_Start.c_auth c = v
  | RemoteDir => Model_Start.c_remote_dir c = v
  | LogLevel | LogFile => True
  end.
Proof.
  intros neg words l s d h c seen L P C x v N V. destruct (understood neg words l [T "run"] (Some (T "run")) L (conj eq_refl (or_introl eq_refl))) as (s' & P' & Y).
  rewrite P in P'. injection P' as <-. destruct Y as [_ _ Sv M Se A R _ _ _].
  unfold Model_Start.construct in C. cbn [client_options Model_Start.o_server_url Model_Start.o_m2m_url Model_Start.o_serial Model_Start.o_auth Model_Start.o_remote_dir] in C.
  destruct v as [|e v]; [contradiction|].
  destruct (Model_Start.given_or_read (s_serial s) (Model_Start.h_serial h)) as [sr| |] eqn:ES; [|discriminate|discriminate].
  destruct (Model_Start.given_or_read (s_auth s) (Model_Start.h_auth h)) as [au| |] eqn:EA; [|discriminate|discriminate].
  destruct (Model_Start.h_websocket h); [discriminate|]. destruct (Model_Start.h_thread h); [discriminate|].
  apply pair_equal_spec in C as [C _]. injection C as <-. destruct x; cbn; try exact Logic.I.
  - rewrite (last_unique _ _ _ _ Sv V). reflexivity.
  - rewrite (last_unique _ _ _ _ M V). unfold Model_Agent.m2m_url. cbn [Model_Agent.url_or].
    match goal with |- context [if ?b then _ else _] => destruct b end; [exists []; rewrite app_nil_r; reflexivity|eexists; reflexivity].
  - rewrite (last_unique _ _ _ _ Se V) in ES. injection ES as <-. reflexivity.
  - rewrite (last_unique _ _ _ _ A V) in EA. injection EA as <-. reflexivity.
  - rewrite (last_unique _ _ _ _ R V). reflexivity.
Qed.

Theorem logging_set : forall neg words l last name s c upper file_config existing level,
  line neg words l -> named last name -> parse_args neg (words ++ last) = Parsed s -> level_wanted upper l level ->
  (forall path, last_value LogFile l (Some path) -> path <> [] -> file_config path = None) ->
  exists lg, Model_Logging.configure upper file_config existing (app_args s c) Model_Logging.logging0 = inl lg /\
    forall logger n, Model_Logging.emit logger n lg = if ((0 <? n) && (level <=? n))%Z then [Spec_Logging.wanted (app_args s c)] else [].
Proof.
  intros neg words l last name s c upper file_config existing level L N P W F.
  destruct (understood neg words l last name L N) as (s' & P' & Y). rewrite P in P'. injection P' as <-. destruct Y as [(v & V & Lv) Fi _ _ _ _ _ _ Q _].
  apply Proof_Logging.level_taken.
  - unfold Spec_Logging.asked. cbn [app_args Model_App.quiet Model_App.log_level]. destruct W as [(I & ->)|(I & w & V' & St)].
    + apply Q in I as ->. reflexivity.
    + destruct (s_quiet s); [exfalso; apply I, Q; reflexivity|]. rewrite Lv. rewrite (last_unique _ _ _ _ V V'). exact St.
  - intros path E. cbn in E. apply F. rewrite <- E. exact Fi.
Qed.

(** ** Nothing else is understood *)
Definition exits (l : list (deed * text)) : Prop := exists v, In (Help, v) l \/ In (Version, v) l.
Lemma act_exits : forall l s, exits l -> act l s = inr 0%Z.
Proof.
  induction l as [|[d w] l IH]; intros s [v H]; [destruct H as [[]|[]]|].
  destruct d as [| |sw|x]; try reflexivity; cbn [act]; apply IH; exists v; destruct H as [[H|H]|[H|H]]; (discriminate H || (left; exact H) || (right; exact H)).
Qed.
Definition rejected (k : read_) : Prop :=
  match k with Bad => True | Done l x => x = true \/ exits l | Next l d => exits l \/ d = Help \/ d = Version end.
Lemma exits_cons : forall p l, exits l -> exits (p :: l).
Proof. intros p l [v [H|H]]; exists v; [left|right]; right; exact H. Qed.
Lemma exits_app : forall l m, exits l -> exits (l ++ m).
Proof. intros l m [v [H|H]]; exists v; [left|right]; apply in_or_app; left; exact H. Qed.
Lemma rejected_before : forall d k, rejected k -> rejected (before d k).
Proof. intros d [|l x|l d'] H; [exact Logic.I| |]; (destruct H as [H|H]; [|]); cbn; auto using exits_cons. Qed.
Lemma cluster_step : forall w c t, cluster_read (On w) (c :: t) =
  if ((c =? equals)%N || (c =? dash)%N)%bool then Bad
  else match dict_get text_eqb [dash; c] main_options with None => Done [(On w, [])] true | Some d => before (On w) (cluster_read d t) end.
Proof.
  intros w c t. unfold cluster_read at 1. destruct (c =? equals)%N eqn:C.
  - destruct t as [|e t]; reflexivity.
  - cbn [explicit_arg takes_value orb]. destruct (c =? dash)%N; [reflexivity|]. destruct (dict_get text_eqb [dash; c] main_options) as [d|]; [|reflexivity].
    destruct t as [|e t]; [reflexivity|]. cbn [cluster_read]. destruct (e =? equals)%N; reflexivity.
Qed.
Lemma letter_deed : forall c d, dict_get text_eqb [dash; c] main_options = Some d ->
  In c every_letter /\ (d = Help \/ d = Version \/ (exists w, d = On w /\ c = short_switch w) \/ exists x, d = Set_ x /\ short_setting x c).
Proof.
  intros c d G. apply get_in in G. unfold main_options in G. cbn [In] in G.
  repeat (destruct G as [G|G]; [apply pair_equal_spec in G as [E <-]; vm_compute in E;
    first [discriminate E|injection E as <-; split; [vm_compute; tauto|];
      first [left; reflexivity|right; left; reflexivity
            |right; right; left; first [exists Debug; split; reflexivity|exists Quiet; split; reflexivity]
            |right; right; right; first [exists ServerUrl; split; [reflexivity|exact ShortServer]|exists M2mUrl; split; [reflexivity|exact ShortM2m]]]]|]).
  contradiction G.
Qed.
(** The letters after a first one *)
Lemma exit_rejected : forall d t, d = Help \/ d = Version -> rejected (cluster_read d t).
Proof.
  intros d t D. assert (V : takes_value d = false) by (destruct D as [->| ->]; reflexivity).
  assert (X : forall l, exits ((d, []) :: l)) by (intro l; exists []; destruct D as [->| ->]; [left|right]; left; reflexivity).
  destruct t as [|c t]; [right; exact D|]. cbn [cluster_read].
  destruct (c =? equals)%N.
  - assert (F := explicit_first main_options false true d t V). destruct (explicit_arg main_options false true d t); [exact Logic.I| |]; destruct F as [r ->]; [right|left]; apply X.
  - assert (F := explicit_first main_options false false d (c :: t) V). destruct (explicit_arg main_options false false d (c :: t)); [exact Logic.I| |]; destruct F as [r ->]; [right|left]; apply X.
Qed.
Lemma cluster_shape : forall t w, rejected (cluster_read (On w) t) \/ (exists ws, t = map short_switch ws) \/
  (exists ws x c tl, short_setting x c /\ t = map short_switch ws ++ c :: tl).
Proof.
  induction t as [|c t IH]; intro w; [right; left; exists []; reflexivity|]. rewrite cluster_step.
  destruct ((c =? equals)%N || (c =? dash)%N)%bool; [left; exact Logic.I|]. destruct (dict_get text_eqb [dash; c] main_options) as [d|] eqn:G; [|left; left; reflexivity].
  destruct (letter_deed c d G) as [_ [D|[D|[(w' & -> & ->)|(x & -> & S)]]]].
  - left. apply rejected_before, exit_rejected. left. exact D.
  - left. apply rejected_before, exit_rejected. right. exact D.
  - destruct (IH w') as [R|[[ws ->]|(ws & x & c & tl & S & ->)]].
    + left. apply rejected_before. exact R.
    + right. left. exists (w' :: ws). reflexivity.
    + right. right. exists (w' :: ws), x, c, tl. split; [exact S|reflexivity].
  - right. right. exists [], x, c, t. split; [exact S|reflexivity].
Qed.
(** What an option was *)
Lemma option_inv : forall neg a d long e, classify neg main_options a = Option_ d long e ->
  (exists c t, a = dash :: c :: t /\ dict_get text_eqb [dash; c] main_options = Some d) \/
  (long = true /\ exists n full, In (full, d) main_options /\ In full every_long /\ stands_for n full /\
    ((a = n /\ e = None) \/ exists v, a = n ++ equals :: v /\ e = Some (true, v))).
Proof.
  intros neg a d long e C. destruct a as [|c r]; [discriminate|]. cbn [classify] in C. destruct (negb (c =? dash)%N) eqn:D; [discriminate|].
  apply Bool.negb_false_iff, N.eqb_eq in D as ->.
  assert (Self : forall n, In n every_long -> stands_for n n).
  { intros n I. split; [cbn in I; repeat (destruct I as [<-|I]; [cbn; lia|]); destruct I|]. split; [exists []; rewrite app_nil_r; reflexivity|left; reflexivity]. }
  destruct (dict_get text_eqb (dash :: r) main_options) as [d0|] eqn:G.
  { injection C as -> <- <-. assert (I := get_in _ _ _ G). destruct (table_entry _ _ I) as [(c & E & _)|L].
    - left. injection E as ->. exists c, []. split; [reflexivity|exact G].
    - right. split; [destruct (long_two _ L) as [t E]; injection E as ->; reflexivity|]. exists (dash :: r), (dash :: r). split; [exact I|]. split; [exact L|]. split; [exact (Self _ L)|]. left. split; reflexivity. }
  destruct r as [|c r]; [discriminate|].
  destruct (match partition (dash :: c :: r) with (n0, Some v) => _ | (_, None) => None end) as [k|] eqn:Ek.
  { subst k. destruct (partition (dash :: c :: r)) as [n0 [v|]] eqn:P; [|discriminate]. destruct (dict_get text_eqb n0 main_options) as [d0|] eqn:G0; [|discriminate].
    injection Ek as -> <- <-. apply partition_some in P. assert (I := get_in _ _ _ G0). destruct (table_entry _ _ I) as [(c' & -> & _)|L].
    - left. exists c', (equals :: v). split; [exact P|exact G0].
    - right. split; [destruct (long_two _ L) as [t ->]; reflexivity|]. exists n0, n0. split; [exact I|]. split; [exact L|]. split; [exact (Self _ L)|]. right. exists v. split; [exact P|reflexivity]. }
  destruct (option_tuples main_options (dash :: c :: r)) as [|k [|k' ks]] eqn:X.
  { destruct (neg (dash :: c :: r)); [discriminate|]. destruct (existsb (N.eqb 32) (dash :: c :: r)); discriminate. }
  2: discriminate.
  subst k. unfold option_tuples in X. destruct (partition (dash :: c :: r)) as [n v] eqn:P. destruct (is_long (dash :: c :: r)) eqn:Lo.
  - right. cbn in Lo. apply N.eqb_eq in Lo as ->. rewrite !partition_cons in P by reflexivity. cbn [fst snd] in P. apply pair_equal_spec in P as [Pn Pv].
    destruct (filter (fun en => starts n (fst en)) main_options) as [|[m d0] [|m' ms]] eqn:F; [discriminate| |discriminate].
    cbn [map fst snd] in X. injection X as -> Lm Ev.
    assert (I : In (m, d) (filter (fun en => starts n (fst en)) main_options)) by (rewrite F; left; reflexivity).
    apply filter_In in I as [I S]. apply starts_iff in S as [rest S]. cbn in S.
    assert (L : In m every_long).
    { destruct (table_entry _ _ I) as [(c' & E & C')|L]; [|exact L]. exfalso. rewrite S, <- Pn in E. cbn in E. injection E as E _. subst c'. cbn in C'.
      repeat (destruct C' as [C'|C']; [discriminate C'|]). destruct C'. }
    split; [rewrite <- Lm; destruct (long_two _ L) as [t ->]; reflexivity|]. exists n, m. split; [exact I|]. split; [exact L|].
    assert (U : forall other rest, In other every_long -> other = n ++ rest -> other = m).
    { intros o ro O Eo. destruct (long_entry _ O) as [do Do]. assert (J : In (o, do) (filter (fun en => starts n (fst en)) main_options)).
      { apply filter_In. split; [exact Do|]. apply starts_iff. exists ro. exact Eo. }
      rewrite F in J. destruct J as [J|[]]. injection J as -> _. reflexivity. }
    split.
    + split; [|split; [exists rest; exact S|right; exact U]]. destruct n as [|a [|b [|e' n]]]; cbn; try lia; try discriminate Pn. exfalso. injection Pn as <- <- _.
      discriminate (eq_trans (U (T "--help") (T "help") ltac:(cbn; tauto) eq_refl) (eq_sym (U (T "--version") (T "version") ltac:(cbn; tauto) eq_refl))).
    + assert (Pq : partition r = (fst (partition r), v)) by (rewrite <- Pv; destruct (partition r); reflexivity).
      destruct v as [v|]; [right; exists v|left]; (split; [rewrite <- Pn|symmetry; exact Ev]).
      * apply partition_some in Pq. cbn. rewrite Pq at 1. reflexivity.
      * apply partition_none in Pq. rewrite <- Pq. reflexivity.
  - left. exists c, r. split; [reflexivity|]. cbn in Lo.
    match type of X with ?l = _ => assert (J : In (Option_ d long e) l) by (rewrite X; left; reflexivity) end.
    apply in_concat in J as (l0 & I0 & J). apply in_map_iff in I0 as ([m d0] & <- & M). cbn [fst snd] in J.
    destruct (text_eqb m (firstn 2 (dash :: c :: r))) eqn:T1.
    + destruct J as [J|[]]. injection J as -> _ _. apply text_eqb_eq in T1. cbn in T1. subst m.
      destruct (table_entry _ _ M) as [(c' & E & C')|L]; [|exfalso; destruct (long_two _ L) as [t E]; injection E as -> _; discriminate Lo].
      injection E as <-. clear - M. unfold main_options in M. cbn [In] in M. repeat (destruct M as [M|M]; [apply pair_equal_spec in M as [E <-]; vm_compute in E; first [discriminate E|injection E as <-; reflexivity]|]). contradiction M.
    + exfalso. destruct (starts (dash :: c :: r) m) eqn:T2; [|destruct J]. apply starts_iff in T2 as [rest ->].
      destruct (table_entry _ _ M) as [(c' & E & _)|L].
      * cbn [app] in E. injection E as <- E. destruct r as [|e' r]; [|discriminate E]. cbn in E. subst rest. cbn in T1. rewrite N.eqb_refl in T1. discriminate T1.
      * destruct (long_two _ L) as [t E]. injection E as -> _. discriminate Lo.
Qed.
Lemma long_deed : forall full d, In (full, d) main_options -> In full every_long ->
  d = Help \/ d = Version \/ (exists w, d = On w /\ full = long_switch w) \/ exists x, d = Set_ x /\ full = long_setting x.
Proof.
  intros full d I L. assert (N : length full <> 2) by (cbn in L; repeat (destruct L as [<-|L]; [discriminate|]); contradiction L).
  unfold main_options in I. cbn [In] in I.
  repeat (destruct I as [I|I]; [apply pair_equal_spec in I as [<- <-];
    first [exfalso; apply N; reflexivity|left; reflexivity|right; left; reflexivity
          |right; right; left; first [exists Debug; split; reflexivity|exists Quiet; split; reflexivity]
          |right; right; right; eexists; split; reflexivity]|]).
  contradiction I.
Qed.
Definition means (neg : text -> bool) (a : text) (k : read_) : Prop :=
  rejected k \/ (exists l, k = Done (map deed_of l) false /\ written neg [a] l) \/
  (exists m w l, k = Next m (On w) /\ m ++ [(On w, [])] = map deed_of l /\ written neg [a] l) \/
  (exists pre x, k = Next (map deed_of pre) (Set_ x) /\ forall v, plain neg v -> written neg [a; v] (pre ++ [Value x v])).
Lemma cluster_means : forall neg ws x c t, short_setting x c -> means neg (dash :: map short_switch ws ++ c :: t) (befores ws (cluster_read (Set_ x) t)).
Proof.
  intros neg ws x c t S. destruct t as [|e v].
  - right. right. right. exists (map Switch ws), x. cbn [cluster_read]. rewrite befores_next, app_nil_r, map_switches. split; [reflexivity|].
    intros v P. exact (ShortApart neg ws x c v S P).
  - right. left. cbn [cluster_read]. destruct (e =? equals)%N eqn:E.
    + exists (map Switch ws ++ [Value x v]). apply N.eqb_eq in E as ->. split; [|exact (ShortEquals neg ws x c v S)].
      replace (explicit_arg main_options false true (Set_ x) v) with (Done [(Set_ x, v)] false) by (destruct v; reflexivity).
      rewrite befores_done, map_app, map_switches. reflexivity.
    + exists (map Switch ws ++ [Value x (e :: v)]). split; [cbn [explicit_arg takes_value]; rewrite befores_done, map_app, map_switches; reflexivity|].
      apply (ShortJoined neg ws x c (e :: v) S); [discriminate|]. intros r R. injection R as -> _. discriminate E.
Qed.
Lemma option_means : forall neg a d long e, classify neg main_options a = Option_ d long e -> means neg a (consume main_options d long e).
Proof.
  intros neg a d long e C. destruct (option_inv neg a d long e C) as [(c & t & -> & G)|(-> & n & full & I & L & S & H)].
  - destruct (letter_deed c d G) as [Ic D]. destruct (letter_read c d t G Ic) as [_ B]. destruct (B neg) as (e' & C' & Q). rewrite C in C'. injection C' as -> ->. rewrite Q.
    destruct D as [D|[D|[(w & -> & ->)|(x & -> & S)]]].
    + left. apply exit_rejected. left. exact D.
    + left. apply exit_rejected. right. exact D.
    + destruct (cluster_shape t w) as [R|[[ws ->]|(ws & x & c & tl & S & ->)]]; [left; exact R| |].
      * right. right. left. rewrite cluster_only. eexists _, _, (map Switch (w :: ws)). split; [reflexivity|]. split; [|exact (ShortSwitches neg w ws)].
        rewrite map_switches. change [(On (last ws w), @nil N)] with (map (fun w => (On w, @nil N)) [last ws w]). rewrite <- map_app. f_equal.
        assert (Lw : last ws w = last (w :: ws) w) by (destruct ws; reflexivity). rewrite Lw. symmetry. apply app_removelast_last. discriminate.
      * destruct (setting_letter x c S) as [D' I']. rewrite (cluster_switches ws w c _ tl D' I'). exact (cluster_means neg (w :: ws) x c tl S).
    + exact (cluster_means neg [] x c t S).
  - destruct (long_deed full d I L) as [D|[D|[(w & -> & ->)|(x & -> & ->)]]].
    + left. subst d. destruct H as [[_ ->]|(v & _ & ->)]; [right; left; reflexivity|]. destruct v; exact Logic.I.
    + left. subst d. destruct H as [[_ ->]|(v & _ & ->)]; [right; right; reflexivity|]. destruct v; exact Logic.I.
    + destruct H as [[-> ->]|(v & _ & ->)]; [|left; destruct v; exact Logic.I].
      right. right. left. exists [], w, [Switch w]. split; [reflexivity|]. split; [reflexivity|exact (LongSwitch neg w n S)].
    + destruct H as [[-> ->]|(v & -> & ->)].
      * right. right. right. exists [], x. split; [reflexivity|]. intros v P. exact (LongApart neg x n v S P).
      * right. left. exists [Value x v]. split; [destruct v; reflexivity|exact (LongEquals neg x n v S)].
Qed.
Lemma walk_inv : forall neg n l s x s', length l <= n -> walk neg main_options (Some (sub_command neg)) l s x = Parsed s' ->
  x = false /\ exists words wl last name, l = words ++ last /\ line neg words wl /\ named last name /\
    s' = match name with Some n => with_sub n (grant wl s) | None => grant wl s end.
Proof.
  intros neg. induction n as [|n IH]; intros l s x s' L W; destruct l as [|a r]; cbn in L; try lia;
    try (cbn in W; destruct x; [discriminate W|]; injection W as <-; split; [reflexivity|]; exists [], [], [], None; repeat split; apply NoMore).
  assert (Step : forall b wl r' s1 y, written neg b wl -> s1 = grant wl s -> length r' <= n ->
    walk neg main_options (Some (sub_command neg)) r' s1 y = Parsed s' -> y = false /\ exists words wl last name, b ++ r' = words ++ last /\ line neg words wl /\ named last name /\
    s' = match name with Some n => with_sub n (grant wl s) | None => grant wl s end).
  { intros b wl r' s1 y Wr -> L' W'. destruct (IH r' _ y s' L' W') as (-> & words & wl' & last & name & -> & Li & N & E). split; [reflexivity|].
    exists (b ++ words), (wl ++ wl'), last, name. split; [rewrite app_assoc; reflexivity|]. split; [exact (OneMore neg _ _ _ _ Wr Li)|]. split; [exact N|].
    unfold grant in *. rewrite fold_left_app. exact E. }
  cbn [walk] in W. destruct (text_eqb a dashes); [discriminate|].
  destruct (classify neg main_options a) as [| | |d long e] eqn:C; [| |discriminate|].
  - apply sub_parsed in W as (-> & -> & M & ->). split; [reflexivity|]. exists [], [], [a], (Some a). split; [reflexivity|]. split; [apply NoMore|]. split; [|reflexivity].
    split; [reflexivity|]. destruct M as [<-|[<-|[]]]; [left|right]; reflexivity.
  - destruct (IH r s true s' ltac:(lia) W) as [X _]. discriminate X.
  - destruct (option_means neg a d long e C) as [R|[(l & K & Wr)|[(m & w & l & K & E & Wr)|(pre & y & K & Wr)]]].
    + exfalso. destruct (consume main_options d long e) as [|k z|k d']; [discriminate| |].
      * destruct R as [->|R]; [|rewrite (act_exits k s R) in W; discriminate]. destruct (act k s); [|discriminate]. rewrite Bool.orb_true_r in W.
        destruct (IH r _ true s' ltac:(lia) W) as [X _]. discriminate X.
      * assert (X : takes_value d' = true /\ exits k \/ forall v, exits (k ++ [(d', v)])).
        { destruct R as [R|R]; [right; intro v; apply exits_app; exact R|]. right. intro v. exists v. destruct R as [->| ->]; [left|right]; apply in_or_app; right; left; reflexivity. }
        assert (Y : forall v, act (k ++ [(d', v)]) s = inr 0%Z) by (intro v; apply act_exits; destruct X as [[_ X]|X]; [apply exits_app; exact X|apply X]).
        rewrite Y in W. destruct (takes_value d'); [|discriminate]. destruct r as [|v r]; [discriminate|]. rewrite Y in W.
        destruct (text_eqb v dashes); [discriminate|]. destruct (classify neg main_options v); discriminate.
    + rewrite K in W. rewrite act_all in W. destruct (Step [a] l r _ _ Wr eq_refl ltac:(lia) W) as [X Q]. rewrite Bool.orb_false_r in X. split; [exact X|exact Q].
    + rewrite K in W. cbn [takes_value] in W. rewrite E, act_all in W. exact (Step [a] l r _ _ Wr eq_refl ltac:(lia) W).
    + rewrite K in W. cbn [takes_value] in W. destruct r as [|v r]; [discriminate|]. cbn in L. destruct (text_eqb v dashes); [discriminate|].
      destruct (classify neg main_options v) eqn:Cv; try discriminate. apply argument_iff in Cv.
      assert (Q : map deed_of pre ++ [(Set_ y, v)] = map deed_of (pre ++ [Value y v])) by (rewrite map_app; reflexivity). rewrite Q, act_all in W.
      exact (Step [a; v] _ r _ _ (Wr v Cv) eq_refl ltac:(lia) W).
Qed.
Theorem only_lines : forall neg argv s, parse_args neg argv = Parsed s ->
  exists words l last name, argv = words ++ last /\ line neg words l /\ named last name /\ says l name s.
Proof.
  intros neg argv s E. unfold parse_args, parse_with in E. destruct (ambiguous neg main_options argv); [discriminate|].
  destruct (walk_inv neg (length argv) argv _ _ _ (le_n _) E) as (_ & words & l & last & name & -> & L & N & ->). exists words, l, last, name.
  split; [reflexivity|]. split; [exact L|]. split; [exact N|]. assert (S := says_grant l). destruct name as [n|]; [|exact S].
  destruct S. constructor; assumption || reflexivity.
Qed.
