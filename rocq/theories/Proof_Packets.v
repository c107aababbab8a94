From Coq Require Import Permutation.
From Verif Require Import Py Py_lemmas Model_Bencode Spec_Bencode Proof_Bencode Model_Packets Spec_Packets.

(** ** String-keyed dictionaries *)
Section Dict.
  Context {V : Type}.
  Implicit Types d : list (string * V).
  Lemma sget_set_eq k (v : V) d : dict_get String.eqb k (dict_set String.eqb k v d) = Some v.
  Proof.
    induction d as [|[k' v'] d IH]; cbn; [now rewrite String.eqb_refl|].
    destruct (String.eqb k' k) eqn:E; cbn; rewrite E; auto.
  Qed.
  Lemma sget_set_neq k k' (v : V) d : k <> k' ->
    dict_get String.eqb k' (dict_set String.eqb k v d) = dict_get String.eqb k' d.
  Proof.
    intros Hn. induction d as [|[k2 v2] d IH]; cbn.
    - destruct (String.eqb_spec k k'); congruence.
    - destruct (String.eqb_spec k2 k) as [->|]; cbn.
      + destruct (String.eqb_spec k k'); congruence.
      + now rewrite IH.
  Qed.
  Lemma sget_in k (v : V) d : dict_get String.eqb k d = Some v -> In (k, v) d.
  Proof.
    induction d as [|[k' v'] d IH]; cbn; [discriminate|].
    destruct (String.eqb_spec k' k) as [->|]; [intros [= ->]; auto|auto].
  Qed.
  Lemma sget_nodup k (v : V) d : NoDup (map fst d) -> In (k, v) d -> dict_get String.eqb k d = Some v.
  Proof.
    induction d as [|[k' v'] d IH]; cbn; [tauto|]. intros Hn [H|H]; inversion Hn as [|? ? Hni Hnd]; subst.
    - injection H as -> ->. now rewrite String.eqb_refl.
    - destruct (String.eqb_spec k' k) as [->|]; auto. exfalso. apply Hni. apply in_map_iff. now exists (k, v).
  Qed.
  Lemma sget_none k d : dict_get String.eqb k d = None <-> ~ In k (map fst d).
  Proof.
    induction d as [|[k' v'] d IH]; cbn; [tauto|]. destruct (String.eqb_spec k' k) as [->|]; [split; [discriminate|tauto]|].
    rewrite IH. intuition congruence.
  Qed.
End Dict.

(** ** Construction *)
Lemma coerce_cases v :
  (exists w, coerce v = Ok w /\ stored v w /\ ~ bad_text v) \/ (coerce v = Raise EUnicodeEncode /\ bad_text v).
Proof.
  destruct v; cbn; try (left; eexists; repeat split; [constructor; discriminate|intros (? & ? & _); discriminate]).
  destruct (utf8_encode t) as [b|] eqn:E.
  - left. eexists; repeat split; [now constructor|]. intros (t' & [= <-] & H). congruence.
  - right. split; auto. exists t; auto.
Qed.
Lemma stored_coerce v w : stored v w -> coerce v = Ok w.
Proof. intros H; inversion H; subst; cbn; [now rewrite H0|]. destruct w; auto. congruence. Qed.
Lemma stored_fun v w w' : stored v w -> stored v w' -> w = w'.
Proof. intros H H'. apply stored_coerce in H, H'. congruence. Qed.
Lemma isinstance_typed v t : isinstance v t = true <-> typed v t.
Proof. split; [destruct t, v; cbn; try discriminate; constructor|intros H; inversion H; reflexivity]. Qed.

Lemma init_args_spec args : forall attrs params,
  NoDup (map fst attrs) ->
  (exists r, init_args args attrs params = Ok r /\ (forall v, In v (firstn (length attrs) args) -> ~ bad_text v) /\
     (forall i name t v, nth_error attrs i = Some (name, t) -> nth_error args i = Some v ->
        exists w, stored v w /\ dict_get String.eqb name r = Some w) /\
     (forall name, (forall i t, nth_error attrs i = Some (name, t) -> nth_error args i = None) ->
        dict_get String.eqb name r = dict_get String.eqb name params))
  \/ (init_args args attrs params = Raise EUnicodeEncode /\ exists v, In v (firstn (length attrs) args) /\ bad_text v).
Proof.
  induction args as [|a args IH]; intros attrs params Hn.
  - left. exists params. repeat split; auto.
    + intros v Hv. rewrite firstn_nil in Hv. destruct Hv.
    + intros i name t v _ H. destruct i; discriminate.
  - destruct attrs as [|[name t] attrs].
    + left. exists params. cbn. repeat split; auto. intros i name t v H. destruct i; discriminate.
    + cbn [init_args length firstn]. inversion Hn as [|? ? Hni Hnd]; subst.
      destruct (coerce_cases a) as [(w & -> & Hst & Hb)|(-> & Hb)]; cbn [bind].
      2:{ right. split; auto. exists a. split; auto. now left. }
      destruct (IH attrs (dict_set String.eqb name w params) Hnd) as [(r & Hr & H1 & H2 & H3)|(Hr & v & H1 & H2)].
      * left. exists r. repeat split; auto.
        -- intros v [<-|Hv]; auto.
        -- intros [|i] name' t' v Hi Hv; cbn in *.
           ++ injection Hi as <- <-. injection Hv as <-. exists w. split; auto.
              rewrite H3; [apply sget_set_eq|]. intros i t' Hi. exfalso. apply Hni.
              apply in_map_iff. exists (name, t'). split; auto. eapply nth_error_In; eauto.
           ++ eapply H2; eauto.
        -- intros name' Hname. rewrite H3.
           ++ apply sget_set_neq. intros ->. specialize (Hname 0 t eq_refl). discriminate.
           ++ intros i t' Hi. apply (Hname (S i) t' Hi).
      * right. split; auto. exists v. split; auto. now right.
Qed.

Lemma init_kwargs_spec kwargs : forall params,
  NoDup (map fst kwargs) ->
  (exists r, init_kwargs kwargs params = Ok r /\ (forall v, In v (map snd kwargs) -> ~ bad_text v) /\
     (forall name v, In (name, v) kwargs -> exists w, stored v w /\ dict_get String.eqb name r = Some w) /\
     (forall name, ~ In name (map fst kwargs) -> dict_get String.eqb name r = dict_get String.eqb name params))
  \/ (init_kwargs kwargs params = Raise EUnicodeEncode /\ exists v, In v (map snd kwargs) /\ bad_text v).
Proof.
  induction kwargs as [|[k a] kwargs IH]; intros params Hn.
  - left. exists params. cbn. repeat split; auto. tauto.
  - cbn [init_kwargs map fst snd] in *. inversion Hn as [|? ? Hni Hnd]; subst.
    destruct (coerce_cases a) as [(w & -> & Hst & Hb)|(-> & Hb)]; cbn [bind].
    2:{ right. split; auto. exists a. split; auto. now left. }
    destruct (IH (dict_set String.eqb k w params) Hnd) as [(r & Hr & H1 & H2 & H3)|(Hr & v & H1 & H2)].
    + left. exists r. repeat split; auto.
      * intros v [<-|Hv]; auto.
      * intros name v [[= <- <-]|Hin]; auto. exists w. split; auto. rewrite H3 by auto. apply sget_set_eq.
      * intros name Hname. cbn in Hname. rewrite H3 by tauto. apply sget_set_neq. tauto.
    + right. split; auto. exists v. split; auto. now right.
Qed.

Lemma init_attrs_spec attrs params :
  (exists r, init_attrs attrs params = Ok r /\ length r = length attrs /\
     forall i name t, nth_error attrs i = Some (name, t) ->
       exists w, dict_get String.eqb name params = Some w /\ typed w t /\ nth_error r i = Some (name, w))
  \/ (init_attrs attrs params = Raise EPacketFormat /\
      exists i name t, nth_error attrs i = Some (name, t) /\
        (dict_get String.eqb name params = None \/
         exists w, dict_get String.eqb name params = Some w /\ ~ typed w t)).
Proof.
  induction attrs as [|[name t] attrs IH]; cbn [init_attrs].
  - left. exists []. repeat split; auto. intros i ? ? H. destruct i; discriminate.
  - destruct (dict_get String.eqb name params) as [v|] eqn:E.
    + destruct (isinstance v t) eqn:Ei.
      * destruct IH as [(r & -> & Hl & Hr)|(-> & i & n' & t' & Hi & H)]; cbn [bind].
        -- left. exists ((name, v) :: r). cbn. repeat split; auto. intros [|i] n' t' Hi; cbn in *.
           ++ injection Hi as <- <-. exists v. repeat split; auto. now apply isinstance_typed.
           ++ auto.
        -- right. split; auto. exists (S i), n', t'. auto.
      * right. split; auto. exists 0, name, t. split; auto. right. exists v. split; auto.
        rewrite <- isinstance_typed. congruence.
    + right. split; auto. exists 0, name, t. auto.
Qed.

Lemma supplied_get args kwargs attrs p1 p2 :
  NoDup (map fst attrs) -> NoDup (map fst kwargs) ->
  init_args args attrs [] = Ok p1 -> init_kwargs kwargs p1 = Ok p2 ->
  forall i name t, nth_error attrs i = Some (name, t) ->
    (forall w, dict_get String.eqb name p2 = Some w -> exists v, supplied args kwargs i name v /\ stored v w) /\
    (dict_get String.eqb name p2 = None -> forall v, ~ supplied args kwargs i name v).
Proof.
  intros Hn Hk E1 E2 i name t Hi.
  destruct (init_args_spec args attrs [] Hn) as [(r & Hr & A1 & A2 & A3)|(Hr & _)]; [|congruence].
  assert (r = p1) as -> by congruence.
  destruct (init_kwargs_spec kwargs p1 Hk) as [(r & Hr' & B1 & B2 & B3)|(Hr' & _)]; [|congruence].
  assert (r = p2) as -> by congruence.
  assert (Hnone : ~ In name (map fst kwargs) -> nth_error args i = None -> dict_get String.eqb name p2 = None).
  { intros Hni Ha. rewrite B3, A3; auto. intros j t' Hj.
    assert (j = i) as ->; auto.
    { eapply (proj1 (NoDup_nth_error (map fst attrs))); [exact Hn| |].
      - apply nth_error_Some. rewrite nth_error_map, Hj. discriminate.
      - rewrite !nth_error_map, Hi, Hj. reflexivity. } }
  split.
  - intros w Hw. destruct (in_dec string_dec name (map fst kwargs)) as [Hin|Hni].
    + apply in_map_iff in Hin as [[n v] [Hf Hin]]. cbn in Hf. subst n.
      exists v. destruct (B2 _ _ Hin) as (w' & Hs & Hg). assert (w' = w) as -> by congruence. split; auto. now left.
    + destruct (nth_error args i) as [v|] eqn:Ea.
      * destruct (A2 _ _ _ _ Hi Ea) as (w' & Hs & Hg). rewrite <- B3 in Hg by auto.
        assert (w' = w) as -> by congruence. exists v. split; auto. right. auto.
      * rewrite Hnone in Hw by auto. discriminate.
  - intros Hnn v [Hin|[Hni Ha]].
    + destruct (B2 _ _ Hin) as (w' & Hs & Hg). congruence.
    + destruct (A2 _ _ _ _ Hi Ha) as (w' & Hs & Hg). rewrite <- B3 in Hg by auto. congruence.
Qed.

Lemma c10 c args kwargs : NoDup (map fst (pc_attrs c)) -> NoDup (map fst kwargs) ->
  (exists p, construct c args kwargs = Ok p /\ complete c args kwargs p /\
             forall v, considered c args kwargs v -> ~ bad_text v) \/
  (construct c args kwargs = Raise EPacketFormat /\ refused c args kwargs /\
             forall v, considered c args kwargs v -> ~ bad_text v) \/
  (construct c args kwargs = Raise EUnicodeEncode /\ exists v, considered c args kwargs v /\ bad_text v).
Proof.
  intros Hn Hk. unfold construct, considered.
  destruct (init_args_spec args (pc_attrs c) [] Hn) as [(p1 & E1 & A1 & _)|(E1 & v & Hv & Hb)].
  2:{ right; right. rewrite E1. cbn. split; auto. exists v. auto. }
  destruct (init_kwargs_spec kwargs p1 Hk) as [(p2 & E2 & B1 & _)|(E2 & v & Hv & Hb)].
  2:{ right; right. rewrite E1. cbn [bind]. rewrite E2. cbn. split; auto. exists v. auto. }
  rewrite E1. cbn [bind]. rewrite E2. cbn [bind].
  assert (HT : forall v, In v (firstn (length (pc_attrs c)) args) \/ In v (map snd kwargs) -> ~ bad_text v) by (intros v [?|?]; auto).
  pose proof (supplied_get args kwargs (pc_attrs c) p1 p2 Hn Hk E1 E2) as S.
  destruct (init_attrs_spec (pc_attrs c) p2) as [(r & -> & Hl & Hr)|(-> & i & name & t & Hi & H)]; cbn [bind].
  - left. eexists. split; [reflexivity|]. split; auto. split; [reflexivity|]. split; [exact Hl|].
    intros i name t Hi. destruct (Hr _ _ _ Hi) as (w & Hw & Ht & Hni). destruct (S _ _ _ Hi) as [S1 _].
    destruct (S1 w Hw) as (v & Hv & Hs). exists v, w. auto.
  - right; left. split; auto. split; auto. exists i, name, t. split; auto. destruct (S _ _ _ Hi) as [S1 S2].
    destruct H as [H|(w & Hw & Ht)]; [left; auto|right]. destruct (S1 w Hw) as (v & Hv & Hs). exists v, w. auto.
Qed.

Lemma complete_unique c args kwargs p q : NoDup (map fst kwargs) ->
  complete c args kwargs p -> complete c args kwargs q -> p = q.
Proof.
  intros Hk (Hc & Hl & Hp) (Hc' & Hl' & Hq). destruct p as [pc pa], q as [qc qa]. cbn in *. subst. f_equal.
  assert (N : forall i, nth_error pa i = nth_error qa i).
  { intros i. destruct (nth_error (pc_attrs c) i) as [[name t]|] eqn:E.
    - destruct (Hp _ _ _ E) as (v & w & Hv & Hs & _ & ->). destruct (Hq _ _ _ E) as (v' & w' & Hv' & Hs' & _ & ->).
      assert (v = v') as <-; [|now rewrite (stored_fun _ _ _ Hs Hs')].
      destruct Hv as [Hv|[Hv1 Hv2]], Hv' as [Hv'|[Hv1' Hv2']].
      + apply (sget_nodup _ _ _ Hk) in Hv, Hv'. congruence.
      + exfalso. apply Hv1'. apply in_map_iff. now exists (name, v).
      + exfalso. apply Hv1. apply in_map_iff. now exists (name, v').
      + congruence.
    - apply nth_error_None in E. rewrite !(proj2 (nth_error_None _ _)); auto; lia. }
  clear -N. revert qa N. induction pa as [|a pa IH]; intros [|b qa] N; auto.
  - specialize (N 0). discriminate.
  - specialize (N 0). discriminate.
  - pose proof (N 0) as N0. cbn in N0. injection N0 as ->. f_equal. apply IH. intros i. apply (N (S i)).
Qed.

(** ** Registry *)
Definition types_of (cs : list pclass) := map pc_type cs.
Lemma registry_ok : register_all packet_classes [] = Ok registry.
Proof. reflexivity. Qed.
Lemma registry_eq : registry = map (fun c => (pc_type c, c)) packet_classes.
Proof. reflexivity. Qed.

Fixpoint nodup_zb (l : list Z) : bool :=
  match l with [] => true | x :: r => negb (existsb (Z.eqb x) r) && nodup_zb r end.
Lemma nodup_zb_ok l : nodup_zb l = true -> NoDup l.
Proof.
  induction l as [|x l IH]; cbn; [constructor|]. rewrite andb_true_iff, negb_true_iff. intros [H1 H2].
  constructor; auto. intros Hin. assert (existsb (Z.eqb x) l = true); [|congruence].
  apply existsb_exists. exists x. split; auto. apply Z.eqb_refl.
Qed.
Fixpoint nodup_sb (l : list string) : bool :=
  match l with [] => true | x :: r => negb (existsb (String.eqb x) r) && nodup_sb r end.
Lemma nodup_sb_ok l : nodup_sb l = true -> NoDup l.
Proof.
  induction l as [|x l IH]; cbn; [constructor|]. rewrite andb_true_iff, negb_true_iff. intros [H1 H2].
  constructor; auto. intros Hin. assert (existsb (String.eqb x) l = true); [|congruence].
  apply existsb_exists. exists x. split; auto. apply String.eqb_refl.
Qed.

Lemma class_types_nodup : NoDup (map pc_type packet_classes).
Proof. apply nodup_zb_ok. reflexivity. Qed.
Lemma class_names_nodup c : In c packet_classes -> NoDup (map fst (pc_attrs c)).
Proof.
  intros H. apply nodup_sb_ok. revert c H. apply forallb_forall. reflexivity.
Qed.

Lemma zget_none {V} t (d : list (Z * V)) : dict_get Z.eqb t d = None <-> ~ In t (map fst d).
Proof.
  induction d as [|[k v] d IH]; cbn; [tauto|]. destruct (Z.eqb_spec k t) as [->|]; [split; [discriminate|tauto]|].
  rewrite IH. intuition congruence.
Qed.
Lemma registry_get t c : dict_get Z.eqb t registry = Some c <-> In c packet_classes /\ pc_type c = t.
Proof.
  rewrite registry_eq. pose proof class_types_nodup as Hn. induction packet_classes as [|a l IH]; cbn.
  - split; [discriminate|tauto].
  - inversion Hn as [|? ? Hni Hnd]; subst. destruct (Z.eqb_spec (pc_type a) t) as [E|E].
    + split; [intros [= <-]; auto|]. intros [[->|Hin] Ht]; auto. exfalso. apply Hni. rewrite E, <- Ht. now apply in_map.
    + rewrite IH by auto. intuition congruence.
Qed.
Lemma registry_get_none t : dict_get Z.eqb t registry = None <-> ~ exists c, In c packet_classes /\ pc_type c = t.
Proof.
  destruct (dict_get Z.eqb t registry) as [c|] eqn:E.
  - apply registry_get in E. split; [discriminate|]. intros H. exfalso. apply H. now exists c.
  - split; auto. intros _ (c & H). apply registry_get in H. congruence.
Qed.

Lemma c11 t :
  (exists c, In c packet_classes /\ pc_type c = t /\
     (forall c', In c' packet_classes -> pc_type c' = t -> c' = c) /\
     (forall args kwargs, create t args kwargs = construct c args kwargs) /\
     (forall s body, decode s = Ok (VList (VInt t :: body)) -> from_bytes s = from_body c body)) \/
  ((forall c, In c packet_classes -> pc_type c <> t) /\
     (forall args kwargs, create t args kwargs = Raise EValue) /\
     (forall s body, decode s = Ok (VList (VInt t :: body)) -> from_bytes s = Raise EUnknownPacket)).
Proof.
  destruct (dict_get Z.eqb t registry) as [c|] eqn:E.
  - left. exists c. pose proof (proj1 (registry_get t c) E) as [Hin Ht]. repeat split; auto.
    + intros c' Hin' Ht'. assert (dict_get Z.eqb t registry = Some c') by (apply registry_get; auto). congruence.
    + intros. unfold create. now rewrite E.
    + intros s body Hd. unfold from_bytes. now rewrite Hd, E.
  - right. split; [|split].
    + intros c Hin Ht. apply registry_get_none in E. apply E. eauto.
    + intros. unfold create. now rewrite E.
    + intros s body Hd. unfold from_bytes. now rewrite Hd, E.
Qed.

(** ** Decoded values contain no text *)
Inductive parsed : val -> Prop :=
| pa_bytes b : parsed (VBytes b)
| pa_int z : parsed (VInt z)
| pa_none : parsed VNone
| pa_list l : Forall parsed l -> parsed (VList l)
| pa_dict d : Forall (fun p => parsed (fst p) /\ parsed (snd p)) d -> parsed (VDict d).

Lemma dict_set_parsed k v d : parsed k -> parsed v -> Forall (fun p => parsed (fst p) /\ parsed (snd p)) d ->
  Forall (fun p => parsed (fst p) /\ parsed (snd p)) (dict_set key_eqb k v d).
Proof.
  intros Hk Hv. induction 1 as [|[k' v'] d [H1 H2] Hd IH]; cbn; [repeat constructor; auto|].
  destruct (key_eqb k' k); constructor; auto.
Qed.
Lemma dict_of_parsed kv : Forall (fun p => parsed (fst p) /\ parsed (snd p)) kv ->
  Forall (fun p => parsed (fst p) /\ parsed (snd p)) (dict_of key_eqb kv).
Proof.
  intros H. unfold dict_of. assert (G : forall d, Forall (fun p => parsed (fst p) /\ parsed (snd p)) d ->
    Forall (fun p => parsed (fst p) /\ parsed (snd p)) (fold_left (fun d p => dict_set key_eqb (fst p) (snd p) d) kv d)).
  { induction H as [|[k v] kv [H1 H2] Hkv IH]; intros d Hd; cbn; auto. apply IH. now apply dict_set_parsed. }
  apply G. constructor.
Qed.

Lemma decode_parsed s :
  (forall v r, decode_rest s = Ok (v, r) -> parsed v) /\
  (forall acc v r, Forall parsed acc -> dlist s acc = Ok (v, r) -> parsed v) /\
  (forall acc v r, Forall (fun p => parsed (fst p) /\ parsed (snd p)) acc -> ddict s acc = Ok (v, r) -> parsed v).
Proof.
  induction s as [s IH] using length_ind.
  assert (D : forall v r, decode_rest s = Ok (v, r) -> parsed v).
  { intros v r. destruct s as [|c s]; [rewrite decode_rest_nil; discriminate|].
    rewrite !decode_rest_cons. destruct (IH s) as (_ & IHl & IHk); [cbn; lia|].
    destruct (beqb c "e"); [intros [= <- <-]; constructor|].
    destruct (beqb c "i").
    { intros H. apply (dec_number_ext _ _ _ _ []) in H as [_ [z ->]]. constructor. }
    destruct (beqb c "l"); [apply IHl; constructor|].
    destruct (beqb c "d"); [apply IHk; constructor|].
    intros H. apply dec_size_progress in H as [a [-> _]]. constructor. }
  split; [exact D|]. split.
  - intros acc v r Ha. rewrite !dlist_eq.
    destruct (decode_rest s) as [[x s1]|e|] eqn:E; cbn [bind fst snd]; try discriminate.
    pose proof (decode_rest_progress _ _ _ E) as Hp. pose proof (D _ _ eq_refl) as Hw.
    destruct (IH s1 Hp) as (_ & IHl & _).
    destruct x; try (apply IHl; constructor; assumption).
    intros [= <- <-]. constructor. now apply Forall_rev.
  - intros acc v r Ha. rewrite !ddict_eq.
    destruct (decode_rest s) as [[x s1]|e|] eqn:E; cbn [bind fst snd]; try discriminate.
    pose proof (decode_rest_progress _ _ _ E) as Hp. pose proof (D _ _ eq_refl) as Hw.
    assert (G : (y <- decode_rest s1 ;; ddict (snd y) ((x, fst y) :: acc)) = Ok (v, r) -> parsed v).
    { intros H. apply bind_ok in H as [[y s2] [Ey H]]. cbn [fst snd] in H.
      destruct (IH s1 Hp) as (IHd & _ & _). pose proof (IHd _ _ Ey) as Hy.
      pose proof (decode_rest_progress _ _ _ Ey) as Hp2.
      destruct (IH s2) as (_ & _ & IHk); [lia|]. eapply IHk; [|exact H]. constructor; auto. }
    destruct x; try exact G.
    destruct (forallb _ _); [|discriminate]. intros [= <- <-]. constructor.
    apply dict_of_parsed. now apply Forall_rev.
Qed.
Lemma decode_parsed_top s v : decode s = Ok v -> parsed v.
Proof. unfold decode. intros H. apply bind_ok in H as [[x r] [E H]]. injection H as <-. now apply (decode_parsed s) in E. Qed.
Lemma parsed_not_bad v : parsed v -> ~ bad_text v.
Proof. intros H (t & -> & _). inversion H. Qed.

(** ** Outcomes of [from_bytes] *)
Lemma body_params_names attrs body params :
  NoDup (map fst (params ++ combine (map fst attrs) body)) ->
  body_params attrs body params = params ++ combine (map fst attrs) body.
Proof.
  revert body params; induction attrs as [|[n t] attrs IH]; intros [|v body] params H; cbn; try now rewrite app_nil_r.
  cbn in H. rewrite IH.
  - replace (dict_set String.eqb n v params) with (params ++ [(n, v)]); [now rewrite <- app_assoc|].
    assert (Hni : ~ In n (map fst params)).
    { rewrite map_app in H. cbn in H. apply NoDup_remove_2 in H. intros Hin. apply H. apply in_or_app. now left. }
    clear -Hni. induction params as [|[k w] params IH]; cbn; auto. cbn in Hni.
    destruct (String.eqb_spec k n) as [->|]; [tauto|]. rewrite IH; tauto.
  - replace (dict_set String.eqb n v params) with (params ++ [(n, v)]); [now rewrite <- app_assoc|].
    assert (Hni : ~ In n (map fst params)).
    { rewrite map_app in H. cbn in H. apply NoDup_remove_2 in H. intros Hin. apply H. apply in_or_app. now left. }
    clear -Hni. induction params as [|[k w] params IH]; cbn; auto. cbn in Hni.
    destruct (String.eqb_spec k n) as [->|]; [tauto|]. rewrite IH; tauto.
Qed.
Lemma combine_nodup {A} (l : list string) (m : list A) : NoDup l -> NoDup (map fst (combine l m)).
Proof.
  revert m; induction l as [|x l IH]; intros [|y m] H; cbn; try constructor; inversion H; subst; auto.
  intros Hin. apply in_map_iff in Hin as [[a b] [E Hin]]. apply in_combine_l in Hin. cbn in E. subst. auto.
Qed.
Lemma from_body_eq c body : NoDup (map fst (pc_attrs c)) ->
  from_body c body = construct c [] (combine (map fst (pc_attrs c)) body).
Proof. intros H. unfold from_body. rewrite body_params_names; [reflexivity|]. cbn. now apply combine_nodup. Qed.

Lemma from_body_exn c body : NoDup (map fst (pc_attrs c)) -> Forall parsed body ->
  (exists p, from_body c body = Ok p) \/ from_body c body = Raise EPacketFormat.
Proof.
  intros Hn Hb. rewrite from_body_eq by auto.
  destruct (c10 c [] (combine (map fst (pc_attrs c)) body) Hn (combine_nodup _ _ Hn)) as [(p & Hp & _)|[[Hp _]|[_ (v & Hv & Hbad)]]]; eauto.
  exfalso. destruct Hv as [Hv|Hv]; [rewrite firstn_nil in Hv; destruct Hv|].
  apply in_map_iff in Hv as [[k w] [<- Hin]]. apply in_combine_r in Hin. rewrite Forall_forall in Hb.
  eapply parsed_not_bad; eauto.
Qed.


Lemma c12_outcome s :
  (exists p, from_bytes s = Ok p) \/ (exists e, from_bytes s = Raise e /\ packet_error e) \/
  (exists e, from_bytes s = Raise e /\ decode s = Raise e /\ (e = EValue \/ e = EType \/ e = EOverflow)) \/
  (from_bytes s = Raise EIndex /\ decode s = Ok (VList [])) \/
  (from_bytes s = Hang /\ stuck s).
Proof.
  unfold from_bytes. destruct (decode s) as [v|e|] eqn:E.
  - pose proof (decode_parsed_top _ _ E) as Hp.
    destruct v as [| | | | | |l| |]; try (right; left; eexists; split; [reflexivity|now left]).
    destruct l as [|v body]; [auto 6|].
    inversion Hp as [| | |? Hl|]; subst. inversion Hl as [|? ? _ Hb]; subst.
    destruct v; try (right; left; eexists; split; [reflexivity|now left]).
    destruct (dict_get Z.eqb z registry) as [c|] eqn:Ec.
    + apply registry_get in Ec as [Hin _].
      destruct (from_body_exn c body (class_names_nodup c Hin) Hb) as [H|H]; [left; exact H|].
      right; left. eexists; split; [exact H|now left].
    + right; left. eexists; split; [reflexivity|now right].
  - destruct (c06_exns _ _ E) as [->|[->|[->| ->]]].
    + right; left. eexists; split; [reflexivity|now left].
    + right; right; left. eexists; repeat split; auto.
    + right; right; left. eexists; repeat split; auto.
    + right; right; left. eexists; repeat split; auto.
  - right; right; right; right. split; auto. now apply decode_stuck.
Qed.

(** ** Round trip *)
Lemma get_attrs_full p : NoDup (map fst (pk_attrs p)) ->
  forall attrs, (forall i name t, nth_error attrs i = Some (name, t) -> exists w, In (name, w) (pk_attrs p)) ->
  exists vs, get_attrs p attrs = Ok vs /\ Forall2 (fun a v => In (fst a, v) (pk_attrs p)) attrs vs.
Proof.
  intros Hn. induction attrs as [|[name t] attrs IH]; intros H; cbn.
  - exists []. auto.
  - destruct (H 0 name t eq_refl) as [w Hw]. unfold get_attr. rewrite (sget_nodup _ _ _ Hn Hw). cbn.
    destruct IH as (vs & -> & HF). { intros i n t' Hi. apply (H (S i) n t' Hi). }
    cbn. exists (w :: vs). split; auto.
Qed.

(** A packet whose attributes are exactly the declared ones, with their types. *)
Definition well_formed (p : packet) : Prop :=
  length (pk_attrs p) = length (pc_attrs (pk_class p)) /\
  forall i name t, nth_error (pc_attrs (pk_class p)) i = Some (name, t) ->
    exists w, typed w t /\ nth_error (pk_attrs p) i = Some (name, w).
Lemma complete_wf c args kwargs p : complete c args kwargs p -> well_formed p.
Proof.
  intros (Hc & Hl & H). split; [congruence|]. rewrite Hc. intros i name t Hi.
  destruct (H _ _ _ Hi) as (v & w & _ & _ & Ht & Hw). eauto.
Qed.
Lemma wf_names p : well_formed p -> map fst (pk_attrs p) = map fst (pc_attrs (pk_class p)).
Proof.
  intros [Hl H]. revert Hl H. generalize (pk_attrs p), (pc_attrs (pk_class p)). intros l m.
  revert m; induction l as [|[n v] l IH]; intros [|[n' t] m] Hl H; cbn in *; try discriminate; auto.
  destruct (H 0 n' t eq_refl) as (w & _ & E). cbn in E. injection E as -> _. f_equal. apply IH; [lia|].
  intros i name t' Hi. apply (H (S i) name t' Hi).
Qed.
Lemma get_attrs_wf p : well_formed p -> NoDup (map fst (pc_attrs (pk_class p))) ->
  get_attrs p (pc_attrs (pk_class p)) = Ok (map snd (pk_attrs p)).
Proof.
  intros Hw Hn. pose proof (wf_names p Hw) as Hnames.
  assert (Hn' : NoDup (map fst (pk_attrs p))) by congruence.
  assert (G : forall l m, map fst l = map fst m -> (forall x, In x l -> In x (pk_attrs p)) ->
     get_attrs p m = Ok (map snd l)).
  { induction l as [|[n v] l IH]; intros [|[n' t] m] Hf Hin; cbn in *; try discriminate; auto.
    injection Hf as <- Hf. unfold get_attr. rewrite (sget_nodup n v) by auto. cbn. rewrite (IH m) by auto. reflexivity. }
  apply G; auto.
Qed.

Lemma typed_same v w t : typed v t -> same_data v w -> Wire w -> typed w t \/ exists b, v = VBool b.
Proof.
  intros Ht Hs Hw. inversion Ht; subst; inversion Hs as [? ? ? H1 H2| |? ? ? ? H1 H2|]; subst; try (inversion H1; fail); eauto; try (left; constructor; fail).
  - left. inversion Hw; subst; inversion H2; constructor.
  - left. inversion Hw; subst; inversion H2; constructor.
Qed.

Lemma same_data_list v l : same_data (VList l) v -> Wire v -> exists m, v = VList m /\ Forall2 same_data l m.
Proof.
  intros H Hw. inversion H as [? ? ? H1 H2| |? ? ? ? H1 H2 HF|]; subst; [inversion H1|].
  inversion H1; subst. inversion H2; subst; eauto. inversion Hw.
Qed.
Lemma same_data_int z v : same_data (VInt z) v -> v = VInt z.
Proof. intros H. inversion H as [? ? ? H1 H2| |? ? ? ? H1 H2 HF|]; subst; auto; inversion H1. Qed.
Lemma same_data_not_bool v w : same_data v w -> forall b, v <> VBool b.
Proof. intros H b ->. inversion H as [? ? ? H1 H2| |? ? ? ? H1 H2 HF|]; subst; inversion H1. Qed.
Lemma Wire_not_text v : Wire v -> forall t, v <> VText t.
Proof. intros H t ->. inversion H. Qed.

Lemma Forall2_len {A C} (R : A -> C -> Prop) l m : Forall2 R l m -> length l = length m.
Proof. induction 1; cbn; congruence. Qed.

Lemma c09 p b : In (pk_class p) packet_classes -> well_formed p -> Forall (fun a => py_object (snd a)) (pk_attrs p) ->
  as_bytes p = Ok b -> exists q, from_bytes b = Ok q /\ same_packet p q.
Proof.
  intros Hc Hw Hpo Hb. pose proof (class_names_nodup _ Hc) as Hn.
  unfold as_bytes, packet_encode in Hb. rewrite get_attrs_wf in Hb by auto. cbn [bind] in Hb.
  set (v := VList _) in Hb.
  assert (Hpv : py_object v).
  { constructor. constructor; [constructor|]. rewrite Forall_map. exact Hpo. }
  destruct (encode_ok v b Hpv Hb) as (He & _). destruct (c01 v Hpv He) as (b' & w & Eb' & Ed & Hs & Hwire).
  assert (b' = b) as -> by congruence.
  destruct (same_data_list _ _ Hs Hwire) as (m & -> & HF).
  inversion HF as [|? x ? m' Hx HF']; subst. apply same_data_int in Hx. subst x.
  unfold from_bytes. rewrite Ed.
  assert (Eg : dict_get Z.eqb (pc_type (pk_class p)) registry = Some (pk_class p)) by (apply registry_get; auto).
  rewrite Eg. rewrite from_body_eq by auto.
  pose proof (wf_names p Hw) as Hnames.
  set (kw := combine (map fst (pc_attrs (pk_class p))) m').
  assert (Hlen : length m' = length (pc_attrs (pk_class p))).
  { apply Forall2_len in HF'. rewrite map_length in HF'. destruct Hw as [Hl _]. lia. }
  inversion Hwire as [| |? Hwl|]; subst. inversion Hwl as [|? ? _ Hwm]; subst.
  assert (Hnth : forall i name t, nth_error (pc_attrs (pk_class p)) i = Some (name, t) ->
     exists v w, nth_error (pk_attrs p) i = Some (name, v) /\ nth_error m' i = Some w /\ same_data v w /\ Wire w /\ typed w t /\ In (name, w) kw).
  { intros i name t Hi. destruct Hw as [Hl Hw]. destruct (Hw _ _ _ Hi) as (u & Ht & Hu).
    assert (Hm : i < length m') by (rewrite Hlen; apply nth_error_Some; congruence).
    destruct (nth_error m' i) as [w|] eqn:Em; [|apply nth_error_None in Em; lia].
    assert (same_data u w).
    { clear -HF' Hu Em. remember (map snd (pk_attrs p)) as l. assert (nth_error l i = Some u) by (subst l; rewrite nth_error_map, Hu; reflexivity).
      clear -HF' H Em. revert i H Em. induction HF'; intros [|i]; cbn; try discriminate; eauto. intros [= ->] [= ->]. auto. }
    assert (Wire w) by (rewrite Forall_forall in Hwm; apply Hwm; eapply nth_error_In; eauto).
    exists u, w. repeat split; auto.
    - destruct (typed_same u w t) as [?|[b0 ->]]; auto. exfalso. eapply same_data_not_bool; eauto.
    - unfold kw. clear -Hi Em. assert (Hn : nth_error (map fst (pc_attrs (pk_class p))) i = Some name) by (rewrite nth_error_map, Hi; reflexivity).
      revert m' Em. revert i Hn Hi. generalize (pc_attrs (pk_class p)). intros l.
      induction l as [|[a s] l IH]; intros [|i] Hn Hi [|x m'] Em; cbn in *; try discriminate.
      + left. congruence.
      + right. eapply IH; eauto. }
  destruct (c10 (pk_class p) [] kw Hn (combine_nodup _ _ Hn)) as [(q & Hq & Hcomp & _)|[(_ & (i & name & t & Hi & Hr) & _)|(_ & x & Hx & Hbad)]].
  - exists q. split; auto. destruct Hcomp as (Hqc & Hql & Hqa). split; [auto|].
    destruct Hw as [Hpl Hw].
    assert (G : forall i a, nth_error (pk_attrs p) i = Some a -> exists b0, nth_error (pk_attrs q) i = Some b0 /\ fst a = fst b0 /\ same_data (snd a) (snd b0)).
    { intros i [n u] Hi. assert (Hi' : i < length (pc_attrs (pk_class p))) by (rewrite <- Hpl; apply nth_error_Some; congruence).
      destruct (nth_error (pc_attrs (pk_class p)) i) as [[name t]|] eqn:Ea; [|apply nth_error_None in Ea; lia].
      destruct (Hnth _ _ _ Ea) as (v1 & w1 & H1 & H2 & H3 & H4 & H5 & H6).
      destruct (Hqa _ _ _ Ea) as (v2 & w2 & S1 & S2 & S3 & S4).
      assert (n = name /\ u = v1) as [-> ->] by (split; congruence).
      exists (name, w2). repeat split; auto. cbn.
      destruct S1 as [S1|[_ S1]]; [|destruct i; discriminate].
      apply (sget_nodup _ _ _ (combine_nodup _ _ Hn)) in S1, H6. assert (v2 = w1) as -> by congruence.
      inversion S2; subst; auto. exfalso. eapply Wire_not_text; eauto. }
    assert (Hlq : length (pk_attrs p) = length (pk_attrs q)) by congruence.
    clear -G Hlq. revert G Hlq. generalize (pk_attrs p), (pk_attrs q). intros l. induction l as [|a l IH]; intros [|b m] G Hl; cbn in *; try discriminate; auto.
    constructor.
    + destruct (G 0 a eq_refl) as (b0 & E & H). cbn in E. injection E as ->. exact H.
    + apply IH; [|lia]. intros i x Hi. apply (G (S i) x Hi).
  - exfalso. destruct (Hnth _ _ _ Hi) as (v1 & w1 & H1 & H2 & H3 & H4 & H5 & H6).
    destruct Hr as [Hr|(v2 & w2 & S1 & S2 & S3)]; [eapply Hr; left; exact H6|].
    destruct S1 as [S1|[_ S1]]; [|destruct i; discriminate].
    apply (sget_nodup _ _ _ (combine_nodup _ _ Hn)) in S1, H6. assert (v2 = w1) as -> by congruence.
    apply S3. inversion S2; subst; auto. exfalso. eapply Wire_not_text; eauto.
  - exfalso. destruct Hx as [Hx|Hx]; [rewrite firstn_nil in Hx; destruct Hx|].
    apply in_map_iff in Hx as [[k y] [<- Hin]]. apply in_combine_r in Hin. rewrite Forall_forall in Hwm.
    destruct Hbad as (t & E & _). eapply Wire_not_text; [apply Hwm; exact Hin|exact E].
Qed.

(** ** Repr *)
Lemma summarize_alike repr name v w : alike name v w -> summarize repr name v = summarize repr name w.
Proof.
  unfold summarize. intros [->|[->|(a & b & -> & -> & H1 & H2 & H3)]]; auto.
  destruct (String.eqb name "password"); auto.
  rewrite H2, H3 in *. apply Nat.ltb_lt in H1. now rewrite H1.
Qed.

Definition rel_attr (a b : string * val) : Prop := fst a = fst b /\ alike (fst a) (snd a) (snd b).
Lemma insert_name_rel x y l m : rel_attr x y -> Forall2 rel_attr l m -> Forall2 rel_attr (insert_name x l) (insert_name y m).
Proof.
  intros Hxy. induction 1 as [|a b l m Hab Hlm IH]; cbn; [constructor; [exact Hxy|constructor]|].
  pose proof (proj1 Hxy) as E1. pose proof (proj1 Hab) as E2. rewrite <- E1, <- E2.
  destruct (String.ltb _ _); constructor; auto.
Qed.
Lemma sort_names_rel l m : Forall2 rel_attr l m -> Forall2 rel_attr (sort_names l) (sort_names m).
Proof. induction 1; cbn; [constructor|]. now apply insert_name_rel. Qed.
Lemma get_rel name l m : Forall2 rel_attr l m ->
  match dict_get String.eqb name l, dict_get String.eqb name m with
  | Some v, Some w => alike name v w | None, None => True | _, _ => False end.
Proof.
  induction 1 as [|[a v] [b w] l m [E A] H IH]; cbn; auto. cbn in E, A. subst b.
  destruct (String.eqb_spec a name) as [->|]; auto.
Qed.
Lemma repr_data_rel attrs l m : Forall2 rel_attr l m -> Forall2 rel_attr (repr_data attrs l) (repr_data attrs m).
Proof.
  intros H. induction attrs as [|[n t] attrs IH]; cbn; [constructor|].
  pose proof (get_rel n _ _ H) as G. destruct (dict_get String.eqb n l), (dict_get String.eqb n m); try tauto.
  constructor; auto. split; auto.
Qed.
Lemma c16 repr p q : pk_class p = pk_class q ->
  Forall2 (fun a b => fst a = fst b /\ alike (fst a) (snd a) (snd b)) (pk_attrs p) (pk_attrs q) ->
  packet_repr repr p = packet_repr repr q.
Proof.
  intros Hc H. unfold packet_repr. rewrite <- Hc.
  pose proof (sort_names_rel _ _ (repr_data_rel (pc_attrs (pk_class p)) _ _ H)) as G.
  assert (E : map (fun kv => T (fst kv) ++ T "=" ++ summarize repr (fst kv) (snd kv))
                (sort_names (repr_data (pc_attrs (pk_class p)) (pk_attrs p)))
            = map (fun kv => T (fst kv) ++ T "=" ++ summarize repr (fst kv) (snd kv))
                (sort_names (repr_data (pc_attrs (pk_class p)) (pk_attrs q)))).
  { induction G as [|[a v] [b w] l m [E A] G IH]; cbn [map]; auto. cbn [fst snd] in *. subst b.
    rewrite (summarize_alike _ _ _ _ A). now rewrite IH. }
  now rewrite E.
Qed.

Lemma c09_full c args kwargs p b : In c packet_classes -> NoDup (map fst kwargs) ->
  construct c args kwargs = Ok p -> Forall (fun a => py_object (snd a)) (pk_attrs p) -> as_bytes p = Ok b ->
  exists q, from_bytes b = Ok q /\ same_packet p q.
Proof.
  intros Hc Hk Hp Hpo Hb. destruct (c10 c args kwargs (class_names_nodup c Hc) Hk) as [(q & Hq & Hcomp & _)|[[Hq _]|[Hq _]]]; try congruence.
  assert (q = p) as -> by congruence. apply c09; auto; [|eapply complete_wf; eauto].
  destruct Hcomp as [-> _]. exact Hc.
Qed.
Lemma c10_full c args kwargs : In c packet_classes -> NoDup (map fst kwargs) ->
  (exists p, construct c args kwargs = Ok p /\ complete c args kwargs p /\
             (forall q, complete c args kwargs q -> q = p) /\
             forall v, considered c args kwargs v -> ~ bad_text v) \/
  (construct c args kwargs = Raise EPacketFormat /\ refused c args kwargs /\
             forall v, considered c args kwargs v -> ~ bad_text v) \/
  (construct c args kwargs = Raise EUnicodeEncode /\ exists v, considered c args kwargs v /\ bad_text v).
Proof.
  intros Hc Hk. destruct (c10 c args kwargs (class_names_nodup c Hc) Hk) as [(q & Hq & Hcomp & H)|[H|H]]; auto.
  left. exists q. repeat split; auto; try apply Hcomp. intros q' Hq'. eapply complete_unique; eauto.
Qed.
