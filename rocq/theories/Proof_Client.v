From Verif Require Import Py Py_lemmas Dict_lemmas Model_Bencode Spec_Bencode Proof_Bencode Model_Packets
  Spec_Packets Proof_Packets Model_Client Spec_Client.

(** ** No hidden hangs *)
Lemma coerce_no_hang v : coerce v <> Hang.
Proof. destruct (coerce_cases v) as [(w & -> & _)|(-> & _)]; discriminate. Qed.
Lemma bind_no_hang {A C} (r : res A) (k : A -> res C) : r <> Hang -> (forall x, k x <> Hang) -> bind r k <> Hang.
Proof. destruct r; cbn; congruence || auto. Qed.
Lemma init_args_no_hang args : forall attrs ps, init_args args attrs ps <> Hang.
Proof. induction args as [|a args IH]; intros [|[n t] attrs] ps; cbn; try discriminate. apply bind_no_hang; auto using coerce_no_hang. Qed.
Lemma init_kwargs_no_hang kw : forall ps, init_kwargs kw ps <> Hang.
Proof. induction kw as [|[k a] kw IH]; intros ps; cbn; try discriminate. apply bind_no_hang; auto using coerce_no_hang. Qed.
Lemma init_attrs_no_hang attrs ps : init_attrs attrs ps <> Hang.
Proof.
  induction attrs as [|[n t] attrs IH]; cbn; try discriminate.
  destruct (dict_get _ _ _) as [v|]; [|discriminate]. destruct (isinstance v t); [|discriminate]. apply bind_no_hang; auto. discriminate.
Qed.
Lemma construct_no_hang c args kw : construct c args kw <> Hang.
Proof.
  unfold construct. apply bind_no_hang; [apply init_args_no_hang|]. intros. apply bind_no_hang; [apply init_kwargs_no_hang|].
  intros. apply bind_no_hang; [apply init_attrs_no_hang|]. discriminate.
Qed.
Lemma create_no_hang t args kw : create t args kw <> Hang.
Proof. unfold create. destruct (dict_get _ _ _); [apply construct_no_hang|discriminate]. Qed.
Lemma create_named_no_hang n args kw : create_named n args kw <> Hang.
Proof. unfold create_named. destruct (type_of_name n); [apply create_no_hang|discriminate]. Qed.

(** Encoder output, valid or not, never makes the decoder hang. *)
Definition settles (b : bytes) : Prop := forall t,
  (exists w, w <> VNone /\ decode_rest (b ++ t) = Ok (w, t)) \/ (exists e, decode_rest (b ++ t) = Raise e).
Lemma settles_bytes b : settles (enc_bytes b).
Proof.
  intros t. destruct (Z.ltb_spec (Z.of_nat (length b)) (2 ^ 63)) as [H|H].
  - left. eexists. split; [|now apply decode_enc_bytes]. discriminate.
  - right. exists EOverflow. unfold enc_bytes.
    destruct (bytes_of_nat_cons (Z.of_nat (length b))) as (c & r & E & Hd); [lia|].
    pose proof (int_of_bytes_of_int (Z.of_nat (length b))) as Hi. rewrite E in *.
    cbn [app]. rewrite decode_rest_cons. inversion Hd as [|? ? Hc Hr]; subst.
    rewrite !(digit_byte_neq c) by (auto; reflexivity).
    rewrite <- !app_assoc. cbn [app]. rewrite dsize_run.
    + cbn [app]. rewrite Hi. unfold py_read. replace ((_ <? _) || _)%Z with true by lia. reflexivity.
    + rewrite Forall_forall in Hr. intros Hin. apply Hr in Hin. discriminate.
Qed.
Lemma settles_list l : forall b acc t, Forall (fun v => forall b, add_encode v = Ok b -> settles b) l ->
  join_res (map add_encode l) = Ok b ->
  (exists w, w <> VNone /\ dlist (b ++ B "e" ++ t) acc = Ok (w, t)) \/ (exists e, dlist (b ++ B "e" ++ t) acc = Raise e).
Proof.
  induction l as [|v l IH]; cbn [map join_res]; intros b acc t HF Hj.
  - injection Hj as <-. left. eexists. split; [|cbn [app B]; rewrite dlist_eq; cbn; reflexivity]. discriminate.
  - apply bind_ok in Hj as [x [Ex Hj]]. apply bind_ok in Hj as [y [Ey Hj]]. injection Hj as <-.
    inversion HF as [|? ? Hv Hl]; subst. rewrite <- app_assoc, dlist_eq.
    destruct (Hv x Ex (y ++ B "e" ++ t)) as [(w & Hw & ->)|(e & ->)]; cbn [bind fst snd]; [|eauto].
    destruct w; try congruence; now apply IH.
Qed.
Lemma settles_dict (l : list (bytes * res bytes)) : forall b acc t, Forall (fun p => forall b, snd p = Ok b -> settles b) l ->
  join_res (map enc_item l) = Ok b ->
  (exists w, w <> VNone /\ ddict (b ++ B "e" ++ t) acc = Ok (w, t)) \/ (exists e, ddict (b ++ B "e" ++ t) acc = Raise e).
Proof.
  induction l as [|[k v] l IH]; cbn [map join_res]; intros b acc t HF Hj.
  - injection Hj as <-. change ([] ++ B "e" ++ t) with ("e"%byte :: t). rewrite ddict_eq, decode_rest_cons.
    change (beqb "e" "e") with true. cbn [bind fst snd]. destruct (forallb _ _); [left|right; eauto]. eexists. split; [|reflexivity]. discriminate.
  - apply bind_ok in Hj as [x [Ex Hj]]. apply bind_ok in Hj as [y [Ey Hj]]. injection Hj as <-.
    unfold enc_item in Ex. cbn [fst snd] in Ex. apply bind_ok in Ex as [z [Ez Ex]]. injection Ex as <-.
    inversion HF as [|? ? Hv Hl]; subst. rewrite <- !app_assoc, ddict_eq.
    destruct (settles_bytes k (z ++ y ++ B "e" ++ t)) as [(w & Hw & ->)|(e & ->)]; cbn [bind fst snd]; [|eauto].
    destruct (Hv z eq_refl (y ++ B "e" ++ t)) as [(w' & Hw' & ->)|(e & ->)]; cbn [bind fst snd];
      destruct w; try congruence; eauto; now apply IH.
Qed.
Lemma bytes_keys_snd (l : list (val * res bytes)) : forall items, bytes_keys l = Some items -> map snd items = map snd l.
Proof.
  induction l as [|[k v] l IH]; cbn; [intros items [= <-]; reflexivity|]. destruct k; try discriminate.
  intros items. destruct (bytes_keys l); [|discriminate]. intros [= <-]. cbn. now rewrite IH.
Qed.
Lemma enc_settles v : forall b, add_encode v = Ok b -> settles b.
Proof.
  induction v as [b0|t0|z|b0| |n|l IH|l IH|d IH] using val_ind'; cbn [add_encode]; intros b; try discriminate.
  - intros [= <-]. apply settles_bytes.
  - destruct (utf8_encode t0); [intros [= <-]; apply settles_bytes|discriminate].
  - intros [= <-] t. left. eexists. split; [|apply decode_enc_int]. discriminate.
  - intros H t. right. destruct b0; injection H as <-; eexists; reflexivity.
  - intros H. apply bind_ok in H as [x [Ex H]]. injection H as <-. intros t.
    change (B "l") with ["l"%byte]. cbn [app]. rewrite decode_rest_cons. change (beqb "l" "e") with false.
    change (beqb "l" "i") with false. change (beqb "l" "l") with true. cbn match. rewrite <- app_assoc. apply (settles_list l x [] t); auto.
  - intros H. apply bind_ok in H as [x [Ex H]]. injection H as <-. intros t.
    change (B "l") with ["l"%byte]. cbn [app]. rewrite decode_rest_cons. change (beqb "l" "e") with false.
    change (beqb "l" "i") with false. change (beqb "l" "l") with true. cbn match. rewrite <- app_assoc. apply (settles_list l x [] t); auto.
  - destruct (bytes_keys _) as [items|] eqn:Ek; [|discriminate].
    intros H. apply bind_ok in H as [x [Ex H]]. injection H as <-. intros t.
    change (B "d") with ["d"%byte]. cbn [app]. rewrite decode_rest_cons. change (beqb "d" "e") with false.
    change (beqb "d" "i") with false. change (beqb "d" "l") with false. change (beqb "d" "d") with true. cbn match. rewrite <- app_assoc.
    apply (settles_dict (sort_keys items)); [|exact Ex].
    assert (G : Forall (fun p : bytes * res bytes => forall b, snd p = Ok b -> settles b) items).
    { apply bytes_keys_snd in Ek. rewrite map_map in Ek. cbn in Ek. clear -IH Ek.
      revert items Ek. induction IH as [|[k v] d [_ Hv] Hd IHd]; intros [|[k' r] items] E; cbn in *; try discriminate; constructor.
      - cbn. injection E as -> _. exact Hv.
      - injection E as _ E. auto. }
    eapply Permutation.Permutation_Forall; [apply Permutation.Permutation_sym, sort_keys_perm|exact G].
Qed.
Lemma encode_no_hang v : encode v <> Hang.
Proof.
  unfold encode. destruct (add_encode v) as [b|e|] eqn:E; cbn [bind]; try discriminate.
  - unfold decode. destruct (enc_settles v b E []) as [(w & Hw & H)|(e & H)]; rewrite app_nil_r in H; rewrite H; cbn; [|discriminate].
    destruct w; discriminate.
  - exfalso. revert E. clear. enough (H : forall v, add_encode v <> Hang) by exact (H v).
    assert (J : forall l, (forall r, In r l -> r <> @Hang bytes) -> join_res l <> Hang).
    { induction l as [|r l IH]; cbn; intros H; [discriminate|]. apply bind_no_hang; [apply H; auto|].
      intros. apply bind_no_hang; [apply IH; auto|]. discriminate. }
    intros w. induction w as [b0|t0|z|b0| |n|l IH|l IH|d IH] using val_ind'; cbn [add_encode]; try discriminate.
    + destruct (utf8_encode t0); discriminate.
    + destruct b0; discriminate.
    + apply bind_no_hang; [|discriminate]. apply J. intros r Hr. apply in_map_iff in Hr as [x [<- Hx]]. rewrite Forall_forall in IH. auto.
    + apply bind_no_hang; [|discriminate]. apply J. intros r Hr. apply in_map_iff in Hr as [x [<- Hx]]. rewrite Forall_forall in IH. auto.
    + destruct (bytes_keys _) as [items|] eqn:Ek; [|discriminate]. apply bind_no_hang; [|discriminate]. apply J.
      intros r Hr. apply in_map_iff in Hr as [[k x] [<- Hx]]. unfold enc_item. cbn. apply bind_no_hang; [|discriminate].
      apply (Permutation.Permutation_in _ (sort_keys_perm items)) in Hx. apply bytes_keys_snd in Ek. rewrite map_map in Ek. cbn in Ek.
      apply (in_map snd) in Hx. rewrite Ek in Hx. cbn in Hx. apply in_map_iff in Hx as [[k' v'] [<- Hx]].
      rewrite Forall_forall in IH. apply (IH _ Hx).
Qed.
Lemma get_attrs_no_hang p attrs : get_attrs p attrs <> Hang.
Proof.
  induction attrs as [|[n t] attrs IH]; cbn; [discriminate|]. apply bind_no_hang; [unfold get_attr; destruct (dict_get _ _ _); discriminate|].
  intros. apply bind_no_hang; auto. discriminate.
Qed.
Lemma as_bytes_no_hang p : as_bytes p <> Hang.
Proof. unfold as_bytes, packet_encode. apply bind_no_hang; [apply bind_no_hang; [apply get_attrs_no_hang|discriminate]|]. intros; apply encode_no_hang. Qed.

(** ** Dispatch (C13) *)
Definition atype_eqb (a b : atype) : bool :=
  match a, b with ABytes, ABytes | AInt, AInt | ADict, ADict | AList, AList => true | _, _ => false end.
Lemma atype_eqb_eq a b : atype_eqb a b = true -> a = b.
Proof. destruct a, b; cbn; congruence. Qed.
Lemma handler_sig c h : In c packet_classes -> dict_get Z.eqb (pc_type c) handlers = Some h ->
  map snd (pc_attrs c) = handler_types h /\ length (h_params h) = length (pc_attrs c).
Proof.
  intros Hc Hh.
  assert (G : forallb (fun c => match dict_get Z.eqb (pc_type c) handlers with
     | None => true
     | Some h => list_eqb atype_eqb (map snd (pc_attrs c)) (handler_types h) && (length (h_params h) =? length (pc_attrs c))
     end) packet_classes = true) by (vm_compute; reflexivity).
  rewrite forallb_forall in G. specialize (G c Hc). rewrite Hh in G. apply andb_true_iff in G as [G1 G2].
  split; [|now apply Nat.eqb_eq]. revert G1. generalize (map snd (pc_attrs c)), (handler_types h).
  intros l; induction l as [|x l IH]; intros [|y m]; cbn; try discriminate; auto.
  rewrite andb_true_iff. intros [H1 H2]. f_equal; auto using atype_eqb_eq.
Qed.

Lemma create_ok t args kw p : NoDup (map fst kw) -> create t args kw = Ok p ->
  In (pk_class p) packet_classes /\ pc_type (pk_class p) = t /\ well_formed p /\ construct (pk_class p) args kw = Ok p.
Proof.
  intros Hk. unfold create. destruct (dict_get Z.eqb t registry) as [c|] eqn:E; [|discriminate]. intros H.
  apply registry_get in E as [Hc Ht].
  destruct (c10 c args kw (class_names_nodup c Hc) Hk) as [(q & Hq & Hcomp & _)|[[Hq _]|[Hq _]]]; try congruence.
  assert (q = p) as -> by congruence. pose proof (proj1 Hcomp) as ->. repeat split; auto; eapply complete_wf in Hcomp; apply Hcomp.
Qed.
Lemma wf_typed p : well_formed p -> Forall2 typed (map snd (pk_attrs p)) (map snd (pc_attrs (pk_class p))).
Proof.
  intros [Hl H]. revert Hl H. generalize (pk_attrs p), (pc_attrs (pk_class p)). intros l.
  induction l as [|[n v] l IH]; intros [|[n' t] m] Hl H; cbn in *; try discriminate; constructor.
  - destruct (H 0 n' t eq_refl) as (w & Ht & E). cbn in E. congruence.
  - apply IH; [lia|]. intros i. apply (H (S i)).
Qed.
Lemma method_args_all p n : In (pk_class p) packet_classes -> well_formed p -> length (pc_attrs (pk_class p)) <= n ->
  method_args p n = Ok (map snd (pk_attrs p), []).
Proof.
  intros Hc Hw Hn. unfold method_args. rewrite get_attrs_wf by auto using class_names_nodup. cbn [bind].
  pose proof Hw as [Hl _]. rewrite firstn_all2 by (rewrite map_length; lia).
  rewrite skipn_all2; auto. rewrite combine_length, !map_length. lia.
Qed.
Lemma bind_args_all params args : length params = length args -> bind_args params args [] = Some args.
Proof. intros H. unfold bind_args. rewrite H, Nat.ltb_irrefl, <- H, skipn_all. cbn. now rewrite app_nil_r. Qed.

Lemma resolve_ok t body p : create t body [] = Ok p ->
  resolve t body = Ok (option_map (fun h => (h, map snd (pk_attrs p))) (dict_get Z.eqb t handlers)).
Proof.
  intros H. destruct (create_ok t body [] p) as (Hc & Ht & Hw & _); [constructor|auto|].
  unfold resolve. rewrite H. cbn [bind]. rewrite Ht.
  destruct (dict_get Z.eqb t handlers) as [h|] eqn:E; cbn [option_map]; auto.
  rewrite <- Ht in E. destruct (handler_sig _ _ Hc E) as [_ Hp]. destruct Hw as [Hl Hw'].
  rewrite method_args_all; [|auto|split; auto|lia]. cbn [bind fst snd].
  rewrite bind_args_all; auto. rewrite map_length. congruence.
Qed.
Lemma resolve_fail t body : (forall p, create t body [] <> Ok p) -> exists e, resolve t body = Raise e.
Proof.
  intros H. unfold resolve. destruct (create t body []) as [p|e|] eqn:E; [destruct (H p eq_refl)|cbn; eauto|].
  exfalso. eapply create_no_hang; eauto.
Qed.
Lemma resolve_no_hang t body : resolve t body <> Hang.
Proof.
  destruct (create t body []) as [p|e|] eqn:E.
  - rewrite (resolve_ok _ _ _ E). discriminate.
  - unfold resolve. rewrite E. discriminate.
  - exfalso. eapply create_no_hang; eauto.
Qed.
Lemma handlers_table t : dict_get Z.eqb t handlers = dict_get Z.eqb t handler_table.
Proof.
  assert (G : forall (d e : list (Z * handler)), NoDup (map fst d) -> NoDup (map fst e) ->
    (forall x, In x d <-> In x e) -> dict_get Z.eqb t d = dict_get Z.eqb t e).
  { intros d e Hd He H. destruct (dict_get Z.eqb t d) as [h|] eqn:E.
    - apply get_in in E; [|apply Z.eqb_spec]. symmetry. apply get_nodup; auto; [apply Z.eqb_spec|]. now apply H.
    - symmetry. apply get_none; [apply Z.eqb_spec|]. apply get_none in E; [|apply Z.eqb_spec].
      intros Hin. apply E. apply in_map_iff in Hin as [[a b] [Ea Hin]]. cbn in Ea. subst. apply H in Hin.
      apply in_map_iff. now exists (t, b). }
  apply G.
  - apply nodup_zb_ok. reflexivity.
  - apply nodup_zb_ok. reflexivity.
  - assert (Hp : Permutation.Permutation handlers handler_table).
    { vm_compute. apply Permutation.Permutation_sym.
      repeat match goal with
      | |- Permutation.Permutation (?a :: ?l) ?m =>
          let rec find pre m := match m with
            | a :: ?post => apply (Permutation.Permutation_cons_app pre post a)
            | ?b :: ?post => let pre' := eval cbn in (pre ++ [b]) in find pre' post
            end in find (@nil (Z * handler)) m; cbn [app]
      end. constructor. }
    intros x. split; apply Permutation.Permutation_in; [exact Hp|apply Permutation.Permutation_sym, Hp].
Qed.

Lemma c13 t body p : create t body [] = Ok p ->
  (forall h, In (t, h) handler_table ->
     resolve t body = Ok (Some (h, map snd (pk_attrs p))) /\ Forall2 typed (map snd (pk_attrs p)) (handler_types h)) /\
  (~ In t (map fst handler_table) -> resolve t body = Ok None).
Proof.
  intros H. rewrite (resolve_ok _ _ _ H), handlers_table. split.
  - intros h Hh. assert (E : dict_get Z.eqb t handler_table = Some h).
    { apply get_nodup; [apply Z.eqb_spec|apply nodup_zb_ok; reflexivity|exact Hh]. }
    rewrite E. split; auto. destruct (create_ok t body [] p) as (Hc & Ht & Hw & _); [constructor|auto|].
    rewrite <- handlers_table, <- Ht in E. destruct (handler_sig _ _ Hc E) as [<- _]. now apply wf_typed.
  - intros Hn. assert (E : dict_get Z.eqb t handler_table = None) by (apply get_none; [apply Z.eqb_spec|auto]). now rewrite E.
Qed.

(** ** What a message means to the client *)
Definition meaning (m : bytes) : option (handler * list val) :=
  match decode m with
  | Ok v => match split_packet v with
            | Some (t, body) => match resolve t body with Ok x => x | _ => None end
            | None => None
            end
  | _ => None
  end.
Lemma is_packet_type_in t : is_packet_type t = true <-> In t (map snd packet_types).
Proof.
  unfold is_packet_type. rewrite existsb_exists, in_map_iff. split; intros [x H]; exists x.
  - destruct H as [H1 H2]. apply Z.eqb_eq in H2. auto.
  - destruct H as [H1 H2]. split; auto. now apply Z.eqb_eq.
Qed.
Lemma split_announces m t body :
  (exists v, decode m = Ok v /\ split_packet v = Some (t, body)) <-> announces m t body.
Proof.
  split.
  - intros (v & Hd & Hs). destruct v as [b| | | | | |l| |]; try discriminate.
    + destruct b as [|x r]; [discriminate|]. cbn [split_packet] in Hs.
      destruct (is_packet_type _) eqn:E; [|discriminate]. injection Hs as <- <-. apply ann_bytes; auto. now apply is_packet_type_in.
    + destruct l as [|[| |z| | | | | |] l]; try discriminate. cbn [split_packet] in Hs.
      destruct (is_packet_type z) eqn:E; [|discriminate]. injection Hs as <- <-. apply ann_list; auto. now apply is_packet_type_in.
  - intros H. inversion H as [t' body' Hd Ht|x r Hd Ht]; subst; eexists; (split; [exact Hd|]); cbn [split_packet];
      apply is_packet_type_in in Ht; now rewrite Ht.
Qed.
Lemma announces_parsed m t body : announces m t body -> Forall parsed body.
Proof.
  intros H. inversion H as [t' body' Hd Ht|x r Hd Ht]; subst.
  - apply decode_parsed_top in Hd. inversion Hd as [| | |? Hl|]; subst. now inversion Hl.
  - rewrite Forall_map. apply Forall_forall. intros. constructor.
Qed.

Lemma nth_ext_firstn {A} (l m : list A) : (forall i, i < length l -> nth_error l i = nth_error m i) -> l = firstn (length l) m.
Proof.
  revert m; induction l as [|x l IH]; intros m H; auto. destruct m as [|y m].
  - specialize (H 0). cbn in H. assert (Some x = None) by (apply H; lia). discriminate.
  - cbn. f_equal; [specialize (H 0); cbn in H; assert (Some x = Some y) by (apply H; lia); congruence|].
    apply IH. intros i Hi. apply (H (S i)). cbn. lia.
Qed.
Lemma create_parsed t body p : Forall parsed body -> create t body [] = Ok p ->
  map snd (pk_attrs p) = firstn (length (pc_attrs (pk_class p))) body.
Proof.
  intros Hb Hc. destruct (create_ok t body [] p) as (Hin & Ht & Hw & Hcon); [constructor|auto|].
  destruct (c10 (pk_class p) body [] (class_names_nodup _ Hin)) as [(q & Hq & Hcomp & _)|[[Hq _]|[Hq _]]]; try congruence; [constructor|].
  assert (q = p) as -> by congruence. destruct Hcomp as (_ & Hl & H).
  rewrite <- Hl, <- (map_length snd). apply nth_ext_firstn. intros i Hi. rewrite map_length in Hi.
  destruct (nth_error (pc_attrs (pk_class p)) i) as [[n ty]|] eqn:E; [|apply nth_error_None in E; lia].
  destruct (H _ _ _ E) as (v & w & [[]|[_ Hv]] & Hs & _ & Hn). rewrite nth_error_map, Hn, Hv. cbn. f_equal.
  assert (parsed v) as Hp by (rewrite Forall_forall in Hb; apply Hb; eapply nth_error_In; eauto).
  inversion Hs; subst; auto. inversion Hp.
Qed.

Lemma table_get t h : In (t, h) handler_table <-> dict_get Z.eqb t handler_table = Some h.
Proof.
  split; [apply get_nodup; [apply Z.eqb_spec|apply nodup_zb_ok; reflexivity]|apply get_in, Z.eqb_spec].
Qed.

Lemma meaning_spec m h args : meaning m = Some (h, args) ->
  exists t body, announces m t body /\ In (t, h) handler_table /\ args = firstn (length (handler_types h)) body /\
                 Forall2 typed args (handler_types h).
Proof.
  unfold meaning. destruct (decode m) as [v|e|] eqn:Ed; try discriminate.
  destruct (split_packet v) as [[t body]|] eqn:Es; [|discriminate].
  assert (Ha : announces m t body) by (apply split_announces; eauto).
  destruct (create t body []) as [p|e|] eqn:Ec.
  - rewrite (resolve_ok _ _ _ Ec), handlers_table. destruct (dict_get Z.eqb t handler_table) as [h'|] eqn:Eh; [|discriminate].
    cbn. intros [= -> <-]. exists t, body. apply table_get in Eh. destruct (c13 _ _ _ Ec) as [H _].
    destruct (H h Eh) as [_ HF]. repeat split; auto.
    rewrite (create_parsed t body p) by (auto; eapply announces_parsed; eauto).
    apply Forall2_len in HF. rewrite map_length in HF. destruct (create_ok t body [] p) as (_ & _ & [Hl _] & _); [constructor|auto|].
    congruence.
  - unfold resolve. rewrite Ec. discriminate.
  - exfalso. eapply create_no_hang; eauto.
Qed.

(** Constructing from plain positional values of the declared types. *)
Lemma construct_intro c args : In c packet_classes ->
  Forall (fun v => forall t, v <> VText t) args ->
  Forall2 typed (firstn (length (pc_attrs c)) args) (map snd (pc_attrs c)) ->
  construct c args [] = Ok (Packet c (combine (map fst (pc_attrs c)) args)).
Proof.
  intros Hc Ht HF. pose proof (class_names_nodup c Hc) as Hn.
  assert (Hlen : length (pc_attrs c) <= length args).
  { apply Forall2_len in HF. rewrite map_length in HF. rewrite firstn_length in HF. lia. }
  assert (Hsto : forall i v, nth_error args i = Some v -> stored v v).
  { intros i v Hi. apply sto_other. rewrite Forall_forall in Ht. apply Ht. eapply nth_error_In; eauto. }
  assert (Htyp : forall i n t v, nth_error (pc_attrs c) i = Some (n, t) -> nth_error args i = Some v -> typed v t).
  { clear -HF. revert HF. generalize (pc_attrs c). intros l. revert args. induction l as [|[n t] l IH]; intros [|v args] HF i n' t' v'; cbn in *;
      try (destruct i; discriminate); inversion HF; subst.
    destruct i as [|i]; cbn; [intros [= <- <-] [= <-]; auto|]. apply IH; auto. }
  assert (Hcomp : complete c args [] (Packet c (combine (map fst (pc_attrs c)) args))).
  { split; [reflexivity|]. cbn. split; [rewrite combine_length, map_length; lia|]. intros i n t Hi.
    destruct (nth_error args i) as [v|] eqn:Ev.
    - exists v, v. repeat split; eauto. + right. auto.
      + clear -Hi Ev. revert args i Hi Ev. induction (pc_attrs c) as [|[a b] l IH]; intros [|y args] [|i] Hi Ev; cbn in *; try discriminate; try congruence.
        eauto.
    - apply nth_error_None in Ev. assert (i < length (pc_attrs c)) by (apply nth_error_Some; congruence). lia. }
  destruct (c10 c args [] Hn) as [(q & Hq & Hq' & _)|[(_ & (i & n & t & Hi & Hr) & _)|(_ & v & [Hv|[]] & Hb)]]; [constructor| | |].
  - rewrite Hq. f_equal. eapply complete_unique; eauto. constructor.
  - exfalso. destruct Hcomp as (_ & _ & H). destruct (H _ _ _ Hi) as (v & w & Hs & Hst & Hty & _).
    destruct Hr as [Hr|(v' & w' & Hs' & Hst' & Hnt)]; [now apply (Hr v)|].
    destruct Hs as [[]|[_ Hs]], Hs' as [[]|[_ Hs']]. assert (v' = v) as -> by congruence.
    rewrite (stored_fun _ _ _ Hst' Hst) in Hnt. auto.
  - exfalso. destruct Hb as (t & -> & _). rewrite Forall_forall in Ht.
    apply (Ht (VText t)) with t; auto.
    rewrite <- (firstn_skipn (length (pc_attrs c)) args). apply in_or_app. now left.
Qed.

Lemma map_snd_combine {A} (l : list string) (m : list A) : map snd (combine l m) = firstn (length l) m.
Proof. revert m; induction l as [|x l IH]; intros [|y m]; cbn; auto. now rewrite IH. Qed.

Lemma meaning_intro m t h vs : carries m t vs -> In (t, h) handler_table -> Forall2 typed vs (handler_types h) ->
  meaning m = Some (h, vs).
Proof.
  intros [rest Hd] Ht HF. unfold meaning. rewrite Hd.
  assert (Hk : exists c, In c packet_classes /\ pc_type c = t /\ In t (map snd packet_types)).
  { assert (G : forallb (fun th => existsb (fun c => Z.eqb (pc_type c) (fst th)) packet_classes && is_packet_type (fst th)) handler_table = true) by (vm_compute; reflexivity).
    rewrite forallb_forall in G. specialize (G _ Ht). cbn [fst] in G. apply andb_true_iff in G as [G1 G2].
    apply existsb_exists in G1 as (c & Hc & E). apply Z.eqb_eq in E. apply is_packet_type_in in G2. eauto. }
  destruct Hk as (c & Hc & Hct & Hpt). cbn [split_packet]. apply is_packet_type_in in Hpt. rewrite Hpt.
  assert (Hh : dict_get Z.eqb (pc_type c) handlers = Some h) by (rewrite Hct, handlers_table; now apply table_get).
  destruct (handler_sig c h Hc Hh) as [Hty Hpar].
  assert (Hlv : length vs = length (pc_attrs c)) by (apply Forall2_len in HF; rewrite HF, <- Hty; apply map_length).
  assert (Hcr : create t (vs ++ rest) [] = Ok (Packet c (combine (map fst (pc_attrs c)) (vs ++ rest)))).
  { unfold create. replace (dict_get Z.eqb t registry) with (Some c) by (symmetry; apply registry_get; auto).
    apply construct_intro; auto.
    - apply decode_parsed_top in Hd. inversion Hd as [| | |? Hl|]; subst. inversion Hl as [|? ? _ Hb]; subst.
      eapply Forall_impl; [|exact Hb]. intros v Hv t ->. inversion Hv.
    - rewrite <- Hlv, firstn_app, firstn_all, Nat.sub_diag. cbn. rewrite app_nil_r, Hty. exact HF. }
  rewrite (resolve_ok _ _ _ Hcr). rewrite <- Hct, Hh. cbn [option_map pk_attrs].
  rewrite map_snd_combine, map_length, firstn_app, <- Hlv, firstn_all, Nat.sub_diag. cbn. now rewrite app_nil_r.
Qed.

(** ** Sent packets are understood by the peer *)
Definition plain (v : val) : Prop := match v with VInt _ => True | VBytes b => short b | _ => False end.
Lemma same_data_plain v w : plain v -> same_data v w -> w = v \/ exists t, w = VText t.
Proof.
  destruct v as [b| |z| | | | | |]; cbn; try tauto; intros _ H.
  - inversion H as [? ? ? H1 H2| |? ? ? ? H1 H2|]; subst; try (inversion H1; fail). inversion H1; subst. inversion H2; subst; eauto.
  - left. now apply same_data_int.
Qed.
Lemma sent_understood p : In (pk_class p) packet_classes -> well_formed p -> Forall (fun a => plain (snd a)) (pk_attrs p) ->
  exists b, as_bytes p = Ok b /\ from_bytes b = Ok p.
Proof.
  intros Hc Hw Hp. pose proof (class_names_nodup _ Hc) as Hn.
  assert (Hpo : Forall (fun a => py_object (snd a)) (pk_attrs p)).
  { eapply Forall_impl; [|exact Hp]. intros [n v]; cbn. destruct v; cbn; try tauto; constructor; auto. }
  assert (Hb : exists b, as_bytes p = Ok b).
  { unfold as_bytes, packet_encode. rewrite get_attrs_wf by auto. cbn [bind]. apply encode_encodable.
    - constructor. constructor; [constructor|]. now rewrite Forall_map.
    - eapply en_seq; [apply items_list|]. constructor; [constructor|]. rewrite Forall_map. eapply Forall_impl; [|exact Hp].
      intros [n v]; cbn. destruct v; cbn; try tauto; intros _; [eapply en_octets; constructor|constructor]. }
  destruct Hb as [b Hb]. exists b. split; auto. destruct (c09 p b Hc Hw Hpo Hb) as (q & Hq & Hcq & HF). rewrite Hq. f_equal.
  assert (Hpq : Forall parsed (map snd (pk_attrs q))).
  { revert Hq. unfold from_bytes. destruct (decode b) as [v|e|] eqn:Ed; try discriminate; [|destruct e; discriminate].
    destruct v as [| | | | | |l| |]; try discriminate. destruct l as [|x body]; [discriminate|].
    destruct x as [| |z| | | | | |]; [discriminate|discriminate| |discriminate|discriminate|discriminate|discriminate|discriminate|discriminate].
    destruct (dict_get Z.eqb z registry) as [c|] eqn:Er; [|discriminate].
    apply registry_get in Er as [Hin _]. apply decode_parsed_top in Ed. inversion Ed as [| | |? Hl|]; subst. inversion Hl as [|? ? _ Hbody]; subst.
    rewrite from_body_eq by auto using class_names_nodup. intros Hq.
    destruct (c10 c [] (combine (map fst (pc_attrs c)) body) (class_names_nodup c Hin) (combine_nodup _ _ (class_names_nodup c Hin)))
      as [(q' & Hq' & (E1 & E2 & E3) & _)|[[Hq' _]|[Hq' _]]]; try congruence.
    assert (q' = q) as -> by congruence. rewrite Forall_forall. intros v Hv. apply in_map_iff in Hv as [[n w] [<- Hin']].
    apply In_nth_error in Hin' as [i Hi]. assert (Hlt : i < length (pc_attrs c)) by (rewrite <- E2; apply nth_error_Some; congruence).
    destruct (nth_error (pc_attrs c) i) as [[n' t']|] eqn:Ea; [|apply nth_error_None in Ea; lia].
    destruct (E3 _ _ _ Ea) as (v & w' & [Hs|[_ Hs]] & Hst & _ & Hi'); [|destruct i; discriminate].
    apply in_combine_r in Hs. rewrite Forall_forall in Hbody. apply Hbody in Hs. assert (w' = w) as -> by congruence. cbn.
    inversion Hst; subst; [inversion Hs|auto]. }
  destruct p as [c a], q as [c' a']. cbn in *. subst c'. f_equal.
  clear -HF Hp Hpq. induction HF as [|[n v] [n' w] l m [Hn Hs] HF IH]; auto. cbn in *. subst n'.
  inversion Hp as [|? ? Hv Hp']; subst. inversion Hpq as [|? ? Hw Hpq']; subst. cbn in *.
  destruct (same_data_plain v w Hv Hs) as [->|[t ->]]; [|inversion Hw]. f_equal. auto.
Qed.
