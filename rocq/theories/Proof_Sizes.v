From Verif Require Import Py Py_lemmas Model_Bencode Model_Packets Model_Process Model_Forward Model_Client Proof_Client2 Spec_Client Model_Services Spec_Services
  Proof_Services Proof_Services2 Model_Relay Proof_Outbound Spec_Sizes.
Import ListNotations.

Lemma digits_fuel_len : forall fuel n acc k, (1 <= k)%nat -> (n < 10 ^ N.of_nat k)%N ->
  length (digits_fuel fuel n acc) <= k + length acc.
Proof.
  induction fuel as [|f IH]; intros n acc k Hk Hn; cbn [digits_fuel]; [lia|].
  destruct (N.eqb_spec (n / 10) 0) as [E|E]; [cbn [length]; lia|].
  destruct k as [|[|k]]; [lia| |].
  - exfalso. apply E. apply N.div_small. exact Hn.
  - assert (H : (n / 10 < 10 ^ N.of_nat (S k))%N).
    { replace (N.of_nat (S (S k))) with (N.succ (N.of_nat (S k))) in Hn by lia. rewrite N.pow_succ_r' in Hn.
      apply N.div_lt_upper_bound; lia. }
    specialize (IH (n / 10)%N ((48 + n mod 10)%N :: acc) (S k) ltac:(lia) H). cbn [length] in IH. lia.
Qed.
Lemma dec_N_len n k : (1 <= k)%nat -> (n < 10 ^ N.of_nat k)%N -> length (dec_N n) <= k.
Proof. intros Hk Hn. unfold dec_N. pose proof (digits_fuel_len (S (N.size_nat n)) n [] k Hk Hn). cbn [length] in H. lia. Qed.
Lemma pow_N k : Z.of_N (10 ^ N.of_nat k) = (10 ^ Z.of_nat k)%Z.
Proof. rewrite N2Z.inj_pow. f_equal. lia. Qed.
Lemma int_len z k : digits_at_most k z -> length (bytes_of_int z) <= S k.
Proof.
  intros [Hk Hz]. unfold bytes_of_int, n2b. rewrite map_length. unfold dec_Z. rewrite <- pow_N in Hz.
  destruct (Z.ltb_spec z 0); cbn [length].
  - apply le_n_S. apply dec_N_len; lia.
  - assert (length (dec_N (Z.to_N z)) <= k); [apply dec_N_len; lia|lia].
Qed.
Lemma nat_len n k : digits_at_most k (Z.of_nat n) -> length (bytes_of_int (Z.of_nat n)) <= k.
Proof.
  intros [Hk Hz]. unfold bytes_of_int, n2b. rewrite map_length. unfold dec_Z. rewrite <- pow_N in Hz.
  destruct (Z.ltb_spec (Z.of_nat n) 0); [lia|]. apply dec_N_len; lia.
Qed.
Lemma wire_len m d k j b : digits_at_most k m -> digits_at_most j (Z.of_nat (length d)) ->
  encode (VList [VInt 5; VInt m; VBytes d]) = Ok b -> (length b <= length d + k + j + 9)%nat.
Proof.
  intros Hm Hd. apply int_len in Hm. apply nat_len in Hd. unfold encode. intros E.
  assert (A : add_encode (VList [VInt 5; VInt m; VBytes d]) = Ok b).
  { destruct (add_encode _) as [b'|e|]; cbn [bind] in E; try discriminate. destruct (decode b') as [w|e|]; cbn [bind] in E; try discriminate.
    destruct w; congruence. }
  clear E. cbn [add_encode map join_res bind] in A. assert (X : forall x : bytes, Ok x = Ok b -> x = b) by (intros x Hx; congruence). apply X in A as <-.
  change (bytes_of_int 5) with [x35]. unfold enc_bytes. rewrite !app_length. change (length (B "l")) with 1. change (length (B "i")) with 1. change (length (B "e")) with 1. cbn [length]. lia.
Qed.

Lemma write_size env o d st st' r c k j : chan_of st o = Some c -> digits_at_most k (ch_no c) -> digits_at_most j (Z.of_nat (length d)) ->
  do_op env (OpWrite o d) st = (st', r) ->
  exists new, st_trace st' = new ++ st_trace st /\ (length (handed new) <= 1)%nat /\
    Forall (fun b => (length b <= length d + k + j + 9)%nat) (handed new).
Proof.
  intros Hc Hk Hj. cbn [do_op]. unfold chan_write. unfold chan_of in Hc. rewrite Hc.
  destruct (ch_closed c); [intros [= <- _]; exists []; repeat split; [cbn; lia|constructor]|].
  unfold send. rewrite bytes_write. destruct (encode _) as [b|e|] eqn:E.
  - intros H. apply send_bytes_spec in H as [-> _]. exists [Sent b]. split; [reflexivity|]. split; [cbn; lia|].
    constructor; [|constructor]. eapply wire_len; eauto.
  - intros [= <- _]. exists []. repeat split; [cbn; lia|constructor].
  - intros [= <- _]. exists []. repeat split; [cbn; lia|constructor].
Qed.

Lemma chunk_is : Z.of_nat chunk_size = MiB.
Proof. unfold chunk_size. rewrite Z2Nat.id; [reflexivity|]. discriminate. Qed.
Lemma chunk_pos : 0 < chunk_size.
Proof. pose proof chunk_is. unfold MiB in H. lia. Qed.

Lemma forward_size chunk a closed t t' ws d : tunnel_act chunk a closed t = (t', ws) -> In (WData d) ws -> d <> [] /\ length d <= chunk.
Proof.
  intros H I. assert (Q : forall n (rest : bytes), length (firstn (Nat.min chunk n) rest) <= chunk).
  { intros n rest. rewrite firstn_length. lia. }
  destruct a; cbn [tunnel_act] in H.
  all: try (destruct (t_loop t); try (injection H as <- <-; destruct I); fail).
  all: try (injection H as <- <-; destruct I; fail).
  - destruct (t_loop t); try (injection H as <- <-; destruct I; fail). destruct (c_pc (t_in t)); injection H as <- <-; destruct I.
  - destruct r, (t_loop t); injection H as <- <-; destruct I.
  - destruct (t_loop t); try (injection H as <- <-; destruct I; fail). destruct l as [|mask l]; [injection H as <- <-; destruct I|].
    destruct (Model_Forward.readable mask); [|injection H as <- <-; destruct I].
    destruct r as [n|]; [|injection H as <- <-; destruct I].
    specialize (Q (S n) (t_rest t)). destruct (firstn _ (t_rest t)) as [|x d'] eqn:F; [injection H as <- <-; destruct I|].
    apply pair_equal_spec in H as [_ <-]. destruct I as [[= <-]|[]]. split; [discriminate|exact Q].
  - destruct (t_loop t); try (injection H as <- <-; destruct I; fail). apply pair_equal_spec in H as [_ <-].
    destruct (elapsed =? 0)%Z; [destruct I|]. destruct I as [I|[]]. discriminate I.
Qed.
Lemma terminal_size limit e closed p p' ws d : term_act limit e closed p = (p', ws) -> In (WData d) ws -> length d <= limit.
Proof.
  intros H I. unfold term_act in H. destruct e; try (apply pair_equal_spec in H as [_ <-]; destruct I; fail).
  destruct (Nat.leb_spec n limit); apply pair_equal_spec in H as [_ <-]; [|destruct I].
  destruct (ph p); try (destruct I; fail). destruct I as [I|[]]. injection I as <-. rewrite firstn_length. lia.
Qed.
Lemma in_messages d l : In (OData d) l -> In d (messages l).
Proof. intros H. apply in_flat_map. exists (OData d). split; [exact H|left; reflexivity]. Qed.

Lemma service_size d : service_writes d -> (Z.of_nat (length d) <= MiB)%Z.
Proof.
  pose proof chunk_is as C. pose proof chunk_pos as P. intros [a closed t t' ws H I|e closed p p' ws H I|w path content st r H I|w polls stdout rc1 rc2 st r H I].
  - apply (forward_size _ _ _ _ _ _ _ H) in I as [_ I]. rewrite <- C. lia.
  - apply (terminal_size _ _ _ _ _ _ _ H) in I. apply Nat2Z.inj_le in I. rewrite Z2Nat.id in I; [exact I|discriminate].
  - apply file_run_spec in H as (_ & H & _); [|exact P]. apply in_messages in I. apply (proj1 (Forall_forall _ _) H) in I as [_ I]. rewrite <- C. lia.
  - apply command_run_data in H as (_ & H & _); [|exact P]. apply in_messages in I. apply (proj1 (Forall_forall _ _) H) in I as [_ I]. rewrite <- C. lia.
Qed.
Lemma service_wire env o d st st' r c k : service_writes d -> chan_of st o = Some c -> digits_at_most k (ch_no c) ->
  do_op env (OpWrite o d) st = (st', r) ->
  exists new, st_trace st' = new ++ st_trace st /\ (length (handed new) <= 1)%nat /\
    Forall (fun b => (Z.of_nat (length b) <= MiB + Z.of_nat k + 16)%Z) (handed new).
Proof.
  intros S Hc Hk H. apply service_size in S.
  assert (J : digits_at_most 7 (Z.of_nat (length d))).
  { split; [lia|]. unfold MiB in S. change (10 ^ Z.of_nat 7)%Z with 10000000%Z. lia. }
  destruct (write_size env o d st st' r c k 7 Hc Hk J H) as (new & T & L & F). exists new. split; [exact T|]. split; [exact L|].
  eapply Forall_impl; [|exact F]. cbn beta. intros b Hb. lia.
Qed.

Lemma reach chunk : 0 < chunk -> exists a t t' ws d, tunnel_act chunk a false t = (t', ws) /\ In (WData d) ws /\ length d = chunk.
Proof.
  intros P. set (rest := repeat x41 chunk).
  exists (THandle (Some chunk) true), (Tun cinit (LEvents [1%Z]) false rest). eexists. exists [WData rest], rest.
  split; [|split; [left; reflexivity|apply repeat_length]].
  cbn [tunnel_act t_loop t_rest]. change (Model_Forward.readable 1) with true. cbv match.
  rewrite (firstn_all2 rest) by (unfold rest; rewrite repeat_length; lia).
  unfold rest at 1. destruct chunk as [|n]; [lia|]. cbn [repeat]. reflexivity.
Qed.
Lemma size_reached : exists d, service_writes d /\ Z.of_nat (length d) = MiB.
Proof.
  destruct (reach chunk_size chunk_pos) as (a & t & t' & ws & d & H & I & L). exists d. split; [eapply by_forward; eauto|].
  rewrite L. exact chunk_is.
Qed.
