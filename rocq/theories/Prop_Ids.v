(** * Property C107: call ids taken by several threads (dataplicity/jsonrpc.py) *)
From Verif Require Import Py Model_Ids Spec_Ids Proof_Ids.

(** ** C107 *)
(** When no two threads are in new_call_id at once the ids are 2, 3, 4, ... *)
Theorem C107_distinct_when_alone_partial : forall l, alone l ->
  map snd (given l) = map Z.of_nat (seq 2 (length (given l))) /\ NoDup (map snd (given l)).
Proof. exact (fun l H => conj (alone_ids l H) (alone_distinct l H)). Qed.
Print Assumptions C107_distinct_when_alone_partial.
(** However they interleave, every call is given an id, and none is the initial 1. *)
Theorem C107_every_call_gets_an_id_partial : forall l t, count_occ Nat.eq_dec (map fst (given l)) t = (count_occ Nat.eq_dec l t / 3)%nat.
Proof. exact given_count. Qed.
Print Assumptions C107_every_call_gets_an_id_partial.
Theorem C107_from_two_on_partial : forall l t i, In (t, i) (given l) -> (2 <= i)%Z.
Proof. exact never_one. Qed.
Print Assumptions C107_from_two_on_partial.
(** Two threads can be given the same id ... *)
Theorem C107_shared_refuted : exists l t u i, t <> u /\ given l = [(t, i); (u, i)].
Proof. exists [0; 1; 0; 1; 0; 1]%nat, 0%nat, 1%nat, 2%Z. split; [discriminate|]. vm_compute. reflexivity. Qed.
Print Assumptions C107_shared_refuted.
(** ... and one thread, for two calls of one batch, say, the same id twice. *)
Theorem C107_repeated_refuted : exists l t i a b, given l = a ++ [(t, i); (t, i)] ++ b.
Proof.
  exists [1; 0; 0; 0; 0; 0; 0; 1; 0; 0; 0]%nat, 0%nat, 3%Z, [(0%nat, 2%Z)], []. vm_compute. reflexivity.
Qed.
Print Assumptions C107_repeated_refuted.

Example C107_case : alone [3; 3; 3; 0; 0; 0; 3; 3]%nat /\ given [3; 3; 3; 0; 0; 0; 3; 3]%nat = [(3%nat, 2%Z); (0%nat, 3%Z)].
Proof.
  split; [|vm_compute; reflexivity]. intros n t u Ht Hu. apply amid_pc in Ht, Hu.
  do 9 (destruct n as [|n]; [vm_compute in Ht, Hu; repeat (destruct t as [|t]; try congruence); repeat (destruct u as [|u]; try congruence)|]).
  rewrite firstn_all2 in Ht, Hu by (cbn; lia). vm_compute in Ht, Hu. repeat (destruct t as [|t]; try congruence); repeat (destruct u as [|u]; try congruence).
Qed.
