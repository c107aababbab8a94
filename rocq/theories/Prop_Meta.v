(** * Properties C141, C142: the metadata a sync reports, and all that polling reports
      (dataplicity/client.py:127-309, device_meta.py:16-32, disk_tools.py, tags.py) *)
From Coq Require Import QArith.
From Verif Require Import Py Model_Rpc Spec_Rpc Model_Agent Spec_Agent Model_Meta Spec_Meta Proof_Meta Prop_Agent.
From Verif Require Model_Tools.
Import Model_Tools.
Open Scope nat_scope.

(** C141 as stated is false.  A device that has no address yet when the agent starts, and a
    server that cannot be reached then: the server is told, and accepts, that the device has
    no address although it has one by then; whatever happens later, it is told nothing else. *)
Theorem C141_addresses_refuted : exists net serial token t0 sid1 sid2 h1 h2, h_ips h1 = [] /\ h_ips h2 <> [] /\ forall l,
  exists new, requests (drun net serial token (DSync sid1 (Some h1) :: DSync sid2 (Some h2) :: l) (started t0)) =
                new ++ [sync_request serial token sid2 (told h1); sync_request serial token sid1 (told h1)] /\
    all_acknowledged (net 1%nat) /\ Forall (fun r => ~ has_metadata r) new.
Proof.
  exists (fun n => if (n =? 0)%nat then Unreachable else acks all_ids), serial1, token1, 0%Z, (T "a"), (T "b"),
    (Host (T "1") None (T "Pi") (T "10") (T "Linux") []), (Host (T "1") None (T "Pi") (T "10") (T "Linux") [T "10.0.0.2"]).
  split; [reflexivity|]. split; [discriminate|]. intros l.
  assert (A : all_acknowledged (acks all_ids)).
  { split; [apply acks_acknowledge; left; reflexivity|]. intros p H. apply acks_acknowledge. right. now apply in_map. }
  match goal with |- context [drun ?n _ _ (DSync ?s1 (Some ?h1) :: DSync ?s2 (Some ?h2) :: _) _] =>
    destruct (stale n serial1 token1 0%Z h1 h2 s1 s2) with (l := l) as (new & E & F) end.
  - intros [(x & X & _) _]. discriminate X.
  - exact A.
  - exists new. auto.
Qed.
Print Assumptions C141_addresses_refuted.
(** The same for any two states of the device and any server that does not accept the first
    sync and accepts the second. *)
Theorem C141_stale_refuted : forall net serial token t0 h1 h2 sid1 sid2, ~ all_acknowledged (net 0%nat) -> all_acknowledged (net 1%nat) ->
  forall l, exists new,
    requests (drun net serial token (DSync sid1 (Some h1) :: DSync sid2 (Some h2) :: l) (started t0)) =
      new ++ [sync_request serial token sid2 (told h1); sync_request serial token sid1 (told h1)] /\
    Forall (fun r => ~ has_metadata r) new.
Proof. exact stale. Qed.
Print Assumptions C141_stale_refuted.
(** What holds.  In any history every request with metadata tells the device as it was at the
    first sync that could ask it, *)
Theorem C141_first_partial : forall net serial token t0 l r, In r (requests (drun net serial token l (started t0))) -> has_metadata r ->
  exists sid h, first_answer l = Some h /\ r = sync_request serial token sid (told h).
Proof. exact first_told. Qed.
Print Assumptions C141_first_partial.
(** which is the device as it is if it does not change; *)
Theorem C141_unchanged_partial : forall net serial token t0 l h r, always h l -> In r (requests (drun net serial token l (started t0))) -> has_metadata r ->
  exists sid, r = sync_request serial token sid (told h).
Proof. exact unchanged_told. Qed.
Print Assumptions C141_unchanged_partial.
(** and a sync does tell it as long as nothing was accepted, also when the device cannot be
    asked any more; it is then accepted exactly if the server acknowledges all of it. *)
Theorem C141_tells_partial : forall net serial token t0 l sid hst h,
  g_sent_meta (snd (drun net serial token l (started t0))) = false -> first_answer (l ++ [DSync sid hst]) = Some h ->
  requests (drun net serial token (l ++ [DSync sid hst]) (started t0)) = sync_request serial token sid (told h) :: requests (drun net serial token l (started t0)) /\
  (g_sent_meta (snd (drun net serial token (l ++ [DSync sid hst]) (started t0))) = true <->
     all_acknowledged (net (length (requests (drun net serial token l (started t0)))))).
Proof. exact sync_tells_flag. Qed.
Print Assumptions C141_tells_partial.
Definition host2 : host := Host (T "1.2") (Some (T "a02082")) (T "Pi 3") (T "Raspbian 10") (T "Linux x") [T "10.0.0.2"; T "127.0.0.1"].
Example C141_case :
  let net := fun n => if (n =? 3)%nat then acks all_ids else Unreachable in
  let l := [DSync (T "a") None; DTags (TagList [T "x"]); DSync (T "b") (Some host2)] in
  let y := drun net serial1 token1 l (started 0) in
  g_sent_meta (snd y) = false /\ first_answer (l ++ [DSync (T "c") None]) = Some host2 /\ always host2 l /\
  requests (drun net serial1 token1 (l ++ [DSync (T "c") None; DSync (T "d") (Some host2)]) (started 0)) =
    [sync_request serial1 token1 (T "c") (told host2); sync_request serial1 token1 (T "b") (told host2);
     tags_request serial1 token1 [T "x"]; JArr [check_auth serial1 token1 [(T "sync_id", JStr (T "a"))]]] /\
  machine_revision (told host2) = JStr (T "a02082") /\ ip_list (told host2) = JArr [JStr (T "10.0.0.2"); JStr (T "127.0.0.1")].
Proof.
  cbn zeta. split; [vm_compute; reflexivity|]. split; [reflexivity|]. split; [repeat constructor|]. split; [vm_compute; reflexivity|]. split; reflexivity.
Qed.

(** C142.  Whatever the device is like at each time, whatever the server replies and in
    whatever order the operations come: every request to the JSON-RPC server is one of five,
    what it says of disk, tags and host is what the device was at one of these times, and an
    identity is one that was announced. *)
Theorem C142_only_this : forall fl round1 net serial token t0 devs l r, Forall2 (happens fl round1) devs l ->
  In r (requests (drun net serial token l (started t0))) -> reported serial token devs l r.
Proof. exact only_this_in. Qed.
Print Assumptions C142_only_this.
(** And it says all of it: the first poll of an agent sends disk, tags and metadata as they are
    then, whatever the server replies. *)
Theorem C142_first_poll : forall net serial token fl round1 t0 d sid st h tags,
  (t0 <= v_time d)%Z -> v_disk d = Some st -> tagged d tags -> v_host d = Some h ->
  requests (drun net serial token (polled fl round1 sid d) (started t0)) =
    [sync_request serial token sid (told h); tags_request serial token tags;
     disk_request serial token (f_blocks st * f_frsize st) ((f_blocks st - f_bfree st) * f_frsize st)].
Proof. exact first_poll_reports. Qed.
Print Assumptions C142_first_poll.
Example C142_case :
  let d := Device 10 (Some (Statvfs 100 40 30 512)) (Prints (B "lab, abcdefghijklmnopqrstuvwxyz")) (Some host2) in
  let ops := polled (fun q => q) (fun q => q) (T "a") d ++ [DIdentity (Some (B "id1"))] in
  Forall2 (happens (fun q => q) (fun q => q)) [d; d; d; d] ops /\ (0 <= v_time d)%Z /\ tagged d [T "lab"; T "abcdefghijklmnopqrstuvwxy"] /\
  requests (drun (fun _ => Unreachable) serial1 token1 ops (started 0)) =
    [identity_request serial1 token1 (T "id1"); sync_request serial1 token1 (T "a") (told host2);
     tags_request serial1 token1 [T "lab"; T "abcdefghijklmnopqrstuvwxy"]; disk_request serial1 token1 51200 30720].
Proof.
  cbn zeta. split.
  { cbn [polled app]. repeat (constructor; [left; exists (T "a"); cbn; tauto|]). constructor; [right; eauto|constructor]. }
  split; [discriminate|]. split.
  { apply script_tags. vm_compute. reflexivity. }
  vm_compute. reflexivity.
Qed.
