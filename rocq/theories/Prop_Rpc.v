(** * Properties C60-C65, C87, C88: JSON-RPC (dataplicity/jsonrpc.py) *)
From Coq Require Import Permutation.
From Verif Require Import Py Model_Path Model_Rpc Spec_Rpc Proof_Rpc Proof_Rpc2 Proof_Rpc3.

(** ** C60 *)
(** A program of calls, notifications and steps on any number of batches: the call objects it
    makes have the ids 2, 3, 4, ... *)
Theorem C60_ids_count_up : forall net l made, made = r_made (rrun net l start) ->
  map id_of made = map (fun n => Some (JInt (Z.of_nat n))) (seq 2 (length made)).
Proof. exact ids_are_2_3_4. Qed.
Print Assumptions C60_ids_count_up.
Theorem C60_distinct_and_increasing : forall net l made a b ca cb i j, made = r_made (rrun net l start) ->
  nth_error made a = Some ca -> nth_error made b = Some cb -> id_of ca = Some (JInt i) -> id_of cb = Some (JInt j) ->
  (a < b)%nat <-> (i < j)%Z.
Proof. exact ids_distinct. Qed.
Print Assumptions C60_distinct_and_increasing.
Example C60_case : r_made (rrun (fun _ => Unreachable)
    [OBatch; OCall (T "a") []; OBatch; OStep 1 (BCall (T "b") []); OStep 0 (BCall (T "c") []); OStep 0 BSend; OStep 1 (BNotify (T "n") []); OCall (T "d") []] start) =
  [wire_call (T "a") [] (JInt 2); wire_call (T "b") [] (JInt 3); wire_call (T "c") [] (JInt 4); wire_call (T "d") [] (JInt 5)].
Proof. vm_compute. reflexivity. Qed.

(** ** C61 *)
Theorem C61_returns_matching_result : forall net m p w v, snd (call net m p w) = ROk v <->
  exists d, answer_to net w = Answer (Some (JObj d)) /\ answers (w_id w + 1) d /\ v = result_of d.
Proof. exact call_returns. Qed.
Print Assumptions C61_returns_matching_result.
(** Whatever else the server answers, call raises; it only hangs if nothing ever comes back. *)
Theorem C61_otherwise_raises : forall net m p w, answer_to net w <> Silent -> (forall v, snd (call net m p w) <> ROk v) ->
  exists e, snd (call net m p w) = RRaise e.
Proof. exact call_raises. Qed.
Print Assumptions C61_otherwise_raises.
Theorem C61_this_call : forall net m p w,
  fst (call net m p w) = World (w_id w + 1) (wire_call m p (JInt (w_id w + 1)) :: w_sent w).
Proof. exact call_sends. Qed.
Print Assumptions C61_this_call.
(** How a call ends, whatever the server answers *)
Theorem C61_how_it_ends : forall net m p w, call_ends m (w_id w + 1) (answer_to net w) (snd (call net m p w)).
Proof. exact how_call_ends. Qed.
Print Assumptions C61_how_it_ends.
(** [call_ends] leaves no choice if the answer is an object or no JSON. *)
Theorem C61_one_ending : forall m id r x y, call_ends m id r x -> call_ends m id r y -> (forall j, r = Answer (Some j) -> exists d, j = JObj d) -> x = y.
Proof. exact call_ends_det. Qed.
Print Assumptions C61_one_ending.
Definition says (d : list (text * json)) : nat -> reply := fun _ => Answer (Some (JObj d)).
Example C61_case :
  let d := [(T "id", JInt 8); (T "result", JArr [JInt 1; JStr (T "x")]); (T "jsonrpc", JStr (T "2.0"))] in
  snd (call (says d) (T "m") [] (World 7 [])) = ROk (JArr [JInt 1; JStr (T "x")]) /\
  snd (call (says d) (T "m") [] (World 8 [])) = RRaise XProtocol /\
  snd (call (says (tl d)) (T "m") [] (World 7 [])) = RRaise XProtocol /\
  snd (call (fun _ => Answer (Some (JInt 3))) (T "m") [] (World 7 [])) = RRaise (XPy EType) /\
  snd (call (fun _ => Answer (Some (JArr [JStr (T "id"); JStr (T "jsonrpc")]))) (T "m") [] (World 7 [])) = RRaise (XPy EType) /\
  snd (call (fun _ => Answer None) (T "m") [] (World 7 [])) = RRaise XInvalidResponse /\
  snd (call (fun _ => Unreachable) (T "m") [] (World 7 [])) = RRaise XUnreachable.
Proof. vm_compute. auto 10. Qed.

(** ** C62 *)
(** Codes that are no array and no object *)
Theorem C62_errors_classified_partial : forall net m p w d i e, answer_to net w = Answer (Some (JObj d)) ->
  member "jsonrpc" d = Some (JStr (T "2.0")) -> member "id" d = Some i -> number i = Some (w_id w + 1)%Z ->
  member "error" d = Some (JObj e) -> plain_code e -> exists x, snd (call net m p w) = RRaise x /\ describes m e x.
Proof. exact error_classified. Qed.
Print Assumptions C62_errors_classified_partial.
(** [describes] leaves no choice *)
Theorem C62_one_description_partial : forall m e x y, describes m e x -> describes m e y -> x = y.
Proof. exact describes_det. Qed.
Print Assumptions C62_one_description_partial.
(** An array or object as code raises TypeError, neither RemoteError nor RemoteMethodError. *)
Theorem C62_strange_code_refuted : forall net m p w d i e, answer_to net w = Answer (Some (JObj d)) ->
  member "jsonrpc" d = Some (JStr (T "2.0")) -> member "id" d = Some i -> number i = Some (w_id w + 1)%Z ->
  member "error" d = Some (JObj e) -> ~ plain_code e -> snd (call net m p w) = RRaise (XPy EType) /\ ~ describes m e (XPy EType).
Proof. exact error_unclassified. Qed.
Print Assumptions C62_strange_code_refuted.
Example C62_case :
  let ask e := snd (call (says [(T "jsonrpc", JStr (T "2.0")); (T "id", JInt 2); (T "error", JObj e)]) (T "m") [] world0) in
  ask [(T "code", JInt (-32601))] = RRaise (XRemote (T "m") (JInt (-32601)) JNull (JStr (T "Method not found"))) /\
  ask [(T "code", JInt (-32601)); (T "message", JStr (T "no m")); (T "data", JInt 4)] =
    RRaise (XRemote (T "m") (JInt (-32601)) (JInt 4) (JStr (T "no m"))) /\
  ask [(T "code", JInt 17)] = RRaise (XMethod (T "m") (JInt 17) JNull (JStr (T "the server did not supply further information"))) /\
  ask [] = RRaise (XMethod (T "m") JNull JNull (JStr (T "the server did not supply further information"))) /\
  ask [(T "code", JArr [])] = RRaise (XPy EType) /\ plain_code [(T "code", JInt (-32601))] /\ ~ plain_code [(T "code", JArr [])].
Proof.
  cbn zeta. repeat (split; [vm_compute; reflexivity|]). split; [split; discriminate|]. intros [H _]. now apply (H []).
Qed.

(** ** C63 *)
(** The ids given to call_with_id are no numbers, or below 2 *)
Theorem C63_distinct_partial : forall net n l b, nth_error (r_batches (rrun net l start)) n = Some b ->
  (forall i m p z, In (OStep n (BCallId i m p)) l -> number i = Some z -> (z < 2)%Z) -> distinct_ids (b_calls b).
Proof. exact ids_distinct_batch. Qed.
Print Assumptions C63_distinct_partial.
(** The batch only has calls made by call_with_id *)
Theorem C63_distinct_supplied_partial : forall net n l b, nth_error (r_batches (rrun net l start)) n = Some b ->
  (forall m p, ~ In (OStep n (BCall m p)) l) -> distinct_ids (b_calls b).
Proof. exact ids_distinct_supplied. Qed.
Print Assumptions C63_distinct_supplied_partial.
(** batch.call takes id 2, batch.call_with_id(2, ...) is not refused. *)
Theorem C63_mixed_ids_refuted : forall net, exists l b, nth_error (r_batches (rrun net l start)) 0 = Some b /\ ~ distinct_ids (b_calls b).
Proof. exact ids_clash. Qed.
Print Assumptions C63_mixed_ids_refuted.
Example C63_case :
  let l := [OBatch; OStep 0 (BCallId (JStr (T "x")) (T "a") []); OStep 0 (BCall (T "b") []); OStep 0 (BCallId (JStr (T "x")) (T "c") []);
            OStep 0 (BNotify (T "n") []); OStep 0 (BCall (T "d") [])] in
  (forall i m p z, In (OStep 0 (BCallId i m p)) l -> number i = Some z -> (z < 2)%Z) /\
  map b_calls (r_batches (rrun (fun _ => Silent) l start)) =
    [[wire_call (T "a") [] (JStr (T "x")); wire_call (T "b") [] (JInt 2); wire_notification (T "n") []; wire_call (T "d") [] (JInt 3)]].
Proof.
  split; [|vm_compute; reflexivity]. intros i m p z H. cbn in H.
  repeat (destruct H as [H|H]; [try discriminate H; injection H as <- <- <-; discriminate|]). destruct H.
Qed.

(** ** C64 *)
(** One response in the list has the id of the call: that is what is reported. *)
Theorem C64_reports_response : forall net w b w' b' l1 r l2 i d default, built b -> answered net w (l1 ++ r :: l2) ->
  batch_send net w b = (w', (b', ROk tt)) -> responds i r d -> no_response i (l1 ++ l2) ->
  (exists c i', In c (b_calls b) /\ id_of c = Some i' /\ same_id i i') -> hashable i -> reports b i default d (get_result b' i default).
Proof. exact send_reports. Qed.
Print Assumptions C64_reports_response.
(** None has it *)
Theorem C64_unanswered : forall net w b w' b' l i default, answered net w l -> batch_send net w b = (w', (b', ROk tt)) ->
  no_response i l -> hashable i -> get_result b' i default = RRaise (XPy EKey).
Proof. exact send_unanswered. Qed.
Print Assumptions C64_unanswered.
(** However many have it, a result is one of theirs. *)
Theorem C64_result_was_given : forall net w b w' b' l i v, answered net w l -> batch_send net w b = (w', (b', ROk tt)) ->
  get_result b' i None = ROk v -> exists d, In (JObj d) l /\ responds i (JObj d) d /\ member "error" d = None /\ v = result_of d.
Proof. exact send_result_given. Qed.
Print Assumptions C64_result_was_given.
Theorem C64_any_order : forall net net' w b l l', answered net w l -> answered net' w l' -> Permutation l l' ->
  (snd (snd (batch_send net w b)) = ROk tt <-> snd (snd (batch_send net' w b)) = ROk tt) /\
  forall w1 w2 b1 b2 i default, batch_send net w b = (w1, (b1, ROk tt)) -> batch_send net' w b = (w2, (b2, ROk tt)) -> once i l ->
    get_result b1 i default = get_result b2 i default.
Proof. exact send_order. Qed.
Print Assumptions C64_any_order.
(** When send succeeds *)
Theorem C64_well_formed : forall net w b l, answered net w l -> (snd (snd (batch_send net w b)) = ROk tt <-> Forall ok_response l).
Proof. exact send_ok. Qed.
Print Assumptions C64_well_formed.
Theorem C64_no_list : forall net w b, (forall l, net (length (w_sent w)) <> Answer (Some (JArr l))) -> snd (snd (batch_send net w b)) <> ROk tt.
Proof. exact send_not_list. Qed.
Print Assumptions C64_no_list.
Example C64_case :
  let b := fst (snd (body (fun _ => Silent) [BCall (T "a") []; BCallId (JStr (T "x")) (T "f") []; BCall (T "b") []] world0 new_batch)) in
  let rs := [JObj [(T "id", JStr (T "x")); (T "error", JObj [(T "code", JInt 5); (T "message", JStr (T "no"))])];
             JObj [(T "id", JInt 3); (T "result", JInt 33)]; JObj [(T "result", JInt 22); (T "id", JInt 2)]] in
  let b' := fst (snd (batch_send (fun _ => Answer (Some (JArr rs))) world0 b)) in
  built b /\ Forall ok_response rs /\ get_result b' (JInt 2) None = ROk (JInt 22) /\ get_result b' (JInt 3) None = ROk (JInt 33) /\
  get_result b' (JStr (T "x")) None = RRaise (XMethod (T "f") (JInt 5) JNull (JStr (T "no"))) /\
  get_result b' (JStr (T "x")) (Some JNull) = ROk JNull /\ get_result b' (JInt 4) None = RRaise (XPy EKey).
Proof.
  cbn zeta. split; [repeat eexists|]. split; [|vm_compute; auto].
  repeat (constructor; [eexists; split; [reflexivity|]; split; [intros i H; vm_compute in H; injection H as <-; split; discriminate|discriminate]|]). constructor.
Qed.
(** Two responses for one id: a result wins over an error, and the last result over others. *)
Example C64_twice :
  let b rs := fst (snd (batch_send (fun _ => Answer (Some (JArr rs))) world0 new_batch)) in
  let r v := JObj [(T "id", JInt 2); (T "result", JInt v)] in
  get_result (b [r 1%Z; r 2%Z; JObj [(T "id", JInt 2); (T "error", JNull)]]) (JInt 2) None = ROk (JInt 2) /\
  get_result (b [r 2%Z; r 1%Z]) (JInt 2) None = ROk (JInt 1).
Proof. vm_compute. auto. Qed.

(** ** C65 *)
(** A body that does not call send itself: one request with all its calls, in order, or none *)
Theorem C65_sent_once_or_not : forall net l w, ~ In BSend l ->
  (quiet l -> ~ In BAbandon l -> w_sent (fst (with_batch net l w)) = JArr (requests (w_id w + 1) l) :: w_sent w) /\
  (quiet l -> In BAbandon l -> w_sent (fst (with_batch net l w)) = w_sent w /\ snd (snd (with_batch net l w)) = ROk tt) /\
  (~ quiet l -> w_sent (fst (with_batch net l w)) = w_sent w /\ exists e, snd (snd (with_batch net l w)) = RRaise e).
Proof. exact with_sends. Qed.
Print Assumptions C65_sent_once_or_not.
(** Any body: what leaving adds to the requests of the body *)
Theorem C65_leaving_sends : forall net l w wb b r, body net l w new_batch = (wb, (b, r)) ->
  w_sent (fst (with_batch net l w)) =
    match r with ROk _ => if b_abandoned b then w_sent wb else JArr (b_calls b) :: w_sent wb | _ => w_sent wb end.
Proof. exact leaving_sends. Qed.
Print Assumptions C65_leaving_sends.
Example C65_case :
  let l := [BCall (T "a") [(T "k", JInt 1)]; BNotify (T "n") []; BCallId (JStr (T "x")) (T "b") []] in
  ~ In BSend l /\ quiet l /\ ~ In BAbandon l /\ requests 2 l = [wire_call (T "a") [(T "k", JInt 1)] (JInt 2); wire_notification (T "n") []; wire_call (T "b") [] (JStr (T "x"))] /\
  ~ quiet (l ++ [BCallId (JStr (T "x")) (T "c") []]) /\ ~ quiet (l ++ [BRaise (XPy EOther)]).
Proof.
  cbn zeta. split; [cbn; intuition discriminate|]. split; [|split; [cbn; intuition discriminate|split; [reflexivity|split]]].
  - split; [cbn; intuition discriminate|]. split.
    + intros i m p [H|[H|[H|[]]]]; try discriminate. injection H as <- _ _. split; discriminate.
    + intros a b i j m m' p p' A B _. destruct a as [|[|[|[|a]]]]; cbn in A; try discriminate. destruct b as [|[|[|[|b]]]]; cbn in B; try discriminate. reflexivity.
  - intros (_ & _ & U). specialize (U 2 3 _ _ _ _ _ _ eq_refl eq_refl (or_introl eq_refl)). discriminate.
  - intros (U & _). apply (U (XPy EOther)). cbn. auto 10.
Qed.
(** A body that calls send has sent it already: two requests *)
Example C65_sent_by_body : w_sent (fst (with_batch (fun _ => Answer (Some (JArr []))) [BNotify (T "n") []; BSend] world0)) =
  [JArr [wire_notification (T "n") []]; JArr [wire_notification (T "n") []]].
Proof. reflexivity. Qed.

(** ** C87 *)
Theorem C87_sent_once_without_id : forall net m p w, fst (notify net m p w) = World (w_id w) (wire_notification m p :: w_sent w).
Proof. exact notify_sends. Qed.
Print Assumptions C87_sent_once_without_id.
Theorem C87_answer_ignored : forall net m p w, snd (notify net m p w) =
  match answer_to net w with Unreachable => RRaise XUnreachable | Silent => RHang | Answer _ => ROk tt end.
Proof. exact notify_ends. Qed.
Print Assumptions C87_answer_ignored.
(** An error as answer, no JSON as answer, no answer; the call after it *)
Example C87_case :
  let err := says [(T "jsonrpc", JStr (T "2.0")); (T "error", JObj [(T "code", JInt 1)])] in
  notify err (T "m") [(T "k", JInt 1)] (World 7 []) = (World 7 [wire_notification (T "m") [(T "k", JInt 1)]], ROk tt) /\
  snd (notify (fun _ => Answer None) (T "m") [] world0) = ROk tt /\ snd (notify (fun _ => Unreachable) (T "m") [] world0) = RRaise XUnreachable /\
  id_of (wire_notification (T "m") [(T "id", JInt 1)]) = None /\
  w_sent (fst (call err (T "n") [] (fst (notify err (T "m") [] world0)))) = [wire_call (T "n") [] (JInt 2); wire_notification (T "m") []].
Proof. vm_compute. auto 10. Qed.

(** ** C88 *)
(** After a batch was sent: check passes iff each id has a result in the server's list, and
    otherwise raises what get_result raises for the first that has none. *)
Theorem C88_check : forall net w b w' b' l ids, answered net w l -> batch_send net w b = (w', (b', ROk tt)) ->
  (check b' ids = ROk tt <-> Forall (fun i => result_in i l) ids) /\
  (forall x, check b' ids = RRaise x <->
     exists before i after, ids = before ++ i :: after /\ Forall (fun i => result_in i l) before /\ get_result b' i None = RRaise x).
Proof. exact check_iff. Qed.
Print Assumptions C88_check.
Example C88_case :
  let b := fst (snd (body (fun _ => Silent) [BCall (T "a") []; BCallId (JStr (T "x")) (T "f") []; BCall (T "b") []] world0 new_batch)) in
  let rs := [JObj [(T "id", JStr (T "x")); (T "error", JObj [(T "code", JInt 5); (T "message", JStr (T "no"))])];
             JObj [(T "id", JInt 3); (T "result", JInt 33)]; JObj [(T "id", JInt 2)]] in
  let net := fun _ => Answer (Some (JArr rs)) in
  let b' := fst (snd (batch_send net world0 b)) in
  answered net world0 rs /\ snd (snd (batch_send net world0 b)) = ROk tt /\
  check b' [JInt 3; JInt 2] = ROk tt /\ check b' [JInt 3; JStr (T "x"); JInt 9] = RRaise (XMethod (T "f") (JInt 5) JNull (JStr (T "no"))) /\
  check b' [JInt 3; JInt 9] = RRaise (XPy EKey) /\ result_in (JInt 2) rs.
Proof.
  cbn zeta. repeat (split; [vm_compute; reflexivity|]). eexists. split; [right; right; left; reflexivity|]. split; [|reflexivity].
  split; [reflexivity|]. exists (JInt 2). split; [reflexivity|now left].
Qed.
