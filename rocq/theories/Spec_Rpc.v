(** * What is asked of the JSON-RPC client, without its helpers *)
From Verif Require Import Py Model_Rpc.

(** Member of a JSON object *)
Definition member (k : string) (d : list (text * json)) : option json := dict_get text_eqb (T k) d.
Definition id_of (j : json) : option json := match j with JObj d => member "id" d | _ => None end.

(** Python's idea of a number: 2 == 2.0, True == 1 *)
Definition number (j : json) : option Z :=
  match j with
  | JInt z | JFloat (FInt z) => Some z
  | JBool b => Some (if b then 1 else 0)%Z
  | _ => None
  end.
Definition same_id (i j : json) : Prop := i = j \/ exists z, number i = Some z /\ number j = Some z.
Definition hashable (i : json) : Prop := (forall l, i <> JArr l) /\ (forall d, i <> JObj d).

(** The objects on the wire *)
Definition wire_call (method : text) (params : list (text * json)) (id : json) : json :=
  JObj [(T "jsonrpc", JStr (T "2.0")); (T "method", JStr method); (T "params", JObj params); (T "id", id)].
Definition wire_notification (method : text) (params : list (text * json)) : json :=
  JObj [(T "jsonrpc", JStr (T "2.0")); (T "method", JStr method); (T "params", JObj params)].

(** The client before anything was done with it *)
Definition start : rstate := RS world0 [] [].
(** What the server answers to the next request *)
Definition answer_to (net : nat -> reply) (w : world) : reply := net (length (w_sent w)).

(** C61: [d] answers the call with this id *)
Definition answers (id : Z) (d : list (text * json)) : Prop :=
  member "jsonrpc" d = Some (JStr (T "2.0")) /\
  (exists i, member "id" d = Some i /\ number i = Some id) /\ member "error" d = None.
Definition result_of (d : list (text * json)) : json := match member "result" d with Some v => v | None => JNull end.

(** C62: the reserved codes and their names *)
Inductive reserved : Z -> string -> Prop :=
| R_parse : reserved (-32700) "Parse error"
| R_request : reserved (-32600) "Invalid Request"
| R_method : reserved (-32601) "Method not found"
| R_params : reserved (-32602) "Invalid params"
| R_internal : reserved (-32603) "Internal error".
Definition the (v : option json) (default : json) : json := match v with Some x => x | None => default end.
(** [x] is the exception for error object [e] in the response to a call of [m] *)
Definition describes (m : text) (e : list (text * json)) (x : rexn) : Prop :=
  let code := the (member "code" e) JNull in
  let data := the (member "data" e) JNull in
  (exists z name, number code = Some z /\ reserved z name /\ x = XRemote m code data (the (member "message" e) (JStr (T name)))) \/
  ((forall z name, number code = Some z -> ~ reserved z name) /\
   x = XMethod m code data (the (member "message" e) (JStr (T "the server did not supply further information")))).
Definition plain_code (e : list (text * json)) : Prop := hashable (the (member "code" e) JNull).

(** C61: [d] is a JSON-RPC 2.0 response to the call with this id *)
Definition ours (id : Z) (d : list (text * json)) : Prop :=
  member "jsonrpc" d = Some (JStr (T "2.0")) /\ exists i, member "id" d = Some i /\ number i = Some id.
(** How the call of [m] with this id ends, given what the server answers *)
Inductive call_ends (m : text) (id : Z) : reply -> rres json -> Prop :=
| E_unreachable : call_ends m id Unreachable (RRaise XUnreachable)
| E_silent : call_ends m id Silent RHang
| E_no_json : call_ends m id (Answer None) (RRaise XInvalidResponse)
| E_no_object j x : (forall d, j <> JObj d) -> x = XProtocol \/ x = XPy EType -> call_ends m id (Answer (Some j)) (RRaise x)
| E_not_ours d : ~ ours id d -> call_ends m id (Answer (Some (JObj d))) (RRaise XProtocol)
| E_result d : ours id d -> member "error" d = None -> call_ends m id (Answer (Some (JObj d))) (ROk (result_of d))
| E_error d e x : ours id d -> member "error" d = Some (JObj e) -> plain_code e -> describes m e x ->
    call_ends m id (Answer (Some (JObj d))) (RRaise x)
| E_strange_code d e : ours id d -> member "error" d = Some (JObj e) -> ~ plain_code e ->
    call_ends m id (Answer (Some (JObj d))) (RRaise (XPy EType))
| E_strange_error d e : ours id d -> member "error" d = Some e -> (forall o, e <> JObj o) ->
    call_ends m id (Answer (Some (JObj d))) (RRaise (XPy EAttr)).

(** C63: no two calls have the same id.  Notifications have none. *)
Definition distinct_ids (calls : list json) : Prop :=
  forall a b i j ci cj, nth_error calls a = Some ci -> nth_error calls b = Some cj -> id_of ci = Some i -> id_of cj = Some j ->
    same_id i j -> a = b.

(** C64 *)
(** [r] is the object [d], and its id is [i] *)
Definition responds (i r : json) (d : list (text * json)) : Prop := r = JObj d /\ exists i', member "id" d = Some i' /\ same_id i i'.
Definition ok_response (r : json) : Prop :=
  exists d, r = JObj d /\ (forall i, member "id" d = Some i -> hashable i) /\ (member "error" d <> None -> member "id" d <> None).
Definition answered (net : nat -> reply) (w : world) (l : list json) : Prop := answer_to net w = Answer (Some (JArr l)).
Definition no_response (i : json) (l : list json) : Prop := forall r d, In r l -> ~ responds i r d.
Definition once (i : json) (l : list json) : Prop := forall p q r r' d d', nth_error l p = Some r -> nth_error l q = Some r' ->
  responds i r d -> responds i r' d' -> p = q.
(** The list has a result for the call with this id. *)
Definition result_in (i : json) (l : list json) : Prop := exists d, In (JObj d) l /\ responds i (JObj d) d /\ member "error" d = None.
(** [m] is the method of the last call with id [i] *)
Definition method_in (calls : list json) (i : json) (m : text) : Prop :=
  exists before p i' after, calls = before ++ wire_call m p i' :: after /\ same_id i i' /\
    forall c i2, In c after -> id_of c = Some i2 -> ~ same_id i i2.
(** Batches that a program can make *)
Definition built (b : batch) : Prop := exists net l w, b = fst (snd (body net l w new_batch)).
(** What get_result says of the object that responds *)
Definition reports (b : batch) (i : json) (default : option json) (d : list (text * json)) (r : rres json) : Prop :=
  match member "error" d with
  | None => r = ROk (result_of d)
  | Some e =>
      match default with
      | Some v => r = ROk v
      | None => exists m, method_in (b_calls b) i m /\
          match e with
          | JObj e => plain_code e -> exists x, r = RRaise x /\ describes m e x
          | _ => exists x, r = RRaise x
          end
      end
  end.

(** C65: the requests a body adds to its batch; the next id is [n] *)
Fixpoint requests (n : Z) (l : list bop) : list json :=
  match l with
  | [] => []
  | BCall m p :: r => wire_call m p (JInt n) :: requests (n + 1) r
  | BCallId i m p :: r => wire_call m p i :: requests n r
  | BNotify m p :: r => wire_notification m p :: requests n r
  | _ :: r => requests n r
  end.
(** A body that does not raise *)
Definition quiet (l : list bop) : Prop :=
  (forall e, ~ In (BRaise e) l) /\ (forall i m p, In (BCallId i m p) l -> hashable i) /\
  (forall a b i j m m' p p', nth_error l a = Some (BCallId i m p) -> nth_error l b = Some (BCallId j m' p') -> same_id i j -> a = b).
