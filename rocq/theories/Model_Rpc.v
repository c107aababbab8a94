(** * JSON-RPC client: dataplicity/jsonrpc.py.  Logging is left out. *)
From Verif Require Import Py Model_Path.

(** ** JSON values, as json.loads gives them *)
(** A float: equal to an integer, any other number (by its bits), or NaN *)
Inductive num := FInt (z : Z) | FOther (n : N) | FNaN.
Inductive json :=
| JNull
| JBool (b : bool)
| JInt (z : Z)
| JFloat (f : num)
| JStr (t : text)
| JArr (l : list json)
| JObj (d : list (text * json)).

(** Values as dictionary keys and members of sets: Python's equality and hash, so True, 1 and
    1.0 are the same key.  json.loads always gives the same NaN object.  [None]: unhashable. *)
Inductive hkey := KNull | KNum (z : Z) | KOther (n : N) | KNaN | KStr (t : text).
Definition key_of (j : json) : option hkey :=
  match j with
  | JNull => Some KNull
  | JBool b => Some (KNum (if b then 1 else 0))
  | JInt z => Some (KNum z)
  | JFloat (FInt z) => Some (KNum z)
  | JFloat (FOther n) => Some (KOther n)
  | JFloat FNaN => Some KNaN
  | JStr t => Some (KStr t)
  | JArr _ | JObj _ => None
  end.
Definition key_eqb (a b : hkey) : bool :=
  match a, b with
  | KNull, KNull => true
  | KNum x, KNum y => (x =? y)%Z
  | KOther x, KOther y => (x =? y)%N
  | KNaN, KNaN => true
  | KStr x, KStr y => text_eqb x y
  | _, _ => false
  end.
(** [k in s] for strings *)
Fixpoint has_substring (k s : text) : bool :=
  starts_with k s || match s with [] => false | _ :: r => has_substring k r end.
(** [k in j] for a string [k]; [None]: TypeError *)
Definition contains (k : text) (j : json) : option bool :=
  match j with
  | JObj d => Some (dict_mem text_eqb k d)
  | JArr l => Some (existsb (fun x => match x with JStr t => text_eqb t k | _ => false end) l)
  | JStr s => Some (has_substring k s)
  | _ => None
  end.
(** d.get(k, default) *)
Definition get_or (k : text) (d : list (text * json)) (default : json) : json :=
  match dict_get text_eqb k d with Some v => v | None => default end.

(** ** Exceptions, jsonrpc.py:13-48 *)
Inductive rexn :=
| XUnreachable                                         (* ServerUnreachableError *)
| XInvalidResponse                                     (* InvalidResponseError *)
| XProtocol                                            (* ProtocolError *)
| XRemote (method : text) (code data message : json)   (* RemoteError *)
| XMethod (method : text) (code data message : json)   (* RemoteMethodError *)
| XPy (e : exn).
Inductive rres (A : Type) := ROk (a : A) | RRaise (e : rexn) | RHang.
Arguments ROk {A} a.
Arguments RRaise {A} e.
Arguments RHang {A}.
Definition rbind {A B} (r : rres A) (k : A -> rres B) : rres B :=
  match r with ROk a => k a | RRaise e => RRaise e | RHang => RHang end.
Notation "x <~ r ;; k" := (rbind r (fun x => k)) (at level 61, r at next level, right associativity).

(** 60-66 ErrorCode.to_str *)
Definition code_names : list (Z * text) :=
  [(-32700, T "Parse error"); (-32600, T "Invalid Request"); (-32601, T "Method not found");
   (-32602, T "Invalid params"); (-32603, T "Internal error")]%Z.
(** 169 *)
Definition unknown_error_msg : text := T "the server did not supply further information".
(** 236-250 _handle_error: always raises *)
Definition handle_error (method : text) (error : json) : rexn :=
  match error with
  | JObj d =>
      let code := get_or (T "code") d JNull in
      let other := XMethod method code (get_or (T "data") d JNull) (get_or (T "message") d (JStr unknown_error_msg)) in
      match key_of code with
      | None => XPy EType
      | Some (KNum z) =>
          match dict_get Z.eqb z code_names with
          | Some name => XRemote method code (get_or (T "data") d JNull) (get_or (T "message") d (JStr name))
          | None => other
          end
      | Some _ => other
      end
  | _ => XPy EAttr
  end.

(** ** The network *)
(** What becomes of a request: urlopen, read or decode raise; nothing ever comes back (urlopen
    has no time limit, jsonrpc.py:188); or a text, [None] if it is not JSON. *)
Inductive reply := Unreachable | Silent | Answer (j : option json).
Record world := World {
  w_id : Z;                 (* JSONRPC.call_id *)
  w_sent : list json }.     (* requests, latest first *)
(** 171-173 *)
Definition world0 : world := World 1 [].

Section Net.
  Variable net : nat -> reply.   (* reply to the n-th request *)

  (** 175-177 *)
  Definition new_call_id (w : world) : world * Z := (World (w_id w + 1) (w_sent w), (w_id w + 1)%Z).
  (** 179-197 _send, before json.loads *)
  Definition send (call : json) (w : world) : world * rres (option json) :=
    (World (w_id w) (call :: w_sent w),
     match net (length (w_sent w)) with
     | Unreachable => RRaise XUnreachable
     | Silent => RHang
     | Answer j => ROk j
     end).
  Definition call_json (method : text) (params : list (text * json)) (id : json) : json :=
    JObj [(T "jsonrpc", JStr (T "2.0")); (T "method", JStr method); (T "params", JObj params); (T "id", id)].
  Definition notify_json (method : text) (params : list (text * json)) : json :=
    JObj [(T "jsonrpc", JStr (T "2.0")); (T "method", JStr method); (T "params", JObj params)].
  (** 210-225: what is made of the response.  Of a response that is no object only those with
      both strings in them get to 213, where subscripting by a string raises TypeError. *)
  Definition read_response (method : text) (call_id : Z) (response : json) : rres json :=
    match contains (T "jsonrpc") response with
    | None => RRaise (XPy EType)
    | Some false => RRaise XProtocol
    | Some true =>
        match contains (T "id") response with
        | None => RRaise (XPy EType)
        | Some false => RRaise XProtocol
        | Some true =>
            match response with
            | JObj d =>
                match dict_get text_eqb (T "jsonrpc") d, dict_get text_eqb (T "id") d with
                | Some version, Some id =>
                    match version with
                    | JStr v =>
                        if text_eqb v (T "2.0") then
                          match key_of id with
                          | Some (KNum z) =>
                              if (z =? call_id)%Z then
                                match dict_get text_eqb (T "error") d with
                                | Some error => RRaise (handle_error method error)
                                | None => ROk (get_or (T "result") d JNull)
                                end
                              else RRaise XProtocol
                          | _ => RRaise XProtocol
                          end
                        else RRaise XProtocol
                    | _ => RRaise XProtocol
                    end
                | _, _ => RRaise (XPy EKey)
                end
            | _ => RRaise (XPy EType)
            end
        end
    end.
  (** 199-225 call *)
  Definition call (method : text) (params : list (text * json)) (w : world) : world * rres json :=
    let (w, id) := new_call_id w in
    let (w, r) := send (call_json method params (JInt id)) w in
    (w, response <~ r;;
        match response with
        | None => RRaise XInvalidResponse
        | Some j => read_response method id j
        end).
  (** 227-230 notify *)
  Definition notify (method : text) (params : list (text * json)) (w : world) : world * rres unit :=
    let (w, r) := send (notify_json method params) w in
    (w, _ <~ r;; ROk tt).

  (** ** Batches, 69-163 *)
  Record batch := Batch {
    b_calls : list json;
    b_ids : list hkey;                              (* ids_used *)
    b_methods : list (hkey * text);
    b_abandoned : bool;
    b_errors : option (list (hkey * json));
    b_results : option (list (hkey * json)) }.
  (** 83-93 *)
  Definition new_batch : batch := Batch [] [] [] false None None.
  (** 102-111 *)
  Definition batch_call (method : text) (params : list (text * json)) (w : world) (b : batch) : world * batch :=
    let (w, id) := new_call_id w in
    (w, Batch (b_calls b ++ [call_json method params (JInt id)]) (b_ids b) (dict_set key_eqb (KNum id) method (b_methods b))
              (b_abandoned b) (b_errors b) (b_results b)).
  (** 113-120 *)
  Definition batch_call_with_id (id : json) (method : text) (params : list (text * json)) (b : batch) : rres batch :=
    match key_of id with
    | None => RRaise (XPy EType)
    | Some k =>
        if existsb (key_eqb k) (b_ids b) then RRaise (XPy EValue)
        else ROk (Batch (b_calls b ++ [call_json method params id]) (k :: b_ids b) (dict_set key_eqb k method (b_methods b))
                        (b_abandoned b) (b_errors b) (b_results b))
    end.
  (** 122-128 *)
  Definition batch_notify (method : text) (params : list (text * json)) (b : batch) : batch :=
    Batch (b_calls b ++ [notify_json method params]) (b_ids b) (b_methods b) (b_abandoned b) (b_errors b) (b_results b).
  (** 161-163 *)
  Definition abandon (b : batch) : batch := Batch (b_calls b) (b_ids b) (b_methods b) true (b_errors b) (b_results b).

  (** 138-140: all the responses are objects *)
  Fixpoint objects (l : list json) : rres (list (list (text * json))) :=
    match l with
    | [] => ROk []
    | JObj d :: r => ds <~ objects r;; ROk (d :: ds)
    | _ :: _ => RRaise (XPy EAttr)
    end.
  (** 141 *)
  Fixpoint errors_of (acc : list (hkey * json)) (l : list (list (text * json))) : rres (list (hkey * json)) :=
    match l with
    | [] => ROk acc
    | d :: r =>
        match dict_get text_eqb (T "error") d with
        | None => errors_of acc r
        | Some e =>
            match dict_get text_eqb (T "id") d with
            | None => RRaise (XPy EKey)
            | Some id => match key_of id with
                         | None => RRaise (XPy EType)
                         | Some k => errors_of (dict_set key_eqb k e acc) r
                         end
            end
        end
    end.
  (** 142 *)
  Fixpoint results_of (acc : list (hkey * json)) (l : list (list (text * json))) : rres (list (hkey * json)) :=
    match l with
    | [] => ROk acc
    | d :: r =>
        match dict_get text_eqb (T "id") d, dict_get text_eqb (T "error") d with
        | Some id, None => match key_of id with
                           | None => RRaise (XPy EType)
                           | Some k => results_of (dict_set key_eqb k (JObj d) acc) r
                           end
        | _, _ => results_of acc r
        end
    end.
  (** 133-142 *)
  Definition batch_read (response : option json) (b : batch) : batch * rres unit :=
    match response with
    | None => (b, RRaise (XPy EValue))
    | Some (JArr l) =>
        match ds <~ objects l;; es <~ errors_of [] ds;; ROk (ds, es) with
        | ROk (ds, es) =>
            let b := Batch (b_calls b) (b_ids b) (b_methods b) (b_abandoned b) (Some es) (b_results b) in
            match results_of [] ds with
            | ROk rs => (Batch (b_calls b) (b_ids b) (b_methods b) (b_abandoned b) (b_errors b) (Some rs), ROk tt)
            | RRaise e => (b, RRaise e)
            | RHang => (b, RHang)
            end
        | RRaise e => (b, RRaise e)
        | RHang => (b, RHang)
        end
    | Some _ => (b, RRaise XProtocol)
    end.
  (** 130-142 send *)
  Definition batch_send (w : world) (b : batch) : world * (batch * rres unit) :=
    let (w, r) := send (JArr (b_calls b)) w in
    (w, match r with
        | ROk response => batch_read response b
        | RRaise e => (b, RRaise e)
        | RHang => (b, RHang)
        end).
  (** 144-154 get_result *)
  Definition get_result (b : batch) (call_id : json) (default : option json) : rres json :=
    match b_results b with
    | None => RRaise (XPy EType)
    | Some rs =>
        match key_of call_id with
        | None => RRaise (XPy EType)
        | Some k =>
            match dict_get key_eqb k rs with
            | Some (JObj d) => ROk (get_or (T "result") d JNull)
            | Some _ => RRaise (XPy EAttr)
            | None =>
                match b_errors b with
                | None => RRaise (XPy EType)
                | Some es =>
                    match dict_get key_eqb k es with
                    | Some e =>
                        match default with
                        | None => match dict_get key_eqb k (b_methods b) with
                                  | Some m => RRaise (handle_error m e)
                                  | None => RRaise (XPy EKey)
                                  end
                        | Some v => ROk v
                        end
                    | None => RRaise (XPy EKey)
                    end
                end
            end
        end
    end.
  (** 156-159 check *)
  Fixpoint check (b : batch) (ids : list json) : rres unit :=
    match ids with
    | [] => ROk tt
    | i :: r => _ <~ get_result b i None;; check b r
    end.

  (** ** The with statement, 95-100 *)
  (** What the body of a with statement may do with the batch *)
  Inductive bop :=
  | BCall (method : text) (params : list (text * json))
  | BCallId (id : json) (method : text) (params : list (text * json))
  | BNotify (method : text) (params : list (text * json))
  | BAbandon
  | BSend
  | BRaise (e : rexn).
  Definition bstep (o : bop) (w : world) (b : batch) : world * (batch * rres unit) :=
    match o with
    | BCall m p => let (w, b) := batch_call m p w b in (w, (b, ROk tt))
    | BCallId i m p => (w, match batch_call_with_id i m p b with
                           | ROk b => (b, ROk tt)
                           | RRaise e => (b, RRaise e)
                           | RHang => (b, RHang)
                           end)
    | BNotify m p => (w, (batch_notify m p b, ROk tt))
    | BAbandon => (w, (abandon b, ROk tt))
    | BSend => batch_send w b
    | BRaise e => (w, (b, RRaise e))
    end.
  Fixpoint body (l : list bop) (w : world) (b : batch) : world * (batch * rres unit) :=
    match l with
    | [] => (w, (b, ROk tt))
    | o :: r => match bstep o w b with
                | (w, (b, ROk _)) => body r w b
                | stopped => stopped
                end
    end.
  (** with client.batch() as batch: ... *)
  Definition with_batch (l : list bop) (w : world) : world * (batch * rres unit) :=
    match body l w new_batch with
    | (w, (b, ROk _)) => if b_abandoned b then (w, (b, ROk tt)) else batch_send w b
    | stopped => stopped
    end.

  (** ** A program that uses one client: calls, and any number of batches at the same time *)
  Inductive rop :=
  | OCall (method : text) (params : list (text * json))
  | ONotify (method : text) (params : list (text * json))
  | OBatch                                   (* client.batch() *)
  | OStep (n : nat) (o : bop).               (* on the n-th batch *)
  Record rstate := RS {
    r_world : world;
    r_batches : list batch;
    r_made : list json }.                    (* the objects of call (202) and Batch.call (104-109), in order *)
  Definition replace {A} (n : nat) (x : A) (l : list A) : list A := firstn n l ++ match skipn n l with [] => [] | _ :: r => x :: r end.
  (** Exceptions go to the caller, who carries on. *)
  Definition rstep (s : rstate) (o : rop) : rstate :=
    match o with
    | OCall m p =>
        let w := fst (call m p (r_world s)) in
        RS w (r_batches s) (r_made s ++ firstn 1 (w_sent w))
    | ONotify m p => RS (fst (notify m p (r_world s))) (r_batches s) (r_made s)
    | OBatch => RS (r_world s) (r_batches s ++ [new_batch]) (r_made s)
    | OStep n o =>
        match nth_error (r_batches s) n with
        | None => s
        | Some b =>
            match bstep o (r_world s) b with
            | (w, (b', _)) =>
                RS w (replace n b' (r_batches s))
                   (r_made s ++ match o with BCall _ _ => skipn (length (b_calls b)) (b_calls b') | _ => [] end)
            end
        end
    end.
  Definition rrun (l : list rop) (s : rstate) : rstate := fold_left rstep l s.
End Net.
