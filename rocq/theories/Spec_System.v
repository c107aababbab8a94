(** * What C98 to C102 mean *)
From Verif Require Import Py Model_Bencode Model_Packets Model_Client Spec_Client Model_Path Model_Remote Spec_Remote Model_Manager.
From Verif Require Spec_Manager.

(** [out]: what the elements of [l] stand for, in order; some stand for nothing. *)
Inductive each {A X} (R : A -> X -> Prop) : list A -> list X -> Prop :=
| each_nil : each R [] []
| each_one a x l out : R a x -> each R l out -> each R (a :: l) (x :: out)
| each_none a l out : (forall x, ~ R a x) -> each R l out -> each R (a :: l) out.
Definition functional {A X} (R : A -> X -> Prop) : Prop := forall a x y, R a x -> R a y -> x = y.

(** ** C98 *)
(** A call of the manager's on_instruction or of a method of the remote directory *)
Definition is_call (e : effect) : bool :=
  match e with
  | Instruction _ _ | RdOpen _ _ | RdClose _ | RdRead _ _ _ | RdScan | RdWrite _ _ _ _ _ _ => true
  | _ => false
  end.
(** The input is a message asking for the call; more values than the call needs are ignored. *)
Definition calls_for (i : input) (e : effect) : Prop :=
  exists m t vs rest, i = InEvent (EvBinary m) /\ announces m t (vs ++ rest) /\ asks t vs e.

(** ** C99 *)
(** Messages about files *)
Inductive wants : input -> request -> Prop :=
| wants_open m u p : carries m 24 [VBytes u; VBytes p] -> wants (InEvent (EvBinary m)) (ROpen u p)
| wants_close m u : carries m 26 [VBytes u] -> wants (InEvent (EvBinary m)) (RClose u)
| wants_read m u o s : carries m 27 [VBytes u; VInt o; VInt s] -> wants (InEvent (EvBinary m)) (RRead u o s)
| wants_write m i p d o x f : carries m 31 [VBytes i; VBytes p; VBytes d; VInt o; VBytes x; VInt f] ->
    wants (InEvent (EvBinary m)) (RWrite i p d o x f).
Definition call_of (q : request) : effect :=
  match q with
  | ROpen u p => RdOpen (VBytes u) (VBytes p)
  | RClose u => RdClose (VBytes u)
  | RRead u o s => RdRead (VBytes u) (VInt o) (VInt s)
  | RWrite i p d o x f => RdWrite (VBytes i) (VBytes p) (VBytes d) (VInt o) (VBytes x) (VInt f)
  end.
(** No value of the request is longer than sys.maxsize. *)
Definition brief (q : request) : Prop :=
  match q with
  | ROpen u p => short u /\ short p
  | RRead u _ _ | RClose u => short u
  | RWrite i p d _ x _ => short i /\ short p /\ short d /\ short x
  end.
(** The state of affairs that the request after [qs] meets: the files that [qs] left, changed
    by what happened [meanwhile]. *)
Definition meets (meanwhile : nat -> fs -> fs * list (option nat)) (n : nat) (f : fs) : world :=
  W (fst (meanwhile n f)) (snd (meanwhile n f)) [].
Fixpoint left_by (cfg : config) (meanwhile : nat -> fs -> fs * list (option nat)) (n : nat) (f : fs) (qs : list request) : fs :=
  match qs with
  | [] => f
  | q :: r => left_by cfg meanwhile (S n) (w_fs (after (handle cfg q) (meets meanwhile n f))) r
  end.
Definition met_after (cfg : config) (meanwhile : nat -> fs -> fs * list (option nat)) (f : fs) (qs : list request) : world :=
  meets meanwhile (length qs) (left_by cfg meanwhile 0 f qs).

(** ** C100 *)
(** The input is a message with an instruction that asks for the deed. *)
Definition deed_for (m : manager) (i : input) (d : deed) : Prop :=
  exists msg sender data, i = InEvent (EvBinary msg) /\ carries msg 16 [VBytes sender; VDict data] /\
    Spec_Manager.byte_keys data /\ Spec_Manager.asks (terminals m) (services m) data d.

(** ** C101: fetching a file over the wire *)
(** Among what happened, the packet was sent. *)
Definition told (st st' : state) (pk : packet) : Prop :=
  exists new b, adds st st' new /\ In (Sent b) new /\ from_bytes b = Ok pk.
(** The request names neither [l] nor anything above it. *)
Definition leaves (cfg : config) (l : loc) (q : request) : Prop := forall w, spares cfg l w (Request q).
(** The server asks for consecutive chunks until a short one, each reported as a success; in
    between anything may happen that does not name the snapshot [l]. *)
Inductive wire_fetch (env : list effect -> effect -> list (op * bool) * option exn) (error_text : list effect -> text)
    (cfg : config) (l : loc) (u : bytes) (size : nat) : nat -> state -> bytes -> state -> Prop :=
| wf_other o st i st1 r d st' : (forall q, wants i q -> leaves cfg l q) -> step env error_text i st = (st1, r) -> r <> Hang ->
    wire_fetch env error_text cfg l u size o st1 d st' -> wire_fetch env error_text cfg l u size o st d st'
| wf_short o st i st' r pk d : wants i (RRead u (Z.of_nat o) (Z.of_nat size)) -> step env error_text i st = (st', r) -> told st st' pk ->
    field pk "fail" (VInt 0) -> field pk "data" (VBytes d) -> length d < size -> wire_fetch env error_text cfg l u size o st d st'
| wf_more o st i st1 r pk d d' st' : wants i (RRead u (Z.of_nat o) (Z.of_nat size)) -> step env error_text i st = (st1, r) -> told st st1 pk ->
    field pk "fail" (VInt 0) -> field pk "data" (VBytes d) -> length d = size ->
    wire_fetch env error_text cfg l u size (o + size) st1 d' st' -> wire_fetch env error_text cfg l u size o st (d ++ d') st'.
(** Other programs keep the tree of files a tree. *)
Definition sane (meanwhile : nat -> fs -> fs * list (option nat)) : Prop :=
  forall n f, tree f -> tree (fst (meanwhile n f)).

(** From the request number [N] on no other program changes files and no system call fails. *)
Definition calm (meanwhile : nat -> fs -> fs * list (option nat)) (N : nat) : Prop := forall k f, N <= k -> meanwhile k f = (f, []).

(** ** C102: storing a file over the wire *)
(** The server writes chunks to the device path [dp], each reported as a success; in between
    anything may happen that does not name the download file [l].  [js]: all that arrived *)
Inductive wire_store (env : list effect -> effect -> list (op * bool) * option exn) (error_text : list effect -> text)
    (cfg : config) (l : loc) (u dp : bytes) : list input -> list (nat * bytes) -> state -> state -> Prop :=
| ws_nil st : wire_store env error_text cfg l u dp [] [] st st
| ws_chunk j js o d p cs st st1 r pk st' : wants j (RWrite u p dp (Z.of_nat o) d 0) -> step env error_text j st = (st1, r) -> told st st1 pk ->
    field pk "fail" (VInt 0) -> wire_store env error_text cfg l u dp js cs st1 st' -> wire_store env error_text cfg l u dp (j :: js) ((o, d) :: cs) st st'
| ws_other j js cs st st1 r st' : (forall q, wants j q -> leaves cfg l q) -> step env error_text j st = (st1, r) -> r <> Hang ->
    wire_store env error_text cfg l u dp js cs st1 st' -> wire_store env error_text cfg l u dp (j :: js) cs st st'.
