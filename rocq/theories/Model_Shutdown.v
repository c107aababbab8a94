(** * How the agent ends: the main thread with interrupts (client.py:101-309, app.py:158-198), and
    the threads of the process.

    Only the flow of control is modelled: every statement may go well, raise an [Exception] or be
    interrupted by the user (KeyboardInterrupt, which Python raises in the main thread only).
    Which happens is up to the surroundings; so are the tests, as far as they depend on data.
    Statements that take for ever are not modelled here (see C69), nor SystemExit, which nothing
    raises. *)
From Verif Require Import Py.

(** Where the main thread is *)
Inductive place :=
| PClient      (* app.py:158-167, Client() *)
| PClock       (* client.py:103-104 *)
| PPoll        (* client.py:193-194 *)
| PDisk        (* client.py:128-130 *)
| PUsage       (* client.py:131-132 *)
| PBuild       (* filling a batch: client.py:134-147, 158-171, 235-243 *)
| PEncode      (* jsonrpc.py:180-185 *)
| POpen        (* jsonrpc.py:188 *)
| PRead        (* jsonrpc.py:189 *)
| PClose       (* jsonrpc.py:191-192 *)
| PParse       (* jsonrpc.py:195, 132-142 *)
| PTags        (* client.py:152 *)
| PNewTags     (* client.py:157 *)
| PResult      (* client.py:172, 245 *)
| PLock        (* client.py:222 *)
| PSyncId      (* client.py:231-232 *)
| PUnsent      (* client.py:234 *)
| PMeta        (* client.py:255-256 *)
| PMetaCalls   (* client.py:260-287 *)
| PCheck       (* client.py:296-303 *)
| PSyncEnd     (* client.py:249-250 *)
| PLog         (* the logging of an except or else clause *)
| PWait        (* client.py:108 *)
| PUserExit    (* client.py:114-115 *)
| PStop        (* client.py:117 *)
| PJoin        (* client.py:118 *)
| PBye         (* client.py:119-121 *)
| PReport.     (* app.py:191-198 *)
Inductive event := Goes (b : bool) | Fails | Interrupt.
(** Latest first *)
Definition trace := list (place * event).
(** [Endless]: the fuel of the main loop is used up. *)
Inductive out (A : Type) := Val (a : A) | Exc | Int | Endless.
Arguments Val {A} a. Arguments Exc {A}. Arguments Int {A}. Arguments Endless {A}.
Definition M (A : Type) := trace -> trace * out A.

Definition ret {A} (a : A) : M A := fun tr => (tr, Val a).
Definition raise {A} : M A := fun tr => (tr, Exc).
Definition andthen {A B} (m : M A) (k : A -> M B) : M B :=
  fun tr => match m tr with
            | (tr, Val a) => k a tr
            | (tr, Exc) => (tr, Exc)
            | (tr, Int) => (tr, Int)
            | (tr, Endless) => (tr, Endless)
            end.
Notation "x <~ m ;; k" := (andthen m (fun x => k)) (at level 61, m at next level, right associativity).
Notation "m ;;; k" := (andthen m (fun _ => k)) (at level 61, right associativity).
(** try: m, except Exception: h *)
Definition try_exception {A} (m h : M A) : M A := fun tr => match m tr with (tr, Exc) => h tr | r => r end.
(** the same with an else clause *)
Definition try_exception_else {A B} (m : M A) (h : M B) (e : M B) : M B :=
  fun tr => match m tr with
            | (tr, Exc) => h tr
            | (tr, Val _) => e tr
            | (tr, Int) => (tr, Int)
            | (tr, Endless) => (tr, Endless)
            end.
(** try: m, except: h, else: e *)
Definition try_all_else {A B} (m : M A) (h : M B) (e : M B) : M B :=
  fun tr => match m tr with
            | (tr, Exc) | (tr, Int) => h tr
            | (tr, Val _) => e tr
            | (tr, Endless) => (tr, Endless)
            end.
(** try: m, except KeyboardInterrupt: h *)
Definition try_interrupt {A} (m h : M A) : M A := fun tr => match m tr with (tr, Int) => h tr | r => r end.
(** try: m, finally: f *)
Definition finally {A} (m : M A) (f : M unit) : M A :=
  fun tr => match m tr with
            | (tr, Endless) => (tr, Endless)
            | (tr, o) => match f tr with
                         | (tr, Val _) => (tr, o)
                         | (tr, Exc) => (tr, Exc)
                         | (tr, Int) => (tr, Int)
                         | (tr, Endless) => (tr, Endless)
                         end
            end.

Section Main.
  (** What happens at the n-th statement, and whether exit() has been called by then (client.py:123-125) *)
  Variable env : nat -> event.
  Variable exits : nat -> bool.
  Definition test (p : place) : M bool := fun tr =>
    let ev := env (length tr) in
    ((p, ev) :: tr, match ev with Goes b => Val b | Fails => Exc | Interrupt => Int end).
  Definition at_ (p : place) : M unit := test p ;;; ret tt.
  (** exit_event.wait *)
  Definition wait : M bool := fun tr => (_ <~ test PWait ;; ret (exits (length tr))) tr.

  (** jsonrpc.py:179-197, 130-142 [Batch.send]; Batch.__exit__ (98-100) calls it only if nothing was raised. *)
  Definition send : M unit :=
    at_ PEncode ;;;
    try_exception (at_ POpen ;;; finally (at_ PRead) (at_ PClose)) raise ;;;
    at_ PParse.
  (** client.py:127-147 *)
  Definition disk_poll : M unit := due <~ test PDisk ;; if due then at_ PUsage ;;; at_ PBuild ;;; send else ret tt.
  (** client.py:149-189; [Goes false] at [PTags]: TagError *)
  Definition tag_poll : M unit :=
    read <~ test PTags ;;
    if read then
      try_exception (new <~ test PNewTags ;; if new then at_ PBuild ;;; send ;;; at_ PResult else ret tt) (at_ PLog)
    else ret tt.
  (** client.py:252-287 *)
  Definition sync_meta : M unit := try_all_else (at_ PMeta) (at_ PLog) (at_ PMetaCalls).
  (** client.py:289-309 *)
  Definition check_meta : M unit := at_ PLog ;;; try_exception_else (at_ PCheck) (at_ PLog) (at_ PLog).
  (** client.py:227-250 *)
  Definition sync_ : M unit :=
    at_ PSyncId ;;;
    finally (unsent <~ test PUnsent ;; if unsent then at_ PBuild ;;; sync_meta ;;; send ;;; at_ PResult ;;; check_meta else ret tt) (at_ PSyncEnd).
  (** client.py:219-225 *)
  Definition sync : M unit := try_exception (at_ PLock ;;; sync_) (at_ PLog).
  (** client.py:191-205 *)
  Definition poll : M unit := at_ PPoll ;;; try_exception disk_poll (at_ PLog) ;;; try_exception tag_poll (at_ PLog) ;;; sync.
  (** client.py:108-109 *)
  Fixpoint loop (fuel : nat) : M unit :=
    match fuel with
    | O => fun tr => (tr, Endless)
    | S fuel => stop <~ wait ;; if stop then ret tt else poll ;;; loop fuel
    end.
  (** client.py:101-121 *)
  Definition run_forever (fuel : nat) : M unit :=
    at_ PClock ;;;
    finally (try_interrupt (poll ;;; loop fuel) (at_ PUserExit)) (at_ PStop ;;; at_ PJoin ;;; at_ PBye).
  (** run.py:12-14, app.py:189-198 without --debug: the status that is returned *)
  Definition agent (fuel : nat) : M Z :=
    try_exception (at_ PClient ;;; run_forever fuel ;;; ret 0%Z) (at_ PReport ;;; ret (-1)%Z).
End Main.

(** ** Threads *)
(** All threads of the agent, with the places they are made *)
Inductive kind :=
| Main
| M2M          (* wsclient.py:168-203, started in m2mmanager.py:107 *)
| Clock        (* clockcheck.py:22-28, started in client.py:103-104 *)
| Terminal     (* m2mmanager.py:66-67 *)
| PidWait      (* remoteprocess.py:19-26, started in 137-138 *)
| File         (* fileservice.py:34-42 *)
| Command      (* commandservice.py:31-38 *)
| Connection   (* portforward.py:24-29, started in 146-156 *)
| Scan.        (* directory_scanner.py:37-41 *)
(** The daemon flag that is set: wsclient.py:203, clockcheck.py:27, remoteprocess.py:26 *)
Definition daemon_flag (k : kind) : option bool := match k with M2M | Clock | PidWait => Some true | _ => None end.
(** The main thread starts only these (client.py:92-94, 103-104); all others are started in
    answer to packets, in the m2m thread or in one it started. *)
Definition may_start (by_ k : kind) : bool :=
  match by_, k with
  | _, Main => false
  | Main, (M2M | Clock) => true
  | Main, _ => false
  | _, _ => true
  end.
Record thread := Thr { t_kind : kind; t_daemon : bool; t_alive : bool }.
Inductive tevent := Starts (by_ : nat) (k : kind) | Ends (i : nat).
Fixpoint set_dead (i : nat) (l : list thread) : list thread :=
  match l, i with
  | [], _ => []
  | t :: r, O => Thr (t_kind t) (t_daemon t) false :: r
  | t :: r, S i => t :: set_dead i r
  end.
(** threading.Thread takes the daemon flag of the thread that makes it, unless it is set. *)
Definition tstep (e : tevent) (l : list thread) : list thread :=
  match e with
  | Starts i k =>
      match nth_error l i with
      | Some t => if t_alive t && may_start (t_kind t) k
                  then l ++ [Thr k (match daemon_flag k with Some b => b | None => t_daemon t end) true] else l
      | None => l
      end
  | Ends i => set_dead i l
  end.
Definition trun (evs : list tevent) : list thread := fold_left (fun l e => tstep e l) evs [Thr Main false true].
(** The process ends when no thread is left but daemons. *)
Definition process_over (l : list thread) : bool := forallb (fun t => negb (t_alive t) || t_daemon t) l.
