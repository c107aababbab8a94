(** * The locks of the agent and the threads that take them

    All code of the agent reduced to what it does with locks, exceptions and threads.  Everything
    else is [Do], which may return, raise, or take any number of steps, even all: tests, files,
    sockets, processes, and the calls of lomond and logging with their own locks. *)
From Verif Require Import Py.

Inductive lock :=
| LTerminals | LServices   (* limiter.py:48, m2mmanager.py:99-100 *)
| LService (s : nat)       (* portforward.py:224 *)
| LConnection (c : nat)    (* portforward.py:35 *)
| LChannel (k : nat)       (* wsclient.py:61 *)
| LCallback                (* wsclient.py:195 *)
| LSync                    (* client.py:50 *)
| LScan.                   (* directory_scanner.py:29 *)
Definition lock_eq (a b : lock) : {a = b} + {a <> b}.
Proof. decide equality; apply Nat.eq_dec. Defined.
(** RLock, or Lock (client.py:50, directory_scanner.py:29) *)
Definition reentrant (l : lock) : bool := match l with LSync | LScan => false | _ => true end.

Inductive prog :=
| Skip | Do | Raise
| Seq (p q : prog)
| Choice (p q : prog)       (* a condition that is left out *)
| Any (f : nat -> prog)     (* for some object *)
| Loop (p : prog)           (* any number of times *)
| With (l : lock) (p : prog)
| Try (p h : prog)          (* except *)
| Finally (p q : prog)
| Start (p : prog).         (* Thread.start; the new thread needs none of these locks to get started *)
Infix "&" := Seq (at level 61, right associativity).
Definition maybe (p : prog) : prog := Choice p Skip.
Fixpoint one_of (l : list prog) : prog := match l with [] => Skip | p :: r => Choice p (one_of r) end.

(** ** The code *)
(** limiter.py:60-72, 74-81 *)
Definition increment (l : lock) : prog := With l Do.
Definition decrement (l : lock) : prog := With l Do.
(** limiter.py:22-34 *)
Definition limited (l : lock) (body : prog) : prog := increment l & With l (Try body (decrement l & Raise)).
(** wsclient.py:152-156, 158-162, 69-72 [Channel.write], [send_control], [close] *)
Definition write (k : nat) : prog := Do & maybe (With (LChannel k) Do).
Definition send_control (k : nat) : prog := maybe (With (LChannel k) Do).
Definition ch_close : prog := maybe Do.

(** portforward.py:190-197, 184-188, 115-122 or 124-131, 199-207 *)
Definition flush (c : nat) : prog := With (LConnection c) Do.
Definition connection_data (c : nat) : prog := With (LConnection c) (Do & flush c).
Definition shutdown (c : nat) : prog := With (LConnection c) Do.
Definition connection_close (c : nat) : prog := With (LConnection c) (Do & flush c & shutdown c).
(** portforward.py:57-113 with 158-182, 49-55 *)
Definition connection_loop (c k : nat) : prog :=
  Finally (Do & maybe (flush c & Loop (Do & maybe (write k)))) (Do & ch_close & shutdown c).
Definition connection (c k : nat) : prog := Finally (connection_loop c k) (decrement LServices).
(** portforward.py:250-265 *)
Definition service_connect (s c k : nat) : prog :=
  Do & Try (limited LServices (With (LService s) Do & Start (connection c k))) (write k & ch_close & Do).
(** portforward.py:337-359 *)
Definition redirect (c k : nat) : prog :=
  Do & Try (limited LServices (Do & Start (connection c k))) (Do & write k & ch_close).

(** remoteprocess.py:19-69 *)
Definition pid_wait : prog := Loop Do.
(** remoteprocess.py:132-141, 122-123 *)
Definition terminal_close : prog := maybe (Do & Try (Start pid_wait) Do).
(** remoteprocess.py:102-106 *)
Definition terminal_data : prog := Try Do ch_close.
(** proxy.py:57-101, 127-159, remoteprocess.py:96-100, 125-127 *)
Definition terminal (k : nat) : prog := Finally (Do & Finally (Loop (Do & maybe (write k))) Do) (decrement LTerminals).
(** m2mmanager.py:39-74 *)
Definition launch (k : nat) : prog :=
  Do & Try (limited LTerminals (Start (terminal k) & Do)) (Do & write k & ch_close).

(** fileservice.py:65-74, 76-103, and 35-48 *)
Definition file_thread (k : nat) : prog :=
  Finally (Try (Finally (Try (Loop (Do & write k)) (maybe (send_control k))) ch_close) (send_control k)) (decrement LServices).
Definition file_service (k : nat) : prog := Do & Try (limited LServices (Do & Start (file_thread k))) (write k & ch_close).
(** commandservice.py:55-64, 66-121, and 31-43 *)
Definition command_thread (k : nat) : prog :=
  Finally (Try (Do & Finally (Try (Loop (Do & maybe (write k))) (maybe (send_control k))) (send_control k & ch_close & Try Do Do)) (send_control k)) (decrement LServices).
Definition command_service (k : nat) : prog := Do & Try (limited LServices (Do & Start (command_thread k))) (send_control k & ch_close).

(** client.py:219-225, 227-309 *)
Definition sync : prog := Try (With LSync (Finally Do Do)) Do.
(** directory_scanner.py:44-69, 31-42 *)
Definition scan_thread : prog := With LScan (Do & maybe (Try Do Do)).
Definition scan : prog := maybe (Start scan_thread).

(** m2mmanager.py:150-194 *)
Definition instruction : prog :=
  Do & one_of [sync; Any launch; Do; Any (fun s => Any (fun c => Any (fun k => service_connect s c k)));
               Any (fun c => Any (fun k => redirect c k)); Any file_service; Any command_service; scan].

(** wsclient.py:89-99 [Channel.on_data]: the callbacks of a terminal, an echo (echoservice.py:28-30) or a connection, or none *)
Definition on_data (k : nat) : prog := maybe (one_of [terminal_data; write k; Any connection_data; With (LChannel k) Do]).
(** wsclient.py:74-83 [Channel.on_close] *)
Definition on_close : prog := maybe (Try (one_of [terminal_close; Any connection_close]) Do).
(** wsclient.py:221-229, 231-239; the agent adds no callbacks *)
Definition callback : prog := With LCallback (maybe (Try Do Do)).
(** wsclient.py:266-300, 316-470; all that is not listed is [Do] *)
Definition event : prog :=
  one_of [ Do                                   (* on_ready, sync_identity, files, pings, ... *)
         ; callback & Loop on_close             (* on_disconnected, hard_close_channels *)
         ; Do & Any on_data                     (* handle_route *)
         ; Do & on_close                        (* on_notify_close *)
         ; callback                             (* on_response *)
         ; Try instruction Do                   (* on_instruction_packet *)
         ; Try scan Do ].                       (* on_scan_remote_directory *)
(** wsclient.py:258-274 *)
Definition m2m : prog := Try (Loop (Do & Try event Do)) Do & Do.
(** clockcheck.py:30-38 *)
Definition clock : prog := Loop Do.
(** client.py:67-121, 191-205 *)
Definition main : prog :=
  Do & Start m2m & Do & Start clock & Finally (Try (Loop (Do & sync)) Do) Do.

(** ** Execution *)
(** What a thread still has to do, innermost first *)
Inductive frame := FDo (p : prog) | FRelease (l : lock) | FCatch (h : prog) | FFinally (q : prog) | FReraise.
Record thread := Th { raising : bool; stack : list frame }.
Record state := St { threads : list thread; owner : lock -> option (nat * nat) (* who, how often *) }.
Definition init : state := St [Th false [FDo main]] (fun _ => None).

Fixpoint update {A} (i : nat) (x : A) (l : list A) : list A :=
  match l, i with
  | [], _ => []
  | _ :: r, O => x :: r
  | a :: r, S j => a :: update j x r
  end.
Definition set_owner (l : lock) (o : option (nat * nat)) (st : state) : state :=
  St (threads st) (fun l' => if lock_eq l l' then o else owner st l').
Definition set_thread (i : nat) (t : thread) (st : state) : state := St (update i t (threads st)) (owner st).
Definition add_thread (t : thread) (st : state) : state := St (threads st ++ [t]) (owner st).
(** [None]: it has to wait. *)
Definition acquire (l : lock) (i : nat) (st : state) : option state :=
  match owner st l with
  | None => Some (set_owner l (Some (i, 1)) st)
  | Some (j, n) => if (i =? j) && reentrant l then Some (set_owner l (Some (i, S n)) st) else None
  end.
Definition release (l : lock) (st : state) : state :=
  match owner st l with
  | Some (j, S (S n)) => set_owner l (Some (j, S n)) st
  | _ => set_owner l None st
  end.
(** One step of thread [i]; [c] decides whatever is open. *)
Definition step (c : nat) (i : nat) (st : state) : option state :=
  match nth_error (threads st) i with
  | None => None
  | Some (Th false (FDo p :: r)) =>
      let goto s := set_thread i (Th false s) st in
      let failed := set_thread i (Th true r) st in
      match p with
      | Skip => Some (goto r)
      | Do => Some (match c with 0 => goto r | 1 => failed | _ => st (* still at it *) end)
      | Raise => Some failed
      | Seq p q => Some (goto (FDo p :: FDo q :: r))
      | Choice p q => Some (goto (FDo (if c =? 0 then p else q) :: r))
      | Any f => Some (goto (FDo (f c) :: r))
      | Loop p => Some (goto (if c =? 0 then r else FDo p :: FDo (Loop p) :: r))
      | With l p => match acquire l i st with Some st' => Some (set_thread i (Th false (FDo p :: FRelease l :: r)) st') | None => None end
      | Try p h => Some (goto (FDo p :: FCatch h :: r))
      | Finally p q => Some (goto (FDo p :: FFinally q :: r))
      | Start p => Some (if c =? 0 then add_thread (Th false [FDo p]) (goto r) else failed)
      end
  | Some (Th false (FRelease l :: r)) => Some (set_thread i (Th false r) (release l st))
  | Some (Th false (FCatch _ :: r)) => Some (set_thread i (Th false r) st)
  | Some (Th false (FFinally q :: r)) => Some (set_thread i (Th false (FDo q :: r)) st)
  | Some (Th false (FReraise :: r)) => Some (set_thread i (Th true r) st)
  | Some (Th true (FDo _ :: r)) => Some (set_thread i (Th true r) st)
  | Some (Th true (FRelease l :: r)) => Some (set_thread i (Th true r) (release l st))
  | Some (Th true (FCatch h :: r)) => Some (set_thread i (Th false (FDo h :: r)) st)
  | Some (Th true (FFinally q :: r)) => Some (set_thread i (Th false (FDo q :: FReraise :: r)) st)
  | Some (Th true (FReraise :: r)) => Some (set_thread i (Th true r) st)
  | Some (Th _ []) => None
  end.
(** A schedule: which thread, and what is decided; a thread that has to wait is passed over. *)
Fixpoint run (sch : list (nat * nat)) (st : state) : state :=
  match sch with
  | [] => st
  | (i, c) :: r => run r (match step c i st with Some st' => st' | None => st end)
  end.
