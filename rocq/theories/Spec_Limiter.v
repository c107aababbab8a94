(** * What the limiter properties mean *)
From Verif Require Import Py Model_Limiter.
Open Scope Z_scope.

(** A launch is in progress from the moment it is counted until the service is started
    or the count is taken back. *)
Definition launching (p : pc) : bool :=
  match p with
  | IncRelease _ | CtxAcquire _ | Setup _ | Start _ => true
  | DecAcquire (ByLaunch _) | DecTest (ByLaunch _) | DecRead (ByLaunch _) | DecWrite (ByLaunch _) _
  | DecFailed (ByLaunch _) => true
  | _ => false
  end.
(** A service is running until it has given its slot back. *)
Definition serving (p : pc) : bool :=
  match p with
  | Running => true
  | DecAcquire ByService | DecTest ByService | DecRead ByService | DecWrite ByService _ | DecFailed ByService => true
  | _ => false
  end.
Definition count (f : pc -> bool) (st : lstate) : Z := Z.of_nat (length (filter f (l_threads st))).

(** Every assignment starts from the value the assignment before it left: none is lost. *)
Fixpoint chained (log : list lev) (v : Z) : Prop :=
  match log with
  | [] => v = 0
  | Wrote _ old new :: r => v = new /\ (new = old + 1 \/ new = old - 1) /\ chained r old
  | _ :: r => chained r v
  end.

(** What one thread did, in order. *)
Definition of_thread (t : nat) (e : lev) : bool :=
  match e with
  | Wrote u _ _ | Began u _ | Told u _ | HungUp u | Underflow u | SendRaised u | Asked u _ => (u =? t)%nat
  end.
Definition deeds (t : nat) (st : lstate) : list lev := filter (of_thread t) (rev (l_log st)).
(** What the rest of the world sees of it. *)
Definition visible (l : list lev) : list lev :=
  filter (fun e => match e with Wrote _ _ _ => false | _ => true end) l.
(** The net change it made to the counter. *)
Fixpoint net (l : list lev) : Z :=
  match l with
  | [] => 0
  | Wrote _ old new :: r => (new - old) + net r
  | _ :: r => net r
  end.
(** It started a service. *)
Definition began (t : nat) (st : lstate) : Prop := exists s, In (Began t s) (l_log st).
(** A message that tells the peer about the refusal: a busy page for the services that
    carry HTTP or files, text for a terminal, an error control for a command. *)
Definition informs (k : kind) (m : peer_msg) : Prop :=
  match k with
  | KCommand => m = PControl "command" "error" "error"
  | KTerminal => exists d, m = PWrite (B "Failed to launch" ++ d)
  | _ => exists d, m = PWrite (B "HTTP/1.1 503 " ++ d)
  end.
