(** * Syncs by several threads: dataplicity/client.py:219-309.
      The polling thread syncs every minute (client.py:205) and the m2m thread whenever an
      instruction asks for it (m2mmanager.py:168-169).  What one sync sends is in
      Model_Agent.v; here a sync is taken apart into the steps between which other threads
      can run. *)
From Verif Require Import Py.

(** How the request of a sync ends: any exception up to client.py:245 (nothing answered,
    no JSON, authentication refused), or an answer whose six results are all there or not
    (client.py:297-309). *)
Inductive answer := Failed | Answered (all_set : bool).
(** Where a thread is *)
Inductive place :=
| Out                        (* not in [sync] *)
| Queued                     (* waiting for _sync_lock, client.py:222 *)
| Holding                    (* has the lock, before the test of _sent_meta, client.py:235 *)
| Calling                    (* the batch is under way, client.py:236-245 *)
| Checking (all_set : bool)  (* before [_check_meta], client.py:246 *)
| Leaving.                   (* before the lock is released *)
(** What an observer sees, latest first *)
Inductive sight := Began (t : nat) | Ended (t : nat) (a : answer) | Recorded (t : nat) | Over (t : nat).
Record sstate := SSt {
  s_lock : option nat;                 (* _sync_lock *)
  s_sent : bool;                       (* _sent_meta *)
  s_place : list (nat * place);        (* threads not in the list are [Out] *)
  s_seen : list sight }.
Definition sinit : sstate := SSt None false [] [].
Definition place_of (st : sstate) (t : nat) : place :=
  match dict_get Nat.eqb t (s_place st) with Some p => p | None => Out end.
Definition goes (t : nat) (p : place) (st : sstate) : list (nat * place) := dict_set Nat.eqb t p (s_place st).

Inductive sevent :=
| Call (t : nat)                  (* client.sync() *)
| Acquire (t : nat)
| Test (t : nat)                  (* if not self._sent_meta *)
| Reply (t : nat) (a : answer)    (* the request ends *)
| Record (t : nat)                (* _check_meta *)
| Release (t : nat).              (* the end of [with], also after an exception *)

(** An event that cannot happen changes nothing. *)
Definition sstep (st : sstate) (e : sevent) : sstate :=
  match e with
  | Call t =>
      match place_of st t with
      | Out => SSt (s_lock st) (s_sent st) (goes t Queued st) (s_seen st)
      | _ => st
      end
  | Acquire t =>
      match place_of st t, s_lock st with
      | Queued, None => SSt (Some t) (s_sent st) (goes t Holding st) (s_seen st)
      | _, _ => st
      end
  | Test t => (* client.py:235-245 *)
      match place_of st t with
      | Holding => if s_sent st then SSt (s_lock st) (s_sent st) (goes t Leaving st) (s_seen st)
                   else SSt (s_lock st) (s_sent st) (goes t Calling st) (Began t :: s_seen st)
      | _ => st
      end
  | Reply t a =>
      match place_of st t with
      | Calling => SSt (s_lock st) (s_sent st)
                       (goes t (match a with Failed => Leaving | Answered b => Checking b end) st) (Ended t a :: s_seen st)
      | _ => st
      end
  | Record t => (* client.py:289-309 *)
      match place_of st t with
      | Checking b =>
          if s_sent st then SSt (s_lock st) (s_sent st) (goes t Leaving st) (s_seen st)
          else if b then SSt (s_lock st) true (goes t Leaving st) (Recorded t :: s_seen st)
          else SSt (s_lock st) false (goes t Leaving st) (s_seen st)
      | _ => st
      end
  | Release t =>
      match place_of st t with
      | Leaving => SSt None (s_sent st) (goes t Out st) (Over t :: s_seen st)
      | _ => st
      end
  end.
Definition srun (l : list sevent) (st : sstate) : sstate := fold_left sstep l st.
