(** * What is asked of the locks *)
From Verif Require Import Py Model_Locks.

Definition reachable (st : state) : Prop := exists sch, st = run sch init.
Definition finished (st : state) (i : nat) : Prop := exists r, nth_error (threads st) i = Some (Th r []).
(** In a with block of l *)
Definition inside (st : state) (i : nat) (l : lock) : Prop := exists t, nth_error (threads st) i = Some t /\ In (FRelease l) (stack t).
Definition wants (st : state) (i : nat) (l : lock) : Prop := exists p r, nth_error (threads st) i = Some (Th false (FDo (With l p) :: r)).
(** It can go on, if what it is doing has come to its end (see [step]). *)
Definition can_go (st : state) (i : nat) : Prop := step 0 i st <> None.
(** It can go on, or what it waits for is held by a thread that is live. *)
Inductive live (st : state) : nat -> Prop :=
| Goes i : can_go st i -> live st i
| Waits i j l : wants st i l -> inside st j l -> i <> j -> live st j -> live st i.

(** An infinite execution: at time n thread [who n] makes a step *)
Definition execution (who choice : nat -> nat) (st : nat -> state) : Prop :=
  reachable (st 0) /\ forall n, step (choice n) (who n) (st n) = Some (st (S n)).
Definition again_and_again (P : nat -> Prop) : Prop := forall n, exists m, n <= m /\ P m.
(** Thread [i] does not stay for ever at the same place. *)
Definition goes_on (st : nat -> state) (i : nat) : Prop :=
  forall n, exists m, n <= m /\ nth_error (threads (st m)) i <> nth_error (threads (st n)) i.
(** As [live], with no need of thread [k] *)
Inductive live_without (k : nat) (st : state) : nat -> Prop :=
| Goes_without i : i <> k -> can_go st i -> live_without k st i
| Waits_without i j l : i <> k -> wants st i l -> inside st j l -> i <> j -> live_without k st j -> live_without k st i.
