(** * What C37-C39 mean *)
From Verif Require Import Py Model_Process.

(** How often a signal was sent. *)
Definition times (s : sig) (l : list (sig * Z * child)) : nat :=
  length (filter (fun x => match s, fst (fst x) with SIGHUP, SIGHUP | SIGKILL, SIGKILL => true | _, _ => false end) l).
(** The process exists: it has started and nobody has collected its exit status, so its
    pid cannot be another process's. *)
Definition exists_ (k : child) : Prop := k = Running \/ k = Zombie.
(** The data messages that arrived for the terminal, in order. *)
Definition datas (evs : list event) : list bytes :=
  concat (map (fun e => match e with Data d _ => [d] | _ => [] end) evs).
Definition prefix (a b : bytes) : Prop := exists c, b = a ++ c.
(** All that was printed on the terminal, from its creation on. *)
Definition prints (evs : list event) : bytes :=
  concat (map (fun e => match e with Prints d => d | _ => [] end) evs).
Fixpoint terminal_output (evs : list event) : bytes :=
  match evs with
  | [] => []
  | Fork true :: r => prints r
  | Fork false :: _ => [] (* it could not be created *)
  | _ :: r => terminal_output r
  end.
