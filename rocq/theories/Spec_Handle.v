(** * What C135 means *)
From Verif Require Import Py Model_Handle.

(** All that is done for a terminal is done to its own pty. *)
Definition own_only (st : hst) : Prop := Forall (fun x => match x with (i, w, _) => w = Pty i end) (uses st).
(** The thread of terminal [i] has closed its descriptor. *)
Definition has_closed (st : hst) (i : nat) : Prop := match t_pc (terms st i) with TClosed _ | TForgot _ => True | _ => False end.
(** A run in which closing and forgetting the descriptor exclude the callbacks: none is under
    way when the descriptor is closed, none starts before it is forgotten. *)
Fixpoint exclusive (l : list event) (st : hst) : Prop :=
  match l with
  | [] => True
  | e :: r =>
      match e with
      | CloseFd i => c_pc (terms st i) = CIdle
      | Input i _ | Resize i => match t_pc (terms st i) with TClosed _ => False | _ => True end
      | _ => True
      end /\ exclusive r (hstep e st)
  end.
(** The kernel gives the lowest free number. *)
Definition lowest (st : hst) (fd : nat) : Prop := table st fd = None /\ forall k, k < fd -> table st k <> None.
Fixpoint kernel_like (l : list event) (st : hst) : Prop :=
  match l with
  | [] => True
  | e :: r => match e with Fork _ fd | Opens fd _ => lowest st fd | _ => True end /\ kernel_like r (hstep e st)
  end.
