(** * Call ids taken by several threads: JSONRPC.new_call_id, dataplicity/jsonrpc.py:171-177

    [self.call_id += 1] reads the attribute and then writes it; [return self.call_id] reads it
    again.  Other threads may run in between. *)
From Verif Require Import Py.

Inductive ipc :=
| IIdle                   (* about to call new_call_id *)
| IRead (v : Z)           (* 176: has read v, not written yet *)
| IWrote.                 (* 176 done, about to read at 177 *)
Record ids := Ids {
  i_call_id : Z;                    (* self.call_id *)
  i_threads : nat -> ipc;
  i_given : list (nat * Z) }.       (* what new_call_id returned, and to whom; latest first *)
(** 171-173 __init__ *)
Definition ids0 : ids := Ids 1 (fun _ => IIdle) [].
Definition goes (f : nat -> ipc) (t : nat) (p : ipc) : nat -> ipc := fun u => if (u =? t)%nat then p else f u.
(** 175-177 new_call_id, one step of thread [t]; a thread calls it again and again *)
Definition istep (t : nat) (s : ids) : ids :=
  match i_threads s t with
  | IIdle => Ids (i_call_id s) (goes (i_threads s) t (IRead (i_call_id s))) (i_given s)
  | IRead v => Ids (v + 1) (goes (i_threads s) t IWrote) (i_given s)
  | IWrote => Ids (i_call_id s) (goes (i_threads s) t IIdle) ((t, i_call_id s) :: i_given s)
  end.
(** The threads that take a step, in order *)
Definition irun (l : list nat) : ids := fold_left (fun s t => istep t s) l ids0.
