(** * What C107 means *)
From Verif Require Import Py Model_Ids.

(** The ids handed out, in order, and to whom *)
Definition given (l : list nat) : list (nat * Z) := rev (i_given (irun l)).
(** A call takes three steps.  [amid l t]: after the steps [l], thread [t] is in the middle of
    a call. *)
Definition amid (l : list nat) (t : nat) : Prop := (count_occ Nat.eq_dec l t mod 3 <> 0)%nat.
(** Never two threads in the middle of a call at the same time *)
Definition alone (l : list nat) : Prop := forall n t u, amid (firstn n l) t -> amid (firstn n l) u -> t = u.
