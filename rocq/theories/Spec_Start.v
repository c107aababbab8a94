(** * What C94 and C95 mean *)
From Verif Require Import Py Model_Manager Spec_Manager Model_Start.

(** ** C94 *)
(** The text with the line ends of any system turned into LF *)
Inductive unix_lines : text -> text -> Prop :=
| ul_nil : unix_lines [] []
| ul_crlf r r' : unix_lines r r' -> unix_lines (13 :: 10 :: r)%N (10 :: r')%N
| ul_cr r r' : (forall x, r <> (10 :: x)%N) -> unix_lines r r' -> unix_lines (13 :: r)%N (10 :: r')%N
| ul_other c r r' : c <> 13%N -> unix_lines r r' -> unix_lines (c :: r) (c :: r').
(** [v] is [t] without the white space around it *)
Definition trimmed (t v : text) : Prop :=
  exists a b, t = a ++ v ++ b /\ Forall (fun c => ws_text c = true) a /\ Forall (fun c => ws_text c = true) b /\
    (forall c r, v = c :: r -> ws_text c = false) /\ (forall r c, v = r ++ [c] -> ws_text c = false).
(** The value meant by an option and the file that stands in for it *)
Inductive meant (f : file) : option text -> text -> Prop :=
| meant_given v : v <> [] -> meant f (Some v) v
| meant_file given b t t' v : (given = None \/ given = Some []) -> f = Contents b -> utf8_decode b = Some t ->
    unix_lines t t' -> trimmed t' v -> meant f given v.
(** Why there is no such value *)
Inductive unreadable (f : file) (given : option text) : exn -> Prop :=
| ur_none : (given = None \/ given = Some []) -> f = Missing \/ f = Failing -> unreadable f given EOS
| ur_bytes b : (given = None \/ given = Some []) -> f = Contents b -> utf8_decode b = None -> unreadable f given EUnicodeDecode.
(** The value of an option that has a default *)
Inductive or_default (default : text) : option text -> text -> Prop :=
| od_given v : v <> [] -> or_default default (Some v) v
| od_none : or_default default None default
| od_empty : or_default default (Some []) default.

(** ** C95 *)
(** A moment of the construction: the first [k] things have become visible. *)
Definition startup : list visible -> Prop := fun l => exists o d h c full, construct o d h = (Ok c, full) /\
  exists later, full = l ++ later /\ l <> [].
Definition finished (l : list visible) : Prop := exists o d h c, construct o d h = (Ok c, l).
(** The instruction needs a terminal, or the port forwards. *)
Definition opens_terminal (data : list (val * val)) : Prop := named data "action" (VText (T "open-terminal")).
Definition opens_forward (data : list (val * val)) : Prop :=
  named data "action" (VText (T "open-portforward")) \/ named data "action" (VText (T "open-portredirect")).
