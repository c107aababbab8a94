(** * Specification of the window size of terminals (C85, C86) *)
From Verif Require Import Py Model_Rpc Model_Window.

(** A whole number that fits in a signed short; True and False are numbers *)
Inductive number : json -> Z -> Prop :=
| number_int z : (-32768 <= z <= 32767)%Z -> number (JInt z) z
| number_true : number (JBool true) 1
| number_false : number (JBool false) 0.
(** A size the code accepts: columns and lines *)
Inductive shape : json -> Z -> Z -> Prop :=
| shape_pair a b cols lines : number a cols -> number b lines -> shape (JArr [a; b]) cols lines.
Definition proper (s : json) : Prop := exists c l, shape s c l.
(** The latest proper size of a history *)
Inductive latest : list json -> Z -> Z -> Prop :=
| latest_here s h c l : shape s c l -> latest (s :: h) c l
| latest_before s h c l : ~ proper s -> latest h c l -> latest (s :: h) c l.
(** The size a terminal starts with; if none is given, 80 columns and 24 lines *)
Definition initial (s0 : json) : json := match s0 with JNull => JArr [JInt 80; JInt 24] | _ => s0 end.
(** A message that asks for a size with at least two parts *)
Definition asks (j : json) (s : json) : Prop :=
  exists d, j = JObj d /\ dict_get text_eqb (T "type") d = Some (JStr (T "window_resize")) /\ dict_get text_eqb (T "size") d = Some s /\
    match s with JArr l => 2 <= length l | JStr t => 2 <= length t | JObj e => 2 <= length e | _ => False end.

(** No size is stored while the process thread is between reading the size and setting it *)
Definition unhurried_step (st : wst) (e : event) : Prop :=
  match phase_of st, m2m_of st, e with Sizing _, Resizing _, M2M _ => False | _, _, _ => True end.
Definition sets (e : event) : Prop := match e with M2M ok => ok = true | _ => True end.
Fixpoint unhurried (st : wst) (evs : list event) : Prop :=
  match evs with [] => True | e :: r => unhurried_step st e /\ unhurried (wstep e st) r end.
(** What the pty is told: the kernel takes the numbers as unsigned *)
Definition shows (w : option (Z * Z)) (cols lines : Z) : Prop := w = Some (lines mod 65536, cols mod 65536)%Z.
(** The terminal's descriptor is open and the agent knows it. *)
Definition open_window (p : phase) : Prop := match p with Forked | Sizing _ | Copying | Broken => True | Starting | Ending | Over => False end.
