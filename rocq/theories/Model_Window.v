(** * The size of a terminal's window: dataplicity/m2m/remoteprocess.py:108-120,
    dataplicity/m2m/proxy.py:48-125 and 155-159

    The m2m thread handles control data, the process thread starts the terminal; their steps
    interleave.  The parsed JSON is the input; an event that is not enabled changes nothing. *)
From Verif Require Import Py Model_Path Model_Rpc.

(** The process thread *)
Inductive phase :=
| Starting                 (* before pty.fork, proxy.py:64 *)
| Forked                   (* master_fd is set, 65; before _init_fd, 94 *)
| Sizing (b : Z * Z)       (* 123 done, before the ioctl of 125 *)
| Copying                  (* 96 *)
| Ending                   (* os.close done, 100 *)
| Over                     (* returned, or pty.fork raised *)
| Broken.                  (* _init_fd raised, or _copy something that is not caught: master_fd stays set *)
(** The m2m thread *)
Inductive m2m :=
| Idle
| Resizing (size : json)   (* before proxy.py:157 *)
| Stored                   (* before 158 *)
| Checked                  (* before 122 *)
| Packed (b : Z * Z).      (* 123 done, before the ioctl of 125 *)
Record wst := WS {
  size : json;                  (* self.size *)
  phase_of : phase;
  m2m_of : m2m;
  window : option (Z * Z);      (* ws_row and ws_col of the pty, once set *)
  stored : list json }.         (* values assigned to self.size by 157, latest first *)
(** proxy.py:48-55; [None] is replaced by [80, 24].  The initial size comes from a bencoded
    instruction, m2mmanager.py:172: byte strings inside a list, which JSON does not have, are
    no numbers either. *)
Definition winit (size : json) : wst :=
  let size := match size with JNull => JArr [JInt 80; JInt 24] | _ => size end in
  WS size Starting Idle None [].

(** Iterating over a JSON value; a string gives its characters, a dictionary its keys *)
Definition items (j : json) : res (list json) :=
  match j with
  | JArr l => Ok l
  | JStr t => Ok (map (fun c => JStr [c]) t)
  | JObj d => Ok (map (fun e => JStr (fst e)) d)
  | _ => Raise EType
  end.
(** An element of array.array("h", ...) *)
Definition short_int (j : json) : res Z :=
  match j with
  | JInt z => if ((-32768 <=? z) && (z <=? 32767))%Z then Ok z else Raise EOverflow
  | JBool b => Ok (if b then 1 else 0)%Z
  | _ => Raise EType
  end.
(** proxy.py:122-123; the buffer is the C struct winsize: rows first *)
Definition pack (size : json) : res (Z * Z) :=
  l <- items size ;;
  match l with
  | [rows; cols] => a <- short_int cols ;; b <- short_int rows ;; Ok (a, b)
  | _ => Raise EValue
  end.
(** proxy.py:125: the fields of struct winsize are unsigned *)
Definition set_window (b : Z * Z) : option (Z * Z) := Some (fst b mod 65536, snd b mod 65536)%Z.

(** remoteprocess.py:108-120; [None] for data that is not JSON.  [Ok (Some s)]: the terminal
    is to be resized to [s]. *)
Definition on_control (data : option json) : res (option json) :=
  match data with
  | None => Ok None
  | Some (JObj d) =>
      match get_or (T "type") d JNull with
      | JStr t =>
          if text_eqb t (T "window_resize") then
            match dict_get text_eqb (T "size") d with
            | None => Raise EKey
            | Some s =>
                l <- items s ;; (* format( *size ) *)
                match l with _ :: _ :: _ => Ok (Some s) | _ => Raise EIndex end
            end
          else Ok None
      | _ => Ok None
      end
  | Some _ => Raise EAttr
  end.

Inductive event :=
| Control (data : option json)   (* m2m thread: control data for the channel *)
| M2M (ok : bool)                (* m2m thread: its next step; [ok]: of the ioctl *)
| Fork (ok : bool)               (* process thread *)
| InitRead | InitSet (ok : bool) (* process thread: _init_fd *)
| CloseFd | ForgetFd             (* process thread: 100-101 *)
| CopyRaises.                    (* process thread: 96, not an IOError or OSError *)

Definition has_fd (p : phase) : bool := match p with Starting | Over => false | _ => true end.
Definition with_m2m st m := WS (size st) (phase_of st) m (window st) (stored st).
Definition with_phase st p := WS (size st) p (m2m_of st) (window st) (stored st).
Definition with_window st b := WS (size st) (phase_of st) (m2m_of st) (set_window b) (stored st).

Definition wstep (e : event) (st : wst) : wst :=
  match e with
  | Control data =>
      match m2m_of st with
      | Idle => match on_control data with Ok (Some s) => with_m2m st (Resizing s) | _ => st end
      | _ => st
      end
  | M2M ok =>
      match m2m_of st with
      | Idle => st
      | Resizing s => WS s (phase_of st) Stored (window st) (s :: stored st)
      | Stored => with_m2m st (if has_fd (phase_of st) then Checked else Idle)
      | Checked => (* the assertion of 119 fails if the descriptor is gone *)
          if has_fd (phase_of st) then
            match pack (size st) with Ok b => with_m2m st (Packed b) | _ => with_m2m st Idle end
          else with_m2m st Idle
      | Packed b =>
          let st' := with_m2m st Idle in
          match phase_of st with
          | Ending | Over => st' (* closed descriptor *)
          | _ => if ok then with_window st' b else st'
          end
      end
  | Fork ok => match phase_of st with Starting => with_phase st (if ok then Forked else Over) | _ => st end
  | InitRead =>
      match phase_of st with
      | Forked => with_phase st (match pack (size st) with Ok b => Sizing b | _ => Broken end)
      | _ => st
      end
  | InitSet ok =>
      match phase_of st with
      | Sizing b => if ok then with_window (with_phase st Copying) b else with_phase st Broken
      | _ => st
      end
  | CloseFd => match phase_of st with Copying => with_phase st Ending | _ => st end
  | ForgetFd => match phase_of st with Ending => with_phase st Over | _ => st end
  | CopyRaises => match phase_of st with Copying => with_phase st Broken | _ => st end
  end.
Definition wrun (evs : list event) (st : wst) : wst := fold_left (fun s e => wstep e s) evs st.
