(** * Channels used by several threads: dataplicity/m2m/wsclient.py

    The m2m thread opens and closes channels, the threads of services, connections and
    terminals write to them and close them.  Model_Client.v takes each such call as one step;
    here the calls are cut where another thread can come between.  An event that is not
    enabled changes nothing.  Logging is left out. *)
From Verif Require Import Py Model_Client.

(** ** Sending *)
(** What a call asks the server for: 152-156 [write], 158-162 [send_control], 69-72 [close] *)
Inductive request := Data (d : bytes) | Control (c : text) | Close.
(** A packet: the thread and the channel object it comes from, the number on it *)
Record packet := Pk { p_thread : nat; p_object : nat; p_number : Z; p_request : request }.
(** Where the m2m thread is *)
Inductive m2m :=
| Idle
| Deleting (n : Z)               (* in on_notify_close, before 436 *)
| Dropping (objects : list nat). (* in hard_close_channels, 254-257: the channels still to close *)
Record tstate := TSt {
  t_heap : list (Z * bool);      (* every Channel made so far: number and _closed *)
  t_reg : list (Z * nat);        (* WSClient.channels *)
  t_m2m : m2m;
  t_asked : list (nat * (nat * request)); (* threads that found their channel open and have not sent yet *)
  t_sent : list packet }.        (* latest first *)
Definition tinit : tstate := TSt [] [] Idle [] [].

Inductive event :=
| Opened (n : Z)                 (* m2m thread: 241-245 [get_channel], for a packet or an instruction *)
| Closed (n : Z)                 (* m2m thread: 430-435, up to the end of [on_close] *)
| Deleted                        (* m2m thread: 436 *)
| Dropped                        (* m2m thread: 254-257 starts *)
| NextClosed                     (* m2m thread: the loop of 256-257 goes on *)
| Ask (t o : nat) (r : request)  (* thread [t] tests is_closed: 71, 154 or 160 *)
| Send (t : nat).                (* thread [t] sends: 72, 156 or 162.  The lock of 155 and 161 is
                                    held just for that. *)

(** 78 in [on_close]; the second call does nothing, 76-77 *)
Definition close_object (o : nat) (h : list (Z * bool)) : list (Z * bool) := upd o (fun c => (fst c, true)) h.
Definition tstep (st : tstate) (e : event) : tstate :=
  match e, t_m2m st with
  | Opened n, Idle =>
      match dict_get Z.eqb n (t_reg st) with
      | Some _ => st
      | None => TSt (t_heap st ++ [(n, false)]) (dict_set Z.eqb n (length (t_heap st)) (t_reg st)) Idle (t_asked st) (t_sent st)
      end
  | Closed n, Idle =>
      match dict_get Z.eqb n (t_reg st) with
      | None => st
      | Some o => TSt (close_object o (t_heap st)) (t_reg st) (Deleting n) (t_asked st) (t_sent st)
      end
  | Deleted, Deleting n => TSt (t_heap st) (dict_del Z.eqb n (t_reg st)) Idle (t_asked st) (t_sent st)
  | Dropped, Idle => TSt (t_heap st) (t_reg st) (Dropping (map snd (t_reg st))) (t_asked st) (t_sent st)
  | NextClosed, Dropping [] => TSt (t_heap st) (t_reg st) Idle (t_asked st) (t_sent st)
  | NextClosed, Dropping (o :: r) => TSt (close_object o (t_heap st)) (t_reg st) (Dropping r) (t_asked st) (t_sent st)
  | Ask t o r, _ =>
      match dict_get Nat.eqb t (t_asked st), nth_error (t_heap st) o with
      | None, Some (_, false) => TSt (t_heap st) (t_reg st) (t_m2m st) (dict_set Nat.eqb t (o, r) (t_asked st)) (t_sent st)
      | _, _ => st
      end
  | Send t, _ =>
      match dict_get Nat.eqb t (t_asked st) with
      | None => st
      | Some (o, r) =>
          match nth_error (t_heap st) o with
          | None => st
          | Some (n, _) => TSt (t_heap st) (t_reg st) (t_m2m st) (dict_del Nat.eqb t (t_asked st)) (Pk t o n r :: t_sent st)
          end
      end
  | _, _ => st
  end.
Definition trun (l : list event) (st : tstate) : tstate := fold_left tstep l st.

(** ** Reading *)
(** Where a thread in [read] is *)
Inductive rpc :=
| Waiting (count : Z)            (* 131-132, data_event.wait *)
| Entering (count : Z)           (* before the lock of 135 *)
| Taking (count : Z)             (* 137-146, with the lock *)
| Leaving (out : bytes).         (* 147-150, with the lock *)
(** Where the m2m thread in [on_data] is *)
Inductive feeder :=
| Quiet
| Appending (d : bytes)          (* 97-98, with the lock *)
| Signalling.                    (* 99, with the lock *)
(** Who holds the lock *)
Inductive owner := Feeder | Reader (t : nat).
Record bstate := BSt {
  b_deque : list bytes;
  b_flag : bool;                 (* _data_event *)
  b_lock : option owner;
  b_feeder : feeder;
  b_readers : list (nat * rpc);  (* threads in [read] *)
  b_arrived : list bytes;        (* what was appended, latest first *)
  b_taken : list (nat * bytes);  (* what readers took, latest first *)
  b_returned : list (nat * bytes) }. (* what reads returned, latest first *)
Definition binit : bstate := BSt [] false None Quiet [] [] [] [].

Inductive bevent :=
| Arrive (d : bytes)             (* m2m thread: [on_data] takes the lock, 97 *)
| Append                         (* 98 *)
| Signal                         (* 99, and gives the lock back *)
| Read (t : nat) (count : Z) (block : bool) (* thread [t] calls [read], 125-131 *)
| Wake (t : nat)                 (* 132: the event is set *)
| Expire (t : nat)               (* 132-133: the time is up *)
| Enter (t : nat)                (* 135: takes the lock *)
| Take (t : nat)                 (* 137-146 *)
| Leave (t : nat).               (* 147-150, and gives the lock back *)

Definition set_reader (t : nat) (p : rpc) (st : bstate) : bstate :=
  BSt (b_deque st) (b_flag st) (b_lock st) (b_feeder st) (dict_set Nat.eqb t p (b_readers st)) (b_arrived st) (b_taken st) (b_returned st).
Definition bstep (st : bstate) (e : bevent) : bstate :=
  match e with
  | Arrive d =>
      match b_feeder st, b_lock st with
      | Quiet, None => BSt (b_deque st) (b_flag st) (Some Feeder) (Appending d) (b_readers st) (b_arrived st) (b_taken st) (b_returned st)
      | _, _ => st
      end
  | Append =>
      match b_feeder st with
      | Appending d => BSt (b_deque st ++ [d]) (b_flag st) (b_lock st) Signalling (b_readers st) (d :: b_arrived st) (b_taken st) (b_returned st)
      | _ => st
      end
  | Signal =>
      match b_feeder st with
      | Signalling => BSt (b_deque st) true None Quiet (b_readers st) (b_arrived st) (b_taken st) (b_returned st)
      | _ => st
      end
  | Read t count block =>
      match dict_get Nat.eqb t (b_readers st) with
      | None => set_reader t (if block then Waiting count else Entering count) st
      | Some _ => st
      end
  | Wake t =>
      match dict_get Nat.eqb t (b_readers st) with
      | Some (Waiting count) => if b_flag st then set_reader t (Entering count) st else st
      | _ => st
      end
  | Expire t =>
      match dict_get Nat.eqb t (b_readers st) with
      | Some (Waiting _) =>
          BSt (b_deque st) (b_flag st) (b_lock st) (b_feeder st) (dict_del Nat.eqb t (b_readers st)) (b_arrived st) (b_taken st) ((t, []) :: b_returned st)
      | _ => st
      end
  | Enter t =>
      match dict_get Nat.eqb t (b_readers st), b_lock st with
      | Some (Entering count), None =>
          BSt (b_deque st) (b_flag st) (Some (Reader t)) (b_feeder st) (dict_set Nat.eqb t (Taking count) (b_readers st)) (b_arrived st) (b_taken st) (b_returned st)
      | _, _ => st
      end
  | Take t =>
      match dict_get Nat.eqb t (b_readers st) with
      | Some (Taking count) =>
          let '(out, q) := read_loop (b_deque st) count in
          BSt q (b_flag st) (b_lock st) (b_feeder st) (dict_set Nat.eqb t (Leaving out) (b_readers st)) (b_arrived st) ((t, out) :: b_taken st) (b_returned st)
      | _ => st
      end
  | Leave t =>
      match dict_get Nat.eqb t (b_readers st) with
      | Some (Leaving out) =>
          BSt (b_deque st) (match b_deque st with [] => false | _ => b_flag st end) None (b_feeder st)
            (dict_del Nat.eqb t (b_readers st)) (b_arrived st) (b_taken st) ((t, out) :: b_returned st)
      | _ => st
      end
  end.
Definition brun (l : list bevent) (st : bstate) : bstate := fold_left bstep l st.
