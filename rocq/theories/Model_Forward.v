(** * Port forwarding: Connection of dataplicity/portforward.py.  Logging is left out. *)
From Verif Require Import Py.

(** ** Inbound data: the m2m thread ([on_channel_data], [on_channel_close]) and the
    connection thread ([_connect]) share [read_buffer] and the socket under [self._lock];
    every statement is a step.  [sendall] may raise after accepting part of the data (the
    5 second timeout of line 164 stays in force), and raises at once after SHUT_WR. *)
(** Result of one [sendall]: None, all accepted; Some n, raises with n bytes accepted. *)
Definition sendres := option nat.

(** The m2m thread *)
Inductive mpc :=
| MIdle
| MData (d : bytes)          (* 186, waiting for the lock *)
| MAppend (d : bytes)        (* 187, lock held *)
| MClose                     (* 202, waiting for the lock *)
| MFlush (closing : bool)    (* 192, lock held (191 re-enters it) *)
| MSend (closing : bool) (rest : list bytes) (* 194-195 *)
| MDel (closing failed : bool)               (* 197 *)
| MShut                      (* 207 *)
| MRelease.
(** The connection thread *)
Inductive cpc :=
| CConnecting                (* 168 *)
| CSet                       (* 180 *)
| CLock                      (* 191, waiting for the lock *)
| CFlush                     (* 192, lock held *)
| CSend (rest : list bytes)
| CDel (failed : bool)
| CRelease (failed : bool)
| CConnected                 (* 182 *)
| CFailed.                   (* returned False or raised *)
Inductive owner := Nobody | M2M | Conn.

Record cst := C {
  m_pc : mpc; c_pc : cpc; lock : owner;
  socket : bool;             (* self.socket is not None *)
  buffer : list bytes;       (* self.read_buffer *)
  chan_closed : bool;        (* Channel._closed *)
  shut : bool;               (* SHUT_WR was done *)
  arrived : list bytes;      (* data given to on_channel_data, in order *)
  delivered : bytes;         (* accepted by the local socket *)
  send_failed : bool }.      (* some sendall raised *)
Definition cinit : cst := C MIdle CConnecting Nobody false [] false false [] [] false.

Inductive action :=
| Arrives (d : bytes)        (* the m2m thread gets a data packet *)
| Closes                     (* the m2m thread gets notify_close *)
| StepM (s : sendres)        (* the m2m thread takes a step *)
| Connects (ok : bool)       (* connect(2) returns *)
| StepC (s : sendres).       (* the connection thread takes a step *)

Definition set_m st x l := C x (c_pc st) l (socket st) (buffer st) (chan_closed st) (shut st) (arrived st) (delivered st) (send_failed st).
Definition set_c st x l := C (m_pc st) x l (socket st) (buffer st) (chan_closed st) (shut st) (arrived st) (delivered st) (send_failed st).
Definition set_buffer st b := C (m_pc st) (c_pc st) (lock st) (socket st) b (chan_closed st) (shut st) (arrived st) (delivered st) (send_failed st).
Definition set_socket st := C (m_pc st) (c_pc st) (lock st) true (buffer st) (chan_closed st) (shut st) (arrived st) (delivered st) (send_failed st).
Definition set_shut st := C (m_pc st) (c_pc st) (lock st) (socket st) (buffer st) (chan_closed st) true (arrived st) (delivered st) (send_failed st).
Definition effective st (s : sendres) : sendres := if shut st then Some 0 else s.
Definition sendall st d (s : sendres) := C (m_pc st) (c_pc st) (lock st) (socket st) (buffer st) (chan_closed st) (shut st) (arrived st)
  (delivered st ++ match s with None => d | Some n => firstn n d end) (send_failed st || match s with None => false | Some _ => true end).

Definition step_m (s0 : sendres) (st : cst) : cst :=
  let s := effective st s0 in
  match m_pc st, lock st with
  | MData d, Nobody => set_m st (MAppend d) M2M
  | MAppend d, _ => set_m (set_buffer st (buffer st ++ [d])) (MFlush false) (lock st)
  | MClose, Nobody => set_m st (MFlush true) M2M
  | MFlush b, _ => if socket st then set_m st (MSend b (buffer st)) (lock st)
                   else set_m st (if b then MShut else MRelease) (lock st)
  | MSend b [], _ => set_m st (MDel b false) (lock st)
  | MSend b (d :: r), _ =>
      set_m (sendall st d s) (match s with None => MSend b r | Some _ => MDel b true end) (lock st)
  | MDel b failed, _ => set_m (set_buffer st []) (if failed then MRelease else if b then MShut else MRelease) (lock st)
  | MShut, _ => set_m (if socket st then set_shut st else st) MRelease (lock st)
  | MRelease, _ => set_m st MIdle Nobody
  | _, _ => st
  end.
Definition step_c (s0 : sendres) (st : cst) : cst :=
  let s := effective st s0 in
  match c_pc st, lock st with
  | CSet, _ => set_c (set_socket st) CLock (lock st)
  | CLock, Nobody => set_c st CFlush Conn
  | CFlush, _ => if socket st then set_c st (CSend (buffer st)) (lock st) else set_c st (CRelease false) (lock st)
  | CSend [], _ => set_c st (CDel false) (lock st)
  | CSend (d :: r), _ => set_c (sendall st d s) (match s with None => CSend r | Some _ => CDel true end) (lock st)
  | CDel failed, _ => set_c (set_buffer st []) (CRelease failed) (lock st)
  | CRelease failed, _ => set_c st (if failed then CFailed else CConnected) Nobody
  | _, _ => st
  end.
Definition cstep (a : action) (st : cst) : cst :=
  match a with
  | Arrives d => match m_pc st with
                 | MIdle => if chan_closed st then st (* wsclient.py:91-93 *)
                            else C (MData d) (c_pc st) (lock st) (socket st) (buffer st) (chan_closed st) (shut st) (arrived st ++ [d]) (delivered st) (send_failed st)
                 | _ => st
                 end
  | Closes => match m_pc st with
              | MIdle => if chan_closed st then st (* wsclient.py:76-77 *)
                         else C MClose (c_pc st) (lock st) (socket st) (buffer st) true (shut st) (arrived st) (delivered st) (send_failed st)
              | _ => st
              end
  | StepM s => step_m s st
  | Connects ok => match c_pc st with CConnecting => set_c st (if ok then CSet else CFailed) (lock st) | _ => st end
  | StepC s => step_c s st
  end.
Definition crun (l : list action) (st : cst) : cst := fold_left (fun s a => cstep a s) l st.

(** ** Outbound data: the receive loops of all connections, which share the manager's
    [close_event] (portforward.py:57-113, 276, 294-296). *)
Inductive opc :=
| OConnecting   (* 69 *)
| OCheck        (* 76 *)
| OPolling      (* 80 *)
| OLeaving      (* 106 *)
| OGone.
Record conn := Cn {
  o_pc : opc;
  o_closed : bool;     (* Channel._closed *)
  o_rest : bytes;      (* what the local server has sent or will send, not received yet *)
  o_written : bytes;   (* written to the channel *)
  o_asked : nat }.     (* close requests *)
Record net := N { close_event : bool; conns : list conn }.

(** portforward.py:80-94: what poll and recv do *)
Variant pollres :=
| PollFails
| PollResult (l : list (Z * option nat)). (* event mask; recv: None raises, Some n: up to n+1 bytes *)
(** portforward.py:63-64: POLLIN 1, POLLPRI 2, POLLERR 8, POLLHUP 16 *)
Definition readable (mask : Z) : bool := negb (Z.land mask 3 =? 0)%Z.
Definition failed (mask : Z) : bool := negb (Z.land mask 24 =? 0)%Z.

(** portforward.py:87-105, the [for] loop: what is left of the stream, what was written,
    and whether [close_event] was set. [chunk] is CHUNK_SIZE (constants.py:39). *)
Fixpoint handle (chunk : nat) (l : list (Z * option nat)) (rest : bytes) : bytes * bytes * bool :=
  match l with
  | [] => (rest, [], false)
  | (mask, r) :: l' =>
      let after rest' d :=
        let '(rest2, d2, set2) := handle chunk l' rest' in (rest2, d ++ d2, failed mask || set2) in
      if readable mask then
        match r with
        | None => (rest, [], false) (* 92-94: break *)
        | Some n =>
            match firstn (Nat.min chunk (S n)) rest with
            | [] => (rest, [], false) (* 99-101: break *)
            | d => after (skipn (Nat.min chunk (S n)) rest) d
            end
        end
      else after rest []
  end.

Inductive oaction :=
| New (stream : bytes)
| OConnects (i : nat) (ok : bool)
| CheckEvent (i : nat)
| Polls (i : nat) (p : pollres)
| ChannelCloses (i : nat)
| Leaves (i : nat) (elapsed : Z). (* 108: time() - self._start_time *)

Fixpoint upd {A} (i : nat) (x : A) (l : list A) : list A :=
  match l, i with
  | [], _ => []
  | _ :: r, O => x :: r
  | a :: r, S j => a :: upd j x r
  end.
Definition opcs c p := Cn p (o_closed c) (o_rest c) (o_written c) (o_asked c).
Definition ostep (chunk : nat) (a : oaction) (n : net) : net :=
  let on i (k : conn -> net) := match nth_error (conns n) i with Some c => k c | None => n end in
  let put i c := N (close_event n) (upd i c (conns n)) in
  match a with
  | New stream => N (close_event n) (conns n ++ [Cn OConnecting false stream [] 0])
  | OConnects i ok => on i (fun c => match o_pc c with OConnecting => put i (opcs c (if ok then OCheck else OLeaving)) | _ => n end)
  | CheckEvent i => on i (fun c => match o_pc c with OCheck => put i (opcs c (if close_event n then OLeaving else OPolling)) | _ => n end)
  | Polls i p => on i (fun c =>
      match o_pc c with
      | OPolling =>
          match p with
          | PollFails => put i (opcs c OLeaving) (* 81-84 *)
          | PollResult l =>
              if o_closed c then put i (opcs c OLeaving) (* 85-86 *)
              else let '(rest, d, ev) := handle chunk l (o_rest c) in
                   N (close_event n || ev) (upd i (Cn OCheck (o_closed c) rest (o_written c ++ d) (o_asked c)) (conns n))
          end
      | _ => n
      end)
  | ChannelCloses i => on i (fun c => put i (Cn (o_pc c) true (o_rest c) (o_written c) (o_asked c)))
  | Leaves i elapsed => on i (fun c =>
      match o_pc c with
      | OLeaving => (* 108: ZeroDivisionError before the channel is closed, 112 *)
          put i (Cn OGone (o_closed c) (o_rest c) (o_written c)
                   (if (elapsed =? 0)%Z || o_closed c then o_asked c else S (o_asked c)))
      | _ => n
      end)
  end.
Definition orun (chunk : nat) (l : list oaction) (n : net) : net := fold_left (fun s a => ostep chunk a s) l n.
Definition oinit : net := N false [].
