(** * The limiter and the launching of services under it
      (dataplicity/limiter.py and the launch functions that use it)

    Any number of threads, interleaved one atomic step at a time.  The lock is an
    explicit [RLock]; [self._value += 1] is a read step followed by a write step.  A step
    carries a choice: does the code run at that point raise an [Exception].  Logging and
    [BaseException]s that are not [Exception]s are left out. *)
From Verif Require Import Py.
Open Scope Z_scope.

(** The code that launches something under a limiter. *)
Inductive kind :=
| KFile       (* m2m/fileservice.py:38-48 *)
| KCommand    (* m2m/commandservice.py:34-43 (FileService's twin) *)
| KTerminal   (* m2mmanager.py:64-74 *)
| KForward    (* portforward.py:250-265 [Service.connect] *)
| KRedirect   (* portforward.py:347-359 [redirect_port] *)
| KConnect.   (* portforward.py:146-156 [Connection.connect] *)

(** What the other end of the channel is told.  The [msg] field of an error control,
    the text of the exception, is left out. *)
Inductive peer_msg :=
| PWrite (d : bytes)                    (* channel.write(d) *)
| PControl (service type status : string). (* channel.send_control({...}) *)
(** constants.py:48-54; the newlines are those of the source. *)
Definition NL : bytes := ["010"%byte].
Definition CRLF : bytes := ["013"%byte; "010"%byte].
Definition server_busy : bytes :=
  B "HTTP/1.1 503 Device Busy" ++ CRLF ++ CRLF ++ NL
     ++ B "<h1>503 - Server busy</h1>" ++ NL ++ NL
     ++ B "<p>The device is under heavy load and could not return a response.</p>" ++ NL ++ NL
     ++ B "<p>Try increasing <tt>DATAPLICITY_LIMIT_SERVICES</tt></p>" ++ NL.
(** The first statement of the [except] clause around [with limiter()]:
    fileservice.py:47, commandservice.py:42 and 48-53, m2mmanager.py:71,
    portforward.py:263, 358 and 155. *)
Definition refusal (k : kind) : peer_msg :=
  match k with
  | KFile | KForward | KRedirect | KConnect => PWrite server_busy
  | KCommand => PControl "command" "error" "error"
  | KTerminal => PWrite (B "Failed to launch remote process" ++ NL)
  end.

(** Who called [decrement]: [limiter_context], or the [finally] clause of a service
    (fileservice.py:73-74, commandservice.py:63-64, portforward.py:53-55,
    remoteprocess.py:99-100). *)
Inductive caller := ByLaunch (k : kind) | ByService.

(** Where a thread is: the statement it executes next. *)
Inductive pc :=
| IncAcquire (k : kind)           (* limiter.py:65 *)
| IncTest (k : kind)              (* 66 *)
| IncRead (k : kind)              (* 71, reading [_value] *)
| IncWrite (k : kind) (v : Z)     (* 71, storing *)
| IncRelease (k : kind)           (* leaving the [with] of 65 *)
| IncRefused (k : kind)           (* leaving it with LimitReached, 68-70 *)
| CtxAcquire (k : kind)           (* 27 *)
| Setup (k : kind)                (* 30, code under the limiter before the start *)
| Start (k : kind)                (* 30, [thread.start()] *)
| CtxExit (k : kind)              (* leaving the [with] of 27 *)
| CtxExitRaise (k : kind)         (* leaving it with an exception, 34 *)
| DecAcquire (a : caller)         (* 76 *)
| DecTest (a : caller)            (* 77 *)
| DecRead (a : caller)            (* 80, reading *)
| DecWrite (a : caller) (v : Z)   (* 80, storing *)
| DecRelease (a : caller)         (* leaving the [with] of 76 *)
| DecFailed (a : caller)          (* leaving it with LimiterError, 79 *)
| Tell (k : kind)                 (* the [except] clause of the launch function *)
| HangUp (k : kind)               (* its [channel.close()] *)
| Running                         (* the body of a service thread *)
| Done.

(** What happened, for the statements. *)
Inductive lev :=
| Wrote (t : nat) (old new : Z)   (* [_value] was assigned; [old] is what it held *)
| Began (t s : nat)               (* launcher [t] started service thread [s] *)
| Told (t : nat) (m : peer_msg)
| HungUp (t : nat)
| SendRaised (t : nat)            (* the websocket raised something else than WebSocketError *)
| Asked (t : nat) (k : kind)      (* thread [t] called the launch function *)
| Underflow (t : nat).            (* LimiterError raised *)

Record lstate := LState {
  l_value : Z;
  l_lock : option (nat * nat);    (* RLock: owner and depth *)
  l_threads : list pc;
  l_log : list lev }.             (* latest first *)

(** limiter.py:47-51 *)
Definition linit : lstate := LState 0 None [] [].

Fixpoint set_nth {A} (n : nat) (x : A) (l : list A) : list A :=
  match l, n with
  | [], _ => []
  | _ :: r, O => x :: r
  | y :: r, S n' => y :: set_nth n' x r
  end.
Definition goto (t : nat) (p : pc) (st : lstate) : lstate :=
  LState (l_value st) (l_lock st) (set_nth t p (l_threads st)) (l_log st).
Definition assign (t : nat) (v : Z) (st : lstate) : lstate :=
  LState v (l_lock st) (l_threads st) (Wrote t (l_value st) v :: l_log st).
Definition note (e : lev) (st : lstate) : lstate :=
  LState (l_value st) (l_lock st) (l_threads st) (e :: l_log st).
Definition spawn (t : nat) (st : lstate) : lstate :=
  LState (l_value st) (l_lock st) (l_threads st ++ [Running]) (Began t (length (l_threads st)) :: l_log st).

(** [RLock.acquire] and [release] by thread [t]; None while another thread owns it. *)
Definition acquire (t : nat) (st : lstate) : option lstate :=
  match l_lock st with
  | None => Some (LState (l_value st) (Some (t, 1%nat)) (l_threads st) (l_log st))
  | Some (o, d) => if (o =? t)%nat then Some (LState (l_value st) (Some (t, S d)) (l_threads st) (l_log st)) else None
  end.
Definition release (t : nat) (st : lstate) : lstate :=
  match l_lock st with
  | Some (o, S (S d)) => LState (l_value st) (Some (o, S d)) (l_threads st) (l_log st)
  | _ => LState (l_value st) None (l_threads st) (l_log st)
  end.

Section Limiter.
  Variable limit : Z.

  (** One step of thread [t]; [fails] says whether the code of the launcher, service or
      channel run in that step raises. *)
  Definition tstep (t : nat) (fails : bool) (st : lstate) : option lstate :=
    match nth_error (l_threads st) t with
    | None => None
    | Some p =>
        match p with
        | IncAcquire k => option_map (goto t (IncTest k)) (acquire t st)
        | IncTest k => Some (goto t (if limit <=? l_value st then IncRefused k else IncRead k) st)
        | IncRead k => Some (goto t (IncWrite k (l_value st)) st)
        | IncWrite k v => Some (goto t (IncRelease k) (assign t (v + 1) st))
        | IncRelease k => Some (goto t (CtxAcquire k) (release t st))
        | IncRefused k => Some (goto t (Tell k) (release t st))
        | CtxAcquire k => option_map (goto t (Setup k)) (acquire t st)
        | Setup k => Some (goto t (if fails then DecAcquire (ByLaunch k) else Start k) st)
        | Start k =>
            if fails then Some (goto t (DecAcquire (ByLaunch k)) st)
            else Some (goto t (CtxExit k) (spawn t st))
        | CtxExit _ => Some (goto t Done (release t st))
        | CtxExitRaise k => Some (goto t (Tell k) (release t st))
        | DecAcquire a => option_map (goto t (DecTest a)) (acquire t st)
        | DecTest a => Some (goto t (if l_value st <=? 0 then DecFailed a else DecRead a) st)
        | DecRead a => Some (goto t (DecWrite a (l_value st)) st)
        | DecWrite a v => Some (goto t (DecRelease a) (assign t (v - 1) st))
        | DecRelease a =>
            Some (goto t (match a with ByLaunch k => CtxExitRaise k | ByService => Done end) (release t st))
        | DecFailed a =>
            Some (goto t (match a with ByLaunch k => CtxExitRaise k | ByService => Done end)
                       (note (Underflow t) (release t st)))
        | Tell k =>
            if fails then Some (goto t Done (note (SendRaised t) st)) else Some (goto t (HangUp k) (note (Told t (refusal k)) st))
        | HangUp k =>
            if fails then Some (goto t Done (note (SendRaised t) st)) else Some (goto t Done (note (HungUp t) st))
        | Running => Some (goto t (DecAcquire ByService) st)
        | Done => None
        end
    end.

  (** An action of the system: a request makes a thread call a launch function (the
      receive thread, or any other), or a thread takes a step. *)
  Inductive action := Request (k : kind) | Step (t : nat) (fails : bool).
  Definition act (a : action) (st : lstate) : option lstate :=
    match a with
    | Request k => Some (LState (l_value st) (l_lock st) (l_threads st ++ [IncAcquire k]) (Asked (length (l_threads st)) k :: l_log st))
    | Step t fails => tstep t fails st
    end.
  Fixpoint run (l : list action) (st : lstate) : option lstate :=
    match l with
    | [] => Some st
    | a :: r => match act a st with Some st' => run r st' | None => None end
    end.
End Limiter.
