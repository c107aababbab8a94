(** * The file and command services
      (dataplicity/m2m/fileservice.py, dataplicity/m2m/commandservice.py)

    A service thread is a sequential program over a channel; the rest of the agent (which
    may close the channel at any moment) and the operating system answer through an
    oracle [w], asked at each primitive step.  Logging is left out. *)
From Verif Require Import Py.

(** What reaches the client side of the channel (wsclient.py:69-72, 152-162), and what is
    done to the child process. *)
Inductive out :=
| OData (d : bytes)
| OControl (service type status msg : string)
| OComplete (returncode : option Z)   (* {"service": "command", "type": "complete", ...} *)
| OClose
| OKill.

(** One answer of the oracle: was the channel closed since the last one, what does an
    operation of the operating system raise, what does the websocket raise. *)
Record ans := Ans { a_closed : bool; a_os : option exn; a_send : option exn }.
Record sst := SSt { s_pos : nat; s_closed : bool; s_out : list out }. (* output latest first *)
Definition sinit : sst := SSt 0 false [].

Section Services.
  Variable w : nat -> ans.
  (** constants.py:39 [CHUNK_SIZE]; see [chunk_size] below *)
  Variable chunk : nat.

  Definition M (A : Type) := sst -> sst * res A.
  Definition ret {A} (a : A) : M A := fun st => (st, Ok a).
  Definition bindM {A X} (m : M A) (k : A -> M X) : M X := fun st =>
    match m st with
    | (st', Ok a) => k a st'
    | (st', Raise e) => (st', Raise e)
    | (st', Hang) => (st', Hang)
    end.
  Definition raiseM {A} (e : exn) : M A := fun st => (st, Raise e).
  (** [try: m except Exception as e: h(e)] *)
  Definition tryM {A} (m : M A) (h : exn -> M A) : M A := fun st =>
    match m st with (st', Raise e) => h e st' | r => r end.
  (** [try: m finally: f]: an exception of [f] replaces one of [m]. *)
  Definition finallyM {A} (m : M A) (f : M unit) : M A := fun st =>
    match m st with
    | (st', Ok a) => match f st' with (st2, Ok _) => (st2, Ok a) | (st2, Raise e) => (st2, Raise e) | (st2, Hang) => (st2, Hang) end
    | (st', Raise e) => match f st' with (st2, Ok _) => (st2, Raise e) | (st2, Raise e2) => (st2, Raise e2) | (st2, Hang) => (st2, Hang) end
    | (st', Hang) => (st', Hang)
    end.

  (** The rest of the world gets a turn. *)
  Definition tick : M ans := fun st =>
    let a := w (s_pos st) in
    (SSt (S (s_pos st)) (s_closed st || a_closed a) (s_out st), Ok a).
  (** An operation of the operating system that can raise. *)
  Definition os_op : M unit := bindM tick (fun a => match a_os a with Some e => raiseM e | None => ret tt end).
  (** wsclient.py:85-87 [is_closed] *)
  Definition is_closed : M bool := bindM tick (fun _ st => (st, Ok (s_closed st))).
  (** wsclient.py:152-162 and 303-310: a closed channel sends nothing; a WebSocketError is
      swallowed. *)
  Definition emit (m : out) : M unit := fun st => (SSt (s_pos st) (s_closed st) (m :: s_out st), Ok tt).
  Definition ch_send (m : out) : M unit :=
    bindM tick (fun a st =>
      if s_closed st then (st, Ok tt)
      else match a_send a with
           | None | Some EWebSocket => emit m st
           | Some e => bindM (emit m) (fun _ => raiseM e) st
           end).

  (** ** FileService *)
  (** fileservice.py:53-63 *)
  Definition file_error (status msg : string) : M unit := ch_send (OControl "remote-file" "error" status msg).

  (** fileservice.py:84-90: [read_file.read(CHUNK_SIZE)] returns the next [chunk] bytes,
      fewer only at the end of the file. *)
  Fixpoint send_file (fuel : nat) (rest : bytes) : M unit :=
    match fuel with
    | O => fun st => (st, Hang)
    | S f =>
        bindM os_op (fun _ =>
          match firstn chunk rest with
          | [] => ret tt
          | data => bindM is_closed (fun c => if c then ret tt
                    else bindM (ch_send (OData data)) (fun _ => send_file f (skipn chunk rest)))
          end)
    end.

  (** fileservice.py:91-98, the [except] clauses *)
  Definition file_caught (e : exn) : M unit :=
    match e with
    | EOS => file_error "ioerror" "unable to open file"
    | EWebSocket => ret tt
    | _ => file_error "error" "internal error, see agent logs"
    end.
  (** fileservice.py:76-102 [_run_service].  [path] is what the instruction carried;
      [content] what the file holds if it can be opened ([os_op] of line 83 decides). *)
  Definition file_run_inner (path : val) (content : bytes) : M unit :=
    match path with
    | VText _ =>
        finallyM
          (tryM (bindM os_op (fun _ => send_file (S (length content)) content))
             file_caught)
          (ch_send OClose) (* 101-102 *)
    | VBytes _ => raiseM EType (* 80: bytes.startswith("/") *)
    | _ => raiseM EAttr (* 80 *)
    end.
  (** fileservice.py:65-74 [run_service]; the [finally] clause is [Running] in
      Model_Limiter.v. *)
  Definition file_run (path : val) (content : bytes) : M unit :=
    tryM (file_run_inner path content) (fun _ => file_error "error" "internal error, see agent logs").

  (** ** CommandService *)
  (** commandservice.py:48-53 *)
  Definition command_error (status msg : string) : M unit := ch_send (OControl "command" "error" status msg).

  (** One result of [poll.poll] (commandservice.py:86-91): the descriptors reported (true
      is stdout) with their event masks and the number of bytes a read finds, or an
      exception. *)
  Inductive poll_ans := PollRaise | PollEvents (l : list (bool * Z * nat)).
  (** commandservice.py:76-77: POLLIN is 1, POLLPRI 2, POLLERR 8, POLLHUP 16. *)
  Definition readable (mask : Z) : bool := negb (Z.land mask 3 =? 0)%Z.
  Definition failed (mask : Z) : bool := negb (Z.land mask 24 =? 0)%Z.

  (** commandservice.py:91-105, the [for] loop; returns what is left of stdout and
      [more_data].  [os.read] returns at least one byte unless the stream has ended. *)
  Fixpoint handle_events (l : list (bool * Z * nat)) (rest : bytes) : M (bytes * bool) :=
    match l with
    | [] => ret (rest, true)
    | (is_stdout, mask, n) :: r =>
        let after rest' := if failed mask then ret (rest', true) else handle_events r rest' in
        if readable mask then
          bindM os_op (fun _ =>
            if is_stdout then
              let k := Nat.min chunk (S n) in
              match firstn k rest with
              | [] => ret (rest, false)
              | data => bindM (ch_send (OData data)) (fun _ => after (skipn k rest))
              end
            else after rest)
        else after rest
    end.

  (** commandservice.py:84-108, the [while] loop, fed with poll results; None when it
      has used them all up and still goes on. *)
  Fixpoint command_loop (polls : list poll_ans) (rest : bytes) : M (option unit) :=
    match polls with
    | [] => ret None
    | PollRaise :: _ => ret (Some tt)
    | PollEvents l :: more =>
        bindM (handle_events l rest) (fun '(rest', more_data) =>
          bindM is_closed (fun c =>
            if c || negb more_data then ret (Some tt) else command_loop more rest'))
    end.

  (** commandservice.py:118-127, the [finally] clause.  [rc1] and [rc2] are the results of
      the two calls of [process.poll()]. *)
  Definition command_finish (rc1 rc2 : option Z) : M unit :=
    bindM (ch_send (OComplete rc1)) (fun _ =>
    bindM (ch_send OClose) (fun _ =>
      match rc2 with
      | Some _ => ret tt
      | None => bindM (emit OKill) (fun _ => tryM os_op (fun e => match e with EOS => ret tt | e => raiseM e end))
      end)).

  (** [try: m finally: f] for an [m] that may still be going on. *)
  Definition finallyO (m : M (option unit)) (f : M unit) : M (option unit) := fun st =>
    match m st with
    | (st', Ok None) => (st', Ok None)
    | (st', Ok (Some u)) => finallyM (ret (Some u)) f st'
    | (st', Raise e) => finallyM (raiseM e) f st'
    | (st', Hang) => (st', Hang)
    end.
  (** commandservice.py:66-127 [_run_service].  The result is None while the loop goes on. *)
  Definition command_run_inner (polls : list poll_ans) (stdout : bytes) (rc1 rc2 : option Z) : M (option unit) :=
    bindM os_op (fun _ => (* 69-71: Popen *)
      finallyO
        (tryM (command_loop polls stdout)
           (fun e => match e with
                     | EWebSocket => ret (Some tt) (* 110-112 *)
                     | _ => bindM (command_error "error" "error running command") (fun _ => ret (Some tt)) (* 113-115 *)
                     end))
        (command_finish rc1 rc2)).
  (** commandservice.py:55-64 [run_service] *)
  Definition command_run (polls : list poll_ans) (stdout : bytes) (rc1 rc2 : option Z) : M (option unit) :=
    tryM (command_run_inner polls stdout rc1 rc2)
      (fun _ => bindM (command_error "error" "error running command") (fun _ => ret (Some tt))).
End Services.

(** constants.py:39 *)
Definition chunk_size : nat := Z.to_nat (1024 * 1024).
(** Everything that was sent, oldest first. *)
Definition sent (st : sst) : list out := rev (s_out st).
