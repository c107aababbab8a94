(** * Opening a service: what carrying out an instruction does with the client
      (dataplicity/m2mmanager.py:39-74, 196-233; dataplicity/portforward.py:250-265, 337-359;
      the constructors of dataplicity/m2m/fileservice.py, commandservice.py, echoservice.py and
      remoteprocess.py), and which limiter it uses.

    Simplified: a channel number that is not an integer is not given to a channel the peer can
    reach; such instructions are left out here.  The constructor of [RemoteProcess] does not
    raise (it stores its arguments).  What the thread of a service does later is in
    Model_Relay.v and Model_Services.v. *)
From Verif Require Import Py Model_Bencode Model_Client Model_Manager Model_Limiter Model_Relay.

(** How starting a thread under a limiter goes (limiter.py:20-34, 60-72). *)
Inductive luck :=
| Starts
| LimitFull      (* increment raises: nothing under the [with] runs *)
| StartFails.    (* Thread.start raises *)
(** The numbers the callbacks of the new service get: data, close, control *)
Record callbacks := Cbs { for_data : nat; for_close : nat; for_control : nat }.

(** The channel a deed uses *)
Definition number_of (d : deed) : option Z :=
  match d with
  | LaunchTerminal _ c _ | StartEcho c | Connect _ _ c | SendFile c _ | RunCommand c _ => as_int c
  | Sync | Reboot | Scan => None
  end.

Section Opening.
  (** json.dumps of an error control, with the text of the exception *)
  Variable json : string -> string -> string -> text.
  Variable ks : callbacks.

  (** The [except] clauses around [with limiter()], see [Model_Limiter.refusal]. *)
  Definition refuse (k : kind) (o : nat) : list (op * bool) :=
    [(match refusal k with PWrite b => OpWrite o b | PControl service type status => OpControl o (json service type status) end, false);
     (OpClose o, false)].
  (** remoteprocess.py:81-83, portforward.py:40-42 *)
  Definition install (o : nat) : op * bool := (OpSetCbs o (Some (for_data ks)) (Some (for_close ks)) (Some (for_control ks)), false).
  (** What is done with channel object [o] *)
  Definition use (v : luck) (o : nat) (d : deed) : list (op * bool) :=
    match d with
    | LaunchTerminal _ _ _ => (* m2mmanager.py:39-74: the process object is made before the limiter is asked *)
        install o :: match v with Starts => [] | _ => refuse KTerminal o end
    | StartEcho _ => [(OpSetCbs o (Some (for_data ks)) None None, false)] (* echoservice.py:20-23 *)
    | Connect _ _ _ => (* portforward.py:255-265, 349-359: the connection is made under the limiter *)
        match v with
        | Starts => [install o]
        | LimitFull => refuse KForward o
        | StartFails => install o :: refuse KForward o
        end
    | SendFile _ _ => match v with Starts => [] | _ => refuse KFile o end          (* fileservice.py:35-48 *)
    | RunCommand _ _ => match v with Starts => [] | _ => refuse KCommand o end     (* commandservice.py:31-43 *)
    | Sync | Reboot | Scan => []
    end.
  (** [get_channel] comes first (m2mmanager.py:203, 210, 227, 232; portforward.py:253, 347). *)
  Definition carry_out (v : luck) (o : nat) (d : deed) : list (op * bool) :=
    match number_of d with Some n => (OpOpen n, false) :: use v o d | None => [] end.
  (** m2mmanager.py:150-192: the callee of an instruction; [o] is the channel object in question. *)
  Definition manager_reply (m : manager) (v : luck) (o : nat) (data : val) : list (op * bool) * option exn :=
    match on_instruction data m with
    | Ok l => (flat_map (carry_out v o) l, None)
    | Raise e => ([], Some e)
    | Hang => ([], None)
    end.
End Opening.
(** wsclient.py:241-245: the object a channel number stands for *)
Definition object_for (n : Z) (st : state) : nat := fst (Model_Client.get_channel n st).

(** ** Echo service on the machine of Model_Relay.v: echoservice.py:25-27.  It has no thread. *)
Definition echo_data (x : unit) (d : bytes) (s : unit) : unit * list word := (tt, [WData d]).
Definition echo_close (x : unit) (s : unit) : unit * list word := (tt, []). (* never called *)
Definition echo_act (a : Empty_set) (shut : bool) (s : unit) : unit * list word := match a with end.
Definition echo_busy (s : unit) : bool := false.

(** ** The two limiters, m2mmanager.py:99-100 *)
Inductive pool := Services | Terminals.
(** m2mmanager.py:185, 203, 209-210, 214, 228, 233: which one a deed is launched under.  The
    echo service has no thread. *)
Definition pool_of (d : deed) : option pool :=
  match d with
  | LaunchTerminal _ _ _ => Some Terminals
  | Connect _ _ _ | SendFile _ _ | RunCommand _ _ => Some Services
  | StartEcho _ | Sync | Reboot | Scan => None
  end.
(** Running services of each; exact counters, see C27. *)
Record slots := Slots { in_services : nat; in_terminals : nat }.
Definition taken (p : pool) (s : slots) : nat := match p with Services => in_services s | Terminals => in_terminals s end.
Definition set_taken (p : pool) (n : nat) (s : slots) : slots :=
  match p with Services => Slots n (in_terminals s) | Terminals => Slots (in_services s) n end.
Section Slots.
  (** constants.py:42, 45 *)
  Variable limit : pool -> nat.
  Inductive happening :=
  | Asked (d : deed) (start_ok : bool)   (* an instruction asks for it; does the thread start *)
  | Ended (p : pool).                    (* a service thread of that limiter ends: decrement *)
  (** limiter.py:20-34, 60-80 *)
  Definition luck_of (d : deed) (start_ok : bool) (s : slots) : luck :=
    match pool_of d with
    | None => Starts
    | Some p => if (limit p <=? taken p s)%nat then LimitFull else if start_ok then Starts else StartFails
    end.
  Definition happens (h : happening) (s : slots) : slots :=
    match h with
    | Asked d ok =>
        match pool_of d, luck_of d ok s with
        | Some p, Starts => set_taken p (S (taken p s)) s
        | _, _ => s
        end
    | Ended p => set_taken p (taken p s - 1)%nat s
    end.
  Definition happen_all (l : list happening) : slots := fold_left (fun s h => happens h s) l (Slots 0 0).
End Slots.
