(** * The client together with the remote directory and the manager: the calls the client
      makes (dataplicity/m2m/wsclient.py:449-497) meet the code they call
      (dataplicity/remote_directory.py, dataplicity/m2mmanager.py).  The client has one remote
      directory and one manager, given to it when it is made (m2mmanager.py:98,
      wsclient.py:171-190).

    Simplified: a request of a file is handled before anything else happens to the client,
    and what [client.send] raises goes nowhere (send_bytes swallows what the websocket
    raises, wsclient.py:303-310).  Scanning the directory and carrying out instructions may
    use the client in any way. *)
From Verif Require Import Py Model_Packets Model_Client Model_Path Model_Remote Model_Manager.

(** The methods of the remote directory called at wsclient.py:461, 467, 473, 495-497, with the
    values that a packet can carry. *)
Definition request_of (e : effect) : option request :=
  match e with
  | RdOpen (VBytes u) (VBytes p) => Some (ROpen u p)
  | RdRead (VBytes u) (VInt o) (VInt s) => Some (RRead u o s)
  | RdClose (VBytes u) => Some (RClose u)
  | RdWrite (VBytes i) (VBytes p) (VBytes d) (VInt o) (VBytes x) (VInt f) => Some (RWrite i p d o x f)
  | _ => None
  end.
(** The name of a packet type, packets.py:17-121; [client.send] is called with it
    (remote_directory.py:245-258, 279-299, 315-391). *)
Fixpoint name_of_type (l : list (string * Z)) (t : Z) : string :=
  match l with
  | [] => ""%string
  | (n, t') :: r => if (t' =? t)%Z then n else name_of_type r t
  end.
(** A packet that the remote directory sends, as a call of [client.send]. *)
Definition resend (p : packet) : op * bool :=
  (OpSend (name_of_type packet_types (pc_type (pk_class p))) (map snd (pk_attrs p)) [], false).
(** Exceptions of the remote directory's own are ordinary ones to the client. *)
Definition raised (r : unit + rexn) : option exn :=
  match r with inl _ => None | inr (RPy e) => Some e | inr _ => Some EOther end.

Section System.
  Variable cfg : config.
  (** What other programs make of the files before the request number [n], and which system
      calls fail during it. *)
  Variable meanwhile : nat -> fs -> fs * list (option nat).
  Variable start : fs.
  (** The callees other than the remote directory. *)
  Variable rest : list effect -> effect -> list (op * bool) * option exn.

  Definition facing (n : nat) (f : fs) : world := W (fst (meanwhile n f)) (snd (meanwhile n f)) [].
  (** How many requests were handled so far, and the files they left. *)
  Fixpoint served (tr : list effect) : nat * fs :=
    match tr with
    | [] => (0, start)
    | e :: r =>
        let '(n, f) := served r in
        match request_of e with
        | Some q => (S n, w_fs (fst (handle cfg q (facing n f))))
        | None => (n, f)
        end
    end.
  Definition agent_env (tr : list effect) (e : effect) : list (op * bool) * option exn :=
    match request_of e with
    | Some q =>
        let '(n, f) := served tr in
        let '(w, r) := handle cfg q (facing n f) in
        (map resend (rev (w_sent w)), raised r)
    | None => rest tr e
    end.
End System.

(** wsclient.py:449-455: what the manager does over a session. *)
Fixpoint deeds (m : manager) (h : list effect) : list deed :=
  match h with
  | [] => []
  | Instruction _ d :: r => match on_instruction_packet d m with Ok l => l | _ => [] end ++ deeds m r
  | _ :: r => deeds m r
  end.
