(** * Directory scans: dataplicity/scan_directory.py and dataplicity/directory_scanner.py.
      Logging is left out. *)
From Verif Require Import Py Model_Path.

(** ** scan_directory.py

    The operating system is a function from the path of a directory, relative to the root of
    the scan, to what scandir gives; it does not change during a scan. *)

(** An os.DirEntry; [None] for a method that raises.  inode() of CPython's DirEntry does not
    raise on POSIX systems; of a symbolic link it is the inode of the link itself. *)
Record item := Item {
  i_name : text;
  i_dir : option bool;      (* is_dir(), follows links *)
  i_file : option bool;     (* is_file(), follows links *)
  i_inode : option N;       (* inode() *)
  i_size : option Z }.      (* stat().st_size *)
(** What the iterator made by scandir gives; [None]: next() raises OSError *)
Definition listing := list (option item).

(** DirectoryDict, scan_directory.py:58-60; [None]: the key is absent *)
Record info := Info {
  d_files : option (list (text * Z));
  d_dirs : option (list text) }.
Record scan_state := SS {
  s_stack : list (text * listing);      (* stack, top first *)
  s_dirs : list (text * info);          (* directories *)
  s_visited : list N }.                 (* visited_directories *)

Section Scan.
  Variable scandir : text -> option listing.   (* None: raises *)
  Variable file_sizes : bool.
  Variable max_depth : option Z.

  (** 116-129 push_directory *)
  Definition push_directory (path : text) (st : scan_state) : scan_state :=
    match scandir path with
    | Some l => SS ((path, l) :: s_stack st) (dict_set text_eqb path (Info None None) (s_dirs st)) (s_visited st)
    | None => st
    end.
  (** directories[path].setdefault("dirs", []).append(name), 167; the key exists *)
  Definition append_dir (path name : text) (d : list (text * info)) : res (list (text * info)) :=
    match dict_get text_eqb path d with
    | None => Raise EKey
    | Some i => Ok (dict_set text_eqb path (Info (d_files i) (Some (match d_dirs i with Some l => l | None => [] end ++ [name]))) d)
    end.
  (** 176 *)
  Definition append_file (path name : text) (size : Z) (d : list (text * info)) : res (list (text * info)) :=
    match dict_get text_eqb path d with
    | None => Raise EKey
    | Some i => Ok (dict_set text_eqb path (Info (Some (match d_files i with Some l => l | None => [] end ++ [(name, size)])) (d_dirs i)) d)
    end.
  (** 145-153 *)
  Definition holds (r : option bool) : bool := match r with Some b => b | None => false end.
  (** 156 *)
  Definition too_deep (st : scan_state) : bool :=
    match max_depth with Some m => (m <=? Z.of_nat (length (s_stack st)))%Z | None => false end.
  (** 164 *)
  Definition visited (i : N) (st : scan_state) : bool := existsb (N.eqb i) (s_visited st).
  (** 171-175 *)
  Definition size_of (e : item) : Z :=
    if file_sizes then match i_size e with Some s => s | None => (-1)%Z end else (-1)%Z.

  (** 142-176: one entry of the directory [path]; [st] has the iterator advanced *)
  Definition scan_item (path : text) (e : item) (st : scan_state) : res scan_state :=
    if starts_with [dot] (i_name e) then Ok st
    else if holds (i_dir e) then
      if too_deep st then Ok st
      else
        match i_inode e with
        | None => Ok (push_directory (join path (i_name e)) st)
        | Some n =>
            if visited n st then Ok st
            else d <- append_dir path (i_name e) (s_dirs st);;
                 Ok (push_directory (join path (i_name e)) (SS (s_stack st) d (n :: s_visited st)))
        end
    else if holds (i_file e) then
      d <- append_file path (i_name e) (size_of e) (s_dirs st);;
      Ok (SS (s_stack st) d (s_visited st))
    else Ok st.
  (** 134-176: one round of the loop *)
  Definition scan_round (st : scan_state) : res scan_state :=
    match s_stack st with
    | [] => Ok st
    | (path, []) :: rest => Ok (SS rest (s_dirs st) (s_visited st))
    | (path, None :: _) :: _ => Raise EOS
    | (path, Some e :: l) :: rest => scan_item path e (SS ((path, l) :: rest) (s_dirs st) (s_visited st))
    end.
  (** 134: [fuel] rounds at most; [Hang] if they are not enough *)
  Fixpoint scan_loop (fuel : nat) (st : scan_state) : res scan_state :=
    match s_stack st with
    | [] => Ok st
    | _ => match fuel with
           | O => Hang
           | S f => st' <- scan_round st;; scan_loop f st'
           end
    end.
  (** 74-183 scan_directory: the directories of the result. [root_ok]: os.path.isdir(root_path);
      EOther stands for ScanDirectoryError.  Root and time of the result are left out. *)
  Definition scan_directory (root_ok : bool) (fuel : nat) : res (list (text * info)) :=
    if root_ok then st <- scan_loop fuel (push_directory [] (SS [] [] []));; Ok (s_dirs st)
    else Raise EOther.
End Scan.

(** ** directory_scanner.py

    Threads interleave freely; a step of a thread is one action.  A scan gives the bytes of
    the JSON text, or fails. *)
Inductive spc :=
| PLock                              (* 46 waiting for the lock *)
| PScan                              (* 47-57 scanning *)
| POpen (d : bytes)                  (* 60, 82: about to open the result file *)
| PWrite (d : bytes) (n : nat)       (* 82-83: n bytes have got into the file *)
| PNotify (d : bytes)                (* 67: file closed, about to call on_success *)
| PRelease                           (* leaving the with block, by return or exception *)
| PDone.
Record sthread := Th { t_pc : spc; t_call : option nat }.  (* the request that has an on_success *)
Record scanner := Sc {
  sc_lock : option nat;              (* thread that holds self._lock *)
  sc_threads : list sthread;         (* all threads started, by number *)
  sc_pending : list (option nat);    (* calls of perform_scan that found the lock free and have not started their thread *)
  sc_file : option bytes;            (* the result file *)
  sc_sent : list (nat * bool) }.     (* scan_remote_directory_result packets, latest first: request and success *)

Definition set_nth {A} (i : nat) (x : A) (l : list A) : list A := firstn i l ++ match skipn i l with [] => [] | _ :: r => x :: r end.
Definition set_thread (s : scanner) (t : nat) (th : sthread) : list sthread := set_nth t th (sc_threads s).

Inductive saction :=
| Call (r : option nat)              (* perform_scan: the test of the lock; [Some n]: request number n of the server (wsclient.py:484), [None]: scan-directory instruction (m2mmanager.py:193) *)
| Spawn (ok : bool)                  (* the earliest such call starts its thread; false: Thread.start raises *)
| Acquire (t : nat)
| Scanned (t : nat) (r : option bytes)
| Opened (t : nat) (ok : bool)
| Wrote (t : nat) (n : nat)          (* n more bytes get into the file *)
| WriteFails (t : nat)
| Closed (t : nat)
| Notified (t : nat) (ok : bool)     (* on_success returns or raises *)
| Released (t : nat).

(** Actions of a thread that is elsewhere do nothing. *)
Definition sstep (s : scanner) (a : saction) : scanner :=
  let move t th lock file sent := Sc lock (set_thread s t th) (sc_pending s) file sent in
  let at_ t (k : sthread -> scanner) := match nth_error (sc_threads s) t with Some th => k th | None => s end in
  match a with
  | Call r =>                                                     (* 34-36 *)
      match sc_lock s with
      | Some _ => s
      | None => Sc None (sc_threads s) (sc_pending s ++ [r]) (sc_file s) (sc_sent s)
      end
  | Spawn ok =>                                                   (* 37-41 *)
      match sc_pending s with
      | [] => s
      | r :: rest =>
          if ok then Sc (sc_lock s) (sc_threads s ++ [Th PLock r]) rest (sc_file s) (sc_sent s)
          else Sc (sc_lock s) (sc_threads s) rest (sc_file s)
                  (match r with Some n => (n, false) :: sc_sent s | None => sc_sent s end)   (* wsclient.py:485-486 *)
      end
  | Acquire t => at_ t (fun th =>
      match t_pc th, sc_lock s with
      | PLock, None => move t (Th PScan (t_call th)) (Some t) (sc_file s) (sc_sent s)
      | _, _ => s
      end)
  | Scanned t r => at_ t (fun th =>                               (* 47-57 *)
      match t_pc th with
      | PScan => move t (Th (match r with Some d => POpen d | None => PRelease end) (t_call th)) (sc_lock s) (sc_file s) (sc_sent s)
      | _ => s
      end)
  | Opened t ok => at_ t (fun th =>                               (* 82: open(file_path, "wb") truncates *)
      match t_pc th with
      | POpen d => if ok then move t (Th (PWrite d 0) (t_call th)) (sc_lock s) (Some []) (sc_sent s)
                   else move t (Th PRelease (t_call th)) (sc_lock s) (sc_file s) (sc_sent s)
      | _ => s
      end)
  | Wrote t n => at_ t (fun th =>                                 (* 83 *)
      match t_pc th with
      | PWrite d k => move t (Th (PWrite d (k + n)) (t_call th)) (sc_lock s) (Some (firstn (k + n) d)) (sc_sent s)
      | _ => s
      end)
  | WriteFails t => at_ t (fun th =>                              (* 61-63 *)
      match t_pc th with
      | PWrite d k => move t (Th PRelease (t_call th)) (sc_lock s) (sc_file s) (sc_sent s)
      | _ => s
      end)
  | Closed t => at_ t (fun th =>
      match t_pc th with
      | PWrite d k => if length d <=? k then move t (Th (PNotify d) (t_call th)) (sc_lock s) (sc_file s) (sc_sent s) else s
      | _ => s
      end)
  | Notified t ok => at_ t (fun th =>                             (* 65-69; wsclient.py:480-481 *)
      match t_pc th with
      | PNotify d => move t (Th PRelease (t_call th)) (sc_lock s) (sc_file s)
                          (match t_call th with Some n => if ok then (n, true) :: sc_sent s else sc_sent s | None => sc_sent s end)
      | _ => s
      end)
  | Released t => at_ t (fun th =>
      match t_pc th with
      | PRelease => move t (Th PDone (t_call th)) None (sc_file s) (sc_sent s)
      | _ => s
      end)
  end.
Definition srun (l : list saction) (s : scanner) : scanner := fold_left sstep l s.
(** directory_scanner.py:18-29; the file may be there from an earlier run *)
Definition sinit (f : option bytes) : scanner := Sc None [] [] f [].
