(** * The small tools: tags.py, disk_tools.py, iptool.py, rpi.py, device_meta.py, constants.py,
    clockcheck.py.  Logging is left out. *)
From Coq Require Import QArith.
From Verif Require Import Py Model_Agent.
Open Scope nat_scope.

(** ** tags.py *)
(** 39: the class [,\s\n\t] *)
Definition separator (c : N) : bool := (c =? 44)%N || ws_text c.
(** re.split with a class that matches one character: the pieces between the matches *)
Fixpoint split_at (p : N -> bool) (piece : text) (s : text) : list text :=
  match s with
  | [] => [rev piece]
  | c :: r => if p c then rev piece :: split_at p [] r else split_at p (c :: piece) r
  end.
(** 36-41 *)
Definition tags_of (output : bytes) : list text :=
  let str_output := utf8_ignore output in
  let tag_list := split_at separator [] str_output in
  map (fun tag => slice_to (strip ws_text tag) 25) (filter (fun tag => match tag with [] => false | _ => true end) tag_list).
(** What happens to the script: it is not there, cannot be run (OSError), fails, prints, or never ends. *)
Inductive script := Absent | CannotRun | Fails | Prints (output : bytes) | Endless.
(** 15-41 *)
Definition get_tag_list (s : script) : tags_outcome :=
  match s with
  | Absent => TagList []
  | CannotRun => TagList []
  | Fails => Model_Agent.TagError
  | Prints output => TagList (tags_of output)
  | Endless => TagHang
  end.

(** ** disk_tools.py *)
Record statvfs := Statvfs { f_blocks : Z; f_bfree : Z; f_bavail : Z; f_frsize : Z }.
Record usage := Usage { total : Z; used : Z; free : Z; percent : Q }.
Section Disk.
  (** [fl]: the float nearest to a number, [round1]: round(x, 1).  The properties need only that
      they are monotone and leave 0, 1 and 100 alone. *)
  Variables fl round1 : Q -> Q.
  (** 11-20 *)
  Definition usage_percent (used total : Z) : Q :=
    let ret := if (total =? 0)%Z then 0%Q else fl (fl (inject_Z used / inject_Z total) * 100) in
    round1 ret.
  (** 23-69; the statvfs call itself is left out *)
  Definition disk_usage (st : statvfs) : usage :=
    let total := (f_blocks st * f_frsize st)%Z in
    let avail_to_root := (f_bfree st * f_frsize st)%Z in
    let avail_to_user := (f_bavail st * f_frsize st)%Z in
    let used := (total - avail_to_root)%Z in
    let total_user := (used + avail_to_user)%Z in
    Usage total used avail_to_user (usage_percent used total_user).
End Disk.

(** ** iptool.py *)
(** bytes.partition(b"\0")[0] *)
Fixpoint until (stop : byte) (s : bytes) : bytes :=
  match s with [] => [] | c :: r => if beqb c stop then [] else c :: until stop r end.
(** decode("ascii", "replace") *)
Definition ascii_replace (s : bytes) : text := map (fun n => if (n <? 128)%N then n else 65533%N) (b2n s).
(** socket.inet_ntoa: OSError unless there are four bytes *)
Definition inet_ntoa (s : bytes) : res text :=
  match b2n s with
  | [a; b; c; d] => Ok (dec_N a ++ T "." ++ dec_N b ++ T "." ++ dec_N c ++ T "." ++ dec_N d)
  | _ => Raise EOS
  end.
(** range(0, stop, step) for a positive step *)
Definition range (stop step : nat) : list nat := map (fun k => k * step) (seq 0 ((stop + step - 1) / step)).
Fixpoint map_res {A B} (f : A -> res B) (l : list A) : res (list B) :=
  match l with [] => Ok [] | x :: r => y <- f x;; ys <- map_res f r;; Ok (y :: ys) end.
(** 28-29 *)
Definition struct_size (is_64bits : bool) : nat := if is_64bits then 40 else 32.
(** 16 *)
Definition max_interfaces : nat := 100.
(** 51-60: [buffer] is if_buffer after the ioctl, [size] what the kernel says it has filled.
    Opening the socket and the ioctl are left out. *)
Definition interfaces_in (is_64bits : bool) (buffer : bytes) (size : nat) : res (list (text * text)) :=
  map_res (fun offset =>
             let iface := firstn (struct_size is_64bits) (skipn offset buffer) in
             let name := until x00 iface in
             ip <- inet_ntoa (firstn 4 (skipn 20 iface));;
             Ok (ascii_replace name, ip))
          (range size (struct_size is_64bits)).
(** device_meta.py:50-61; [None]: get_all_interfaces raises *)
Definition get_ip_address_list (interfaces : res (list (text * text))) : list text :=
  match interfaces with Ok l => map snd l | _ => [] end.

(** ** rpi.py *)
(** Lines of a binary file, with their newlines *)
Fixpoint lines_of (line : bytes) (s : bytes) : list bytes :=
  match s with
  | [] => match line with [] => [] | _ => [rev line] end
  | c :: r => if beqb c x0a then rev (c :: line) :: lines_of [] r else lines_of (c :: line) r
  end.
(** bytes.partition(b":"); [None] if there is no colon *)
Fixpoint partition_colon (s : bytes) : option (bytes * bytes) :=
  match s with
  | [] => None
  | c :: r => if beqb c x3a then Some ([], r)
              else match partition_colon r with Some (k, v) => Some (c :: k, v) | None => None end
  end.
Definition lower1 (b : byte) : byte :=
  let n := Byte.to_N b in if (65 <=? n)%N && (n <=? 90)%N then byte_of (n + 32) else b.
Definition lower (s : bytes) : bytes := map lower1 s.
Definition bstrip (s : bytes) : bytes := n2b (strip ws_bytes (b2n s)).
(** 21-29 *)
Fixpoint find_revision (lines : list bytes) : option bytes :=
  match lines with
  | [] => None
  | line :: r =>
      match partition_colon line with
      | None => find_revision r
      | Some (key, value) =>
          let key := lower (bstrip key) in
          let value := lower (bstrip value) in
          if bytes_eqb key (B "revision") then Some value else find_revision r
      end
  end.
(** 9-35; [None]: /proc/cpuinfo cannot be read *)
Definition get_machine_revision (cpuinfo : option bytes) : res (option text) :=
  match cpuinfo with
  | None => Ok None
  | Some content =>
      match find_revision (lines_of [] content) with
      | None => Ok None
      | Some value => match utf8_decode value with Some t => Ok (Some t) | None => Raise EUnicodeDecode end
      end
  end.
(** 38-47 *)
Definition get_model_name (model : option bytes) : res text :=
  match model with
  | None => Ok []
  | Some content => match utf8_decode content with Some t => Ok t | None => Raise EUnicodeDecode end
  end.

(** ** device_meta.py: dictionaries and lists are objects that can be changed *)
Inductive mval := Str (t : option text) | Ref (list_id : nat).       (* Str None: the value None *)
Record heap := Heap { dicts : list (list (text * mval)); lists : list (list text); meta_cache : option nat }.
Definition heap0 : heap := Heap [] [] None.
(** What the host answers: the five strings and the addresses *)
Record host := Host { h_version : text; h_revision : option text; h_model : text; h_os : text; h_uname : text; h_ips : list text }.
(** 19-32; the host is [None] if one of the functions called raises *)
Definition get_meta (hst : option host) (s : heap) : heap * option nat :=
  match meta_cache s with
  | Some c => (Heap (dicts s ++ [nth c (dicts s) []]) (lists s) (Some c), Some (length (dicts s)))      (* .copy() *)
  | None =>
      match hst with
      | None => (s, None)
      | Some h =>
          let d := [(T "agent_version", Str (Some (h_version h))); (T "machine_revision", Str (h_revision h)); (T "model_name", Str (Some (h_model h)));
                    (T "os_version", Str (Some (h_os h))); (T "uname", Str (Some (h_uname h))); (T "ip_list", Ref (length (lists s)))] in
          (Heap (dicts s ++ [d]) (lists s ++ [h_ips h]) (Some (length (dicts s))), Some (length (dicts s)))
      end
  end.
Fixpoint put {A} (n : nat) (x : A) (l : list A) : list A :=
  match l, n with [], _ => [] | _ :: r, O => x :: r | y :: r, S n => y :: put n x r end.
(** A program: calls and changes; a changed object has any new content *)
Inductive mop :=
| MGet (hst : option host)
| MDict (n : nat) (d : list (text * mval))
| MList (n : nat) (l : list text).
Definition mstep (s : heap) (o : mop) : heap * option nat :=
  match o with
  | MGet h => get_meta h s
  | MDict n d => (Heap (put n d (dicts s)) (lists s) (meta_cache s), None)
  | MList n l => (Heap (dicts s) (put n l (lists s)) (meta_cache s), None)
  end.

(** ** constants.py *)
(** The zeros of the decimal digits of Unicode 14 (CPython 3.11): each is followed by its nine others *)
Definition zeros : list N :=
  [48; 1632; 1776; 1984; 2406; 2534; 2662; 2790; 2918; 3046; 3174; 3302; 3430; 3558; 3664; 3792; 3872; 4160; 4240; 6112; 6160; 6470; 6608;
   6784; 6800; 6992; 7088; 7232; 7248; 42528; 43216; 43264; 43472; 43504; 43600; 44016; 65296; 66720; 68912; 69734; 69872; 69942; 70096;
   70384; 70736; 70864; 71248; 71360; 71472; 71904; 72016; 72784; 73040; 73120; 92768; 92864; 93008; 120782; 120792; 120802; 120812;
   120822; 123200; 123632; 125264; 130032]%N.
Definition decimal (c : N) : option N :=
  match find (fun z => (z <=? c)%N && (c <=? z + 9)%N) zeros with Some z => Some (c - z)%N | None => None end.
(** int() first maps text to ASCII: spaces, digits, and '?' for the rest *)
Definition to_ascii (c : N) : N :=
  if (c <? 127)%N then c
  else if ws_text c then 32%N
  else match decimal c with Some d => (48 + d)%N | None => 63%N end.
(** int(s); [limit]: the most digits it takes (sys.set_int_max_str_digits), [None]: no limit *)
Definition int_of_text (limit : option nat) (s : text) : option Z :=
  let a := map to_ascii s in
  match limit with
  | Some m => if m <? length (filter is_digit a) then None else py_int ws_bytes a
  | None => py_int ws_bytes a
  end.
(** 7-21; [value]: environ.get(name) *)
Definition get_environ_int (limit : option nat) (value : option text) (default : Z) : Z :=
  match value with
  | None => default
  | Some s => match int_of_text limit s with Some z => z | None => default end
  end.

(** ** clockcheck.py *)
(** One turn of the loop: self.running, and time() before and after sleep(1.0), in seconds *)
Record turn := Turn { running : bool; before : Q; after : Q }.
Inductive fate := Watching | Stopped | Killed.
(** 30-44; the number of sleeps so far *)
Fixpoint clock_check (l : list turn) (n : nat) : nat * fate :=
  match l with
  | [] => (n, Watching)
  | t :: r =>
      if running t then
        let elapsed := (after t - before t)%Q in
        if Qle_bool elapsed 180 then clock_check r (S n) else (S n, Killed)
      else (n, Stopped)
  end.
