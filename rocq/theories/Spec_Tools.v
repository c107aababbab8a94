(** * What is asked of the small tools *)
From Coq Require Import QArith.
From Verif Require Import Py Model_Agent Model_Tools.
Open Scope nat_scope.

(** White space of Unicode, without and with the four separators U+001C-U+001F *)
Definition spaces : list N :=
  [9; 10; 11; 12; 13; 32; 133; 160; 5760; 8192; 8193; 8194; 8195; 8196; 8197; 8198; 8199; 8200; 8201; 8202; 8232; 8233; 8239; 8287; 12288]%N.
Definition space (c : N) : Prop := In c spaces.
Definition white (c : N) : Prop := space c \/ In c [28; 29; 30; 31]%N.

(** ** C71 *)
(** Comma or white space *)
Definition between (c : N) : Prop := c = 44%N \/ white c.
(** The words of a text: the longest stretches without separators *)
Inductive words : text -> list text -> Prop :=
| W_end : words [] []
| W_between c s ws : between c -> words s ws -> words (c :: s) ws
| W_word w s ws : w <> [] -> Forall (fun c => ~ between c) w -> s = [] \/ (exists c r, s = c :: r /\ between c) -> words s ws -> words (w ++ s) (w :: ws).

(** ** C72 *)
Definition possible (st : statvfs) : Prop :=
  (0 <= f_bavail st /\ f_bavail st <= f_bfree st /\ f_bfree st <= f_blocks st /\ 0 <= f_frsize st)%Z.
(** The counts in bytes: all blocks, those not free, and those free for users *)
Definition counts (st : statvfs) (u : usage) : Prop :=
  total u = (f_frsize st * f_blocks st)%Z /\ used u = (f_frsize st * (f_blocks st - f_bfree st))%Z /\ free u = (f_frsize st * f_bavail st)%Z.
(** Roundings: floats and round(x, 1) are such *)
Definition monotone (f : Q -> Q) : Prop := forall x y, (x <= y)%Q -> (f x <= f y)%Q.
Definition keeps (f : Q -> Q) (x : Q) : Prop := (f x == x)%Q.

(** ** C73 *)
(** An entry of the kernel: 16 bytes with the name and at least one NUL, then a socket address,
    whose bytes 4-7 are the IPv4 address; whatever else is in it *)
Definition entry (is_64bits : bool) (name addr e : bytes) : Prop :=
  exists junk family rest, e = (name ++ x00 :: junk) ++ family ++ addr ++ rest /\ ~ In x00 name /\
    length (name ++ x00 :: junk) = 16 /\ length family = 4 /\ length addr = 4 /\ length e = if is_64bits then 40 else 32.
Definition stored (is_64bits : bool) (ifaces : list (bytes * bytes)) (buffer : bytes) (size : nat) : Prop :=
  exists es unused, buffer = concat es ++ unused /\ size = length (concat es) /\ Forall2 (fun p e => entry is_64bits (fst p) (snd p) e) ifaces es.
Definition ascii (name : bytes) : Prop := Forall (fun n => (n < 128)%N) (b2n name).
(** The usual notation of an address *)
Definition dotted (addr : bytes) (t : text) : Prop :=
  exists a b c d, addr = [a; b; c; d] /\
    t = dec_N (Byte.to_N a) ++ T "." ++ dec_N (Byte.to_N b) ++ T "." ++ dec_N (Byte.to_N c) ++ T "." ++ dec_N (Byte.to_N d).

(** ** C74 *)
(** Lines, with their newlines *)
Inductive lines : bytes -> list bytes -> Prop :=
| L_none : lines [] []
| L_last l : l <> [] -> ~ In x0a l -> lines l [l]
| L_line l r ls : ~ In x0a l -> lines r ls -> lines (l ++ x0a :: r) ((l ++ [x0a]) :: ls).
Definition blank (b : byte) : Prop := In (Byte.to_N b) [9; 10; 11; 12; 13; 32]%N.
(** [y] is [x], in lower case if it is one of A-Z *)
Definition lowered (x y : byte) : Prop :=
  let n := Byte.to_N x in if (65 <=? n)%N && (n <=? 90)%N then Byte.to_N y = (n + 32)%N else y = x.
(** [t] is [s] without white space around it *)
Definition trimmed (s t : bytes) : Prop :=
  exists p q, s = p ++ t ++ q /\ Forall blank p /\ Forall blank q /\
    (forall x r, t = x :: r -> ~ blank x) /\ (forall x r, t = r ++ [x] -> ~ blank x).
(** The line says "revision : value" *)
Definition revision_line (line value : bytes) : Prop :=
  exists key rest k v, line = key ++ x3a :: rest /\ ~ In x3a key /\ trimmed key k /\ Forall2 lowered k (B "revision") /\
    trimmed rest v /\ Forall2 lowered v value.

(** ** C75 *)
(** What a program sees in a dictionary *)
Definition see (s : heap) (v : mval) : option text + list text := match v with Str t => inl t | Ref n => inr (nth n (lists s) []) end.
Definition view (s : heap) (n : nat) : list (text * (option text + list text)) := map (fun p => (fst p, see s (snd p))) (nth n (dicts s) []).
Definition mrun (s : heap) (l : list mop) : heap := fold_left (fun s o => fst (mstep s o)) l s.
(** What a fresh dictionary shows *)
Definition fresh_view (h : host) : list (text * (option text + list text)) :=
  [(T "agent_version", inl (Some (h_version h))); (T "machine_revision", inl (h_revision h)); (T "model_name", inl (Some (h_model h)));
   (T "os_version", inl (Some (h_os h))); (T "uname", inl (Some (h_uname h))); (T "ip_list", inr (h_ips h))].
Definition reads_only (o : mop) : Prop := match o with MGet _ => True | _ => False end.
(** The first host that answered *)
Fixpoint first_host (l : list mop) : option host :=
  match l with [] => None | MGet (Some h) :: _ => Some h | _ :: r => first_host r end.
(** The program leaves the dictionary of the first call, which is number 0, and its ip_list, also 0, alone. *)
Definition spares_first (o : mop) : Prop := match o with MGet _ => True | MDict n _ => n <> 0 | MList n _ => n <> 0 end.

(** ** C76 *)
Definition digit (c d : N) : Prop := (d < 10)%N /\ exists z, In z zeros /\ c = (z + d)%N.
(** Digits, with single underscores between them at will *)
Inductive numeral : text -> list N -> Prop :=
| N_one c d : digit c d -> numeral [c] [d]
| N_more c d s ds : digit c d -> numeral s ds -> numeral (c :: s) (d :: ds)
| N_under c d s ds : digit c d -> numeral s ds -> numeral (c :: 95%N :: s) (d :: ds).
Definition value (ds : list N) : N := fold_left (fun a d => 10 * a + d)%N ds 0%N.
(** [s] is the integer [z], written with [k] digits *)
Definition written (s : text) (z : Z) (k : nat) : Prop :=
  exists p sign n q ds, s = p ++ sign ++ n ++ q /\ Forall space p /\ Forall space q /\ numeral n ds /\ k = length ds /\
    ((sign = [] \/ sign = T "+") /\ z = Z.of_N (value ds) \/ sign = T "-" /\ z = (- Z.of_N (value ds))%Z).

(** ** C77 *)
Definition jump (t : turn) : Prop := (180 < after t - before t)%Q.
