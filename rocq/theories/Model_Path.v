(** * POSIX path strings and a file system (Python's os.path and os; not agent code).

    Simplifications: no symbolic or hard links, no permissions; errors that depend on
    them, on limits or on the device come from a fault schedule (see [next_fault]). *)
From Verif Require Import Py.

(** ** os.path on text *)
Definition slash : N := 47.
Definition dot : N := 46.
Definition is_slash (c : N) : bool := (c =? slash)%N.

(** p.split("/") *)
Fixpoint split_sep (p : text) : list text :=
  match p with
  | [] => [[]]
  | c :: r => if is_slash c then [] :: split_sep r
              else match split_sep r with [] => [[c]] | h :: t => (c :: h) :: t end
  end.
(** str.startswith *)
Fixpoint starts_with (pre p : text) : bool :=
  match pre, p with
  | [], _ => true
  | a :: pre', b :: p' => (a =? b)%N && starts_with pre' p'
  | _, [] => false
  end.
(** str.endswith("/") *)
Definition ends_slash (p : text) : bool := match rev p with c :: _ => is_slash c | [] => false end.
(** posixpath.join with one component *)
Definition join (a b : text) : text :=
  if starts_with [slash] b then b
  else match a with
       | [] => b
       | _ => if ends_slash a then a ++ b else a ++ [slash] ++ b
       end.
(** path.lstrip("/") *)
Definition lstrip_slash : text -> text := lstrip is_slash.
Definition rstrip_slash (p : text) : text := rev (lstrip is_slash (rev p)).
(** The part after the last separator and the part up to it (posixpath.split, first lines) *)
Fixpoint rsplit (p : text) : text * text :=
  match p with
  | [] => ([], [])
  | c :: r => let '(h, t) := rsplit r in
              match h with
              | [] => if is_slash c then ([c], t) else ([], c :: t)
              | _ => (c :: h, t)
              end
  end.
(** posixpath.split *)
Definition path_split (p : text) : text * text :=
  let '(h, t) := rsplit p in
  (if forallb is_slash h then h else rstrip_slash h, t).
(** The last "." of a name: what precedes it and what starts with it *)
Fixpoint last_dot (p : text) : option (text * text) :=
  match p with
  | [] => None
  | c :: r => match last_dot r with
              | Some (h, t) => Some (c :: h, t)
              | None => if (c =? dot)%N then Some ([], p) else None
              end
  end.
(** os.path.splitext of a name without separator (genericpath._splitext): leading dots do
    not start an extension *)
Definition splitext (p : text) : text * text :=
  match last_dot p with
  | Some (h, t) => if forallb (fun c => (c =? dot)%N) h then (p, []) else (h, t)
  | None => (p, [])
  end.

(** ** The file system *)
Definition loc := list text.          (* names from the root directory *)
Inductive node := File (b : bytes) | Dir.
Definition fs := loc -> option node.

Definition loc_eqb : loc -> loc -> bool := list_eqb text_eqb.
Definition set_node (f : fs) (l : loc) (n : option node) : fs :=
  fun x => if loc_eqb x l then n else f x.

(** Following names from a directory: each step needs a directory to start from. *)
Fixpoint walk (f : fs) (cur : loc) (cs : list text) : option loc :=
  match cs with
  | [] => Some cur
  | c :: r =>
      match f cur with
      | Some Dir =>
          if text_eqb c [] || text_eqb c [dot] then walk f cur r
          else if text_eqb c [dot; dot] then walk f (removelast cur) r
          else walk f (cur ++ [c]) r
      | _ => None
      end
  end.
(** The place a path names; embedded NUL raises ValueError, missing folders OSError. *)
Definition resolve (f : fs) (cwd : loc) (p : text) : res loc :=
  if existsb (fun c => (c =? 0)%N) p then Raise EValue
  else match p with
       | [] => Raise EOS
       | c :: _ =>
           match walk f (if is_slash c then [] else cwd) (split_sep p) with
           | Some l => Ok l
           | None => Raise EOS
           end
       end.
Definition lookup (f : fs) (cwd : loc) (p : text) : option node :=
  match resolve f cwd p with Ok l => f l | _ => None end.
(** os.path.exists, os.path.isdir *)
Definition path_exists (f : fs) (cwd : loc) (p : text) : bool :=
  match lookup f cwd p with Some _ => true | None => false end.
Definition path_isdir (f : fs) (cwd : loc) (p : text) : bool :=
  match lookup f cwd p with Some Dir => true | _ => false end.

(** Writing [d] at offset [off]; a gap is filled with zero bytes *)
Definition write_bytes (b : bytes) (off : nat) (d : bytes) : bytes :=
  match d with
  | [] => b
  | _ => firstn off b ++ repeat x00 (off - length b) ++ d ++ skipn (off + length d) b
  end.

(** [src] is [dst] or above it *)
Fixpoint below (src l : loc) : option loc := (* what follows src in l *)
  match src, l with
  | [], _ => Some l
  | a :: src', b :: l' => if text_eqb a b then below src' l' else None
  | _, [] => None
  end.
(** rename(2) on places: everything at and below [src] moves to [dst] *)
Definition move (f : fs) (src dst : loc) : fs := fun l =>
  match below dst l with
  | Some r => f (src ++ r)
  | None => match below src l with Some _ => None | None => f l end
  end.
