(** * Specification of directory scans (C53-C59) *)
From Verif Require Import Py Model_Path Model_Scan.

(** ** Names and paths *)
(** A name in a directory *)
Definition name_ok (n : text) : Prop := n <> [] /\ ~ In slash n.
Definition hidden (n : text) : Prop := exists r, n = dot :: r.
(** The path made of names *)
Fixpoint path_text (cs : list text) : text :=
  match cs with
  | [] => []
  | [c] => c
  | c :: r => c ++ slash :: path_text r
  end.
(** A directory [n] levels below the root is within the limit *)
Definition level_ok (max_depth : option Z) (n : nat) : Prop :=
  match max_depth with Some m => (Z.of_nat n <= m - 1)%Z | None => True end.

Definition entries (l : listing) : list item := flat_map (fun x => match x with Some e => [e] | None => [] end) l.
Definition names (l : listing) : list text := map i_name (entries l).
(** Entries of directories have names *)
Definition os_ok (scandir : text -> option listing) : Prop :=
  forall p l, scandir p = Some l -> Forall name_ok (names l).

(** What a result says about a directory *)
Definition listed_files (i : info) : list (text * Z) := match d_files i with Some l => l | None => [] end.
Definition listed_dirs (i : info) : list text := match d_dirs i with Some l => l | None => [] end.

(** The scan ends *)
Definition ends {A} (run : nat -> res A) : Prop := exists fuel, run fuel <> Hang.

(** ** Finite file systems: directories by number, entries with the directory they lead to *)
Definition graph := list (option (list (option (item * nat)))).   (* None: scandir raises *)
Definition graph_dir (g : graph) (d : nat) : option (list (option (item * nat))) :=
  match nth_error g d with Some x => x | None => None end.
Definition graph_child (l : list (option (item * nat))) (n : text) : option nat :=
  match find (fun x => match x with Some (e, _) => text_eqb (i_name e) n | None => false end) l with
  | Some (Some (_, d)) => Some d
  | _ => None
  end.
Fixpoint graph_at (g : graph) (d : nat) (cs : list text) : option nat :=
  match cs with
  | [] => Some d
  | c :: r => match graph_dir g d with
              | Some l => match graph_child l c with Some d' => graph_at g d' r | None => None end
              | None => None
              end
  end.
Definition components (p : text) : list text := match p with [] => [] | _ => split_sep p end.
(** Directory 0 is the root of the scan. *)
Definition graph_os (g : graph) (p : text) : option listing :=
  match graph_at g 0 (components p) with
  | Some d => option_map (map (option_map fst)) (graph_dir g d)
  | None => None
  end.
Definition graph_items (g : graph) : list item :=
  flat_map (fun x => match x with Some l => entries (map (option_map fst) l) | None => [] end) g.

(** ** Ordinary trees *)
Inductive dtree := DTree (l : list (text * dent))
with dent :=
| DFile (size : Z)
| DDir (inode : N) (t : dtree)
| DSpecial.                                  (* socket, pipe, device *)
Definition dentries (t : dtree) : list (text * dent) := let 'DTree l := t in l.
(** The inode numbers of all directories below *)
Fixpoint inodes (t : dtree) : list N :=
  let 'DTree l := t in
  flat_map (fun x : text * dent => match snd x with DDir i t' => i :: inodes t' | _ => [] end) l.
Fixpoint tree_names_ok (t : dtree) : Prop :=
  let 'DTree l := t in
  Forall name_ok (map fst l) /\ NoDup (map fst l) /\
  fold_right (fun (x : text * dent) P => match snd x with DDir _ t' => tree_names_ok t' | _ => True end /\ P) True l.
(** No links, so every directory appears once *)
Definition ordinary (t : dtree) : Prop := tree_names_ok t /\ NoDup (inodes t).
Definition child (t : dtree) (n : text) : option dtree :=
  match find (fun x => text_eqb (fst x) n) (dentries t) with
  | Some (_, DDir _ t') => Some t'
  | _ => None
  end.
Fixpoint subtree (t : dtree) (cs : list text) : option dtree :=
  match cs with
  | [] => Some t
  | c :: r => match child t c with Some t' => subtree t' r | None => None end
  end.
Definition tree_item (x : text * dent) : option item :=
  Some (match snd x with
        | DFile s => Item (fst x) (Some false) (Some true) (Some 0%N) (Some s)
        | DDir i _ => Item (fst x) (Some true) (Some false) (Some i) (Some 0%Z)
        | DSpecial => Item (fst x) (Some false) (Some false) (Some 0%N) (Some 0%Z)
        end).
Definition tree_os (t : dtree) (p : text) : option listing :=
  option_map (fun t' => map tree_item (dentries t')) (subtree t (components p)).
(** What is to be listed *)
Definition visible_files (sizes : bool) (t : dtree) : list (text * Z) :=
  flat_map (fun x : text * dent => match snd x with
    | DFile s => if starts_with [dot] (fst x) then [] else [(fst x, if sizes then s else (-1)%Z)]
    | _ => [] end) (dentries t).
Definition visible_dirs (t : dtree) : list text :=
  flat_map (fun x : text * dent => match snd x with
    | DDir _ _ => if starts_with [dot] (fst x) then [] else [fst x]
    | _ => [] end) (dentries t).

(** ** Scanner threads *)
Definition inside (th : sthread) : Prop := match t_pc th with PLock | PDone => False | _ => True end.
Definition writing (th : sthread) : Prop := match t_pc th with PWrite _ _ => True | _ => False end.
(** The results of the scans of a run *)
Fixpoint results (l : list saction) : list bytes :=
  match l with
  | [] => []
  | Scanned _ (Some d) :: r => d :: results r
  | _ :: r => results r
  end.
Definition no_failure (l : list saction) : Prop := Forall (fun a => match a with WriteFails _ => False | _ => True end) l.
(** Nothing is going on any more *)
Definition settled (s : scanner) : Prop := sc_pending s = [] /\ Forall (fun th => t_pc th = PDone) (sc_threads s).
Definition requests (l : list saction) : list nat :=
  flat_map (fun a => match a with Call (Some n) => [n] | _ => [] end) l.
(** Scanning, writing or telling of success goes wrong *)
Definition fails (a : saction) : Prop :=
  match a with Scanned _ None | Opened _ false | WriteFails _ | Notified _ false => True | _ => False end.
