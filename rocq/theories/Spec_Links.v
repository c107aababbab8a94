(** * What C103-C106 mean *)
From Verif Require Import Py Model_Path Model_Remote Spec_Remote Model_Links.

(** ** Where names lead in a file system with links *)
(** [last]: a link that is the last name is followed too *)
Inductive leads (f : lfs) (last : bool) : loc -> list text -> loc -> Prop :=
| ld_end cur : leads f last cur [] cur
| ld_same cur c r l : f cur = Some LDir -> c = [] \/ c = [dot] -> leads f last cur r l -> leads f last cur (c :: r) l
| ld_up cur r l : f cur = Some LDir -> leads f last (removelast cur) r l -> leads f last cur ([dot; dot] :: r) l
| ld_down cur c r l : f cur = Some LDir -> c <> [] -> c <> [dot] -> c <> [dot; dot] ->
    (forall t, f (cur ++ [c]) <> Some (LLink t)) -> leads f last (cur ++ [c]) r l -> leads f last cur (c :: r) l
| ld_link cur c r a t l : f cur = Some LDir -> c <> [] -> c <> [dot] -> c <> [dot; dot] ->
    f (cur ++ [c]) = Some (LLink (a :: t)) -> r <> [] \/ last = true ->
    leads f last (if is_slash a then [] else cur) (split_sep (a :: t) ++ r) l -> leads f last cur (c :: r) l
| ld_stop cur c t : f cur = Some LDir -> c <> [] -> c <> [dot] -> c <> [dot; dot] ->
    f (cur ++ [c]) = Some (LLink t) -> last = false -> leads f last cur [c] (cur ++ [c]).
(** The place a path names *)
Definition reaches (cfg : config) (f : lfs) (last : bool) (p : text) (l : loc) : Prop :=
  leads f last (match p with c :: _ => if is_slash c then [] else cwd cfg | [] => cwd cfg end) (split_sep p) l.

(** No link at or below a place *)
Definition unlinked (f : lfs) (l : loc) : Prop := forall l' t, within l l' -> f l' <> Some (LLink t).
(** Whatever has a name is in a directory *)
Definition ltree (f : lfs) : Prop := f [] = Some LDir /\ forall l n, f (l ++ [n]) <> None -> f l = Some LDir.
(** Other programs leave the files alone during the request. *)
Definition unbothered (w : lworld) : Prop := Forall (fun c => fst c = None) (l_calls w).

Definition lafter {A} (m : LM A) (w : lworld) : lworld := fst (m w).
Definition lresult {A} (m : LM A) (w : lworld) : A + rexn := snd (m w).

(** The same but for directories made *)
Definition with_dirs (f f1 : lfs) : Prop := forall l, f1 l = f l \/ (f l = None /\ f1 l = Some LDir).
(** The file of scan results *)
Definition scan_path (cfg : config) : text := join (tmpdir cfg) (T "__dataplicity_remote_directory_scan___.json").
(** Files that may be sent: those in the remote directory [R], and for the special path the
    scan result. *)
Definition servable (cfg : config) (f : lfs) (R : loc) (p : text) (src : loc) : Prop :=
  within R src \/ (p = 0%N :: T "scan.json" /\ exists f1, with_dirs f f1 /\ reaches cfg f1 true (scan_path cfg) src).
