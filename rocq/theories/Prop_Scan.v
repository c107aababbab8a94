(** * Properties C53-C59 and C133: directory scans (dataplicity/scan_directory.py, dataplicity/directory_scanner.py) *)
From Verif Require Import Py Model_Path Model_Scan Spec_Scan Proof_Scan Proof_Scan2 Proof_Scan3 Proof_Scan4 Proof_Scan5.

Definition dirent (n : text) (i : N) : item := Item n (Some true) (Some false) (Some i) (Some 0%Z).
Definition filent (n : text) (s : Z) : item := Item n (Some false) (Some true) (Some 0%N) (Some s).

(** ** C53 *)
(** Links may make cycles; inode() never fails *)
Theorem C53_scan_ends : forall g sizes max_depth root_ok, Forall (fun e => i_inode e <> None) (graph_items g) ->
  ends (scan_directory (graph_os g) sizes max_depth root_ok).
Proof. exact graph_ends. Qed.
Print Assumptions C53_scan_ends.
(** With a depth limit inode() may fail as well *)
Theorem C53_limited_scan_ends : forall g sizes m root_ok, ends (scan_directory (graph_os g) sizes (Some m) root_ok).
Proof. exact graph_ends_depth. Qed.
Print Assumptions C53_limited_scan_ends.
(** Any operating system, not only graphs *)
Theorem C53_scan_ends_if_inodes_finite : forall scandir sizes max_depth (I : list N),
  (forall p l e, scandir p = Some l -> In (Some e) l -> holds (i_dir e) = true -> exists n, i_inode e = Some n /\ In n I) ->
  forall root_ok, ends (scan_directory scandir sizes max_depth root_ok).
Proof. exact scan_ends_inodes. Qed.
Print Assumptions C53_scan_ends_if_inodes_finite.

(** Directory 0 has a directory 1 and a link to itself, directory 1 a link to directory 0. *)
Definition loops : graph :=
  [Some [Some (dirent (T "a") 1, 1); Some (dirent (T "self") 2, 0); Some (filent (T "f") 5, 0)]; Some [Some (dirent (T "up") 3, 0)]].
Example C53_case : Forall (fun e => i_inode e <> None) (graph_items loops) /\
  scan_directory (graph_os loops) true None true 20 =
  Ok [(T "", Info (Some [(T "f", 5%Z)]) (Some [T "a"])); (T "a", Info None (Some [T "up"]));
      (T "a/up", Info (Some [(T "f", 5%Z)]) (Some [T "self"])); (T "a/up/self", Info (Some [(T "f", 5%Z)]) None)].
Proof. split; [repeat constructor; discriminate|vm_compute; reflexivity]. Qed.

(** ** C54 *)
Theorem C54_depth_and_hidden : forall scandir sizes max_depth, os_ok scandir -> forall root_ok fuel d,
  scan_directory scandir sizes max_depth root_ok fuel = Ok d -> forall p i, dict_get text_eqb p d = Some i ->
    exists cs, p = path_text cs /\ Forall name_ok cs /\ Forall (fun n => ~ hidden n) cs /\ (cs <> [] -> level_ok max_depth (length cs)) /\
      (forall n, In n (listed_dirs i) -> ~ hidden n /\ level_ok max_depth (S (length cs))) /\
      (forall n s, In (n, s) (listed_files i) -> ~ hidden n).
Proof. exact depth_and_hidden. Qed.
Print Assumptions C54_depth_and_hidden.
Definition secret : graph :=
  [Some [Some (dirent (T ".ssh") 1, 1); Some (dirent (T "d") 2, 2); Some (filent (T ".profile") 3, 0)]; Some [Some (filent (T "key") 9, 0)];
   Some [Some (dirent (T "e") 4, 3); Some (filent (T "g") 7, 0)]; Some [Some (filent (T "deep") 1, 0)]].
Lemma secret_ok : os_ok (graph_os secret).
Proof.
  intros p l H. destruct (graph_os_in _ _ _ H) as (l' & I & ->). cbn in I.
  repeat (destruct I as [I|I]; [injection I as <-; cbn; repeat (constructor; [split; [discriminate|intros X; repeat destruct X as [X|X]; discriminate || contradiction]|]); constructor|]). destruct I.
Qed.
Example C54_case : os_ok (graph_os secret) /\
  scan_directory (graph_os secret) true (Some 2%Z) true 20 = Ok [(T "", Info None (Some [T "d"])); (T "d", Info (Some [(T "g", 7%Z)]) None)].
Proof. split; [exact secret_ok|vm_compute; reflexivity]. Qed.

(** ** C55 *)
Theorem C55_complete_on_ordinary_trees : forall t sizes max_depth, ordinary t ->
  (exists fuel d, scan_directory (tree_os t) sizes max_depth true fuel = Ok d) /\
  forall fuel d, scan_directory (tree_os t) sizes max_depth true fuel = Ok d -> forall cs, Forall name_ok cs ->
    (dict_get text_eqb (path_text cs) d <> None <->
     subtree t cs <> None /\ Forall (fun n => ~ hidden n) cs /\ (cs <> [] -> level_ok max_depth (length cs))) /\
    forall i t', dict_get text_eqb (path_text cs) d = Some i -> subtree t cs = Some t' ->
      listed_files i = visible_files sizes t' /\
      (level_ok max_depth (S (length cs)) -> listed_dirs i = visible_dirs t') /\ (~ level_ok max_depth (S (length cs)) -> listed_dirs i = []).
Proof. exact complete_listing. Qed.
Print Assumptions C55_complete_on_ordinary_trees.
Definition home_tree : dtree :=
  DTree [(T "a.txt", DFile 12); (T "docs", DDir 1 (DTree [(T "b", DFile 3); (T "old", DDir 2 (DTree [(T "c", DFile 4)]))]));
         (T ".cache", DDir 3 (DTree [])); (T "sock", DSpecial); (T "empty", DDir 4 (DTree []))].
Example C55_case : ordinary home_tree /\
  scan_directory (tree_os home_tree) true None true 30 =
  Ok [(T "", Info (Some [(T "a.txt", 12%Z)]) (Some [T "docs"; T "empty"])); (T "docs", Info (Some [(T "b", 3%Z)]) (Some [T "old"]));
      (T "docs/old", Info (Some [(T "c", 4%Z)]) None); (T "empty", Info None None)].
Proof.
  split; [|vm_compute; reflexivity]. split.
  - cbn. repeat split; try (repeat constructor; cbn; intros X; repeat destruct X as [X|X]; discriminate || contradiction).
  - cbn. repeat constructor; cbn; intros X; repeat destruct X as [X|X]; discriminate || contradiction.
Qed.

(** ** C56 *)
Theorem C56_only_what_exists : forall scandir sizes max_depth, os_ok scandir -> forall root_ok fuel d,
  scan_directory scandir sizes max_depth root_ok fuel = Ok d -> forall p i, dict_get text_eqb p d = Some i ->
    exists l, scandir p = Some l /\
      (forall n, In n (listed_dirs i) -> exists e, In (Some e) l /\ i_name e = n /\ i_dir e = Some true) /\
      (forall n s, In (n, s) (listed_files i) -> exists e, In (Some e) l /\ i_name e = n /\ i_file e = Some true /\ i_dir e <> Some true /\
         s = (if sizes then match i_size e with Some s => s | None => (-1)%Z end else (-1)%Z)) /\
      (NoDup (names l) -> NoDup (listed_dirs i ++ map fst (listed_files i))).
Proof. exact only_what_exists. Qed.
Print Assumptions C56_only_what_exists.
(** Nothing is reported for a root that is no directory. *)
Theorem C56_no_root_no_result : forall scandir sizes max_depth fuel d, scan_directory scandir sizes max_depth false fuel <> Ok d.
Proof. exact no_root. Qed.
Print Assumptions C56_no_root_no_result.
Example C56_case : os_ok (graph_os secret) /\
  scan_directory (graph_os secret) false None true 20 =
  Ok [(T "", Info None (Some [T "d"])); (T "d", Info (Some [(T "g", (-1)%Z)]) (Some [T "e"])); (T "d/e", Info (Some [(T "deep", (-1)%Z)]) None)].
Proof. split; [exact secret_ok|vm_compute; reflexivity]. Qed.

(** ** C57 *)
Theorem C57_one_scan_at_a_time : forall f l t t' th th', let s := srun l (sinit f) in
  nth_error (sc_threads s) t = Some th -> nth_error (sc_threads s) t' = Some th' -> inside th -> inside th' -> t = t'.
Proof. exact one_scan. Qed.
Print Assumptions C57_one_scan_at_a_time.
Theorem C57_success_after_write : forall f l a n, let s := srun l (sinit f) in sc_sent (sstep s a) = (n, true) :: sc_sent s ->
  exists t d, a = Notified t true /\ nth_error (sc_threads s) t = Some (Th (PNotify d) (Some n)) /\ sc_file s = Some d /\ In d (results l).
Proof. exact success_after_write. Qed.
Print Assumptions C57_success_after_write.
(** Two requests in quick succession: both threads start, the second waits. *)
Definition two : list saction :=
  [Call (Some 0); Call (Some 1); Spawn true; Spawn true; Acquire 0; Acquire 1; Scanned 0 (Some (B "{}")); Opened 0 true; Wrote 0 1; Wrote 0 1; Closed 0].
Example C57_case : map t_pc (sc_threads (srun two (sinit None))) = [PNotify (B "{}"); PLock] /\
  sc_sent (sstep (srun two (sinit None)) (Notified 0 true)) = (0, true) :: sc_sent (srun two (sinit None)).
Proof. vm_compute. auto. Qed.

(** ** C58 *)
(** A request made while a scan runs gets no answer at all. *)
Theorem C58_every_request_answered_refuted : exists l n, In n (requests l) /\ settled (srun l (sinit None)) /\
  ~ In n (map fst (sc_sent (srun l (sinit None)))) /\ Forall (fun a => ~ fails a) l.
Proof. exact dropped_request. Qed.
Print Assumptions C58_every_request_answered_refuted.
(** Nor does one whose scan fails. *)
Theorem C58_failure_answered_refuted : exists l n, requests l = [n] /\ settled (srun l (sinit None)) /\ sc_sent (srun l (sinit None)) = [].
Proof. exact failed_request. Qed.
Print Assumptions C58_failure_answered_refuted.
(** What holds: no request has two answers, and one that found no scan running is answered when
    nothing fails after it. *)
Theorem C58_one_answer_partial : forall f l, NoDup (requests l) ->
  NoDup (map fst (sc_sent (srun l (sinit f)))) /\ incl (map fst (sc_sent (srun l (sinit f)))) (requests l).
Proof. exact one_answer. Qed.
Print Assumptions C58_one_answer_partial.
Theorem C58_answered_partial : forall f l1 n l2, Forall (fun a => ~ fails a) l2 -> sc_lock (srun l1 (sinit f)) = None ->
  settled (srun (l1 ++ Call (Some n) :: l2) (sinit f)) -> In n (map fst (sc_sent (srun (l1 ++ Call (Some n) :: l2) (sinit f)))).
Proof. exact answered. Qed.
Print Assumptions C58_answered_partial.
Definition all_of (t : nat) (d : bytes) : list saction :=
  [Acquire t; Scanned t (Some d); Opened t true; Wrote t (length d); Closed t; Notified t true; Released t].
Example C58_case : let l2 := Call (Some 1) :: [Spawn true; Spawn true] ++ all_of 1 (B "[1]") ++ all_of 0 (B "[0]") in
  Forall (fun a => ~ fails a) l2 /\ settled (srun ([] ++ Call (Some 0) :: l2) (sinit None)) /\ NoDup (requests (Call (Some 0) :: l2)) /\
  sc_sent (srun (Call (Some 0) :: l2) (sinit None)) = [(0, true); (1, true)].
Proof.
  split; [|split; [|split]].
  - repeat constructor; exact (fun X => X).
  - split; [reflexivity|]. repeat constructor.
  - cbn. repeat constructor; cbn; intros X; repeat destruct X as [X|X]; discriminate || contradiction.
  - vm_compute. reflexivity.
Qed.

(** ** C59 *)
(** A reader, or the next start after a crash, may find part of a result ... *)
Theorem C59_never_torn_refuted : exists f l b, sc_file (srun l (sinit f)) = Some b /\ f <> Some b /\ ~ In b (results l) /\ no_failure l.
Proof. exact torn. Qed.
Print Assumptions C59_never_torn_refuted.
(** ... and a failed write leaves it there for good. *)
Theorem C59_failed_write_refuted : exists f l b, sc_file (srun l (sinit f)) = Some b /\ f <> Some b /\ ~ In b (results l) /\ settled (srun l (sinit f)).
Proof. exact torn_for_good. Qed.
Print Assumptions C59_failed_write_refuted.
Theorem C59_whole_between_writes_partial : forall f l, no_failure l -> (forall th, In th (sc_threads (srun l (sinit f))) -> ~ writing th) ->
  sc_file (srun l (sinit f)) = f \/ exists d, sc_file (srun l (sinit f)) = Some d /\ In d (results l).
Proof. exact file_kept. Qed.
Print Assumptions C59_whole_between_writes_partial.
Example C59_case : let l := two ++ [Notified 0 true; Released 0] in
  no_failure l /\ (forall th, In th (sc_threads (srun l (sinit None))) -> ~ writing th) /\ sc_file (srun l (sinit None)) = Some (B "{}").
Proof.
  split; [|split].
  - repeat constructor.
  - cbn. intros th [<-|[<-|[]]]; exact (fun X => X).
  - reflexivity.
Qed.

(** ** C133 *)
(** [In None l]: reading the directory fails part-way *)
Theorem C133_scan_fails_only_if_reading_fails : forall scandir sizes max_depth root_ok fuel e,
  scan_directory scandir sizes max_depth root_ok fuel = Raise e ->
  root_ok = false /\ e = EOther \/ root_ok = true /\ e = EOS /\ exists p l, scandir p = Some l /\ In None l.
Proof. exact scan_raise. Qed.
Print Assumptions C133_scan_fails_only_if_reading_fails.
(** Whatever directories cannot be opened ([None] in the graph) and whatever is_dir, is_file and
    stat raise *)
Theorem C133_scan_succeeds : forall g sizes max_depth, Forall (fun e => i_inode e <> None) (graph_items g) ->
  (forall l, In (Some l) g -> ~ In None l) -> exists fuel d, scan_directory (graph_os g) sizes max_depth true fuel = Ok d.
Proof. exact scan_succeeds. Qed.
Print Assumptions C133_scan_succeeds.
(** Directory 1 cannot be opened; nothing is known about "odd". In the second graph reading breaks off. *)
Definition shut : graph := [Some [Some (dirent (T "a") 1, 1); Some (Item (T "odd") None None (Some 7%N) None, 0); Some (filent (T "f") 5, 0)]; None].
Definition broken_off : graph := [Some [Some (dirent (T "a") 1, 1)]; Some [Some (filent (T "f") 5, 0); None]].
Example C133_case : Forall (fun e => i_inode e <> None) (graph_items shut) /\ (forall l, In (Some l) shut -> ~ In None l) /\
  scan_directory (graph_os shut) true None true 20 = Ok [(T "", Info (Some [(T "f", 5%Z)]) (Some [T "a"]))] /\
  scan_directory (graph_os broken_off) true None true 20 = Raise EOS /\ scan_directory (graph_os broken_off) true None false 20 = Raise EOther.
Proof.
  split; [repeat constructor; discriminate|]. split; [|repeat split; vm_compute; reflexivity].
  intros l [[= <-]|[H|[]]]; [|discriminate]. intros X. repeat destruct X as [X|X]; discriminate || contradiction.
Qed.
