(** * Properties C103-C106: the remote directory and symbolic links *)
From Verif Require Import Py Model_Path Model_Remote Spec_Remote Model_Links Spec_Links
  Proof_Links Proof_Links2 Proof_Links3 Proof_Links4.

(** ** The device of the examples *)
Definition ldev : config :=
  Config (T "/home/pi/remote") (T "/var/tmp") (T "/tmp") [] (Some (1000000, 4096, 500000)%Z) (fun _ => T "error").
(** The home of pi is on another disk: the way to the remote directory has a link. *)
Definition disk : loc := [T "mnt"; T "remote"].
Definition lfiles : list (loc * lnode) :=
  [([T "mnt"], LDir); (disk, LDir); (disk ++ [T "a.txt"], LFile (B "hello")); (disk ++ [T "sub"], LDir);
   ([T "home"], LDir); ([T "home"; T "pi"], LLink (T "../mnt"));
   ([T "var"], LDir); ([T "var"; T "tmp"], LDir); ([T "var"; T "tmp"; T "dl"], LFile (B "new"));
   ([T "etc"], LDir); ([T "etc"; T "passwd"], LFile (B "root:x")); ([T "tmp"], LDir);
   ([T "tmp"; T "__dataplicity_remote_directory_scan___.json"], LFile (B "{}"))].
Definition lf0 : lfs := lfs_of lfiles.
Definition snap_u : loc := [T "var"; T "tmp"; T "dataplicity_remote"; T "u"].
Definition dl : text := T "/var/tmp/dl".
Definition dl_loc : loc := [T "var"; T "tmp"; T "dl"].
(** With a link in the remote directory to a folder outside it *)
Definition lf1 : lfs := lfs_of ((disk ++ [T "d"], LLink (T "/etc")) :: lfiles).
(** With a link in the remote directory to nothing *)
Definition lf2 : lfs := lfs_of ((disk ++ [T "n"], LLink (T "/etc/new")) :: lfiles).
(** With another program's file in the remote directory *)
Definition lf3 : lfs := lfs_of ((disk ++ [T "x"], LFile (B "mine")) :: lfiles).
(** With a link for the scan result *)
Definition lf4 : lfs :=
  lfs_of (([T "tmp"; T "__dataplicity_remote_directory_scan___.json"], LLink (T "/etc/passwd")) :: lfiles).

Lemma ltree0 : ltree lf0. Proof. apply lfs_of_tree. vm_compute. reflexivity. Qed.
Lemma ltree1 : ltree lf1. Proof. apply lfs_of_tree. vm_compute. reflexivity. Qed.
Lemma ltree2 : ltree lf2. Proof. apply lfs_of_tree. vm_compute. reflexivity. Qed.
Lemma ltree3 : ltree lf3. Proof. apply lfs_of_tree. vm_compute. reflexivity. Qed.
Lemma ltree4 : ltree lf4. Proof. apply lfs_of_tree. vm_compute. reflexivity. Qed.
Lemma ldev_root : absolute (root ldev). Proof. now eexists. Qed.
Lemma ldev_disk0 : reaches ldev lf0 true (root ldev) disk.
Proof. apply lresolve_reaches. vm_compute. reflexivity. Qed.
Lemma ldev_disk1 : reaches ldev lf1 true (root ldev) disk.
Proof. apply lresolve_reaches. vm_compute. reflexivity. Qed.
Lemma ldev_disk2 : reaches ldev lf2 true (root ldev) disk.
Proof. apply lresolve_reaches. vm_compute. reflexivity. Qed.
Lemma unlinked0 : unlinked lf0 disk. Proof. apply lfs_of_unlinked. vm_compute. reflexivity. Qed.
Lemma unlinked3 : unlinked lf3 disk. Proof. apply lfs_of_unlinked. vm_compute. reflexivity. Qed.

(** ** C103 *)
(** With no link in the remote directory, and whatever links elsewhere, a request to open
    changes nothing but the snapshot directory, which may be created, and the snapshot, which
    then has the first bytes of a permitted file. *)
Theorem C103_reads_inside_without_links_partial : forall cfg f R, absolute (root cfg) -> reaches cfg f true (root cfg) R -> unlinked f R ->
  forall p u w l, l_fs w = f -> unbothered w ->
  let f' := l_fs (lafter (ladd_upload cfg p u) w) in
  f' l = f l \/ (reaches cfg f false (snapshot_dir cfg) l /\ f l = None /\ f' l = Some LDir) \/
  exists src b k f1, servable cfg f R p src /\ f src = Some (LFile b) /\
    with_dirs f f1 /\ reaches cfg f1 true (join (snapshot_dir cfg) u) l /\ f' l = Some (LFile (firstn k b)).
Proof. exact opened_inside. Qed.
Print Assumptions C103_reads_inside_without_links_partial.
Theorem C103_copies_permitted_file_partial : forall cfg f R, absolute (root cfg) -> reaches cfg f true (root cfg) R -> unlinked f R ->
  forall p u w w' n, l_fs w = f -> unbothered w -> ladd_upload cfg p u w = (w', inl n) ->
  exists src b l, servable cfg f R p src /\ f src = Some (LFile b) /\
    reaches cfg (l_fs w') true (join (snapshot_dir cfg) u) l /\ l_fs w' l = Some (LFile b) /\ n = Z.of_nat (length b).
Proof. exact opened_file. Qed.
Print Assumptions C103_copies_permitted_file_partial.
(** Links in the remote directory are followed: a file outside, and no other, is copied and
    announced. *)
Theorem C103_links_followed_refuted : exists cfg f R p u src b,
  absolute (root cfg) /\ ltree f /\ reaches cfg f true (root cfg) R /\ ~ within R src /\ p <> 0%N :: T "scan.json" /\
  f src = Some (LFile b) /\ (forall l, f l = Some (LFile b) -> l = src) /\
  lresult (ladd_upload cfg p u) (LW f []) = inl (Z.of_nat (length b)) /\
  exists l, reaches cfg (l_fs (lafter (ladd_upload cfg p u) (LW f []))) true (join (snapshot_dir cfg) u) l /\
            l_fs (lafter (ladd_upload cfg p u) (LW f [])) l = Some (LFile b).
Proof.
  exists ldev, lf1, disk, (T "d/passwd"), (T "u"), [T "etc"; T "passwd"], (B "root:x").
  split; [exact ldev_root|]. split; [exact ltree1|]. split; [exact ldev_disk1|].
  split; [intros [r H]; discriminate H|]. split; [discriminate|]. split; [vm_compute; reflexivity|].
  split. { intros l. unfold lf1, lfs_of. destruct l as [|x l]; [discriminate|]. generalize (x :: l). clear. intros l.
    unfold lfiles. cbn [find fst snd].
    repeat match goal with |- context [loc_eqb ?a l] => destruct (Proof_Path.loc_eqb_spec a l) as [<-|_]; [cbn [snd]; vm_compute; congruence|] end. discriminate. }
  split; [vm_compute; reflexivity|]. exists snap_u. split; [apply lresolve_reaches; vm_compute; reflexivity|vm_compute; reflexivity].
Qed.
Print Assumptions C103_links_followed_refuted.

Example C103_case : absolute (root ldev) /\ reaches ldev lf0 true (root ldev) disk /\ unlinked lf0 disk /\ unbothered (LW lf0 []) /\
  lresult (ladd_upload ldev (T "/a.txt") (T "u")) (LW lf0 []) = inl 5%Z /\
  l_fs (lafter (ladd_upload ldev (T "/a.txt") (T "u")) (LW lf0 [])) snap_u = Some (LFile (B "hello")).
Proof.
  split; [exact ldev_root|]. split; [exact ldev_disk0|]. split; [exact unlinked0|]. split; [constructor|]. split; vm_compute; reflexivity.
Qed.

(** ** C104 *)
(** With no link in the remote directory a final write changes nothing outside it but the
    download moved. *)
Theorem C104_stores_inside_without_links_partial : forall cfg f R, absolute (root cfg) -> reaches cfg f true (root cfg) R -> unlinked f R ->
  forall s p pt w l, l_fs w = f -> unbothered w -> utf8_decode p = Some pt -> ~ has_backref pt -> ~ within R l ->
  (forall x, reaches cfg f false s x -> ~ within x l) ->
  l_fs (lafter (lcopy_download cfg s p) w) l = f l.
Proof. exact stored_inside_l. Qed.
Print Assumptions C104_stores_inside_without_links_partial.
(** On success the file is in the remote directory, where nothing was, and no longer
    where it was. *)
Theorem C104_stored_in_remote_directory_partial : forall cfg f R, absolute (root cfg) -> reaches cfg f true (root cfg) R -> unlinked f R ->
  forall s p pt w w' ls b, l_fs w = f -> unbothered w -> utf8_decode p = Some pt -> ~ has_backref pt ->
  reaches cfg f false s ls -> f ls = Some (LFile b) -> lcopy_download cfg s p w = (w', inl tt) ->
  exists l, within R l /\ f l = None /\ l_fs w' l = Some (LFile b) /\ l_fs w' ls = None.
Proof. exact stored_there. Qed.
Print Assumptions C104_stored_in_remote_directory_partial.
(** A folder of the remote directory that is a link: the file is stored outside. *)
Theorem C104_linked_folder_refuted : exists cfg f R s p pt l b,
  absolute (root cfg) /\ ltree f /\ reaches cfg f true (root cfg) R /\ utf8_decode p = Some pt /\ ~ has_backref pt /\
  ~ within R l /\ f l = None /\
  lresult (lcopy_download cfg s p) (LW f []) = inl tt /\ l_fs (lafter (lcopy_download cfg s p) (LW f [])) l = Some (LFile b).
Proof.
  exists ldev, lf1, disk, dl, (B "d/evil"), (T "d/evil"), [T "etc"; T "evil"], (B "new").
  split; [exact ldev_root|]. split; [exact ltree1|]. split; [exact ldev_disk1|]. split; [vm_compute; reflexivity|].
  split; [unfold has_backref; vm_compute; intros H; repeat destruct H as [H|H]; discriminate || contradiction|].
  split; [intros [r H]; discriminate H|]. repeat split; vm_compute; reflexivity.
Qed.
Print Assumptions C104_linked_folder_refuted.
(** A link to nothing, when the download cannot be renamed (it is on another disk): the copy
    goes where the link points. *)
Theorem C104_dangling_link_refuted : exists cfg f R s p pt l b cs,
  absolute (root cfg) /\ ltree f /\ reaches cfg f true (root cfg) R /\ utf8_decode p = Some pt /\ ~ has_backref pt /\
  ~ within R l /\ f l = None /\ unbothered (LW f cs) /\
  lresult (lcopy_download cfg s p) (LW f cs) = inl tt /\ l_fs (lafter (lcopy_download cfg s p) (LW f cs)) l = Some (LFile b).
Proof.
  exists ldev, lf2, disk, dl, (B "n"), (T "n"), [T "etc"; T "new"], (B "new"), [(None, Some 0); (None, Some 0)].
  split; [exact ldev_root|]. split; [exact ltree2|]. split; [exact ldev_disk2|]. split; [vm_compute; reflexivity|].
  split; [unfold has_backref; vm_compute; intros H; repeat destruct H as [H|H]; discriminate || contradiction|].
  split; [intros [r H]; discriminate H|]. split; [vm_compute; reflexivity|]. split; [repeat constructor|]. split; vm_compute; reflexivity.
Qed.
Print Assumptions C104_dangling_link_refuted.

Example C104_case : absolute (root ldev) /\ reaches ldev lf0 true (root ldev) disk /\ unlinked lf0 disk /\ unbothered (LW lf0 []) /\
  utf8_decode (B "/sub/x") = Some (T "/sub/x") /\ ~ has_backref (T "/sub/x") /\ reaches ldev lf0 false dl dl_loc /\ lf0 dl_loc = Some (LFile (B "new")) /\
  lresult (lcopy_download ldev dl (B "/sub/x")) (LW lf0 []) = inl tt /\
  l_fs (lafter (lcopy_download ldev dl (B "/sub/x")) (LW lf0 [])) (disk ++ [T "sub"; T "x"]) = Some (LFile (B "new")) /\
  l_fs (lafter (lcopy_download ldev dl (B "/sub/x")) (LW lf0 [])) dl_loc = None.
Proof.
  split; [exact ldev_root|]. split; [exact ldev_disk0|]. split; [exact unlinked0|]. split; [constructor|]. split; [vm_compute; reflexivity|].
  split; [unfold has_backref; vm_compute; intros H; repeat destruct H as [H|H]; discriminate || contradiction|].
  split; [apply lresolve_reaches; vm_compute; reflexivity|]. repeat split; vm_compute; reflexivity.
Qed.

(** ** C105 *)
(** While other programs leave the files alone, no existing file or folder is replaced or
    changed, with links anywhere. *)
Theorem C105_nothing_replaced_partial : forall cfg s p w l, unbothered w -> ltree (l_fs w) -> l_fs w l <> None -> (forall t, l_fs w l <> Some (LLink t)) ->
  (forall x, reaches cfg (l_fs w) false s x -> ~ within x l) ->
  l_fs (lafter (lcopy_download cfg s p) w) l = l_fs w l.
Proof. exact existing_kept. Qed.
Print Assumptions C105_nothing_replaced_partial.
(** A link to nothing does not count as existing and is replaced. *)
Theorem C105_dangling_link_replaced_refuted : exists cfg f s p l t,
  ltree f /\ f l = Some (LLink t) /\ (forall x, reaches cfg f false s x -> ~ within x l) /\
  lresult (lcopy_download cfg s p) (LW f []) = inl tt /\ l_fs (lafter (lcopy_download cfg s p) (LW f [])) l <> f l.
Proof.
  exists ldev, lf2, dl, (B "n"), (disk ++ [T "n"]), (T "/etc/new").
  split; [exact ltree2|]. split; [vm_compute; reflexivity|].
  split. { intros x X. assert (Y : reaches ldev lf2 false dl dl_loc) by (apply lresolve_reaches; vm_compute; reflexivity).
    rewrite (leads_det _ _ _ _ _ X _ Y). intros [r H]. discriminate H. }
  split; [vm_compute; reflexivity|]. vm_compute. discriminate.
Qed.
Print Assumptions C105_dangling_link_replaced_refuted.
(** A file another program makes after the check that the name is free is overwritten. *)
Theorem C105_race_refuted : exists cfg f f1 s p l b,
  ltree f /\ ltree f1 /\ f1 l = Some (LFile b) /\ (forall x, reaches cfg f false s x -> ~ within x l) /\
  lresult (lcopy_download cfg s p) (LW f [(Some f1, None)]) = inl tt /\
  l_fs (lafter (lcopy_download cfg s p) (LW f [(Some f1, None)])) l <> f1 l /\
  lresult (lcopy_download cfg s p) (LW f1 []) = inl tt /\
  l_fs (lafter (lcopy_download cfg s p) (LW f1 [])) l = f1 l.
Proof.
  exists ldev, lf0, lf3, dl, (B "x"), (disk ++ [T "x"]), (B "mine").
  split; [exact ltree0|]. split; [exact ltree3|]. split; [vm_compute; reflexivity|].
  split. { intros x X. assert (Y : reaches ldev lf0 false dl dl_loc) by (apply lresolve_reaches; vm_compute; reflexivity).
    rewrite (leads_det _ _ _ _ _ X _ Y). intros [r H]. discriminate H. }
  split; [vm_compute; reflexivity|]. split; [vm_compute; discriminate|]. split; vm_compute; reflexivity.
Qed.
Print Assumptions C105_race_refuted.

Example C105_case : unbothered (LW lf1 []) /\ ltree lf1 /\ lf1 [T "etc"; T "passwd"] = Some (LFile (B "root:x")) /\
  reaches ldev lf1 false dl dl_loc /\ ~ within dl_loc [T "etc"; T "passwd"] /\
  lresult (lcopy_download ldev dl (B "d/passwd")) (LW lf1 []) = inl tt /\
  l_fs (lafter (lcopy_download ldev dl (B "d/passwd")) (LW lf1 [])) [T "etc"; T "passwd(1)"] = Some (LFile (B "new")).
Proof.
  split; [constructor|]. split; [exact ltree1|]. split; [vm_compute; reflexivity|]. split; [apply lresolve_reaches; vm_compute; reflexivity|].
  split; [intros [r H]; discriminate H|]. split; vm_compute; reflexivity.
Qed.

(** ** C106 *)
(** When the name of the result file is not a link, writing a scan changes that file only. *)
Theorem C106_scan_changes_its_file_partial : forall cfg d w x l, unbothered w ->
  reaches cfg (l_fs w) false (scan_path cfg) x -> (forall t, l_fs w x <> Some (LLink t)) -> l <> x ->
  l_fs (lafter (lwrite_scan cfg d) w) l = l_fs w l.
Proof. exact scan_only. Qed.
Print Assumptions C106_scan_changes_its_file_partial.
Theorem C106_scan_written_partial : forall cfg d w w', unbothered w -> lwrite_scan cfg d w = (w', inl tt) ->
  exists l, reaches cfg (l_fs w) true (scan_path cfg) l /\ l_fs w' l = Some (LFile d).
Proof. exact scan_done. Qed.
Print Assumptions C106_scan_written_partial.
(** The name is known and in a directory for everybody: whoever puts a link there chooses the
    file a scan overwrites. *)
Theorem C106_planted_link_refuted : exists cfg f l b, ltree f /\ f l = Some (LFile b) /\ ~ reaches cfg f false (scan_path cfg) l /\
  forall d, lresult (lwrite_scan cfg d) (LW f []) = inl tt /\ l_fs (lafter (lwrite_scan cfg d) (LW f [])) l = Some (LFile d).
Proof.
  exists ldev, lf4, [T "etc"; T "passwd"], (B "root:x"). split; [exact ltree4|]. split; [vm_compute; reflexivity|].
  split. { intros X. assert (H : [T "etc"; T "passwd"] = [T "tmp"; T "__dataplicity_remote_directory_scan___.json"]); [|discriminate H].
    assert (Y : reaches ldev lf4 false (scan_path ldev) [T "tmp"; T "__dataplicity_remote_directory_scan___.json"]) by (apply lresolve_reaches; vm_compute; reflexivity).
    exact (leads_det _ _ _ _ _ X _ Y). }
  intros d. split; vm_compute; reflexivity.
Qed.
Print Assumptions C106_planted_link_refuted.

Example C106_case : unbothered (LW lf0 []) /\
  reaches ldev lf0 false (scan_path ldev) [T "tmp"; T "__dataplicity_remote_directory_scan___.json"] /\
  lresult (lwrite_scan ldev (B "[]")) (LW lf0 []) = inl tt /\
  l_fs (lafter (lwrite_scan ldev (B "[]")) (LW lf0 [])) [T "tmp"; T "__dataplicity_remote_directory_scan___.json"] = Some (LFile (B "[]")).
Proof. split; [constructor|]. split; [apply lresolve_reaches; vm_compute; reflexivity|]. split; vm_compute; reflexivity. Qed.
