(** * Symbolic links: the parts of dataplicity/remote_directory.py and
      dataplicity/directory_scanner.py that reach into the file system, on a file system with
      symbolic links and other programs.  Logging is left out.

    Model_Remote.v has the same functions, and the packets, without links.  Each system call
    takes the next entry of a schedule: what other programs do to the file system before it,
    and whether it fails, as in Model_Remote.v. [exists] and [isdir] are exact and nobody
    interferes before them. *)
From Verif Require Import Py Model_Path Model_Remote.

(** ** The file system (not agent code) *)
Inductive lnode := LFile (b : bytes) | LDir | LLink (target : text).
Definition lfs := loc -> option lnode.
Definition lset (f : lfs) (l : loc) (n : option lnode) : lfs := fun x => if loc_eqb x l then n else f x.
Definition lmove (f : lfs) (src dst : loc) : lfs := fun l =>
  match below dst l with
  | Some r => f (src ++ r)
  | None => match below src l with Some _ => None | None => f l end
  end.
(** Where names followed from a directory lead, as in path_resolution(7).  At most [n] links
    are followed; a link that is the last name only if [last] says so. *)
Fixpoint follow (f : lfs) (last : bool) (n : nat) : loc -> list text -> option loc :=
  fix go (cur : loc) (cs : list text) : option loc :=
    match cs with
    | [] => Some cur
    | c :: r =>
        match f cur with
        | Some LDir =>
            if text_eqb c [] || text_eqb c [dot] then go cur r
            else if text_eqb c [dot; dot] then go (removelast cur) r
            else match f (cur ++ [c]) with
                 | Some (LLink t) =>
                     match r, last with
                     | [], false => Some (cur ++ [c])
                     | _, _ =>
                         match n, t with
                         | S n', a :: _ => follow f last n' (if is_slash a then [] else cur) (split_sep t ++ r)
                         | _, _ => None (* ELOOP *)
                         end
                     end
                 | _ => go (cur ++ [c]) r
                 end
        | _ => None
        end
    end.
(** Linux follows 40 links at most *)
Definition lresolve (f : lfs) (cwd : loc) (last : bool) (p : text) : res loc :=
  if existsb (fun c => (c =? 0)%N) p then Raise EValue
  else match p with
       | [] => Raise EOS
       | c :: _ =>
           match follow f last 40 (if is_slash c then [] else cwd) (split_sep p) with
           | Some l => Ok l
           | None => Raise EOS
           end
       end.
Definition llookup (f : lfs) (cwd : loc) (p : text) : option lnode :=
  match lresolve f cwd true p with Ok l => f l | _ => None end.

(** ** State and control, as in Model_Remote.v *)
Record lworld := LW { l_fs : lfs; l_calls : list (option lfs * option nat) }.
Definition LM (A : Type) := lworld -> lworld * (A + rexn).
Definition lret {A} (a : A) : LM A := fun w => (w, inl a).
Definition lthrow {A} (e : rexn) : LM A := fun w => (w, inr e).
Definition lbind {A X} (m : LM A) (k : A -> LM X) : LM X := fun w =>
  match m w with (w', inl a) => k a w' | (w', inr e) => (w', inr e) end.
Notation "'do!' x := m 'in' k" := (lbind m (fun x => k)) (at level 200, x name, m at level 100, k at level 200).
Definition lcatch {A} (m : LM A) (h : rexn -> LM A) : LM A := fun w =>
  match m w with (w', inl a) => (w', inl a) | (w', inr e) => h e w' end.
Definition next_call (w : lworld) : option nat * lworld :=
  match l_calls w with
  | [] => (None, w)
  | (o, x) :: r => (x, LW (match o with Some f => f | None => l_fs w end) r)
  end.

Section Links.
  Variable cfg : config.

  (** ** System calls *)
  Definition lexists (p : text) : LM bool := fun w =>
    (w, inl (match llookup (l_fs w) (cwd cfg) p with Some _ => true | None => false end)).
  Definition lisdir (p : text) : LM bool := fun w =>
    (w, inl (match llookup (l_fs w) (cwd cfg) p with Some LDir => true | _ => false end)).
  (** os.path.islink: of the last name *)
  Definition lislink (p : text) : LM bool := fun w =>
    (w, inl (match lresolve (l_fs w) (cwd cfg) false p with Ok l => match l_fs w l with Some (LLink _) => true | _ => false end | _ => false end)).
  Definition at_path {A} (last : bool) (p : text) (k : option nat -> loc -> option lnode -> LM A) : LM A := fun w =>
    let '(x, w1) := next_call w in
    match x with
    | Some O => (w1, inr (RPy EOS))
    | _ => match lresolve (l_fs w1) (cwd cfg) last p with
           | Ok l => k x l (l_fs w1 l) w1
           | Raise e => (w1, inr (RPy e))
           | Hang => (w1, inr (RPy EOther))
           end
    end.
  Definition lput (l : loc) (n : option lnode) : LM unit := fun w => (LW (lset (l_fs w) l n) (l_calls w), inl tt).

  (** os.mkdir; does not follow a link *)
  Definition lmkdir (p : text) : LM unit := at_path false p (fun x l n =>
    match x, n with None, None => lput l (Some LDir) | _, _ => lthrow (RPy EOS) end).
  (** os.remove; removes a link itself *)
  Definition lremove (p : text) : LM unit := at_path false p (fun x l n =>
    match x, n with None, Some (LFile _ | LLink _) => lput l None | _, _ => lthrow (RPy EOS) end).
  (** os.path.getsize *)
  Definition lgetsize (p : text) : LM Z := at_path true p (fun x l n =>
    match x, n with
    | None, Some (LFile b) => lret (Z.of_nat (length b))
    | None, Some LDir => lret 4096%Z
    | _, _ => lthrow (RPy EOS)
    end).
  (** open(p, "wb"), write(d) and close; fault S k: k bytes are written *)
  Definition lwrite_all (p : text) (d : bytes) : LM unit := at_path true p (fun x l n =>
    match n with
    | None | Some (LFile _) =>
        match x with
        | None => lput l (Some (LFile d))
        | Some k => do! _ := lput l (Some (LFile (firstn (pred k) d))) in lthrow (RPy EOS)
        end
    | _ => lthrow (RPy EOS)
    end).
  (** shutil.copyfile(src, dst): follows links at both ends *)
  Definition lcopyfile (src dst : text) : LM unit := at_path true src (fun x ls n =>
    match x, n with
    | None, Some (LFile b) => at_path true dst (fun y ld n' =>
        if loc_eqb ls ld then lthrow (RPy EOS)
        else match n' with
             | None | Some (LFile _) =>
                 match y with
                 | None => lput ld (Some (LFile b))
                 | Some k => do! _ := lput ld (Some (LFile (firstn (pred k) b))) in lthrow (RPy EOS)
                 end
             | _ => lthrow (RPy EOS)
             end)
    | _, _ => lthrow (RPy EOS)
    end).
  (** os.rename: of a link itself, and replacing a link itself *)
  Definition lrename (src dst : text) : LM unit := at_path false src (fun x ls n =>
    match x, n with
    | None, Some a => fun w =>
        match lresolve (l_fs w) (cwd cfg) false dst with
        | Ok ld =>
            if loc_eqb ls ld then (w, inl tt)
            else match below ls ld, below ld ls, l_fs w ld, a with
                 | None, None, (None | Some (LFile _ | LLink _)), (LFile _ | LLink _) | None, None, None, LDir =>
                     (LW (lmove (l_fs w) ls ld) (l_calls w), inl tt)
                 | _, _, _, _ => (w, inr (RPy EOS))
                 end
        | Raise e => (w, inr (RPy e))
        | Hang => (w, inr (RPy EOther))
        end
    | _, _ => lthrow (RPy EOS)
    end).
  (** os.symlink(os.readlink(src), dst) *)
  Definition lrelink (src dst : text) : LM unit := at_path false src (fun x ls n =>
    match x, n with
    | None, Some (LLink t) => at_path false dst (fun y ld n' =>
        match y, n' with None, None => lput ld (Some (LLink t)) | _, _ => lthrow (RPy EOS) end)
    | _, _ => lthrow (RPy EOS)
    end).
  (** shutil.copystat after the copy *)
  Definition lcopystat : LM unit := fun w =>
    let '(x, w1) := next_call w in (w1, match x with None => inl tt | Some _ => inr (RPy EOS) end).
  (** shutil.move to what is not a directory *)
  Definition lshutil_move (src dst : text) : LM unit :=
    lcatch (lrename src dst) (fun e =>
      match e with
      | RPy EOS =>
          do! k := lislink src in
          if k then do! _ := lrelink src dst in lremove src
          else
          do! d := lisdir src in
          if d then lthrow (RPy EOS)
          else do! _ := lcopyfile src dst in
               do! _ := lcopystat in
               lremove src
      | _ => lthrow e
      end).

  (** ** remote_directory.py *)
  (** 83-103 get_snapshot_path *)
  Definition lget_snapshot_path (upload_id : text) : LM text :=
    lcatch (do! d := lisdir (snapshot_dir cfg) in
            do! _ := (if d then lret tt else lmkdir (snapshot_dir cfg)) in
            lret (join (snapshot_dir cfg) upload_id))
           (fun _ => lthrow RSnapshot).
  (** 148-161 *)
  Definition lupload_file (path : text) : LM text :=
    if starts_with [0%N] path then
      if text_eqb path (0%N :: T "scan.json") then
        lret (join (tmpdir cfg) (T "__dataplicity_remote_directory_scan___.json"))
      else lthrow RIllegal
    else
      let file_path := join (root cfg) (lstrip_slash path) in
      if negb (validate_path file_path) || negb (starts_with (root cfg) file_path) then lthrow RIllegal
      else lret file_path.
  (** 163-173; what is left of the disk space check is the call of getsize *)
  Definition lcheck_space (file_path : text) : LM unit :=
    do! info := lcatch (match statvfs cfg with
                        | None => lthrow (RPy EOS)
                        | Some (blocks, frsize, bfree) =>
                            do! file_size := lgetsize file_path in
                            lret (Some ((blocks * frsize)%Z, (blocks * frsize - bfree * frsize)%Z, file_size))
                        end)
                       (fun _ => lret None) in
    match info with
    | None => lret tt
    | Some (total, used, file_size) =>
        if (total - free_space_margin <? used + file_size)%Z then lthrow RLowDisk else lret tt
    end.
  (** 132-190 add_upload *)
  Definition ladd_upload (path upload_id : text) : LM Z :=
    do! file_path := lupload_file path in
    do! _ := lcheck_space file_path in
    do! snapshot_path := lget_snapshot_path upload_id in
    if negb (starts_with (temp cfg) snapshot_path) then lthrow RIllegal
    else lcatch (do! _ := lcopyfile file_path snapshot_path in lgetsize snapshot_path)
                (fun _ => lthrow RAddFail).

  (** 395-402 *)
  Fixpoint lfree_name (fuel tries : nat) (dirname basename ext : text) (destination_path : text) : LM text :=
    do! e := lexists destination_path in
    if e then
      match fuel with
      | O => lthrow RTooMany
      | S k => lfree_name k (S tries) dirname basename ext (copy_name dirname basename ext (S tries))
      end
    else lret destination_path.
  (** 381-413 copy_download *)
  Definition lcopy_download (device_path : text) (path : bytes) : LM unit :=
    match utf8_decode path with
    | None => lthrow (RPy EUnicodeDecode)
    | Some p =>
        let destination_path := join (root cfg) (lstrip_slash p) in
        let '(dirname, filename) := path_split destination_path in
        do! d := lisdir dirname in
        let dirname := if d then dirname else root cfg in
        let '(basename, ext) := splitext filename in
        do! destination_path := lfree_name 100 0 dirname basename ext destination_path in
        lcatch (lrename device_path destination_path)
               (fun _ => lshutil_move device_path destination_path)
    end.

  (** directory_scanner.py:71-83 write_scan, of the encoded text *)
  Definition lwrite_scan (scan_json : bytes) : LM unit :=
    lwrite_all (join (tmpdir cfg) (T "__dataplicity_remote_directory_scan___.json")) scan_json.
End Links.
