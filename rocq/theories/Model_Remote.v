(** * The remote directory: dataplicity/remote_directory.py and, for the disk space check,
      dataplicity/disk_tools.py.  Logging is left out.

    Requests are handled one after another by the m2m thread.  Each system call that can
    fail takes the next entry of a fault schedule: None lets it work, Some n makes it raise
    OSError, for copies and writes after part of the work. [exists] and [isdir] are exact. *)
From Verif Require Import Py Model_Packets Model_Path.

(** ** Exceptions, state and control *)
Inductive rexn :=
| RPy (e : exn)
| RSnapshot      (* RemoteDirectoryError("Failed to get snapshot path"), line 103 *)
| RAddFail       (* 187, 190 *)
| RReadFail      (* 216 *)
| RLowDisk       (* 171 *)
| RIllegal       (* 155, 161, 178 *)
| RTooMany.      (* 399 *)
(** remote_directory.py:24-45: subclasses of RemoteDirectoryError *)
Definition is_remote (e : rexn) : bool := match e with RPy _ => false | _ => true end.

(** Surroundings of a RemoteDirectory *)
Record config := Config {
  root : text;                   (* self.path, 66-67 *)
  temp : text;                   (* self.temp_path, 70-72 *)
  tmpdir : text;                 (* tempfile.gettempdir(), 152 *)
  cwd : loc;                     (* current directory of the process *)
  statvfs : option (Z * Z * Z);  (* f_blocks, f_frsize, f_bfree; None: os.statvfs raises *)
  err_text : rexn -> text }.     (* str(error) *)
Record world := W {
  w_fs : fs;
  w_faults : list (option nat);
  w_sent : list packet }.        (* packets sent, latest first *)

Definition M (A : Type) := world -> world * (A + rexn).
Definition ret {A} (a : A) : M A := fun w => (w, inl a).
Definition throw {A} (e : rexn) : M A := fun w => (w, inr e).
Definition bindM {A X} (m : M A) (k : A -> M X) : M X := fun w =>
  match m w with (w', inl a) => k a w' | (w', inr e) => (w', inr e) end.
Notation "'let!' x := m 'in' k" := (bindM m (fun x => k)) (at level 200, x name, m at level 100, k at level 200).
(** try: m except ...: h *)
Definition catch {A} (m : M A) (h : rexn -> M A) : M A := fun w =>
  match m w with (w', inl a) => (w', inl a) | (w', inr e) => h e w' end.
(** A conversion that may raise *)
Definition pure_res {A} (r : res A) : M A := fun w =>
  match r with Ok a => (w, inl a) | Raise e => (w, inr (RPy e)) | Hang => (w, inr (RPy EOther)) end.
(** b.decode("utf-8") *)
Definition decode8 (b : bytes) : M text :=
  match utf8_decode b with Some t => ret t | None => throw (RPy EUnicodeDecode) end.

(** ** System calls *)
Definition with_fs (w : world) (f : fs) : world := W f (w_faults w) (w_sent w).
Definition next_fault (w : world) : option nat * world :=
  match w_faults w with
  | [] => (None, w)
  | x :: r => (x, W (w_fs w) r (w_sent w))
  end.

Section RemoteDirectory.
  Variable cfg : config.
  Let at_ (f : fs) (p : text) := resolve f (cwd cfg) p.

  Definition exists_ (p : text) : M bool := fun w => (w, inl (path_exists (w_fs w) (cwd cfg) p)).
  Definition isdir (p : text) : M bool := fun w => (w, inl (path_isdir (w_fs w) (cwd cfg) p)).
  (** A call on a path: takes a fault, resolves the path and goes on with place and node *)
  Definition on_path {A} (p : text) (k : option nat -> loc -> option node -> M A) : M A := fun w =>
    let '(x, w1) := next_fault w in
    match x with
    | Some O => (w1, inr (RPy EOS))
    | _ => match at_ (w_fs w1) p with
           | Ok l => k x l (w_fs w1 l) w1
           | Raise e => (w1, inr (RPy e))
           | Hang => (w1, inr (RPy EOther))
           end
    end.
  Definition put (l : loc) (n : option node) : M unit := fun w => (with_fs w (set_node (w_fs w) l n), inl tt).

  (** os.mkdir *)
  Definition mkdir (p : text) : M unit := on_path p (fun x l n =>
    match x, n with None, None => put l (Some Dir) | _, _ => throw (RPy EOS) end).
  (** os.remove *)
  Definition remove (p : text) : M unit := on_path p (fun x l n =>
    match x, n with None, Some (File _) => put l None | _, _ => throw (RPy EOS) end).
  (** os.path.getsize; a directory has some size too *)
  Definition getsize (p : text) : M Z := on_path p (fun x l n =>
    match x, n with
    | None, Some (File b) => ret (Z.of_nat (length b))
    | None, Some Dir => ret 4096%Z
    | _, _ => throw (RPy EOS)
    end).
  (** open(p, "wb") and close *)
  Definition truncate (p : text) : M unit := on_path p (fun x l n =>
    match x, n with
    | None, (None | Some (File _)) => put l (Some (File []))
    | _, _ => throw (RPy EOS)
    end).
  (** open(p, "rb"), seek(offset), read(size) *)
  Definition max_off : Z := (2 ^ 63)%Z.
  Definition read_slice (b : bytes) (offset size : Z) : res bytes :=
    if (offset <? 0)%Z then Raise EOS
    else if (max_off <=? offset)%Z || (max_off <=? size)%Z then Raise EOverflow
    else let r := skipn (Z.to_nat offset) b in
         if (size =? -1)%Z then Ok r
         else if (size <? 0)%Z then Raise EValue
         else Ok (firstn (Z.to_nat size) r).
  Definition read_file (p : text) (offset size : Z) : M bytes := on_path p (fun x l n =>
    match x, n with None, Some (File b) => pure_res (read_slice b offset size) | _, _ => throw (RPy EOS) end).
  (** open(p, "r+b"), seek(offset), write(data); fault S k: k bytes are written first *)
  Definition write_file (p : text) (offset : Z) (data : bytes) : M unit := on_path p (fun x l n =>
    match n with
    | Some (File b) =>
        if (offset <? 0)%Z then throw (RPy EOS)
        else if (max_off <=? offset)%Z then throw (RPy EOverflow)
        else match x with
             | None => put l (Some (File (write_bytes b (Z.to_nat offset) data)))
             | Some k => let! _ := put l (Some (File (write_bytes b (Z.to_nat offset) (firstn (pred k) data)))) in throw (RPy EOS)
             end
    | _ => throw (RPy EOS)
    end).
  (** shutil.copyfile(src, dst); fault 0: src cannot be read; for dst, fault 0: it cannot
      be opened, S k: it is truncated and k bytes are copied *)
  Definition copyfile (src dst : text) : M unit := on_path src (fun x ls n =>
    match x, n with
    | None, Some (File b) => on_path dst (fun y ld n' =>
        if loc_eqb ls ld then throw (RPy EOS) (* SameFileError *)
        else match n' with
             | Some Dir => throw (RPy EOS)
             | _ => match y with
                    | None => put ld (Some (File b))
                    | Some k => let! _ := put ld (Some (File (firstn (pred k) b))) in throw (RPy EOS)
                    end
             end)
    | _, _ => throw (RPy EOS)
    end).
  (** os.rename *)
  Definition rename (src dst : text) : M unit := on_path src (fun x ls n =>
    match x, n with
    | None, Some a => fun w =>
        match at_ (w_fs w) dst with
        | Ok ld =>
            if loc_eqb ls ld then (w, inl tt)
            else match below ls ld, below ld ls, w_fs w ld, a with
                 | None, None, (None | Some (File _)), File _ | None, None, None, Dir =>
                     (with_fs w (move (w_fs w) ls ld), inl tt)
                 | _, _, _, _ => (w, inr (RPy EOS)) (* into itself, onto a directory, ... *)
                 end
        | Raise e => (w, inr (RPy e))
        | Hang => (w, inr (RPy EOther))
        end
    | _, _ => throw (RPy EOS)
    end).
  (** shutil.copystat after the copy *)
  Definition copystat : M unit := fun w =>
    let '(x, w1) := next_fault w in (w1, match x with None => inl tt | Some _ => inr (RPy EOS) end).
  (** shutil.move when dst is not a directory: rename, else copy2 and unlink (a directory
      that cannot be renamed is refused here; shutil.move would copy the tree) *)
  Definition shutil_move (src dst : text) : M unit :=
    catch (rename src dst) (fun e =>
      match e with
      | RPy EOS =>
          let! d := isdir src in
          if d then throw (RPy EOS)
          else let! _ := copyfile src dst in
               let! _ := copystat in
               remove src
      | _ => throw e
      end).

  (** ** remote_directory.py *)
  (** 48-58 validate_path *)
  Definition validate_path (p : text) : bool := negb (existsb (text_eqb [dot; dot]) (split_sep p)).

  (** 83-103 get_snapshot_path *)
  Definition snapshot_dir : text := join (temp cfg) (T "dataplicity_remote").
  Definition get_snapshot_path (upload_id : text) : M text :=
    catch (let! d := isdir snapshot_dir in
           let! _ := (if d then ret tt else mkdir snapshot_dir) in
           ret (join snapshot_dir upload_id))
          (fun _ => throw RSnapshot).

  (** 105-130 add_download *)
  Definition download_dir : text := join (temp cfg) (T "dataplicity_remote_downloads").
  Definition add_download (id : text) : M text :=
    let! d := isdir download_dir in
    let! _ := (if d then ret tt else mkdir download_dir) in
    let device_path := join download_dir id in
    let! _ := truncate device_path in
    ret device_path.

  (** remote_directory.py:18 *)
  Definition free_space_margin : Z := (50 * 1000 * 1000)%Z.
  (** disk_tools.py:31-55: total and used *)
  Definition disk_usage : M (Z * Z) :=
    match statvfs cfg with
    | None => throw (RPy EOS)
    | Some (blocks, frsize, bfree) =>
        let total := (blocks * frsize)%Z in
        let avail_to_root := (bfree * frsize)%Z in
        ret (total, total - avail_to_root)%Z
    end.

  (** 148-161: the file to copy *)
  Definition upload_file (path : text) : M text :=
    if starts_with [0%N] path then
      if text_eqb path (0%N :: T "scan.json") then
        ret (join (tmpdir cfg) (T "__dataplicity_remote_directory_scan___.json"))
      else throw RIllegal
    else
      let file_path := join (root cfg) (lstrip_slash path) in
      if negb (validate_path file_path) || negb (starts_with (root cfg) file_path) then throw RIllegal
      else ret file_path.
  (** 163-173: the disk space check *)
  Definition check_space (file_path : text) : M unit :=
    let! info := catch (let! usage := disk_usage in
                        let! file_size := getsize file_path in
                        ret (Some (usage, file_size)))
                       (fun _ => ret None) in
    match info with
    | None => ret tt
    | Some ((total, used), file_size) =>
        if (total - free_space_margin <? used + file_size)%Z then throw RLowDisk else ret tt
    end.
  (** 132-190 add_upload *)
  Definition add_upload (path upload_id : text) : M Z :=
    let! file_path := upload_file path in
    let! _ := check_space file_path in
    let! snapshot_path := get_snapshot_path upload_id in
    if negb (starts_with (temp cfg) snapshot_path) then throw RIllegal
    else catch (let! _ := copyfile file_path snapshot_path in getsize snapshot_path)
               (fun _ => throw RAddFail).

  (** 192-217 read_upload *)
  Definition read_upload (upload_id : text) (offset size : Z) : M bytes :=
    let! snapshot_path := get_snapshot_path upload_id in
    catch (read_file snapshot_path offset size) (fun _ => throw RReadFail).

  (** 219-232 close_upload *)
  Definition close_upload (upload_id : text) : M unit :=
    let! snapshot_path := get_snapshot_path upload_id in
    let! e := exists_ snapshot_path in
    if e then catch (remove snapshot_path) (fun _ => ret tt) else ret tt.

  (** m2m/wsclient.py:291-301 send; the websocket's own failures are not seen here *)
  Definition send (name : string) (args : list val) (kwargs : list (string * val)) : M unit :=
    let! p := pure_res (create_named name args kwargs) in
    let! _ := pure_res (as_bytes p) in
    fun w => (W (w_fs w) (w_faults w) (p :: w_sent w), inl tt).

  (** Result of a [try] with [else]: the outcome as a value *)
  Definition attempt {A} (m : M A) : M (A + rexn) := fun w => let '(w', r) := m w in (w', inl r).

  (** 234-258 on_open_remote_file *)
  Definition on_open (upload_id path : bytes) : M unit :=
    let! r := attempt (let! p := decode8 path in let! u := decode8 upload_id in add_upload p u) in
    match r with
    | inr e =>
        send "open_remote_file_result" []
          [("upload_id"%string, VBytes upload_id); ("size"%string, VInt (-1)); ("fail"%string, VInt 1);
           ("fail_reason"%string, VText (if is_remote e then err_text cfg e else T "open failed, see dataplicity.log"))]
    | inl size => send "open_remote_file_result" [VBytes upload_id; VInt size; VInt 0; VText []] []
    end.

  (** 260-266 on_close_remote_file *)
  Definition on_close (upload_id : bytes) : M unit :=
    catch (let! u := decode8 upload_id in close_upload u) (fun _ => ret tt).

  (** 268-302 on_read_remote_file *)
  Definition on_read (upload_id : bytes) (offset size : Z) : M unit :=
    let! r := attempt (let! u := decode8 upload_id in read_upload u offset size) in
    let result data fail reason :=
      send "read_remote_file_result" []
        [("upload_id"%string, VBytes upload_id); ("offset"%string, VInt offset); ("size"%string, VInt size);
         ("data"%string, data); ("fail"%string, VInt fail); ("fail_reason"%string, VText reason)] in
    match r with
    | inr e => result (VText []) 1%Z (if is_remote e then err_text cfg e else T "read failed, see dataplicity.log")
    | inl data => result (VBytes data) 0%Z []
    end.

  (** 395-402: the name to store under; [fuel] is the number of tries left *)
  Definition copy_name (dirname basename ext : text) (tries : nat) : text :=
    dirname ++ [slash] ++ basename ++ T "(" ++ dec_N (N.of_nat tries) ++ T ")" ++ ext.
  Fixpoint free_name (fuel tries : nat) (dirname basename ext : text) (destination_path : text) : M text :=
    let! e := exists_ destination_path in
    if e then
      match fuel with
      | O => throw RTooMany
      | S k => free_name k (S tries) dirname basename ext (copy_name dirname basename ext (S tries))
      end
    else ret destination_path.
  (** 381-413 copy_download *)
  Definition copy_download (device_path : text) (path : bytes) : M unit :=
    let! p := decode8 path in
    let destination_path := join (root cfg) (lstrip_slash p) in
    let '(dirname, filename) := path_split destination_path in
    let! d := isdir dirname in
    let dirname := if d then dirname else root cfg in
    let '(basename, ext) := splitext filename in
    let! destination_path := free_name 100 0 dirname basename ext destination_path in
    catch (rename device_path destination_path)
          (fun _ => shutil_move device_path destination_path).

  (** str(error).encode("utf-8", "replace") *)
  Definition encode_replace (t : text) : bytes :=
    n2b (concat (map (fun c => match utf8_enc1 c with Some b => b | None => [63%N] end) t)).

  (** 304-379 on_write_remote_file *)
  Definition on_write (id path device_path : bytes) (offset : Z) (data : bytes) (final : Z) : M unit :=
    let! write_device_path := decode8 device_path in
    let result position device_path fail reason :=
      send "write_remote_file_result"
        [VBytes id; VInt position; VInt (Z.of_nat (length data)); VBytes device_path; VInt fail; VBytes reason] [] in
    let! r := attempt (match write_device_path with
                       | [] => let! t := decode8 id in add_download t
                       | _ => ret write_device_path
                       end) in
    match r with
    | inr e => result offset device_path 1%Z (encode_replace (err_text cfg e))
    | inl write_device_path =>
        let! device_path := pure_res (match utf8_encode write_device_path with Some b => Ok b | None => Raise EUnicodeEncode end) in
        let! r := attempt (match data with [] => ret tt | _ => write_file write_device_path offset data end) in
        match r with
        | inr e =>
            let! _ := result offset device_path 2%Z (encode_replace (err_text cfg e)) in
            catch (remove write_device_path) (fun _ => ret tt)
        | inl _ =>
            let! r := attempt (if (final =? 0)%Z then ret tt else copy_download write_device_path path) in
            match r with
            | inr e => result offset device_path 3%Z (encode_replace (err_text cfg e))
            | inl _ => result (offset + Z.of_nat (length data))%Z device_path 0%Z []
            end
        end
    end.
End RemoteDirectory.

(** Requests, as dispatched by m2m/wsclient.py:457-500 *)
Inductive request :=
| ROpen (upload_id path : bytes)
| RRead (upload_id : bytes) (offset size : Z)
| RClose (upload_id : bytes)
| RWrite (id path device_path : bytes) (offset : Z) (data : bytes) (final : Z).
Definition handle (cfg : config) (q : request) : M unit :=
  match q with
  | ROpen u p => on_open cfg u p
  | RRead u o s => on_read cfg u o s
  | RClose u => on_close cfg u
  | RWrite i p d o x f => on_write cfg i p d o x f
  end.
