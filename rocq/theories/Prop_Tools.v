(** * Properties C71-C77: the small tools (tags.py, disk_tools.py, iptool.py, rpi.py, device_meta.py,
    constants.py, clockcheck.py) *)
From Coq Require Import QArith Qround.
From Verif Require Import Py Model_Agent Model_Tools Spec_Tools Proof_Tools.
Open Scope nat_scope.

(** ** C71 *)
(** The tags are the words of the output, in order, cut at 25 characters. *)
Theorem C71_words : forall output ws, words (utf8_ignore output) ws -> get_tag_list (Prints output) = TagList (map (firstn 25) ws).
Proof. exact tag_words. Qed.
Print Assumptions C71_words.
(** Every output has words. *)
Theorem C71_words_exist : forall output, exists ws, words (utf8_ignore output) ws.
Proof. exact tag_words_exist. Qed.
Print Assumptions C71_words_exist.
Theorem C71_clean : forall s tags t, get_tag_list s = TagList tags -> In t tags -> t <> [] /\ length t <= 25 /\ Forall (fun c => ~ between c) t.
Proof. exact tag_list_clean. Qed.
Print Assumptions C71_clean.
(** Output that is UTF-8 is read as it is. *)
Theorem C71_text : forall output t, utf8_decode output = Some t -> utf8_ignore output = t.
Proof. exact output_text. Qed.
Print Assumptions C71_text.
Example C71_case : words (utf8_ignore (B "ab,  c")) [T "ab"; T "c"] /\ get_tag_list (Prints (B "ab,  c")) = TagList [T "ab"; T "c"] /\
  get_tag_list (Prints (B "abcdefghijklmnopqrstuvwxyz,")) = TagList [T "abcdefghijklmnopqrstuvwxy"].
Proof.
  split; [|split; vm_compute; reflexivity].
  assert (between 44%N /\ between 32%N) as [Hc Hs] by (split; [now left|right; left; vm_compute; tauto]).
  assert (forall c, In c (T "abc") -> ~ between c) as L.
  { intros c H [->|[K|K]]; vm_compute in H; [..|vm_compute in K]; try (vm_compute in K); intuition (subst; discriminate). }
  change (utf8_ignore (B "ab,  c")) with (T "ab" ++ T ",  c"). apply W_word.
  - discriminate.
  - repeat constructor; apply L; vm_compute; tauto.
  - right. exists 44%N, (T "  c"). now split.
  - apply W_between; [exact Hc|]. apply W_between; [exact Hs|]. apply W_between; [exact Hs|].
    apply (W_word (T "c") []); [discriminate| |now left|constructor]. repeat constructor; apply L; vm_compute; tauto.
Qed.

(** ** C72 *)
Theorem C72_consistent : forall fl round1 st, possible st -> let u := disk_usage fl round1 st in
  (0 <= used u /\ used u <= total u /\ 0 <= free u /\ used u + free u <= total u)%Z.
Proof. exact disk_consistent. Qed.
Print Assumptions C72_consistent.
Theorem C72_counts : forall fl round1 st, counts st (disk_usage fl round1 st).
Proof. exact disk_counts. Qed.
Print Assumptions C72_counts.
(** Exact without roundings: the part of what users can use *)
Theorem C72_part : forall st, possible st -> let u := disk_usage (fun x => x) (fun x => x) st in
  (percent u * inject_Z (used u + free u) == inject_Z (used u) * 100)%Q.
Proof. exact disk_part. Qed.
Print Assumptions C72_part.
(** [fl] and [round1]: the roundings of the float operations and of round(x, 1) *)
Theorem C72_percent : forall fl round1 st, monotone fl -> keeps fl 0 -> keeps fl 1 -> keeps fl 100 -> monotone round1 -> keeps round1 0 -> keeps round1 100 ->
  possible st -> (0 <= percent (disk_usage fl round1 st) <= 100)%Q.
Proof. exact percent_range. Qed.
Print Assumptions C72_percent.
Theorem C72_empty : forall fl round1 st, keeps round1 0 -> f_blocks st = f_bfree st -> f_bavail st = 0%Z -> (percent (disk_usage fl round1 st) == 0)%Q.
Proof. exact percent_empty. Qed.
Print Assumptions C72_empty.
(** Roundings as asked, and a disk *)
Definition tenths (x : Q) : Q := (inject_Z (Qfloor (x * 10 + (1 # 2))) / 10)%Q.
Example C72_case : monotone tenths /\ keeps tenths 0 /\ keeps tenths 1 /\ keeps tenths 100 /\ possible (Statvfs 3000 1000 500 4096) /\
  (percent (disk_usage tenths tenths (Statvfs 3000 1000 500 4096)) == 80)%Q /\ possible (Statvfs 0 0 0 512).
Proof.
  split; [|repeat split; try reflexivity; discriminate].
  intros x y H. unfold tenths, Qdiv. apply Qmult_le_compat_r; [|discriminate]. rewrite <- Zle_Qle. apply Qfloor_resp_le.
  apply Qplus_le_compat; [|apply Qle_refl]. now apply Qmult_le_compat_r.
Qed.

(** ** C73 *)
(** For interfaces with ASCII names *)
Theorem C73_interfaces_partial : forall is_64bits ifaces buffer size, stored is_64bits ifaces buffer size -> Forall (fun p => ascii (fst p)) ifaces ->
  exists l, interfaces_in is_64bits buffer size = Ok l /\ Forall2 (fun p q => fst q = b2n (fst p) /\ dotted (snd p) (snd q)) ifaces l.
Proof. exact interfaces_exact. Qed.
Print Assumptions C73_interfaces_partial.
(** The addresses, whatever the names *)
Theorem C73_addresses_partial : forall is_64bits ifaces buffer size, stored is_64bits ifaces buffer size ->
  Forall2 (fun p ip => dotted (snd p) ip) ifaces (get_ip_address_list (interfaces_in is_64bits buffer size)).
Proof. exact addresses_exact. Qed.
Print Assumptions C73_addresses_partial.
(** A notation stands for one address. *)
Theorem C73_notation_partial : forall x y t, dotted x t -> dotted y t -> x = y.
Proof. exact dotted_inj. Qed.
Print Assumptions C73_notation_partial.
(** An entry with the name, the address 10.0.0.2 and zeros *)
Definition entry64 (name : bytes) : bytes := (name ++ x00 :: repeat x00 (15 - length name)) ++ [x02; x00; x00; x00] ++ [x0a; x00; x00; x02] ++ repeat x00 16.
Lemma entry64_entry name : ~ In x00 name -> length name <= 15 -> entry true name [x0a; x00; x00; x02] (entry64 name).
Proof.
  intros H L. eexists _, _, _. split; [reflexivity|]. split; [exact H|]. repeat split.
  - rewrite app_length. cbn [length]. rewrite repeat_length. lia.
  - unfold entry64. rewrite !app_length. cbn [length]. rewrite !repeat_length. lia.
Qed.
Lemma entry64_stored name : ~ In x00 name -> length name <= 15 -> stored true [(name, [x0a; x00; x00; x02])] (entry64 name) 40.
Proof.
  intros H L. exists [entry64 name], []. cbn [concat]. rewrite !app_nil_r. split; [reflexivity|]. split.
  - destruct (entry64_entry name H L) as (? & ? & ? & _ & _ & _ & _ & _ & E). now symmetry.
  - constructor; [|constructor]. now apply entry64_entry.
Qed.
(** Two interfaces whose names differ are reported alike. *)
Theorem C73_names_refuted : exists buffer1 buffer2 name1 name2 addr, name1 <> name2 /\
  stored true [(name1, addr)] buffer1 40 /\ stored true [(name2, addr)] buffer2 40 /\ interfaces_in true buffer1 40 = interfaces_in true buffer2 40.
Proof.
  exists (entry64 [xe9]), (entry64 [xe8]), [xe9], [xe8], [x0a; x00; x00; x02]. split; [discriminate|].
  split; [|split; [|vm_compute; reflexivity]]; apply entry64_stored; cbn; try lia; intuition discriminate.
Qed.
Print Assumptions C73_names_refuted.
Example C73_case : stored true [(B "eth0", [x0a; x00; x00; x02])] (entry64 (B "eth0")) 40 /\ ascii (B "eth0") /\
  interfaces_in true (entry64 (B "eth0")) 40 = Ok [(T "eth0", T "10.0.0.2")].
Proof.
  split; [apply entry64_stored; cbn; [intuition discriminate|lia]|]. split; [repeat constructor|vm_compute; reflexivity].
Qed.

(** ** C74 *)
Theorem C74_found_partial : forall content ls l1 l l2 v t, lines content ls -> ls = l1 ++ l :: l2 -> Forall (fun x => forall u, ~ revision_line x u) l1 ->
  revision_line l v -> utf8_decode v = Some t -> get_machine_revision (Some content) = Ok (Some t).
Proof. exact revision_text. Qed.
Print Assumptions C74_found_partial.
Theorem C74_absent_partial : forall content ls, lines content ls -> Forall (fun x => forall u, ~ revision_line x u) ls -> get_machine_revision (Some content) = Ok None.
Proof. exact revision_absent. Qed.
Print Assumptions C74_absent_partial.
Theorem C74_unreadable_partial : get_machine_revision None = Ok None.
Proof. reflexivity. Qed.
Print Assumptions C74_unreadable_partial.
(** Each content has its lines, and a line says one value at most. *)
Theorem C74_lines_partial : forall content, exists ls, lines content ls /\ forall ls', lines content ls' -> ls' = ls.
Proof. exact lines_one. Qed.
Print Assumptions C74_lines_partial.
Theorem C74_value_partial : forall l v v', revision_line l v -> revision_line l v' -> v = v'.
Proof. exact revision_line_det. Qed.
Print Assumptions C74_value_partial.
(** A value that is not UTF-8 is not reported, and with it no metadata at all: the exception is not an IOError. *)
Theorem C74_undecodable_refuted : exists content l v, lines content [l] /\ revision_line l v /\ get_machine_revision (Some content) = Raise EUnicodeDecode.
Proof.
  exists (B "revision:" ++ [xff]), (B "revision:" ++ [xff]), [xff]. split; [|split; [|vm_compute; reflexivity]].
  - apply L_last; [discriminate|]. cbn. intuition discriminate.
  - exists (B "revision"), [xff], (B "revision"), [xff]. repeat split; try reflexivity.
    + cbn. intuition discriminate.
    + exists [], []. repeat split; try constructor.
      * intros x r E. injection E as <- <-. vm_compute. intuition discriminate.
      * intros x r E. change (B "revision") with (B "revisio" ++ B "n") in E. apply app_inj_tail in E as [_ <-]. vm_compute. intuition discriminate.
    + repeat constructor.
    + exists [], []. repeat split; try constructor.
      * intros x r E. injection E as <- <-. vm_compute. intuition discriminate.
      * intros x r E. change [xff] with ([] ++ [xff]) in E. apply app_inj_tail in E as [_ <-]. vm_compute. intuition discriminate.
    + repeat constructor.
Qed.
Print Assumptions C74_undecodable_refuted.
Example C74_case :
  let l1 := B "processor : 0" ++ [x0a] in let l2 := B "Revision" ++ [x09] ++ B ": A02082" ++ [x0a] in
  lines (l1 ++ l2) [l1; l2] /\ (forall u, ~ revision_line l1 u) /\ revision_line l2 (B "a02082") /\
  get_machine_revision (Some (l1 ++ l2)) = Ok (Some (T "a02082")) /\ get_machine_revision (Some (B "no colon" ++ [x0a])) = Ok None.
Proof.
  cbn zeta. split; [|split; [|split; [|split; vm_compute; reflexivity]]].
  - apply (L_line (B "processor : 0")); [cbn; intuition discriminate|].
    apply (L_line (B "Revision" ++ [x09] ++ B ": A02082")); [cbn; intuition discriminate|constructor].
  - intros u H. apply revision_line_iff in H as (k & r & P & E & _). vm_compute in P. injection P as <- <-. vm_compute in E. discriminate.
  - apply revision_line_iff. exists (B "Revision" ++ [x09]), (B " A02082" ++ [x0a]). repeat split; vm_compute; reflexivity.
Qed.

(** ** C75 *)
(** While the program leaves the dictionary of the first call and its ip_list alone, every call
    shows what the first host answered. *)
Theorem C75_private_partial : forall l o s n, Forall spares_first l -> mstep (mrun heap0 l) o = (s, Some n) ->
  exists h, first_host (l ++ [o]) = Some h /\ view s n = fresh_view h.
Proof. exact cache_private. Qed.
Print Assumptions C75_private_partial.
(** The first call returns the cache itself: changing its dictionary changes what later calls return. *)
Theorem C75_cache_refuted : forall h hst d s n, mstep (mrun heap0 [MGet (Some h); MDict 0 d]) (MGet hst) = (s, Some n) -> nth n (dicts s) [] = d.
Proof. exact cache_exposed. Qed.
Print Assumptions C75_cache_refuted.
(** The copies share the list of addresses: changing it in a copy changes it for later calls. *)
Theorem C75_addresses_refuted : forall h hst l s n, mstep (mrun heap0 [MGet (Some h); MGet hst; MList 0 l]) (MGet hst) = (s, Some n) ->
  dict_get text_eqb (T "ip_list") (view s n) = Some (inr l).
Proof. exact ip_list_shared. Qed.
Print Assumptions C75_addresses_refuted.
Definition host1 : host := Host (T "1") None (T "Pi") (T "10") (T "Linux") [T "10.0.0.2"].
Example C75_case : Forall spares_first [MGet None; MGet (Some host1); MGet None; MDict 1 []] /\
  snd (mstep (mrun heap0 [MGet None; MGet (Some host1); MGet None; MDict 1 []]) (MGet None)) = Some 2 /\
  view (mrun heap0 [MGet (Some host1); MDict 0 []; MGet None]) 1 = [] /\ fresh_view host1 <> [].
Proof. split; [repeat constructor; discriminate|]. repeat split; discriminate. Qed.

(** ** C76 *)
(** [limit]: the most digits int() takes *)
Theorem C76_integer_partial : forall limit s z k default, written s z k -> (forall m, limit = Some m -> k <= m) -> get_environ_int limit (Some s) default = z.
Proof. exact environ_int. Qed.
Print Assumptions C76_integer_partial.
Theorem C76_default_partial : forall limit s default, (forall z k, ~ written s z k) -> get_environ_int limit (Some s) default = default.
Proof. exact environ_default. Qed.
Print Assumptions C76_default_partial.
Theorem C76_unset_partial : forall limit default, get_environ_int limit None default = default.
Proof. reflexivity. Qed.
Print Assumptions C76_unset_partial.
(** A text is at most one integer. *)
Theorem C76_one_partial : forall s z k z' k', written s z k -> written s z' k' -> z = z' /\ k = k'.
Proof. exact written_det. Qed.
Print Assumptions C76_one_partial.
(** With any limit there is an integer that gives the default instead, whatever the default. *)
Theorem C76_too_long_refuted : forall m, exists s z k, written s z k /\ forall default, get_environ_int (Some m) (Some s) default = default.
Proof. exact environ_limit. Qed.
Print Assumptions C76_too_long_refuted.
Example C76_case : written (T " -1_0 ") (-10) 2 /\ get_environ_int (Some 4) (Some (T " -1_0 ")) 7 = (-10)%Z /\
  get_environ_int (Some 4) (Some (T "10k")) 7 = 7%Z /\ get_environ_int (Some 4) (Some [1633; 1632]%N) 7 = 10%Z.
Proof.
  split; [|repeat split; vm_compute; reflexivity].
  exists (T " "), (T "-"), (T "1_0"), (T " "), [1; 0]%N. split; [reflexivity|].
  split; [constructor; [vm_compute; tauto|constructor]|]. split; [constructor; [vm_compute; tauto|constructor]|]. split; [|split; [reflexivity|right; now split]].
  apply (N_under 49 1 (T "0") [0%N]); [|apply (N_one 48 0)]; (split; [reflexivity|]); exists 48%N; split; try reflexivity; now left.
Qed.

(** ** C77 *)
(** After [k] sleeps the process is killed iff the [k]-th is the first that seems to take more than 180 seconds. *)
Theorem C77_killed : forall l n k, clock_check l n = (k, Killed) <-> exists l1 t l2, l = l1 ++ t :: l2 /\ k = n + S (length l1) /\
  Forall (fun u => running u = true /\ ~ jump u) l1 /\ running t = true /\ jump t.
Proof. exact killed_iff. Qed.
Print Assumptions C77_killed.
Theorem C77_stopped : forall l n k, clock_check l n = (k, Stopped) <-> exists l1 t l2, l = l1 ++ t :: l2 /\ k = n + length l1 /\
  Forall (fun u => running u = true /\ ~ jump u) l1 /\ running t = false.
Proof. exact stopped_iff. Qed.
Print Assumptions C77_stopped.
(** A second, a change of three minutes, one of a little more; and a change backwards *)
Example C77_case : clock_check [Turn true 0 1; Turn true 1 181; Turn true 181 (3611 # 10); Turn true 0 1] 0 = (3, Killed) /\
  clock_check [Turn true 1000 0; Turn false 0 0] 0 = (1, Stopped).
Proof. split; vm_compute; reflexivity. Qed.
