(** * C139: the command line (dataplicity/app.py) *)
From Verif Require Import Py Model_Cmdline Spec_Cmdline Proof_Cmdline.
From Verif Require Model_Start Model_App Model_Logging Spec_Logging.

(** However options are written before the name of a sub-command, each setting gets the last value given for it or its default,
    each switch is on exactly if it was given.  [neg]: which words look like negative numbers. *)
Theorem C139_understood : forall neg words l last name, line neg words l -> named last name ->
  exists s, parse_args neg (words ++ last) = Parsed s /\ says l name s.
Proof. exact understood. Qed.
Print Assumptions C139_understood.

(** Nothing else is understood: a command line that is taken is one of those, and is taken so. *)
Theorem C139_nothing_else : forall neg argv s, parse_args neg argv = Parsed s ->
  exists words l last name, argv = words ++ last /\ line neg words l /\ named last name /\ says l name s.
Proof. exact only_lines. Qed.
Print Assumptions C139_nothing_else.
(** Any command line whatsoever: no value but the default level comes from anywhere else, and the sub-command is the last word. *)
Theorem C139_only_given : forall neg argv s, parse_args neg argv = Parsed s ->
  (s_log_level s = T "INFO" \/ comes_from argv (s_log_level s)) /\
  (forall v, s_log_file s = Some v \/ s_server_url s = Some v \/ s_m2m_url s = Some v \/ s_serial s = Some v \/ s_auth s = Some v \/ s_remote_dir s = Some v ->
    comes_from argv v) /\
  (forall n, s_sub s = Some n -> (n = T "run" \/ n = T "version") /\ exists pre, argv = pre ++ [n]).
Proof. exact only_given. Qed.
Print Assumptions C139_only_given.
(** Otherwise the program ends, with 0 or 2. *)
Theorem C139_or_exits : forall neg argv, (exists s, parse_args neg argv = Parsed s) \/ refused (parse_args neg argv).
Proof. exact parse_settled. Qed.
Print Assumptions C139_or_exits.

(** A value that looks like an option is refused, not taken for something else. *)
Theorem C139_dash : forall neg words l n x v rest, line neg words l -> stands_for n (long_setting x) -> ~ plain neg v ->
  parse_args neg (words ++ n :: v :: rest) = Exit 2.
Proof. exact dash_refused. Qed.
Print Assumptions C139_dash.
(** Options after the sub-command are refused. *)
Theorem C139_after : forall neg words l n rest, line neg words l -> n = T "run" \/ n = T "version" -> rest <> [] -> refused (parse_args neg (words ++ n :: rest)).
Proof. exact after_name. Qed.
Print Assumptions C139_after.

(** The hint of app.py:193-197: the same words after --debug mean the same, but for debug. *)
Theorem C139_hint : forall neg argv, parse_args neg (T "--debug" :: argv) = but_debug (parse_args neg argv).
Proof. exact hint. Qed.
Print Assumptions C139_hint.

(** The client is made with what was given. *)
Theorem C139_client : forall neg words l s d h c seen, line neg words l -> parse_args neg (words ++ [T "run"]) = Parsed s ->
  Model_Start.construct (client_options s) d h = (Ok c, seen) ->
  forall x v, v <> [] -> last_value x l (Some v) ->
  match x with
  | ServerUrl => Model_Start.c_rpc_url c = v
  | M2mUrl => exists q, Model_Start.c_m2m_url c = v ++ q
  | Serial => Model_Start.c_serial c = v
  | Auth => Model_Start.c_auth c = v
  | RemoteDir => Model_Start.c_remote_dir c = v
  | LogLevel | LogFile => True
  end.
Proof. exact client_made. Qed.
Print Assumptions C139_client.
(** So is logging set up. *)
Theorem C139_logging : forall neg words l last name s c upper file_config existing level,
  line neg words l -> named last name -> parse_args neg (words ++ last) = Parsed s -> level_wanted upper l level ->
  (forall path, last_value LogFile l (Some path) -> path <> [] -> file_config path = None) ->
  exists lg, Model_Logging.configure upper file_config existing (app_args s c) Model_Logging.logging0 = inl lg /\
    forall logger n, Model_Logging.emit logger n lg = if ((0 <? n) && (level <=? n))%Z then [Spec_Logging.wanted (app_args s c)] else [].
Proof. exact logging_set. Qed.
Print Assumptions C139_logging.

(** dataplicity -dsX --auth=-k --seria 1 --serial 2 run: a cluster, an abbreviation, a value that begins with a dash, and one setting given twice *)
Definition never (t : text) : bool := false.
Definition words1 : list text := [T "-dsX"; T "--auth=-k"; T "--seria"; T "1"; T "--serial"; T "2"].
Definition wishes1 : list wish := [Switch Debug; Value ServerUrl (T "X"); Value Auth (T "-k"); Value Serial (T "1"); Value Serial (T "2")].
Lemma line1 : line never words1 wishes1.
Proof.
  refine (OneMore never [_] [_; _] _ _ (ShortJoined never [Debug] ServerUrl 115 (T "X") ShortServer _ _) _); [discriminate|discriminate|].
  assert (A : forall x, stands_for (long_setting x) (long_setting x)).
  { intro x. split; [destruct x; cbn; lia|]. split; [exists []; rewrite app_nil_r; reflexivity|left; reflexivity]. }
  refine (OneMore never [_] [_] _ _ (LongEquals never Auth (T "--auth") (T "-k") (A Auth)) _).
  refine (OneMore never [_; _] [_] _ _ (LongApart never Serial (T "--seria") (T "1") _ _) _).
  - split; [cbn; lia|]. split; [exists (T "l"); reflexivity|]. right. intros o r I E.
    cbn in I. repeat (destruct I as [<-|I]; [first [reflexivity|discriminate E]|]). destruct I.
  - left. intros r. discriminate.
  - refine (OneMore never [_; _] [_] _ _ (LongApart never Serial (T "--serial") (T "2") (A Serial) _) (NoMore never)). left. intros r. discriminate.
Qed.
Example C139_case :
  parse_args never (words1 ++ [T "run"]) =
    Parsed (Settings (T "INFO") None true (Some (T "X")) None false (Some (T "2")) (Some (T "-k")) None (Some (T "run"))) /\
  last_value Serial wishes1 (Some (T "2")) /\
  parse_args never [T "--auth"; T "-k"; T "run"] = Exit 2 /\ ~ plain never (T "-k") /\
  plain never (T "-k y") /\ parse_args never [T "--auth"; T "-k y"] = Parsed (stored Auth (T "-k y") defaults) /\
  parse_args never [T "run"; T "--serial"; T "1"] = Exit 2 /\
  parse_args never [T "--ser"; T "1"; T "run"] = Exit 2 /\
  level_wanted (fun t => t) wishes1 20.
Proof.
  split; [reflexivity|]. split; [exists [Switch Debug; Value ServerUrl (T "X"); Value Auth (T "-k"); Value Serial (T "1")], []; split; [reflexivity|intros t []]|].
  split; [reflexivity|]. split; [intros [H|[H|[_ [H|H]]]]; [exact (H (T "k") eq_refl)|discriminate H|discriminate H|destruct H as [H|[H|[]]]; discriminate H]|]. split.
  { right. right. split; [|right; cbn; tauto]. intro K. apply like_tuples in K. apply K. reflexivity. }
  split; [reflexivity|]. split; [reflexivity|]. split; [reflexivity|].
  right. split; [intro I; cbn in I; repeat (destruct I as [I|I]; [discriminate I|]); destruct I|]. exists None. split; [|exact Spec_Logging.Info].
  intros t I. cbn in I. repeat (destruct I as [I|I]; [discriminate I|]). destruct I.
Qed.
