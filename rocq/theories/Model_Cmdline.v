(** * The command line: app.py:36-118 and 176 with argparse of CPython 3.11 as far as that parser uses it.
    Left out: the texts argparse prints and failures while it prints them.  Names and places of argparse.py
    are those of CPython 3.11.10. *)
From Verif Require Import Py.
From Verif Require Model_Start Model_App.

(** What options stand for: exits, switches, and settings that take a value *)
Inductive switch := Debug | Quiet.
Inductive setting := LogLevel | LogFile | ServerUrl | M2mUrl | Serial | Auth | RemoteDir.
Inductive deed := Help | Version | On (w : switch) | Set_ (x : setting).
(** argparse's [nargs]: one argument for a setting, none otherwise *)
Definition takes_value (d : deed) : bool := match d with Set_ _ => true | _ => false end.
(** argparse's [_option_string_actions] of the main parser (app.py:40-105; -h and --help come first by themselves) *)
Definition main_options : list (text * deed) :=
  [ (T "-h", Help); (T "--help", Help);
    (T "-v", Version); (T "--version", Version);              (* 41-47 *)
    (T "--log-level", Set_ LogLevel);                          (* 48-53 *)
    (T "--log-file", Set_ LogFile);                            (* 54-56 *)
    (T "-d", On Debug); (T "--debug", On Debug);              (* 57-64 *)
    (T "-s", Set_ ServerUrl); (T "--server-url", Set_ ServerUrl); (* 65-72 *)
    (T "-m", Set_ M2mUrl); (T "--m2m-url", Set_ M2mUrl);      (* 73-80 *)
    (T "-q", On Quiet); (T "--quiet", On Quiet);              (* 81-83 *)
    (T "--serial", Set_ Serial);                               (* 84-90 *)
    (T "--auth", Set_ Auth);                                   (* 91-97 *)
    (T "--remote-dir", Set_ RemoteDir) ].                      (* 99-105 *)
(** The parser of a sub-command (app.py:111-117; subcommand.py:29-30 adds nothing) *)
Definition sub_options : list (text * deed) := [ (T "-h", Help); (T "--help", Help) ].
(** subcommand.py:13-16 with subcommands/run.py:7 and version.py:10 *)
Definition sub_commands : list text := [T "run"; T "version"].

(** The Namespace; [s_sub] is [args.subcommand] *)
Record settings := Settings {
  s_log_level : text; s_log_file : option text; s_debug : bool; s_server_url : option text; s_m2m_url : option text;
  s_quiet : bool; s_serial : option text; s_auth : option text; s_remote_dir : option text; s_sub : option text }.
(** app.py:51, 55, 62, 70, 78, 82, 88, 95, 103 *)
Definition defaults : settings := Settings (T "INFO") None false None None false None None None None.
Definition switched (w : switch) (s : settings) : settings :=
  match w with
  | Debug => Settings (s_log_level s) (s_log_file s) true (s_server_url s) (s_m2m_url s) (s_quiet s) (s_serial s) (s_auth s) (s_remote_dir s) (s_sub s)
  | Quiet => Settings (s_log_level s) (s_log_file s) (s_debug s) (s_server_url s) (s_m2m_url s) true (s_serial s) (s_auth s) (s_remote_dir s) (s_sub s)
  end.
Definition stored (x : setting) (v : text) (s : settings) : settings :=
  match x with
  | LogLevel => Settings v (s_log_file s) (s_debug s) (s_server_url s) (s_m2m_url s) (s_quiet s) (s_serial s) (s_auth s) (s_remote_dir s) (s_sub s)
  | LogFile => Settings (s_log_level s) (Some v) (s_debug s) (s_server_url s) (s_m2m_url s) (s_quiet s) (s_serial s) (s_auth s) (s_remote_dir s) (s_sub s)
  | ServerUrl => Settings (s_log_level s) (s_log_file s) (s_debug s) (Some v) (s_m2m_url s) (s_quiet s) (s_serial s) (s_auth s) (s_remote_dir s) (s_sub s)
  | M2mUrl => Settings (s_log_level s) (s_log_file s) (s_debug s) (s_server_url s) (Some v) (s_quiet s) (s_serial s) (s_auth s) (s_remote_dir s) (s_sub s)
  | Serial => Settings (s_log_level s) (s_log_file s) (s_debug s) (s_server_url s) (s_m2m_url s) (s_quiet s) (Some v) (s_auth s) (s_remote_dir s) (s_sub s)
  | Auth => Settings (s_log_level s) (s_log_file s) (s_debug s) (s_server_url s) (s_m2m_url s) (s_quiet s) (s_serial s) (Some v) (s_remote_dir s) (s_sub s)
  | RemoteDir => Settings (s_log_level s) (s_log_file s) (s_debug s) (s_server_url s) (s_m2m_url s) (s_quiet s) (s_serial s) (s_auth s) (Some v) (s_sub s)
  end.
Definition with_sub (n : text) (s : settings) : settings :=
  Settings (s_log_level s) (s_log_file s) (s_debug s) (s_server_url s) (s_m2m_url s) (s_quiet s) (s_serial s) (s_auth s) (s_remote_dir s) (Some n).
(** parse_args returns or exits *)
Inductive parsed := Parsed (s : settings) | Exit (code : Z).

Definition dash : N := 45.
Definition equals : N := 61.
Definition dashes : text := [dash; dash].
(** str.partition("="): what is before the first one, and what follows if there is one *)
Fixpoint partition (t : text) : text * option text :=
  match t with
  | [] => ([], None)
  | c :: r => if (c =? equals)%N then ([], Some r) else let '(n, v) := partition r in (c :: n, v)
  end.
(** str.startswith *)
Fixpoint starts (p t : text) : bool :=
  match p, t with
  | [], _ => true
  | a :: p', b :: t' => ((a =? b)%N && starts p' t')%bool
  | _ :: _, [] => false
  end.
(** [option_string[1] in chars] *)
Definition is_long (n : text) : bool := match n with _ :: c :: _ => (c =? dash)%N | _ => false end.

Section Parser.
  (** argparse's [_negative_number_matcher.match]; no option of these parsers looks like a number *)
  Variable negative : text -> bool.

  Section Table.
    Variable table : list (text * deed).
    (** [_parse_optional], argparse.py:2243-2298: an argument, or an option with its long form or not and its explicit
        argument; of [sep] only whether it is "=" *)
    Inductive class := Argument | Unknown | Ambiguous | Option_ (d : deed) (long : bool) (explicit : option (bool * text)).
    (** [_get_option_tuples], argparse.py:2300-2338, of an argument that begins with a dash and has two characters *)
    Definition option_tuples (a : text) : list class :=
      let '(n, v) := partition a in
      if is_long a
      then map (fun e => Option_ (snd e) (is_long (fst e)) (option_map (pair true) v)) (filter (fun e => starts n (fst e)) table)
      else concat (map (fun e => if text_eqb (fst e) (firstn 2 a) then [Option_ (snd e) (is_long (fst e)) (Some (false, skipn 2 a))]
                                 else if starts a (fst e) then [Option_ (snd e) (is_long (fst e)) None] else []) table).
    Definition classify (a : text) : class :=
      match a with
      | [] => Argument
      | c :: r =>
          if negb (c =? dash)%N then Argument
          else match dict_get text_eqb a table with
               | Some d => Option_ d (is_long a) None
               | None =>
                   match r with
                   | [] => Argument
                   | _ :: _ =>
                       match (match partition a with
                              | (n, Some v) => option_map (fun d => Option_ d (is_long n) (Some (true, v))) (dict_get text_eqb n table)
                              | (_, None) => None
                              end) with
                       | Some k => k
                       | None =>
                           match option_tuples a with
                           | _ :: _ :: _ => Ambiguous
                           | [k] => k
                           | [] => if negative a then Argument
                                   else if existsb (N.eqb 32) a then Argument
                                   else Unknown
                           end
                       end
                   end
               end
      end.
    (** argparse.py:1940-1960: an ambiguous option ends the program before any option is acted on. *)
    Fixpoint ambiguous (l : list text) : bool :=
      match l with
      | [] => false
      | a :: r => if text_eqb a dashes then false
                  else match classify a with Ambiguous => true | _ => ambiguous r end
      end.

    (** The loop of [consume_optional], argparse.py:1998-2059, over options with an explicit argument: what is acted on,
        in order, and whether some of it is not known; [Next]: the last one has no explicit argument *)
    Inductive read_ := Bad | Done (l : list (deed * text)) (extra : bool) | Next (l : list (deed * text)) (d : deed).
    Definition before (d : deed) (k : read_) : read_ :=
      match k with Bad => Bad | Done l x => Done ((d, []) :: l) x | Next l d' => Next ((d, []) :: l) d' end.
    Fixpoint explicit_arg (long sep : bool) (d : deed) (v : text) : read_ :=
      if takes_value d then Done [(d, v)] false
      else match v with
           | [] => Bad
           | c :: v' =>
               if long then Bad
               else if (sep || (c =? dash)%N)%bool then Bad
               else match dict_get text_eqb [dash; c] table with
                    | None => Done [(d, [])] true
                    | Some d' =>
                        before d (match v' with
                                  | [] => Next [] d'
                                  | c' :: v'' => if (c' =? equals)%N then explicit_arg false true d' v'' else explicit_arg false false d' v'
                                  end)
                    end
           end.
    Definition consume (d : deed) (long : bool) (explicit : option (bool * text)) : read_ :=
      match explicit with Some (sep, v) => explicit_arg long sep d v | None => Next [] d end.
    (** argparse.py:2061-2066 with the actions of argparse.py; --help and --version exit. *)
    Fixpoint act (l : list (deed * text)) (s : settings) : settings + Z :=
      match l with
      | [] => inl s
      | (Help, _) :: _ | (Version, _) :: _ => inr 0%Z
      | (On w, _) :: r => act r (switched w s)
      | (Set_ x, v) :: r => act r (stored x v s)
      end.

    (** What follows an argument that is not an option's: [None] for a parser without positional arguments *)
    Variable positional : option (text -> list text -> settings -> bool -> parsed).
    Definition finish (s : settings) (extra : bool) : parsed := if extra then Exit 2 else Parsed s.
    (** argparse.py:2090-2130 with [consume_optional] and [consume_positionals]; [extra]: something was not known, which
        parse_args ends with (1873-1878).  The sub-command takes everything that follows it. *)
    Fixpoint walk (l : list text) (s : settings) (extra : bool) : parsed :=
      match l with
      | [] => finish s extra
      | a :: r =>
          if text_eqb a dashes
          then match positional with Some _ => Exit 2 | None => finish s true end
          else match classify a with
               | Argument => match positional with Some f => f a r s extra | None => walk r s true end
               | Unknown => walk r s true
               | Ambiguous => Exit 2
               | Option_ d long explicit =>
                   match consume d long explicit with
                   | Bad => Exit 2
                   | Done l x => match act l s with inl s' => walk r s' (extra || x) | inr code => Exit code end
                   | Next l d' =>
                       if takes_value d'
                       then match r with
                            | v :: r' => if text_eqb v dashes then Exit 2
                                         else match classify v with
                                              | Argument => match act (l ++ [(d', v)]) s with inl s' => walk r' s' extra | inr code => Exit code end
                                              | _ => Exit 2
                                              end
                            | [] => Exit 2
                            end
                       else match act (l ++ [(d', [])]) s with inl s' => walk r s' extra | inr code => Exit code end
                   end
               end
      end.
    Definition parse_with (l : list text) (s : settings) (extra : bool) : parsed :=
      if ambiguous l then Exit 2 else walk l s extra.
  End Table.

  (** _SubParsersAction.__call__, argparse.py:1221-1254, after [_check_value] (2475-2523) *)
  Definition sub_command (name : text) (r : list text) (s : settings) (extra : bool) : parsed :=
    if existsb (text_eqb name) sub_commands then parse_with sub_options None r (with_sub name s) extra else Exit 2.
  (** app.py:176-177: parser.parse_args(sys.argv[1:]) *)
  Definition parse_args (argv : list text) : parsed := parse_with main_options (Some sub_command) argv defaults false.
End Parser.

(** app.py:158-167: what the client is made with *)
Definition client_options (s : settings) : Model_Start.options :=
  Model_Start.Options (s_server_url s) (s_m2m_url s) (s_serial s) (s_auth s) (s_remote_dir s).
(** app.py:176-187: what logging and the rest of [run] look at; [c]: the sub-command *)
Definition app_args (s : settings) (c : option Model_App.command) : Model_App.args :=
  Model_App.Args (s_log_level s) (s_log_file s) (s_debug s) (s_quiet s) c.
