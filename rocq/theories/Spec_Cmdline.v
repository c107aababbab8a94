(** * What a command line says *)
From Verif Require Import Py Model_Cmdline.
From Verif Require Spec_Logging.

(** What a user may ask for *)
Inductive wish := Switch (w : switch) | Value (x : setting) (v : text).
Definition long_switch (w : switch) : text := match w with Debug => T "--debug" | Quiet => T "--quiet" end.
Definition short_switch (w : switch) : N := match w with Debug => 100 | Quiet => 113 end. (* d, q *)
Definition long_setting (x : setting) : text :=
  match x with
  | LogLevel => T "--log-level" | LogFile => T "--log-file" | ServerUrl => T "--server-url" | M2mUrl => T "--m2m-url"
  | Serial => T "--serial" | Auth => T "--auth" | RemoteDir => T "--remote-dir"
  end.
Inductive short_setting : setting -> N -> Prop := ShortServer : short_setting ServerUrl 115 | ShortM2m : short_setting M2mUrl 109. (* s, m *)
Definition every_long : list text :=
  [T "--help"; T "--version"; T "--log-level"; T "--log-file"; T "--debug"; T "--server-url"; T "--m2m-url"; T "--quiet"; T "--serial";
   T "--auth"; T "--remote-dir"].
(** A long name may be cut short as long as no other begins like that. *)
Definition stands_for (n full : text) : Prop :=
  3 <= length n /\ (exists rest, full = n ++ rest) /\
  (n = full \/ forall other rest, In other every_long -> other = n ++ rest -> other = full).
(** The letters of short options: h, v, d, s, m, q *)
Definition every_letter : list N := [104; 118; 100; 115; 109; 113]%N.
(** A word that argparse takes for one of the options, rightly or not: it begins with a letter's, or is the beginning of a long
    one's, up to =. *)
Inductive like_option : text -> Prop :=
| LikeShort : forall c r, In c every_letter -> like_option (dash :: c :: r)
| LikeLong : forall n rest, 2 <= length n -> In (n ++ rest) every_long -> like_option n
| LikeLongEquals : forall n rest v, 2 <= length n -> In (n ++ rest) every_long -> like_option (n ++ equals :: v).

Section Line.
  (** Which words look like negative numbers *)
  Variable neg : text -> bool.
  (** A word that can be a value by itself *)
  Definition plain (v : text) : Prop :=
    (forall r, v <> dash :: r) \/ v = T "-" \/ (~ like_option v /\ (neg v = true \/ In 32%N v)).
  (** One wish in the ways it can be written, several switches in one word included *)
  Inductive written : list text -> list wish -> Prop :=
  | LongSwitch : forall w n, stands_for n (long_switch w) -> written [n] [Switch w]
  | ShortSwitches : forall w ws, written [dash :: map short_switch (w :: ws)] (map Switch (w :: ws))
  | LongApart : forall x n v, stands_for n (long_setting x) -> plain v -> written [n; v] [Value x v]
  | LongEquals : forall x n v, stands_for n (long_setting x) -> written [n ++ equals :: v] [Value x v]
  | ShortApart : forall ws x c v, short_setting x c -> plain v ->
      written [dash :: map short_switch ws ++ [c]; v] (map Switch ws ++ [Value x v])
  | ShortJoined : forall ws x c v, short_setting x c -> v <> [] -> (forall r, v <> equals :: r) ->
      written [dash :: map short_switch ws ++ c :: v] (map Switch ws ++ [Value x v])
  | ShortEquals : forall ws x c v, short_setting x c ->
      written [dash :: map short_switch ws ++ c :: equals :: v] (map Switch ws ++ [Value x v]).
  Inductive line : list text -> list wish -> Prop :=
  | NoMore : line [] []
  | OneMore : forall a x b y, written a x -> line b y -> line (a ++ b) (x ++ y).
End Line.
(** What is asked for in the end: of a setting, the last value *)
Definition last_value (x : setting) (l : list wish) (v : option text) : Prop :=
  match v with
  | Some t => exists a b, l = a ++ Value x t :: b /\ forall t', ~ In (Value x t') b
  | None => forall t, ~ In (Value x t) l
  end.
Record says (l : list wish) (name : option text) (s : settings) : Prop := Says {
  says_level : exists v, last_value LogLevel l v /\ s_log_level s = match v with Some t => t | None => T "INFO" end;
  says_file : last_value LogFile l (s_log_file s);
  says_server : last_value ServerUrl l (s_server_url s);
  says_m2m : last_value M2mUrl l (s_m2m_url s);
  says_serial : last_value Serial l (s_serial s);
  says_auth : last_value Auth l (s_auth s);
  says_dir : last_value RemoteDir l (s_remote_dir s);
  says_debug : s_debug s = true <-> In (Switch Debug) l;
  says_quiet : s_quiet s = true <-> In (Switch Quiet) l;
  says_sub : s_sub s = name }.
Definition named (words : list text) (name : option text) : Prop :=
  match name with None => words = [] | Some n => words = [n] /\ (n = T "run" \/ n = T "version") end.

(** The value is part of what was written. *)
Definition comes_from (argv : list text) (v : text) : Prop := exists a pre, In a argv /\ a = pre ++ v.
(** A refusal, or --help or --version: the agent does not run. *)
Definition refused (p : parsed) : Prop := p = Exit 0 \/ p = Exit 2.
Definition but_debug (p : parsed) : parsed :=
  match p with
  | Parsed s => Parsed (Settings (s_log_level s) (s_log_file s) true (s_server_url s) (s_m2m_url s) (s_quiet s) (s_serial s) (s_auth s)
                                 (s_remote_dir s) (s_sub s))
  | Exit code => Exit code
  end.
(** The least level to be logged: --quiet leaves only what is critical, INFO is wanted by default. *)
Definition level_wanted (upper : text -> text) (l : list wish) (level : Z) : Prop :=
  (In (Switch Quiet) l /\ level = 50%Z) \/
  (~ In (Switch Quiet) l /\ exists v, last_value LogLevel l v /\
     Spec_Logging.stands_for (upper (match v with Some t => t | None => T "INFO" end)) level).
