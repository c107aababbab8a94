(** * C138: what is logged (dataplicity/app.py) *)
From Verif Require Import Py Model_App Spec_App Model_Logging Spec_Logging Proof_Logging.

(** Whichever loggers exist, a record of level n of any of them is written exactly if n is at least the level asked for, and
    to the place asked for; n > 0 as all levels of logging.  [upper]: str.upper. *)
Theorem C138_level : forall upper file_config existing a level, asked upper a level -> log_file_works file_config a ->
  exists l, configure upper file_config existing a logging0 = inl l /\
    forall name n, emit name n l = if ((0 <? n) && (level <=? n))%Z then [wanted a] else [].
Proof. exact level_taken. Qed.
Print Assumptions C138_level.

(** The level asked for is known exactly if C78 says so, and setting up fails exactly as there. *)
Theorem C138_known : forall upper a, known_level upper a <-> exists level, asked upper a level.
Proof. exact known_asked. Qed.
Print Assumptions C138_known.
Theorem C138_fails : forall upper file_config existing a e, configure upper file_config existing a logging0 = inr e <-> init_logging upper file_config a = Some e.
Proof. exact configure_fails. Qed.
Print Assumptions C138_fails.

(** warn, with a file; --quiet *)
Definition up (s : text) : text := map (fun c => if (97 <=? c)%N && (c <=? 122)%N then (c - 32)%N else c) s.
Example C138_case :
  let warn := Args (T "warn") (Some (T "/log")) false false None in let still := Args (T "debug") None false true None in
  asked up warn 30 /\ log_file_works (fun _ => None) warn /\ wanted warn = LogFile (T "/log") /\
  asked up still 50 /\ log_file_works (fun _ => Some EOS) still /\ wanted still = Stderr /\
  match configure up (fun _ => None) [T "agent"; T "m2m"] warn logging0 with
  | inl l => (emit (T "agent") 40 l, emit (T "m2m") 20 l) = ([LogFile (T "/log")], [])
  | inr _ => False
  end.
Proof.
  cbn zeta. split; [exact Warn|]. split; [intros path _ _; reflexivity|]. split; [reflexivity|]. split; [reflexivity|].
  split; [discriminate|]. split; reflexivity.
Qed.
