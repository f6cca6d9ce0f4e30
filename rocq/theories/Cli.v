(** Model of the command line of ced: core/src/bin/ced.rs:8-121 (the arguments, [main]) and of the part of the crate clap 2.33 that
    these four arguments use ([Parser::get_matches_with], [is_new_arg], [parse_long_arg], [parse_short_arg], [parse_opt], and the
    validation of what was found), transcribed from its source as a contract.  The arguments are texts (clap refuses others).
    What clap prints is left out.  Definitions only. *)
From Coq Require Import String List Arith Bool.
From Verif Require Import Base Maps.
Import ListNotations.

(** ced.rs:10-31 [enum Mode]; [term] is there if the program was built with the feature of that name *)
Inductive cmode := CDaemon | CJson | CScript | CServer | CStandalone | CTerm.
Definition mode_name (m : cmode) : text :=
  match m with
  | CDaemon => str "daemon" | CJson => str "json" | CScript => str "script" | CServer => str "server"
  | CStandalone => str "standalone" | CTerm => str "term"
  end.
Section Cli.
Variable term : bool.
(** [Mode::variants] *)
Definition variants : list cmode := [CDaemon; CJson; CScript; CServer; CStandalone] ++ if term then [CTerm] else [].
(** ced.rs:33-41 [Mode::default_value] *)
Definition default_mode : cmode := if term then CTerm else CJson.

(** ced.rs:46-73: the options that take a value; the others are the flag -l, --list, the files, and clap's own help and version *)
Inductive opt := OSession | OMode.
Definition long_of (o : opt) : text := match o with OSession => str "session" | OMode => str "mode" end.
Definition letter_of (o : opt) : nat := match o with OSession => 115 | OMode => 109 end.
(** what clap has found: how often each was given, and the values *)
Record found := mkFound { f_lists : nat; f_session : nat * list text; f_mode : nat * list text; f_files : list text }.
Definition found0 : found := mkFound 0 (0, []) (0, []) [].
Definition of_opt (s : found) (o : opt) : nat * list text := match o with OSession => f_session s | OMode => f_mode s end.
Definition set_opt (s : found) (o : opt) (v : nat * list text) : found :=
  match o with
  | OSession => mkFound (f_lists s) v (f_mode s) (f_files s)
  | OMode => mkFound (f_lists s) (f_session s) v (f_files s)
  end.
Definition once_more (o : opt) (s : found) : found := set_opt s o (S (fst (of_opt s o)), snd (of_opt s o)).
Definition value_too (o : opt) (x : text) (s : found) : found := set_opt s o (fst (of_opt s o), snd (of_opt s o) ++ [x]).
Definition flag_l (s : found) : found := mkFound (S (f_lists s)) (f_session s) (f_mode s) (f_files s).
Definition files_too (l : list text) (s : found) : found := mkFound (f_lists s) (f_session s) (f_mode s) (f_files s ++ l).

(** what ends the reading *)
Inductive stop := Help | Version | Refused.
(** what was found and the option that still lacks its value, or the end *)
Definition reading : Type := (found * option opt) + stop.

(** [parse_opt]: a value joined to the option loses the equal signs at its beginning *)
Definition parse_opt (o : opt) (val : option text) (s : found) : found * option opt :=
  match val with
  | Some v => (once_more o (value_too o (drop_while (fun b => b =? 61) v) s), None)
  | None => (once_more o s, Some o)
  end.
(** [parse_short_arg], after the dash: flags, then perhaps an option with its value *)
Definition rest_of (r : text) : option text := match r with [] => None | _ => Some r end.
Fixpoint parse_short (cs : text) (s : found) : reading :=
  match cs with
  | [] => inl (s, None)
  | c :: r =>
      if c =? letter_of OSession then inl (parse_opt OSession (rest_of r) s)
      else if c =? letter_of OMode then inl (parse_opt OMode (rest_of r) s)
      else if c =? 108 then parse_short r (flag_l s)
      else if c =? 104 then inr Help
      else if c =? 86 then inr Version
      else inr Refused
  end.
(** the text before the first equal sign, and what is after it *)
Fixpoint split_eq (t : text) : text * option text :=
  match t with
  | [] => ([], None)
  | b :: r => if b =? 61 then ([], Some r) else let (n, v) := split_eq r in (b :: n, v)
  end.
(** [parse_long_arg] *)
Definition parse_long (arg : text) (s : found) : reading :=
  let (name, val) := split_eq (drop_while (fun b => b =? 45) arg) in
  if eqb name (long_of OSession) then inl (parse_opt OSession val s)
  else if eqb name (long_of OMode) then inl (parse_opt OMode val s)
  else if eqb name (str "list") then inl (flag_l s, None)
  else if eqb name (str "help") then inr Help
  else if eqb name (str "version") then inr Version
  else inr Refused.
(** [is_new_arg]: it begins with a dash and is not the dash alone *)
Definition new_arg (a : text) : bool := match a with 45 :: _ :: _ => true | _ => false end.
(** [get_matches_with]: after two dashes there are only files *)
Fixpoint parse_args (args : list text) (s : found) (pending : option opt) : reading :=
  match args with
  | [] => inl (s, pending)
  | a :: r =>
      if eqb a (str "--") then inl (files_too r s, pending)
      else if new_arg a then
        match (if eqb (firstn 2 a) (str "--") then parse_long a s else parse_short (skipn 1 a) s) with
        | inl (s, p) => parse_args r s p
        | inr e => inr e
        end
      else match pending with
           | Some o => parse_args r (value_too o a s) None
           | None => parse_args r (files_too [a] s) None
           end
  end.
(** the validation: an option may be given once, with a value *)
Definition given_once (v : nat * list text) : option (option text) :=
  match v with (0, _) => Some None | (1, x :: _) => Some (Some x) | _ => None end.
Definition mode_of (x : text) : option cmode := find (fun m => eqb (mode_name m) x) variants.

(** ced.rs:75-121: what the program does *)
Inductive run := RunList | RunDaemon (session : option text) | RunJson (session : option text) | RunScript (files : list text)
  | RunServer (session : option text) | RunStandalone (files : list text) | RunTerm (session : option text) (files : list text)
  | RunStop (e : stop).
(** a session that is not named is named after the process *)
Definition run_mode (m : cmode) (session : option text) (files : list text) : run :=
  match m with
  | CDaemon => RunDaemon session | CJson => RunJson session | CScript => RunScript files | CServer => RunServer session
  | CStandalone => RunStandalone files | CTerm => RunTerm session files
  end.
Definition run_found (s : found) (pending : option opt) : run :=
  match given_once (f_session s), given_once (f_mode s) with
  | Some session, Some mode =>
      match pending, (match mode with None => Some default_mode | Some x => mode_of x end) with
      | None, Some m => if f_lists s =? 0 then run_mode m session (f_files s) else if f_lists s =? 1 then RunList else RunStop Refused
      | _, _ => RunStop Refused
      end
  | _, _ => RunStop Refused
  end.
Definition ced (args : list text) : run :=
  match parse_args args found0 None with
  | inl (s, pending) => run_found s pending
  | inr e => RunStop e
  end.
End Cli.
