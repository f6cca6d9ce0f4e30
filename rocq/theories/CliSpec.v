(** How the command line of ced may be written and what it asks for: the vocabulary of C89.  Independent of the parser. *)
From Coq Require Import String List Arith Bool.
From Verif Require Import Base Maps Cli.
Import ListNotations.

(** ** what may be asked for *)
Inductive wish := WList | WSession (name : text) | WMode (m : cmode) | WFile (f : text).
Definition asks_file (w : wish) : list text := match w with WFile f => [f] | _ => [] end.
Definition asks_session (w : wish) : list text := match w with WSession x => [x] | _ => [] end.
Definition asks_mode (w : wish) : list cmode := match w with WMode m => [m] | _ => [] end.
Definition is_list (w : wish) : bool := match w with WList => true | _ => false end.
Definition sessions_of (ws : list wish) : list text := concat (map asks_session ws).
Definition modes_of (ws : list wish) : list cmode := concat (map asks_mode ws).
Definition files_of (ws : list wish) : list text := concat (map asks_file ws).
(** each option once, and a mode the program has *)
Definition sensible (term : bool) (ws : list wish) : Prop :=
  length (filter is_list ws) <= 1 /\ length (sessions_of ws) <= 1 /\ length (modes_of ws) <= 1 /\ (term = false -> ~ In CTerm (modes_of ws)).
(** ... asks for this *)
Definition asked (term : bool) (ws : list wish) : run :=
  let session := hd_error (sessions_of ws) in
  if existsb is_list ws then RunList
  else match hd (if term then CTerm else CJson) (modes_of ws) with
       | CDaemon => RunDaemon session
       | CJson => RunJson session
       | CScript => RunScript (files_of ws)
       | CServer => RunServer session
       | CStandalone => RunStandalone (files_of ws)
       | CTerm => RunTerm session (files_of ws)
       end.

(** ** spellings *)
(** can stand alone: does not begin with a dash, or is a dash *)
Definition alone (x : text) : Prop := (forall r, x <> 45 :: r) \/ x = [45].
(** does not begin with an equal sign *)
Definition no_eq (x : text) : Prop := forall r, x <> 61 :: r.
(** how a mode is written *)
Definition written_mode (m : cmode) : text :=
  match m with
  | CDaemon => str "daemon" | CJson => str "json" | CScript => str "script" | CServer => str "server"
  | CStandalone => str "standalone" | CTerm => str "term"
  end.
(** an option with a value: its long name, its letter, the value *)
Definition option_of (w : wish) : option (text * nat * text) :=
  match w with
  | WSession x => Some (str "session", 115, x)
  | WMode m => Some (str "mode", 109, written_mode m)
  | _ => None
  end.
Inductive spelt : list wish -> list text -> Prop :=
(* FILE *)
| sp_file f : alone f -> spelt [WFile f] [f]
(* -l, -ll *)
| sp_l j : spelt (repeat WList (S j)) [45 :: repeat 108 (S j)]
(* --list (more dashes, and a value that is ignored, are accepted) *)
| sp_list d e : (e = [] \/ exists y, e = 61 :: y) -> spelt [WList] [repeat 45 (2 + d) ++ str "list" ++ e]
(* --session NAME *)
| sp_long d w name c x : option_of w = Some (name, c, x) -> alone x -> spelt [w] [repeat 45 (2 + d) ++ name; x]
(* --session=NAME: equal signs at the beginning of the name are lost *)
| sp_long_eq d k w name c x : option_of w = Some (name, c, x) -> no_eq x -> spelt [w] [repeat 45 (2 + d) ++ name ++ repeat 61 (1 + k) ++ x]
(* -s NAME, -ls NAME *)
| sp_short j w name c x : option_of w = Some (name, c, x) -> alone x -> spelt (repeat WList j ++ [w]) [45 :: repeat 108 j ++ [c]; x]
(* -sNAME, -s=NAME, -lsNAME *)
| sp_short_eq j k w name c x : option_of w = Some (name, c, x) -> no_eq x -> (k = 0 -> x <> []) ->
    spelt (repeat WList j ++ [w]) [45 :: repeat 108 j ++ c :: repeat 61 k ++ x].
(** a line: one after the other, then perhaps two dashes and any files *)
Inductive line : list wish -> list text -> Prop :=
| line_nil : line [] []
| line_files l : line (map WFile l) (str "--" :: l)
| line_more ws args ws' args' : spelt ws args -> line ws' args' -> line (ws ++ ws') (args ++ args').
