(** Model of where the processes of Daemon.v run, and of which files the FILEs of a command line are: remote/src/lib.rs:42-62 (the command
    that starts a server sets no directory, so the server runs in the directory of the process that starts it, which waits in
    [ensure_session] or is [ced --mode=server], [--mode=daemon] itself), core/src/bin/ced.rs:105-118, core/src/editor/core.rs:162 (the
    editor takes the directory of its process), core/src/tui.rs:97-99 (a client sends FILEs as they were typed).
    Simplified: no process changes its directory (none does, there is no call of [set_current_dir] in /repo), a directory is the text
    of its absolute path, [current_dir] succeeds.  Definitions only. *)
From Coq Require Import List Arith.
From Verif Require Import Base Maps Daemon.
Import ListNotations.

(** the machine, the directories of its servers and of its clients *)
Record placed := mkPlaced { pl_machine : machine; pl_server : nat -> option text; pl_client : nat -> option text }.
Definition placed0 : placed := mkPlaced machine0 (fun _ => None) (fun _ => None).
(** [dir] is the directory in which the command of the move was given, of no effect for moves of running processes *)
Definition settle (s : placed) (m : dmove) (dir : text) (s' : machine) : placed :=
  match m with
  | Start c n i => mkPlaced s' (match m_sock (pl_machine s) n with Some _ => pl_server s | None => put (pl_server s) i dir end) (put (pl_client s) c dir)
  | Serve i n => mkPlaced s' (put (pl_server s) i dir) (pl_client s)
  | _ => mkPlaced s' (pl_server s) (pl_client s)
  end.
Inductive pmoves (s : placed) : dmove -> text -> placed -> Prop :=
| pm_move m dir s' : dmoves (pl_machine s) m s' -> pmoves s m dir (settle s m dir s').
(** a run: the moves, each with its directory *)
Inductive pruns (s : placed) : list (dmove * text) -> placed -> Prop :=
| pu_stay : pruns s [] s
| pu_move ms s1 m dir s2 : pruns s ms s1 -> pmoves s1 m dir s2 -> pruns s (ms ++ [(m, dir)]) s2.
