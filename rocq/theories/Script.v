(** Model of core/src/script.rs (running scripts without a server).  Definitions only. *)
From Coq Require Import String List Arith ZArith Bool.
From Verif Require Import Base PieceTable Coords Utf8 Diff Selection Maps StackMap Fmt Buffer View Json Proto Keys Core Payload Menu Editor.
Import ListNotations.

(** what can be read: the contents of the files that exist and are UTF-8, and what the standard input holds ([None]: not
    UTF-8) *)
Record sources := mkSrc { src_file : text -> option text; src_stdin : option text }.
(** how a run of scripts ends *)
Inductive run_end := RunOk | RunIo (name : text) | RunLua (name err : text).

Section Script.
Variable G : Graphemes.
Variable pol : policy.
Variable L : lua.

(** script.rs:9 *)
Definition CLIENT_ID : nat := 1.
(** script.rs:18-25: reading the standard input takes all of it; a second time there is nothing left.  After an input that is
    not UTF-8 the program ends. *)
Definition read_source (fname : text) (s : sources) : option text * sources :=
  if eqb fname (str "-") then (src_stdin s, mkSrc (src_file s) (Some [])) else (src_file s fname, s).
(** script.rs:17-32: the loop *)
Fixpoint exec_each (w : world) (names : list text) (s : sources) (e : editor L) : res (run_end * editor L) :=
  match names with
  | [] => Ok (RunOk, e)
  | fname :: names =>
      let '(source, s) := read_source fname s in
      match source with
      | None => Ok (RunIo fname, e)
      | Some source =>
          '(r, e) <- exec_lua G pol L w fname CLIENT_ID (lu_exec L source) e ;;
          match r with
          | Some x => Ok (RunLua fname x, e)
          | None => exec_each w names s e
          end
      end
  end.
(** script.rs:11-36 [exec_scripts]; the editor is dropped at the end, and is kept here to say what it was *)
Definition exec_scripts (w : world) (cwd args : text) (s0 : lu_state L) (scripts : script (lu_state L)) (names : list text) (s : sources) : res (run_end * editor L) :=
  e <- editor_new G pol L w [] cwd args s0 scripts ;;
  e <- editor_add_client G pol L w CLIENT_ID e ;;
  '(r, e) <- exec_each w names s e ;;
  match r with
  | RunOk => e <- editor_remove_client G pol L w CLIENT_ID e ;; Ok (RunOk, e)
  | _ => Ok (r, e)
  end.
(** script.rs:52-68 [exec_script_oneshot] *)
Definition exec_script_oneshot (w : world) (cwd args : text) (s0 : lu_state L) (scripts : script (lu_state L)) (path : text) (s : sources) : res (run_end * editor L) :=
  e <- editor_new G pol L w [] cwd args s0 scripts ;;
  e <- editor_add_client G pol L w CLIENT_ID e ;;
  match src_file s path with
  | None => Ok (RunIo path, e)
  | Some source =>
      '(r, e) <- exec_lua G pol L w path CLIENT_ID (lu_exec L source) e ;;
      match r with
      | Some x => Ok (RunLua path x, e)
      | None => e <- editor_remove_client G pol L w CLIENT_ID e ;; Ok (RunOk, e)
      end
  end.
End Script.
