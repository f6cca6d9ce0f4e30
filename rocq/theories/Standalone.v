(** Model of core/src/clients.rs:13-46: the editor without a server.  Definitions only. *)
From Coq Require Import String List Arith ZArith Bool.
From Verif Require Import Base PieceTable Coords Utf8 Diff Selection Maps StackMap Fmt Buffer View Json Proto Core Payload Menu Editor.
Import ListNotations.

Section Standalone.
Variable G : Graphemes.
Variable pol : policy.
Variable u : regex_crate.
Variable se : serde.
Variable L : lua.
(** clients.rs:11 *)
Definition standalone_client : nat := 1.
(** clients.rs:14: the queue of notifications holds this many; [Notifier::broadcast] (core.rs:32-38) waits for room *)
Definition queue_room : nat := 100.
(** no notification had to wait *)
Definition has_room (e : editor L) : bool := length (ed_out L e) <=? queue_room.
(** clients.rs:18-26: opening the files.  Nobody takes notifications from the queue yet (that starts at clients.rs:27), so one
    that does not fit waits for ever: [Ok None].  Simplified: that is decided after each command, so a command that would panic
    after filling the queue panics here. *)
Fixpoint open_files (w : world) (files : list text) (e : editor L) : res (option (editor L)) :=
  if negb (has_room e) then Ok None
  else match files with
       | [] => Ok (Some e)
       | f :: r => '(_, e) <- command_edit G pol L w standalone_client (mkEdit f false) e ;; open_files w r e
       end.
(** clients.rs:13-26: until standard input is read; the session has no name *)
Definition start_standalone (w : world) (cwd args : text) (s : lu_state L) (scripts : script (lu_state L)) (files : list text) : res (option (editor L)) :=
  e <- editor_new G pol L w [] cwd args s scripts ;;
  if negb (has_room e) then Ok None
  else e <- editor_add_client G pol L w standalone_client e ;; open_files w files e.
(** clients.rs:27-43: the answers to the lines read; from now on the notifications are printed by another thread *)
Fixpoint standalone_lines (w : nat -> world) (lines : list text) (e : editor L) : res (list response * editor L) :=
  match lines with
  | [] => e <- editor_remove_client G pol L (w 0) standalone_client e ;; Ok ([], e)
  | x :: r =>
      '(a, e) <- handle G pol u se L (w 0) standalone_client x e ;;
      '(l, e) <- standalone_lines (fun n => w (S n)) r e ;;
      Ok (a :: l, e)
  end.
End Standalone.
