(** Model of core/src/clients.rs:27-46: standalone mode while it runs.  Definitions only.
    - Two threads: the one that reads standard input, and the one that prints the notifications.  [println!] holds the lock of
      standard output while it prints one line, so printed lines do not mix; a failure to write is not represented.
    - The end of the process stops the printing thread wherever it is.
    - [Notifier::broadcast] (core.rs:32-38) waits while the queue is full.  Simplified: a call is one step, and waits at its end
      until at most [queue_room] notifications are left to print. *)
From Coq Require Import String List Arith ZArith Bool.
From Verif Require Import Base PieceTable Coords Utf8 Diff Selection Maps StackMap Fmt Buffer View Json Proto Core CoreSpec Payload Menu Editor Server Standalone.
Import ListNotations.

Section Loop.
Variable G : Graphemes.
Variable pol : policy.
Variable u : regex_crate.
Variable se : serde.
Variable L : lua.

Record loop := mkLp {
  lp_editor : editor L;
  (** what is still to be read: lines; [None] is one that is not UTF-8 *)
  lp_input : list (option text);
  (** clients.rs:39: an answer that is not printed yet *)
  lp_pending : option response;
  (** how many of the notifications were taken from the queue, clients.rs:28 *)
  lp_taken : nat;
  (** what was printed, oldest first *)
  lp_printed : list written;
  (** clients.rs:45 was done *)
  lp_left : bool;
  (** the process ended *)
  lp_exited : bool }.
(** clients.rs:27: the files were opened *)
Definition loop_new (e : editor L) (input : list (option text)) : loop := mkLp e input None 0 [] false false.
Definition fits (s : loop) : Prop := length (ed_out L (lp_editor s)) <= lp_taken s + queue_room.

Inductive lstep (s : loop) : loop -> Prop :=
(** clients.rs:38: hash maps may have changed their order before *)
| ls_line w k x r a e : lp_left s = false -> lp_pending s = None -> lp_input s = Some x :: r -> shuffle (ed_core L (lp_editor s)) k ->
    handle G pol u se L w standalone_client x (set_core L (lp_editor s) k) = Ok (a, e) ->
    lstep s (mkLp e r (Some a) (lp_taken s) (lp_printed s) false false)
(** clients.rs:42 *)
| ls_garbage r : lp_left s = false -> lp_pending s = None -> lp_input s = None :: r ->
    lstep s (mkLp (lp_editor s) r None (lp_taken s) (lp_printed s) false false)
(** clients.rs:39 *)
| ls_answer a : lp_left s = false -> lp_pending s = Some a -> fits s ->
    lstep s (mkLp (lp_editor s) (lp_input s) None (lp_taken s) (lp_printed s ++ [WAnswer a]) false false)
(** clients.rs:28-32 *)
| ls_notification x : lp_exited s = false -> nth_error (ed_out L (lp_editor s)) (lp_taken s) = Some x ->
    lstep s (mkLp (lp_editor s) (lp_input s) (lp_pending s) (S (lp_taken s))
      (lp_printed s ++ (if should_notify (o_to x) standalone_client then [WNotif (o_what x)] else [])) (lp_left s) false)
(** clients.rs:36: the input ends, 45 *)
| ls_end w k e : lp_left s = false -> lp_pending s = None -> lp_input s = [] -> shuffle (ed_core L (lp_editor s)) k ->
    editor_remove_client G pol L w standalone_client (set_core L (lp_editor s) k) = Ok e ->
    lstep s (mkLp e [] None (lp_taken s) (lp_printed s) true false)
(** clients.rs:46 *)
| ls_exit : lp_left s = true -> lp_exited s = false -> fits s ->
    lstep s (mkLp (lp_editor s) (lp_input s) (lp_pending s) (lp_taken s) (lp_printed s) true true).
Inductive lruns (s : loop) : loop -> Prop :=
| lr_stay : lruns s s
| lr_step s1 s2 : lruns s s1 -> lstep s1 s2 -> lruns s s2.
End Loop.
