(** Model of core/src/clients.rs:49-90 ([StdioClient], the mode json) and remote/src/client.rs:20-55 ([Client]): a process that
    relays requests from its standard input to a server, and messages of the server to its standard output.  What arrives, and
    which operation fails, is chosen by the environment.  Definitions only. *)
From Coq Require Import String List Arith ZArith Bool.
From Verif Require Import Base Maps Utf8 Json Proto.
Import ListNotations.

(** how it ended: clients.rs:81 and 85 return an error, 83 ends the loop, client.rs:43 panics *)
Inductive rend := RRunning | RDone | RIoError | RPanicked.
Record relay := mkRl {
  (** client.rs:21: an unbounded channel *)
  rl_queue : list request;
  rl_connected : bool;
  (** what was written to the server, to standard output *)
  rl_written : text;
  rl_stdout : text;
  rl_end : rend }.
Definition relay0 : relay := mkRl [] false [] [] RRunning.
Inductive rmove :=
(** a line of standard input; [None]: not UTF-8, or an error *)
| RRead (line : option text)
| RConnect (ok : bool)
(** the oldest request is written; [Some n]: an error after [n] bytes *)
| RWrite (cut : option nat)
(** a line from the server; [ok]: standard output accepts the message *)
| RLine (line : option text) (ok : bool)
(** the end of the server's stream *)
| RClose.
Definition put_queue (q : list request) (s : relay) : relay := mkRl q (rl_connected s) (rl_written s) (rl_stdout s) (rl_end s).
Definition put_end (x : rend) (s : relay) : relay := mkRl (rl_queue s) (rl_connected s) (rl_written s) (rl_stdout s) x.
Definition put_stdout (x : text) (s : relay) : relay := mkRl (rl_queue s) (rl_connected s) (rl_written s) (rl_stdout s ++ x) (rl_end s).
(** client.rs:33-37 *)
Definition request_line (q : request) : text := print_request q ++ [LF].
Inductive rmoves (s : relay) : rmove -> relay -> Prop :=
(** clients.rs:69-77: the task is started before the connection is made *)
| rm_read l : rl_end s = RRunning ->
    rmoves s (RRead (Some l)) (match parse_request l with Some q => put_queue (rl_queue s ++ [q]) s | None => s end)
| rm_unread : rl_end s = RRunning -> rmoves s (RRead None) s
(** clients.rs:81 *)
| rm_connect : rl_end s = RRunning -> rl_connected s = false -> rmoves s (RConnect true) (mkRl (rl_queue s) true (rl_written s) (rl_stdout s) RRunning)
| rm_unconnect : rl_end s = RRunning -> rl_connected s = false -> rmoves s (RConnect false) (put_end RIoError s)
(** client.rs:32-38: errors are ignored *)
| rm_write q r cut : rl_end s = RRunning -> rl_connected s = true -> rl_queue s = q :: r ->
    rmoves s (RWrite cut) (mkRl r true (rl_written s ++ match cut with None => request_line q | Some n => firstn n (request_line q) end) (rl_stdout s) RRunning)
(** clients.rs:83-88 *)
| rm_line l ok : rl_end s = RRunning -> rl_connected s = true ->
    rmoves s (RLine (Some l) ok)
      (match parse_event l with Some e => if ok then put_stdout (print_event e) s else put_end RIoError s | None => s end)
(** client.rs:43 *)
| rm_panic ok : rl_end s = RRunning -> rl_connected s = true -> rmoves s (RLine None ok) (put_end RPanicked s)
(** clients.rs:89 *)
| rm_close : rl_end s = RRunning -> rl_connected s = true -> rmoves s RClose (put_end RDone s).
Inductive rruns (s : relay) : list rmove -> relay -> Prop :=
| ru_stay : rruns s [] s
| ru_move ms s1 m s2 : rruns s ms s1 -> rmoves s1 m s2 -> rruns s (ms ++ [m]) s2.
