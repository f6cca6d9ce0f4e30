(** Model of how the bytes of a connection become lines, and of what is done with them: futures_lite::io::{BufReader, Lines} (transcribed: bytes
    are collected until a line feed or the end; what was collected must be UTF-8 as a whole; the line feed and one carriage return before
    it are dropped), core/src/server.rs:141-164 [read_client], remote/src/client.rs:42-47 [parse_line], remote/src/connection.rs:146-163.
    The bytes of TCP and of Unix sockets arrive in order, in pieces of any size (remote/src/transport/server_stream.rs hands them
    through).  Simplified: reading is never interrupted without end ([ErrorKind::Interrupted] is retried by the library).
    Definitions only. *)
From Coq Require Import String List Arith Bool.
From Verif Require Import Base PieceTable Utf8 Json Proto Conn Server.
Import ListNotations.

(** [core::str::from_utf8] is no error *)
Fixpoint utf8_fuel (fuel : nat) (s : text) : bool :=
  match s with
  | [] => true
  | _ => match fuel with 0 => false | S f => let '(n, ok) := utf8_step s in ok && utf8_fuel f (skipn n s) end
  end.
Definition is_utf8 (s : text) : bool := utf8_fuel (length s) s.

(** what [Lines] yields: a line, or an error *)
Inductive item := Line (l : text) | Bad.
(** the end of line is dropped *)
Definition chop (raw : text) : text :=
  match rev raw with
  | 10 :: 13 :: r => rev r
  | 10 :: r => rev r
  | _ => raw
  end.
Definition finish (raw : text) : item := if is_utf8 raw then Line (chop raw) else Bad.
(** the bytes of one piece, after the [pending] ones: the lines they complete, what is pending afterwards *)
Fixpoint over (pending bytes : text) : list item * text :=
  match bytes with
  | [] => ([], pending)
  | b :: r => if b =? LF then let '(l, p) := over [] r in (finish (pending ++ [LF]) :: l, p) else over (pending ++ [b]) r
  end.
(** what reading the connection gives *)
Inductive arrival :=
| Piece (bytes : text)
(** the other side closed it *)
| Closed
(** it was reset *)
| Reset.
Fixpoint items_from (pending : text) (arr : list arrival) : list item :=
  match arr with
  | [] => []
  | Piece bytes :: r => let '(l, p) := over pending bytes in l ++ items_from p r
  | Closed :: _ => match pending with [] => [] | _ => [finish pending] end
  | Reset :: _ => [Bad]
  end.
Definition items (arr : list arrival) : list item := items_from [] arr.
Fixpoint ends (arr : list arrival) : bool := match arr with [] => false | Piece _ :: r => ends r | _ => true end.

(** server.rs:146-162: the messages of a client; the first error and the end make it leave *)
Fixpoint served (c : nat) (l : list item) (ended : bool) : list smove :=
  match l with
  | Line x :: r => MLine c x :: served c r ended
  | Bad :: _ => [MEnd c]
  | [] => if ended then [MEnd c] else []
  end.
Definition read_client (c : nat) (arr : list arrival) : list smove := served c (items arr) (ends arr).

(** client.rs:42-46, connection.rs:152-162: what a client makes of the lines of its server: a message updates the state,
    a line that is none becomes an error, an error of the connection panics *)
Inductive taken := Took (e : event) | Refused (line : text).
Fixpoint client_reads (l : list item) : list taken * bool :=
  match l with
  | [] => ([], false)
  | Line x :: r => let '(t, panics) := client_reads r in (match parse_event x with Some e => Took e | None => Refused x end :: t, panics)
  | Bad :: _ => ([], true)
  end.
