(** Model of the program as a whole: one server (Server.v) and any number of clients that use the API of the connection (Conn.v),
    each over a stream of bytes.  Definitions only.
    - A client is known by the number the server gives it, also before it is accepted.
    - What a client writes are the requests it made (client.rs:32-38), what the server writes to it are the lines of server.rs:61-67;
      either side reads complete lines, in order, some time later.
    - Not represented: a line cut short because a process was killed while writing it; a connection that breaks (writes that fail are:
      [MDeliver]). *)
From Coq Require Import String List Arith ZArith Bool.
From Verif Require Import Base PieceTable Coords Utf8 Diff Selection Maps StackMap Fmt Buffer View Json Proto Core Payload Menu Editor Conn Server.
Import ListNotations.

(** core.rs:48-77, command.rs:27, mod.rs:58-90 and 321: notifications as they are written; the session's name is the editor's *)
Definition wire_enotif (session : text) (n : enotif) : notification :=
  match n with
  | OCore n => wire_notif session n
  | OMenu m => new_notification (str "menu") (Some (enc_menu_info m))
  | OStatus l => new_notification (str "status") (Some (enc_status l))
  | OHint l => new_notification (str "hint") (Some (enc_hint l))
  end.
Definition wire_written (session : text) (x : written) : event :=
  match x with WAnswer r => EvResponse r | WNotif n => EvNotification (wire_enotif session n) end.
(** server.rs:61-67 [write_client]: what was written to client [c] *)
Definition written_to (session : text) (log : list (nat * written)) (c : nat) : list event :=
  flat_map (fun x => if fst x =? c then [wire_written session (snd x)] else []) log.
Definition bytes_to (session : text) (log : list (nat * written)) (c : nat) : text :=
  flat_map (fun e => print_event e ++ [LF]) (written_to session log c).
(** client.rs:32-38: what a client wrote *)
Definition bytes_from (q : list request) : text := flat_map (fun r => print_request r ++ [LF]) q.

(** a client: its connection, how many of its lines the server has read, how many lines of the server it has read *)
Record peer := mkPeer { pr_conn : conn; pr_read : nat; pr_got : nat }.
Definition peer0 : peer := mkPeer conn0 0 0.
Definition put_peer (c : nat) (p : peer) (f : nat -> peer) (d : nat) : peer := if d =? c then p else f d.
(** connection.rs:150-157, client.rs:39-48: a line read by the client; what is no message only makes an error event *)
Definition read_by (line : text) (c : conn) : conn :=
  match parse_event line with
  | Some e => mkConn (fst (event_update (co_state c) e)) (co_next c) (co_sent c)
  | None => c
  end.

Section System.
Variable G : Graphemes.
Variable pol : policy.
Variable u : regex_crate.
Variable se : serde.
Variable L : lua.
(** the profile the clients are built with *)
Variable checked : bool.
Variable session : text.
Record system := mkSys { sy_server : server L; sy_peer : nat -> peer }.
Definition sy_out (y : system) (c : nat) : text := bytes_to session (sv_log L (sy_server y)) c.

Inductive ystep (y : system) : list smove -> system -> Prop :=
(** the server does something else than reading a line *)
| ys_server m s : (forall c line, m <> MLine c line) -> smoves G pol u se L (sy_server y) m (Ok s) -> ystep y [m] (mkSys s (sy_peer y))
| ys_order k : shuffle (ed_core L (sv_editor L (sy_server y))) k ->
    ystep y [] (mkSys (with_editor L (sy_server y) (set_core L (sv_editor L (sy_server y)) k)) (sy_peer y))
(** the server reads the next line of a client *)
| ys_read c line s : let p := sy_peer y c in
    nth_error (str_lines (bytes_from (co_sent (pr_conn p)))) (pr_read p) = Some line -> smoves G pol u se L (sy_server y) (MLine c line) (Ok s) ->
    ystep y [MLine c line] (mkSys s (put_peer c (mkPeer (pr_conn p) (S (pr_read p)) (pr_got p)) (sy_peer y)))
(** the user of a client calls its API *)
| ys_call c o n : let p := sy_peer y c in
    (forall e, o <> OpEvent e) -> cstep checked (pr_conn p) o = Ok n ->
    ystep y [] (mkSys (sy_server y) (put_peer c (mkPeer n (pr_read p) (pr_got p)) (sy_peer y)))
(** a client reads the next line of the server *)
| ys_receive c line : let p := sy_peer y c in
    nth_error (str_lines (sy_out y c)) (pr_got p) = Some line ->
    ystep y [] (mkSys (sy_server y) (put_peer c (mkPeer (read_by line (pr_conn p)) (pr_read p) (S (pr_got p))) (sy_peer y))).
(** what can be reached, and what the server did on the way *)
Inductive yreach : list smove -> system -> Prop :=
| yr_start w cwd args st scripts e : editor_new G pol L w session cwd args st scripts = Ok e -> yreach [] (mkSys (server_new L e) (fun _ => peer0))
| yr_step ms y l y' : yreach ms y -> ystep y l y' -> yreach (ms ++ l) y'.
End System.
