(** Model of [ced FILE...] as a user meets it: the terminal client (Tui.v) is one of the clients of a server (System.v).
    core/src/bin/ced.rs (mode term): [Term::new], then [start].  Definitions only.
    - tui.rs:105-156: the tasks of the client read the server's lines, read the terminal and handle the queue; they interleave freely.
    - connection.rs:150-157, tui.rs:143-155: a line that is no message makes an error event, whose text is not determined. *)
From Coq Require Import String List Arith ZArith Bool.
From Verif Require Import Base PieceTable Coords Utf8 Diff Selection Maps StackMap Fmt Buffer View Json Proto Core Payload Menu Editor Conn Server System Tui.
Import ListNotations.

Section Terminal.
Variable G : Graphemes.
Variable pol : policy.
Variable u : regex_crate.
Variable se : serde.
Variable L : lua.
Variable sty : styles.
(** the profile the clients are built with *)
Variable checked : bool.
Variable session : text.
(** the number the server gives to the terminal *)
Variable c : nat.

Record program := mkProg { pg_sys : system L; pg_tui : tsys }.
(** the connection of the terminal is that of the client *)
Definition put_conn (n : conn) (got : nat) (y : system L) : system L :=
  mkSys L (sy_server L y) (put_peer c (mkPeer n (pr_read (sy_peer L y c)) got) (sy_peer L y)).

Inductive pstep (p : program) : list smove -> list tmove -> program -> Prop :=
(** the server or another client does something *)
| ps_system l y : ystep G pol u se L checked session (pg_sys p) l y ->
    pr_conn (sy_peer L y c) = pr_conn (sy_peer L (pg_sys p) c) -> pr_got (sy_peer L y c) = pr_got (sy_peer L (pg_sys p) c) ->
    pstep p l [] (mkProg y (pg_tui p))
(** tui.rs:117-138: a key, another size, an error of the terminal *)
| ps_input m s : (match m with MvKey _ | MvResize _ _ | MvReadError _ => True | _ => False end) -> tstep sty checked m (pg_tui p) = Ok s ->
    pstep p [] [m] (mkProg (pg_sys p) s)
(** tui.rs:158-173: an event of the queue is handled *)
| ps_handle s : tstep sty checked MvHandle (pg_tui p) = Ok s ->
    pstep p [] [MvHandle] (mkProg (put_conn (t_conn (ts_term s)) (pr_got (sy_peer L (pg_sys p) c)) (pg_sys p)) s)
(** tui.rs:140-156: the next line of the server *)
| ps_receive line m s : nth_error (str_lines (sy_out L session (pg_sys p) c)) (pr_got (sy_peer L (pg_sys p) c)) = Some line ->
    (match parse_event line with Some e => m = MvMessage e | None => exists msg, m = MvConnError msg end) -> tstep sty checked m (pg_tui p) = Ok s ->
    pstep p [] [m] (mkProg (put_conn (t_conn (ts_term s)) (S (pr_got (sy_peer L (pg_sys p) c))) (pg_sys p)) s).

(** the start: a new server, no other client has asked for anything, the terminal has asked for its files (tui.rs:90-103).
    What can be reached: what the server did, what the terminal did. *)
Inductive preach (size : Z * Z) (files : list text) (new : editor L -> Prop) : list smove -> list tmove -> program -> Prop :=
| pr_start e t : new e -> term_new checked size files = Ok t ->
    preach size files new [] [] (mkProg (mkSys L (server_new L e) (put_peer c (mkPeer (t_conn t) 0 0) (fun _ => peer0))) (mkTS t []))
| pr_step ms tms p l k p' : preach size files new ms tms p -> pstep p l k p' -> preach size files new (ms ++ l) (tms ++ k) p'.
End Terminal.
(** mod.rs:101-152: an editor that has just been started *)
Definition started (G : Graphemes) (pol : policy) (L : lua) (session : text) (e : editor L) : Prop :=
  exists w cwd args st scripts, editor_new G pol L w session cwd args st scripts = Ok e.
