(** Model of the program with sockets that hold a bounded number of bytes: the system of System.v, where a write waits as long as the
    socket is full.  Definitions only.
    - core/src/server.rs:61-67 [write_client] is [block_on(stream.write_all(..))]: the only thread of the server does nothing else until
      the last byte is in the socket.
    - The clients' request loop (remote/src/client.rs:32-38) awaits its writes; calls only append to an unbounded queue, and reading goes
      on meanwhile.
    - Both sides read bytes whenever they like and see a line when its newline arrived ([BufReader::lines]).
    - [cap]: the bytes a socket holds, in each direction; [n] bytes go over at once, as many as the operating system likes.
    - Not represented: connections that break in the middle of a line. *)
From Coq Require Import String List Arith ZArith Bool.
From Verif Require Import Base PieceTable Coords Utf8 Diff Selection Maps StackMap Fmt Buffer View Json Proto Core Payload Menu Editor Conn Server System.
Import ListNotations.

(** line number [k] (from 0) of the bytes [x] has arrived, newline included *)
Definition arrived_line (x : text) (k : nat) (line : text) : Prop :=
  k < count_occ Nat.eq_dec x LF /\ nth_error (str_lines x) k = Some line.
Definition add_to (c n : nat) (f : nat -> nat) (d : nat) : nat := if d =? c then f d + n else f d.

Section Stream.
Variable G : Graphemes.
Variable pol : policy.
Variable u : regex_crate.
Variable se : serde.
Variable L : lua.
Variable checked : bool.
Variable session : text.
Variable cap : nat.
(** what the server is in the middle of writing (to whom, the bytes left), the bytes it put into each client's socket, those the client
    took out of it, those the client put into its own, those the server took out of that *)
Record streams := mkStreams {
  b_sys : system L;
  b_todo : list (nat * text);
  b_put : nat -> nat; b_got : nat -> nat;
  b_cput : nat -> nat; b_cgot : nat -> nat }.
Definition b_server (b : streams) : server L := sy_server L (b_sys b).
Definition b_peer (b : streams) (c : nat) : peer := sy_peer L (b_sys b) c.
(** all bytes for and from client [c] *)
Definition b_out (b : streams) (c : nat) : text := sy_out L session (b_sys b) c.
Definition b_in (b : streams) (c : nat) : text := bytes_from (co_sent (pr_conn (b_peer b c))).
Definition with_sys (y : system L) (b : streams) : streams := mkStreams y (b_todo b) (b_put b) (b_got b) (b_cput b) (b_cgot b).
(** server.rs:66 *)
Definition line_of (e : nat * written) : nat * text := (fst e, print_event (wire_written session (snd e)) ++ [LF]).
(** what a move of the server gives it to write; a notification is written to its clients in any order (the index is a hash map) *)
Definition to_write (s s' : server L) : list (nat * text) := map line_of (skipn (length (sv_log L s)) (sv_log L s')).
Definition lines_for (c : nat) (l : list (nat * text)) : list (nat * text) := filter (fun e => fst e =? c) l.

Inductive bmove :=
| BServer (m : smove) | BOrder | BLoad (c n : nat) | BRead (c : nat) | BWrite (n : nat)
| BCall (c : nat) (o : cop) | BSend (c n : nat) | BTake (c n : nat) | BReceive (c : nat).
Inductive bstep (b : streams) : bmove -> streams -> Prop :=
(** the server, when it is not writing *)
| bs_server m s todo : b_todo b = [] -> (forall c line, m <> MLine c line) -> smoves G pol u se L (b_server b) m (Ok s) ->
    (forall c, lines_for c todo = lines_for c (to_write (b_server b) s)) ->
    bstep b (BServer m) (mkStreams (mkSys L s (sy_peer L (b_sys b))) todo (b_put b) (b_got b) (b_cput b) (b_cgot b))
| bs_order k : b_todo b = [] -> shuffle (ed_core L (sv_editor L (b_server b))) k ->
    bstep b BOrder (with_sys (mkSys L (with_editor L (b_server b) (set_core L (sv_editor L (b_server b)) k)) (sy_peer L (b_sys b))) b)
| bs_load c n : b_todo b = [] -> sv_done L (b_server b) = false -> In c (sv_readers L (b_server b)) -> 0 < n -> b_cgot b c + n <= b_cput b c ->
    bstep b (BLoad c n) (mkStreams (b_sys b) (b_todo b) (b_put b) (b_got b) (b_cput b) (add_to c n (b_cgot b)))
| bs_read c line s : let p := b_peer b c in
    b_todo b = [] -> arrived_line (firstn (b_cgot b c) (b_in b c)) (pr_read p) line -> smoves G pol u se L (b_server b) (MLine c line) (Ok s) ->
    bstep b (BRead c) (with_sys (mkSys L s (put_peer c (mkPeer (pr_conn p) (S (pr_read p)) (pr_got p)) (sy_peer L (b_sys b)))) b)
(** the server, when it is writing: [n] bytes fit *)
| bs_write c x r n : b_todo b = (c, x) :: r -> 0 < n <= length x -> b_put b c + n <= b_got b c + cap ->
    bstep b (BWrite n) (mkStreams (b_sys b) (match skipn n x with [] => r | y => (c, y) :: r end) (add_to c n (b_put b)) (b_got b) (b_cput b) (b_cgot b))
(** a client: calls of its API, its request loop, reading *)
| bs_call c o n : let p := b_peer b c in
    (forall e, o <> OpEvent e) -> cstep checked (pr_conn p) o = Ok n ->
    bstep b (BCall c o) (with_sys (mkSys L (b_server b) (put_peer c (mkPeer n (pr_read p) (pr_got p)) (sy_peer L (b_sys b)))) b)
| bs_send c n : 0 < n -> b_cput b c + n <= length (b_in b c) -> b_cput b c + n <= b_cgot b c + cap ->
    bstep b (BSend c n) (mkStreams (b_sys b) (b_todo b) (b_put b) (b_got b) (add_to c n (b_cput b)) (b_cgot b))
| bs_take c n : 0 < n -> b_got b c + n <= b_put b c ->
    bstep b (BTake c n) (mkStreams (b_sys b) (b_todo b) (b_put b) (add_to c n (b_got b)) (b_cput b) (b_cgot b))
| bs_receive c line : let p := b_peer b c in
    arrived_line (firstn (b_got b c) (b_out b c)) (pr_got p) line ->
    bstep b (BReceive c) (with_sys (mkSys L (b_server b) (put_peer c (mkPeer (read_by line (pr_conn p)) (pr_read p) (S (pr_got p))) (sy_peer L (b_sys b)))) b).
Inductive bruns (b : streams) : list bmove -> streams -> Prop :=
| br_stay : bruns b [] b
| br_move ms b1 m b2 : bruns b ms b1 -> bstep b1 m b2 -> bruns b (ms ++ [m]) b2.
(** at the start nothing is in the sockets *)
Definition bstart (s : server L) : streams := mkStreams (mkSys L s (fun _ => peer0)) [] (fun _ => 0) (fun _ => 0) (fun _ => 0) (fun _ => 0).
Definition breach (ms : list bmove) (b : streams) : Prop :=
  exists w cwd args st scripts e, editor_new G pol L w session cwd args st scripts = Ok e /\ bruns (bstart (server_new L e)) ms b.
End Stream.
