(** Model of how clients and servers of a machine find each other: remote/src/lib.rs:42-91 ([start_daemon], [ensure_session]),
    core/src/server.rs:166-216 ([serve], [run]), remote/src/transport/socket.rs:14-22 ([bind]), remote/src/client.rs:26-30 (the
    connection), core/src/bin/ced.rs:84-118.  One user, on Unix, sessions named by ordinary file names (others: C48).  A step is one
    access of a process to the directory of the sockets, so the steps of different processes interleave freely.  What servers do
    with their clients is Server.v; here a server only registers connections and stops when the last registered client leaves
    (C42).  Simplified: spawning the program succeeds, the directory can be created, a client that was accepted does not leave before
    it is registered.  Definitions only. *)
From Coq Require Import List Arith Bool Permutation.
From Verif Require Import Base Maps.
Import ListNotations.

(** a server process *)
Inductive sphase :=
| Starting
(** socket.rs:16-19: the directory exists *)
| Rooted
(** socket.rs:20: the socket exists; [UnixListener::bind] binds, then listens *)
| Bound
(** server.rs:174: connections are accepted; the empty line was written to standard output *)
| Listening
(** server.rs:203: the loop of events ended: the last client left, or [bind] failed, which drops the only sender of events *)
| Closing
(** server.rs:207: the socket was removed *)
| Cleaning
| Dead.
(** a client process *)
Inductive cphase :=
(** lib.rs:63-79: it started this server and waits for an empty line or the end of its output *)
| CWaiting (i : nat)
| CConnecting
(** client.rs:29: connected to this server, not registered by it yet *)
| CConnected (i : nat)
| CJoined (i : nat)
| CLeft
(** client.rs:29: no connection: connection.rs:151 panics, clients.rs:81 returns the error *)
| CFailed
(** the server ended *)
| CCut.
(** the directory of the sockets, whose sockets they are, the processes *)
Record machine := mkM { m_dir : bool; m_socks : amap text nat; m_servers : nat -> option (text * sphase); m_clients : nat -> option (text * cphase) }.
Definition m_sock (s : machine) (n : text) : option nat := get (m_socks s) n.
Definition machine0 : machine := mkM false [] (fun _ => None) (fun _ => None).

Definition put {A} (f : nat -> option A) (i : nat) (x : A) : nat -> option A := fun j => if j =? i then Some x else f j.
Definition sock_put (f : amap text nat) (n : text) (x : option nat) : amap text nat := match x with Some i => set f n i | None => del f n end.
Definition set_server (i : nat) (n : text) (p : sphase) (s : machine) : machine := mkM (m_dir s) (m_socks s) (put (m_servers s) i (n, p)) (m_clients s).
Definition set_client (c : nat) (n : text) (p : cphase) (s : machine) : machine := mkM (m_dir s) (m_socks s) (m_servers s) (put (m_clients s) c (n, p)).
Definition set_sock (n : text) (o : option nat) (s : machine) : machine := mkM (m_dir s) (sock_put (m_socks s) n o) (m_servers s) (m_clients s).
Definition set_dir (d : bool) (s : machine) : machine := mkM d (m_socks s) (m_servers s) (m_clients s).
(** the end of a process closes its connections *)
Definition cut (i : nat) (p : cphase) : cphase :=
  match p with
  | CConnected j | CJoined j => if j =? i then CCut else p
  | _ => p
  end.
Definition ended (i : nat) (n : text) (s : machine) : machine :=
  mkM (m_dir s) (m_socks s) (put (m_servers s) i (n, Dead)) (fun c => match m_clients s c with Some (m, p) => Some (m, cut i p) | None => None end).

Inductive dmove :=
(** a client of session [n]; it may start server [i] *)
| Start (c : nat) (n : text) (i : nat)
(** [ced --mode=server] or [--mode=daemon] *)
| Serve (i : nat) (n : text)
(** a server process, or a client that is starting, goes on *)
| Server (i : nat)
| Client (c : nat)
(** the server registers the client, takes notice that it left *)
| Join (c : nat)
| Leave (c : nat)
(** a panic, a signal *)
| Crash (i : nat).
Inductive dmoves (s : machine) : dmove -> machine -> Prop :=
(** lib.rs:84-91 [ensure_session] *)
| dm_start_there c n i j : m_clients s c = None -> m_sock s n = Some j -> dmoves s (Start c n i) (set_client c n CConnecting s)
| dm_start c n i : m_clients s c = None -> m_sock s n = None -> m_servers s i = None ->
    dmoves s (Start c n i) (set_client c n (CWaiting i) (set_server i n Starting s))
| dm_serve i n : m_servers s i = None -> dmoves s (Serve i n) (set_server i n Starting s)
(** socket.rs:15-18 *)
| dm_root i n : m_servers s i = Some (n, Starting) -> dmoves s (Server i) (set_dir true (set_server i n Rooted s))
(** socket.rs:19 *)
| dm_bind i n : m_servers s i = Some (n, Rooted) -> m_dir s = true -> m_sock s n = None -> dmoves s (Server i) (set_sock n (Some i) (set_server i n Bound s))
(** server.rs:172, 203: the error ends the task, nobody can send events any more *)
| dm_bind_error i n : m_servers s i = Some (n, Rooted) -> m_dir s = false \/ m_sock s n <> None -> dmoves s (Server i) (set_server i n Closing s)
| dm_listen i n : m_servers s i = Some (n, Bound) -> dmoves s (Server i) (set_server i n Listening s)
(** server.rs:205-207 *)
| dm_remove i n j : m_servers s i = Some (n, Closing) -> m_sock s n = Some j -> dmoves s (Server i) (set_sock n None (set_server i n Cleaning s))
| dm_remove_error i n : m_servers s i = Some (n, Closing) -> m_sock s n = None -> dmoves s (Server i) (ended i n s)
(** server.rs:208-211 *)
| dm_clean i n : m_servers s i = Some (n, Cleaning) -> m_socks s = [] -> dmoves s (Server i) (set_dir false (ended i n s))
| dm_clean_not i n : m_servers s i = Some (n, Cleaning) -> m_socks s <> [] -> dmoves s (Server i) (ended i n s)
(** lib.rs:63-79 *)
| dm_ready c n i m p : m_clients s c = Some (n, CWaiting i) -> m_servers s i = Some (m, p) -> p = Listening \/ p = Dead -> dmoves s (Client c) (set_client c n CConnecting s)
(** client.rs:29: a server that is closing does not accept any more, but the system still connects *)
| dm_connect c n i m p : m_clients s c = Some (n, CConnecting) -> m_sock s n = Some i -> m_servers s i = Some (m, p) -> p = Listening \/ p = Closing ->
    dmoves s (Client c) (set_client c n (CConnected i) s)
| dm_connect_none c n : m_clients s c = Some (n, CConnecting) -> m_sock s n = None -> dmoves s (Client c) (set_client c n CFailed s)
| dm_connect_error c n i m p : m_clients s c = Some (n, CConnecting) -> m_sock s n = Some i -> m_servers s i = Some (m, p) -> p <> Listening -> p <> Closing ->
    dmoves s (Client c) (set_client c n CFailed s)
(** server.rs:178-190, 97-106 *)
| dm_join c n i : m_clients s c = Some (n, CConnected i) -> m_servers s i = Some (n, Listening) -> dmoves s (Join c) (set_client c n (CJoined i) s)
(** server.rs:107-117, 132-134 *)
| dm_leave c n i : m_clients s c = Some (n, CJoined i) -> m_servers s i = Some (n, Listening) -> (exists d m, d <> c /\ m_clients s d = Some (m, CJoined i)) ->
    dmoves s (Leave c) (set_client c n CLeft s)
| dm_leave_last c n i : m_clients s c = Some (n, CJoined i) -> m_servers s i = Some (n, Listening) -> (forall d m, m_clients s d = Some (m, CJoined i) -> d = c) ->
    dmoves s (Leave c) (set_client c n CLeft (set_server i n Closing s))
| dm_crash i n p : m_servers s i = Some (n, p) -> p <> Dead -> dmoves s (Crash i) (ended i n s).
Inductive druns (s : machine) : list dmove -> machine -> Prop :=
| du_stay : druns s [] s
| du_move ms s1 m s2 : druns s ms s1 -> dmoves s1 m s2 -> druns s (ms ++ [m]) s2.

(** session.rs:92-104 [Session::list], ced.rs:73-77 ([ced -l]): the names of the sockets in the order the system gives them, nothing if the
    directory does not exist.  Simplified: the directory is read at once; sessions with an address (@host:port) have no socket. *)
Definition lists (s : machine) (l : list text) : Prop := if m_dir s then Permutation l (keys (m_socks s)) else l = [].
