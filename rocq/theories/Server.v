(** Model of core/src/server.rs: accepting connections, the queue of events, the queue of notifications, the index of streams.
    Definitions only.
    - Everything runs on one thread; tasks interleave where they wait for a channel or for the network (the [await]s).  A step
      below is what one task does between two such points.
    - A stream is known by the number of its client; a write that fails is decided by the environment.  A write that blocks for
      ever (a client that does not read) is not represented.
    - Client numbers are [usize]; the model does not wrap at 2^64 connections.
    - Which client of the index is written first does not matter: every stream is written once per notification. *)
From Coq Require Import String List Arith ZArith Bool.
From Verif Require Import Base PieceTable Coords Utf8 Diff Selection Maps StackMap Fmt Buffer View Json Proto Core Payload Menu Editor.
Import ListNotations.

(** server.rs:35-40 [should_notify] *)
Definition should_notify (to : option (list nat)) (c : nat) : bool :=
  match to with Some cs => existsb (Nat.eqb c) cs | None => true end.
(** server.rs:43 *)
Definition first_client_id : nat := 1.
(** server.rs:45-50 [enum Event] *)
Inductive sevent := VJoin (c : nat) | VLeave (c : nat) | VMessage (c : nat) (line : text).
(** what is written to the clients: server.rs:61-67 *)
Inductive written := WAnswer (r : response) | WNotif (n : enotif).

Section Server.
Variable G : Graphemes.
Variable pol : policy.
Variable u : regex_crate.
Variable se : serde.
Variable L : lua.

Record server := mkSv {
  sv_editor : editor L;
  (** the index of streams, server.rs:72 *)
  sv_index : list nat;
  (** the queue of events *)
  sv_events : list sevent;
  (** the connections being read, server.rs:141-164 *)
  sv_readers : list nat;
  (** server.rs:171 [next_client_id] *)
  sv_next : nat;
  (** how many of the notifications broadcast so far were taken from their queue *)
  sv_taken : nat;
  (** everything written so far, oldest first *)
  sv_log : list (nat * written);
  (** the event loop ended *)
  sv_done : bool }.

Definition with_editor (s : server) (e : editor L) : server :=
  mkSv e (sv_index s) (sv_events s) (sv_readers s) (sv_next s) (sv_taken s) (sv_log s) (sv_done s).
(** server.rs:69-72, 171: before the first connection *)
Definition server_new (e : editor L) : server := mkSv e [] [] [] first_client_id 0 [] false.

(** [HashMap::insert], [HashMap::remove] *)
Definition index_insert (c : nat) (l : list nat) : list nat := if existsb (Nat.eqb c) l then l else l ++ [c].
Definition index_remove (c : nat) (l : list nat) : res (list nat) :=
  if existsb (Nat.eqb c) l then Ok (List.filter (fun d => negb (c =? d)) l) else Panic "remove client from index".

(** server.rs:178-190: a connection was accepted *)
Definition accept (s : server) : server :=
  mkSv (sv_editor s) (sv_index s) (sv_events s ++ [VJoin (sv_next s)]) (sv_readers s ++ [sv_next s]) (S (sv_next s)) (sv_taken s) (sv_log s) (sv_done s).
(** server.rs:147-157: a line was read *)
Definition read_line (c : nat) (line : text) (s : server) : server :=
  mkSv (sv_editor s) (sv_index s) (sv_events s ++ [VMessage c line]) (sv_readers s) (sv_next s) (sv_taken s) (sv_log s) (sv_done s).
(** server.rs:158-163: the connection ended, or sent something that is not UTF-8 *)
Definition read_end (c : nat) (s : server) : server :=
  mkSv (sv_editor s) (sv_index s) (sv_events s ++ [VLeave c]) (List.filter (fun d => negb (c =? d)) (sv_readers s)) (sv_next s) (sv_taken s) (sv_log s) (sv_done s).
(** server.rs:78-89: a notification is taken from its queue; the streams of [broken] clients fail, which is only logged *)
Definition deliver (broken : nat -> bool) (x : esent) (s : server) : server :=
  mkSv (sv_editor s) (sv_index s) (sv_events s) (sv_readers s) (sv_next s) (S (sv_taken s))
    (sv_log s ++ map (fun c => (c, WNotif (o_what x))) (List.filter (fun c => should_notify (o_to x) c && negb (broken c)) (sv_index s))) (sv_done s).

(** server.rs:124-131 *)
Fixpoint remove_all (cs : list nat) (l : list nat) : res (list nat) :=
  match cs with
  | [] => Ok l
  | c :: r => l <- index_remove c l ;; remove_all r l
  end.
(** server.rs:93-123: one event; [broken]: the write of the answer fails *)
Definition on_event (w : world) (broken : nat -> bool) (v : sevent) (s : server) : res (editor L * list nat * list (nat * written)) :=
  match v with
  | VJoin c =>
      let l := index_insert c (sv_index s) in
      e <- editor_add_client G pol L w c (sv_editor s) ;;
      Ok (e, l, sv_log s)
  | VLeave c =>
      e <- editor_remove_client G pol L w c (sv_editor s) ;;
      l <- index_remove c (sv_index s) ;;
      Ok (e, l, sv_log s)
  | VMessage c line =>
      '(r, e) <- handle G pol u se L w c line (sv_editor s) ;;
      if negb (existsb (Nat.eqb c) (sv_index s)) then Panic "called Option::unwrap on None"
      else if broken c then Panic "send response to client"
      else Ok (e, sv_index s, sv_log s ++ [(c, WAnswer r)])
  end.
Definition is_leave (v : sevent) : bool := match v with VLeave _ => true | _ => false end.
Definition event_step (w : world) (broken : nat -> bool) (v : sevent) (rest : list sevent) (s : server) : res server :=
  '(e, l, log) <- on_event w broken v s ;;
  let '(quit, e) := removed_clients L e in
  l <- remove_all quit l ;;
  (* server.rs:132-134 *)
  Ok (mkSv e l rest (sv_readers s) (sv_next s) (sv_taken s) log (is_leave v && match l with [] => true | _ => false end)).

(** what can happen, and what it does *)
Inductive smove :=
| MAccept
(** server.rs:180: accepting failed *)
| MAcceptError
| MLine (c : nat) (line : text)
| MEnd (c : nat)
| MDeliver (broken : nat -> bool)
| MEvent (w : world) (broken : nat -> bool).
Inductive smoves (s : server) : smove -> res server -> Prop :=
| sm_accept : sv_done s = false -> smoves s MAccept (Ok (accept s))
| sm_accept_error : sv_done s = false -> smoves s MAcceptError (Panic "error while accepting a new client")
| sm_line c line : sv_done s = false -> In c (sv_readers s) -> smoves s (MLine c line) (Ok (read_line c line s))
| sm_end c : sv_done s = false -> In c (sv_readers s) -> smoves s (MEnd c) (Ok (read_end c s))
| sm_deliver broken x : sv_done s = false -> nth_error (ed_out L (sv_editor s)) (sv_taken s) = Some x -> smoves s (MDeliver broken) (Ok (deliver broken x s))
| sm_event w broken v rest : sv_done s = false -> sv_events s = v :: rest -> smoves s (MEvent w broken) (event_step w broken v rest s).
(** a run of the server: what happens, one thing after the other; hash maps may change their order at any time *)
Inductive runs (s : server) : list smove -> server -> Prop :=
| ru_stay : runs s [] s
| ru_move ms s1 m s2 : runs s ms s1 -> smoves s1 m (Ok s2) -> runs s (ms ++ [m]) s2
| ru_shuffle ms s1 k : runs s ms s1 -> shuffle (ed_core L (sv_editor s1)) k -> runs s ms (with_editor s1 (set_core L (sv_editor s1) k)).
(** a run from the start *)
Definition sreach (ms : list smove) (s : server) : Prop :=
  exists w session cwd args st scripts e, editor_new G pol L w session cwd args st scripts = Ok e /\ runs (server_new e) ms s.
End Server.
