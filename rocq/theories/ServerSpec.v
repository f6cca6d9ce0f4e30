(** Specification vocabulary for the server (C42-C44). *)
From Coq Require Import String List Arith Bool.
From Verif Require Import Base PieceTable Coords Utf8 Diff Selection Maps StackMap Fmt Buffer View Json Proto Core CoreSpec Payload Menu Editor EditorSpec Server.
Import ListNotations.

(** the line is a request to quit: the request itself, or the entry of the command menu *)
Definition quits (L : lua) (e : editor L) (line : text) : Prop :=
  exists q, parse_request line = Some q /\
    (rq_method q = str "quit" \/ (asks dec_select (str "menu-select") (mkSelP [] (str "quit")) q /\ In (str "quit") (values L e []))).
(** the numbers given to the connections accepted during a run *)
Definition accepted (ms : list smove) : nat := length (filter (fun m => match m with MAccept => true | _ => false end) ms).
(** the notifications written to client [c], and its answers *)
Definition notified (log : list (nat * written)) (c : nat) : list enotif :=
  flat_map (fun x => match snd x with WNotif n => if fst x =? c then [n] else [] | _ => [] end) log.
Definition answered (log : list (nat * written)) (c : nat) : list response :=
  flat_map (fun x => match snd x with WAnswer r => if fst x =? c then [r] else [] | _ => [] end) log.
(** the notifications among [o] that are addressed to [c] *)
Definition addressed (o : list esent) (c : nat) : list enotif :=
  map o_what (filter (fun x => match o_to x with None => true | Some cs => existsb (Nat.eqb c) cs end) o).
(** no write to [c] failed *)
Definition sound (ms : list smove) (c : nat) : Prop := Forall (fun m => match m with MDeliver b => b c = false | _ => True end) ms.

(** the event a move handles *)
Definition handles (L : lua) (s : server L) (m : smove) (v : sevent) : Prop :=
  (exists w b, m = MEvent w b) /\ exists rest, sv_events L s = v :: rest.
(** who an event is about *)
Definition from (v : sevent) : nat := match v with VJoin c | VLeave c | VMessage c _ => c end.
(** the lines client [c] sent during a run; the lines still waiting *)
Definition lines_sent (ms : list smove) (c : nat) : list text := flat_map (fun m => match m with MLine d x => if d =? c then [x] else [] | _ => [] end) ms.
Definition lines_waiting (vs : list sevent) (c : nat) : list text := flat_map (fun v => match v with VMessage d x => if d =? c then [x] else [] | _ => [] end) vs.
(** the answer carries the identifier of the line *)
Definition answers (line : text) (r : response) : Prop := rp_id r = match parse_request line with Some q => rq_id q | None => IdNull end.
