(** Specification vocabulary for C72: what a client was last shown, and what it should see. *)
From Coq Require Import String List Arith Bool.
From Verif Require Import Base PieceTable Coords Utf8 Diff Selection Maps StackMap Fmt Buffer View Core CoreSpec.
Import ListNotations.

(** the views sent to client [j], oldest first, and the last of them *)
Definition shown_to (l : list sent) (j : nat) : list (list pitem) :=
  flat_map (fun m => match m_what m with
                     | NView items => if match m_to m with None => true | Some ids => existsb (Nat.eqb j) ids end then [items] else []
                     | _ => []
                     end) l.
Definition last_shown (l : list sent) (j : nat) : option (list pitem) := hd_error (rev (shown_to l j)).
(** what client [j] was shown last is what its view shows now ([to_notification_params] of its current view, with the
    current buffers and its current selections: see C26 and C27) *)
Definition current (G : Graphemes) (k : core) (j : nat) : Prop :=
  exists items, last_shown (k_sent k) j = Some items /\ view_params G k j = Ok items.
(** the view client [j] looks at is the one listed under its key (always, unless buffer names contain braces: C24) *)
Definition registered (k : core) (j : nat) : Prop := exists v, looks_at k j v /\ get (vmap k) (view_key v) = Some v.

(** the calls after which client [j], who looks at [v], may be left with an outdated display *)
Definition unseen (k : core) (c : call) (j : nat) (v : view) : Prop :=
  match c with
  (* it joins *)
  | CJoin id => id = j
  (* somebody else opens the buffer it looks at through a view in which it has no cursor yet *)
  | CEdit id name _ => id <> j /\ view_key v = view_key (for_buffer name) /\ shows v name /\ sels_in k j (view_key v) name = None
  (* somebody else replaces a scratch buffer it looks at *)
  | CScratch id name _ => id <> j /\ shows v name
  (* somebody else deletes text of a buffer it looks at; or it deletes from an empty buffer *)
  | CDeleteSelection id =>
      exists u b, looks_at k id u /\ sels_in k id (view_key u) b <> None /\ shows v b /\
        (id <> j \/ exists x, get (k_buffers k) b = Some x /\ pt_is_empty (b_content x) = true)
  (* somebody else changes a view into the one it looks at *)
  | CViewAdd id b => exists u w, looks_at k id u /\ get (vmap k) (view_key u) = Some w /\ view_key v <> view_key u /\
      view_key v = view_key (add_lens (mkLens b FWhole) w)
  | CViewRemove id b => exists u w, looks_at k id u /\ get (vmap k) (view_key u) = Some w /\ view_key v <> view_key u /\
      view_key v = view_key (remove_lens_group b w)
  | _ => False
  end.

(** requests of client [j], and calls of scripts that belong to no client *)
Definition by_client (j : nat) (c : call) : Prop :=
  match c with
  | CEdit id _ _ | CView id _ | CViewDelete id | CViewAdd id _ | CViewRemove id _ | CMove id _ _ | CDeleteSelection id
  | CScratch id _ _ | CGetContext id => id = j
  | CAppend _ _ | CMessage _ _ | CError _ _ _ | CDebug _ => True
  | CJoin _ | CLeave _ => False
  end.
(** buffers are empty only after a file was emptied on disk and loaded again *)
Definition no_empty_buffer (k : core) : Prop := forall b x, get (k_buffers k) b = Some x -> pt_is_empty (b_content x) = false.
(** the states of an editor with the one client [j] *)
Inductive alone (G : Graphemes) (pol : policy) (j : nat) : core -> Prop :=
| alone_join d cwd args k0 r k : editor_init G cwd args = Ok k0 -> run_call G pol d (CJoin j) k0 = Ok (r, k) -> alone G pol j k
| alone_call d c k r k' : alone G pol j k -> by_client j c -> (c = CDeleteSelection j -> no_empty_buffer k) ->
    run_call G pol d c k = Ok (r, k') -> alone G pol j k'
| alone_shuffle k k' : alone G pol j k -> shuffle k k' -> alone G pol j k'.
