(** Specification vocabulary for the editor core: which states occur. *)
From Coq Require Import List Arith Bool Permutation.
From Verif Require Import Base PieceTable Coords Utf8 Diff Selection Maps StackMap Fmt Buffer View Core.
Import ListNotations.

(** The states of a running editor: it starts, then serves calls (each possibly finding another state of the file
    system), as long as no call panics.  Hash maps may change their order at any time. *)
Inductive reach (G : Graphemes) (pol : policy) : core -> Prop :=
| reach_init cwd args k : editor_init G cwd args = Ok k -> reach G pol k
| reach_call d c k r k' : reach G pol k -> run_call G pol d c k = Ok (r, k') -> reach G pol k'
| reach_shuffle k k' : reach G pol k -> shuffle k k' -> reach G pol k'.

(** connected clients, listed views, open buffers *)
Definition connected (k : core) (id : nat) : Prop := In id (keys (cmap k)).
Definition listed (k : core) (key : text) : Prop := In key (keys (vmap k)).
Definition open (k : core) (b : text) : Prop := In b (keys (k_buffers k)).
(** client [id] looks at view [v] *)
Definition looks_at (k : core) (id : nat) (v : view) : Prop := exists c, get (cmap k) id = Some c /\ c_view c = v.
(** view [v] shows buffer [b] *)
Definition shows (v : view) (b : text) : Prop := In b (keys v).
(** the selections of client [id] in buffer [b] of the view listed as [key] *)
Definition sels_in (k : core) (id : nat) (key b : text) : option (list sel) :=
  match get (cmap k) id with
  | Some c => match get (c_sels c) key with Some m => get m b | None => None end
  | None => None
  end.
(** the selections of client [id] in the view listed as [key] *)
Definition sels_of (k : core) (id : nat) (key : text) : option (amap text (list sel)) :=
  match get (cmap k) id with Some c => get (c_sels c) key | None => None end.
