(** Specification for C36: calls a careful user makes.  Everything outside this class has a witness in PropSafe.v. *)
From Coq Require Import String List Arith Bool.
From Verif Require Import Base LineSpec PieceTable PieceTableSpec PieceTableFacts Coords Utf8 Diff Selection NavSpec Maps StackMap Fmt Buffer View ViewSpec Core CoreSpec.
Import ListNotations.

(** ASCII without carriage returns *)
Definition plain (x : text) : Prop := ascii x /\ ~ In 13 x.
(** ... and, for buffer names, without opening brace *)
Definition good_name (b : text) : Prop := plain b /\ plain_name b.
(** what the buffer [b] contains *)
Definition text_of (k : core) (b : text) : option text := option_map (fun u => txt (b_content u)) (get (k_buffers k) b).
(** a listed view other than the one listed as [key] shows [b] *)
Definition shown_elsewhere (k : core) (key b : text) : Prop := exists key' u, key' <> key /\ get (vmap k) key' = Some u /\ shows u b.
(** a view that can be deleted: it is not the last one, and if it shows the debug log then the other buffers it shows
    are shown elsewhere *)
Definition deletable (k : core) (v : view) : Prop :=
  (exists key, listed k key /\ key <> view_key v) /\
  (shows v b_debug -> forall b, shows v b -> b = b_debug \/ shown_elsewhere k (view_key v) b).

Definition tame (d : disk) (k : core) (c : call) : Prop :=
  match c with
  | CEdit id name true => connected k id /\ good_name name
  | CEdit id name false =>
      connected k id /\ good_name name /\
      match get (k_buffers k) name with
      | Some b => is_synced d b = true
      | None => exists content, dk_read d (path_join (k_cwd k) name) = Some content /\ plain content
      end
  | CView id vid => connected k id /\ (listed k vid \/ ~ open k vid \/ listed k (vid ++ str "{*}"))
  | CViewDelete id => exists v, looks_at k id v /\ deletable k v
  | CViewAdd id b => connected k id
  | CViewRemove id b => exists v, looks_at k id v /\ (~ shows v b \/ (keys v = [b] /\ deletable k v))
  | CMove id dir _ =>
      connected k id /\
      forall v b ss s x, looks_at k id v -> sels_in k id (view_key v) b = Some ss -> In s ss -> text_of k b = Some x ->
        motion_ok x dir (s_cursor s)
  | CDeleteSelection id =>
      connected k id /\
      forall v b s x, looks_at k id v -> sels_in k id (view_key v) b = Some [s] -> text_of k b = Some x ->
        inner_or_all x s /\
        (* the other selections in that buffer, of other clients or in other views, survive *)
        forall j key s', j <> id \/ key <> view_key v -> sels_in k j key b = Some [s'] -> sel_inside (remaining x s) s'
  | CAppend b x => good_name b /\ plain x /\ terminated x = true
  | CScratch id name content =>
      connected k id /\ good_name name /\ plain content /\ (content = [] \/ terminated content = true) /\
      forall key v, get (vmap k) key = Some v -> ~ shows v name
  | CMessage _ x => plain x
  | CError _ tag x => plain tag /\ plain x
  | CDebug x => plain x
  | CGetContext id => connected k id
  | CJoin _ => (exists j, connected k j) \/ (exists key, forall key', listed k key' -> key' = key)
  | CLeave _ => True
  end.

(** the states of an editor that only serves such calls *)
Inductive tame_reach (G : Graphemes) (pol : policy) : core -> Prop :=
| tame_init cwd args k : plain cwd -> plain args -> editor_init G cwd args = Ok k -> tame_reach G pol k
| tame_call d c k r k' : tame_reach G pol k -> tame d k c -> run_call G pol d c k = Ok (r, k') -> tame_reach G pol k'
| tame_shuffle k k' : tame_reach G pol k -> shuffle k k' -> tame_reach G pol k'.
