(** Specification of document edits: the same edits on a plain byte string.
    Nothing here mentions pieces. *)
From Coq Require Import List Arith Bool.
From Verif Require Import Base PieceTable.
Import ListNotations.

Definition s_append (x s : text) : text := s ++ x.
(** splice before the byte at the offset; append when there is no such byte *)
Definition s_insert (o : nat) (x s : text) : text :=
  if o <? length s then firstn o s ++ x ++ skipn o s else s ++ x.
(** remove the bytes of [o, o+n) that exist *)
Definition s_delete (o n : nat) (s : text) : text := firstn o s ++ skipn (o + n) s.
Definition s_replace (o n : nat) (x s : text) : text := s_insert o x (s_delete o n s).

Definition s_edit (e : edit) (s : text) : text :=
  match e with
  | EAppend x => s_append x s
  | EInsert o x => s_insert o x s
  | EDelete o n => s_delete o n s
  | EReplace o n x => s_replace o n x s
  end.
Definition s_edits (es : list edit) (s : text) : text := fold_left (fun s e => s_edit e s) es s.

(** edits that insert at least one byte / delete at least one byte *)
Definition edit_ok (e : edit) : Prop :=
  match e with
  | EAppend x => x <> []
  | EInsert _ x => x <> []
  | EDelete _ n => 0 < n
  | EReplace _ n x => 0 < n /\ x <> []
  end.

(** positions [i] with [s[i] = LF], in increasing order *)
Definition newline_positions (s : text) : list nat :=
  filter (fun i => nth i s 0 =? LF) (seq 0 (length s)).
