(** Specification of cursor motions on plain byte strings. *)
From Coq Require Import List Arith Bool.
From Verif Require Import Base LineSpec Coords Selection.
Import ListNotations.

(** 1-based line and column of an offset of an ASCII text *)
Definition coords_at (x : text) (o : nat) : coords := mkC (line_of_offset x o) (byte_col x o).

(** the n-th line (1-based) *)
Definition nth_line (x : text) (n : nat) : text := nth (n - 1) (lines_of x) [].

(** offset of column [c] on line [n], clamped to the newline of the line *)
Definition clamp_col (x : text) (n c : nat) : nat := line_offset x n + min (length (nth_line x n)) (c - 1).

(** a cursor with its remembered column: on an existing byte, at the remembered column or on the newline of a
    line too short for it *)
Definition settled (x : text) (s : sel) : Prop :=
  s_cursor s < length x /\ 0 < s_target s /\ s_cursor s = clamp_col x (line_of_offset x (s_cursor s)) (s_target s).

(** on an existing byte, whatever the remembered column (deleting a selection leaves such cursors) *)
Definition placed (x : text) (s : sel) : Prop := s_cursor s < length x /\ 0 < s_target s.

(** line reached by a vertical move *)
Definition line_up (n : nat) : nat := max 1 (n - 1).
Definition line_down (x : text) (n : nat) : nat := min (length (lines_of x)) (n + 1).

(** where a motion goes: the new offset and the new remembered column *)
Definition motion_spec (x : text) (d : motion) (o target : nat) : nat * nat :=
  let last := length x - 1 in
  let n := line_of_offset x o in
  match d with
  | MLeft => if o =? 0 then (0, target) else (o - 1, byte_col x (o - 1))
  | MRight => if o =? last then (last, target) else (o + 1, byte_col x (o + 1))
  | MUp => (clamp_col x (line_up n) target, target)
  | MDown => (clamp_col x (line_down x n) target, target)
  | MLineBegin => (line_start x o, 1)
  | MLineEnd => (line_offset x n + (length (nth_line x n) - 1), length (nth_line x n))
  | MBegin => (0, 1)
  | MEnd => (last, byte_col x last)
  end.
(** the motions the code can perform: not line-end on an empty line *)
Definition motion_ok (x : text) (d : motion) (o : nat) : Prop :=
  d = MLineEnd -> nth_line x (line_of_offset x o) <> [].

(** a sequence of motions, each extending the selection or not *)
Definition sel_moves (G : Graphemes) (t : PieceTable.pt) (ms : list (motion * bool)) (s : sel) : res sel :=
  foldM (fun s m => sel_move G t (fst m) (snd m) s) ms s.
(** both ends designate existing bytes *)
Definition sel_inside (x : text) (s : sel) : Prop := s_anchor s < length x /\ s_cursor s < length x.
(** the bytes from one end of the selection to the other, inclusive *)
Definition selected (x : text) (s : sel) : text :=
  slice x (min (s_anchor s) (s_cursor s)) (max (s_anchor s) (s_cursor s) + 1 - min (s_anchor s) (s_cursor s)).
(** the text without those bytes *)
Definition unselected (x : text) (s : sel) : text :=
  firstn (min (s_anchor s) (s_cursor s)) x ++ skipn (max (s_anchor s) (s_cursor s) + 1) x.
(** the selection does not reach the end of the text, unless it is all of it *)
Definition inner_or_all (x : text) (s : sel) : Prop :=
  max (s_anchor s) (s_cursor s) + 1 < length x \/
  (min (s_anchor s) (s_cursor s) = 0 /\ max (s_anchor s) (s_cursor s) + 1 = length x).
(** what a buffer contains after its selection is deleted: a buffer is never left empty *)
Definition remaining (x : text) (s : sel) : text := match unselected x s with [] => [LF] | y => y end.
