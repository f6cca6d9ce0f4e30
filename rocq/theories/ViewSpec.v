(** Specification vocabulary for views: orders, histories of lens additions, what a line should look like. *)
From Coq Require Import List Arith Bool Sorted.
From Verif Require Import Base LineSpec Selection Maps Buffer View.
Import ListNotations.

(** how a view comes to be: lenses added, buffers removed, starting from the empty view *)
Inductive vop := VAdd (b : text) (f : focus) | VRemove (b : text).
Definition do_vop (v : view) (o : vop) : view :=
  match o with VAdd b f => add_lens (mkLens b f) v | VRemove b => remove_lens_group b v end.
Definition build_view (os : list vop) : view := fold_left do_vop os [].

(** the focuses given to buffer [b] since it was last removed, oldest first *)
Definition wanted_step (b : text) (fs : list focus) (o : vop) : list focus :=
  match o with
  | VAdd c f => if list_nat_eqb b c then fs ++ [f] else fs
  | VRemove c => if list_nat_eqb b c then [] else fs
  end.
Definition wanted (b : text) (os : list vop) : list focus := fold_left (wanted_step b) os [].
(** the focuses shown for buffer [b] *)
Definition shown (b : text) (v : view) : list focus :=
  match get v b with Some g => map l_focus g | None => [] end.

(** document order of focuses: by start, then end, whole-buffer last *)
Definition focus_le (f g : focus) : Prop :=
  match f, g with
  | _, FWhole => True
  | FWhole, FRange _ _ => False
  | FRange a b, FRange c d => a < c \/ (a = c /\ b <= d)
  end.
(** alphabetical order of byte strings *)
Fixpoint text_lt (a b : text) : Prop :=
  match a, b with
  | [], [] => False
  | [], _ :: _ => True
  | _ :: _, [] => False
  | x :: a', y :: b' => x < y \/ (x = y /\ text_lt a' b')
  end.

(** no opening brace (123) in a buffer name *)
Definition plain_name (b : text) : Prop := ~ In 123 b.
Definition vop_name (o : vop) : text := match o with VAdd b _ => b | VRemove b => b end.

(** offset [o] is selected *)
Definition in_sel (o : nat) (s : sel) : bool :=
  (min (s_anchor s) (s_cursor s) <=? o) && (o <=? max (s_anchor s) (s_cursor s)).
(** how line [n] (1-based) [l] of text [x] must look with selections [ss]: its bytes and a blank standing for its
    newline, each highlighted iff its offset is selected *)
Definition shown_line (x : text) (ss : list sel) (n : nat) (l : text) : list cell :=
  map (fun k => (nth k (l ++ [32]) 0, existsb (in_sel (line_offset x n + k)) ss)) (seq 0 (length l + 1)).
Fixpoint shown_lines_from (x : text) (ss : list sel) (n : nat) (ls : list text) : list (list cell) :=
  match ls with
  | [] => []
  | l :: r => shown_line x ss n l :: shown_lines_from x ss (S n) r
  end.
Definition shown_lines (x : text) (ss : list sel) : list (list cell) := shown_lines_from x ss 1 (lines_of x).
