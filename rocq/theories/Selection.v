(** Model of core/src/editor/selection.rs, of Buffer::selection_range (buffer.rs:168-181) and of the bodies of
    Core::move_cursor (core.rs:525-568), clamp_selections (570-583) and delete_selection (585-622) for one buffer.
    Definitions only. *)
From Coq Require Import String List Arith Bool.
From Verif Require Import Base PieceTable Coords Utf8.
Import ListNotations.

(** selection.rs:1-6 [struct Selection] *)
Record sel := mkSel { s_anchor : nat; s_cursor : nat; s_target : nat }.
(** selection.rs:8-21 [Default], [new] *)
Definition sel_new : sel := mkSel 0 0 1.
(** selection.rs:23-29 [begin] *)
Definition sel_begin (s : sel) : nat := if s_anchor s <=? s_cursor s then s_anchor s else s_cursor s.
(** selection.rs:31-37 [end] *)
Definition sel_end (s : sel) : nat := if s_anchor s <? s_cursor s then s_cursor s else s_anchor s.
(** selection.rs:39-54 [clamp_to]; the returned delta is never used *)
Definition sel_clamp (n : nat) (s : sel) : sel :=
  if n <=? sel_end s then
    if s_anchor s <? s_cursor s then mkSel (s_anchor s) n (s_target s)
    else mkSel n (s_cursor s) (s_target s)
  else s.

(** core.rs:25-35 [enum CursorTarget] *)
Inductive motion := MLeft | MRight | MUp | MDown | MLineBegin | MLineEnd | MBegin | MEnd.

Section WithGraphemes.
Variable G : Graphemes.

(** buffer.rs:168-181 [selection_range]: first offset and offset after the last *)
Definition selection_range (t : pt) (s : sel) : res (nat * nat) :=
  m <- pt_max_offset t ;;
  e <- (if sel_end s =? m then Ok (sel_end s + 1)
        else
          oc <- pt_offset_to_coord G t (sel_end s) ;;
          on <- pt_navigate G t oc ;;
          n <- unwrap on "called Option::unwrap on None" ;;
          n <- nav_next G t n ;;
          p <- nav_pos G t n ;;
          Ok (pos_offset p)) ;;
  Ok (sel_begin s, e).

(** core.rs:540-549 *)
Definition nav_move (t : pt) (d : motion) (n : nav) : res nav :=
  match d with
  | MLeft => nav_previous t n
  | MRight => nav_next G t n
  | MUp => nav_previous_line t n
  | MDown => nav_next_line t n
  | MLineBegin => nav_line_begin t n
  | MLineEnd => nav_line_end t n
  | MBegin => nav_begin t n
  | MEnd => nav_end G t n
  end.

(** core.rs:535-556: one selection of [move_cursor] *)
Definition sel_move (t : pt) (d : motion) (extend : bool) (s : sel) : res sel :=
  oc <- pt_offset_to_coord G t (s_cursor s) ;;
  on <- pt_navigate G t oc ;;
  n <- unwrap on "called Option::unwrap on None" ;;
  n <- nav_move t d (mkNav (n_cur n) (s_target s)) ;;
  p <- nav_pos G t n ;;
  Ok (mkSel (if extend then s_anchor s else pos_offset p) (pos_offset p) (n_target n)).

(** core.rs:530-558: all selections of one buffer; nothing moves in a buffer of one byte *)
Definition buffer_move (t : pt) (d : motion) (extend : bool) (ss : list sel) : res (list sel) :=
  if pt_len t =? 1 then Ok ss else mapM (sel_move t d extend) ss.

(** core.rs:599-606: delete the selections of one buffer one after the other.  [range.len()] (range.rs:6-8, checked)
    is only computed when a piece contains the first offset. *)
Fixpoint delete_sels (pol : policy) (ss : list sel) (t : pt) : res (list text * pt) :=
  match ss with
  | [] => Ok ([], t)
  | s :: r =>
      '(b, e) <- selection_range t s ;;
      len <- (match get_node (t_pieces t) b with Some _ => sub e b | None => Ok 0 end) ;;
      otext <- pt_text_range t b len ;;
      match otext with
      | Some x =>
          t <- pt_delete pol b len t ;;
          '(xs, t) <- delete_sels pol r t ;;
          Ok (x :: xs, t)
      | None => delete_sels pol r t
      end
  end.

(** core.rs:595-612 then 613-617 ([clamp_selections]) for one buffer: the deleted texts, the new content and the
    new selections (unchanged when nothing was deleted) *)
Definition buffer_delete (pol : policy) (t : pt) (ss : list sel) : res (list text * pt * list sel) :=
  '(xs, t) <- delete_sels pol ss t ;;
  t <- (if pt_is_empty t then pt_append [LF] t else Ok t) ;;
  match xs with
  | [] => Ok (xs, t, ss)
  | _ => m <- pt_max_offset t ;; Ok (xs, t, map (sel_clamp m) ss)
  end.
End WithGraphemes.
