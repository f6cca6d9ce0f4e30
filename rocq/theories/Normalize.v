(** Model of [normalize_error_message] (core/src/editor/core.rs:135-149).  Definitions only. *)
From Coq Require Import String List Arith Bool.
From Verif Require Import Base Maps Utf8 Chars.
Import ListNotations.

(** [str::replace] of an ASCII character *)
Definition replace_char (c : byte) (by_ : text) (s : text) : text := flat_map (fun b => if b =? c then by_ else [b]) s.
(** core.rs:140-148: the fold; [skip] is [skipping] *)
Fixpoint squeeze (skip : option text) (cs : list text) : list text :=
  match cs with
  | [] => []
  | x :: r =>
      if match skip with Some y => eqb x y | None => false end then squeeze skip r
      else x :: squeeze (if is_whitespace x then Some x else None) r
  end.
Definition normalize_error_message (m : text) : text :=
  concat (squeeze None (chars (replace_char 9 [32] (replace_char LF [92; 110] m)))).
