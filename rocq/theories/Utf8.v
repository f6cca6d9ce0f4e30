(** Model of [String::from_utf8_lossy] (Rust standard library, core::str::lossy::Utf8Chunks) as used by
    core/src/editor/piece_table/mod.rs:287-348, and of [str::is_char_boundary].  Definitions only. *)
From Coq Require Import String List Arith Bool.
From Verif Require Import Base PieceTable.
Import ListNotations.

Definition between (a b x : nat) : bool := (a <=? x) && (x <=? b).
Definition cont (x : byte) : bool := between 128 191 x.

(** allowed second bytes after a lead byte of a 3- or 4-byte sequence *)
Definition second3 (a b : byte) : bool :=
  ((a =? 224) && between 160 191 b) || (between 225 236 a && cont b) ||
  ((a =? 237) && between 128 159 b) || (between 238 239 a && cont b).
Definition second4 (a b : byte) : bool :=
  ((a =? 240) && between 144 191 b) || (between 241 243 a && cont b) || ((a =? 244) && between 128 143 b).

(** One step of the decoder on a non-empty input: the number of bytes consumed and whether they form a
    character ([true]) or an invalid sequence replaced as a whole ([false]).  [safe_get] past the end gives 0. *)
Definition utf8_step (s : text) : nat * bool :=
  let g i := nth i s 0 in
  let a := g 0 in
  if a <? 128 then (1, true)
  else if between 194 223 a then
    if cont (g 1) then (2, true) else (1, false)
  else if between 224 239 a then
    if second3 a (g 1) then (if cont (g 2) then (3, true) else (2, false)) else (1, false)
  else if between 240 244 a then
    if second4 a (g 1) then
      (if cont (g 2) then (if cont (g 3) then (4, true) else (3, false)) else (2, false))
    else (1, false)
  else (1, false).

(** U+FFFD *)
Definition replacement : text := [239; 191; 189].

Fixpoint lossy_fuel (fuel : nat) (s : text) : text :=
  match fuel, s with
  | S f, _ :: _ =>
      let (n, ok) := utf8_step s in
      (if ok then firstn n s else replacement) ++ lossy_fuel f (skipn n s)
  | _, _ => []
  end.
(** every step consumes at least one byte, so the length is enough fuel *)
Definition from_utf8_lossy (s : text) : text := lossy_fuel (length s) s.

(** mod.rs:287-305 [text]: each piece decoded on its own, the results joined *)
Definition pt_string (t : pt) : res text :=
  bs <- pt_chunks t ;; Ok (concat (map from_utf8_lossy bs)).

(** mod.rs:307-311 [text_range] *)
Definition pt_text_range (t : pt) (o n : nat) : res (option text) :=
  ob <- pt_range t o n ;; Ok (match ob with Some b => Some (from_utf8_lossy b) | None => None end).

(** [str::is_char_boundary] *)
Definition char_boundary (s : text) (o : nat) : bool :=
  match nth_error s o with
  | Some b => negb (cont b)
  | None => o =? length s
  end.

(** [&s[a..b]] on a str *)
Definition str_slice (s : text) (a b : nat) : res text :=
  if (a <=? b) && char_boundary s a && char_boundary s b then Ok (slice s a (b - a))
  else Panic "byte index is not a char boundary".
