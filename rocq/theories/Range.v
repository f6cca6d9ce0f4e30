(** Model of core/src/editor/range.rs.  Definitions only. *)
From Coq Require Import String List Arith Bool.
From Verif Require Import Base.

(** range.rs:20-28 (std::ops::Range<usize>) and 30-55 (OffsetRange): both are used through start and end *)
Record range := mkRange { r_start : nat; r_end : nat }.
(** range.rs:36-40, 43-50 [OffsetRange::new], [start], [end] *)
Definition offset_range (o n : nat) : range := mkRange o (o + n).

(** range.rs:6-8 [len]: checked subtraction *)
Definition r_len (r : range) : res nat := sub (r_end r) (r_start r).

(** range.rs:10-13 [overlap] *)
Definition r_overlap (a b : range) : bool :=
  ((r_start a <=? r_start b) && (r_start b <? r_end a)) ||
  ((r_start b <=? r_start a) && (r_start a <? r_end b)).

(** range.rs:15-17 [contains] *)
Definition r_contains (a b : range) : bool := (r_start a <=? r_start b) && (r_end b <=? r_end a).
