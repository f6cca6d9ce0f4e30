(** Specification of lines and columns on plain byte strings (no pieces, no caches). *)
From Coq Require Import List Arith Bool.
From Verif Require Import Base.
Import ListNotations.

(** the lines of a text, without their terminators; an unterminated tail is a line *)
Fixpoint lines_of (s : text) : list text :=
  match s with
  | [] => []
  | x :: r =>
      if x =? LF then [] :: lines_of r
      else match lines_of r with
           | [] => [[x]]
           | l :: ls => (x :: l) :: ls
           end
  end.

(** number of line feeds *)
Definition count_lf (s : text) : nat := length (filter (fun b => b =? LF) s).

(** does the text end with a line feed? *)
Definition terminated (s : text) : bool := match rev s with x :: _ => x =? LF | [] => false end.

(** offset of the first byte of line [n] (1-based): all previous lines with their terminators *)
Definition line_offset (s : text) (n : nat) : nat :=
  list_sum (map (fun l => length l + 1) (firstn (n - 1) (lines_of s))).

(** offset of the first byte of the line containing offset [o] *)
Definition line_start (s : text) (o : nat) : nat :=
  o - length (take_while (fun b => negb (b =? LF)) (rev (firstn o s))).

(** 1-based line and byte column of an offset *)
Definition line_of_offset (s : text) (o : nat) : nat := 1 + count_lf (firstn o s).
Definition byte_col (s : text) (o : nat) : nat := 1 + (o - line_start s o).

Definition ascii (s : text) : Prop := Forall (fun b => b < 128) s.
