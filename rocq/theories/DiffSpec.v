(** Specification of edit scripts on plain byte strings. *)
From Coq Require Import List Arith.
From Verif Require Import Base Diff.
Import ListNotations.

(** the effect of a script on [left]: drop Left runs, copy Right runs from [right], keep Both runs *)
Fixpoint apply_script (ds : list change) (left right : text) : text :=
  match ds with
  | [] => left
  | CLeft n :: r => apply_script r (skipn n left) right
  | CRight n :: r => firstn n right ++ apply_script r left (skipn n right)
  | CBoth n :: r => firstn n left ++ apply_script r (skipn n left) (skipn n right)
  end.

(** how much of each side a script accounts for *)
Fixpoint left_len (ds : list change) : nat :=
  match ds with [] => 0 | (CLeft n | CBoth n) :: r => n + left_len r | CRight _ :: r => left_len r end.
Fixpoint right_len (ds : list change) : nat :=
  match ds with [] => 0 | (CRight n | CBoth n) :: r => n + right_len r | CLeft _ :: r => right_len r end.
Definition covers (ds : list change) (left right : text) : Prop :=
  left_len ds = length left /\ right_len ds = length right.

Inductive subseq : text -> text -> Prop :=
| sub_nil : subseq [] []
| sub_skip x a b : subseq a b -> subseq a (x :: b)
| sub_take x a b : subseq a b -> subseq (x :: a) (x :: b).
