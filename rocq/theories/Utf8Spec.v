(** Specification of valid UTF-8 (Unicode standard, table 3-7): a text is valid when it is a sequence of characters. *)
From Coq Require Import List Arith.
From Verif Require Import Base PieceTable.
Import ListNotations.

Definition trail (b : nat) : Prop := 128 <= b <= 191.
Definition is_char (c : text) : Prop :=
  match c with
  | [a] => a <= 127
  | [a; b] => 194 <= a <= 223 /\ trail b
  | [a; b; d] => trail d /\
      ((a = 224 /\ 160 <= b <= 191) \/ (225 <= a <= 236 /\ trail b) \/ (a = 237 /\ 128 <= b <= 159) \/ (238 <= a <= 239 /\ trail b))
  | [a; b; d; e] => trail d /\ trail e /\
      ((a = 240 /\ 144 <= b <= 191) \/ (241 <= a <= 243 /\ trail b) \/ (a = 244 /\ 128 <= b <= 143))
  | _ => False
  end.
Definition valid (s : text) : Prop := exists cs, Forall is_char cs /\ s = concat cs.
(** offset [o] lies between two characters (or at an end) of [s] *)
Definition bound (s : text) (o : nat) : Prop := exists a b, s = a ++ b /\ length a = o /\ valid a /\ valid b.

(** an edit that inserts valid text and cuts the document between characters only *)
Definition on_chars (e : edit) (s : text) : Prop :=
  let at_ o := o < length s -> bound s o in
  match e with
  | EAppend x => valid x
  | EInsert o x => valid x /\ at_ o
  | EDelete o n => at_ o /\ at_ (o + n)
  | EReplace o n x => valid x /\ at_ o /\ at_ (o + n)
  end.
