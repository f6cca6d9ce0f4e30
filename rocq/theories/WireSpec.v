(** What a connection carries: vocabulary of C86. *)
From Coq Require Import List Arith.
From Verif Require Import Base PieceTable Utf8 Utf8Spec Json Proto Conn Server Wire.
Import ListNotations.

(** the bytes that arrived before the end, whatever the pieces; how it ended *)
Fixpoint bytes_of (arr : list arrival) : text := match arr with Piece b :: r => b ++ bytes_of r | _ => [] end.
Inductive ending := Open | AtEnd | Broken.
Fixpoint end_of (arr : list arrival) : ending := match arr with [] => Open | Piece _ :: r => end_of r | Closed :: _ => AtEnd | Reset :: _ => Broken end.
(** what was written: every message and an end of line (server.rs:66, client.rs:35) *)
Definition written (lines : list text) : text := flat_map (fun l => l ++ [LF]) lines.
(** every string in it is UTF-8 (Rust's strings are) *)
Fixpoint texts_valid (j : json) : Prop :=
  match j with
  | JStr s => valid s
  | JArr l => (fix all l := match l with [] => True | x :: r => texts_valid x /\ all r end) l
  | JObj l => (fix all l := match l with [] => True | (k, x) :: r => valid k /\ texts_valid x /\ all r end) l
  | _ => True
  end.
