(** Model of the shortest names, core/src/editor/buffer.rs:12-58.  A path is absolute and given by its components, the
    last one first; components are non-empty and contain no slash; paths ending in ".." (whose [file_name] is [None]) and
    paths that are not UTF-8 are not modelled.  Definitions only. *)
From Coq Require Import String List Arith Bool.
From Verif Require Import Base Maps.
Import ListNotations.

(** last component first *)
Definition rpath := list text.
(** buffer.rs:14-20: [file_name] *)
Definition file_name (p : rpath) : option text := match p with [] => None | n :: _ => Some n end.
Definition named (tail : text) (p : rpath) : bool := match file_name p with Some n => eqb n tail | None => false end.
(** buffer.rs:26-32: the parents, without the root's *)
Definition parents (ps : list rpath) : list rpath := flat_map (fun p => match p with [] => [] | _ :: h => [h] end) ps.
(** buffer.rs:12-36 [find_uniq_name] *)
Fixpoint find_uniq_name (p : rpath) (acc : text) (ps : list rpath) : res text :=
  match p with
  | [] => Panic "called Option::unwrap on None"
  | tail :: head =>
      let acc' := match acc with [] => tail | _ => tail ++ [47] ++ acc end in
      if 1 <? length (filter (named tail) ps) then find_uniq_name head acc' (parents ps) else Ok acc'
  end.
(** buffer.rs:38-42 [enum BufferSource] *)
Inductive source := SScratch (name : text) | SFile (p : rpath).
(** buffer.rs:44-58 [find_shortest_name] *)
Definition find_shortest_name (ss : list source) (i : nat) : res text :=
  match nth_error ss i with
  | None => Panic "index out of bounds"
  | Some (SScratch n) => Ok n
  | Some (SFile p) => find_uniq_name p [] (flat_map (fun s => match s with SFile p => [p] | _ => [] end) ss)
  end.
