(** Model of core/src/stackmap.rs.  Definitions only. *)
From Coq Require Import String List Arith Bool.
From Verif Require Import Base Maps.
Import ListNotations.

(** stackmap.rs:19-22 [struct StackMap] *)
Record smap (K V : Type) := mkSM { sm_stack : list K; sm_map : amap K V }.
Arguments mkSM {K V}. Arguments sm_stack {K V}. Arguments sm_map {K V}.

Section StackMap.
Context {K V : Type} `{Eqb K}.
(** stackmap.rs:28-33 *)
Definition sm_new : smap K V := mkSM [] [].
(** stackmap.rs:35-37 *)
Definition sm_latest (m : smap K V) : option K := nth_error (sm_stack m) 0.
(** stackmap.rs:39-42 *)
Definition sm_latest_value (m : smap K V) : option V :=
  match nth_error (sm_stack m) 0 with Some k => get (sm_map m) k | None => None end.
(** stackmap.rs:50-52, 65-67: [position] then [Vec::remove] *)
Fixpoint remove_first (k : K) (l : list K) : list K :=
  match l with
  | [] => []
  | x :: r => if eqb x k then r else x :: remove_first k r
  end.
(** stackmap.rs:44-55; [false] is the error *)
Definition sm_set_last (k : K) (m : smap K V) : bool * smap K V :=
  if has (sm_map m) k then (true, mkSM (k :: remove_first k (sm_stack m)) (sm_map m)) else (false, m).
(** stackmap.rs:57-62 *)
Definition sm_insert (k : K) (v : V) (m : smap K V) : res (option V * smap K V) :=
  let old := get (sm_map m) k in
  let '(ok, m') := sm_set_last k (mkSM (sm_stack m) (set (sm_map m) k v)) in
  if ok then Ok (old, m') else Panic "called Result::unwrap on Err".
(** stackmap.rs:64-71 *)
Definition sm_remove (k : K) (m : smap K V) : option V * smap K V :=
  if existsb (fun x => eqb x k) (sm_stack m) then
    (get (sm_map m) k, mkSM (remove_first k (sm_stack m)) (del (sm_map m) k))
  else (None, m).
(** stackmap.rs:82-86 [DerefMut]: the map is handed out, the stack is not updated; used as
    [views.entry(key).or_insert(view)] in core.rs:473 *)
Definition sm_or_insert (k : K) (v : V) (m : smap K V) : smap K V :=
  mkSM (sm_stack m) (or_insert (sm_map m) k v).
End StackMap.
