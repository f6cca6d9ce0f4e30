(** Common vocabulary of the model: results with panics, checked arithmetic, lists. *)
From Coq Require Import String List Arith Lia Bool.
Import ListNotations.

(** Outcome of a Rust call.  [Panic] = the thread panics; [Unspec] = the code relies on a
    behaviour that the contract of an external crate does not fix (see DESIGN.md §1). *)
Inductive res (A : Type) : Type :=
| Ok (a : A)
| Panic (why : string)
| Unspec.
Arguments Ok {A} a.
Arguments Panic {A} why.
Arguments Unspec {A}.

Definition bind {A B} (m : res A) (k : A -> res B) : res B :=
  match m with Ok a => k a | Panic w => Panic w | Unspec => Unspec end.

Declare Scope res_scope.
Delimit Scope res_scope with res.
Notation "x <- m ;; k" := (bind m (fun x => k))
  (at level 61, m at next level, right associativity) : res_scope.
Notation "' p <- m ;; k" := (bind m (fun p => k))
  (at level 61, p pattern, m at next level, right associativity) : res_scope.
Open Scope res_scope.

Definition is_ok {A} (r : res A) : Prop := exists a, r = Ok a.

(** [usize] subtraction in the debug profile. *)
Definition sub (a b : nat) : res nat :=
  if b <=? a then Ok (a - b) else Panic "attempt to subtract with overflow".

(** [Option::unwrap] / [expect]. *)
Definition unwrap {A} (o : option A) (why : string) : res A :=
  match o with Some a => Ok a | None => Panic why end.

(** [v[i]] on a slice. *)
Definition index {A} (l : list A) (i : nat) : res A :=
  unwrap (nth_error l i) "index out of bounds".

(** [&b[lo..hi]] on a slice. *)
Definition slice_res {A} (b : list A) (lo hi : nat) : res (list A) :=
  if (lo <=? hi) && (hi <=? length b) then Ok (firstn (hi - lo) (skipn lo b))
  else Panic "slice index out of range".

(** Plain slices used by the specifications: [n] elements from [s]. *)
Definition slice {A} (b : list A) (s n : nat) : list A := firstn n (skipn s b).

Fixpoint take_while {A} (f : A -> bool) (l : list A) : list A :=
  match l with
  | [] => []
  | x :: r => if f x then x :: take_while f r else []
  end.

Fixpoint drop_while {A} (f : A -> bool) (l : list A) : list A :=
  match l with
  | [] => []
  | x :: r => if f x then drop_while f r else l
  end.

Fixpoint mapM {A B} (f : A -> res B) (l : list A) : res (list B) :=
  match l with
  | [] => Ok []
  | x :: r => y <- f x ;; ys <- mapM f r ;; Ok (y :: ys)
  end.

Fixpoint foldM {A B} (f : B -> A -> res B) (l : list A) (b : B) : res B :=
  match l with
  | [] => Ok b
  | x :: r => b' <- f b x ;; foldM f r b'
  end.

Notation byte := nat (only parsing).
(** the line feed byte *)
Definition LF : byte := 10.
Notation text := (list nat) (only parsing).

Definition list_nat_eqb (a b : list nat) : bool :=
  if list_eq_dec Nat.eq_dec a b then true else false.

(** [BTreeSet<usize>] as a strictly increasing list. *)
Fixpoint set_insert (x : nat) (s : list nat) : list nat :=
  match s with
  | [] => [x]
  | y :: r => if x <? y then x :: s else if x =? y then s else y :: set_insert x r
  end.
Definition set_extend (s xs : list nat) : list nat := fold_left (fun s x => set_insert x s) xs s.
Definition set_of (xs : list nat) : list nat := set_extend [] xs.
