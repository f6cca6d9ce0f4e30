(** Model of core/src/editor/diff.rs and of PieceTable::apply_diff (piece_table/mod.rs:607-630).
    Arithmetic on usize is checked (debug profile): an underflow is a panic.  Definitions only. *)
From Coq Require Import String List Arith Bool.
From Verif Require Import Base PieceTable Utf8.
Import ListNotations.

(** diff.rs:3-8 [enum Diff] *)
Inductive change := CLeft (n : nat) | CBoth (n : nat) | CRight (n : nat).

(** the [while] loop of diff.rs:14-17: how many leading bytes agree *)
Fixpoint agree (a b : text) : nat :=
  match a, b with
  | x :: a', y :: b' => if x =? y then S (agree a' b') else 0
  | _, _ => 0
  end.

(** diff.rs:10-29 [precompute].  The second loop (19-22) compares from the ends and stops at [start]:
    the bytes after [start], read backwards. *)
Definition precompute (b1 b2 : text) : nat * option nat :=
  let start := agree b1 b2 in
  let e := agree (rev (skipn start b1)) (rev (skipn start b2)) in
  if (start =? e) || (e =? 0) then (start, None) else (start, Some e).

Definition upd (k v : nat) (l : list nat) : list nat := firstn k l ++ v :: skipn (S k) l.

(** diff.rs:36-55: one cell of the table *)
Definition lcs_cell (left right : text) (er i j : nat) (mt : list nat) : res (list nat) :=
  x <- index left i ;; y <- index right j ;;
  v <- (if x =? y then
          if (i =? 0) || (j =? 0) then Ok 1
          else d <- index mt ((i - 1) * er + j - 1) ;; Ok (d + 1)
        else if i =? 0 then
          if j =? 0 then Ok 0 else index mt (i * er + j - 1)
        else if j =? 0 then index mt ((i - 1) * er + j)
        else a <- index mt (i * er + j - 1) ;; b <- index mt ((i - 1) * er + j) ;; Ok (max a b)) ;;
  Ok (upd (i * er + j) v mt).

(** diff.rs:35-56: the table, filled row by row *)
Definition lcs_table (left right : text) : res (list nat) :=
  let el := length left in let er := length right in
  foldM (fun mt i => foldM (fun mt j => lcs_cell left right er i j mt) (seq 0 er) mt)
        (seq 0 el) (repeat 0 (el * er)).

(** diff.rs:58-76: walking back from the last cell.  [i1], [j1] are [i + 1] and [j + 1]; the loop ends when
    one of them is 0.  Every turn decreases [i1 + j1], so that much fuel is enough. *)
Fixpoint lcs_walk (fuel : nat) (left right : text) (mt : list nat) (i1 j1 : nat) (lcs : text) : res text :=
  match fuel with
  | 0 => Ok lcs
  | S f =>
      match i1, j1 with
      | S i, S j =>
          let er := length right in
          x <- index left i ;; y <- index right j ;;
          if x =? y then lcs_walk f left right mt i j (x :: lcs)
          else if (j =? 0) && (i =? 0) then Ok lcs
          else
            go_left <- (if i =? 0 then Ok true
                        else a <- index mt (i * er + j - 1) ;; b <- index mt ((i - 1) * er + j) ;; Ok (b <? a)) ;;
            if go_left then lcs_walk f left right mt i1 j lcs else lcs_walk f left right mt i j1 lcs
      | _, _ => Ok lcs
      end
  end.

(** diff.rs:31-79 [find_lcs]; [(el - 1) as isize] underflows on an empty side *)
Definition find_lcs (left right : text) : res text :=
  mt <- lcs_table left right ;;
  _ <- sub (length left) 1 ;; _ <- sub (length right) 1 ;;
  lcs_walk (length left + length right) left right mt (length left) (length right) [].

(** diff.rs:105-108, 113-117: bytes skipped until [c] *)
Definition skip_to (s : text) (i : nat) (c : byte) : nat :=
  length (take_while (fun b => negb (b =? c)) (skipn i s)).

(** diff.rs:121-131: the bytes both sides share with the subsequence.  Returns the new [i], [j], the number of
    bytes and what remains of the subsequence; the value taken at the end of the loop is consumed. *)
Fixpoint common_run (l r : text) (i j : nat) (c : byte) (lcs : text) : res (nat * nat * nat * text) :=
  x <- index l i ;;
  if x =? c then
    y <- index r j ;;
    if y =? c then
      match lcs with
      | v :: lcs' => '(i', j', n, rest) <- common_run l r (S i) (S j) v lcs' ;; Ok (i', j', S n, rest)
      | [] => Ok (S i, S j, 1, [])
      end
    else Ok (i, j, 0, lcs)
  else Ok (i, j, 0, lcs).

Definition push (n : nat) (d : change) (ds : list change) : list change := if 0 <? n then ds ++ [d] else ds.

(** diff.rs:103-135: the main loop; every turn consumes at least one byte of the subsequence *)
Fixpoint diff_loop (fuel : nat) (l r : text) (i j : nat) (lcs : text) (ds : list change)
  : res (nat * nat * list change) :=
  match fuel, lcs with
  | S f, c :: rest =>
      let a := skip_to l i c in
      let ds := push a (CLeft a) ds in
      let i := i + a in
      let b := skip_to r j c in
      let ds := push b (CRight b) ds in
      let j := j + b in
      '(i, j, n, rest) <- common_run l r i j c rest ;;
      diff_loop f l r i j rest (push n (CBoth n) ds)
  | _, _ => Ok (i, j, ds)
  end.

(** diff.rs:137-142: what remains after the loop *)
Definition diff_tail (l r : text) (i j : nat) (ds : list change) : res (list change) :=
  ml <- sub (length l) 1 ;;
  let ds := if i <? ml then ds ++ [CLeft (length l - i)] else ds in
  mr <- sub (length r) 1 ;;
  Ok (if j <? mr then ds ++ [CRight (length r - j)] else ds).

(** diff.rs:82-148 [diff] *)
Definition diff (left right : text) : res (list change) :=
  let (start, maybe_end) := precompute left right in
  let ds := push start (CBoth start) [] in
  match maybe_end with
  | None => if 0 <? start then Ok ds
            else
              lcs <- find_lcs left right ;;
              '(i, j, ds) <- diff_loop (length lcs) left right 0 0 lcs ds ;;
              diff_tail left right i j ds
  | Some e =>
      let l := slice left start (length left - e - start) in
      let r := slice right start (length right - e - start) in
      lcs <- find_lcs l r ;;
      '(i, j, ds) <- diff_loop (length lcs) l r 0 0 lcs ds ;;
      ds <- diff_tail l r i j ds ;;
      Ok (push e (CBoth e) ds)
  end.

(** mod.rs:615-628: one change of [apply_diff] *)
Definition apply_change (pol : policy) (s : text) (st : nat * nat * pt) (c : change) : res (nat * nat * pt) :=
  let '(lo, ro, t) := st in
  match c with
  | CLeft n => t <- pt_delete pol lo n t ;; Ok (lo, ro, t)
  | CRight n => x <- str_slice s ro (ro + n) ;; t <- pt_insert lo x t ;; Ok (lo + n, ro + n, t)
  | CBoth n => Ok (lo + n, ro + n, t)
  end.

(** mod.rs:607-630 [apply_diff] *)
Definition pt_apply_diff (pol : policy) (s : text) (t : pt) : res pt :=
  original <- pt_string t ;;
  ds <- diff original s ;;
  '(_, _, t) <- foldM (apply_change pol s) ds (0, 0, pt_start_bulk t) ;;
  Ok (pt_end_bulk t).
