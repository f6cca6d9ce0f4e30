(** Model of core/src/editor/piece_table/mod.rs: pieces, edits, history, range reads.
    Definitions only; proofs are in PieceTableFacts.v. *)
From Coq Require Import String List Arith Bool.
From Verif Require Import Base.
Import ListNotations.

(** piece_table/mod.rs:15-20 [struct Piece] *)
Record piece := mkPiece { p_off : nat; p_start : nat; p_len : nat; p_orig : bool }.

(** mod.rs:32-35 [Piece::end] *)
Definition p_end (p : piece) : nat := p_start p + p_len p.

(** mod.rs:37-40 [Piece::contains] *)
Definition p_contains (p : piece) (o : nat) : bool :=
  (p_off p <=? o) && (o <? p_off p + p_len p).

(** mod.rs:42-62 [Piece::split] *)
Definition p_split (p : piece) (o n : nat) : res (option piece * piece) :=
  if o =? p_off p then
    Ok (None, mkPiece (o + n) (p_start p) (p_len p) (p_orig p))
  else
    l1 <- sub o (p_off p) ;;
    let p1 := mkPiece (p_off p) (p_start p) l1 (p_orig p) in
    l2 <- sub (p_len p) l1 ;;
    Ok (Some p1, mkPiece (o + n) (p_end p1) l2 (p_orig p)).

(** mod.rs:64-85 [Piece::truncate] *)
Definition p_truncate (p : piece) (o n : nat) : res (option piece * option piece) :=
  p1 <- (if p_contains p o && negb (p_off p =? o)
         then l <- sub o (p_off p) ;; Ok (Some (mkPiece (p_off p) (p_start p) l (p_orig p)))
         else Ok None) ;;
  let e := o + n in
  p2 <- (if p_contains p e
         then s <- sub (p_start p + e) (p_off p) ;;
              d <- sub e (p_off p) ;;
              l <- sub (p_len p) d ;;
              Ok (Some (mkPiece o s l (p_orig p)))
         else Ok None) ;;
  Ok (p1, p2).

(** mod.rs:87-110 [Piece::ranged], for the range of [n] bytes from [o] *)
Definition p_ranged (p : piece) (o n : nat) : res piece :=
  let e := o + n in
  if p_contains p o && p_contains p e then
    s <- sub (p_start p + o) (p_off p) ;; Ok (mkPiece o s n (p_orig p))
  else if p_contains p o then
    s <- sub (p_start p + o) (p_off p) ;;
    d <- sub o (p_off p) ;; l <- sub (p_len p) d ;;
    Ok (mkPiece o s l (p_orig p))
  else if p_contains p e then
    l <- sub e (p_off p) ;; Ok (mkPiece (p_off p) (p_start p) l (p_orig p))
  else Ok p.

(** mod.rs:131-137 [Consecutive::consecutive] *)
Definition p_consecutive (a b : piece) : bool :=
  (p_off a + p_len a =? p_off b) && Bool.eqb (p_orig a) (p_orig b) && (p_end a =? p_start b).

(** mod.rs:139-144 [Consecutive::merged] *)
Definition p_merged (a b : piece) : piece :=
  mkPiece (p_off a) (p_start a) (p_len a + p_len b) (p_orig a).

(** mod.rs:147-152 [enum Action] *)
Inductive action := ABulk | ADelete | AInsert.
Definition action_eqb (a b : action) : bool :=
  match a, b with ABulk, ABulk | ADelete, ADelete | AInsert, AInsert => true | _, _ => false end.

(** mod.rs:169-177 [struct PieceTable].  [pieces]: the in-order contents of the tree;
    [undos], [redos]: the Vec with its last element first. *)
Record pt := mkPT {
  t_orig : text; t_added : text;
  t_pieces : list piece;
  t_nl : list nat;
  t_last : option action;
  t_undos : list (list piece);
  t_redos : list (list piece) }.

(** ** rbtset::RBTreeSet<Piece> as an ordered sequence (contract of the external crate) *)

(** [get_node(&Piece::offset(o))]: the element equal to the probe (mod.rs:125-129: the piece
    containing [o]) together with what precedes and follows it in order. *)
Fixpoint get_node (l : list piece) (o : nat) : option (list piece * piece * list piece) :=
  match l with
  | [] => None
  | p :: r => if p_contains p o then Some ([], p, r)
              else match get_node r o with
                   | Some (a, q, b) => Some (p :: a, q, b)
                   | None => None
                   end
  end.

(** Two pieces that the tree cannot tell apart reliably: same key, or one contains the key of
    the other ([PartialEq], mod.rs:125-129). *)
Definition p_clash (a b : piece) : bool :=
  (p_off a =? p_off b) || p_contains a (p_off b) || p_contains b (p_off a).

Fixpoint insert_sorted (p : piece) (l : list piece) : list piece :=
  match l with
  | [] => [p]
  | q :: r => if p_off p <? p_off q then p :: l else q :: insert_sorted p r
  end.

(** [RBTreeSet::insert]; [Unspec] when an indistinguishable piece is present. *)
Definition tree_insert (p : piece) (l : list piece) : res (list piece) :=
  if existsb (p_clash p) l then Unspec else Ok (insert_sorted p l).

Definition tree_insert_opt (p : option piece) (l : list piece) : res (list piece) :=
  match p with Some q => tree_insert q l | None => Ok l end.

(** [assert!(self.pieces.remove(piece))] *)
Definition tree_remove (l : list piece) (p : piece) : res (list piece) :=
  match get_node l (p_off p) with
  | Some (a, _, b) => Ok (a ++ b)
  | None => Panic "assertion failed: self.pieces.remove(piece)"
  end.

(** [repack]: merge consecutive neighbours, left to right. *)
Fixpoint repack_from (p : piece) (l : list piece) : list piece :=
  match l with
  | [] => [p]
  | q :: r => if p_consecutive p q then repack_from (p_merged p q) r
              else p :: repack_from q r
  end.
Definition repack (l : list piece) : list piece :=
  match l with [] => [] | p :: r => repack_from p r end.

(** [p.offset as i64 + value] for [value >= 0] and [value < 0]; in the second case a negative
    result wraps around silently ([Unspec]).  mod.rs:508-514 *)
Definition shift_up (n : nat) (p : piece) : piece :=
  mkPiece (p_off p + n) (p_start p) (p_len p) (p_orig p).
Definition shift_down (n : nat) (p : piece) : res piece :=
  if n <=? p_off p then Ok (mkPiece (p_off p - n) (p_start p) (p_len p) (p_orig p)) else Unspec.

(** [shift_offset_after(node, -n)] where [node] holds the piece of key [k]. mod.rs:508-514 *)
Fixpoint shift_down_after (k n : nat) (l : list piece) : res (list piece) :=
  match l with
  | [] => Ok []
  | p :: r => if p_off p =? k then r' <- mapM (shift_down n) r ;; Ok (p :: r')
              else r' <- shift_down_after k n r ;; Ok (p :: r')
  end.

(** What the handle of a node denotes once the node's element was removed from the tree: the node
    that now holds the in-order successor, or a node no longer in the tree whose piece still has
    the given offset ([StaleDetached]: checked arithmetic on that offset, debug profile;
    [StaleWrap]: the same with wrapping arithmetic, release profile). *)
Inductive stale := StaleSucc | StaleDetached (off : nat) | StaleWrap.
(** chosen by the external crate; arguments: pieces before, removed pieces, pieces after *)
Definition policy := list piece -> list piece -> list piece -> stale.

(** ** PieceTable *)

(** positions of the line feeds of a text whose first byte is at offset [b]
    ([text.match_indices('\n').map(|(i, _)| b + i)]) *)
Fixpoint nl_from (b : nat) (s : text) : list nat :=
  match s with
  | [] => []
  | x :: r => if x =? LF then b :: nl_from (S b) r else nl_from (S b) r
  end.

(** mod.rs:179-197 [with_text] *)
Definition pt_with_text (s : text) : pt :=
  mkPT s [] [mkPiece 0 0 (length s) true] (set_of (nl_from 0 s)) None [] [].

(** mod.rs:199-209 [new] *)
Definition pt_new : pt := mkPT [] [] [] [] None [] [].

Definition pieces_len (l : list piece) : nat := fold_left (fun acc p => acc + p_len p) l 0.

(** mod.rs:211-213 [len] *)
Definition pt_len (t : pt) : nat := pieces_len (t_pieces t).

(** mod.rs:215-217 [is_empty] *)
Definition pt_is_empty (t : pt) : bool := match t_pieces t with [] => true | _ => false end.

(** mod.rs:416-422 [max_offset] *)
Definition pt_max_offset (t : pt) : res nat :=
  if pt_is_empty t then Ok 0 else sub (pt_len t) 1.

Definition set_pieces (t : pt) (l : list piece) : pt :=
  mkPT (t_orig t) (t_added t) l (t_nl t) (t_last t) (t_undos t) (t_redos t).
Definition set_nl (t : pt) (l : list nat) : pt :=
  mkPT (t_orig t) (t_added t) (t_pieces t) l (t_last t) (t_undos t) (t_redos t).
Definition set_last (t : pt) (a : option action) : pt :=
  mkPT (t_orig t) (t_added t) (t_pieces t) (t_nl t) a (t_undos t) (t_redos t).
Definition add_bytes (t : pt) (s : text) : pt :=
  mkPT (t_orig t) (t_added t ++ s) (t_pieces t) (t_nl t) (t_last t) (t_undos t) (t_redos t).

(** mod.rs:219-224 [commit] *)
Definition pt_commit (t : pt) : pt :=
  let l := repack (t_pieces t) in
  mkPT (t_orig t) (t_added t) l (t_nl t) None (l :: t_undos t) [].

(** mod.rs:226-234 [action] *)
Definition pt_action (a : action) (t : pt) : pt :=
  match t_last t with
  | Some ABulk => t
  | Some b => if action_eqb b a then t else set_last (pt_commit t) (Some a)
  | None => set_last (pt_commit t) (Some a)
  end.

(** mod.rs:236-242 [start_bulk], [end_bulk] *)
Definition pt_start_bulk (t : pt) : pt := pt_action ABulk t.
Definition pt_end_bulk (t : pt) : pt := set_last t None.

(** mod.rs:244-253 [undo] *)
Definition pt_undo (t : pt) : bool * pt :=
  match t_undos t with
  | l :: u => (true, mkPT (t_orig t) (t_added t) l (t_nl t) None u (t_pieces t :: t_redos t))
  | [] => (false, t)
  end.

(** mod.rs:255-264 [redo] *)
Definition pt_redo (t : pt) : bool * pt :=
  match t_redos t with
  | l :: r => (true, mkPT (t_orig t) (t_added t) l (t_nl t) None (t_pieces t :: t_undos t) r)
  | [] => (false, t)
  end.

Definition buf_of (t : pt) (p : piece) : text := if p_orig p then t_orig t else t_added t.

(** [&buffer[p.start..p.end()]] *)
Definition piece_slice (t : pt) (p : piece) : res text :=
  slice_res (buf_of t p) (p_start p) (p_end p).

(** mod.rs:266-285 [range], for the range of [n] bytes from [o] *)
Definition pt_range (t : pt) (o n : nat) : res (option text) :=
  match get_node (t_pieces t) o with
  | None => Ok None
  | Some (_, p, post) =>
      let hit := take_while (fun q => p_off q <? o + n) (p :: post) in
      bs <- mapM (fun q => q' <- p_ranged q o n ;; piece_slice t q') hit ;;
      Ok (Some (concat bs))
  end.

(** mod.rs:287-301 [join("")] / 303-305 [text] before decoding: the bytes of each piece, in order.
    Decoding (from_utf8_lossy, piece by piece) is modelled in Utf8.v. *)
Definition pt_chunks (t : pt) : res (list text) := mapM (piece_slice t) (t_pieces t).
Definition pt_text (t : pt) : res text := bs <- pt_chunks t ;; Ok (concat bs).

(** mod.rs:488-506 [append] *)
Definition pt_append (s : text) (t0 : pt) : res pt :=
  let t := pt_action AInsert t0 in
  let offset := match rev (t_pieces t) with p :: _ => p_off p + p_len p | [] => 0 end in
  let idx := length (t_added t) in
  l <- tree_insert (mkPiece offset idx (length s) false) (t_pieces t) ;;
  Ok (add_bytes (set_nl (set_pieces t l) (set_extend (t_nl t) (nl_from offset s))) s).

(** mod.rs:516-548 [insert] *)
Definition pt_insert (offset : nat) (s : text) (t0 : pt) : res pt :=
  let t := pt_action AInsert t0 in
  match get_node (t_pieces t) offset with
  | Some (pre, p, post) =>
      let new := mkPiece offset (length (t_added t)) (length s) false in
      let t := add_bytes t s in
      '(p1, p2) <- p_split p offset (length s) ;;
      let post' := map (shift_up (length s)) post in
      l <- tree_insert_opt p1 (pre ++ post') ;;
      l <- tree_insert new l ;;
      l <- tree_insert p2 l ;;
      let nl := set_of (map (fun i => if offset <=? i then i + length s else i) (t_nl t)) in
      Ok (set_nl (set_pieces t l) (set_extend nl (nl_from offset s)))
  | None => pt_append s t
  end.

(** newline update of [delete], mod.rs:583-596 *)
Fixpoint nl_delete (o n : nat) (l : list nat) : res (list nat) :=
  match l with
  | [] => Ok []
  | i :: r =>
      r' <- nl_delete o n r ;;
      if (o <=? i) && (i <? o + n) then Ok r'
      else if o + n <=? i then j <- sub i n ;; Ok (j :: r')
      else Ok (i :: r')
  end.

(** mod.rs:550-598 [delete], for the range of [n] bytes from [o] *)
Definition pt_delete (pol : policy) (o n : nat) (t0 : pt) : res pt :=
  let t := pt_action ADelete t0 in
  if (o =? 0) && (n =? pt_len t) then Ok (set_nl (set_pieces t []) [])
  else
    match get_node (t_pieces t) o with
    | None => Ok t
    | Some (pre, p, post) =>
        let hit := take_while (fun q => p_off q <? o + n) (p :: post) in
        let rest := drop_while (fun q => p_off q <? o + n) (p :: post) in
        match hit with
        | [] => Panic "index out of bounds: pieces[0]"
        | first :: _ =>
            '(head, _) <- p_truncate first o n ;;
            '(_, tail) <- p_truncate (List.last hit first) o n ;;
            l <- foldM tree_remove hit (t_pieces t) ;;
            l <- tree_insert_opt head l ;;
            l <- tree_insert_opt tail l ;;
            l <- (match tail, head with
                  | Some q, _ => shift_down_after (p_off q) n l
                  | None, Some q => shift_down_after (p_off q) n l
                  | None, None =>
                      match pol pre hit rest with
                      | StaleDetached off => _ <- sub off n ;; Ok l
                      | StaleWrap => Ok l
                      | StaleSucc =>
                          match rest with
                          | [] => Unspec
                          | q :: _ =>
                              (* [start_node.apply(|n| n.offset -= len)], then the following ones *)
                              _ <- sub (p_off q) n ;;
                              l' <- mapM (shift_down n) rest ;;
                              Ok (pre ++ l')
                          end
                      end
                  end) ;;
            nl <- nl_delete o n (t_nl t) ;;
            Ok (set_nl (set_pieces t l) (set_of nl))
        end
    end.

(** mod.rs:600-605 [replace] *)
Definition pt_replace (pol : policy) (o n : nat) (s : text) (t : pt) : res pt :=
  t <- pt_delete pol o n (pt_start_bulk t) ;;
  t <- pt_insert o s t ;;
  Ok (pt_end_bulk t).

(** One public editing call. *)
Inductive edit :=
| EAppend (s : text)
| EInsert (o : nat) (s : text)
| EDelete (o n : nat)
| EReplace (o n : nat) (s : text).

Definition pt_edit (pol : policy) (e : edit) (t : pt) : res pt :=
  match e with
  | EAppend s => pt_append s t
  | EInsert o s => pt_insert o s t
  | EDelete o n => pt_delete pol o n t
  | EReplace o n s => pt_replace pol o n s t
  end.

Fixpoint pt_edits (pol : policy) (es : list edit) (t : pt) : res pt :=
  match es with
  | [] => Ok t
  | e :: r => t' <- pt_edit pol e t ;; pt_edits pol r t'
  end.
