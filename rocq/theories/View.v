(** Model of core/src/editor/view.rs.  Definitions only. *)
From Coq Require Import String List Arith Bool.
From Verif Require Import Base PieceTable Coords Utf8 Selection Maps Fmt Buffer.
Import ListNotations.

(** view.rs:14-18 [enum Focus] *)
Inductive focus := FRange (a b : nat) | FWhole.
(** view.rs:20-28 [Focus::start] *)
Definition focus_start (f : focus) : nat := match f with FRange a _ => a | FWhole => 0 end.
(** view.rs:30-38 [Display for Focus] *)
Definition focus_str (f : focus) : text :=
  match f with FRange a b => dec a ++ str ".." ++ dec b | FWhole => str "*" end.
(** view.rs:46-60 [Ord for Focus] *)
Definition focus_cmp (f g : focus) : comparison :=
  match f, g with
  | FWhole, _ => Gt
  | _, FWhole => Lt
  | FRange a b, FRange c d => if a =? c then Nat.compare b d else Nat.compare a c
  end.

(** view.rs:62-66 [struct Lens] *)
Record lens := mkLens { l_buffer : text; l_focus : focus }.

(** [slice::sort_by] (std): stable; only asks whether the comparison is [Less].  Stable insertion sort. *)
Definition less {A} (cmp : A -> A -> comparison) (a b : A) : bool := match cmp a b with Lt => true | _ => false end.
Fixpoint ins_by {A} (cmp : A -> A -> comparison) (x : A) (l : list A) : list A :=
  match l with
  | [] => [x]
  | y :: r => if less cmp x y then x :: l else y :: ins_by cmp x r
  end.
Definition sort_by {A} (cmp : A -> A -> comparison) (l : list A) : list A :=
  fold_left (fun s x => ins_by cmp x s) l [].

(** view.rs:72-75 [LensGroup::add] *)
Definition group_add (x : lens) (g : list lens) : list lens :=
  sort_by (fun a b => focus_cmp (l_focus a) (l_focus b)) (g ++ [x]).
(** view.rs:77-82 [LensGroup::focus] *)
Definition group_focus (g : list lens) : res focus :=
  first <- unwrap (nth_error g 0) "called Option::unwrap on None" ;;
  last <- unwrap (nth_error (rev g) 0) "called Option::unwrap on None" ;;
  Ok (match l_focus first, l_focus last with
      | FRange a _, FRange _ d => FRange a d
      | _, _ => FWhole
      end).

(** [Ord for str]: bytewise *)
Fixpoint text_cmp (a b : text) : comparison :=
  match a, b with
  | [], [] => Eq
  | [], _ => Lt
  | _, [] => Gt
  | x :: a', y :: b' => match Nat.compare x y with Eq => text_cmp a' b' | c => c end
  end.

(** view.rs:99-100 [struct View]: a [BTreeMap] as a list sorted by buffer name *)
Definition view := list (text * list lens).

(** view.rs:124-129 [add_lens], on the entry of the map *)
Fixpoint add_lens (x : lens) (v : view) : view :=
  match v with
  | [] => [(l_buffer x, group_add x [])]
  | (n, g) :: r =>
      match text_cmp (l_buffer x) n with
      | Lt => (l_buffer x, group_add x []) :: v
      | Eq => (n, group_add x g) :: r
      | Gt => (n, g) :: add_lens x r
      end
  end.
(** view.rs:103-110 [for_buffer] *)
Definition for_buffer (b : text) : view := add_lens (mkLens b FWhole) [].
(** view.rs:112-122 [key] *)
Definition group_key (e : text * list lens) : text :=
  fst e ++ str "{" ++ join (str ",") (map (fun l => focus_str (l_focus l)) (snd e)) ++ str "}".
Definition view_key (v : view) : text := join (str "|") (map group_key v).
(** view.rs:131-133 [remove_lens_group] *)
Definition remove_lens_group (b : text) (v : view) : view := del v b.
(** view.rs:135-137 [buffers] *)
Definition view_buffers (v : view) : list text := keys v.
(** view.rs:150-152 [contains_buffer] *)
Definition contains_buffer (v : view) (b : text) : bool := has v b.
(** view.rs:154-156 [is_empty] *)
Definition view_is_empty (v : view) : bool := match v with [] => true | _ => false end.

(** view.rs:92-96 [enum ViewItem] *)
Inductive vitem := VHeader (b : text) (f : focus) | VLens (l : lens).
(** view.rs:139-148 [as_vec] *)
Fixpoint as_vec (v : view) : res (list vitem) :=
  match v with
  | [] => Ok []
  | (b, g) :: r =>
      f <- group_focus g ;;
      items <- as_vec r ;;
      Ok (VHeader b f :: map VLens g ++ items)
  end.

(** One displayed byte and whether it carries the selection face.  The crate [ornament] builds the fragments of
    the notification; it is modelled as one face per byte, so the theorems about highlighting are about ASCII
    lines, where columns and bytes coincide.  Ranges outside the line are not covered by its contract. *)
Notation cell := (nat * bool)%type (only parsing).
Definition mark (a b : nat) (l : list cell) : res (list cell) :=
  if (a <=? b) && (b <=? length l) then
    Ok (firstn a l ++ map (fun c => (fst c, true)) (firstn (b - a) (skipn a l)) ++ skipn b l)
  else Unspec.

Section WithGraphemes.
Variable G : Graphemes.

(** view.rs:196-213: first coordinates of a selection and coordinates after it *)
Definition sel_coords (t : pt) (s : sel) : res (coords * coords) :=
  oc <- pt_offset_to_coord G t (sel_begin s) ;;
  start <- unwrap oc "called Option::unwrap on None" ;;
  m <- pt_max_offset t ;;
  end_ <- (if sel_end s =? m then
             oc <- pt_offset_to_coord G t (sel_end s) ;;
             c <- unwrap oc "called Option::unwrap on None" ;;
             Ok (mkC (cl c) (cc c + 1))
           else
             oc <- pt_offset_to_coord G t (sel_end s) ;;
             on <- pt_navigate G t oc ;;
             n <- unwrap on "called Option::unwrap on None" ;;
             n <- nav_next G t n ;;
             p <- nav_pos G t n ;;
             Ok (pos_coords p)) ;;
  Ok (start, end_).

(** view.rs:214-245: the selected part of each line (0-based), [None] standing for the begin and the end of the
    line *)
Definition sel_spans (t : pt) (s : sel) : res (list (nat * (option nat * option nat))) :=
  '(start, end_) <- sel_coords t s ;;
  if cl start =? cl end_ then
    a <- sub (cc start) 1 ;; b <- sub (cc end_) 1 ;; l <- sub (cl start) 1 ;;
    Ok [(l, (Some a, Some b))]
  else
    l' <- sub (cl end_) 1 ;;
    if (cl start =? l') && (cc end_ =? 1) then
      a <- sub (cc start) 1 ;; l <- sub (cl start) 1 ;;
      Ok [(l, (Some a, None))]
    else
      mapM (fun i =>
        r <- (if i =? cl start then a <- sub (cc start) 1 ;; Ok (Some a, None)
              else if i =? cl end_ then b <- sub (cc end_) 1 ;; Ok (None, Some b)
              else Ok (None, None)) ;;
        l <- sub i 1 ;;
        Ok (l, r)) (seq (cl start) (S (cl end_) - cl start)).

(** view.rs:248-274: one displayed line: a blank after the text, the selected ranges marked *)
Definition show_line (spans : list (nat * (option nat * option nat))) (i : nat) (line : text) : res (list cell) :=
  let l := line ++ [32] in
  foldM (fun cells e =>
      match snd e with
      | (Some a, Some b) => mark a b cells
      | (Some a, None) => mark a (length l) cells
      | (None, Some b) => mark 0 b cells
      | (None, None) => mark 0 (length l) cells
      end)
    (filter (fun e => fst e =? i) spans) (map (fun b => (b, false)) l).

(** [.iter().enumerate().map(..)] *)
Fixpoint show_lines (spans : list (nat * (option nat * option nat))) (i : nat) (ls : list text) : res (list (list cell)) :=
  match ls with
  | [] => Ok []
  | l :: r => x <- show_line spans i l ;; xs <- show_lines spans (S i) r ;; Ok (x :: xs)
  end.

(** buffer.rs:112-117 [Buffer::lines]; [PieceTable::lines] (mod.rs:313-315) splits the decoded text *)
Definition buf_lines (b : buffer) (f : focus) : res (list text) :=
  s <- pt_string (b_content b) ;;
  match f with
  | FRange a e => slice_res (str_lines s) a e
  | FWhole => Ok (str_lines s)
  end.

(** remote/src/protocol.rs [ViewParamsLens], [ViewParamsItem] *)
Record plens := mkPL { pl_lines : list (list cell); pl_first : nat }.
Record pitem := mkPI { pi_buffer : text; pi_start : nat; pi_end : nat; pi_lenses : list plens }.
Definition pitem_default : pitem := mkPI [] 0 0 [].

(** view.rs:190-281: one lens *)
Definition show_lens (buffers : amap text buffer) (sels : option (amap text (list sel))) (x : lens) : res plens :=
  b <- unwrap (get buffers (l_buffer x)) "buffer not found" ;;
  spans <- (match sels with
            | None => Ok []
            | Some ss =>
                match get ss (l_buffer x) with
                | None => Ok []
                | Some ss => xs <- mapM (sel_spans (b_content b)) ss ;; Ok (concat xs)
                end
            end) ;;
  ls <- buf_lines b (l_focus x) ;;
  lines <- show_lines spans 0 ls ;;
  Ok (mkPL lines (focus_start (l_focus x) + 1)).

(** view.rs:166-283: the loop over the items, [flush] telling whether [current] is to be pushed *)
Fixpoint notif_loop (buffers : amap text buffer) (sels : option (amap text (list sel)))
    (items : list vitem) (params : list pitem) (current : pitem) (flush : bool) : res (list pitem) :=
  match items with
  | [] => Ok (if flush then params ++ [current] else params)
  | VHeader b f :: r =>
      let params := if flush then params ++ [current] else params in
      let current := if flush then pitem_default else current in
      current <- (match f with
                  | FRange a e => Ok (mkPI b (a + 1) e (pi_lenses current))
                  | FWhole =>
                      buf <- unwrap (get buffers b) "buffer not found" ;;
                      n <- pt_line_count (b_content buf) ;;
                      Ok (mkPI b 1 n (pi_lenses current))
                  end) ;;
      notif_loop buffers sels r params current true
  | VLens x :: r =>
      pl <- show_lens buffers sels x ;;
      notif_loop buffers sels r params
        (mkPI (pi_buffer current) (pi_start current) (pi_end current) (pi_lenses current ++ [pl])) flush
  end.
(** view.rs:158-289 [to_notification_params] *)
Definition to_notification_params (v : view) (buffers : amap text buffer) (sels : option (amap text (list sel)))
  : res (list pitem) :=
  items <- as_vec v ;;
  notif_loop buffers sels items [] pitem_default false.
End WithGraphemes.
