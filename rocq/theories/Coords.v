(** Model of the line/column functions of core/src/editor/piece_table/mod.rs:313-486 and of
    core/src/editor/piece_table/navigator.rs, position.rs.  Definitions only. *)
From Coq Require Import String List Arith Bool.
From Verif Require Import Base PieceTable.
Import ListNotations.

(** ** bstr grapheme segmentation (external): byte lengths of the graphemes of a byte string *)
Definition ascii_plain (s : text) : Prop := Forall (fun b => b < 128 /\ b <> LF) s.
Record Graphemes := mkG {
  glens : text -> list nat;
  g_sum : forall s, list_sum (glens s) = length s;
  g_pos : forall s n, In n (glens s) -> 0 < n;
  (* bstr repeatedly decodes one grapheme from the front of what remains *)
  g_step : forall s n r, glens s = n :: r -> r = glens (skipn n s);
  g_ascii : forall s, ascii_plain s \/ s = [LF] -> glens s = map (fun _ => 1) s }.

(** the graphemes themselves *)
Fixpoint cut (lens : list nat) (s : text) : list text :=
  match lens with [] => [] | n :: r => firstn n s :: cut r (skipn n s) end.
Definition graphemes (G : Graphemes) (s : text) : list text := cut (glens G s) s.

(** [grapheme_indices().map(|(i, _, _)| i)] *)
Fixpoint starts_from (b : nat) (lens : list nat) : list nat :=
  match lens with [] => [] | n :: r => b :: starts_from (b + n) r end.
Definition gstarts (G : Graphemes) (s : text) : list nat := starts_from 0 (glens G s).
Definition gcount (G : Graphemes) (s : text) : nat := length (glens G s).

(** mod.rs:154-158 [struct Coords] *)
Record coords := mkC { cl : nat; cc : nat }.
Definition coords_eqb (a b : coords) : bool := (cl a =? cl b) && (cc a =? cc b).

(** [str::lines]: split on LF, a CR before the LF dropped, no empty line after a final LF *)
Definition strip_cr (l : text) : text :=
  match rev l with 13 :: r => rev r | _ => l end.
Fixpoint str_lines_acc (acc : text) (s : text) : list text :=
  match s with
  | [] => match acc with [] => [] | _ => [rev acc] end
  | x :: r => if x =? LF then strip_cr (rev acc) :: str_lines_acc [] r else str_lines_acc (x :: acc) r
  end.
Definition str_lines (s : text) : list text := str_lines_acc [] s.

(** mod.rs:313-315 [lines] *)
Definition pt_lines (t : pt) : res (list text) := s <- pt_text t ;; Ok (str_lines s).

(** mod.rs:317-323 [line_count] *)
Definition pt_line_count (t : pt) : res nat :=
  m <- pt_max_offset t ;;
  Ok (if existsb (Nat.eqb m) (t_nl t) then length (t_nl t) else length (t_nl t) + 1).

(** mod.rs:325-342 [line_bytes] *)
Definition pt_line_bytes (t : pt) (n : nat) : res (option text) :=
  count <- pt_line_count t ;;
  if (n =? 0) || (count <? n) then Ok None
  else if n =? 1 then
    pt_range t 0 (match t_nl t with x :: _ => x | [] => pt_len t end)
  else
    start <- unwrap (nth_error (t_nl t) (n - 2)) "called Option::unwrap on None" ;;
    e <- (match nth_error (t_nl t) (n - 1) with Some v => sub v 1 | None => Ok (pt_len t) end) ;;
    d <- sub e start ;;
    pt_range t (start + 1) d.

(** mod.rs:444-458 [line_length] *)
Definition pt_line_length (t : pt) (idx : nat) : res nat :=
  match t_nl t with
  | [] => Ok (pt_len t)
  | first :: _ =>
      if idx =? 1 then Ok first
      else
        i1 <- sub idx 1 ;;
        if i1 <? length (t_nl t) then
          a <- index (t_nl t) i1 ;; i2 <- sub idx 2 ;; b <- index (t_nl t) i2 ;;
          d <- sub a b ;; sub d 1
        else if i1 =? length (t_nl t) then
          i2 <- sub idx 2 ;; b <- index (t_nl t) i2 ;;
          d <- sub (pt_len t) b ;; sub d 1
        else Ok 0
  end.

(** mod.rs:460-469 [longest_line] *)
Definition pt_longest_line (t : pt) : res (nat * nat) :=
  foldM (fun best i => len <- pt_line_length t i ;; Ok (if snd best <? len then (i, len) else best))
        (seq 1 (length (t_nl t) + 1)) (0, 0).

Fixpoint position_of (x : nat) (l : list nat) : option nat :=
  match l with
  | [] => None
  | y :: r => if x =? y then Some 0 else match position_of x r with Some i => Some (S i) | None => None end
  end.

Section WithGraphemes.
Variable G : Graphemes.

(** mod.rs:350-384 [offset_to_coord] *)
Definition pt_offset_to_coord (t : pt) (o : nat) : res (option coords) :=
  if o =? 0 then Ok (Some (mkC 1 1))
  else
    m <- pt_max_offset t ;;
    if m <? o then Ok None
    else
      match position_of o (t_nl t) with
      | Some idx => len <- pt_line_length t (idx + 1) ;; Ok (Some (mkC (idx + 1) (len + 1)))
      | None =>
          let before := filter (fun i => i <? o) (t_nl t) in
          let lineno := length before + 1 in
          match rev before with
          | nli :: _ =>
              ol <- pt_line_bytes t lineno ;;
              line <- unwrap ol "called Option::unwrap on None" ;;
              d <- sub o nli ;;
              Ok (Some (mkC lineno (length (filter (fun i => i <? d) (gstarts G line)))))
          | [] => Ok (Some (mkC lineno (o + 1)))
          end
      end.

(** mod.rs:386-414 [coord_to_offset] *)
Definition pt_coord_to_offset (t : pt) (c : coords) : res (option nat) :=
  if cl c =? 0 then Ok (Some 0)
  else
    count <- pt_line_count t ;;
    if count <? cl c then Ok None
    else
      let line_offset := if 1 <? cl c then match nth_error (t_nl t) (cl c - 2) with Some nl => nl + 1 | None => 0 end else 0 in
      ol <- pt_line_bytes t (cl c) ;;
      lbs <- unwrap ol "get bytes for line" ;;
      if cc c =? gcount G lbs + 1 then Ok (Some (line_offset + length lbs))
      else
        i <- sub (cc c) 1 ;;
        Ok (match nth_error (gstarts G lbs) i with Some col => Some (line_offset + col) | None => None end).

(** mod.rs:424-426 [max_coord] *)
Definition pt_max_coord (t : pt) : res coords :=
  m <- pt_max_offset t ;; oc <- pt_offset_to_coord t m ;; unwrap oc "called Option::unwrap on None".

(** mod.rs:428-437 [char_at_offset] *)
Definition pt_char_at_offset (t : pt) (o : nat) : res (option text) :=
  let e := match filter (fun i => o <=? i) (t_nl t) with x :: _ => x | [] => pt_len t end in
  d <- sub e o ;;
  ol <- pt_range t o (max d 1) ;;
  Ok (match ol with
      | None => None
      | Some l => match glens G l with [] => None | n :: _ => Some (firstn n l) end
      end).

(** mod.rs:439-442 [char_at] *)
Definition pt_char_at (t : pt) (c : coords) : res (option text) :=
  oo <- pt_coord_to_offset t c ;;
  match oo with
  | None => Ok None
  | Some o => oc <- pt_char_at_offset t o ;; g <- unwrap oc "called Option::unwrap on None" ;; Ok (Some g)
  end.

(** mod.rs:471-486 [lines_range] *)
Definition pt_lines_range (t : pt) (a b : coords) : res (list text) :=
  oa <- pt_coord_to_offset t a ;;
  match oa with
  | None => Ok []
  | Some begin =>
      ob <- pt_coord_to_offset t b ;;
      match ob with
      | None => Ok []
      | Some e =>
          d <- sub e begin ;;
          ol <- pt_range t begin d ;;
          Ok (str_lines (match ol with Some l => l | None => [] end))
      end
  end.

(** ** Navigator: navigator.rs:9-13 *)
Record nav := mkNav { n_cur : coords; n_target : nat }.

(** navigator.rs:7 [BEGIN] *)
Definition BEGIN := mkC 1 1.

(** navigator.rs:20-30 [from_position] *)
Definition nav_from (t : pt) (c : coords) : res (option nav) :=
  o <- pt_coord_to_offset t c ;;
  Ok (match o with Some _ => Some (mkNav c (cc c)) | None => None end).

(** navigator.rs:16-18 [new]; mod.rs:632-637 [navigate(None)] *)
Definition nav_new (t : pt) : res nav :=
  o <- nav_from t BEGIN ;; unwrap o "called Option::unwrap on None".

(** mod.rs:632-637 [navigate] *)
Definition pt_navigate (t : pt) (c : option coords) : res (option nav) :=
  match c with
  | Some c => nav_from t c
  | None => n <- nav_new t ;; Ok (Some n)
  end.

(** navigator.rs:32-34 *)
Definition nav_is_at_end (t : pt) (n : nav) : res bool :=
  m <- pt_max_coord t ;; Ok (coords_eqb (n_cur n) m).

(** position.rs:3-8 [struct Position] *)
Record position := mkPos { pos_offset : nat; pos_coords : coords; pos_grapheme : option text }.

(** navigator.rs:36-56 [pos] *)
Definition nav_pos (t : pt) (n : nav) : res position :=
  ol <- pt_line_bytes t (cl (n_cur n)) ;;
  line <- unwrap ol "get bytes for line" ;;
  let c := mkC (cl (n_cur n)) (min (gcount G line + 1) (n_target n)) in
  oo <- pt_coord_to_offset t c ;;
  o <- unwrap oo "convert coordinates" ;;
  g <- pt_char_at t c ;;
  Ok (mkPos o c g).

(** navigator.rs:58-75 [next] *)
Definition nav_next (t : pt) (n : nav) : res nav :=
  m <- pt_max_coord t ;;
  if coords_eqb (n_cur n) m then Ok n
  else
    ch <- pt_char_at t (n_cur n) ;;
    if match ch with Some g => list_nat_eqb g [LF] | None => false end then
      Ok (mkNav (mkC (cl (n_cur n) + 1) 1) 1)
    else
      oo <- pt_coord_to_offset t (n_cur n) ;;
      o <- unwrap oo "called Option::unwrap on None" ;;
      oc <- pt_offset_to_coord t (o + 1) ;;
      Ok (match oc with Some c => mkNav c (cc c) | None => n end).

(** navigator.rs:77-89 [previous] *)
Definition nav_previous (t : pt) (n : nav) : res nav :=
  let c := n_cur n in
  if coords_eqb c BEGIN then Ok n
  else
    c' <- (if negb (cl c =? 1) && (cc c =? 1) then
             l <- sub (cl c) 1 ;; len <- pt_line_length t l ;; Ok (mkC l (len + 1))
           else
             x <- sub (cc c) 1 ;; Ok (mkC (cl c) x)) ;;
    Ok (mkNav c' (cc c')).

(** navigator.rs:91-96 [next_line] *)
Definition nav_next_line (t : pt) (n : nav) : res nav :=
  count <- pt_line_count t ;;
  Ok (if cl (n_cur n) <? count then mkNav (mkC (cl (n_cur n) + 1) (cc (n_cur n))) (n_target n) else n).

(** navigator.rs:98-103 [previous_line] *)
Definition nav_previous_line (t : pt) (n : nav) : res nav :=
  Ok (if 1 <? cl (n_cur n) then mkNav (mkC (cl (n_cur n) - 1) (cc (n_cur n))) (n_target n) else n).

(** navigator.rs:105-109 [line_begin] *)
Definition nav_line_begin (t : pt) (n : nav) : res nav := Ok (mkNav (mkC (cl (n_cur n)) 1) 1).

(** navigator.rs:111-115 [line_end] *)
Definition nav_line_end (t : pt) (n : nav) : res nav :=
  len <- pt_line_length t (cl (n_cur n)) ;; Ok (mkNav (mkC (cl (n_cur n)) len) len).

(** navigator.rs:117-121 [begin] *)
Definition nav_begin (t : pt) (n : nav) : res nav := Ok (mkNav BEGIN (cc BEGIN)).

(** navigator.rs:123-127 [end] *)
Definition nav_end (t : pt) (n : nav) : res nav :=
  m <- pt_max_coord t ;; Ok (mkNav m (cc m)).

End WithGraphemes.
