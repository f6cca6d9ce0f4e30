(** What a terminal shows: the vocabulary of C56.  Independent of the drawing code. *)
From Coq Require Import String List Arith ZArith Bool.
From Verif Require Import Base Maps Utf8 Utf8Spec Fmt Chars Json Proto Payload Menu Editor EditorSpec Conn Tui.
Import ListNotations.

(** the text without its escape sequences: ESC, "[", parameters, a final byte; or ESC and one byte *)
Fixpoint visible_from (st : nat) (t : text) : text :=
  match t with
  | [] => []
  | b :: r =>
      match st with
      | 0 => if b =? 27 then visible_from 1 r else b :: visible_from 0 r
      | 1 => if b =? 91 then visible_from 2 r else visible_from 0 r
      | _ => if (64 <=? b) && (b <=? 126) then visible_from 0 r else visible_from 2 r
      end
  end.
Definition visible : text -> text := visible_from 0.
(** the columns it takes; every character takes one *)
Definition columns (t : text) : nat := length (chars (visible t)).
(** printable ASCII *)
Definition printable (t : text) : Prop := Forall (fun b => 32 <= b < 127) t.
(** UTF-8 without control characters (those below U+0020, U+007F, and those from U+0080 to U+009F) *)
Definition legible (t : text) : Prop :=
  exists cs, Forall (fun c => is_char c /\ match c with [a] => 32 <= a < 127 | a :: b :: _ => a = 194 -> 160 <= b | [] => False end) cs /\ t = concat cs.
(** what is drawn in a line of [w] columns: printable ASCII of any length, or legible text of at most [w] bytes; a character takes at
    most as many columns as it has bytes *)
Definition displayable (w : Z) (t : text) : Prop := printable t \/ legible t /\ (Z.of_nat (length t) <= w)%Z.
(** what is drawn of an entry of a menu in [w] columns: printable ASCII of any length, or legible text that takes at most [w] bytes with
    the escape sequences of its faces *)
Definition entry_displayable (sy : styles) (w : Z) (l : list fragment) : Prop :=
  printable (plain_text l) \/ legible (plain_text l) /\ (Z.of_nat (length (render (format_match sy) l)) <= w)%Z.
(** a text that draws nothing *)
Definition escape (s : text) : Prop := Forall (fun b => b < 128 /\ b <> 13) s /\ forall rest, visible (s ++ rest) = visible rest.
(** what is assumed of the crates: styles are escape sequences; the length of an ASCII text is its number of bytes, and that of a
    legible text is not more *)
Definition sane (sy : styles) : Prop :=
  (forall p, In p [sy_error sy; sy_selection sy; sy_match sy] -> escape (fst p) /\ escape (snd p)) /\
  (forall l, printable (plain_text l) -> sy_len sy l = length (plain_text l)) /\
  forall l, legible (plain_text l) -> sy_len sy l <= length (plain_text l).

(** rows are separated by CR LF *)
Fixpoint split_rows (t : text) : list text :=
  match t with
  | [] => [[]]
  | b :: r =>
      match b, r with
      | 13, 10 :: r' => [] :: split_rows r'
      | _, _ => match split_rows r with x :: q => (b :: x) :: q | [] => [[b]] end
      end
  end.
(** a terminal of [h] rows: the cursor, what was painted since the last clearing (column, row, reversed, text) and how many
    times the screen scrolled *)
Record screen := mkScr { sc_x : Z; sc_y : Z; sc_painted : list (Z * Z * bool * text); sc_scrolls : nat }.
Definition newline (h : Z) (s : screen) : screen :=
  if (sc_y s + 1 <? h)%Z then mkScr 0 (sc_y s + 1) (sc_painted s) (sc_scrolls s) else mkScr 0 (sc_y s) (sc_painted s) (S (sc_scrolls s)).
Definition paint (rev : bool) (t : text) (s : screen) : screen := mkScr (sc_x s + Z.of_nat (columns t)) (sc_y s) (sc_painted s ++ [(sc_x s, sc_y s, rev, t)]) (sc_scrolls s).
Definition show (h : Z) (s : screen) (c : tcmd) : screen :=
  match c with
  | TClear => mkScr (sc_x s) (sc_y s) [] (sc_scrolls s)
  | TClearLine => s
  | TMove x y => mkScr x (Z.min y (h - 1)) (sc_painted s) (sc_scrolls s)          (* beyond the last row: the last row *)
  | TPrint rev t =>
      match split_rows t with
      | [] => s
      | first :: rest => fold_left (fun s t => paint rev t (newline h s)) rest (paint rev first s)
      end
  end.
Definition shown_screen (h : Z) (cs : list tcmd) : screen := fold_left (show h) cs (mkScr 0 0 [] 0).
(** everything is on the screen: it did not scroll, and no row is longer than it is wide *)
Definition fits (w h : Z) (cs : list tcmd) : Prop :=
  sc_scrolls (shown_screen h cs) = 0 /\ Forall (fun '(x, y, _, t) => 0 <= x /\ 0 <= y < h /\ x + Z.of_nat (columns t) <= w)%Z (sc_painted (shown_screen h cs)).

(** ** the rows of a view *)
Inductive vrow := Title (i : witem) | Line (l : list fragment).
Definition view_rows (v : list witem) : list vrow := concat (map (fun i => Title i :: map Line (concat (map wl_lines (wi_lenses i)))) v).
(** no face that is styled *)
Definition unstyled (l : list fragment) : Prop := Forall (fun f => fr_face f <> FError /\ fr_face f <> FSelection) l.
Definition row_shows (w : Z) (r : vrow) (t : text) : Prop :=
  match r with
  | Title i => (exists n, t = str "-[" ++ wi_buffer i ++ str "][" ++ dec (wi_start i) ++ [58] ++ dec (wi_end i) ++ str "]" ++ repeat 45 n) /\ Z.of_nat (columns t) = w
  | Line l => (Z.of_nat (columns t) <= w)%Z /\ (exists n, visible t = firstn n (plain_text l)) /\ (unstyled l \/ (Z.of_nat (length (plain_text l)) <= w)%Z -> visible t = firstn (Z.to_nat w) (plain_text l))
  end.
(** the name of a buffer is printable and its lines can be shown in [w] columns *)
Definition printable_item (w : Z) (i : witem) : Prop := printable (wi_buffer i) /\ Forall (fun l => Forall (fun x => displayable w (plain_text x)) (wl_lines l)) (wi_lenses i).
(** the length of a header without its dashes *)
Definition title_length (i : witem) : nat := 5 + length (wi_buffer i) + length (dec (wi_start i)) + 1 + length (dec (wi_end i)).
Definition echo_of (s : cstate) : list fragment := match cs_echo s with Some t => t | None => [] end.
Definition status_of (s : cstate) : text := joined [194; 183] (map (fun i => plain_text (st_text i)) (cs_status s)).
(** ** the rows of a menu: an entry's text, cut *)
Definition entry_shows (w : Z) (e : entry) (t : text) : Prop :=
  (Z.of_nat (columns t) <= w)%Z /\ (exists n, visible t = firstn n (plain_text (en_text e))) /\
  (Forall (fun f => fr_face f <> FMatch) (en_text e) -> visible t = firstn (Z.to_nat w) (plain_text (en_text e))).

(** ** what the user asks for *)
Inductive wish := WEdit (file : text) | WKeys (k : key_event) | WMenu (command search : text) | WExec (source : text).
(** the request sent to the server for it *)
Definition fulfils (r : request) (w : wish) : Prop :=
  match w with
  | WEdit f => asks dec_edit (str "edit") (mkEdit f false) r
  | WKeys k => asks dec_keys (str "keys") [k] r
  | WMenu c s => asks dec_menu (str "menu") (mkMenuP c s) r
  | WExec x => asks dec_str (str "exec") x r
  end.
Definition chord (k : tkey) (ctrl : bool) (c : string) : bool :=
  match tk_code k with TcChar x => eqb x (str c) && (if ctrl then tk_ctrl k else tk_alt k) | _ => false end.
(** a key typed when no menu is open *)
Definition typed (k : tkey) : list wish :=
  if chord k false "q" || chord k true "x" then []
  else if chord k true "d" then [WExec (str "editor:debug('coucou')")]
  else if chord k true "e" then [WExec (str "editor:debug(undefined)")]
  else if chord k true "f" then [WMenu (str "open") []]
  else if chord k true "p" then [WMenu [] []]
  else if chord k true "v" then [WMenu (str "view_select") []]
  else match tk_code k with
       | TcChar c => [WKeys (mkKey (tk_ctrl k) (tk_alt k) (tk_shift k) (KChar c))]
       | TcEsc => [WKeys (mkKey (tk_ctrl k) (tk_alt k) (tk_shift k) KEscape)]
       | _ => []
       end.
(** what happens asks for, and what waits to be handled asks for *)
Definition move_wishes (m : tmove) : list wish :=
  match m with
  | MvKey k => typed k
  | MvReadError x => [WExec (str "editor:error(""event read: " ++ x ++ str """)")]
  | MvConnError x => [WExec (str "editor:error(" ++ x ++ str ")")]
  | _ => []
  end.
Definition event_wishes (v : tevent) : list wish :=
  match v with EInput k => typed k | EError x => [WExec (str "editor:error(" ++ x ++ str ")")] | _ => [] end.
