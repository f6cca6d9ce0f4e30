(** What a terminal shows of a view: the vocabulary of C79.  Independent of the drawing code. *)
From Coq Require Import String List Arith ZArith Bool.
From Verif Require Import Base PieceTable Coords Utf8 Diff Selection Maps StackMap Fmt Buffer View Json Proto Core Payload Menu Editor EditorSpec Conn Server System SystemSpec Tui TuiSpec.
Import ListNotations.

(** the rows of what a view shows (C26, C27): for each buffer a title, then the lines of its lenses, each byte selected or not *)
Inductive prow := PTitle (i : pitem) | PLine (l : list (nat * bool)).
Definition shown_rows (v : list pitem) : list prow := concat (map (fun i => PTitle i :: map PLine (concat (map pl_lines (pi_lenses i)))) v).
(** a row of the screen, [w] columns wide *)
Definition shows_row (w : Z) (r : prow) (t : text) : Prop :=
  match r with
  | PTitle i => (exists n, t = str "-[" ++ pi_buffer i ++ str "][" ++ dec (pi_start i) ++ [58] ++ dec (pi_end i) ++ str "]" ++ repeat 45 n) /\ Z.of_nat (columns t) = w
  | PLine l => (Z.of_nat (columns t) <= w)%Z /\ (exists n, visible t = firstn n (map fst l)) /\
      (Forall (fun x => snd x = false) l \/ (Z.of_nat (length l) <= w)%Z -> visible t = firstn (Z.to_nat w) (map fst l))
  end.
(** printable names, lines that can be shown (TuiSpec.v), and a title that is not wider than the screen *)
Definition fits_item (w : Z) (i : pitem) : Prop :=
  printable (pi_buffer i) /\ Forall (fun l => Forall (fun x => displayable w (map fst x)) (pl_lines l)) (pi_lenses i) /\
  (6 + Z.of_nat (length (pi_buffer i) + length (dec (pi_start i)) + length (dec (pi_end i))) <= w < 65536)%Z.
(** what is left on a terminal of [w] columns and [h] rows after the commands [cs]: nothing scrolled, nothing is too wide; from
    the top, the texts [rows]; on the last row, which was written last, [status] *)
Definition on_screen (w h : Z) (cs : list tcmd) (rows : list text) (status : text) : Prop :=
  exists before after old, cs = before ++ TClear :: after /\ fits w h (TClear :: after) /\
    sc_painted (shown_screen h (TClear :: after)) = map (fun '(n, t) => (0, Z.of_nat n, false, t)%Z) (combine (seq 0 (length rows)) rows) ++ map (fun t => (0, h - 1, true, t)%Z) (old ++ [status]).
(** what the editor said to client [c]: no menus, no hints, printable messages of at most [a] bytes and status lines of at most [b] *)
Definition modest_talk (a b : nat) (log : list (nat * written)) (c : nat) : Prop := forall n, In (c, WNotif n) log ->
  match n with
  | OMenu _ | OHint _ => False
  | OStatus l => Forall (fun i => printable (plain_text (st_text i))) l /\ length (joined [194; 183] (map (fun i => plain_text (st_text i)) l)) <= b
  | OCore (NEcho t _) => printable t /\ length t <= a
  | OCore _ => True
  end.
