(** What [ced FILE...] should show: the vocabulary of C80.  Independent of the drawing code. *)
From Coq Require Import String List Arith ZArith Bool.
From Verif Require Import Base Coords Diff Maps Fmt Buffer Core Json Proto Menu Editor Conn Server System SystemSpec Tui TuiSpec Terminal TerminalSpec SoloSpec.
Import ListNotations.

(** the text of a buffer for the file with this content (C33): the last line is ended *)
Definition ended (x : text) : text := if ends_lf x then x else x ++ [LF].
(** the file [f] has this content, and nobody writes files while the editor runs *)
Definition readable (t : nat) (cwd f content : text) (d : disk) : Prop := undisturbed t d /\ dk_read d (path_join cwd f) = Some content.
(** nothing is left to do: the server has read all requests of client [c] and handled them, the client has read everything the
    editor had to say and handled it *)
Definition at_rest (L : lua) (session : text) (c : nat) (p : program L) : Prop :=
  let y := pg_sys L p in
  pr_read (sy_peer L y c) = length (SystemSpec.made L y c) /\ sv_events L (sy_server L y) = [] /\ settled L session y c /\ ts_queue (pg_tui L p) = [].
(** the screen, [w] columns and [h] rows: the name of the file and its lines in the first row; then the lines, as many as there
    is room for; the client and the session in the last row, on the right *)
Definition title_of (f : text) (lines m : nat) : text := str "-[" ++ f ++ str "][1:" ++ dec lines ++ str "]" ++ repeat 45 m.
Definition shows_line (w : Z) (l t : text) : Prop :=
  (Z.of_nat (columns t) <= w)%Z /\ (exists n, visible t = firstn n (l ++ [32])) /\ ((Z.of_nat (length l) < w)%Z -> visible t = l ++ [32]).
Definition shows_file (w h : Z) (cs : list tcmd) (session f : text) (lines : list text) : Prop :=
  exists m rows status n, on_screen w h cs (title_of f (length lines) m :: rows) status /\ Z.of_nat (columns (title_of f (length lines) m)) = w /\
    Forall2 (shows_line w) (firstn (Z.to_nat (h - 2)) lines) rows /\ visible status = repeat 32 n ++ str "[1@" ++ session ++ str "]".
