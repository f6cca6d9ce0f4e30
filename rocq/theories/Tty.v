(** Model of what the terminal client does to the terminal it runs in: core/src/bin/ced.rs:126-131 (mode term), core/src/tui.rs:90-95,
    104-109, 143-178 and the destructor 443-449, with what it draws in between taken from Tui.v.  Transcribed: crossterm 0.21 (raw mode keeps
    the mode it found and gives it back; [execute!] writes its commands in order, then flushes, and may fail after any of them),
    terminals with an alternate screen (xterm's 1049), and Rust's panics (the message is printed on standard error first, then values are
    dropped; a panic while one unwinds aborts).  Simplified: standard error is the same terminal; what is drawn reaches the terminal in
    order.  Definitions only. *)
From Coq Require Import String List Arith ZArith Bool.
From Verif Require Import Base Maps PieceTable Fmt Proto Conn Tui.
Import ListNotations.

(** what was put on a screen: something drawn, or a message *)
Inductive put_on := Drawn (c : tcmd) | Said (what : text).
Section Tty.
(** the settings of the terminal's line (termios), and [cfmakeraw] *)
Variable mode : Type.
Variable raw : mode -> mode.
(** the two screens, which of them is shown, whether the cursor is hidden *)
Record tty := mkTty { y_mode : mode; y_alt : bool; y_hidden : bool; y_main : list put_on; y_other : list put_on }.
Definition write (x : put_on) (y : tty) : tty :=
  if y_alt y then mkTty (y_mode y) (y_alt y) (y_hidden y) (y_main y) (y_other y ++ [x]) else mkTty (y_mode y) (y_alt y) (y_hidden y) (y_main y ++ [x]) (y_other y).
Definition set_mode (m : mode) (y : tty) : tty := mkTty m (y_alt y) (y_hidden y) (y_main y) (y_other y).
Inductive screen_cmd := EnterAlternate | LeaveAlternate | HideCursor | ShowCursor.
Definition obey (c : screen_cmd) (y : tty) : tty :=
  match c with
  | EnterAlternate => mkTty (y_mode y) true (y_hidden y) (y_main y) []
  | LeaveAlternate => mkTty (y_mode y) false (y_hidden y) (y_main y) (y_other y)
  | HideCursor => mkTty (y_mode y) (y_alt y) true (y_main y) (y_other y)
  | ShowCursor => mkTty (y_mode y) (y_alt y) false (y_main y) (y_other y)
  end.
(** [execute!]; [fails]: after how many commands, and the error *)
Definition execute (cs : list screen_cmd) (fails : option (nat * text)) (y : tty) : tty * option text :=
  match fails with
  | None => (fold_left (fun y c => obey c y) cs y, None)
  | Some (n, e) => (fold_left (fun y c => obey c y) (firstn n cs) y, Some e)
  end.

(** how the events of the client end *)
Inductive stop :=
(** the exit key was handled (tui.rs:173-175), or the connection ended and the queue is empty (tui.rs:155-158) *)
| Ends
(** any [expect], [unwrap] or panic of the tasks *)
| Panics (why : text)
(** a signal that is not handled: SIGTERM, SIGKILL, SIGHUP... *)
| Signal.
(** what the world does to one run *)
Record fate := mkFate {
  (* tui.rs:90-95: the log cannot be written, or this is no terminal *)
  fa_new : option text;
  (* tui.rs:105 *)
  fa_raw : option text;
  (* tui.rs:106-107 *)
  fa_prepare : option (nat * text);
  (* what reaches the terminal, and how it ends *)
  fa_drawn : list tcmd;
  fa_stop : stop;
  (* tui.rs:445, 446-447 *)
  fa_unraw : option text;
  fa_leave : option (nat * text)
}.
Inductive ending := Returned | Panicked (why : text) | Aborted | Killed.
Definition enabled : text := str "enable terminal raw mode: ".
Definition prepared : text := str "prepare terminal state: ".
Definition disabled : text := str "disable terminal raw mode: ".
Definition reverted : text := str "revert terminal state: ".
(** tui.rs:443-449; [saved]: the mode that raw mode found; [unwinding]: because of a panic *)
Definition drop (f : fate) (saved : option mode) (unwinding : option text) (y : tty) : tty * ending :=
  let leave (y : tty) :=
    let '(y, e) := execute [LeaveAlternate; ShowCursor] (fa_leave f) y in
    let y := match e with Some e => write (Said (reverted ++ e)) y | None => y end in
    (y, match unwinding with Some why => Panicked why | None => Returned end) in
  match saved with
  | None => leave y
  | Some m =>
      match fa_unraw f with
      | None => leave (set_mode m y)
      | Some e => (write (Said (disabled ++ e)) y, match unwinding with Some _ => Aborted | None => Panicked (disabled ++ e) end)
      end
  end.
Definition panic (f : fate) (saved : option mode) (why : text) (y : tty) : tty * ending := drop f saved (Some why) (write (Said why) y).
(** ced.rs:126-131 *)
Definition term_main (f : fate) (y : tty) : tty * ending :=
  match fa_new f with
  | Some why => (write (Said why) y, Panicked why)                 (* there is no [Term] yet *)
  | None =>
      match fa_raw f with
      | Some e => panic f None (enabled ++ e) y
      | None =>
          let saved := Some (y_mode y) in
          let '(y, e) := execute [EnterAlternate; HideCursor] (fa_prepare f) (set_mode (raw (y_mode y)) y) in
          match e with
          | Some e => panic f saved (prepared ++ e) y
          | None =>
              let y := fold_left (fun y c => write (Drawn c) y) (fa_drawn f) y in
              match fa_stop f with
              | Ends => drop f saved None y
              | Panics why => panic f saved why y
              | Signal => (y, Killed)
              end
          end
      end
  end.
(** The events of the client (Tui.v) end like this, with this drawn: *)
Inductive lives (sy : styles) (checked : bool) (size : Z * Z) (files : list text) : list tmove -> list tcmd -> stop -> Prop :=
(** tui.rs:173 *)
| li_exit ms t s : term_new checked size files = Ok t -> trun sy checked ms (mkTS t []) = Ok s -> t_exit (ts_term s) = true -> lives sy checked size files ms (t_out (ts_term s)) Ends
(** tui.rs:155-158: the server is gone, everything it said was handled *)
| li_lost ms t s : term_new checked size files = Ok t -> trun sy checked ms (mkTS t []) = Ok s -> ts_queue s = [] -> lives sy checked size files ms (t_out (ts_term s)) Ends
(** a panic of the client; part of what it was drawing may have reached the terminal *)
| li_panic ms m t s why part : term_new checked size files = Ok t -> trun sy checked ms (mkTS t []) = Ok s -> tstep sy checked m s = Panic why -> lives sy checked size files (ms ++ [m]) (t_out (ts_term s) ++ part) (Panics (str why))
(** the connection or the terminal fails (the [expect]s of tui.rs:117-177, connection.rs:151) *)
| li_fails ms t s why part : term_new checked size files = Ok t -> trun sy checked ms (mkTS t []) = Ok s -> lives sy checked size files ms (t_out (ts_term s) ++ part) (Panics why)
| li_signal ms t s part : term_new checked size files = Ok t -> trun sy checked ms (mkTS t []) = Ok s -> lives sy checked size files ms (t_out (ts_term s) ++ part) Signal.
End Tty.
