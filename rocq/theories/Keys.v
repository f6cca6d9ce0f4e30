(** Model of the key notation, remote/src/keys.rs.  The types are in Proto.v.  Definitions only. *)
From Coq Require Import String List Arith Bool.
From Verif Require Import Base Maps Utf8 Chars Json Proto.
Import ListNotations.

(** [char::to_ascii_lowercase], [is_ascii_uppercase] *)
Definition ascii_upper (c : text) : bool := match c with [a] => between 65 90 a | _ => false end.
Definition ascii_lower (c : text) : text := match c with [a] => if between 65 90 a then [a + 32] else [a] | _ => c end.
(** keys.rs:24-41 [Display for Key] *)
Definition key_str (k : key) : text :=
  match k with
  | KChar c => ascii_lower c
  | KBackspace => str "bkspc" | KEnter => str "ret" | KEscape => str "esc"
  | KUp => str "up" | KDown => str "down" | KLeft => str "left" | KRight => str "right"
  end.
(** keys.rs:48-63 [FromStr for Key] *)
Definition parse_key (s : text) : option key :=
  if length (chars s) =? 1 then Some (KChar s) else if eqb s (str "esc") then Some KEscape else None.
(** keys.rs:116-130 [Display for KeyEvent] *)
Definition event_str (e : key_event) : text :=
  (if ke_ctrl e then str "c-" else []) ++ (if ke_alt e then str "a-" else []) ++ (if ke_shift e then str "s-" else []) ++ key_str (ke_key e).
Fixpoint starts_with (p s : text) : bool :=
  match p, s with
  | [], _ => true
  | a :: p, b :: s => (a =? b) && starts_with p s
  | _, [] => false
  end.
(** keys.rs:82-105 [From<&str> for KeyEvent]; the modifiers are ASCII, so the byte index [cursor] counts characters *)
Definition event_of_str (s : text) : res key_event :=
  let ctrl := starts_with (str "c-") s in
  let cursor := if ctrl then 2 else 0 in
  let alt := starts_with (str "a-") (skipn cursor s) in
  let cursor := if alt then cursor + 2 else cursor in
  let shift := starts_with (str "s-") (skipn cursor s) in
  let cursor := if shift then cursor + 2 else cursor in
  k <- unwrap (parse_key (concat (skipn cursor (chars s)))) "extract key value" ;;
  Ok (mkKey ctrl alt shift k).
(** keys.rs:107-114 [From<char> for KeyEvent] *)
Definition event_of_char (c : text) : key_event := mkKey false false (ascii_upper c) (KChar (ascii_lower c)).
