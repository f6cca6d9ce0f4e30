(** Model of core/src/tui.rs, the terminal client.  What is queued to standard output is a list of terminal commands; the
    log file (13-25), is not modelled, raw mode and the alternate screen are in Tty.v, and the terminal accepts every command.  [u16] values
    are integers.  Definitions only. *)
From Coq Require Import String List Arith ZArith Bool.
From Verif Require Import Base Maps Utf8 Fmt Chars Json Proto Payload Conn.
Import ListNotations.

(** the commands of the crossterm crate the client queues; [TPrint true] is reversed *)
Inductive tcmd := TClear | TClearLine | TMove (x y : Z) | TPrint (reversed : bool) (t : text).
(** the crossterm crate: what [style(x).red().to_string()] and so on put before and after the text; and the ornament crate's
    [Text::text_len] *)
Record styles := { sy_error : text * text; sy_selection : text * text; sy_match : text * text; sy_len : list fragment -> nat }.
Definition wrapped (s : text * text) (t : text) : text := fst s ++ t ++ snd s.

(** [u16] arithmetic; [checked]: the debug profile *)
Definition u16_add (checked : bool) (a b : Z) : res Z :=
  if (a + b <? 65536)%Z then Ok (a + b)%Z else if checked then Panic "attempt to add with overflow" else Ok (a + b - 65536)%Z.
Definition u16_sub (checked : bool) (a b : Z) : res Z :=
  if (b <=? a)%Z then Ok (a - b)%Z else if checked then Panic "attempt to subtract with overflow" else Ok (a - b + 65536)%Z.
Definition as_u16 (n : nat) : Z := (Z.of_nat n mod 65536)%Z.
(** [usize], 64 bits *)
Definition usize_add (checked : bool) (a b : Z) : res Z :=
  if (a + b <? 18446744073709551616)%Z then Ok (a + b)%Z else if checked then Panic "attempt to add with overflow" else Ok (a + b - 18446744073709551616)%Z.
Definition usize_sub (checked : bool) (a b : Z) : res Z :=
  if (b <=? a)%Z then Ok (a - b)%Z else if checked then Panic "attempt to subtract with overflow" else Ok (a - b + 18446744073709551616)%Z.
(** ["x".repeat(n)]: more than [isize::MAX] bytes is a panic *)
Definition repeated (b : nat) (n : Z) : res text :=
  if (n <? 9223372036854775808)%Z then Ok (repeat b (Z.to_nat n)) else Panic "capacity overflow".
(** [&s[..n]] and [&s[n..]] *)
Definition str_prefix (s : text) (n : Z) : res text :=
  if (n <=? Z.of_nat (length s))%Z then str_slice s 0 (Z.to_nat n) else Panic "byte index is out of bounds".
Definition str_suffix (s : text) (n : Z) : res text :=
  if (n <=? Z.of_nat (length s))%Z then str_slice s (Z.to_nat n) (length s) else Panic "byte index is out of bounds".
Fixpoint joined (sep : text) (l : list text) : text :=
  match l with [] => [] | [x] => x | x :: r => x ++ sep ++ joined sep r end.

Section Tui.
Variable sy : styles.
(** the debug profile *)
Variable checked : bool.
(** the ornament crate's [Text::plain] and [Text::render] *)
Definition plain_text (l : list fragment) : text := concat (map fr_text l).
Definition render (f : fragment -> text) (l : list fragment) : text := concat (map f l).
(** tui.rs:58-65 [format_text] *)
Definition format_text (f : fragment) : text :=
  match fr_face f with
  | FDefault => fr_text f
  | FError => wrapped (sy_error sy) (fr_text f)
  | FSelection => wrapped (sy_selection sy) (fr_text f)
  | _ => fr_text f
  end.
(** tui.rs:255-258 *)
Definition format_match (f : fragment) : text := match fr_face f with FMatch => wrapped (sy_match sy) (fr_text f) | _ => fr_text f end.

(** tui.rs:83-87 [struct Term], with everything queued so far *)
Record term := mkTerm { t_conn : conn; t_exit : bool; t_size : Z * Z; t_out : list tcmd }.

(** tui.rs:194-197 *)
Definition header (width : Z) (item : witem) : res text :=
  let coords := dec (wi_start item) ++ [58] ++ dec (wi_end item) in
  a <- usize_sub checked width 5 ;;
  b <- usize_sub checked a (Z.of_nat (length (wi_buffer item))) ;;
  c <- usize_sub checked b (Z.of_nat (length coords)) ;;
  padding <- repeated 45 c ;;
  Ok (str "-[" ++ wi_buffer item ++ str "][" ++ coords ++ str "]" ++ padding).
(** tui.rs:205-211 *)
Definition line_view (width : Z) (line : list fragment) : res text :=
  let rendered := render format_text line in
  if (width <? Z.of_nat (sy_len sy line))%Z then str_prefix rendered width else Ok rendered.
(** tui.rs:200-214, the lines of all the lenses of an item, one after the other; [true]: leave the outer loop *)
Fixpoint draw_lines (width height : Z) (lines : list (list fragment)) (content : list text) (i : Z) : res (bool * list text * Z) :=
  match lines with
  | [] => Ok (false, content, i)
  | line :: r =>
      last <- u16_sub checked height 1 ;;
      if (i =? last)%Z then Ok (true, content, i)
      else v <- line_view width line ;; i <- u16_add checked i 1 ;; draw_lines width height r (content ++ [v]) i
  end.
Definition item_lines (item : witem) : list (list fragment) := concat (map wl_lines (wi_lenses item)).
(** tui.rs:191-216 *)
Fixpoint draw_items (width height : Z) (items : list witem) (content : list text) (i : Z) : res (list text) :=
  match items with
  | [] => Ok content
  | item :: r =>
      h <- header width item ;;
      i <- u16_add checked i 1 ;;
      '(stop, content, i) <- draw_lines width height (item_lines item) (content ++ [h]) i ;;
      if stop : bool then Ok content else draw_items width height r content i
  end.
(** tui.rs:293-329 [draw_status] *)
Definition status_line (s : cstate) : text := joined [194; 183] (map (fun i => plain_text (st_text i)) (cs_status s)).
Definition status_text (width : Z) (s : cstate) : res text :=
  let echo := match cs_echo s with Some t => t | None => [] end in
  let status := status_line s in
  let len := Z.of_nat (sy_len sy echo) in
  if (width <=? len)%Z then Ok (render format_text echo)
  else if (width <=? len + Z.of_nat (length status))%Z then
    skip <- usize_sub checked len width ;;
    skip <- usize_add checked skip 1 ;;
    rest <- str_suffix status skip ;;
    Ok (render format_text echo ++ [32] ++ rest)
  else
    a <- usize_sub checked width len ;;
    b <- usize_sub checked a (Z.of_nat (length status)) ;;
    padding <- repeated 32 b ;;
    Ok (render format_text echo ++ padding ++ status).
Definition draw_status (size : Z * Z) (s : cstate) : res (list tcmd) :=
  t <- status_text (fst size) s ;; Ok [TMove 0 (snd size); TPrint true t].
(** tui.rs:185-221 [draw_view] *)
Definition draw_view (size : Z * Z) (s : cstate) : res (list tcmd) :=
  content <- draw_items (fst size) (snd size) (cs_view s) [] 0 ;;
  status <- draw_status size s ;;
  Ok ([TClear; TMove 0 0; TPrint false (joined [13; 10] content)] ++ status).
(** tui.rs:223-246 [draw_hint] *)
Fixpoint hint_lines (height x y : Z) (lines : list (list fragment)) : res (list tcmd) :=
  match lines with
  | [] => Ok []
  | line :: r =>
      y' <- u16_add checked y 1 ;;
      rest <- (if (y' =? height)%Z then Ok [] else hint_lines height x y' r) ;;
      Ok ([TMove x y; TPrint true (render format_text line)] ++ rest)
  end.
Definition draw_hint (size : Z * Z) (lines : list (list fragment)) : res (list tcmd) :=
  first <- index lines 0 ;;
  x <- u16_sub checked (fst size) (as_u16 (length (chars (plain_text first)))) ;;
  y <- u16_sub checked (snd size) (as_u16 (length lines)) ;;
  hint_lines (snd size) x y lines.
(** tui.rs:248-291 [draw_menu] *)
Definition menu_item (width : Z) (selected : nat) (i : nat) (e : entry) : res (list tcmd) :=
  let item := render format_match (en_text e) in
  v <- (if (width <? Z.of_nat (length item))%Z then str_prefix item width else Ok item) ;;
  y <- u16_add checked 1 (as_u16 i) ;;
  Ok [TMove 0 y; TPrint (i =? selected) v; TClearLine].
Fixpoint menu_items (width : Z) (size : Z) (selected : nat) (i : nat) (es : list entry) : res (list tcmd) :=
  match es with
  | [] => Ok []
  | e :: r =>
      if (Z.of_nat i =? size)%Z then Ok []
      else a <- menu_item width selected i e ;; b <- menu_items width size selected (S i) r ;; Ok (a ++ b)
  end.
Definition menu_title (m : cmenu) : text := cm_title m ++ [58] ++ cm_search m.
Definition draw_menu (size : Z * Z) (m : cmenu) : res (list tcmd) :=
  let title := menu_title m in
  n <- usize_sub checked (fst size) (Z.of_nat (length title)) ;;
  padding <- repeated 32 n ;;
  display <- u16_sub checked (snd size) 1 ;;
  items <- menu_items (fst size) display (cm_selected m) 0 (cm_entries m) ;;
  Ok ([TClear; TMove 0 0; TPrint true (title ++ padding)] ++ items).

(** ** the loop *)
(** the keys of the crossterm crate; [TcOther]: tabulation, deletion, function keys and so on *)
Inductive tcode := TcChar (c : text) | TcBackspace | TcEnter | TcEsc | TcUp | TcDown | TcLeft | TcRight | TcOther.
Record tkey := mkTK { tk_ctrl : bool; tk_alt : bool; tk_shift : bool; tk_code : tcode }.
(** tui.rs:29-56 [ToKey] *)
Definition to_key (k : tkey) : option key_event :=
  let with_key x := Some (mkKey (tk_ctrl k) (tk_alt k) (tk_shift k) x) in
  match tk_code k with
  | TcChar c => with_key (KChar c)
  | TcBackspace => with_key KBackspace | TcEnter => with_key KEnter | TcEsc => with_key KEscape
  | TcUp => with_key KUp | TcDown => with_key KDown | TcLeft => with_key KLeft | TcRight => with_key KRight
  | TcOther => None
  end.
(** tui.rs:67-76 [enum Event] *)
Inductive tevent := EDrawHint (l : list (list fragment)) | EDrawMenu (m : cmenu) | EDrawStatus | EDrawView | EError (msg : text) | EInput (k : tkey) | EResize (w h : Z).
(** tui.rs:143-151: what a message from the server makes the client draw *)
Definition on_message (v : cevent) : list tevent :=
  match v with
  | CEcho _ | CView _ => [EDrawView]
  | CHint l => [EDrawHint l]
  | CInfo _ _ | CNoop => []
  | CMenu m => [EDrawMenu m]
  | CStatus _ => [EDrawStatus]
  end.
Definition call (o : cop) (t : term) : res term := c <- cstep checked (t_conn t) o ;; Ok (mkTerm c (t_exit t) (t_size t) (t_out t)).
Definition queue (cs : list tcmd) (t : term) : term := mkTerm (t_conn t) (t_exit t) (t_size t) (t_out t ++ cs).
Definition show_view (t : term) : res term := cs <- draw_view (t_size t) (co_state (t_conn t)) ;; Ok (queue cs t).
Definition show_menu (m : cmenu) (t : term) : res term := cs <- draw_menu (t_size t) m ;; Ok (queue cs t).
(** [String::pop]: without the last character *)
Definition popped (s : text) : text := concat (removelast (chars s)).
(** the menu after it has been moved: [state().menu.unwrap()] *)
Definition new_menu (t : term) : res term := m <- unwrap (cs_menu (co_state (t_conn t))) "called `Option::unwrap()` on a `None` value" ;; show_menu m t.
(** tui.rs:347-439 [handle_input] *)
Definition handle_input (k : tkey) (t : term) : res term :=
  match to_key k with
  | None => Ok t
  | Some key =>
      match cs_menu (co_state (t_conn t)) with
      | Some menu =>
          match ke_key key with
          | KEscape => t <- call OpCancel t ;; show_view t
          | KEnter => t <- call OpMenuSelect t ;; show_view t
          | KUp => t <- call OpPrevious t ;; new_menu t
          | KDown => t <- call OpNext t ;; new_menu t
          | KChar c => call (OpMenu (cm_command menu) (cm_search menu ++ c)) t
          | KBackspace => call (OpMenu (cm_command menu) (popped (cm_search menu))) t
          | _ => Ok t
          end
      | None =>
          match ke_key key with
          | KChar c =>
              if eqb c (str "q") && ke_alt key then Ok (mkTerm (t_conn t) true (t_size t) (t_out t))
              else if eqb c (str "d") && ke_ctrl key then call (OpExec (str "editor:debug('coucou')")) t
              else if eqb c (str "e") && ke_ctrl key then call (OpExec (str "editor:debug(undefined)")) t
              else if eqb c (str "f") && ke_ctrl key then call (OpMenu (str "open") []) t
              else if eqb c (str "p") && ke_ctrl key then call (OpMenu [] []) t
              else if eqb c (str "v") && ke_ctrl key then call (OpMenu (str "view_select") []) t
              else if eqb c (str "x") && ke_ctrl key then Panic "panic mode activated!"
              else call (OpKeys [key]) t
          | KEscape => call (OpKeys [key]) t
          | _ => Ok t
          end
      end
  end.
(** tui.rs:331-341 [resize] *)
Definition resize (w h : Z) (t : term) : res term :=
  if (fst (t_size t) =? w)%Z && (snd (t_size t) =? h)%Z then Ok t
  else
    let t := mkTerm (t_conn t) (t_exit t) (w, h) (t_out t) in
    match cs_menu (co_state (t_conn t)) with Some m => show_menu m t | None => show_view t end.
(** tui.rs:158-173 *)
Definition handle_event (v : tevent) (t : term) : res term :=
  match v with
  | EDrawMenu m => show_menu m t
  | EDrawView => show_view t
  | EDrawHint l => cs <- draw_hint (t_size t) l ;; Ok (queue cs t)
  | EDrawStatus => cs <- draw_status (t_size t) (co_state (t_conn t)) ;; Ok (queue cs t)
  | EError m => call (OpExec (str "editor:error(" ++ m ++ str ")")) t
  | EInput k => handle_input k t
  | EResize w h => resize w h t
  end.
(** tui.rs:90-103 [new]: the files are asked for before anything else *)
Fixpoint ask_files (files : list text) (t : term) : res term :=
  match files with [] => Ok t | f :: r => t <- call (OpEdit f false) t ;; ask_files r t end.
Definition term_new (size : Z * Z) (files : list text) : res term := ask_files files (mkTerm conn0 false size []).
(** tui.rs:105-175 [start]: a message from the server updates the connection's state (connection.rs:146-157) before the drawing
    event is queued; input and resizing are queued; the loop handles one event at a time and ends after the exit key.  The
    queue (bounded to 100) makes its senders wait, which is not represented. *)
Record tsys := mkTS { ts_term : term; ts_queue : list tevent }.
Inductive tmove := MvMessage (e : event) | MvKey (k : tkey) | MvResize (w h : Z) | MvReadError (msg : text) | MvConnError (msg : text) | MvHandle.
Definition tstep (m : tmove) (s : tsys) : res tsys :=
  match m with
  | MvMessage e =>
      let t := ts_term s in
      c <- cstep checked (t_conn t) (OpEvent e) ;;
      Ok (mkTS (mkTerm c (t_exit t) (t_size t) (t_out t)) (ts_queue s ++ on_message (snd (event_update (co_state (t_conn t)) e))))
  | MvKey k => Ok (mkTS (ts_term s) (ts_queue s ++ [EInput k]))
  | MvResize w h => Ok (mkTS (ts_term s) (ts_queue s ++ [EResize w h]))
  | MvReadError m => Ok (mkTS (ts_term s) (ts_queue s ++ [EError (str """event read: " ++ m ++ str """")]))
  | MvConnError m => Ok (mkTS (ts_term s) (ts_queue s ++ [EError m]))
  | MvHandle =>
      match ts_queue s with
      | v :: q => if t_exit (ts_term s) then Ok s else t <- handle_event v (ts_term s) ;; Ok (mkTS t q)
      | [] => Ok s
      end
  end.
Definition trun (ms : list tmove) (s : tsys) : res tsys := foldM (fun s m => tstep m s) ms s.
End Tui.
