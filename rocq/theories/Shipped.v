(** Model of the Lua scripts of the program: core/scripts/prelude.lua, editor.lua, utils.lua, keys.lua, as an instance of the
    interaction trees of Editor.v.  Definitions only.
    - Only the sources the program itself runs are interpreted: the table of mod.rs:160-169, [editor:add_client(id)]
      (mod.rs:193), [editor:remove_client(id)] (mod.rs:200) and the key handler (mod.rs:354-360).  What any other source does
      (a script sent by a client, a session name that ends the string literal) is a parameter.
    - The order in which [pairs] visits a table is a parameter. *)
From Coq Require Import String List Arith ZArith Bool.
From Verif Require Import Base Maps Coords Selection Json Proto Keys Fmt View Core Modal Payload Menu Editor.
Import ListNotations.

(** the [text] of an item of the status line: a string, or the function of editor.lua:120-122 *)
Inductive ltext := TString (x : text) | TClient.
(** editor.lua:115-126: what the scripts keep for a client: its status line (name, index, text) and its key handler *)
Record lclient := mkLC { lc_status : amap text (Z * ltext); lc_handler : handler }.
(** the globals [env] and [editor.clients] *)
Record lstate := mkLS { ls_env : option (text * text); ls_clients : amap nat lclient }.

(** the rest of Lua: other sources, the order of [pairs], the texts of its errors *)
Record lua_rest := {
  lr_other : text -> lstate -> script lstate;
  lr_pairs : list (text * (Z * ltext)) -> list (text * (Z * ltext));
  lr_lines : list text -> list text;
  lr_nil : text;
  lr_convert : text }.

(** ** utils.lua *)
(** utils.lua:5-16 [asstring]: a string is not callable, so [pcall] fails and the string is returned; the function of
    editor.lua:120-122 fails without [env], and is then returned itself: [None] *)
Definition asstring (env : option (text * text)) (x : ltext) : option text :=
  match x with
  | TString x => Some x
  | TClient => match env with Some (session, client) => Some (str "[" ++ client ++ str "@" ++ session ++ str "]") | None => None end
  end.
(** utils.lua:36-44 [max_length] *)
Definition max_length (l : list text) : nat := fold_left (fun m x => if m <? length x then length x else m) l 0.

(** ** editor.lua *)
Section Scripts.
Variable R : lua_rest.

(** editor.lua:48-60 [get_status_line], [push_status_line]; converting a function to a string fails (mod.rs:66) *)
Definition status_of (env : option (text * text)) (l : amap text (Z * ltext)) : option (list (Z * text)) :=
  all_some (map (fun e => match asstring env (snd (snd e)) with Some x => Some (fst (snd e), x) | None => None end) (lr_pairs R l)).
Definition push_status_line (id : nat) (s : lstate) (k : script lstate) : script lstate :=
  match get (ls_clients s) id with
  | None => SFail (lr_nil R) s
  | Some c => match status_of (ls_env s) (lc_status c) with
              | None => SFail (lr_convert R) s
              | Some items => SCall (LStatus id items) (fun _ => k)
              end
  end.
(** the characters of the frame *)
Definition c_dash : text := [226; 148; 128].      (* U+2500 *)
Definition c_bar : text := [226; 148; 130].       (* U+2502 *)
Definition c_nw : text := [226; 149; 173].        (* U+256D *)
Definition c_ne : text := [226; 149; 174].        (* U+256E *)
Definition c_se : text := [226; 149; 175].        (* U+256F *)
Definition c_sw : text := [226; 149; 176].        (* U+2570 *)
(** [string.rep]: nothing for a negative count *)
Definition rep (x : text) (n : nat) : text := concat (repeat x n).
(** editor.lua:64-82 [show_hint] *)
Definition frame_title (width : nat) (line : text) : text := c_nw ++ c_dash ++ str " " ++ line ++ str " " ++ rep c_dash (width - length line - 2) ++ c_dash ++ c_ne.
Definition frame_line (width : nat) (line : text) : text := c_bar ++ str " " ++ (line ++ rep (str " ") (width - length line)) ++ str " " ++ c_bar.
Definition frame_end (width : nat) : text := c_sw ++ c_dash ++ rep c_dash width ++ c_dash ++ c_se.
Definition hint_box (lines : list text) (framed : bool) : list text :=
  let width := max_length lines in
  if framed then
    match lines with [] => [] | title :: lines => frame_title width title :: map (frame_line width) lines end ++ [frame_end width]
  else map (fun line => line ++ rep (str " ") (width - length line)) lines.
(** keys.lua:16-27, 120-134: the titles of the modes that have a hint, and the descriptions of their mappings *)
Definition mode_title (mode : text) : text :=
  if eqb mode (str "moveto") then str "move to" else if eqb mode (str "extendto") then str "extend to" else [].
Definition goto_desc : amap text text := [(str "h", str "line begin"); (str "l", str "line end")].
(** keys.lua:157-171 [show_mode_hint] *)
Definition mode_hint (mode : text) : list text :=
  hint_box (mode_title mode :: lr_lines R (map (fun e => fst e ++ str ": " ++ snd e) goto_desc)) true.

(** editor.lua:113-128 [add_client] *)
Definition add_client_lua (id : nat) (s : lstate) : script lstate :=
  let c := mkLC [(str "client", (100%Z, TClient))] (handler_new id) in
  let s := mkLS (ls_env s) (set (ls_clients s) id c) in
  push_status_line id s (SDone s).
(** editor.lua:131-133 [remove_client] *)
Definition remove_client_lua (id : nat) (s : lstate) : script lstate := SDone (mkLS (ls_env s) (del (ls_clients s) id)).

(** keys.lua:173-184 [set_status] *)
Definition set_status (display mode : text) (l : amap text (Z * ltext)) : amap text (Z * ltext) :=
  let l := if has l (str "keys") then l else set l (str "keys") (80%Z, TString []) in
  let l := if has l (str "mode") then l else set l (str "mode") (90%Z, TString []) in
  let index n d := match get l n with Some (i, _) => i | None => d end in
  let l := set l (str "keys") (index (str "keys") 80%Z, TString display) in
  set l (str "mode") (index (str "mode") 90%Z, TString mode).
(** the method called by an effect of the handler *)
Definition method_of (c : call) : lcall :=
  match c with
  | CMove id d x => LMove id d x
  | CMessage (Some id) x => LMessage id x
  | CError (Some id) _ x => LError id x
  | CDeleteSelection id => LDelete id
  | _ => LDebug []                                 (* the handler asks for nothing else, see Modal.apply_mapped *)
  end.
(** the effects of a key, in order; [s] is the state to leave *)
Fixpoint perform (es : list effect) (s : lstate) : script lstate :=
  match es with
  | [] => SDone s
  | ECall c :: es => SCall (method_of c) (fun _ => perform es s)
  | EHint id mode :: es => SCall (LHint id (mode_hint mode)) (fun _ => perform es s)
  | EStatus id display mode :: es =>
      match get (ls_clients s) id with
      | None => SFail (lr_nil R) s
      | Some c =>
          let s := mkLS (ls_env s) (set (ls_clients s) id (mkLC (set_status display mode (lc_status c)) (lc_handler c))) in
          push_status_line id s (perform es s)
      end
  end.
(** mod.rs:354-360 and keys.lua:186-202 *)
Definition key_lua (id : nat) (k : key_event) (s : lstate) : script lstate :=
  match get (ls_clients s) id with
  | None => SFail (lr_nil R) s
  | Some c =>
      match handle_key (event_str k) (lc_handler c) with
      | None => SFail (lr_nil R) s
      | Some (h, es) => perform es (mkLS (ls_env s) (set (ls_clients s) id (mkLC (lc_status c) h)))
      end
  end.

(** ** the sources the program runs *)
Fixpoint strip (p s : text) : option text :=
  match p, s with
  | [], _ => Some s
  | a :: p, b :: s => if a =? b then strip p s else None
  | _, [] => None
  end.
Fixpoint span (f : byte -> bool) (s : text) : text * text :=
  match s with
  | b :: r => if f b then let '(x, y) := span f r in (b :: x, y) else ([], s)
  | [] => ([], [])
  end.
(** a byte that stands for itself in a Lua string literal *)
Definition literal_byte (b : byte) : bool := negb ((b =? 34) || (b =? 92) || (b =? 10) || (b =? 13)).
Definition env_head : text := [LF] ++ spaces 20 ++ str "env = {" ++ [LF] ++ spaces 24 ++ str "session = """.
Definition env_mid : text := str """," ++ [LF] ++ spaces 24 ++ str "client = """.
Definition env_tail : text := str """," ++ [LF] ++ spaces 20 ++ str "}" ++ [LF] ++ spaces 20.
Definition read_env (src : text) : option (text * text) :=
  match strip env_head src with
  | None => None
  | Some src =>
      let '(session, src) := span literal_byte src in
      match strip env_mid src with
      | None => None
      | Some src =>
          let '(client, src) := span literal_byte src in
          if eqb src env_tail then Some (session, client) else None
      end
  end.
(** [f(n)] *)
Definition read_call (f src : text) : option nat :=
  match strip f src with
  | None => None
  | Some src => let '(n, src) := span digit src in if eqb src (str ")") && negb (eqb n []) then Some (value n) else None
  end.
Definition exec_source (src : text) (s : lstate) : script lstate :=
  match read_env src with
  | Some e => SDone (mkLS (Some e) (ls_clients s))
  | None =>
      match read_call (str "editor:add_client(") src with
      | Some id => add_client_lua id s
      | None =>
          match read_call (str "editor:remove_client(") src with
          | Some id => remove_client_lua id s
          | None => lr_other R src s
          end
      end
  end.
Definition shipped : lua := {| lu_state := lstate; lu_exec := exec_source; lu_key := key_lua |}.

(** prelude.lua; [path] is the value of [package.path] *)
Definition prelude (path : text) : script lstate :=
  SCall (LDebug (str "lua state ready")) (fun _ => SCall (LDebug (str "lua path: " ++ path)) (fun _ => SDone (mkLS None []))).
End Scripts.
