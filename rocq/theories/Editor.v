(** Model of core/src/editor/mod.rs (the editor: dispatch of the requests, menus, scripts) and core/src/editor/command.rs
    (the menus).  Definitions only.
    - Lua is a dependency (crate rlua).  Running a piece of Lua is an interaction tree: it calls methods of the core or of
      the editor, gets their answers, and ends normally or with an error.  What the trees are is a parameter: the scripts,
      the global state of Lua and the text sent by clients are arbitrary.  A script that never ends is not represented.
    - A panic in a method called by Lua unwinds through rlua (documented): it ends the program.
    - The error texts of serde are parameters. *)
From Coq Require Import String List Arith ZArith Bool.
From Verif Require Import Base PieceTable Coords Utf8 Diff Selection Maps StackMap Fmt Buffer View Json Proto Keys Core Payload Menu.
Import ListNotations.

(** the rest of the world, which may change between two calls: the file system, and the files found by the crate ignore
    under a directory, as paths relative to it (command.rs:96-108) *)
Record world := { w_disk : disk; w_walk : text -> list text }.
(** texts of the errors of serde: for a line that is not a request, for parameters of the wrong type *)
Record serde := { se_line : text -> text; se_params : text -> json -> text }.

(** the methods a script can call: core.rs:659-763, mod.rs:58-90 *)
Inductive lcall :=
| LDebug (x : text) | LMessage (client : nat) (x : text) | LError (client : nat) (x : text) | LContext (client : nat)
| LScratch (client : nat) (name content : text) | LEdit (client : nat) (name : text) (scratch : bool) | LAppend (b x : text)
| LMove (client : nat) (dir : motion) (extend : bool) | LDelete (client : nat)
| LStatus (client : nat) (items : list (Z * text)) | LHint (client : nat) (lines : list text).
Inductive script (S : Type) :=
| SDone (s : S)
| SFail (x : text) (s : S)
| SCall (c : lcall) (k : reply -> script S).
Arguments SDone {S}. Arguments SFail {S}. Arguments SCall {S}.
Record lua := {
  lu_state : Type;
  (** [load(source).exec()] *)
  lu_exec : text -> lu_state -> script lu_state;
  (** mod.rs:354-360: the key handler of a client *)
  lu_key : nat -> key_event -> lu_state -> script lu_state }.

(** everything that is broadcast *)
Inductive enotif := OCore (n : notif) | OMenu (m : menu_info) | OStatus (l : list status_item) | OHint (l : list rich).
Record esent := mkES { o_to : option (list nat); o_what : enotif }.

(** command.rs:31-216 [default_commands] *)
Definition prompt_menu (c t x : text) (a : action) : text * menu := (c, mkMenuM c t (Prompt x a) []).
Definition provider_menu (c t : text) (p : provider) : text * menu := (c, mkMenuM c t (Provider p) []).
Definition default_commands : amap text menu :=
  [provider_menu [] (str "command") PCommands;
   provider_menu (str "open") (str "file") PFiles;
   prompt_menu (str "scratch") (str "scratch") (str "New scratch buffer name.") AScratch;
   provider_menu (str "view_select") (str "view") PViews;
   provider_menu (str "view_add") (str "buffer") PBuffersAdd;
   provider_menu (str "view_remove") (str "buffer") PBuffersRemove;
   prompt_menu (str "exec") (str "lua") (str "Lua script source.") AExec].
(** command.rs:35-91: the entries of the command menu *)
Definition command_entries : list item :=
  [mkItem (str "open") (str "Open file") (Some (str "Open and read a new file.")) ASub;
   mkItem (str "quit") (str "Quit") (Some (str "Quit the current client.")) AQuit;
   mkItem (str "scratch") (str "New scratch") (Some (str "Create a new scratch buffer.")) ASub;
   mkItem (str "view_select") (str "Change view") (Some (str "Select an existing view or create a new one.")) ASub;
   mkItem (str "view_delete") (str "Delete view") (Some (str "Delete the current view.")) AViewDelete;
   mkItem (str "view_add") (str "Add to view") (Some (str "Add another buffer to the current view.")) ASub;
   mkItem (str "view_remove") (str "Remove from the view.") (Some (str "Remove a buffer from the current view.")) ASub;
   mkItem (str "exec") (str "Execute script.") (Some (str "Execute the lua script source.")) ASub].
Definition plain_item (a : action) (s : text) : item := mkItem s s None a.
(** command.rs:93-196: the entries the providers compute *)
Definition provide (p : provider) (w : world) (k : core) : list item :=
  match p with
  | PCommands => command_entries
  | PFiles => map (plain_item AOpen) (w_walk w (k_cwd k))
  | PViews =>
      map (plain_item AViewSelect)
        (keys (vmap k) ++ List.filter (fun b => negb (existsb (eqb (view_key (for_buffer b))) (keys (vmap k)))) (keys (k_buffers k)))
  | PBuffersAdd => map (plain_item AViewAdd) (keys (k_buffers k))
  | PBuffersRemove => map (plain_item AViewRemove) (keys (k_buffers k))
  end.
(** menu.rs:341-351 [populate] *)
Definition populate (w : world) (k : core) (m : menu) : menu :=
  mkMenuM (mn_command m) (mn_title m) (mn_source m)
    (match mn_source m with Prompt x a => [mkItem [] x None a] | Provider p => provide p w k end).

Section Editor.
Variable G : Graphemes.
Variable pol : policy.
Variable u : regex_crate.
Variable se : serde.
Variable L : lua.

(** mod.rs:93-99 [struct Editor], and what was broadcast so far, oldest first *)
Record editor := mkEd {
  ed_session : text;
  ed_menus : amap text menu;
  ed_stopped : list nat;
  ed_core : core;
  ed_lua : lu_state L;
  ed_out : list esent }.
Definition set_menus (e : editor) (x : amap text menu) : editor := mkEd (ed_session e) x (ed_stopped e) (ed_core e) (ed_lua e) (ed_out e).
Definition set_stopped (e : editor) (x : list nat) : editor := mkEd (ed_session e) (ed_menus e) x (ed_core e) (ed_lua e) (ed_out e).
Definition set_lua (e : editor) (x : lu_state L) : editor := mkEd (ed_session e) (ed_menus e) (ed_stopped e) (ed_core e) x (ed_out e).
Definition send (e : editor) (to : option (list nat)) (x : enotif) : editor :=
  mkEd (ed_session e) (ed_menus e) (ed_stopped e) (ed_core e) (ed_lua e) (ed_out e ++ [mkES to x]).
(** a call of the core: what it broadcasts is broadcast *)
Definition set_core (e : editor) (k : core) : editor :=
  mkEd (ed_session e) (ed_menus e) (ed_stopped e) k (ed_lua e)
    (ed_out e ++ map (fun s => mkES (m_to s) (OCore (m_what s))) (skipn (length (k_sent (ed_core e))) (k_sent k))).
Definition on_core (w : world) (c : call) (e : editor) : res (reply * editor) :=
  '(r, k) <- run_call G pol (w_disk w) c (ed_core e) ;; Ok (r, set_core e k).
Definition do_core (w : world) (c : call) (e : editor) : res editor := '(_, e) <- on_core w c e ;; Ok e.

(** mod.rs:62-73: the items sorted by index *)
Definition status_items (l : list (Z * text)) : list status_item :=
  sort_by (fun a b => (st_index a ?= st_index b)%Z) (map (fun e => mkStatus (fst e) [mkFrag (snd e) FDefault]) l).
(** one method called by a script *)
Definition lua_call (w : world) (c : lcall) (e : editor) : res (reply * editor) :=
  match c with
  | LDebug x => on_core w (CDebug x) e
  | LMessage id x => on_core w (CMessage (Some id) x) e
  | LError id x => on_core w (CError (Some id) (str "lua") x) e
  | LContext id => on_core w (CGetContext id) e
  | LScratch id n x => on_core w (CScratch id n x) e
  | LEdit id n s => on_core w (CEdit id n s) e
  | LAppend b x => on_core w (CAppend b x) e
  | LMove id m x => on_core w (CMove id m x) e
  | LDelete id => on_core w (CDeleteSelection id) e
  | LStatus id l => Ok (RUnit, send e (Some [id]) (OStatus (status_items l)))
  | LHint id l => Ok (RUnit, send e (Some [id]) (OHint (map (fun x => [mkFrag x FDefault]) l)))
  end.
(** a piece of Lua: [None] when it ended normally *)
Fixpoint run_script (w : world) (t : script (lu_state L)) (e : editor) : res (option text * editor) :=
  match t with
  | SDone s => Ok (None, set_lua e s)
  | SFail x s => Ok (Some x, set_lua e s)
  | SCall c k => '(r, e) <- lua_call w c e ;; run_script w (k r) e
  end.

(** mod.rs:160-169: the table of the client and the session, spliced in a Lua source *)
Definition spaces (n : nat) : text := repeat 32 n.
Definition env_source (session : text) (client : nat) : text :=
  [LF] ++ spaces 20 ++ str "env = {" ++ [LF] ++ spaces 24 ++ str "session = """ ++ session ++ str """," ++ [LF]
  ++ spaces 24 ++ str "client = """ ++ dec client ++ str """," ++ [LF] ++ spaces 20 ++ str "}" ++ [LF] ++ spaces 20.
(** mod.rs:154-182 [exec_lua] *)
Definition exec_lua (w : world) (source : text) (client : nat) (f : lu_state L -> script (lu_state L)) (e : editor) : res (option text * editor) :=
  '(r, e) <- run_script w (lu_exec L (env_source (ed_session e) client) (ed_lua e)) e ;;
  '(r, e) <- (match r with None => run_script w (f (ed_lua e)) e | Some x => Ok (Some x, e) end) ;;
  match r with
  | None => Ok (None, e)
  | Some x =>
      e <- do_core w (CDebug (str "client " ++ dec client ++ str ": exec error: " ++ source ++ [LF] ++ str "<<<<<<<" ++ [LF] ++ x ++ [LF] ++ str ">>>>>>>")) e ;;
      e <- do_core w (CError (Some client) (str "exec") x) e ;;
      Ok (Some x, e)
  end.

(** mod.rs:101-148 [Editor::new]; [args] is the command line, [scripts] what loading the scripts of the program does.  The
    scripts load ([expect]). *)
Definition editor_new (w : world) (session cwd args : text) (s : lu_state L) (scripts : script (lu_state L)) : res editor :=
  k <- editor_init G cwd args ;;
  '(r, e) <- run_script w scripts (mkEd session default_commands [] k s (map (fun s => mkES (m_to s) (OCore (m_what s))) (k_sent k))) ;;
  match r with None => Ok e | Some _ => Panic "load prelude script" end.
(** mod.rs:184-195 [add_client] *)
Definition editor_add_client (w : world) (id : nat) (e : editor) : res editor :=
  e <- do_core w (CJoin id) e ;;
  '(_, e) <- exec_lua w (str "add_client") id (lu_exec L (str "editor:add_client(" ++ dec id ++ str ")")) e ;;
  Ok e.
(** mod.rs:197-202 [remove_client] *)
Definition editor_remove_client (w : world) (id : nat) (e : editor) : res editor :=
  e <- do_core w (CLeave id) e ;;
  '(_, e) <- exec_lua w (str "remove_client") id (lu_exec L (str "editor:remove_client(" ++ dec id ++ str ")")) e ;;
  Ok e.
(** mod.rs:204-208 [removed_clients]; the set in any order *)
Definition removed_clients (e : editor) : list nat * editor := (ed_stopped e, set_stopped e []).

(** what a command answers: an error or nothing *)
Definition outcome := option Proto.error.
(** mod.rs:242-249 [command_edit] *)
Definition command_edit (w : world) (id : nat) (p : edit_params) (e : editor) : res (outcome * editor) :=
  e <- do_core w (CEdit id (ep_name p) (ep_scratch p)) e ;; Ok (None, e).
(** mod.rs:251-258 [command_quit] *)
Definition command_quit (w : world) (id : nat) (e : editor) : res (outcome * editor) :=
  e <- do_core w (CLeave id) e ;;
  Ok (None, set_stopped e (if existsb (Nat.eqb id) (ed_stopped e) then ed_stopped e else ed_stopped e ++ [id])).
(** mod.rs:260-296: errors of the core *)
Definition core_outcome (r : reply) : outcome := match r with RErr x => Some (invalid_request (cerr_str x)) | _ => None end.
Definition command_view (w : world) (id : nat) (v : text) (e : editor) : res (outcome * editor) :=
  '(r, e) <- on_core w (CView id v) e ;; Ok (core_outcome r, e).
Definition command_view_delete (w : world) (id : nat) (e : editor) : res (outcome * editor) :=
  e <- do_core w (CViewDelete id) e ;; Ok (None, e).
Definition command_view_add (w : world) (id : nat) (b : text) (e : editor) : res (outcome * editor) :=
  '(r, e) <- on_core w (CViewAdd id b) e ;; Ok (core_outcome r, e).
Definition command_view_remove (w : world) (id : nat) (b : text) (e : editor) : res (outcome * editor) :=
  '(r, e) <- on_core w (CViewRemove id b) e ;; Ok (core_outcome r, e).
(** command.rs:12-29 [submenu_action] and mod.rs:298-324 [command_menu]: fill the menu, send it *)
Definition show_menu (w : world) (id : nat) (m : menu) (key search : text) (refill : bool) (e : editor) : res editor :=
  let m := if refill then populate w (ed_core e) m else m in
  let e := set_menus e (set (ed_menus e) key m) in
  x <- menu_notification u m search ;;
  Ok (send e (Some [id]) (OMenu x)).
Definition submenu_action (w : world) (id : nat) (key : text) (e : editor) : res (outcome * editor) :=
  m <- unwrap (get (ed_menus e) key) "called Option::unwrap on None" ;;
  e <- show_menu w id m key [] true e ;;
  Ok (None, e).
Definition command_menu (w : world) (id : nat) (p : menu_params) (e : editor) : res (outcome * editor) :=
  match get (ed_menus e) (mp_command p) with
  | None => Ok (Some (invalid_params (str "unknown command: " ++ mp_command p)), e)
  | Some m =>
      e <- show_menu w id m (mp_command p) (mp_search p) (eqb (mp_search p) []) e ;;
      Ok (None, e)
  end.
(** mod.rs:369-376 [command_exec] *)
Definition command_exec (w : world) (id : nat) (source : text) (e : editor) : res (outcome * editor) :=
  '(r, e) <- exec_lua w (str "exec") id (lu_exec L source) e ;;
  Ok (match r with None => None | Some x => Some (mkErr 1 (str "exec error") (Some (JStr x))) end, e).
(** command.rs: the action of an entry *)
Definition run_action (w : world) (a : action) (choice : text) (id : nat) (e : editor) : res (outcome * editor) :=
  match a with
  | ASub => submenu_action w id choice e
  | AQuit => command_quit w id e
  | AViewDelete => command_view_delete w id e
  | AOpen => command_edit w id (mkEdit choice false) e
  | AScratch => command_edit w id (mkEdit choice true) e
  | AViewSelect => command_view w id choice e
  | AViewAdd => command_view_add w id choice e
  | AViewRemove => command_view_remove w id choice e
  | AExec => command_exec w id choice e
  end.
(** mod.rs:326-346 [command_menu_select] *)
Definition command_menu_select (w : world) (id : nat) (p : select_params) (e : editor) : res (outcome * editor) :=
  match get (ed_menus e) (sp_command p) with
  | None => Ok (Some (invalid_params (str "unknown command: " ++ sp_command p)), e)
  | Some m =>
      let entry := menu_get m (sp_choice p) in
      let entry := match entry with None => if is_prompt m then menu_get m [] else None | _ => entry end in
      match entry with
      | None => Ok (Some (invalid_params (str "unknown choice: " ++ sp_choice p)), e)
      | Some i => run_action w (it_action i) (sp_choice p) id e
      end
  end.
(** mod.rs:348-367 [command_keys] *)
Fixpoint command_keys (w : world) (id : nat) (ks : list key_event) (e : editor) : res (outcome * editor) :=
  match ks with
  | [] => Ok (None, e)
  | k :: r =>
      '(x, e) <- exec_lua w (str "keys") id (lu_key L id k) e ;;
      match x with
      | None => command_keys w id r e
      | Some x =>
          e <- do_core w (CError (Some id) (str "key handler") x) e ;;
          Ok (Some (internal_error x), e)
      end
  end.

(** mod.rs:210-240 [handle], jsonrpc.rs:350-362 [response!].  The answer of a command is null, which always serializes. *)
Definition answer (i : id) (r : res (outcome * editor)) : res (response * editor) :=
  '(o, e) <- r ;; Ok (new_response i (match o with None => inl JNull | Some x => inr x end), e).
Definition with_params {T} (dec : json -> option T) (r : request) (f : T -> editor -> res (outcome * editor)) (e : editor) : res (response * editor) :=
  answer (rq_id r)
    match params_of dec (rq_params r) with
    | Some (Some p) => f p e
    | Some None => Ok (Some (invalid_request (str "missing field: params")), e)
    | None => Ok (Some (invalid_params (se_params se (rq_method r) (match rq_params r with Some j => j | None => JNull end))), e)
    end.
Definition handle (w : world) (id : nat) (line : text) (e : editor) : res (response * editor) :=
  match parse_request line with
  | None =>
      e <- do_core w (CError (Some id) (str "protocol") (se_line se line ++ str ": " ++ line)) e ;;
      Ok (new_response IdNull (inr (invalid_request line)), e)
  | Some r =>
      if eqb (rq_method r) (str "edit") then with_params dec_edit r (command_edit w id) e
      else if eqb (rq_method r) (str "quit") then answer (rq_id r) (command_quit w id e)
      else if eqb (rq_method r) (str "view") then with_params dec_str r (command_view w id) e
      else if eqb (rq_method r) (str "view-delete") then answer (rq_id r) (command_view_delete w id e)
      else if eqb (rq_method r) (str "view-add") then with_params dec_str r (command_view_add w id) e
      else if eqb (rq_method r) (str "view-remove") then with_params dec_str r (command_view_remove w id) e
      else if eqb (rq_method r) (str "menu") then with_params dec_menu r (command_menu w id) e
      else if eqb (rq_method r) (str "menu-select") then with_params dec_select r (command_menu_select w id) e
      else if eqb (rq_method r) (str "keys") then with_params dec_keys r (command_keys w id) e
      else if eqb (rq_method r) (str "exec") then with_params dec_str r (command_exec w id) e
      else
        e <- do_core w (CError (Some id) (str "protocol") (str "unknown command: " ++ print_request r ++ [LF])) e ;;
        Ok (new_response (rq_id r) (inr (method_not_found (rq_method r))), e)
  end.
End Editor.
