(** Model of core/src/editor/core.rs: the state shared by all clients and the operations on it.  Definitions only.
    - [Rc<RefCell<View>>]: no view is ever mutated after it was shared (modify_view works on a clone), so views are
      values;
    - the mutex is never taken twice by one thread; it does not appear;
    - [debug_mode] (core.rs:155) is always true;
    - the logger is not modelled;
    - iteration over hash maps is in the order of the association lists, which is arbitrary: see [shuffle]. *)
From Coq Require Import String List Arith Bool Permutation.
From Verif Require Import Base PieceTable Coords Utf8 Diff Selection Maps StackMap Fmt Buffer View Normalize.
Import ListNotations.

(** core.rs:93-97 [struct ClientContext] *)
Record client := mkCl { c_view : view; c_sels : amap text (amap text (list sel)) }.

(** remote/src/protocol.rs:60-65: the notifications of the core. *)
Inductive notif :=
| NEcho (t : text) (is_error : bool)
| NInfo (client : text) (cwd : text)
| NView (items : list pitem).
(** core.rs:33-40 [Notifier::broadcast]: [None] is every client *)
Record sent := mkSent { m_to : option (list nat); m_what : notif }.

(** core.rs:99-104 [struct CoreState], and the notifications emitted so far, oldest first *)
Record core := mkCore {
  k_cwd : text;
  k_clients : smap nat client;
  k_buffers : amap text buffer;
  k_views : smap text view;
  k_sent : list sent }.

Definition set_clients (k : core) (x : smap nat client) : core := mkCore (k_cwd k) x (k_buffers k) (k_views k) (k_sent k).
Definition set_buffers (k : core) (x : amap text buffer) : core := mkCore (k_cwd k) (k_clients k) x (k_views k) (k_sent k).
Definition set_views (k : core) (x : smap text view) : core := mkCore (k_cwd k) (k_clients k) (k_buffers k) x (k_sent k).
Definition emit (k : core) (x : list sent) : core := mkCore (k_cwd k) (k_clients k) (k_buffers k) (k_views k) (k_sent k ++ x).
(** the clients' map, the recency stack untouched *)
Definition set_cmap (k : core) (m : amap nat client) : core := set_clients k (mkSM (sm_stack (k_clients k)) m).
Definition cmap (k : core) : amap nat client := sm_map (k_clients k).
Definition vmap (k : core) : amap text view := sm_map (k_views k).

(** core.rs:23-24 *)
Definition b_debug : text := str "*debug*".
Definition b_scratch : text := str "*scratch*".

(** core.rs:114-119 [enum Error] *)
Inductive cerr := EBuffer (name : text) | EView (id : text).
(** core.rs:121-131 *)
Definition cerr_str (e : cerr) : text :=
  match e with EBuffer n => str "buffer not found: " ++ n | EView n => str "view not found: " ++ n end.

(** core.rs:159-170 [Core::new] *)
Definition core_new (cwd : text) : core := mkCore cwd sm_new [] sm_new [].

(** core.rs:180-194 *)
Definition buffer_exists (k : core) (name : text) : bool := has (k_buffers k) name.
Definition view_exists (k : core) (id : text) : bool := has (vmap k) id.
(** core.rs:196-212 *)
Definition clients_with_buffer (k : core) (name : text) : list nat :=
  if negb (buffer_exists k name) then []
  else map fst (filter (fun e => contains_buffer (c_view (snd e)) name) (cmap k)).

(** [state.clients[&id]] *)
Definition the_client (k : core) (id : nat) : res client := unwrap (get (cmap k) id) "no entry found for key".

Section Core.
Variable G : Graphemes.
Variable pol : policy.
Variable d : disk.

(** core.rs:231-242 [notify_view_update]: all the contents are computed, then sent one by one (70-77) *)
Definition view_params (k : core) (id : nat) : res (list pitem) :=
  c <- the_client k id ;;
  to_notification_params G (c_view c) (k_buffers k) (get (c_sels c) (view_key (c_view c))).
Definition notify_view_update (ids : list nat) (k : core) : res core :=
  ps <- mapM (fun id => p <- view_params k id ;; Ok (id, p)) ids ;;
  Ok (emit k (map (fun e => mkSent (Some [fst e]) (NView (snd e))) ps)).

(** core.rs:325-328 [open_scratch] *)
Definition open_scratch (name content : text) (k : core) : core :=
  set_buffers k (set (k_buffers k) name (new_scratch name content)).
(** core.rs:330-333 [open_file] *)
Definition open_file (name path : text) (k : core) : res core :=
  b <- new_file d path ;; Ok (set_buffers k (set (k_buffers k) name b)).

(** core.rs:244-251 [append_to] *)
Definition append_to (name x : text) (k : core) : res core :=
  k <- (if negb (buffer_exists k name) then Ok (open_scratch name x k)
        else
          b <- unwrap (get (k_buffers k) name) "unreachable" ;;
          b <- buf_append x b ;;
          Ok (set_buffers k (set (k_buffers k) name b))) ;;
  notify_view_update (clients_with_buffer k name) k.
(** core.rs:253-259 [debug] *)
Definition debug (x : text) (k : core) : res core := append_to b_debug (x ++ [LF]) k.

(** core.rs:269-273, 283-287: who is concerned *)
Definition origin (c : option nat) : text := match c with Some id => dec id | None => str "*" end.
Definition addressee (c : option nat) : option (list nat) := match c with Some id => Some [id] | None => None end.
(** core.rs:261-273 [message], 48-52 [echo] *)
Definition message (c : option nat) (x : text) (k : core) : res core :=
  k <- append_to (str "*messages*") (origin c ++ str "|" ++ x ++ [LF]) k ;;
  Ok (emit k [mkSent (addressee c) (NEcho x false)]).
(** core.rs:275-290 [error]; normalize_error_message is in Normalize.v *)
Definition error (c : option nat) (tag x : text) (k : core) : res core :=
  let t := tag ++ str ": " ++ x in
  k <- append_to (str "*errors*") (origin c ++ str "|" ++ t ++ [LF]) k ;;
  Ok (emit k [mkSent (addressee c) (NEcho (normalize_error_message t) true)]).

(** core.rs:305-312: a cursor at the start of every buffer of a view *)
Definition fresh_sels (v : view) : amap text (list sel) := map (fun b => (b, [sel_new])) (view_buffers v).
(** core.rs:292-318 [add_client] *)
Definition add_client (id : nat) (k : core) : res core :=
  ctx <- (match sm_latest (k_clients k) with
          | Some c => the_client k c
          | None =>
              v <- unwrap (sm_latest_value (k_views k)) "called Option::unwrap on None" ;;
              Ok (mkCl v [(view_key v, fresh_sels v)])
          end) ;;
  '(_, m) <- sm_insert id ctx (k_clients k) ;;
  k <- debug (str "new client: " ++ dec id) (set_clients k m) ;;
  Ok (emit k [mkSent (Some [id]) (NInfo (dec id) (k_cwd k))]).
(** core.rs:320-323 [remove_client] *)
Definition remove_client (id : nat) (k : core) : res core :=
  debug (str "client left: " ++ dec id) (set_clients k (snd (sm_remove id (k_clients k)))).

(** core.rs:340-349: the selections a client gets for a new view *)
Definition with_view (v : view) (c : client) : client :=
  let m := match get (c_sels c) (view_key v) with Some m => m | None => [] end in
  mkCl (c_view c) (set (c_sels c) (view_key v) (fold_left (fun m b => or_insert m b [sel_new]) (view_buffers v) m)).
(** core.rs:335-350 [add_view] *)
Definition add_view (v : view) (k : core) : res core :=
  '(_, vs) <- sm_insert (view_key v) v (k_views k) ;;
  Ok (set_cmap (set_views k vs) (map_vals (fun _ => with_view v) (cmap k))).

(** core.rs:364-379: drop the buffers of a deleted view that no registered view shows *)
Fixpoint drop_buffers (bs : list text) (k : core) : res core :=
  match bs with
  | [] => Ok k
  | b :: r =>
      if existsb (fun e => contains_buffer (snd e) b) (vmap k) then drop_buffers r k
      else
        k <- debug (str "delete buffer: " ++ b) (set_buffers k (del (k_buffers k) b)) ;;
        drop_buffers r k
  end.
(** core.rs:352-393 [delete_view]; [None] is success *)
Definition delete_view (id : text) (k : core) : res (option cerr * core) :=
  if negb (view_exists k id) then Ok (Some (EView id), k)
  else
    let '(ov, vs) := sm_remove id (k_views k) in
    v <- unwrap ov "called Option::unwrap on None" ;;
    k <- debug (str "delete view: " ++ id) (set_views k vs) ;;
    let k := set_cmap k (map_vals (fun _ c => mkCl (c_view c) (del (c_sels c) id)) (cmap k)) in
    k <- drop_buffers (view_buffers v) k ;;
    k <- (match vmap k with
          | [] =>
              let k := match k_buffers k with [] => open_scratch b_scratch [] k | _ => k end in
              add_view (for_buffer b_scratch) k
          | _ => Ok k
          end) ;;
    latest <- unwrap (sm_latest_value (k_views k)) "get latest view" ;;
    let shows c := eqb (view_key (c_view c)) id in
    let ids := map fst (filter (fun e => shows (snd e)) (cmap k)) in
    let k := set_cmap k (map_vals (fun _ c => if shows c then mkCl latest (c_sels c) else c) (cmap k)) in
    k <- notify_view_update ids k ;;
    Ok (None, k).

(** core.rs:401-408: the selections move with the renamed view *)
Definition rename_sels (old new : text) (c : client) : client :=
  match get (c_sels c) old with
  | Some m => mkCl (c_view c) (set (del (c_sels c) old) new m)
  | None => c
  end.
(** core.rs:395-414 [modify_view] *)
Definition modify_view (id : text) (f : view -> view) (k : core) : res core :=
  v <- unwrap (get (vmap k) id) "no entry found for key" ;;
  let v' := f v in
  let old := view_key v in
  let new := view_key v' in
  if eqb old new then Ok k
  else
    k <- (if view_is_empty v' then Ok k
          else add_view v' (set_cmap k (map_vals (fun _ => rename_sels old new) (cmap k)))) ;;
    '(e, k) <- delete_view old k ;;
    match e with None => Ok k | Some _ => Panic "delete old view" end.

(** core.rs:456-481 [view] *)
Definition view_cmd (id : nat) (vid : text) (k : core) : res (option cerr * core) :=
  if view_exists k vid then
    v <- unwrap (get (vmap k) vid) "no entry found for key" ;;
    c <- unwrap (get (cmap k) id) "called Option::unwrap on None" ;;
    let k := set_cmap k (set (cmap k) id (mkCl v (c_sels c))) in
    k <- notify_view_update [id] k ;;
    Ok (None, k)
  else if buffer_exists k vid then
    let v := for_buffer vid in
    c <- unwrap (get (cmap k) id) "called Option::unwrap on None" ;;
    let k := set_cmap k (set (cmap k) id (mkCl v (c_sels c))) in
    let k := set_views k (sm_or_insert (view_key v) v (k_views k)) in
    k <- notify_view_update [id] k ;;
    Ok (None, k)
  else Ok (Some (EView vid), k).

(** [PathBuf::push]: an absolute path replaces *)
Definition path_join (cwd name : text) : text :=
  match name with
  | 47 :: _ => name
  | _ => match rev cwd with 47 :: _ => cwd ++ name | [] => name | _ => cwd ++ [47] ++ name end
  end.
(** core.rs:416-454 [edit] *)
Definition edit_cmd (id : nat) (name : text) (scratch : bool) (k : core) : res core :=
  let exists_ := buffer_exists k name in
  '(notify, k) <- (if scratch then Ok (false, if exists_ then k else open_scratch name [] k)
                   else if exists_ then
                     b <- unwrap (get (k_buffers k) name) "called Option::unwrap on None" ;;
                     '(reloaded, b) <- load_from_disk pol d b ;;
                     let k := set_buffers k (set (k_buffers k) name b) in
                     k <- (if reloaded then debug (str "reloaded from disk: " ++ name) k else Ok k) ;;
                     Ok (reloaded, k)
                   else
                     k <- open_file name (path_join (k_cwd k) name) k ;;
                     Ok (true, k)) ;;
  let v := for_buffer name in
  k <- add_view v k ;;
  '(e, k) <- view_cmd id (view_key v) k ;;
  match e with
  | Some _ => Panic "set view after edit"
  | None =>
      k <- debug (str "edit: " ++ name) k ;;
      if notify then
        notify_view_update (filter (fun i => negb (i =? id)) (clients_with_buffer k name)) k
      else Ok k
  end.

(** core.rs:483-486 *)
Definition delete_current_view (id : nat) (k : core) : res core :=
  c <- the_client k id ;;
  '(e, k) <- delete_view (view_key (c_view c)) k ;;
  match e with None => Ok k | Some _ => Panic "called Result::unwrap on Err" end.
(** core.rs:488-503 *)
Definition add_to_current_view (id : nat) (b : text) (k : core) : res (option cerr * core) :=
  if negb (buffer_exists k b) then Ok (Some (EBuffer b), k)
  else
    c <- the_client k id ;;
    k <- modify_view (view_key (c_view c)) (add_lens (mkLens b FWhole)) k ;;
    Ok (None, k).
(** core.rs:505-523 *)
Definition remove_from_current_view (id : nat) (b : text) (k : core) : res (option cerr * core) :=
  if negb (buffer_exists k b) then Ok (Some (EBuffer b), k)
  else
    c <- the_client k id ;;
    k <- modify_view (view_key (c_view c)) (fun v => if contains_buffer v b then remove_lens_group b v else v) k ;;
    Ok (None, k).

Definition sel_eqb (a b : sel) : bool :=
  (s_anchor a =? s_anchor b) && (s_cursor a =? s_cursor b) && (s_target a =? s_target b).
Fixpoint sels_eqb (a b : list sel) : bool :=
  match a, b with
  | [], [] => true
  | x :: a, y :: b => sel_eqb x y && sels_eqb a b
  | _, _ => false
  end.
(** core.rs:525-568 [move_cursor] *)
Definition move_cursor (id : nat) (dir : motion) (extend : bool) (k : core) : res core :=
  c <- the_client k id ;;
  let key := view_key (c_view c) in
  m <- unwrap (get (c_sels c) key) "no entry found for key" ;;
  m' <- mapM (fun e =>
          b <- unwrap (get (k_buffers k) (fst e)) "no entry found for key" ;;
          ss <- buffer_move G (b_content b) dir extend (snd e) ;;
          Ok (fst e, ss)) m ;;
  let moved := negb (forallb (fun p => sels_eqb (snd (fst p)) (snd (snd p))) (combine m m')) in
  let k := set_cmap k (set (cmap k) id (mkCl (c_view c) (set (c_sels c) key m'))) in
  if moved then notify_view_update [id] k else Ok k.

(** core.rs:594-612: delete the selections of each buffer of the view in turn.  Gives the deleted texts, the names of
    the modified buffers and the new buffers. *)
Fixpoint delete_in_buffers (m : amap text (list sel)) (bufs : amap text buffer)
  : res (list text * list text * amap text buffer) :=
  match m with
  | [] => Ok ([], [], bufs)
  | (name, ss) :: r =>
      b <- unwrap (get bufs name) "invalid buffer" ;;
      '(xs, t) <- delete_sels G pol ss (b_content b) ;;
      t <- (if pt_is_empty t then pt_append [LF] t else Ok t) ;;
      '(ys, mods, bufs) <- delete_in_buffers r (set bufs name (set_content b t)) ;;
      Ok (xs ++ ys, (match xs with [] => [] | _ => [name] end) ++ mods, bufs)
  end.
(** core.rs:570-583 [clamp_selections], on the selections of the acting client *)
Fixpoint clamp_buffers (mods : list text) (bufs : amap text buffer) (m : amap text (list sel)) : res (amap text (list sel)) :=
  match mods with
  | [] => Ok m
  | name :: r =>
      b <- unwrap (get bufs name) "no entry found for key" ;;
      mx <- pt_max_offset (b_content b) ;;
      ss <- unwrap (get m name) "called Option::unwrap on None" ;;
      clamp_buffers r bufs (set m name (map (sel_clamp mx) ss))
  end.
(** core.rs:585-622 [delete_selection] *)
Definition delete_selection (id : nat) (k : core) : res (list text * core) :=
  c <- the_client k id ;;
  let key := view_key (c_view c) in
  m <- unwrap (get (c_sels c) key) "no entry found for key" ;;
  '(xs, mods, bufs) <- delete_in_buffers m (k_buffers k) ;;
  m' <- clamp_buffers mods bufs m ;;
  let k := set_cmap (set_buffers k bufs) (set (cmap k) id (mkCl (c_view c) (set (c_sels c) key m'))) in
  match xs with
  | [] => Ok ([], k)
  | _ => k <- notify_view_update [id] k ;; Ok (xs, k)
  end.

(** core.rs:624-627, 645-650, 679-711 [get_context]: key of the view, and for each buffer the coordinates and the text
    of the selections *)
Record sel_data := mkSD { sd_anchor : nat * coords; sd_cursor : nat * coords; sd_text : text }.
Definition get_context (id : nat) (k : core) : res (text * amap text (list sel_data)) :=
  c <- the_client k id ;;
  let key := view_key (c_view c) in
  m <- unwrap (get (c_sels c) key) "no entry found for key" ;;
  sels <- mapM (fun e =>
      ds <- mapM (fun s =>
          match get (k_buffers k) (fst e) with
          | None => Panic "called Option::unwrap on None"
          | Some b =>
              oa <- pt_offset_to_coord G (b_content b) (s_anchor s) ;;
              a <- unwrap oa "called Option::unwrap on None" ;;
              oc <- pt_offset_to_coord G (b_content b) (s_cursor s) ;;
              c <- unwrap oc "called Option::unwrap on None" ;;
              '(lo, hi) <- selection_range G (b_content b) s ;;
              len <- (match get_node (t_pieces (b_content b)) lo with Some _ => sub hi lo | None => Ok 0 end) ;;
              ox <- pt_text_range (b_content b) lo len ;;
              Ok (mkSD (s_anchor s, a) (s_cursor s, c) (match ox with Some x => x | None => [] end))
          end) (snd e) ;;
      Ok (fst e, ds)) m ;;
  Ok (key, sels).

(** ** The calls a client can cause: its requests (mod.rs:210-240), the motions bound to keys (scripts/keys.lua) and the
    methods a script of an exec request can call (core.rs:659-763), joining and leaving *)
Inductive call :=
| CEdit (id : nat) (name : text) (scratch : bool)
| CView (id : nat) (vid : text)
| CViewDelete (id : nat)
| CViewAdd (id : nat) (b : text)
| CViewRemove (id : nat) (b : text)
| CMove (id : nat) (dir : motion) (extend : bool)
| CDeleteSelection (id : nat)
| CAppend (b x : text)
| CScratch (id : nat) (name content : text)
| CMessage (id : option nat) (x : text)
| CError (id : option nat) (tag x : text)
| CDebug (x : text)
| CGetContext (id : nat)
| CJoin (id : nat)
| CLeave (id : nat).
Inductive reply :=
| RUnit | RErr (e : cerr) | RTexts (xs : list text) | RContext (key : text) (sels : amap text (list sel_data)).
Definition reply_of (e : option cerr) : reply := match e with None => RUnit | Some e => RErr e end.

Definition run_call (c : call) (k : core) : res (reply * core) :=
  match c with
  | CEdit id name scratch => k <- edit_cmd id name scratch k ;; Ok (RUnit, k)
  | CView id vid => '(e, k) <- view_cmd id vid k ;; Ok (reply_of e, k)
  | CViewDelete id => k <- delete_current_view id k ;; Ok (RUnit, k)
  | CViewAdd id b => '(e, k) <- add_to_current_view id b k ;; Ok (reply_of e, k)
  | CViewRemove id b => '(e, k) <- remove_from_current_view id b k ;; Ok (reply_of e, k)
  | CMove id dir extend => k <- move_cursor id dir extend k ;; Ok (RUnit, k)
  | CDeleteSelection id => '(xs, k) <- delete_selection id k ;; Ok (RTexts xs, k)
  | CAppend b x => k <- append_to b x k ;; Ok (RUnit, k)
  | CScratch id name content => k <- edit_cmd id name true (open_scratch name content k) ;; Ok (RUnit, k)
  | CMessage id x => k <- message id x k ;; Ok (RUnit, k)
  | CError id tag x => k <- error id tag x k ;; Ok (RUnit, k)
  | CDebug x => k <- debug x k ;; Ok (RUnit, k)
  | CGetContext id => '(key, sels) <- get_context id k ;; Ok (RContext key sels, k)
  | CJoin id => k <- add_client id k ;; Ok (RUnit, k)
  | CLeave id => k <- remove_client id k ;; Ok (RUnit, k)
  end.

(** mod.rs:101-130 [Editor::new] up to the scripts; [args] is the command line *)
Definition editor_init (cwd args : text) : res core :=
  k <- debug (str "command: " ++ args) (core_new cwd) ;;
  k <- debug (str "cwd: " ++ cwd) k ;;
  let v := add_lens (mkLens b_debug FWhole) [] in
  let k := open_scratch b_scratch [] k in
  add_view (add_lens (mkLens b_scratch FWhole) v) k.
End Core.

(** the same state with the hash maps in another order *)
Definition shuffle_client (c c' : client) : Prop :=
  c_view c = c_view c' /\ exists m, Permutation (c_sels c) m /\
    Forall2 (fun e e' => fst e = fst e' /\ Permutation (snd e) (snd e')) m (c_sels c').
Definition shuffle (k k' : core) : Prop :=
  k_cwd k = k_cwd k' /\ k_sent k = k_sent k' /\ Permutation (k_buffers k) (k_buffers k') /\
  sm_stack (k_views k) = sm_stack (k_views k') /\ Permutation (vmap k) (vmap k') /\
  sm_stack (k_clients k) = sm_stack (k_clients k') /\
  exists m, Permutation (cmap k) m /\ Forall2 (fun e e' => fst e = fst e' /\ shuffle_client (snd e) (snd e')) m (cmap k').
