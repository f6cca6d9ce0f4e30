(** What menus offer: the vocabulary of C82. *)
From Coq Require Import String List Arith ZArith Bool Permutation Sorted.
From Verif Require Import Base Maps StackMap Fmt Buffer View ViewSpec Json Proto Core Payload Conn Menu Editor EditorSpec.
Import ListNotations.

(** what the user sees of an entry, and what choosing it sends: value, text, description *)
Definition offer := (text * text * option text)%type.
Definition offered (e : entry) : offer := (en_value e, concat (map fr_text (en_text e)), en_descr e).
(** the menu [cmd] as it was last sent, to anyone, with nothing searched for *)
Definition last_opened (o : list esent) (cmd : text) : option menu_info :=
  fold_left (fun a x => match o_what x with OMenu m => if eqb (me_command m) cmd && eqb (me_search m) [] then Some m else a | _ => a end) o None.
Definition opened_entries (o : list esent) (cmd : text) : list offer := match last_opened o cmd with Some m => map offered (me_entries m) | None => [] end.
(** the entries of the command menu *)
Definition commands : list offer := map (fun '(v, t, d) => (str v, str t, Some (str d)))
  [("open", "Open file", "Open and read a new file.");
   ("quit", "Quit", "Quit the current client.");
   ("scratch", "New scratch", "Create a new scratch buffer.");
   ("view_select", "Change view", "Select an existing view or create a new one.");
   ("view_delete", "Delete view", "Delete the current view.");
   ("view_add", "Add to view", "Add another buffer to the current view.");
   ("view_remove", "Remove from the view.", "Remove a buffer from the current view.");
   ("exec", "Execute script.", "Execute the lua script source.")]%string.
Definition itself (s : text) : offer := (s, s, None).
(** the menu [cmd] has this title and these entries: the commands; the files below the working directory; the views, and the buffers
    that no view shows alone; the buffers *)
Inductive offers (w : world) (k : core) : text -> text -> list offer -> Prop :=
| of_commands : offers w k [] (str "command") commands
| of_files : offers w k (str "open") (str "file") (map itself (w_walk w (k_cwd k)))
| of_views alone : NoDup alone -> (forall b, In b alone <-> In b (keys (k_buffers k)) /\ ~ In (view_key (for_buffer b)) (keys (vmap k))) ->
    offers w k (str "view_select") (str "view") (map itself (keys (vmap k) ++ alone))
| of_add : offers w k (str "view_add") (str "buffer") (map itself (keys (k_buffers k)))
| of_remove : offers w k (str "view_remove") (str "buffer") (map itself (keys (k_buffers k))).
(** the menus one chooses from, and their titles *)
Definition choosable : list (text * text) := map (fun '(c, t) => (str c, str t))
  [("", "command"); ("open", "file"); ("view_select", "view"); ("view_add", "buffer"); ("view_remove", "buffer")]%string.
(** the prompts, their titles and their texts *)
Inductive asks_text : text -> text -> text -> Prop :=
| at_scratch : asks_text (str "scratch") (str "scratch") (str "New scratch buffer name.")
| at_exec : asks_text (str "exec") (str "lua") (str "Lua script source.").
(** alphabetical order of what is seen *)
Definition text_before (a b : offer) : Prop := snd (fst a) = snd (fst b) \/ text_lt (snd (fst a)) (snd (fst b)).
(** nothing but the menus and what is sent changed: client [id], and nobody else, was sent this menu *)
Definition only_menu (L : lua) (id : nat) (m : menu_info) (e e' : editor L) : Prop :=
  ed_out L e' = ed_out L e ++ [mkES (Some [id]) (OMenu m)] /\ ed_core L e' = ed_core L e /\ ed_lua L e' = ed_lua L e /\ ed_stopped L e' = ed_stopped L e /\ ed_session L e' = ed_session L e.
