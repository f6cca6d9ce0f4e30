(** Model of the modal key handler, core/scripts/keys.lua, as driven by mod.rs:348-367.  Lua tables are association lists,
    a missing entry is [nil]; using [nil] as a table is a Lua error ([None]).  Definitions only. *)
From Coq Require Import String List Arith Bool.
From Verif Require Import Base Maps Coords Selection Json Proto Keys Fmt View Core.
Import ListNotations.

(** what a mapping's function does; the [fn] fields of keys.lua:13-134 *)
Inductive mapped :=
| MEnter (mode : text)
| MExit
| MExitMove (dir : motion) (extend : bool)
| MMove (dir : motion) (extend : bool)
| MMessage (x : text)
| MError (x : text)
| MDelete.
(** keys.lua:36-135: a mode *)
Record mode_cfg := mkMode { md_name : text; md_hint : bool; md_mappings : amap text mapped; md_default : option mapped }.
(** keys.lua:13-34 [make_goto_mappings] *)
Definition goto_mappings (extend : bool) : amap text mapped :=
  [(str "h", MExitMove MLineBegin extend); (str "l", MExitMove MLineEnd extend)].
(** keys.lua:36-135 [ModalHandler.modes] *)
Definition modes : amap text mode_cfg :=
  [(str "normal", mkMode (str "N") false
      [(str "i", MEnter (str "insertion")); (str "g", MEnter (str "moveto")); (str "s-g", MEnter (str "extendto"));
       (str "h", MMove MLeft false); (str "j", MMove MDown false); (str "k", MMove MUp false); (str "l", MMove MRight false);
       (str "s-h", MMove MLeft true); (str "s-j", MMove MDown true); (str "s-k", MMove MUp true); (str "s-l", MMove MRight true);
       (str "m", MMessage (str "hello!")); (str "e", MError (str "oops!")); (str "d", MDelete)] None);
   (str "insertion", mkMode (str "I") false [(str "esc", MExit)] None);
   (str "moveto", mkMode (str "g") true (goto_mappings false) (Some MExit));
   (str "extendto", mkMode (str "G") true (goto_mappings true) (Some MExit))].

(** keys.lua:137-142 [ModalHandler.new]; the stack, bottom first *)
Record handler := mkMH { mh_client : nat; mh_stack : list text }.
Definition handler_new (id : nat) : handler := mkMH id [str "normal"].
(** keys.lua:144-155 *)
Definition enter_mode (m : text) (h : handler) : handler := mkMH (mh_client h) (mh_stack h ++ [m]).
Definition exit_mode (h : handler) : handler := mkMH (mh_client h) (removelast (mh_stack h)).
Definition curmode (h : handler) : option text := hd_error (rev (mh_stack h)).
Definition cur_cfg (h : handler) : option mode_cfg := match curmode h with Some m => get modes m | None => None end.

(** what the handler asks of the editor, in order: calls of the core, the hint box of a mode (keys.lua:157-171), the status
    line (173-184: last key, name of the mode; the third item, the session, is constant) *)
Inductive effect := ECall (c : call) | EHint (client : nat) (mode : text) | EStatus (client : nat) (key mode : text).

(** a mapping's function: the handler it leaves, what it asks; [None] is a Lua error *)
Definition apply_mapped (a : mapped) (h : handler) : option (handler * list effect) :=
  let id := mh_client h in
  match a with
  | MEnter m =>
      match get modes m with
      | None => None
      | Some cfg => Some (enter_mode m h, if md_hint cfg then [EHint id m] else [])
      end
  | MExit => Some (exit_mode h, [])
  | MExitMove d e => Some (exit_mode h, [ECall (CMove id d e)])
  | MMove d e => Some (h, [ECall (CMove id d e)])
  | MMessage x => Some (h, [ECall (CMessage (Some id) x)])
  | MError x => Some (h, [ECall (CError (Some id) (str "lua") x)])
  | MDelete => Some (h, [ECall (CDeleteSelection id)])
  end.
(** keys.lua:186-202 [handle] *)
Definition handle_key (display : text) (h : handler) : option (handler * list effect) :=
  match cur_cfg h with
  | None => None
  | Some cfg =>
      match (match get (md_mappings cfg) display with Some a => Some a | None => md_default cfg end) with
      | None => Some (h, [])
      | Some a =>
          match apply_mapped a h with
          | None => None
          | Some (h, es) =>
              match cur_cfg h with
              | None => None
              | Some cfg => Some (h, es ++ [EStatus (mh_client h) display (md_name cfg)])
              end
          end
      end
  end.
(** a sequence of keys, as a keys request sends them *)
Fixpoint handle_keys (ks : list key_event) (h : handler) : option (handler * list effect) :=
  match ks with
  | [] => Some (h, [])
  | k :: r =>
      match handle_key (event_str k) h with
      | None => None
      | Some (h, es) => match handle_keys r h with Some (h, fs) => Some (h, es ++ fs) | None => None end
      end
  end.
