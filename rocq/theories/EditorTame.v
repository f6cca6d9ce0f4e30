(** Specification for the positive part of C37: the events a careful user, with careful scripts, causes. *)
From Coq Require Import String List Arith ZArith Bool.
From Verif Require Import Base PieceTable Coords Utf8 Diff Selection Maps StackMap Fmt Buffer View Json Proto Keys Core CoreSpec CoreTame Payload Menu MenuSpec PropMenu Editor EditorSpec.
Import ListNotations.

(** the call of the core behind a method of the Lua API; [None]: it only notifies *)
Definition core_call (c : lcall) : option call :=
  match c with
  | LDebug x => Some (CDebug x)
  | LMessage id x => Some (CMessage (Some id) x)
  | LError id x => Some (CError (Some id) (str "lua") x)
  | LContext id => Some (CGetContext id)
  | LScratch id n x => Some (CScratch id n x)
  | LEdit id n s => Some (CEdit id n s)
  | LAppend b x => Some (CAppend b x)
  | LMove id m x => Some (CMove id m x)
  | LDelete id => Some (CDeleteSelection id)
  | LStatus _ _ | LHint _ _ => None
  end.
Section Tame.
Variable G : Graphemes.
Variable pol : policy.
Variable u : regex_crate.
Variable se : serde.
Variable L : lua.
Notation editor := (editor L).

(** a script that makes only careful calls; its error, if any, is plain text *)
Fixpoint careful_script (w : world) (t : script (lu_state L)) (e : editor) : Prop :=
  match t with
  | SDone _ => True
  | SFail x _ => plain x
  | SCall c k =>
      (forall c', core_call c = Some c' -> tame (w_disk w) (ed_core L e) c') /\
      forall r e', lua_call G pol L w c e = Ok (r, e') -> careful_script w (k r) e'
  end.
(** setting the global table, then the script *)
Definition careful_exec (w : world) (client : nat) (f : lu_state L -> script (lu_state L)) (e : editor) : Prop :=
  careful_script w (lu_exec L (env_source (ed_session L e) client) (ed_lua L e)) e /\
  forall e', run_script G pol L w (lu_exec L (env_source (ed_session L e) client) (ed_lua L e)) e = Ok (None, e') ->
    careful_script w (f (ed_lua L e')) e'.
Fixpoint careful_keys (w : world) (id : nat) (ks : list key_event) (e : editor) : Prop :=
  match ks with
  | [] => True
  | k :: r =>
      careful_exec w id (lu_key L id k) e /\
      forall e', exec_lua G pol L w (str "keys") id (lu_key L id k) e = Ok (None, e') -> careful_keys w id r e'
  end.
(** a search of plain words in a menu whose labels are neither huge nor broken *)
Definition careful_menu (w : world) (p : menu_params) (e : editor) : Prop :=
  forall m, get (ed_menus L e) (mp_command p) = Some m -> is_prompt m = false ->
    plain_search (mp_search p) /\ rx_fits u (raw_regex (mp_search p)) = true /\
    Forall small (mn_entries (if eqb (mp_search p) [] then populate w (ed_core L e) m else m)).
(** a request other than a selection in a menu *)
Definition careful_request (w : world) (id : nat) (q : request) (e : editor) : Prop :=
  let tm := tame (w_disk w) (ed_core L e) in
  (~ In (rq_method q) known_methods -> plain (print_request q)) /\
  (forall p, asks dec_edit (str "edit") p q -> tm (CEdit id (ep_name p) (ep_scratch p))) /\
  (forall v, asks dec_str (str "view") v q -> tm (CView id v)) /\
  (rq_method q = str "view-delete" -> tm (CViewDelete id)) /\
  (forall b, asks dec_str (str "view-add") b q -> tm (CViewAdd id b)) /\
  (forall b, asks dec_str (str "view-remove") b q -> tm (CViewRemove id b)) /\
  (forall p, asks dec_menu (str "menu") p q -> careful_menu w p e) /\
  (forall ks, asks dec_keys (str "keys") ks q -> careful_keys w id ks e) /\
  (forall x, asks dec_str (str "exec") x q -> careful_exec w id (lu_exec L x) e).
(** a line *)
Definition careful_line (w : world) (id : nat) (line : text) (e : editor) : Prop :=
  match parse_request line with
  | None => plain (se_line se line) /\ plain line
  | Some q =>
      careful_request w id q e /\
      forall cmd choice, asks dec_select (str "menu-select") (mkSelP cmd choice) q ->
        (* a choice that was shown and stands for a careful request, or one the menu does not have *)
        (shown (ed_out L e) cmd choice /\ exists q', stands_for cmd choice q' /\ careful_request w id q' e) \/
        (~ In choice (values L e cmd) /\ (~ In cmd prompts \/ values L e cmd = []))
  end.

(** the events of an editor *)
Inductive event := Ejoin (id : nat) | Eleave (id : nat) | Eline (id : nat) (line : text).
Definition happens (w : world) (v : event) (e : editor) : res editor :=
  match v with
  | Ejoin id => editor_add_client G pol L w id e
  | Eleave id => editor_remove_client G pol L w id e
  | Eline id line => '(_, e) <- handle G pol u se L w id line e ;; Ok e
  end.
Definition careful (w : world) (v : event) (e : editor) : Prop :=
  match v with
  | Ejoin id =>
      tame (w_disk w) (ed_core L e) (CJoin id) /\
      forall e', do_core G pol L w (CJoin id) e = Ok e' -> careful_exec w id (lu_exec L (str "editor:add_client(" ++ dec id ++ str ")")) e'
  | Eleave id =>
      forall e', do_core G pol L w (CLeave id) e = Ok e' -> careful_exec w id (lu_exec L (str "editor:remove_client(" ++ dec id ++ str ")")) e'
  | Eline id line => careful_line w id line e
  end.
(** an editor where only careful events happened *)
Inductive careful_reach : editor -> Prop :=
| cr_new w session cwd args s scripts e : plain cwd -> plain args ->
    (forall k, editor_init G cwd args = Ok k -> careful_script w scripts (mkEd L session default_commands [] k s (map (fun s => mkES (m_to s) (OCore (m_what s))) (k_sent k)))) ->
    editor_new G pol L w session cwd args s scripts = Ok e -> careful_reach e
| cr_event w v e e' : careful_reach e -> careful w v e -> happens w v e = Ok e' -> careful_reach e'
| cr_removed e : careful_reach e -> careful_reach (snd (removed_clients L e))
| cr_shuffle e k : careful_reach e -> shuffle (ed_core L e) k -> careful_reach (set_core L e k).
End Tame.
