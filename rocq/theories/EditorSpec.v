(** Specification vocabulary for the editor: which states occur, which parameters a request must have. *)
From Coq Require Import String List Arith ZArith Bool.
From Verif Require Import Base PieceTable Coords Utf8 Diff Selection Maps StackMap Fmt Buffer View Json Proto Core CoreSpec Payload Menu Editor.
Import ListNotations.

(** The states of a running editor: it starts with any scripts, clients join and leave, lines arrive, in any order, as long
    as nothing panics; the world changes at any time and hash maps may change their order. *)
Inductive ereach (G : Graphemes) (pol : policy) (u : regex_crate) (se : serde) (L : lua) : editor L -> Prop :=
| er_new w session cwd args s scripts e : editor_new G pol L w session cwd args s scripts = Ok e -> ereach G pol u se L e
| er_join w id e e' : ereach G pol u se L e -> editor_add_client G pol L w id e = Ok e' -> ereach G pol u se L e'
| er_leave w id e e' : ereach G pol u se L e -> editor_remove_client G pol L w id e = Ok e' -> ereach G pol u se L e'
| er_line w id line e r e' : ereach G pol u se L e -> handle G pol u se L w id line e = Ok (r, e') -> ereach G pol u se L e'
| er_removed e : ereach G pol u se L e -> ereach G pol u se L (snd (removed_clients L e))
| er_shuffle e k : ereach G pol u se L e -> shuffle (ed_core L e) k -> ereach G pol u se L (set_core L e k).

(** the methods that take parameters, and whether some parameters have the right type; [None]: not such a method *)
Definition takes (method : text) (p : json) : option bool :=
  let ok {T} (o : option T) := Some (match o with Some _ => true | None => false end) in
  if eqb method (str "edit") then ok (dec_edit p)
  else if eqb method (str "menu") then ok (dec_menu p)
  else if eqb method (str "menu-select") then ok (dec_select p)
  else if eqb method (str "keys") then ok (dec_keys p)
  else if existsb (eqb method) [str "view"; str "view-add"; str "view-remove"; str "exec"] then ok (dec_str p)
  else None.
(** the methods there are *)
Definition known_methods : list text :=
  map str ["edit"; "quit"; "view"; "view-delete"; "view-add"; "view-remove"; "menu"; "menu-select"; "keys"; "exec"]%string.
(** the code of the error in an answer *)
Definition refused (r : response) (code : Z) : Prop := rp_result r = None /\ exists e, rp_error r = Some e /\ er_code e = code.
Definition granted (r : response) : Prop := rp_result r = Some JNull /\ rp_error r = None.
(** the request has no parameters *)
Definition no_params (r : request) : Prop := rq_params r = None \/ rq_params r = Some JNull.
(** a request and its decoded parameters *)
Definition asks {T} (dec : json -> option T) (method : text) (p : T) (r : request) : Prop :=
  rq_method r = method /\ exists j, rq_params r = Some j /\ dec j = Some p.
(** the editor only logged an error *)
Definition only_logged (G : Graphemes) (L : lua) (id : nat) (e e' : editor L) : Prop :=
  exists x k, Core.error G (Some id) (str "protocol") x (ed_core L e) = Ok k /\ e' = set_core L e k.

(** ** C53: what selecting [choice] in the menu [cmd] is the same as *)
Definition submenus : list text := map str ["open"; "scratch"; "view_select"; "view_add"; "view_remove"; "exec"]%string.
Inductive stands_for : text -> text -> request -> Prop :=
| sf_open c r : asks dec_edit (str "edit") (mkEdit c false) r -> stands_for (str "open") c r
| sf_scratch c r : asks dec_edit (str "edit") (mkEdit c true) r -> stands_for (str "scratch") c r
| sf_view c r : asks dec_str (str "view") c r -> stands_for (str "view_select") c r
| sf_add c r : asks dec_str (str "view-add") c r -> stands_for (str "view_add") c r
| sf_remove c r : asks dec_str (str "view-remove") c r -> stands_for (str "view_remove") c r
| sf_exec c r : asks dec_str (str "exec") c r -> stands_for (str "exec") c r
| sf_quit r : rq_method r = str "quit" -> stands_for [] (str "quit") r
| sf_delete r : rq_method r = str "view-delete" -> stands_for [] (str "view_delete") r
| sf_sub c r : In c submenus -> asks dec_menu (str "menu") (mkMenuP c []) r -> stands_for [] c r.
(** the menu [cmd] that was sent last, to anyone *)
Definition last_menu (o : list esent) (cmd : text) : option menu_info :=
  fold_left (fun a x => match o_what x with OMenu m => if eqb (me_command m) cmd then Some m else a | _ => a end) o None.
(** the menus that ask for a text *)
Definition prompts : list text := [str "scratch"; str "exec"].
(** [choice] was among what was shown, or the prompt was shown *)
Definition shown (o : list esent) (cmd choice : text) : Prop :=
  exists m, last_menu o cmd = Some m /\ ((In cmd prompts /\ me_entries m <> []) \/ exists e, In e (me_entries m) /\ en_value e = choice).
(** the values the menu [cmd] has now, for any search *)
Definition values (L : lua) (e : editor L) (cmd : text) : list text :=
  match get (ed_menus L e) cmd with Some m => map it_key (mn_entries m) | None => [] end.
