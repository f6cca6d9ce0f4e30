(** Model of the parameters of the notifications on the wire, remote/src/protocol.rs:5-28,66-117, and of the notifications
    the core emits (core/src/editor/core.rs:44-78).  [ornament::Text] is a dependency: it is taken to be a list of fragments
    (a string and a face), written as an array of objects with the members [text] and [face].  Definitions only. *)
From Coq Require Import String List Arith ZArith Bool.
From Verif Require Import Base Maps Fmt View Json Proto Core.
Import ListNotations.

(** protocol.rs:5-12 [enum Face] *)
Inductive face := FDefault | FError | FMatch | FPrompt | FSelection.
Definition faces : list (text * face) :=
  [(str "Default", FDefault); (str "Error", FError); (str "Match", FMatch); (str "Prompt", FPrompt); (str "Selection", FSelection)].
Definition enc_face (f : face) : json :=
  JStr (match f with FDefault => str "Default" | FError => str "Error" | FMatch => str "Match" | FPrompt => str "Prompt" | FSelection => str "Selection" end).
Definition dec_face (j : json) : option face :=
  match j with JStr s => get faces s | JObj [(n, JNull)] => get faces n | _ => None end.
(** protocol.rs:27-28 *)
Record fragment := mkFrag { fr_text : text; fr_face : face }.
Notation rich := (list fragment) (only parsing).
Definition enc_fragment (f : fragment) : json := JObj [(str "text", JStr (fr_text f)); (str "face", enc_face (fr_face f))].
Definition dec_fragment (j : json) : option fragment :=
  match two (str "text") (str "face") j with
  | Some (x, y) => match dec_str x, dec_face y with Some t, Some f => Some (mkFrag t f) | _, _ => None end
  | None => None
  end.
(** [Vec<T>] *)
Definition enc_vec {A} (enc : A -> json) (l : list A) : json := JArr (map enc l).
Definition dec_vec {A} (dec : json -> option A) (j : json) : option (list A) := match j with JArr l => all_some (map dec l) | _ => None end.
Definition enc_rich : rich -> json := enc_vec enc_fragment.
Definition dec_rich : json -> option rich := dec_vec dec_fragment.
(** [usize] and [isize], 64 bits *)
Definition enc_usize (n : nat) : json := JInt (Z.of_nat n).
Definition dec_usize (j : json) : option nat := match j with JInt z => if (0 <=? z)%Z && (z <=? u64_max)%Z then Some (Z.to_nat z) else None | _ => None end.
Definition dec_isize (j : json) : option Z := match j with JInt z => if (i64_min <=? z)%Z && (z <=? u64_max / 2)%Z then Some z else None | _ => None end.

(** protocol.rs:66-69 [HintParams] *)
Definition enc_hint (l : list rich) : json := JObj [(str "text", enc_vec enc_rich l)].
Definition dec_hint (j : json) : option (list rich) :=
  match fields [str "text"] j with Some [Some x] => dec_vec dec_rich x | _ => None end.
(** protocol.rs:71-76 [InfoParams] *)
Record info := mkInfo { in_client : text; in_session : text; in_cwd : text }.
Definition enc_info (i : info) : json := JObj [(str "client", JStr (in_client i)); (str "session", JStr (in_session i)); (str "cwd", JStr (in_cwd i))].
Definition dec_info (j : json) : option info :=
  match fields [str "client"; str "session"; str "cwd"] j with
  | Some [Some a; Some b; Some c] => match dec_str a, dec_str b, dec_str c with Some a, Some b, Some c => Some (mkInfo a b c) | _, _, _ => None end
  | _ => None
  end.
(** protocol.rs:78-83 [MenuParamsEntry]; an absent description is written null *)
Record entry := mkEntry { en_value : text; en_text : rich; en_descr : option text }.
Definition enc_entry (e : entry) : json :=
  JObj [(str "value", JStr (en_value e)); (str "text", enc_rich (en_text e)); (str "description", match en_descr e with Some d => JStr d | None => JNull end)].
Definition dec_descr (o : option json) : option (option text) :=
  match o with Some JNull | None => Some None | Some j => match dec_str j with Some d => Some (Some d) | None => None end end.
Definition dec_entry (j : json) : option entry :=
  match fields [str "value"; str "text"; str "description"] j with
  | Some [Some v; Some t; d] => match dec_str v, dec_rich t, dec_descr d with Some v, Some t, Some d => Some (mkEntry v t d) | _, _, _ => None end
  | _ => None
  end.
(** protocol.rs:85-91 [MenuParams] *)
Record menu_info := mkMenu { me_command : text; me_title : text; me_search : text; me_entries : list entry }.
Definition enc_menu_info (m : menu_info) : json :=
  JObj [(str "command", JStr (me_command m)); (str "title", JStr (me_title m)); (str "search", JStr (me_search m)); (str "entries", enc_vec enc_entry (me_entries m))].
Definition dec_menu_info (j : json) : option menu_info :=
  match fields [str "command"; str "title"; str "search"; str "entries"] j with
  | Some [Some a; Some b; Some c; Some d] =>
      match dec_str a, dec_str b, dec_str c, dec_vec dec_entry d with Some a, Some b, Some c, Some d => Some (mkMenu a b c d) | _, _, _, _ => None end
  | _ => None
  end.
(** protocol.rs:93-99 [StatusParamsItem], [StatusParams] *)
Record status_item := mkStatus { st_index : Z; st_text : rich }.
Definition enc_status_item (s : status_item) : json := JObj [(str "index", JInt (st_index s)); (str "text", enc_rich (st_text s))].
Definition dec_status_item (j : json) : option status_item :=
  match two (str "index") (str "text") j with
  | Some (x, y) => match dec_isize x, dec_rich y with Some i, Some t => Some (mkStatus i t) | _, _ => None end
  | None => None
  end.
Definition enc_status : list status_item -> json := enc_vec enc_status_item.
Definition dec_status : json -> option (list status_item) := dec_vec dec_status_item.
(** protocol.rs:101-116 [ViewParamsLens], [ViewParamsItem], [ViewParams], with the texts as on the wire *)
Record wlens := mkWL { wl_lines : list rich; wl_first : nat }.
Record witem := mkWI { wi_buffer : text; wi_start : nat; wi_end : nat; wi_lenses : list wlens }.
Definition enc_wlens (l : wlens) : json := JObj [(str "lines", enc_vec enc_rich (wl_lines l)); (str "first_line_num", enc_usize (wl_first l))].
Definition dec_wlens (j : json) : option wlens :=
  match two (str "lines") (str "first_line_num") j with
  | Some (x, y) => match dec_vec dec_rich x, dec_usize y with Some l, Some n => Some (mkWL l n) | _, _ => None end
  | None => None
  end.
Definition enc_witem (i : witem) : json :=
  JObj [(str "buffer", JStr (wi_buffer i)); (str "start", enc_usize (wi_start i)); (str "end", enc_usize (wi_end i)); (str "lenses", enc_vec enc_wlens (wi_lenses i))].
Definition dec_witem (j : json) : option witem :=
  match fields [str "buffer"; str "start"; str "end"; str "lenses"] j with
  | Some [Some a; Some b; Some c; Some d] =>
      match dec_str a, dec_usize b, dec_usize c, dec_vec dec_wlens d with Some a, Some b, Some c, Some d => Some (mkWI a b c d) | _, _, _, _ => None end
  | _ => None
  end.
Definition enc_view : list witem -> json := enc_vec enc_witem.
Definition dec_view : json -> option (list witem) := dec_vec dec_witem.

(** view.rs:240-266: a decorated line (the crate's [Decorator::build]) as fragments: one per run of bytes with the same face *)
Fixpoint runs (l : list (nat * bool)) : rich :=
  match l with
  | [] => []
  | (b, s) :: r =>
      let f := if s then FSelection else FDefault in
      match runs r with
      | mkFrag t g :: q => if Bool.eqb s (match g with FSelection => true | _ => false end) then mkFrag (b :: t) g :: q else mkFrag [b] f :: mkFrag t g :: q
      | [] => [mkFrag [b] f]
      end
  end.
Definition wire_item (i : pitem) : witem :=
  mkWI (pi_buffer i) (pi_start i) (pi_end i) (map (fun l => mkWL (map runs (pl_lines l)) (pl_first l)) (pi_lenses i)).
(** core.rs:48-62 [echo], 64-71 [info_update], 73-77 [view_update]; the session name is not part of the core's state *)
Definition wire_notif (session : text) (n : notif) : notification :=
  match n with
  | NEcho t err => new_notification (str "echo") (Some (enc_rich [mkFrag t (if err then FError else FDefault)]))
  | NInfo c d => new_notification (str "info") (Some (enc_info (mkInfo c session d)))
  | NView l => new_notification (str "view") (Some (enc_view (map wire_item l)))
  end.
