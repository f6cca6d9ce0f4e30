(** Model of remote/src/jsonrpc.rs, of the request parameters of remote/src/protocol.rs and of the key events of
    remote/src/keys.rs on the wire.  The code generated by [derive(Serialize, Deserialize)] is transcribed from the
    documentation of serde: a structure is read from an object (members in any order, unknown members ignored, no member
    twice) or from an array with one element per field.  Error texts of serde are not modelled.  Definitions only. *)
From Coq Require Import String List Arith ZArith Bool.
From Verif Require Import Base Maps Utf8 Json.
Import ListNotations.

(** jsonrpc.rs:11-17 [enum Id]: an [i32], a string or null; the first that fits *)
Inductive id := IdNum (z : Z) | IdStr (s : text) | IdNull.
Definition i32_ok (z : Z) : bool := ((-2147483648 <=? z) && (z <=? 2147483647))%Z.
Definition enc_id (i : id) : json := match i with IdNum z => JInt z | IdStr s => JStr s | IdNull => JNull end.
Definition dec_i32 (j : json) : option Z := match j with JInt z => if i32_ok z then Some z else None | _ => None end.
Definition dec_str (j : json) : option text := match j with JStr s => Some s | _ => None end.
Definition dec_bool (j : json) : option bool := match j with JBool b => Some b | _ => None end.
Definition dec_id (j : json) : option id :=
  match dec_i32 j with
  | Some z => Some (IdNum z)
  | None => match j with JStr s => Some (IdStr s) | JNull => Some IdNull | _ => None end
  end.

(** reading the fields of a structure; [Some None]: absent, [None]: present twice *)
Definition the_field (l : list (text * json)) (name : text) : option (option json) :=
  match filter (fun e => eqb name (fst e)) l with [] => Some None | [e] => Some (Some (snd e)) | _ => None end.
Fixpoint all_fields (l : list (text * json)) (names : list text) : option (list (option json)) :=
  match names with
  | [] => Some []
  | n :: r => match the_field l n, all_fields l r with Some x, Some y => Some (x :: y) | _, _ => None end
  end.
Definition fields (names : list text) (j : json) : option (list (option json)) :=
  match j with
  | JObj l => all_fields l names
  | JArr l => if length l =? length names then Some (map Some l) else None
  | _ => None
  end.
(** a field of type [Option<Value>]: absent and null are the same *)
Definition opt_value (o : option json) : option json := match o with Some JNull | None => None | Some j => Some (norm j) end.
(** [skip_serializing_if = "Option::is_none"] *)
Definition opt_member (name : text) (o : option json) : list (text * json) := match o with Some j => [(name, j)] | None => [] end.

(** jsonrpc.rs:19-26 [struct Request]; [new] (29-45) always writes "2.0" *)
Record request := mkReq { rq_version : text; rq_id : id; rq_method : text; rq_params : option json }.
Definition enc_request (r : request) : json :=
  JObj ([(str "jsonrpc", JStr (rq_version r)); (str "id", enc_id (rq_id r)); (str "method", JStr (rq_method r))]
        ++ opt_member (str "params") (rq_params r)).
Definition dec_request (j : json) : option request :=
  match fields [str "jsonrpc"; str "id"; str "method"; str "params"] j with
  | Some [Some v; Some i; Some m; p] =>
      match dec_str v, dec_id i, dec_str m with
      | Some v, Some i, Some m => Some (mkReq v i m (opt_value p))
      | _, _, _ => None
      end
  | _ => None
  end.
(** jsonrpc.rs:29-45 [new] with the parameters serialized to [p]; [to_value] sorts the members *)
Definition new_request (i : id) (m : text) (p : option json) : request := mkReq (str "2.0") i m (option_map norm p).
(** jsonrpc.rs:47-55, 100-108 [params]: [None] when they do not have the type wanted, [Some None] when there are none *)
Definition params_of {T} (dec : json -> option T) (p : option json) : option (option T) :=
  match p with
  | Some JNull | None => Some None
  | Some j => match dec j with Some x => Some (Some x) | None => None end
  end.
(** jsonrpc.rs:58-64 [FromStr], 66-71 [Display] *)
Definition parse_request (line : text) : option request := match parse line with Some j => dec_request j | None => None end.
Definition print_request (r : request) : text := print (enc_request r).

(** jsonrpc.rs:74-80 [struct Notification] *)
Record notification := mkNot { nt_version : text; nt_method : text; nt_params : option json }.
Definition enc_notification (n : notification) : json :=
  JObj ([(str "jsonrpc", JStr (nt_version n)); (str "method", JStr (nt_method n))] ++ opt_member (str "params") (nt_params n)).
Definition dec_notification (j : json) : option notification :=
  match fields [str "jsonrpc"; str "method"; str "params"] j with
  | Some [Some v; Some m; p] =>
      match dec_str v, dec_str m with
      | Some v, Some m => Some (mkNot v m (opt_value p))
      | _, _ => None
      end
  | _ => None
  end.

(** jsonrpc.rs:83-98 [new] *)
Definition new_notification (m : text) (p : option json) : notification := mkNot (str "2.0") m (option_map norm p).

(** jsonrpc.rs:126-131 [struct Error]: an absent [data] is written null *)
Record error := mkErr { er_code : Z; er_message : text; er_data : option json }.
Definition enc_error (e : error) : json :=
  JObj [(str "code", JInt (er_code e)); (str "message", JStr (er_message e));
        (str "data", match er_data e with Some j => j | None => JNull end)].
Definition dec_error (j : json) : option error :=
  match fields [str "code"; str "message"; str "data"] j with
  | Some [Some c; Some m; d] =>
      match dec_i32 c, dec_str m with
      | Some c, Some m => Some (mkErr c m (opt_value d))
      | _, _ => None
      end
  | _ => None
  end.
(** jsonrpc.rs:168-193 *)
Definition invalid_request (x : text) : error := mkErr (-32600) (str "The JSON sent is not a valid Request object.") (Some (JStr x)).
Definition method_not_found (x : text) : error := mkErr (-32601) (str "The method does not exist / is not available.") (Some (JStr x)).
Definition invalid_params (x : text) : error := mkErr (-32602) (str "Invalid method parameter(s).") (Some (JStr x)).
Definition internal_error (x : text) : error := mkErr (-32603) (str "Internal JSON-RPC error.") (Some (JStr x)).

(** jsonrpc.rs:204-212 [struct Response] *)
Record response := mkResp { rp_version : text; rp_id : id; rp_result : option json; rp_error : option error }.
(** jsonrpc.rs:215-227, 239-254: [new] and [set_result] *)
Definition new_response (i : id) (r : json + error) : response :=
  match r with
  | inl j => mkResp (str "2.0") i (Some j) None
  | inr e => mkResp (str "2.0") i None (Some e)
  end.
Definition enc_response (r : response) : json :=
  JObj ([(str "jsonrpc", JStr (rp_version r)); (str "id", enc_id (rp_id r))]
        ++ opt_member (str "result") (rp_result r) ++ opt_member (str "error") (option_map enc_error (rp_error r))).
Definition opt_error (o : option json) : option (option error) :=
  match o with
  | Some JNull | None => Some None
  | Some j => match dec_error j with Some e => Some (Some e) | None => None end
  end.
Definition dec_response (j : json) : option response :=
  match fields [str "jsonrpc"; str "id"; str "result"; str "error"] j with
  | Some [Some v; Some i; r; e] =>
      match dec_str v, dec_id i, opt_error e with
      | Some v, Some i, Some e => Some (mkResp v i (opt_value r) e)
      | _, _, _ => None
      end
  | _ => None
  end.
(** jsonrpc.rs:229-237 [result] *)
Definition response_result (r : response) : res (json + error) :=
  match rp_result r with
  | Some j => Ok (inl j)
  | None => e <- unwrap (rp_error r) "called Option::unwrap on None" ;; Ok (inr e)
  end.

(** jsonrpc.rs:313-348 [enum ClientEvent]: the first that fits *)
Inductive event := EvNotification (n : notification) | EvResponse (r : response).
Definition enc_event (e : event) : json := match e with EvNotification n => enc_notification n | EvResponse r => enc_response r end.
Definition dec_event (j : json) : option event :=
  match dec_notification j with
  | Some n => Some (EvNotification n)
  | None => match dec_response j with Some r => Some (EvResponse r) | None => None end
  end.
Definition parse_event (line : text) : option event := match parse line with Some j => dec_event j | None => None end.
Definition print_event (e : event) : text := print (enc_event e).

(** ** parameters of the requests (protocol.rs:119-179) *)
Definition two (a b : text) (j : json) : option (json * json) :=
  match fields [a; b] j with Some [Some x; Some y] => Some (x, y) | _ => None end.
(** protocol.rs:161-165 [EditParams] *)
Record edit_params := mkEdit { ep_name : text; ep_scratch : bool }.
Definition enc_edit (p : edit_params) : json := JObj [(str "name", JStr (ep_name p)); (str "scratch", JBool (ep_scratch p))].
Definition dec_edit (j : json) : option edit_params :=
  match two (str "name") (str "scratch") j with
  | Some (x, y) => match dec_str x, dec_bool y with Some n, Some s => Some (mkEdit n s) | _, _ => None end
  | None => None
  end.
(** protocol.rs:167-171 [MenuParams] *)
Record menu_params := mkMenuP { mp_command : text; mp_search : text }.
Definition enc_menu (p : menu_params) : json := JObj [(str "command", JStr (mp_command p)); (str "search", JStr (mp_search p))].
Definition dec_menu (j : json) : option menu_params :=
  match two (str "command") (str "search") j with
  | Some (x, y) => match dec_str x, dec_str y with Some n, Some s => Some (mkMenuP n s) | _, _ => None end
  | None => None
  end.
(** protocol.rs:173-177 [MenuSelectParams] *)
Record select_params := mkSelP { sp_command : text; sp_choice : text }.
Definition enc_select (p : select_params) : json := JObj [(str "command", JStr (sp_command p)); (str "choice", JStr (sp_choice p))].
Definition dec_select (j : json) : option select_params :=
  match two (str "command") (str "choice") j with
  | Some (x, y) => match dec_str x, dec_str y with Some n, Some s => Some (mkSelP n s) | _, _ => None end
  | None => None
  end.

(** keys.rs:4-16 [enum Key]; a character is given by its UTF-8 bytes *)
Inductive key := KChar (c : text) | KBackspace | KEnter | KEscape | KUp | KDown | KLeft | KRight.
(** keys.rs:66-72 [struct KeyEvent] *)
Record key_event := mkKey { ke_ctrl : bool; ke_alt : bool; ke_shift : bool; ke_key : key }.
Definition unit_keys : list (text * key) :=
  [(str "Backspace", KBackspace); (str "Enter", KEnter); (str "Escape", KEscape);
   (str "Up", KUp); (str "Down", KDown); (str "Left", KLeft); (str "Right", KRight)].
Definition enc_key (k : key) : json :=
  match k with
  | KChar c => JObj [(str "Char", JStr c)]
  | KBackspace => JStr (str "Backspace") | KEnter => JStr (str "Enter") | KEscape => JStr (str "Escape")
  | KUp => JStr (str "Up") | KDown => JStr (str "Down") | KLeft => JStr (str "Left") | KRight => JStr (str "Right")
  end.
(** exactly one character *)
Definition one_char (s : text) : bool := match s with [] => false | _ => let '(n, ok) := utf8_step s in ok && (n =? length s) end.
Definition dec_key (j : json) : option key :=
  match j with
  | JStr s => get unit_keys s
  | JObj [(n, JStr c)] => if eqb n (str "Char") && one_char c then Some (KChar c) else None
  | JObj [(n, JNull)] => get unit_keys n
  | _ => None
  end.
Definition enc_key_event (e : key_event) : json :=
  JObj [(str "ctrl", JBool (ke_ctrl e)); (str "alt", JBool (ke_alt e)); (str "shift", JBool (ke_shift e)); (str "key", enc_key (ke_key e))].
Definition dec_key_event (j : json) : option key_event :=
  match fields [str "ctrl"; str "alt"; str "shift"; str "key"] j with
  | Some [Some a; Some b; Some c; Some d] =>
      match dec_bool a, dec_bool b, dec_bool c, dec_key d with
      | Some a, Some b, Some c, Some d => Some (mkKey a b c d)
      | _, _, _, _ => None
      end
  | _ => None
  end.
Fixpoint all_some {A} (l : list (option A)) : option (list A) :=
  match l with
  | [] => Some []
  | Some x :: r => match all_some r with Some y => Some (x :: y) | None => None end
  | None :: _ => None
  end.
(** protocol.rs:157 [Vec<KeyEvent>] *)
Definition enc_keys (l : list key_event) : json := JArr (map enc_key_event l).
Definition dec_keys (j : json) : option (list key_event) := match j with JArr l => all_some (map dec_key_event l) | _ => None end.
