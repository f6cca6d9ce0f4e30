(** Model of the client side, remote/src/connection.rs: the state mirrored from the notifications and the requests sent.
    The channels to the sending task are unbounded, so a call only appends to the requests sent; locks poisoned by a panic
    are not modelled (a panic ends the run).  Definitions only. *)
From Coq Require Import String List Arith ZArith Bool.
From Verif Require Import Base Maps Json Proto Payload.
Import ListNotations.

(** connection.rs:14-21 [struct Menu] *)
Record cmenu := mkCM { cm_command : text; cm_title : text; cm_search : text; cm_entries : list entry; cm_selected : nat }.
(** connection.rs:53-61 [struct ConnectionState] *)
Record cstate := mkCS { cs_client : text; cs_session : text; cs_echo : option rich; cs_status : list status_item; cs_view : list witem; cs_menu : option cmenu }.
Definition cstate0 : cstate := mkCS [] [] None [] [] None.
(** a parameter that is absent, null or of another type counts as none *)
Definition param {T} (dec : json -> option T) (n : notification) : option T :=
  match params_of dec (nt_params n) with Some (Some x) => Some x | _ => None end.
(** connection.rs:40-50 [enum ConnectionEvent] *)
Inductive cevent := CNoop | CEcho (t : rich) | CHint (l : list rich) | CInfo (client session : text) | CMenu (m : cmenu) | CStatus (s : list status_item) | CView (v : list witem).
(** connection.rs:65-119 [event_update]; [None] is reported as [Noop] (152-155) *)
Definition event_update (s : cstate) (e : event) : cstate * cevent :=
  match e with
  | EvResponse _ => (s, CNoop)
  | EvNotification n =>
      if eqb (nt_method n) (str "echo") then
        match param dec_rich n with
        | Some t => (mkCS (cs_client s) (cs_session s) (Some t) (cs_status s) (cs_view s) (cs_menu s), CEcho t)
        | None => (s, CNoop)
        end
      else if eqb (nt_method n) (str "hint") then
        match param dec_hint n with Some l => (s, CHint l) | None => (s, CNoop) end
      else if eqb (nt_method n) (str "info") then
        match param dec_info n with
        | Some i => (mkCS (in_client i) (in_session i) (cs_echo s) (cs_status s) (cs_view s) (cs_menu s), CInfo (in_client i) (in_session i))
        | None => (s, CNoop)
        end
      else if eqb (nt_method n) (str "menu") then
        match param dec_menu_info n with
        | Some m =>
            let m' := mkCM (me_command m) (me_title m) (me_search m) (me_entries m) 0 in
            (mkCS (cs_client s) (cs_session s) None (cs_status s) (cs_view s) (Some m'), CMenu m')
        | None => (s, CNoop)
        end
      else if eqb (nt_method n) (str "status") then
        match param dec_status n with
        | Some x => (mkCS (cs_client s) (cs_session s) (cs_echo s) x (cs_view s) (cs_menu s), CStatus x)
        | None => (s, CNoop)
        end
      else if eqb (nt_method n) (str "view") then
        match param dec_view n with
        | Some v => (mkCS (cs_client s) (cs_session s) (cs_echo s) (cs_status s) v (cs_menu s), CView v)
        | None => (s, CNoop)
        end
      else (s, CNoop)
  end.

(** connection.rs:122-127 [struct Connection], with the requests sent so far, oldest first *)
Record conn := mkConn { co_state : cstate; co_next : Z; co_sent : list request }.
Definition conn0 : conn := mkConn cstate0 0 [].
(** [checked]: the debug profile, where overflows panic; otherwise they wrap *)
Definition i32_succ (checked : bool) (z : Z) : res Z :=
  if (z <? 2147483647)%Z then Ok (z + 1)%Z else if checked then Panic "attempt to add with overflow" else Ok (-2147483648)%Z.
(** connection.rs:168-172 [request_id] *)
Definition request_id (checked : bool) (c : conn) : res (id * conn) :=
  n <- i32_succ checked (co_next c) ;; Ok (IdNum (co_next c), mkConn (co_state c) n (co_sent c)).
(** connection.rs:174-176 [request], with protocol.rs:128-160 *)
Definition send (checked : bool) (method : text) (p : option json) (c : conn) : res conn :=
  '(i, c) <- request_id checked c ;; Ok (mkConn (co_state c) (co_next c) (co_sent c ++ [new_request i method p])).
Definition set_menu (m : option cmenu) (c : conn) : conn :=
  let s := co_state c in
  mkConn (mkCS (cs_client s) (cs_session s) (cs_echo s) (cs_status s) (cs_view s) m) (co_next c) (co_sent c).
(** connection.rs:24-28 [select_next]: [usize] arithmetic on 64 bits *)
Definition select_next (checked : bool) (m : cmenu) : res cmenu :=
  let go := Ok (mkCM (cm_command m) (cm_title m) (cm_search m) (cm_entries m) (S (cm_selected m))) in
  match cm_entries m with
  | [] => if checked then Panic "attempt to subtract with overflow" else go
  | _ => if cm_selected m <? length (cm_entries m) - 1 then go else Ok m
  end.
(** connection.rs:30-34 [select_previous] *)
Definition select_previous (m : cmenu) : cmenu :=
  if 0 <? cm_selected m then mkCM (cm_command m) (cm_title m) (cm_search m) (cm_entries m) (cm_selected m - 1) else m.
(** connection.rs:36-38 [selected_item] *)
Definition selected_item (m : cmenu) : res text := e <- index (cm_entries m) (cm_selected m) ;; Ok (en_value e).

(** the calls of the API and the arrival of events *)
Inductive cop :=
| OpEvent (e : event)
| OpQuit | OpEdit (name : text) (scratch : bool) | OpMenu (command search : text) | OpMenuSelect
| OpPrevious | OpNext | OpCancel | OpKeys (l : list key_event) | OpExec (source : text).
(** connection.rs:178-245 *)
Definition cstep (checked : bool) (c : conn) (o : cop) : res conn :=
  match o with
  | OpEvent e => Ok (mkConn (fst (event_update (co_state c) e)) (co_next c) (co_sent c))
  | OpQuit => send checked (str "quit") (Some JNull) c
  | OpEdit n s => send checked (str "edit") (Some (enc_edit (mkEdit n s))) c
  | OpMenu a b => send checked (str "menu") (Some (enc_menu (mkMenuP a b))) c
  | OpMenuSelect =>
      match cs_menu (co_state c) with
      | None => Ok c
      | Some m =>
          selected <- selected_item m ;;
          let choice := match selected with [] => cm_search m | _ => selected end in
          c <- send checked (str "menu-select") (Some (enc_select (mkSelP (cm_command m) choice))) c ;;
          Ok (set_menu None c)
      end
  | OpPrevious => match cs_menu (co_state c) with Some m => Ok (set_menu (Some (select_previous m)) c) | None => Ok c end
  | OpNext => match cs_menu (co_state c) with Some m => m <- select_next checked m ;; Ok (set_menu (Some m) c) | None => Ok c end
  | OpCancel => Ok (set_menu None c)
  | OpKeys l => send checked (str "keys") (Some (enc_keys l)) c
  | OpExec s => send checked (str "exec") (Some (JStr s)) c
  end.
Definition crun (checked : bool) (l : list cop) : res conn := foldM (cstep checked) l conn0.
