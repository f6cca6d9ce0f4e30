(** Specification vocabulary for C75. *)
From Coq Require Import String List Arith ZArith Bool.
From Verif Require Import Base PieceTable Coords Utf8 Diff Selection Maps StackMap Fmt Buffer View Json Proto Core CoreSpec FreshSpec Payload Menu Editor Conn PropConn Server ServerSpec System.
Import ListNotations.

(** the numbers in the notification fit into 64 bits, as the types of the program make sure *)
Definition fits_out (n : enotif) : Prop :=
  match n with
  | OCore n => small_notif n
  | OStatus l => Forall (fun s => small_index (st_index s)) l
  | OMenu _ | OHint _ => True
  end.
(** what a client displays for a view: the lines with their numbers, each byte selected or not *)
Definition displayed (l : list witem) : list pitem :=
  map (fun i => mkPI (wi_buffer i) (wi_start i) (wi_end i) (map (fun x => mkPL (map flat (wl_lines x)) (wl_first x)) (wi_lenses i))) l.
(** what a notification says about the view, the status line, the echo line (a menu clears it), the client's name *)
Definition said_view (n : enotif) : option (list pitem) := match n with OCore (NView v) => Some v | _ => None end.
Definition said_status (n : enotif) : option (list status_item) := match n with OStatus l => Some l | _ => None end.
Definition said_echo (n : enotif) : option (option rich) :=
  match n with OCore (NEcho t err) => Some (Some [mkFrag t (if err then FError else FDefault)]) | OMenu _ => Some None | _ => None end.
Definition said_name (n : enotif) : option text := match n with OCore (NInfo c _) => Some c | _ => None end.

Section Spec.
Variable L : lua.
Variable session : text.
Notation system := (system L).
Definition fits (y : system) : Prop := Forall (fun x => fits_out (o_what x)) (ed_out L (sv_editor L (sy_server L y))).
(** everything the editor has to say was written, and client [c] has read all that was written to it *)
Definition settled (y : system) (c : nat) : Prop :=
  sv_taken L (sy_server L y) = length (ed_out L (sv_editor L (sy_server L y))) /\ pr_got (sy_peer L y c) = length (str_lines (sy_out L session y c)).
(** the messages client [c] has read; the responses among them *)
Definition got (y : system) (c : nat) : list (option event) := map parse_event (firstn (pr_got (sy_peer L y c)) (str_lines (sy_out L session y c))).
Definition replies (y : system) (c : nat) : list response := flat_map (fun o => match o with Some (EvResponse r) => [r] | _ => [] end) (got y c).
(** the requests client [c] has made *)
Definition made (y : system) (c : nat) : list request := co_sent (pr_conn (sy_peer L y c)).
(** what client [c] shows *)
Definition screen (y : system) (c : nat) : cstate := co_state (pr_conn (sy_peer L y c)).
Definition core_of (y : system) : core := ed_core L (sv_editor L (sy_server L y)).
End Spec.
