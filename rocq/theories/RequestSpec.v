(** What the requests of clients ask for: the vocabulary of C91. *)
From Coq Require Import String List Arith ZArith Bool.
From Verif Require Import Base Maps StackMap View Json Proto Normalize Core CoreSpec CoreOps Payload Menu Editor EditorSpec.
Import ListNotations.

(** the change a request of client [id] asks for; what each change does is C29 to C35 *)
Inductive means (id : nat) : request -> call -> Prop :=
| me_edit name scratch r : asks dec_edit (str "edit") (mkEdit name scratch) r -> means id r (CEdit id name scratch)
| me_view key r : asks dec_str (str "view") key r -> means id r (CView id key)
| me_delete r : rq_method r = str "view-delete" -> means id r (CViewDelete id)
| me_add b r : asks dec_str (str "view-add") b r -> means id r (CViewAdd id b)
| me_remove b r : asks dec_str (str "view-remove") b r -> means id r (CViewRemove id b)
| me_quit r : rq_method r = str "quit" -> means id r (CLeave id).
(** the reason given with a refusal *)
Definition because (r : response) (x : text) : Prop := exists e, rp_error r = Some e /\ er_data e = Some (JStr x).
Definition no_view (key : text) : text := str "view not found: " ++ key.
Definition no_buffer (b : text) : text := str "buffer not found: " ++ b.
Section Spec.
Variable L : lua.
(** the editor but for the buffers, views, clients and notifications *)
Definition rest_same (e e' : editor L) : Prop := ed_session L e' = ed_session L e /\ ed_menus L e' = ed_menus L e /\ ed_lua L e' = ed_lua L e.
(** exactly these notifications were sent, in this order *)
Definition sends (e e' : editor L) (l : list sent) : Prop := ed_out L e' = ed_out L e ++ map (fun s => mkES (m_to s) (OCore (m_what s))) l.
(** clients about to be stopped *)
Definition stops (e e' : editor L) (c : option nat) : Prop := forall d, In d (ed_stopped L e') <-> In d (ed_stopped L e) \/ c = Some d.
(** the last notification is an error message for the client, on one line (C39) *)
Definition told_error (e e' : editor L) (id : nat) (x : text) : Prop :=
  exists l, ed_out L e' = ed_out L e ++ l ++ [mkES (Some [id]) (OCore (NEcho (normalize_error_message x) true))].
End Spec.
(** the same answer, to different requests perhaps *)
Definition same_answer (a b : response) : Prop := rp_result a = rp_result b /\ rp_error a = rp_error b.
