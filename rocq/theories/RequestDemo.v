(** An editor that meets the hypotheses of C91: requests granted, refused, and failing. *)
From Coq Require Import String List Arith Lia ZArith Bool.
From Verif Require Import Base ListFacts PieceTable PieceTableSpec HistoryFacts History Coords Utf8 GraphemeInst Maps StackMap View Json Proto Core CoreSpec CoreOps PropCore Payload Menu MenuFacts PropMenu Editor EditorSpec EditorFacts PropEditor EditorTame EditorDemo MenusDemo RequestSpec PropRequest.
Import ListNotations.
Definition view_of (x : string) : text := str "{""jsonrpc"":""2.0"",""id"":7,""method"":""view"",""params"":""" ++ str x ++ str """}".
Definition reason_is (r : response) (code : Z) (x : text) : bool :=
  match rp_error r with Some e => (er_code e =? code)%Z && match er_data e with Some (JStr y) => eqb x y | _ => false end | None => false end.
Definition fine (r : response) : bool := match rp_error r with None => true | _ => false end.
Definition demo_test (e : editor demo_lua) : bool :=
  match demo_handle 1 edit_notes e with Ok (a, _) => fine a | _ => false end &&
  match demo_handle 1 (view_of "nothing") e with Ok (b, _) => reason_is b (-32600) (no_view (str "nothing")) | _ => false end &&
  match demo_handle 1 bad_exec e with Ok (c, _) => reason_is c 1 (str "no such function") | _ => false end.
Lemma demo_meets : exists e, demo_editor demo_events = Ok e /\ demo_test e = true.
Proof. apply ok_such. vm_compute. reflexivity. Qed.
Lemma demo_means : (exists q, parse_request edit_notes = Some q /\ means 1 q (CEdit 1 (str "notes") true)) /\
  (exists q, parse_request (view_of "nothing") = Some q /\ means 1 q (CView 1 (str "nothing"))).
Proof.
  split; (eexists; split; [vm_compute; reflexivity|]); constructor; (split; [reflexivity|]); (eexists; split; [reflexivity|]); vm_compute; reflexivity.
Qed.
Example C91_demo : exists e, demo_ereach e /\ demo_test e = true /\
  (exists q, parse_request edit_notes = Some q /\ means 1 q (CEdit 1 (str "notes") true)) /\
  (exists q, parse_request (view_of "nothing") = Some q /\ means 1 q (CView 1 (str "nothing"))).
Proof. destruct demo_meets as (e & E & T). exists e. split; [exact (editor_reach _ _ E)|]. split; [exact T|exact demo_means]. Qed.
