(** A session that meets the hypotheses of C90, and what some of its messages look like. *)
From Coq Require Import String List Arith Lia ZArith Bool.
From Verif Require Import Base ListFacts HistoryFacts PieceTable Coords Utf8 GraphemeInst Diff Selection Maps StackMap Fmt Buffer View Json Proto PropProto Core CoreSpec FreshSpec PropCore Payload Menu MenuFacts PropMenu Editor Conn PropConn EditorDemo Server ServerSpec PropServer ServerDemo System SystemSpec SystemFacts PropSystem SystemDemo ShapeSpec PropShape.
Import ListNotations.
Definition demo_log : list (nat * written) := sv_log demo_lua (sy_server demo_lua (snd demo_end)).
Example C90_demo : demo_yreach (fst demo_end) (snd demo_end) /\
  map (fun r => print_request r) (co_sent (pr_conn (sy_peer demo_lua (snd demo_end) 1))) =
    [str "{""jsonrpc"":""2.0"",""id"":0,""method"":""edit"",""params"":{""name"":""notes"",""scratch"":true}}"] /\
  map (fun x => print_event (wire_written demo_session (snd x))) (filter (fun x => match snd x with WAnswer _ | WNotif (OCore (NInfo _ _)) => true | _ => false end) demo_log) =
    [str "{""jsonrpc"":""2.0"",""id"":0,""result"":null}"; str "{""jsonrpc"":""2.0"",""method"":""info"",""params"":{""client"":""1"",""cwd"":""/w"",""session"":""demo""}}";
     str "{""jsonrpc"":""2.0"",""method"":""info"",""params"":{""client"":""2"",""cwd"":""/w"",""session"":""demo""}}"].
Proof. split; [exact demo_end_ok|]. split; vm_compute; reflexivity. Qed.
(** not everything has a shape: a member too many, a missing one, a wrong version *)
Example C90_shapes : ~ has rpc_success (JObj [(str "jsonrpc", JStr (str "1.0")); (str "id", JNull); (str "result", JNull)]) /\
  ~ has rpc_success (JObj [(str "jsonrpc", JStr (str "2.0")); (str "result", JNull)]) /\
  ~ has rpc_notification (JObj [(str "jsonrpc", JStr (str "2.0")); (str "method", JStr []); (str "id", JNull)]).
Proof.
  split; [|split].
  - intros (l & E & _ & _ & (_ & H & _)). injection E as <-. destruct (H _ (or_introl eq_refl)) as (x & X & [Y|[]]). injection X as X. rewrite <- X in Y. vm_compute in Y. discriminate.
  - intros (l & E & _ & _ & (_ & _ & H & _)). injection E as <-. specialize (H eq_refl). vm_compute in H. intuition discriminate.
  - intros (l & E & _ & I & _). injection E as <-. specialize (I (str "id")). cbn [map fst] in I. assert (In (str "id") (map fst [version; member "method" AText; optional "params" Structured])) as K; [apply I; cbn [In]; tauto|]. vm_compute in K. intuition discriminate.
Qed.
