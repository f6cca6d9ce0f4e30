(** Specification for the positive part of C42: a server where careful things happen and nobody quits. *)
From Coq Require Import String List Arith ZArith Bool.
From Verif Require Import Base PieceTable Coords Utf8 Diff Selection Maps StackMap Fmt Buffer View Json Proto Core CoreSpec Payload Menu Editor EditorSpec EditorTame Server ServerSpec.
Import ListNotations.

Section Tame.
Variable G : Graphemes.
Variable pol : policy.
Variable u : regex_crate.
Variable se : serde.
Variable L : lua.
(** what the event is for the editor *)
Definition as_event (v : sevent) : event := match v with VJoin c => Ejoin c | VLeave c => Eleave c | VMessage c line => Eline c line end.
(** connections are accepted without error; the events are careful (see [EditorTame]); no message asks to quit; the client is
    there to read the answer to its request *)
Definition careful_move (s : server L) (m : smove) : Prop :=
  match m with
  | MAcceptError => False
  | MEvent w broken => forall v rest, sv_events L s = v :: rest ->
      careful G pol u se L w (as_event v) (sv_editor L s) /\
      forall c line, v = VMessage c line -> broken c = false /\ ~ quits L (sv_editor L s) line
  | _ => True
  end.
Inductive careful_server : server L -> Prop :=
| cs_new w session cwd args st scripts e : editor_new G pol L w session cwd args st scripts = Ok e -> careful_reach G pol u se L e -> careful_server (server_new L e)
| cs_move s m s' : careful_server s -> careful_move s m -> smoves G pol u se L s m (Ok s') -> careful_server s'
| cs_shuffle s k : careful_server s -> shuffle (ed_core L (sv_editor L s)) k -> careful_server (with_editor L s (set_core L (sv_editor L s) k)).
End Tame.
