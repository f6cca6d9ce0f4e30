(** A state that meets the hypotheses of C78: a client has joined. *)
From Coq Require Import String List Arith Lia ZArith Bool.
From Verif Require Import Base ListFacts HistoryFacts PieceTable Coords Utf8 GraphemeInst Diff Selection Maps StackMap Fmt Buffer View Json Proto PropProto Core CoreSpec FreshSpec PropCore Payload Menu MenuFacts PropMenu Editor Conn PropConn EditorDemo Server ServerSpec PropServer ServerDemo System SystemSpec SystemFacts PropSystem SystemDemo Stream PropStream.
Import ListNotations.

Notation demo_breach := (breach utf8_graphemes pol_wrap ascii_crate demo_serde demo_lua true demo_session).
Notation dplay := (play1 utf8_graphemes pol_wrap ascii_crate demo_serde demo_lua).
Definition quiet_b (s : server demo_lua) : bool :=
  match sv_log demo_lua s, sv_events demo_lua s, sv_index demo_lua s, sv_readers demo_lua s with
  | [], [], 1 :: _, 1 :: _ => negb (sv_done demo_lua s) && forallb (fun x => fits_b (o_what x)) (ed_out demo_lua (sv_editor demo_lua s))
  | _, _, _, _ => false
  end.
Definition joins (r : res (editor demo_lua)) (m : smove) : bool :=
  match r with
  | Ok e => match dplay MAccept (server_new demo_lua e) with
            | Ok s1 => match dplay m s1 with Ok s2 => quiet_b s2 | _ => false end
            | _ => false end
  | _ => false
  end.
Lemma joins_ok r m : joins r m = true -> exists e s1 s2, r = Ok e /\ dplay MAccept (server_new demo_lua e) = Ok s1 /\ dplay m s1 = Ok s2 /\ quiet_b s2 = true.
Proof.
  unfold joins. intro H. destruct r as [e| |]; [|discriminate..]. exists e. destruct (dplay MAccept (server_new demo_lua e)) as [s1| |]; [|discriminate..]. exists s1. destruct (dplay m s1) as [s2| |]; [|discriminate..]. exists s2. repeat split. exact H.
Qed.
Lemma quiet_ok s : quiet_b s = true -> sv_log demo_lua s = [] /\ sv_events demo_lua s = [] /\ In 1 (sv_index demo_lua s) /\ In 1 (sv_readers demo_lua s) /\ sv_done demo_lua s = false /\
  forallb (fun x => fits_b (o_what x)) (ed_out demo_lua (sv_editor demo_lua s)) = true.
Proof.
  unfold quiet_b. destruct (sv_log demo_lua s); [|discriminate]. destruct (sv_events demo_lua s); [|discriminate]. destruct (sv_index demo_lua s) as [|[|[|k]] i]; try discriminate. destruct (sv_readers demo_lua s) as [|[|[|k]] i2]; try discriminate.
  intro H. apply andb_prop in H. destruct H as [A B]. apply negb_true_iff in A. repeat split; try exact A; try exact B; left; reflexivity.
Qed.
Lemma joined_idle cap w e m s1 s2 : (forall c l, m <> MLine c l) -> editor_new utf8_graphemes pol_wrap demo_lua w demo_session (str "/w") (str "ced") 0 (SDone 0) = Ok e ->
  dplay MAccept (server_new demo_lua e) = Ok s1 -> dplay m s1 = Ok s2 -> quiet_b s2 = true ->
  exists bms b, demo_breach cap bms b /\ idle demo_lua b 1 /\ sv_done demo_lua (b_server demo_lua b) = false /\ SystemSpec.fits demo_lua (b_sys demo_lua b).
Proof.
  intros NM N P1 P2 Q. apply quiet_ok in Q. destruct Q as (Q1 & Q2 & Q3 & Q4 & Q5 & Q6).
  apply play1_ok in P1; [|discriminate]. apply play1_ok in P2; [|discriminate].
  pose proof (bs_server utf8_graphemes pol_wrap ascii_crate demo_serde demo_lua true demo_session cap (bstart demo_lua (server_new demo_lua e)) MAccept s1 _ eq_refl ltac:(intros c l X; discriminate X) P1 (fun d => eq_refl)) as H1.
  match type of H1 with _ ?y => set (b1 := y) in H1 end.
  assert (b_todo demo_lua b1 = []) as T1. { unfold b1. cbn [b_todo]. unfold to_write. change (sv_log demo_lua (b_server demo_lua (bstart demo_lua (server_new demo_lua e)))) with (@nil (nat * written)). cbn [length skipn].
    remember (Ok s1) as r eqn:Er. remember MAccept as m1 eqn:Em. destruct P1; try discriminate. injection Er as <-. reflexivity. }
  pose proof (bs_server utf8_graphemes pol_wrap ascii_crate demo_serde demo_lua true demo_session cap b1 m s2 _ T1 NM P2 (fun d => eq_refl)) as H2.
  match type of H2 with _ ?y => set (b2 := y) in H2 end.
  exists ([] ++ [BServer MAccept] ++ [BServer m]), b2. split; [|split; [|split]].
  - exists w, (str "/w"), (str "ced"), 0, (SDone 0), e. split; [exact N|]. eapply runs_app; [constructor|]. eapply runs_app; apply run1; [exact H1|exact H2].
  - assert (b_todo demo_lua b2 = []) as T2.
    { unfold b2. cbn [b_todo]. unfold to_write. rewrite Q1, skipn_nil. reflexivity. }
    split; [exact T2|]. unfold b_server, b_peer, b_in, b2. cbn [b_sys sy_server sy_peer]. split; [exact Q5|]. split; [exact Q2|]. split; [exact Q3|]. split; [exact Q4|].
    repeat split; reflexivity.
  - exact Q5.
  - apply fits_all. exact Q6.
Qed.
Example C78_demo : forall cap, exists bms b, demo_breach cap bms b /\ idle demo_lua b 1 /\ sv_done demo_lua (b_server demo_lua b) = false /\ SystemSpec.fits demo_lua (b_sys demo_lua b).
Proof.
  intro cap. assert (joins (editor_new utf8_graphemes pol_wrap demo_lua demo_world demo_session (str "/w") (str "ced") 0 (SDone 0)) handle_next = true) as J by (vm_compute; reflexivity).
  apply joins_ok in J. destruct J as (e & s1 & s2 & N & P1 & P2 & Q). exact (joined_idle cap demo_world e handle_next s1 s2 ltac:(intros c l X; discriminate X) N P1 P2 Q).
Qed.
