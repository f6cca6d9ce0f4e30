(** C65, C66, C67: a terminal session that meets their hypotheses. *)
From Coq Require Import String List Arith Lia ZArith Bool.
From Verif Require Import Base ListFacts Maps Utf8 Fmt Chars Json Proto ProtoFacts PropProto Payload Menu Editor EditorSpec Conn PropConn Tui TuiSpec TuiFacts PropTui PropTuiMenu PropTuiKeys PropTuiScreen.
Import ListNotations.

Definition message (o : cop) : tmove := match o with OpEvent e => MvMessage e | _ => MvHandle end.
Definition plain_key (c : string) : tkey := mkTK false false false (TcChar (str c)).
Definition ctrl_key (c : string) : tkey := mkTK true false false (TcChar (str c)).
Definition escape_key : tkey := mkTK false false false TcEsc.
Definition view_move : tmove := message (demo_event (new_notification (str "view") (Some (enc_view (cs_view demo_state))))).
Definition echo_move : tmove := message (demo_event (new_notification (str "echo") (Some (enc_rich [mkFrag (str "saved") FDefault])))).
Definition status_move : tmove := message (demo_event (new_notification (str "status") (Some (enc_status [mkStatus 1 [mkFrag (str "normal") FDefault]])))).
Definition menu_move : tmove := message (demo_event (new_notification (str "menu") (Some (enc_menu_info demo_menu)))).
Definition demo_moves : list tmove :=
  [view_move; MvKey (plain_key "j"); MvHandle; echo_move; MvKey escape_key; MvHandle; MvKey (ctrl_key "f"); MvReadError (str "eof"); status_move; MvResize 30 8; MvHandle; MvHandle; MvHandle; MvHandle; MvHandle; MvHandle; MvHandle].
Definition started : term := match term_new true (20, 6)%Z [str "a.rs"; str "b.rs"] with Ok t => t | _ => mkTerm conn0 false (0, 0)%Z [] end.
Definition ended : tsys := match trun demo_styles true demo_moves (mkTS started []) with Ok s => s | _ => mkTS started [] end.
Lemma demo_runs : term_new true (20, 6)%Z [str "a.rs"; str "b.rs"] = Ok started /\ trun demo_styles true demo_moves (mkTS started []) = Ok ended /\ ts_queue ended = [].
Proof. vm_compute. auto. Qed.
Lemma demo_quiet : (forall e, In (MvMessage e) demo_moves -> says_menu e = None /\ named (str "hint") dec_hint e = None) /\ (forall k, In (MvKey k) demo_moves -> one_code k).
Proof.
  assert (forallb (fun m => match m with MvMessage e => match says_menu e, named (str "hint") dec_hint e with None, None => true | _, _ => false end | MvKey k => match tk_code k with TcChar c => one_char c | _ => true end | _ => true end) demo_moves = true) as H by (vm_compute; reflexivity).
  rewrite forallb_forall in H. split; intros x Hx; apply H in Hx; cbn beta iota in Hx.
  - destruct (says_menu x), (named (str "hint") dec_hint x); try discriminate Hx. auto.
  - unfold one_code. destruct (tk_code x); auto.
Qed.
(** two files, a key, Escape, the file menu and an error report: six requests *)
Example C65_demo : exists sent waiting, concat (map move_wishes demo_moves) = sent ++ waiting /\ waiting = [] /\ length sent = 4 /\
  Forall2 fulfils (co_sent (t_conn (ts_term ended))) (map WEdit [str "a.rs"; str "b.rs"] ++ sent).
Proof.
  destruct demo_runs as (A & B & C). destruct demo_quiet as [D E].
  destruct (C65_partial demo_styles true _ _ _ _ _ A B (fun e H => proj1 (D e H)) E) as (s & w & F & G & H). rewrite C in H. subst w. exists s, []. split; [exact F|]. split; [reflexivity|]. split; [|exact G].
  rewrite app_nil_r in F. rewrite <- F. vm_compute. reflexivity.
Qed.
Example C67_demo : view_current demo_styles true (ts_term ended) /\ status_current demo_styles true (ts_term ended) /\ t_size (ts_term ended) = (30, 8)%Z /\ cs_view (co_state (t_conn (ts_term ended))) = cs_view demo_state /\ cs_status (co_state (t_conn (ts_term ended))) <> [].
Proof.
  destruct demo_runs as (A & B & C). destruct demo_quiet as [D E].
  destruct (C67_partial demo_styles true _ _ _ _ _ A B D E C) as [V W]. split; [exact V|]. split; [exact W|]. vm_compute. repeat split; discriminate.
Qed.
(** the file menu is open with the search "m"; the user types "." and the answer comes before the next key *)
Definition in_menu : term := match trun demo_styles true [menu_move; MvHandle] (mkTS started []) with Ok s => ts_term s | _ => started end.
Definition answer (s : text) : event := match demo_event (new_notification (str "menu") (Some (enc_menu_info (mkMenu (str "open") (str "file") s [])))) with OpEvent e => e | _ => EvNotification (new_notification (str "") None) end.
Definition typed_dot : term := match handle_input demo_styles true (plain_key ".") in_menu with Ok t => t | _ => in_menu end.
Definition typed_back : term := match handle_input demo_styles true (mkTK false false false TcBackspace) (received (answer (str "m.")) typed_dot) with Ok t => t | _ => in_menu end.
Lemma demo_slowly : slowly demo_styles true in_menu [plain_key "."; mkTK false false false TcBackspace] (received (answer (str "m")) typed_back).
Proof.
  eapply (sl_key _ _ _ _ typed_dot (answer (str "m."))); [vm_compute; reflexivity| |].
  - exists (mkMenu (str "open") (str "file") (str "m.") []). destruct (co_sent (t_conn typed_dot)) as [|r0 [|r1 [|r2 [|]]]] eqn:Q; try (vm_compute in Q; discriminate Q). exists r2, [r0; r1]. split; [vm_compute; reflexivity|]. split; [reflexivity|]. vm_compute in Q. injection Q as <- <- <-. split; [vm_compute; reflexivity|]. eexists. split; vm_compute; reflexivity.
  - eapply (sl_key _ _ _ _ typed_back (answer (str "m"))); [vm_compute; reflexivity| |apply sl_nil].
    exists (mkMenu (str "open") (str "file") (str "m") []). destruct (co_sent (t_conn typed_back)) as [|r0 [|r1 [|r2 [|r3 [|]]]]] eqn:Q; try (vm_compute in Q; discriminate Q). exists r3, [r0; r1; r2]. split; [vm_compute; reflexivity|]. split; [reflexivity|]. vm_compute in Q. injection Q as <- <- <- <-. split; [vm_compute; reflexivity|]. eexists. split; vm_compute; reflexivity.
Qed.
Example C66_demo : exists m', cs_menu (co_state (t_conn (received (answer (str "m")) typed_back))) = Some m' /\ cm_search m' = str "m" /\ cm_command m' = str "open".
Proof.
  destruct (cs_menu (co_state (t_conn in_menu))) as [m|] eqn:M; [|vm_compute in M; discriminate M].
  destruct (C66_partial demo_styles true _ _ _ m demo_slowly M) as (m' & s & A & B & C & D & _).
  - intros k [<-|[<-|[]]]; exact Logic.I.
  - exists m'. split; [exact A|]. vm_compute in M. injection M as <-. vm_compute in B. injection B as <-. auto.
Qed.
(** down in a menu of two entries *)
Definition down_key : tkey := mkTK false false false TcDown.
Example C66_keys_demo : match cs_menu (co_state (t_conn in_menu)), handle_input demo_styles true down_key in_menu with
  | Some m, Ok t => cm_selected m = 0 /\ cm_selected m < length (cm_entries m) /\ option_map cm_selected (cs_menu (co_state (t_conn t))) = Some 1
  | _, _ => False
  end.
Proof. vm_compute. split; [reflexivity|]. split; [lia|reflexivity]. Qed.
