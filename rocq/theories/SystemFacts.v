(** Facts for C75: what travels between the server and its clients survives the journey. *)
From Coq Require Import String List Arith Lia ZArith Bool.
From Verif Require Import Base ListFacts PieceTable Coords CoordsFacts Utf8 Utf8Facts Diff Selection Maps StackMap Fmt Buffer View Json JsonFacts Proto ProtoFacts PropProto RelayFacts Core CoreSpec CoreInv CoreOps FreshSpec PropFresh Payload Menu PropMenu Editor EditorSpec EditorFacts PropEditor Conn PropConn Server ServerSpec ServerFacts PropServer PropShown System SystemSpec.
Import ListNotations.

(** ** requests *)
Definition conn_ok (c : conn) : Prop := i32_ok (co_next c) = true /\ Forall wire_request (co_sent c).
Lemma send_wire checked m p c c' : match p with Some j => wire_json j | None => True end -> conn_ok c -> send checked m p c = Ok c' -> conn_ok c'.
Proof.
  intros W [N F] E. unfold send, request_id in E. bnd E. bnd E0. injection E0 as <-. injection E as <-. split; cbn [co_next co_sent].
  - unfold i32_succ in E1. unfold i32_ok in *. apply andb_prop in N. destruct N as [N1 N2]. apply Z.leb_le in N1, N2. destruct (co_next c <? 2147483647)%Z eqn:Q; [injection E1 as <-; apply Z.ltb_lt in Q; apply andb_true_intro; split; apply Z.leb_le; lia|]. destruct checked; [discriminate|]. now injection E1 as <-.
  - apply Forall_app. split; auto. constructor; [|constructor]. split; [exact N|]. cbn [new_request rq_params]. destruct p; cbn [option_map wire_params]; auto. now apply norm_wire.
Qed.
Lemma keys_wire l : wire_json (enc_keys l).
Proof.
  split; cbn [enc_keys plain_json levels].
  - apply folded_forall. apply Forall_map. apply Forall_forall. intros e _. apply key_event_plain.
  - rewrite map_map. assert (list_max (map (fun x => levels (enc_key_event x)) l) <= 2) as H; [|lia]. apply list_max_map_le. apply Forall_forall. intros e _. apply key_event_plain.
Qed.
Ltac flat_json := split; [cbn; auto 10|cbn; lia].
Lemma step_wire checked c o c' : conn_ok c -> cstep checked c o = Ok c' -> conn_ok c'.
Proof.
  intros K E. destruct o; cbn [cstep] in E; try (eapply send_wire; [|exact K|exact E]; cbv iota).
  - injection E as <-. exact K.
  - flat_json.
  - flat_json.
  - flat_json.
  - destruct (cs_menu (co_state c)) as [m|]; [|injection E as <-; exact K]. bnd E. bnd E. injection E as <-. assert (conn_ok v0) as Z by (eapply send_wire; [|exact K|exact E1]; cbv iota; flat_json). exact Z.
  - destruct (cs_menu (co_state c)); injection E as <-; exact K.
  - destruct (cs_menu (co_state c)); [|injection E as <-; exact K]. bnd E. injection E as <-. exact K.
  - injection E as <-. exact K.
  - apply keys_wire.
  - flat_json.
Qed.
Lemma conn0_ok : conn_ok conn0.
Proof. split; [reflexivity|constructor]. Qed.
Lemma lines_from q : Forall wire_request q -> str_lines (bytes_from q) = map print_request q.
Proof. intro F. apply (C57_requests q F). Qed.
Definition arrived (r : request) : request := mkReq (rq_version r) (rq_id r) (rq_method r) (no_null (rq_params r)).
Lemma line_parsed r : wire_request r -> parse_request (print_request r) = Some (arrived r).
Proof. apply C38_request. Qed.

(** ** answers *)
Definition texted (e : Proto.error) : Prop := i32_ok (er_code e) = true /\ exists x, er_data e = Some (JStr x).
Lemma texted_wire e : texted e -> wire_error e.
Proof. intros (F & x & D). split; [exact F|]. rewrite D. cbn. repeat split; lia. Qed.
Definition polite (o : outcome) : Prop := match o with Some e => texted e | None => True end.
Lemma polite_some f x : In f [invalid_request; method_not_found; invalid_params; internal_error] -> polite (Some (f x)).
Proof. intro F. repeat (destruct F as [<-|F]; [split; [reflexivity|eexists; reflexivity]|]). destruct F. Qed.

Section Wire.
Variable G : Graphemes.
Variable pol : policy.
Variable u : regex_crate.
Variable se : serde.
Variable L : lua.
Lemma core_polite r : polite (core_outcome r).
Proof. destruct r; cbn [core_outcome]; try exact Logic.I. apply polite_some. cbn. auto. Qed.
Lemma keys_polite w id ks : forall e o e', command_keys G pol L w id ks e = Ok (o, e') -> polite o.
Proof.
  induction ks as [|k ks IH]; intros e o e' E; cbn [command_keys] in E; [injection E as <- _; exact Logic.I|]. bnd E. destruct v as [x e1]. destruct x; [|eauto]. bnd E. injection E as <- _. apply polite_some. cbn. auto.
Qed.
Lemma exec_polite w id s e o e' : command_exec G pol L w id s e = Ok (o, e') -> polite o.
Proof. unfold command_exec. intro E. bnd E. destruct v as [[x|] e1]; injection E as <- _; [split; [reflexivity|eexists; reflexivity]|exact Logic.I]. Qed.
Lemma action_polite w a c id e o e' : run_action G pol u L w a c id e = Ok (o, e') -> polite o.
Proof.
  intro E. destruct a; cbn [run_action] in E.
  - unfold submenu_action in E. bnd E. bnd E. injection E as <- _. exact Logic.I.
  - unfold command_quit in E. bnd E. injection E as <- _. exact Logic.I.
  - unfold command_view_delete in E. bnd E. injection E as <- _. exact Logic.I.
  - unfold command_edit in E. bnd E. injection E as <- _. exact Logic.I.
  - unfold command_edit in E. bnd E. injection E as <- _. exact Logic.I.
  - unfold command_view in E. bnd E. destruct v. injection E as <- _. apply core_polite.
  - unfold command_view_add in E. bnd E. destruct v. injection E as <- _. apply core_polite.
  - unfold command_view_remove in E. bnd E. destruct v. injection E as <- _. apply core_polite.
  - eapply exec_polite; eauto.
Qed.
Lemma select_polite w id p e o e' : command_menu_select G pol u L w id p e = Ok (o, e') -> polite o.
Proof.
  intro E. unfold command_menu_select in E. destruct (get (ed_menus L e) (sp_command p)) as [m|]; [|injection E as <- _; apply polite_some; cbn; auto]. cbv zeta in E.
  match type of E with match ?x with Some _ => _ | None => _ end = _ => destruct x as [i|] end; [eapply action_polite; eauto|injection E as <- _; apply polite_some; cbn; auto].
Qed.
Lemma answer_wire i x r e' : wire_id i -> (forall o e1, x = Ok (o, e1) -> polite o) -> answer L i x = Ok (r, e') -> wire_response r.
Proof.
  unfold answer. intros W P E. bnd E. destruct v as [o e1]. injection E as <- _. specialize (P _ _ eq_refl). destruct o as [x0|]; cbn [new_response]; split; cbn [rp_id rp_result rp_error]; try exact W; split; try exact Logic.I.
  - now apply texted_wire.
  - cbn [wire_params]. repeat split; cbn; lia.
Qed.
Lemma with_wire {T} (dec : json -> option T) q f e r e' : wire_id (rq_id q) -> (forall p o e1, f p e = Ok (o, e1) -> polite o) -> with_params se L dec q f e = Ok (r, e') -> wire_response r.
Proof.
  intros W P E. unfold with_params in E. eapply answer_wire; [exact W| |exact E]. intros o e1 X. destruct (params_of dec (rq_params q)) as [[p|]|]; [eapply P; exact X|injection X as <- _; apply polite_some; cbn; auto..].
Qed.
Lemma parsed_id line q : parse_request line = Some q -> wire_id (rq_id q).
Proof. 
  unfold parse_request, dec_request. destruct (parse line) as [j|]; [|discriminate]. destruct (fields _ j) as [[|[v|] [|[i|] [|[m|] [|p [|]]]]]|]; try discriminate. destruct (dec_str v), (dec_id i) eqn:D, (dec_str m); try discriminate. intro X. injection X as <-. cbn [rq_id]. eapply dec_id_wire; eauto.
Qed.
Lemma handle_wire w id line e r e' : handle G pol u se L w id line e = Ok (r, e') -> wire_response r.
Proof.
  intro E. unfold handle in E. destruct (parse_request line) as [q|] eqn:P.
  2:{ bnd E. injection E as <- _. split; [exact Logic.I|]. split; [exact Logic.I|]. apply texted_wire. split; [reflexivity|eexists; reflexivity]. }
  pose proof (parsed_id _ _ P) as W.
  repeat match type of E with (if ?b then _ else _) = _ => destruct b end;
    try (eapply with_wire; [exact W| |exact E]; intros p o e1 X; cbv beta in X); try (eapply answer_wire; [exact W| |exact E]; intros o e1 X).
  - unfold command_edit in X. bnd X. injection X as <- _. exact Logic.I.
  - unfold command_quit in X. bnd X. injection X as <- _. exact Logic.I.
  - unfold command_view in X. bnd X. destruct v. injection X as <- _. apply core_polite.
  - unfold command_view_delete in X. bnd X. injection X as <- _. exact Logic.I.
  - unfold command_view_add in X. bnd X. destruct v. injection X as <- _. apply core_polite.
  - unfold command_view_remove in X. bnd X. destruct v. injection X as <- _. apply core_polite.
  - unfold command_menu in X. destruct (get (ed_menus L e) (mp_command p)); [|injection X as <- _; apply polite_some; cbn; auto]. bnd X. injection X as <- _. exact Logic.I.
  - eapply select_polite; eauto.
  - eapply keys_polite; eauto.
  - eapply exec_polite; eauto.
  - bnd E. injection E as <- _. split; [exact W|]. split; [exact Logic.I|]. apply texted_wire. split; [reflexivity|eexists; reflexivity].
Qed.

(** ** what the server wrote *)
Definition log_ok (s : server L) : Prop := forall c x, In (c, x) (sv_log L s) ->
  match x with WAnswer r => wire_response r | WNotif n => exists y, In y (ed_out L (sv_editor L s)) /\ o_what y = n end.
Lemma log_more s s' : more_out L (sv_editor L s) (sv_editor L s') -> forall x, 
  match x with WAnswer r => wire_response r | WNotif n => exists y, In y (ed_out L (sv_editor L s)) /\ o_what y = n end ->
  match x with WAnswer r => wire_response r | WNotif n => exists y, In y (ed_out L (sv_editor L s')) /\ o_what y = n end.
Proof. intros [l M] [r|n]; auto. intros (y & H & E). exists y. split; auto. rewrite M. apply in_or_app. now left. Qed.
Lemma log_move s m s' : sinv G pol u se L s -> smoves G pol u se L s m (Ok s') -> log_ok s -> log_ok s' /\ more_out L (sv_editor L s) (sv_editor L s') /\ exists l, sv_log L s' = sv_log L s ++ l.
Proof.
  intros I H K. remember (Ok s') as r eqn:Er. assert (forall l, l = l ++ @nil (nat * written)) as Nil by (intro; now rewrite app_nil_r).
  destruct H as [Dn|Dn|d line Dn Hd|d Dn Hd|broken x Dn Hx|w broken v rest Dn Ev]; try discriminate; try (injection Er as <-; split; [exact K|split; [apply more_refl|exists []; apply Nil]]).
  - injection Er as <-. split; [|split; [apply more_refl|eexists; reflexivity]]. intros c y H. cbn [deliver sv_log] in H. apply in_app_or in H. destruct H as [H|H]; [exact (K _ _ H)|]. apply in_map_iff in H. destruct H as (z & H & _). injection H as <- <-. exists x. split; [eapply nth_error_In; exact Hx|reflexivity].
  - destruct (event_spec G pol u se L _ _ _ _ _ _ I Er) as (_ & _ & Lc & _ & _ & _ & _ & M & _). destruct v as [d|d|d line]; cbn [log_change] in Lc.
    + split; [intros c y H; rewrite Lc in H; eapply log_more; [exact M|exact (K _ _ H)]|]. split; [exact M|exists []; now rewrite Lc, app_nil_r].
    + split; [intros c y H; rewrite Lc in H; eapply log_more; [exact M|exact (K _ _ H)]|]. split; [exact M|exists []; now rewrite Lc, app_nil_r].
    + destruct Lc as (r0 & e & Hh & Lc). split; [|split; [exact M|eexists; exact Lc]]. intros c y H. rewrite Lc in H. apply in_app_or in H. destruct H as [H|[H|[]]]; [eapply log_more; [exact M|exact (K _ _ H)]|]. injection H as <- <-. eapply handle_wire; exact Hh.
Qed.
End Wire.
(** ** notifications *)
Lemma notif_wire session n : fits_out n -> wire_notification (wire_enotif session n).
Proof.
  assert (forall {A} (enc : A -> json) dec ok k x m, round enc dec ok k -> k < 127 -> ok x -> wire_notification (new_notification m (Some (enc x)))) as R.
  { intros A enc dec ok k x m H K O. destruct (H x O) as (_ & P & V). apply norm_wire. split; auto. lia. }
  destruct n as [[t err|c d|l]|m|l|l]; cbn [fits_out wire_enotif wire_notif].
  - intros _. eapply R; [exact round_rich|lia|exact Logic.I].
  - intros _. eapply R; [exact round_info|lia|exact Logic.I].
  - intro S. eapply R; [exact round_view|lia|]. apply Forall_map. eapply Forall_impl; [|exact S]. intros i (S1 & S2 & S3). split; [exact S1|]. split; [exact S2|]. cbn [wire_item wi_lenses]. apply Forall_map. exact S3.
  - intros _. eapply R; [exact round_menu|lia|exact Logic.I].
  - intro S. eapply R; [exact round_status|lia|exact S].
  - intros _. eapply R; [exact round_hint|lia|exact Logic.I].
Qed.

(** what a client understands *)
Lemma says_wire session n : fits_out n -> let e := received (EvNotification (wire_enotif session n)) in
  says_view e = option_map (map wire_item) (said_view n) /\ says_status e = said_status n /\ says_echo e = said_echo n /\
  option_map in_client (says_info e) = said_name n /\ option_map in_session (says_info e) = option_map (fun _ => session) (said_name n).
Proof.
  intros F e. pose proof (C38_notification _ (notif_wire session n F)) as W. fold (received (EvNotification (wire_enotif session n))) in W. fold e in W.
  assert (forall {A} (enc : A -> json) dec ok k m x, round enc dec ok k -> k < 127 -> (match enc x with JArr _ | JObj _ => True | _ => False end) -> ok x ->
    wire_enotif session n = new_notification m (Some (enc x)) -> exists f, e = EvNotification f /\ nt_method f = m /\ param dec f = Some x) as K.
  { intros A enc dec ok k m x R K J O Q. destruct (notif_round enc dec ok k m x R K J O) as (f & P & M & D). rewrite <- Q in P. assert (e = EvNotification f) by (clear - W P; congruence). eauto. }
  unfold says_view, says_status, says_echo, says_info, named. destruct n as [[t err|c d|l]|m|l|l]; cbn [said_view said_status said_echo said_name option_map fits_out] in *.
  - destruct (K _ enc_rich dec_rich (fun _ => True) 2 (str "echo") [mkFrag t (if err then FError else FDefault)] round_rich) as (f & -> & M & D); [lia|exact Logic.I|exact Logic.I|reflexivity|]. rewrite M, D. repeat split; reflexivity.
  - destruct (K _ enc_info dec_info (fun _ => True) 1 (str "info") (mkInfo c session d) round_info) as (f & -> & M & D); [lia|exact Logic.I|exact Logic.I|reflexivity|]. rewrite M, D. repeat split; reflexivity.
  - destruct (K _ enc_view dec_view _ _ (str "view") (map wire_item l) round_view) as (f & -> & M & D); [lia|exact Logic.I| |reflexivity|rewrite M, D; repeat split; reflexivity].
    apply Forall_map. eapply Forall_impl; [|exact F]. intros i (S1 & S2 & S3). split; [exact S1|]. split; [exact S2|]. cbn [wire_item wi_lenses]. apply Forall_map. exact S3.
  - destruct (K _ enc_menu_info dec_menu_info _ _ (str "menu") m round_menu) as (f & -> & M & D); [lia|exact Logic.I|exact Logic.I|reflexivity|rewrite M, D; repeat split; reflexivity].
  - destruct (K _ enc_status dec_status _ _ (str "status") l round_status) as (f & -> & M & D); [lia|exact Logic.I|exact F|reflexivity|rewrite M, D; repeat split; reflexivity].
  - destruct (K _ enc_hint dec_hint _ _ (str "hint") l round_hint) as (f & -> & M & D); [lia|exact Logic.I|exact Logic.I|reflexivity|rewrite M; repeat split; reflexivity].
Qed.
Lemma displayed_wire v : displayed (map wire_item v) = v.
Proof.
  unfold displayed. rewrite map_map. transitivity (map (fun i : pitem => i) v); [|apply map_id]. apply map_ext. intros [b x y ls]. cbn. f_equal. rewrite map_map. transitivity (map (fun i : plens => i) ls); [|apply map_id].
  apply map_ext. intros [lines f]. cbn. f_equal. rewrite map_map. transitivity (map (fun i : list (nat * bool) => i) lines); [|apply map_id]. apply map_ext. apply runs_flat.
Qed.
(** the last thing said, over lists that say the same *)
Lemma latest_written {B C} session (f : event -> option B) (g : enotif -> option C) (h : C -> B) log c : (forall r, f (EvResponse r) = None) ->
  (forall n, In n (notified log c) -> f (received (EvNotification (wire_enotif session n))) = option_map h (g n)) ->
  forall d, latest f (map received (written_to session log c)) (h d) = h (latest g (notified log c) d).
Proof.
  intros R. induction log as [|[i x] log IH]; intros H d; [reflexivity|]. change (written_to session ((i, x) :: log) c) with ((if i =? c then [wire_written session x] else []) ++ written_to session log c).
  change (notified ((i, x) :: log) c) with (match x with WNotif n => if i =? c then [n] else [] | _ => [] end ++ notified log c) in *. destruct (i =? c).
  - destruct x as [r|n]; cbn [app wire_written map latest received].
    + rewrite R. apply IH. exact H.
    + rewrite <- IH; [|intros n' Hn'; apply H; now right]. f_equal. pose proof (H n (or_introl eq_refl)) as Q. cbn [received] in Q. rewrite Q. destruct (g n); reflexivity.
  - replace (match x with WNotif n => [] | WAnswer _ => [] end) with (@nil enotif) in * by (destruct x; reflexivity). apply IH. intros n Hn. apply H. destruct x; exact Hn.
Qed.
Lemma written_app session a b c : written_to session (a ++ b) c = written_to session a c ++ written_to session b c.
Proof. apply flat_map_app. Qed.
Lemma notified_in log c n : In n (notified log c) -> In (c, WNotif n) log.
Proof. unfold notified. intro H. apply in_flat_map in H. destruct H as ([i x] & H & K). cbn [snd fst] in K. destruct x as [r|m]; [destruct K|]. destruct (Nat.eqb_spec i c) as [->|]; [|destruct K]. destruct K as [->|[]]. exact H. Qed.
Lemma written_wire L session (s : server L) c : log_ok L s -> Forall (fun x => fits_out (o_what x)) (ed_out L (sv_editor L s)) -> Forall wire_event (written_to session (sv_log L s) c).
Proof.
  intros K F. apply Forall_forall. intros e H. unfold written_to in H. apply in_flat_map in H. destruct H as ([i x] & H & Q). cbn [fst snd] in Q. destruct (i =? c); [|destruct Q]. destruct Q as [<-|[]]. specialize (K _ _ H). destruct x as [r|n]; cbn [wire_written wire_event]; [exact K|].
  destruct K as (y & Hy & <-). apply notif_wire. rewrite Forall_forall in F. exact (F _ Hy).
Qed.
Lemma lines_to L session (s : server L) c : log_ok L s -> Forall (fun x => fits_out (o_what x)) (ed_out L (sv_editor L s)) ->
  str_lines (bytes_to session (sv_log L s) c) = map print_event (written_to session (sv_log L s) c).
Proof. intros K F. apply (C57 _ (written_wire L session s c K F)). Qed.
