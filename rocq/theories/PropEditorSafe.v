(** C37, positive part: an editor survives every careful event and answers every careful line. *)
From Coq Require Import String List Arith Lia ZArith Bool.
From Verif Require Import Base ListFacts PieceTable PieceTableSpec PieceTableFacts History Coords Utf8 Utf8Facts Diff Selection NavSpec Maps StackMap Fmt Buffer View Json Proto Keys Core CoreSpec CoreInv CoreOps CoreTame CoreSafe CoreSafeMore PropSafe Payload Menu MenuSpec PropMenu Editor EditorSpec EditorFacts PropEditor EditorTame.
Import ListNotations.

Section Safe.
Variable G : Graphemes.
Variable pol : policy.
Variable u : regex_crate.
Variable se : serde.
Variable L : lua.
Hypothesis Pf : policy_wrap pol \/ policy_succ pol.
Notation editor := (editor L).
Notation tr e := (tame_reach G pol (ed_core L e)).

Lemma on_core_safe w c e : tr e -> tame (w_disk w) (ed_core L e) c -> exists r e', on_core G pol L w c e = Ok (r, e') /\ tr e'.
Proof. intros R T. destruct (C36_careful_partial G pol (w_disk w) _ c Pf R T) as (r & k & E & R'). exists r, (set_core L e k). unfold on_core. rewrite E. auto. Qed.
Lemma do_core_safe w c e : tr e -> tame (w_disk w) (ed_core L e) c -> exists e', do_core G pol L w c e = Ok e' /\ tr e'.
Proof. intros R T. destruct (on_core_safe w c e R T) as (r & e' & E & R'). exists e'. unfold do_core. rewrite E. auto. Qed.
Lemma lua_call_safe w c e : tr e -> (forall c', core_call c = Some c' -> tame (w_disk w) (ed_core L e) c') -> exists r e', lua_call G pol L w c e = Ok (r, e') /\ tr e'.
Proof. intros R T. destruct c; cbn [lua_call]; try (apply on_core_safe; auto; now apply T); eexists _, _; (split; [reflexivity|exact R]). Qed.
Lemma script_safe w t : forall e, tr e -> careful_script G pol L w t e ->
  exists r e', run_script G pol L w t e = Ok (r, e') /\ tr e' /\ (forall x, r = Some x -> plain x).
Proof.
  induction t as [s|x s|c k IH]; intros e R C; cbn [run_script careful_script] in *.
  - eexists _, _. split; [reflexivity|]. split; [exact R|discriminate].
  - eexists _, _. split; [reflexivity|]. split; [exact R|]. intros y Y. injection Y as <-. exact C.
  - destruct C as [T C]. destruct (lua_call_safe w c e R T) as (r & e1 & E & R1). rewrite E. cbn [bind]. apply IH; auto.
Qed.
Lemma plain_cat l : Forall plain l -> plain (concat l).
Proof. induction 1; cbn; [split; [constructor|auto]|now apply plain_app]. Qed.
Lemma exec_safe w src id f e : tr e -> plain src -> careful_exec G pol L w id f e ->
  exists r e', exec_lua G pol L w src id f e = Ok (r, e') /\ tr e' /\ (forall x, r = Some x -> plain x).
Proof.
  intros R Ps (C1 & C2). unfold exec_lua. destruct (script_safe w _ e R C1) as (r & e1 & E & R1 & P1). rewrite E. cbn [bind].
  assert (exists r' e2, (match r with None => run_script G pol L w (f (ed_lua L e1)) e1 | Some x => Ok (Some x, e1) end) = Ok (r', e2) /\ tr e2 /\ (forall x, r' = Some x -> plain x)) as (r' & e2 & E2 & R2 & P2).
  { destruct r; [eauto|]. apply script_safe; auto. }
  rewrite E2. cbn [bind]. destruct r' as [x|]; [|exists None, e2; split; auto]. specialize (P2 x eq_refl).
  destruct (do_core_safe w (CDebug (str "client " ++ dec id ++ str ": exec error: " ++ src ++ [LF] ++ str "<<<<<<<" ++ [LF] ++ x ++ [LF] ++ str ">>>>>>>")) e2 R2) as (e3 & E3 & R3).
  { cbn [tame]. repeat apply plain_app; auto using plain_lf, plain_dec; apply plain_str; reflexivity. }
  rewrite E3. cbn [bind]. destruct (do_core_safe w (CError (Some id) (str "exec") x) e3 R3) as (e4 & E4 & R4). { cbn [tame]. split; auto. apply plain_str; reflexivity. }
  rewrite E4. cbn [bind]. exists (Some x), e4. split; auto. split; auto. intros y Y. now injection Y as <-.
Qed.
Lemma keys_safe w id ks : forall e, tr e -> careful_keys G pol L w id ks e -> exists o e', command_keys G pol L w id ks e = Ok (o, e') /\ tr e'.
Proof.
  induction ks as [|k ks IH]; intros e R C; cbn [command_keys careful_keys] in *; [eauto|]. destruct C as [C1 C2].
  destruct (exec_safe w (str "keys") id (lu_key L id k) e R) as (r & e1 & E & R1 & P1); auto; [apply plain_str; reflexivity|]. rewrite E. cbn [bind]. destruct r as [x|]; [|auto].
  destruct (do_core_safe w (CError (Some id) (str "key handler") x) e1 R1) as (e2 & E2 & R2). { cbn [tame]. split; auto. apply plain_str; reflexivity. } rewrite E2. cbn [bind]. eauto.
Qed.
Lemma menu_safe w id p e : tr e -> careful_menu u L w p e -> exists o e', command_menu u L w id p e = Ok (o, e') /\ tr e'.
Proof.
  intros R C. unfold command_menu. destruct (get (ed_menus L e) (mp_command p)) as [m|] eqn:Q; [|eauto]. unfold show_menu.
  set (m1 := if eqb (mp_search p) [] then populate w (ed_core L e) m else m). assert (is_prompt m1 = is_prompt m) as Pm by (unfold m1; destruct (eqb _ _); reflexivity).
  assert (exists mi, menu_notification u m1 (mp_search p) = Ok mi) as (mi & E).
  { destruct (is_prompt m) eqn:Pr; [unfold menu_notification; rewrite Pm; cbn [bind]; eauto|]. destruct (C m Q Pr) as (P & F & S). destruct (C52_partial u m1 (mp_search p) Pm P F S) as (info & _ & _ & E & _). eauto. }
  rewrite E. cbn [bind]. eexists _, _. split; [reflexivity|exact R].
Qed.
Lemma answer_ok i x : (exists o e', x = Ok (o, e') /\ tr e') -> exists r e', answer L i x = Ok (r, e') /\ tr e'.
Proof. intros (o & e' & -> & R). unfold answer. cbn [bind]. eauto. Qed.
Lemma with_ok {T} (dec : json -> option T) q f e : tr e -> dec JNull = None -> (forall p, asks dec (rq_method q) p q -> exists o e', f p e = Ok (o, e') /\ tr e') -> exists r e', with_params se L dec q f e = Ok (r, e') /\ tr e'.
Proof.
  intros R DN H. unfold with_params. apply answer_ok. destruct (params_of dec (rq_params q)) as [[p|]|] eqn:P; [|eauto..]. apply H. split; auto. unfold params_of in P. destruct (rq_params q) as [j|]; [|discriminate]. exists j. split; auto. clear DN. destruct j; try (destruct (dec _); [now injection P as ->|discriminate]). discriminate.
Qed.
Lemma dec_keys_null : dec_keys JNull = None.
Proof. reflexivity. Qed.
(** everything but selections *)
Lemma request_safe w id line e q : tr e -> parse_request line = Some q -> rq_method q <> str "menu-select" -> careful_request G pol u L w id q e ->
  exists r e', handle G pol u se L w id line e = Ok (r, e') /\ tr e'.
Proof.
  intros R P NS (C0 & C1 & C2 & C3 & C4 & C5 & C6 & C7 & C8). unfold handle. rewrite P.
  assert (forall c (o : outcome), tame (w_disk w) (ed_core L e) c -> exists o' e', (e0 <- do_core G pol L w c e ;; Ok (o, e0)) = Ok (o', e') /\ tr e') as DC.
  { intros c o T. destruct (do_core_safe w c e R T) as (e1 & E1 & R1). rewrite E1. cbn [bind]. eauto. }
  assert (forall c, tame (w_disk w) (ed_core L e) c -> exists o' e', ('(r, e0) <- on_core G pol L w c e ;; Ok (core_outcome r, e0)) = Ok (o', e') /\ tr e') as OC.
  { intros c T. destruct (on_core_safe w c e R T) as (r1 & e1 & E1 & R1). rewrite E1. cbn [bind]. eauto. }
  destruct (eqb (rq_method q) (str "edit")) eqn:Q1; [apply eqb_ok in Q1; apply with_ok; auto; rewrite Q1; intros p A; unfold command_edit; apply DC; auto|].
  destruct (eqb (rq_method q) (str "quit")) eqn:Q2. { apply answer_ok. unfold command_quit. destruct (do_core_safe w (CLeave id) e R Logic.I) as (e1 & E1 & R1). rewrite E1. cbn [bind]. eexists _, _. split; [reflexivity|exact R1]. }
  destruct (eqb (rq_method q) (str "view")) eqn:Q3; [apply eqb_ok in Q3; apply with_ok; auto; rewrite Q3; intros p A; unfold command_view; apply OC; auto|].
  destruct (eqb (rq_method q) (str "view-delete")) eqn:Q4; [apply eqb_ok in Q4; apply answer_ok; unfold command_view_delete; apply DC; auto|].
  destruct (eqb (rq_method q) (str "view-add")) eqn:Q5; [apply eqb_ok in Q5; apply with_ok; auto; rewrite Q5; intros p A; unfold command_view_add; apply OC; auto|].
  destruct (eqb (rq_method q) (str "view-remove")) eqn:Q6; [apply eqb_ok in Q6; apply with_ok; auto; rewrite Q6; intros p A; unfold command_view_remove; apply OC; auto|].
  destruct (eqb (rq_method q) (str "menu")) eqn:Q7; [apply eqb_ok in Q7; apply with_ok; auto; rewrite Q7; intros p A; apply menu_safe; auto|].
  destruct (eqb (rq_method q) (str "menu-select")) eqn:Q8; [apply eqb_ok in Q8; contradiction|].
  destruct (eqb (rq_method q) (str "keys")) eqn:Q9; [apply eqb_ok in Q9; apply with_ok; auto; rewrite Q9; intros p A; apply keys_safe; auto|].
  destruct (eqb (rq_method q) (str "exec")) eqn:Q10.
  { apply eqb_ok in Q10. apply with_ok; auto. rewrite Q10. intros p A. unfold command_exec. destruct (exec_safe w (str "exec") id (lu_exec L p) e R) as (r1 & e1 & E1 & R1 & _); auto; [apply plain_str; reflexivity|]. rewrite E1. cbn [bind]. eauto. }
  assert (plain (print_request q)) as Pq. { apply C0. intro I. cbn in I. repeat match type of I with _ \/ _ => destruct I as [I|I] end; try contradiction; rewrite <- I in *; rewrite eqb_refl in *; discriminate. }
  destruct (do_core_safe w (CError (Some id) (str "protocol") (str "unknown command: " ++ print_request q ++ [LF])) e R) as (e1 & E1 & R1).
  { cbn [tame]. split; [apply plain_str; reflexivity|]. repeat apply plain_app; auto using plain_lf. apply plain_str; reflexivity. }
  rewrite E1. cbn [bind]. eauto.
Qed.
Lemma stands_not_select cmd choice q : stands_for cmd choice q -> rq_method q <> str "menu-select".
Proof.
  intros S E. inversion S as [c r [M _]|c r [M _]|c r [M _]|c r [M _]|c r [M _]|c r [M _]|r M|r M|c r _ [M _]]; rewrite E in M; discriminate.
Qed.
Lemma select_safe w id line e q cmd choice q' : tr e -> ereach G pol u se L e -> parse_request line = Some q -> asks dec_select (str "menu-select") (mkSelP cmd choice) q ->
  shown (ed_out L e) cmd choice -> stands_for cmd choice q' -> careful_request G pol u L w id q' e ->
  exists r e', handle G pol u se L w id line e = Ok (r, e') /\ tr e'.
Proof.
  intros R ER P A Sh S (C0 & C1 & C2 & C3 & C4 & C5 & C6 & C7 & C8). rewrite (handle_select G pol u se L _ _ _ _ _ P _ A). apply answer_ok.
  destruct (select_shown G pol u se L e w id cmd choice ER Sh) as (a & -> & T & _). cbn [In] in T.
  assert (forall c (o : outcome), tame (w_disk w) (ed_core L e) c -> exists o' e', (e0 <- do_core G pol L w c e ;; Ok (o, e0)) = Ok (o', e') /\ tr e') as DC.
  { intros c o H. destruct (do_core_safe w c e R H) as (e1 & E1 & R1). rewrite E1. cbn [bind]. eauto. }
  assert (forall c, tame (w_disk w) (ed_core L e) c -> exists o' e', ('(r, e0) <- on_core G pol L w c e ;; Ok (core_outcome r, e0)) = Ok (o', e') /\ tr e') as OC.
  { intros c H. destruct (on_core_safe w c e R H) as (r1 & e1 & E1 & R1). rewrite E1. cbn [bind]. eauto. }
  inversion S as [c r Q E1 E2 E3|c r Q E1 E2 E3|c r Q E1 E2 E3|c r Q E1 E2 E3|c r Q E1 E2 E3|c r Q E1 E2 E3|r Q E1 E2 E3|r Q E1 E2 E3|c r M Q E1 E2 E3]; subst;
    destruct T as [X|[X|[X|[X|[X|[X|[X|[]]]]]]]]; try discriminate X; injection X as <-; cbn [run_action].
  - unfold command_edit. apply DC. exact (C1 _ Q).
  - unfold command_edit. apply DC. exact (C1 _ Q).
  - unfold command_view. apply OC. exact (C2 _ Q).
  - unfold command_view_add. apply OC. exact (C4 _ Q).
  - unfold command_view_remove. apply OC. exact (C5 _ Q).
  - unfold command_exec. destruct (exec_safe w (str "exec") id (lu_exec L choice) e R) as (r1 & e1 & E1 & R1 & _); auto; [apply plain_str; reflexivity|]. rewrite E1. cbn [bind]. eauto.
  - change (exists o e', command_quit G pol L w id e = Ok (o, e') /\ tr e'). unfold command_quit. destruct (do_core_safe w (CLeave id) e R Logic.I) as (e1 & E1 & R1). rewrite E1. cbn [bind]. eexists _, _. split; [reflexivity|exact R1].
  - change (exists o e', command_view_delete G pol L w id e = Ok (o, e') /\ tr e'). unfold command_view_delete. apply DC. auto.
  - destruct (menu_safe w id (mkMenuP choice []) e R (C6 _ Q)) as (o & e' & E & R'). rewrite <- (sub_same G pol u se L e w id choice ER M) in E. exists o, e'. split; auto. rewrite <- E. cbn in M. destruct M as [<-|[<-|[<-|[<-|[<-|[<-|[]]]]]]]; reflexivity.
Qed.
Lemma line_safe w id line e : tr e -> ereach G pol u se L e -> careful_line G pol u se L w id line e ->
  exists r e', handle G pol u se L w id line e = Ok (r, e') /\ tr e'.
Proof.
  intros R ER C. unfold careful_line in C. destruct (parse_request line) as [q|] eqn:P.
  - destruct C as [C S]. destruct (eqb (rq_method q) (str "menu-select")) eqn:Q; [|apply (request_safe w id line e q); auto; intro X; rewrite X, eqb_refl in Q; discriminate].
    apply eqb_ok in Q. destruct (rq_params q) as [j|] eqn:J.
    + destruct (dec_select j) as [[cmd choice]|] eqn:D.
      * assert (asks dec_select (str "menu-select") (mkSelP cmd choice) q) as A by (split; eauto). destruct (S cmd choice A) as [(Sh & q' & St & C')|(NI & NP)].
        -- eapply select_safe; eauto.
        -- destruct (C53_refused G pol u se L e w id line q cmd choice P A ER NI NP) as (r & E & _). eauto.
      * assert (j = JNull \/ j <> JNull) as [->|NJ] by (destruct j; (now left) || (right; discriminate)).
        -- destruct (C37_refusals G pol u se L e w id line q P) as (r & E); [left; split; [now right|]|eauto]. exists JNull. rewrite Q. eexists. reflexivity.
        -- destruct (C37_refusals G pol u se L e w id line q P) as (r & E); [right; exists j; split; auto; split; auto; rewrite Q|eauto]. unfold takes.
           replace (eqb (str "menu-select") (str "edit")) with false by reflexivity. replace (eqb (str "menu-select") (str "menu")) with false by reflexivity. rewrite eqb_refl. cbv iota zeta. now rewrite D.
    + destruct (C37_refusals G pol u se L e w id line q P) as (r & E); [left; split; [now left|]|eauto]. exists JNull. rewrite Q. eexists. reflexivity.
  - destruct C as [P1 P2]. unfold handle. rewrite P. destruct (do_core_safe w (CError (Some id) (str "protocol") (se_line se line ++ str ": " ++ line)) e R) as (e1 & E1 & R1).
    { cbn [tame]. split; [apply plain_str; reflexivity|]. repeat apply plain_app; auto. apply plain_str; reflexivity. } rewrite E1. cbn [bind]. eauto.
Qed.
Lemma happens_safe w v e : tr e -> ereach G pol u se L e -> careful G pol u se L w v e -> exists e', happens G pol u se L w v e = Ok e' /\ tr e'.
Proof.
  intros R ER C. destruct v as [id|id|id line]; cbn [happens careful] in *.
  - destruct C as [T C]. unfold editor_add_client. destruct (do_core_safe w (CJoin id) e R T) as (e1 & E1 & R1). rewrite E1. cbn [bind].
    destruct (exec_safe w (str "add_client") id (lu_exec L (str "editor:add_client(" ++ dec id ++ str ")")) e1 R1) as (r & e2 & E2 & R2 & _); [apply plain_str; reflexivity|exact (C e1 E1)|]. rewrite E2. cbn [bind]. eauto.
  - unfold editor_remove_client. destruct (do_core_safe w (CLeave id) e R Logic.I) as (e1 & E1 & R1). rewrite E1. cbn [bind].
    destruct (exec_safe w (str "remove_client") id (lu_exec L (str "editor:remove_client(" ++ dec id ++ str ")")) e1 R1) as (r & e2 & E2 & R2 & _); [apply plain_str; reflexivity|exact (C e1 E1)|]. rewrite E2. cbn [bind]. eauto.
  - destruct (line_safe w id line e R ER C) as (r & e' & E & R'). rewrite E. cbn [bind]. eauto.
Qed.
Lemma happens_ereach w v e e' : ereach G pol u se L e -> happens G pol u se L w v e = Ok e' -> ereach G pol u se L e'.
Proof. intros R E. destruct v; cbn [happens] in E; [eapply er_join; eauto|eapply er_leave; eauto|]. bnd E. destruct v. injection E as <-. eapply er_line; eauto. Qed.
Lemma careful_inv e : careful_reach G pol u se L e -> tr e /\ ereach G pol u se L e.
Proof.
  induction 1 as [w session cwd args s scripts e Pc Pa C E|w v e e' R [IT IE] C E|e R [IT IE]|e k R [IT IE] S].
  - split; [|eapply er_new; eauto]. unfold editor_new in E. bnd E. bnd E. destruct v0 as [r e1]. destruct r; [discriminate|]. injection E as <-.
    destruct (script_safe w scripts _ (tame_init G pol _ _ _ Pc Pa E0 : tr (mkEd L session default_commands [] v s (map (fun s => mkES (m_to s) (OCore (m_what s))) (k_sent v)))) (C v eq_refl)) as (r & e2 & E2 & R2 & _). rewrite E2 in E1. injection E1 as _ <-. exact R2.
  - split; [|eapply happens_ereach; eauto]. destruct (happens_safe w v e IT IE C) as (e2 & E2 & R2). rewrite E in E2. injection E2 as <-. exact R2.
  - split; [exact IT|now apply er_removed].
  - split; [|now apply er_shuffle]. eapply tame_shuffle; eauto.
Qed.
(** An editor that has only seen careful events survives the next one, and answers if it is a line. *)
Theorem C37_careful_partial : forall w v e, careful_reach G pol u se L e -> careful G pol u se L w v e ->
  exists e', happens G pol u se L w v e = Ok e' /\ careful_reach G pol u se L e'.
Proof.
  intros w v e R C. destruct (careful_inv e R) as [T E]. destruct (happens_safe w v e T E C) as (e' & H & _). exists e'. split; auto. eapply cr_event; eauto.
Qed.
Theorem C37_answered_partial : forall w id line e, careful_reach G pol u se L e -> careful_line G pol u se L w id line e ->
  exists r e', handle G pol u se L w id line e = Ok (r, e').
Proof. intros w id line e R C. destruct (careful_inv e R) as [T E]. destruct (line_safe w id line e T E C) as (r & e' & H & _). eauto. Qed.
(** It starts, too. *)
Theorem C37_starts_partial : forall w session cwd args s scripts, plain cwd -> plain args ->
  (forall k, editor_init G cwd args = Ok k -> careful_script G pol L w scripts (mkEd L session default_commands [] k s (map (fun s => mkES (m_to s) (OCore (m_what s))) (k_sent k)))) ->
  (forall e r e', run_script G pol L w scripts e = Ok (r, e') -> r = None) ->
  exists e, editor_new G pol L w session cwd args s scripts = Ok e /\ careful_reach G pol u se L e.
Proof.
  intros w session cwd args s scripts Pc Pa C N. destruct (C36_starts_partial G cwd args Pc Pa) as (k & E).
  destruct (script_safe w scripts _ (tame_init G pol _ _ _ Pc Pa E : tr (mkEd L session default_commands [] k s (map (fun s => mkES (m_to s) (OCore (m_what s))) (k_sent k)))) (C k E)) as (r & e2 & E2 & _ & _).
  assert (editor_new G pol L w session cwd args s scripts = Ok e2) as H. { unfold editor_new. rewrite E. cbn [bind]. rewrite E2. cbn [bind]. apply N in E2. subst r. reflexivity. }
  exists e2. split; auto. exact (cr_new G pol u se L w session cwd args s scripts e2 Pc Pa C H).
Qed.
End Safe.
Print Assumptions C37_careful_partial.
Print Assumptions C37_answered_partial.
Print Assumptions C37_starts_partial.
