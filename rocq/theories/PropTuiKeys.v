(** C65-C67: the keys typed and the screen that results. *)
From Coq Require Import String List Arith Lia ZArith Bool.
From Verif Require Import Base ListFacts Maps Utf8 Utf8Facts Fmt Chars Json Proto ProtoFacts PropProto Payload Menu Editor EditorSpec Conn PropConn Tui TuiSpec TuiFacts.
Import ListNotations.

Lemma Forall2_length {A B} (R : A -> B -> Prop) l m : Forall2 R l m -> length l = length m.
Proof. induction 1; cbn [length]; congruence. Qed.
Lemma app_inv_length {A} (a b c d : list A) : length a = length c -> a ++ b = c ++ d -> a = c.
Proof. revert c. induction a as [|x a IH]; intros [|y c] L E; cbn in *; try discriminate; [reflexivity|]. injection L as L. injection E as -> E. f_equal. now apply IH. Qed.
Section Tui.
Variable sy : styles.
Variable checked : bool.
Notation tstep := (tstep sy checked).
Notation trun := (trun sy checked).
Notation handle_input := (handle_input sy checked).
Notation handle_event := (handle_event sy checked).

(** ** what a call sends *)
Lemma send_sent m p c c' : send checked m p c = Ok c' -> exists r, co_sent c' = co_sent c ++ [r] /\ rq_method r = m /\ rq_params r = option_map norm p /\ co_state c' = co_state c.
Proof. unfold send, request_id. intro H. bnd H. bnd E. injection E as <-. injection H as <-. eexists. split; [reflexivity|]. cbn. auto. Qed.
Definition one_code (k : tkey) : Prop := match tk_code k with TcChar c => one_char c = true | _ => True end.
Lemma call_wish w t t' : (match w with WKeys k => key_char_ok k | _ => True end) ->
  call checked (match w with WEdit f => OpEdit f false | WKeys k => OpKeys [k] | WMenu a b => OpMenu a b | WExec x => OpExec x end) t = Ok t' ->
  t_exit t' = t_exit t /\ t_size t' = t_size t /\ t_out t' = t_out t /\ co_state (t_conn t') = co_state (t_conn t) /\ exists r, co_sent (t_conn t') = co_sent (t_conn t) ++ [r] /\ fulfils r w.
Proof.
  intros K H. unfold call in H. bnd H. injection H as <-. cbn [t_exit t_size t_out t_conn]. repeat (split; [reflexivity|]).
  destruct w; cbn [cstep] in E; apply send_sent in E; destruct E as (r & Sr & M & P & St); (split; [exact St|]); exists r; (split; [exact Sr|]); (split; [exact M|]); eexists; (split; [exact P|]); try reflexivity.
  cbn [enc_keys norm map dec_keys all_some]. rewrite dec_enc_key_event by exact K. reflexivity.
Qed.
Lemma typed_ok k t t' : one_code k -> cs_menu (co_state (t_conn t)) = None -> handle_input k t = Ok t' ->
  cs_menu (co_state (t_conn t')) = None /\ t_out t' = t_out t /\ t_size t' = t_size t /\ co_state (t_conn t') = co_state (t_conn t) /\ exists rs, co_sent (t_conn t') = co_sent (t_conn t) ++ rs /\ Forall2 fulfils rs (typed k).
Proof.
  intros O N H. unfold Tui.handle_input, to_key in H. rewrite N in H.
  assert (forall w, (match w with WKeys k => key_char_ok k | _ => True end) -> call checked (match w with WEdit f => OpEdit f false | WKeys k => OpKeys [k] | WMenu a b => OpMenu a b | WExec x => OpExec x end) t = Ok t' ->
    cs_menu (co_state (t_conn t')) = None /\ t_out t' = t_out t /\ t_size t' = t_size t /\ co_state (t_conn t') = co_state (t_conn t) /\ exists rs, co_sent (t_conn t') = co_sent (t_conn t) ++ rs /\ Forall2 fulfils rs [w]) as One.
  { intros w K C. destruct (call_wish w t t' K C) as (_ & A & B & D & r & F & G). rewrite D. repeat (split; [assumption || reflexivity|]). exists [r]. split; [exact F|]. repeat constructor. exact G. }
  assert (forall t0, t_conn t0 = t_conn t -> t_out t0 = t_out t -> t_size t0 = t_size t -> t' = t0 -> cs_menu (co_state (t_conn t')) = None /\ t_out t' = t_out t /\ t_size t' = t_size t /\ co_state (t_conn t') = co_state (t_conn t) /\ exists rs, co_sent (t_conn t') = co_sent (t_conn t) ++ rs /\ Forall2 fulfils rs []) as Nil.
  { intros t0 A B D ->. rewrite A, B, D. repeat (split; [assumption || reflexivity|]). exists []. rewrite app_nil_r. split; [reflexivity|constructor]. }
  unfold typed, chord, one_code in *. destruct (tk_code k) as [c| | | | | | | |] eqn:C; cbn [ke_key ke_alt ke_ctrl orb] in *; try (injection H as <-; apply (Nil t); reflexivity).
  - destruct (eqb c (str "q") && tk_alt k) eqn:Q1. { injection H as <-. cbn [orb]. apply (Nil (mkTerm (t_conn t) true (t_size t) (t_out t))); reflexivity. }
    destruct (eqb c (str "d") && tk_ctrl k) eqn:Q2.
    { apply andb_prop in Q2. destruct Q2 as [Qa Qb]. apply eqb_ok in Qa. subst c. replace (eqb (str "d") (str "x")) with false by reflexivity. cbn [orb andb]. now apply One. }
    destruct (eqb c (str "e") && tk_ctrl k) eqn:Q3.
    { apply andb_prop in Q3. destruct Q3 as [Qa Qb]. apply eqb_ok in Qa. subst c. replace (eqb (str "e") (str "x")) with false by reflexivity. cbn [orb andb]. now apply One. }
    destruct (eqb c (str "f") && tk_ctrl k) eqn:Q4.
    { apply andb_prop in Q4. destruct Q4 as [Qa Qb]. apply eqb_ok in Qa. subst c. replace (eqb (str "f") (str "x")) with false by reflexivity. cbn [orb andb]. now apply One. }
    destruct (eqb c (str "p") && tk_ctrl k) eqn:Q5.
    { apply andb_prop in Q5. destruct Q5 as [Qa Qb]. apply eqb_ok in Qa. subst c. replace (eqb (str "p") (str "x")) with false by reflexivity. cbn [orb andb]. now apply One. }
    destruct (eqb c (str "v") && tk_ctrl k) eqn:Q6.
    { apply andb_prop in Q6. destruct Q6 as [Qa Qb]. apply eqb_ok in Qa. subst c. replace (eqb (str "v") (str "x")) with false by reflexivity. cbn [orb andb]. now apply One. }
    destruct (eqb c (str "x") && tk_ctrl k) eqn:Q7; [discriminate|]. cbn [orb]. now apply One.
  - cbn [orb]. apply One; [exact I|exact H].
Qed.

(** ** C65 *)
(** what a message makes the client draw sends nothing *)
Lemma message_wishes e : concat (map event_wishes (on_message e)) = [].
Proof. destruct e; reflexivity. Qed.
Lemma handled_quiet v t t' : (forall k, v <> EInput k) -> (forall m, v <> EError m) -> handle_event v t = Ok t' -> t_conn t' = t_conn t.
Proof.
  intros Ni Ne H. destruct v; cbn [Tui.handle_event] in H.
  - bnd H. injection H as <-. reflexivity.
  - unfold show_menu in H. bnd H. injection H as <-. reflexivity.
  - bnd H. injection H as <-. reflexivity.
  - unfold show_view in H. bnd H. injection H as <-. reflexivity.
  - destruct (Ne msg eq_refl).
  - destruct (Ni k eq_refl).
  - unfold resize in H. destruct ((fst (t_size t) =? w)%Z && (snd (t_size t) =? h)%Z); [injection H as <-; reflexivity|]. cbv zeta in H. cbn [t_conn] in H. destruct (cs_menu (co_state (t_conn t))); unfold show_menu, show_view in H; bnd H; injection H as <-; reflexivity.
Qed.
Definition typed_inv (files : list text) (ws : list wish) (s : tsys) : Prop :=
  cs_menu (co_state (t_conn (ts_term s))) = None /\ Forall (fun v => forall k, v = EInput k -> one_code k) (ts_queue s) /\
  exists l, Forall2 fulfils (co_sent (t_conn (ts_term s))) l /\ l ++ concat (map event_wishes (ts_queue s)) = map WEdit files ++ ws.
Lemma app_wishes q v : concat (map event_wishes (q ++ v)) = concat (map event_wishes q) ++ concat (map event_wishes v).
Proof. now rewrite map_app, concat_app. Qed.
Lemma typed_step files ws m s s' : typed_inv files ws s -> (forall e, m = MvMessage e -> says_menu e = None) -> (forall k, m = MvKey k -> one_code k) -> tstep m s = Ok s' -> typed_inv files (ws ++ move_wishes m) s'.
Proof.
  intros (Nm & Fq & l & Fl & El) Me Mk H. destruct m as [e|k|w h|x|x|]; cbn [Tui.tstep move_wishes] in *.
  - cbn [cstep bind] in H. injection H as <-. unfold typed_inv. cbn [ts_term ts_queue t_conn co_state co_sent]. specialize (Me e eq_refl). destruct (update_spec (co_state (t_conn (ts_term s))) e) as (_ & _ & _ & _ & _ & U). rewrite Me in U. split; [now rewrite U|].
    split; [apply Forall_app; split; auto; destruct (snd (event_update _ e)); repeat constructor; intros; discriminate|]. exists l. split; auto. rewrite app_wishes, message_wishes, !app_nil_r. exact El.
  - injection H as <-. unfold typed_inv. cbn [ts_term ts_queue]. split; auto. split; [apply Forall_app; split; auto; repeat constructor; intros k0 X; injection X as <-; now apply Mk|]. exists l. split; auto. rewrite app_wishes, app_assoc, El. cbn [map concat event_wishes]. now rewrite app_nil_r, app_assoc.
  - injection H as <-. unfold typed_inv. cbn [ts_term ts_queue]. split; auto. split; [apply Forall_app; split; auto; repeat constructor; discriminate|]. exists l. split; auto. rewrite app_wishes, app_assoc, El. cbn [map concat event_wishes]. now rewrite !app_nil_r.
  - injection H as <-. unfold typed_inv. cbn [ts_term ts_queue]. split; auto. split; [apply Forall_app; split; auto; repeat constructor; discriminate|]. exists l. split; auto. rewrite app_wishes, app_assoc, El. 
    match goal with |- _ ++ concat (map event_wishes [EError ?y]) = _ => change (concat (map event_wishes [EError y])) with [WExec (str "editor:error(" ++ y ++ str ")")] end. rewrite <- (app_assoc (map WEdit files)). match goal with |- ?a ++ ?b ++ [WExec ?x] = _ ++ _ ++ [WExec ?y] => assert (x = y) as ->; [|reflexivity] end. cbn [app]. rewrite <- app_assoc. reflexivity.

  - injection H as <-. unfold typed_inv. cbn [ts_term ts_queue]. split; auto. split; [apply Forall_app; split; auto; repeat constructor; discriminate|]. exists l. split; auto. rewrite app_wishes, app_assoc, El. match goal with |- _ ++ concat (map event_wishes [EError ?y]) = _ => change (concat (map event_wishes [EError y])) with [WExec (str "editor:error(" ++ y ++ str ")")] end. rewrite <- (app_assoc (map WEdit files)). reflexivity.
  - rewrite app_nil_r. destruct (ts_queue s) as [|v q] eqn:Q; [injection H as <-; unfold typed_inv; rewrite Q; eauto 10|]. destruct (t_exit (ts_term s)); [injection H as <-; unfold typed_inv; rewrite Q; eauto 10|]. bnd H. injection H as <-. unfold typed_inv. cbn [ts_term ts_queue]. inversion Fq as [|? ? F1 F2]; subst.
    destruct v as [| | | |x|k|] eqn:V; try (assert (t_conn v0 = t_conn (ts_term s)) as C by (eapply handled_quiet; [| |exact E]; discriminate); rewrite C; split; auto; split; auto; exists l; split; [exact Fl|exact El]).
    + cbn [Tui.handle_event] in E. destruct (call_wish (WExec (str "editor:error(" ++ x ++ str ")")) _ _ I E) as (_ & _ & _ & A & r & B & C). rewrite A, B. split; auto. split; auto. exists (l ++ event_wishes (EError x)). split; [apply Forall2_app; [exact Fl|]; apply Forall2_cons; [exact C|apply Forall2_nil]|]. rewrite <- El, <- app_assoc. reflexivity.
    + cbn [Tui.handle_event] in E. destruct (typed_ok k _ _ (F1 k eq_refl) Nm E) as (A & _ & _ & _ & rs & B & C). rewrite B. split; auto. split; auto. exists (l ++ typed k). split; [apply Forall2_app; auto|]. rewrite <- El, <- app_assoc. reflexivity.
Qed.
Lemma files_inv files size t : term_new checked size files = Ok t -> typed_inv files [] (mkTS t []) /\ t_out t = [] /\ t_size t = size /\ t_exit t = false /\ cs_view (co_state (t_conn t)) = [] /\ cs_echo (co_state (t_conn t)) = None /\ cs_status (co_state (t_conn t)) = [].
Proof.
  unfold term_new. assert (forall files t0 t l, ask_files checked files t0 = Ok t -> Forall2 fulfils (co_sent (t_conn t0)) l -> Forall2 fulfils (co_sent (t_conn t)) (l ++ map WEdit files) /\ co_state (t_conn t) = co_state (t_conn t0) /\ t_out t = t_out t0 /\ t_size t = t_size t0 /\ t_exit t = t_exit t0) as G.
  { clear. induction files as [|f files IH]; intros t0 t l H F; cbn [ask_files] in H; [injection H as <-; cbn [map]; rewrite app_nil_r; auto|]. bnd H. destruct (call_wish (WEdit f) _ _ I E) as (A & B & C & D & r & R & Fr).
    destruct (IH _ _ (l ++ [WEdit f]) H) as (G1 & G2 & G3 & G4 & G5); [rewrite R; apply Forall2_app; auto|]. cbn [map]. rewrite <- app_assoc in G1. split; [exact G1|]. rewrite G2, G3, G4, G5. auto. }
  intro H. destruct (G files _ t [] H) as (A & B & C & D & E); [constructor|]. split; [|rewrite B, C, D, E; auto 10]. unfold typed_inv. cbn [ts_term ts_queue]. rewrite B. split; [reflexivity|]. split; [constructor|]. exists (map WEdit files). split; [exact A|]. cbn. now rewrite !app_nil_r.
Qed.
Lemma run_step P (Hs : forall m s s', P s -> tstep m s = Ok s' -> P s') : forall ms s s', P s -> trun ms s = Ok s' -> P s'.
Proof. induction ms as [|m ms IH]; intros s s' H R; unfold Tui.trun in *; cbn [foldM] in R; [injection R as <-; auto|]. bnd R. exact (IH _ _ (Hs _ _ _ H E) R). Qed.
(** For every interleaving in which no menu is opened: the requests sent are one for each file of the command line, then, in order
    and once each, those the keys handled so far ask for; the others still wait.  Missing from the full property: the keys
    that [typed] has nothing for. *)
Theorem C65_partial : forall size files t0 ms s, term_new checked size files = Ok t0 -> trun ms (mkTS t0 []) = Ok s ->
  (forall e, In (MvMessage e) ms -> says_menu e = None) -> (forall k, In (MvKey k) ms -> one_code k) ->
  exists sent waiting, concat (map move_wishes ms) = sent ++ waiting /\ Forall2 fulfils (co_sent (t_conn (ts_term s))) (map WEdit files ++ sent) /\ waiting = concat (map event_wishes (ts_queue s)).
Proof.
  intros size files t0 ms s T R Me Mk. destruct (files_inv _ _ _ T) as [I0 _].
  assert (forall ms s0 s ws, typed_inv files ws s0 -> trun ms s0 = Ok s -> (forall e, In (MvMessage e) ms -> says_menu e = None) -> (forall k, In (MvKey k) ms -> one_code k) -> typed_inv files (ws ++ concat (map move_wishes ms)) s) as G.
  { clear. induction ms as [|m ms IH]; intros s0 s ws I0 R Me Mk; unfold Tui.trun in *; cbn [foldM] in R; [injection R as <-; cbn; now rewrite app_nil_r|]. bnd R. cbn [map concat]. rewrite app_assoc. eapply IH; eauto; [|intros; apply Me; now right|intros; apply Mk; now right].
    eapply typed_step; [exact I0| | |exact E]; intros x ->; [apply Me|apply Mk]; now left. }
  destruct (G ms _ _ [] I0 R Me Mk) as (_ & _ & l & Fl & El). cbn [app] in El.
  assert (exists sent, l = map WEdit files ++ sent) as (sent & Es).
  { (* the files are asked for first *)
    assert (exists rest, co_sent (t_conn (ts_term s)) = co_sent (t_conn t0) ++ rest) as (rest & Er).
    { apply (run_step (fun s => exists rest, co_sent (t_conn (ts_term s)) = co_sent (t_conn t0) ++ rest)) with (ms := ms) (s := mkTS t0 []); auto; [|exists []; now rewrite app_nil_r].
      clear. intros m s s' (rest & Er) H. assert (forall c o c', cstep checked c o = Ok c' -> exists rs, co_sent c' = co_sent c ++ rs) as Cs.
      { intros c o c' E. assert (forall m p c c', send checked m p c = Ok c' -> exists rs, co_sent c' = co_sent c ++ rs) as Sd by (intros; apply send_sent in H0; destruct H0 as (r & -> & _); eauto). destruct o; cbn [cstep] in E; try (eapply Sd; exact E); try (injection E as <-; exists []; now rewrite app_nil_r).
        - destruct (cs_menu (co_state c)); [|injection E as <-; exists []; now rewrite app_nil_r]. bnd E. bnd E. injection E as <-. cbn [set_menu co_sent]. eapply Sd; exact E1.
        - destruct (cs_menu (co_state c)); injection E as <-; exists []; now rewrite app_nil_r.
        - destruct (cs_menu (co_state c)); [|injection E as <-; exists []; now rewrite app_nil_r]. bnd E. injection E as <-. exists []. now rewrite app_nil_r. }
      assert (forall o t t', call checked o t = Ok t' -> exists rs, co_sent (t_conn t') = co_sent (t_conn t) ++ rs) as Ca by (intros o t t' E; unfold call in E; bnd E; injection E as <-; eapply Cs; exact E0).
      assert (exists rs, co_sent (t_conn (ts_term s')) = co_sent (t_conn (ts_term s)) ++ rs) as (rs & Ers); [|exists (rest ++ rs); now rewrite Ers, Er, app_assoc].
      assert (forall t, exists rs, co_sent (t_conn t) = co_sent (t_conn t) ++ rs) as Same by (intro; exists []; now rewrite app_nil_r).
      destruct m; cbn [Tui.tstep] in H; try (injection H as <-; apply Same). - cbn [cstep bind] in H. injection H as <-. cbn. exists []. now rewrite app_nil_r.
      - destruct (ts_queue s) as [|v q]; [injection H as <-; apply Same|]. destruct (t_exit (ts_term s)); [injection H as <-; apply Same|]. bnd H. injection H as <-. cbn [ts_term]. destruct v; try (assert (t_conn v0 = t_conn (ts_term s)) as C by (eapply handled_quiet; [| |exact E]; discriminate); rewrite C; apply Same); cbn [Tui.handle_event] in E; [eapply Ca; exact E|].
        unfold Tui.handle_input in E. destruct (to_key k) as [key|]; [|injection E as <-; apply Same]. assert (forall t t', show_view sy checked t = Ok t' -> t_conn t' = t_conn t) as Sv by (intros t t' X; unfold show_view in X; bnd X; injection X as <-; reflexivity). assert (forall t t', new_menu sy checked t = Ok t' -> t_conn t' = t_conn t) as Sm by (intros t t' X; unfold new_menu, show_menu in X; bnd X; bnd X; injection X as <-; reflexivity).
        destruct (cs_menu (co_state (t_conn (ts_term s)))).
        + destruct (ke_key key); try (eapply Ca; exact E); try (injection E as <-; apply Same); bnd E; (try apply Sv in E); (try apply Sm in E); rewrite E; eapply Ca; exact E0.
        + destruct (ke_key key); try (injection E as <-; apply Same); [|eapply Ca; exact E]. repeat match type of E with (if ?b then _ else _) = _ => destruct b end; try (eapply Ca; exact E); try (injection E as <-; exists []; rewrite app_nil_r; reflexivity); discriminate E. }
    destruct I0 as (_ & _ & l0 & Fl0 & El0). cbn [ts_queue map concat] in El0. rewrite !app_nil_r in El0. subst l0. cbn [ts_term] in Fl0. rewrite Er in Fl. apply Forall2_app_inv_l in Fl. destruct Fl as (la & lb & Fa & Fb & ->). exists lb. f_equal.
    assert (length la = length (map WEdit files)) as Ln. { apply Forall2_length in Fa. apply Forall2_length in Fl0. congruence. } rewrite <- app_assoc in El. apply app_inv_length in El; auto. }
  subst l. exists sent, (concat (map event_wishes (ts_queue s))). rewrite <- app_assoc in El. apply app_inv_head in El. auto.
Qed.
(** Enter, Backspace, the arrows and every other special key are lost outside a menu; Ctrl-X crashes the client. *)
Theorem C65_refuted : forall k t, cs_menu (co_state (t_conn t)) = None ->
  (match tk_code k with TcChar _ | TcEsc => False | _ => True end -> handle_input k t = Ok t) /\ (tk_code k = TcChar (str "x") -> tk_ctrl k = true -> exists why, handle_input k t = Panic why).
Proof.
  intros k t N. unfold Tui.handle_input, to_key. rewrite N. split; [intro H; destruct (tk_code k); try contradiction; reflexivity|]. intros -> Ct. cbn [ke_key ke_alt ke_ctrl]. rewrite Ct. eexists. reflexivity.
Qed.
End Tui.
