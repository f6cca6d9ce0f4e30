(** C66, C67: searching in a menu, and what is on the screen. *)
From Coq Require Import String List Arith Lia ZArith Bool.
From Verif Require Import Base ListFacts Maps Utf8 Utf8Facts Fmt Chars Json Proto ProtoFacts PropProto Payload Menu Editor EditorSpec Conn PropConn Tui TuiSpec TuiFacts PropTui PropTuiMenu PropTuiKeys.
Import ListNotations.

Section Tui.
Variable sy : styles.
Variable checked : bool.
Notation tstep := (tstep sy checked).
Notation trun := (trun sy checked).
Notation handle_input := (handle_input sy checked).
Notation handle_event := (handle_event sy checked).

(** ** C66 *)
(** the search after a key: a character is added, Backspace removes the last one *)
Definition edited (k : tkey) (s : text) : option text :=
  match tk_code k with TcChar c => Some (s ++ c) | TcBackspace => Some (concat (removelast (chars s))) | _ => None end.
Lemma menu_typed k t t' m s : cs_menu (co_state (t_conn t)) = Some m -> edited k (cm_search m) = Some s -> handle_input k t = Ok t' ->
  co_state (t_conn t') = co_state (t_conn t) /\ t_out t' = t_out t /\ exists r, co_sent (t_conn t') = co_sent (t_conn t) ++ [r] /\ fulfils r (WMenu (cm_command m) s).
Proof.
  intros M E H. unfold Tui.handle_input, to_key in H. rewrite M in H. unfold edited in E.
  destruct (tk_code k); try discriminate; injection E as <-; cbn [ke_key] in H; (match type of H with call _ (OpMenu ?a ?b) _ = _ => destruct (call_wish checked (WMenu a b) _ _ I H) as (_ & _ & A & B & r & C & D) end); split; eauto 6.
Qed.
(** the server answers the last request with a menu for the same command and search *)
Definition replies (t : term) (e : event) : Prop :=
  exists mi r before, says_menu e = Some mi /\ co_sent (t_conn t) = before ++ [r] /\ fulfils r (WMenu (me_command mi) (me_search mi)).
Definition received (e : event) (t : term) : term :=
  mkTerm (mkConn (fst (event_update (co_state (t_conn t)) e)) (co_next (t_conn t)) (co_sent (t_conn t))) (t_exit t) (t_size t) (t_out t).
(** typing slowly: every answer comes before the next key *)
Inductive slowly : term -> list tkey -> term -> Prop :=
| sl_nil t : slowly t [] t
| sl_key t k t1 e ks t' : handle_input k t = Ok t1 -> replies t1 e -> slowly (received e t1) ks t' -> slowly t (k :: ks) t'.
Lemma menu_inj r a b c d : fulfils r (WMenu a b) -> fulfils r (WMenu c d) -> a = c /\ b = d.
Proof. intros (_ & j & J & D) (_ & j' & J' & D'). rewrite J in J'. injection J' as <-. rewrite D in D'. injection D'. auto. Qed.
(** Typed slowly, the search is what was typed.  Missing from the full property: faster typing. *)
Theorem C66_partial : forall ks t t' m, slowly t ks t' -> cs_menu (co_state (t_conn t)) = Some m -> (forall k, In k ks -> match tk_code k with TcChar _ | TcBackspace => True | _ => False end) ->
  exists m' s, cs_menu (co_state (t_conn t')) = Some m' /\ fold_left (fun o k => match o with Some s => edited k s | None => None end) ks (Some (cm_search m)) = Some s /\ cm_search m' = s /\ cm_command m' = cm_command m /\ length (co_sent (t_conn t')) = length (co_sent (t_conn t)) + length ks.
Proof.
  intros ks t t' m Sl. revert m. induction Sl as [t|t k t1 e ks t' H R Sl IH]; intros m M K; [exists m, (cm_search m); cbn; auto|].
  assert (exists s, edited k (cm_search m) = Some s) as [s Es] by (specialize (K k (or_introl eq_refl)); unfold edited; destruct (tk_code k); try contradiction; eauto).
  destruct (menu_typed _ _ _ _ _ M Es H) as (A & _ & r & B & C). destruct R as (mi & r' & before & Sm & Br & Fr).
  assert (r' = r) as ->. { rewrite B in Br. apply app_inj_tail in Br. destruct Br as [_ Br]. now symmetry. } destruct (menu_inj _ _ _ _ _ C Fr) as [Ec Eq].
  destruct (update_spec (co_state (t_conn t1)) e) as (_ & _ & _ & _ & _ & U). rewrite Sm in U.
  destruct (IH (mkCM (me_command mi) (me_title mi) (me_search mi) (me_entries mi) 0)) as (m' & s' & M' & F & E1 & E2 & L); [exact U|intros; apply K; now right|]. cbn [cm_search cm_command] in *.
  exists m', s'. split; [exact M'|]. split; [cbn [fold_left]; rewrite Es, Eq; exact F|]. split; [exact E1|]. split; [congruence|]. cbn [received t_conn co_sent length] in *. rewrite L, B, app_length. cbn. lia.
Qed.
(** In a menu: the arrows move the selection by one and stay inside, the screen shows it; Escape closes the menu without asking for anything;
    Enter closes it and asks for the entry selected; the other special keys do nothing. *)
Definition moved_to (t t' : term) (m : cmenu) (n : nat) : Prop :=
  let m' := mkCM (cm_command m) (cm_title m) (cm_search m) (cm_entries m) n in
  cs_menu (co_state (t_conn t')) = Some m' /\ co_sent (t_conn t') = co_sent (t_conn t) /\ exists cs, draw_menu sy checked (t_size t) m' = Ok cs /\ t_out t' = t_out t ++ cs.
Theorem C66_keys : forall k t t' m, cs_menu (co_state (t_conn t)) = Some m -> cm_selected m < length (cm_entries m) -> handle_input k t = Ok t' ->
  match tk_code k with
  | TcUp => moved_to t t' m (cm_selected m - 1)
  | TcDown => moved_to t t' m (min (S (cm_selected m)) (length (cm_entries m) - 1))
  | TcEsc => cs_menu (co_state (t_conn t')) = None /\ co_sent (t_conn t') = co_sent (t_conn t)
  | TcEnter => cs_menu (co_state (t_conn t')) = None /\ exists e r, nth_error (cm_entries m) (cm_selected m) = Some e /\ co_sent (t_conn t') = co_sent (t_conn t) ++ [r] /\
      asks dec_select (str "menu-select") (mkSelP (cm_command m) (match en_value e with [] => cm_search m | x => x end)) r
  | TcLeft | TcRight | TcOther => t' = t
  | TcChar _ | TcBackspace => True
  end.
Proof.
  intros k t t' m M Ls H. unfold Tui.handle_input, to_key in H. rewrite M in H.
  assert (forall o t1 t2, call checked o t = Ok t1 -> new_menu sy checked t1 = Ok t2 -> forall n, (forall c, cstep checked (t_conn t) o = Ok c -> cs_menu (co_state c) = Some (mkCM (cm_command m) (cm_title m) (cm_search m) (cm_entries m) n) /\ co_sent c = co_sent (t_conn t)) -> moved_to t t2 m n) as Mv.
  { intros o t1 t2 C N n Hc. unfold call in C. bnd C. injection C as <-. destruct (Hc _ eq_refl) as [A B]. unfold new_menu in N. cbn [t_conn] in N. rewrite A in N. cbn [unwrap bind] in N. unfold show_menu in N. bnd N. injection N as <-. unfold moved_to. cbn [queue t_conn t_out t_size] in *. eauto. }
  destruct (tk_code k) eqn:Kc; try exact Logic.I; cbn [ke_key] in H; try (now injection H as <-).
  - (* Enter *) bnd H. unfold call in E. bnd E. injection E as <-. unfold show_view in H. bnd H. injection H as <-. cbn [queue t_conn]. cbn [cstep] in E0. rewrite M in E0. bnd E0. unfold selected_item in E1. bnd E1. injection E1 as <-. bnd E0. injection E0 as <-.
    split; [reflexivity|]. apply send_sent in E1. destruct E1 as (r & S1 & S2 & S3 & _). unfold index in E2. destruct (nth_error (cm_entries m) (cm_selected m)) as [e|] eqn:N; [|discriminate]. injection E2 as <-. exists e, r. split; [reflexivity|]. split; [exact S1|]. split; [exact S2|]. eexists. split; [exact S3|]. destruct (en_value e); reflexivity.
  - (* Escape *) bnd H. unfold call in E. bnd E. injection E as <-. unfold show_view in H. bnd H. injection H as <-. cbn [queue t_conn]. cbn [cstep] in E0. injection E0 as <-. auto.
  - bnd H. eapply Mv; [exact E|exact H|]. intros c C. cbn [cstep] in C. rewrite M in C. injection C as <-. cbn [set_menu co_state cs_menu co_sent]. split; [|reflexivity]. unfold select_previous. destruct (Nat.ltb_spec 0 (cm_selected m)); [reflexivity|]. replace (cm_selected m - 1) with (cm_selected m) by lia. now destruct m.
  - bnd H. eapply Mv; [exact E|exact H|]. intros c C. cbn [cstep] in C. rewrite M in C. bnd C. injection C as <-. cbn [set_menu co_state cs_menu co_sent]. split; [|reflexivity]. unfold select_next in E0. destruct (cm_entries m) as [|e es] eqn:En; [cbn in Ls; lia|]. rewrite <- En in *. destruct (Nat.ltb_spec (cm_selected m) (length (cm_entries m) - 1)); injection E0 as <-; f_equal; [f_equal; lia|]. replace (min _ _) with (cm_selected m) by lia. now destruct m.
Qed.
(** Two characters typed before the first answer comes: the second request does not contain the first character. *)
Theorem C66_refuted : forall t m k1 k2 c1 c2 t1 t2, cs_menu (co_state (t_conn t)) = Some m -> tk_code k1 = TcChar c1 -> tk_code k2 = TcChar c2 ->
  handle_input k1 t = Ok t1 -> handle_input k2 t1 = Ok t2 ->
  exists r1 r2, co_sent (t_conn t2) = co_sent (t_conn t) ++ [r1; r2] /\ fulfils r1 (WMenu (cm_command m) (cm_search m ++ c1)) /\ fulfils r2 (WMenu (cm_command m) (cm_search m ++ c2)).
Proof.
  intros t m k1 k2 c1 c2 t1 t2 M K1 K2 H1 H2. destruct (menu_typed k1 t t1 m (cm_search m ++ c1) M) as (A & _ & r1 & B & C); [unfold edited; now rewrite K1|exact H1|]. rewrite <- A in M.
  destruct (menu_typed k2 t1 t2 m (cm_search m ++ c2) M) as (_ & _ & r2 & D & E); [unfold edited; now rewrite K2|exact H2|]. exists r1, r2. split; [rewrite D, B, <- app_assoc; reflexivity|auto].
Qed.
(** An answer that comes after Escape opens the menu again. *)
Theorem C66_reopened : forall t m k1 k2 c t1 t2 e, cs_menu (co_state (t_conn t)) = Some m -> tk_code k1 = TcChar c -> tk_code k2 = TcEsc ->
  handle_input k1 t = Ok t1 -> replies t1 e -> handle_input k2 t1 = Ok t2 ->
  cs_menu (co_state (t_conn t2)) = None /\ exists m', cs_menu (co_state (t_conn (received e t2))) = Some m' /\ cm_command m' = cm_command m /\ cm_search m' = cm_search m ++ c.
Proof.
  intros t m k1 k2 c t1 t2 e M K1 K2 H1 R H2. destruct (menu_typed k1 t t1 m (cm_search m ++ c) M) as (A & _ & r & B & C); [unfold edited; now rewrite K1|exact H1|].
  destruct R as (mi & r' & before & Sm & Br & Fr). assert (r' = r) as -> by (rewrite B in Br; apply app_inj_tail in Br; destruct Br as [_ Br]; now symmetry). destruct (menu_inj _ _ _ _ _ C Fr) as [Ec Eq].
  split.
  - unfold Tui.handle_input, to_key in H2. rewrite K2, A, M in H2. cbn [ke_key] in H2. bnd H2. unfold call in E. cbn [cstep bind] in E. injection E as <-. unfold show_view in H2. bnd H2. injection H2 as <-. reflexivity.
  - destruct (update_spec (co_state (t_conn t2)) e) as (_ & _ & _ & _ & _ & U). rewrite Sm in U. eexists. cbn [received t_conn co_state]. rewrite U. split; [reflexivity|]. cbn [cm_command cm_search]. split; congruence.
Qed.

(** ** C67 *)
(** since the view was last drawn as it is now, nothing was cleared *)
Definition view_current (t : term) : Prop :=
  let st := co_state (t_conn t) in
  cs_view st = [] /\ ~ In TClear (t_out t) \/
  exists before content after, t_out t = before ++ [TClear; TMove 0 0; TPrint false (joined [13; 10] content)] ++ after /\ ~ In TClear after /\
    draw_items sy checked (fst (t_size t)) (snd (t_size t)) (cs_view st) [] 0 = Ok content.
(** the last thing drawn is the status as it is now *)
Definition status_current (t : term) : Prop :=
  let st := co_state (t_conn t) in
  cs_status st = [] /\ cs_echo st = None /\ t_out t = [] \/ exists before cs, t_out t = before ++ cs /\ draw_status sy checked (t_size t) st = Ok cs.
Definition pending_view (q : list tevent) : Prop := In EDrawView q.
Definition pending_status (q : list tevent) : Prop := In EDrawView q \/ In EDrawStatus q.
Definition screen_inv (s : tsys) : Prop :=
  cs_menu (co_state (t_conn (ts_term s))) = None /\ Forall (fun v => (forall k, v = EInput k -> one_code k) /\ (forall l, v <> EDrawHint l) /\ (forall m, v <> EDrawMenu m)) (ts_queue s) /\
  (pending_view (ts_queue s) \/ view_current (ts_term s)) /\ (pending_status (ts_queue s) \/ status_current (ts_term s)).
Lemma status_no_clear size s cs : draw_status sy checked size s = Ok cs -> ~ In TClear cs.
Proof. unfold draw_status. intro H. bnd H. injection H as <-. intros [X|[X|[]]]; discriminate. Qed.
Lemma shown_current t t' : show_view sy checked t = Ok t' -> view_current t' /\ status_current t' /\ t_conn t' = t_conn t.
Proof.
  unfold show_view, draw_view. intro H. bnd H. bnd E. bnd E. injection E as <-. injection H as <-. cbn [queue t_conn t_out t_size]. split; [|split; [|reflexivity]].
  - right. cbn [queue t_conn t_out t_size]. exists (t_out t), v0, v1. split; [repeat rewrite <- app_assoc; reflexivity|]. split; auto. eapply status_no_clear; eauto.
  - right. cbn [queue t_conn t_out t_size]. exists (t_out t ++ [TClear; TMove 0 0; TPrint false (joined [13; 10] v0)]), v1. split; [repeat rewrite <- app_assoc; reflexivity|auto].
Qed.
Lemma message_spec s e : says_menu e = None -> named (str "hint") dec_hint e = None ->
  let v := snd (event_update s e) in let s' := fst (event_update s e) in
  (on_message v = [EDrawView]) \/ (cs_view s' = cs_view s /\ cs_echo s' = cs_echo s /\ (on_message v = [EDrawStatus] \/ cs_status s' = cs_status s /\ on_message v = [])).
Proof.
  destruct e as [n|r]; [|cbn; auto 10]. unfold says_menu, named, event_update. intros Hm Hh.
  destruct (eqb (nt_method n) (str "echo")) eqn:E1; [destruct (param dec_rich n); cbn; auto 10|].
  destruct (eqb (nt_method n) (str "hint")) eqn:E2; [rewrite Hh; cbn; auto 10|].
  destruct (eqb (nt_method n) (str "info")) eqn:E3; [destruct (param dec_info n); cbn; auto 10|].
  destruct (eqb (nt_method n) (str "menu")) eqn:E4; [rewrite Hm; cbn; auto 10|].
  destruct (eqb (nt_method n) (str "status")) eqn:E5; [destruct (param dec_status n); cbn; auto 10|].
  destruct (eqb (nt_method n) (str "view")) eqn:E6; [destruct (param dec_view n); cbn; auto 10|]. cbn; auto 10.
Qed.
Lemma current_same t t' : co_state (t_conn t') = co_state (t_conn t) -> t_out t' = t_out t -> t_size t' = t_size t -> (view_current t -> view_current t') /\ (status_current t -> status_current t').
Proof. unfold view_current, status_current. intros -> -> ->. auto. Qed.
Lemma screen_step m s s' : screen_inv s -> (forall e, m = MvMessage e -> says_menu e = None /\ named (str "hint") dec_hint e = None) -> (forall k, m = MvKey k -> one_code k) -> tstep m s = Ok s' -> screen_inv s'.
Proof.
  intros (Nm & Fq & Iv & Is) Me Mk H.
  assert (forall v, (forall k, v = EInput k -> one_code k) -> (forall l, v <> EDrawHint l) -> (forall x, v <> EDrawMenu x) -> s' = mkTS (ts_term s) (ts_queue s ++ [v]) -> screen_inv s') as Push.
  { intros v A B C ->. split; [exact Nm|]. cbn [ts_queue ts_term]. split; [apply Forall_app; split; auto|]. unfold pending_view, pending_status in *. split; [destruct Iv; [left; apply in_or_app; auto|auto]|]. destruct Is as [[X|X]|X]; [left; left; apply in_or_app; now left|left; right; apply in_or_app; now left|now right]. }
  destruct m as [e|k|w h|x|x|]; cbn [Tui.tstep] in H; try (injection H as <-; refine (Push _ _ _ _ eq_refl); try discriminate; intros k0 X; injection X as <-; now apply Mk).
  - cbn [cstep bind] in H. injection H as <-. destruct (Me e eq_refl) as [Hm Hh]. destruct (update_spec (co_state (t_conn (ts_term s))) e) as (_ & Us & _ & _ & _ & U). rewrite Hm in U.
    pose proof (message_spec (co_state (t_conn (ts_term s))) e Hm Hh) as Sp. cbv zeta in Sp. set (s1 := fst (event_update _ e)) in *. set (v := snd (event_update _ e)) in *.
    unfold screen_inv. cbn [ts_term ts_queue t_conn co_state]. split; [now rewrite U|]. split; [apply Forall_app; split; auto; destruct Sp as [->|(_ & _ & [->|(_ & ->)])]; repeat constructor; try discriminate|].
    unfold pending_view, pending_status. destruct Sp as [->|(Ev & Ee & Sp)]; [split; left; [|left]; apply in_or_app; right; now left|]. split.
    + destruct Iv as [Iv|Iv]; [left; apply in_or_app; auto|right]. unfold view_current in *. cbn [t_conn co_state t_out t_size]. rewrite Ev. exact Iv.
    + destruct Sp as [->|(Es & ->)]; [left; right; apply in_or_app; right; now left|]. rewrite app_nil_r. destruct Is as [Is|Is]; [auto|right]. unfold status_current, draw_status, status_text in *. cbv zeta in *. cbn [t_conn co_state t_out t_size]. unfold status_line in *. rewrite Es, Ee. exact Is.
  - destruct (ts_queue s) as [|v q] eqn:Q; [injection H as <-; unfold screen_inv; rewrite Q; auto|]. destruct (t_exit (ts_term s)); [injection H as <-; unfold screen_inv; rewrite Q; auto|]. bnd H. injection H as <-. unfold screen_inv. cbn [ts_term ts_queue]. inversion Fq as [|? ? (F1 & F2 & F3) F4]; subst. unfold pending_view, pending_status in *.
    destruct v as [l|x| | |x|k|w h]; cbn [Tui.handle_event] in E; [destruct (F2 l eq_refl)|destruct (F3 x eq_refl)|..].
    + (* the status *) bnd E. injection E as <-. cbn [queue t_conn]. split; auto. split; auto. split.
      * destruct Iv as [[X|Iv]|Iv]; [discriminate|auto|right]. unfold view_current in *. cbn [queue t_conn t_out t_size]. pose proof (status_no_clear _ _ _ E0) as Nc. destruct Iv as [[A B]|(b & c & a & A & B & C)].
        -- left. split; auto. intro X. apply in_app_or in X. tauto.
        -- right. exists b, c, (a ++ v). rewrite A. split; [rewrite <- !app_assoc; reflexivity|]. split; auto. intro X. apply in_app_or in X. tauto.
      * right. right. cbn [queue t_conn t_out t_size]. eauto.
    + (* the view *) apply shown_current in E. destruct E as (A & B & C). rewrite C. auto 10.
    + (* an error *) destruct (call_wish checked (WExec (str "editor:error(" ++ x ++ str ")")) _ _ I E) as (_ & A & B & C & _). rewrite C. split; auto. split; auto. destruct (current_same _ _ C B A) as [V W]. split; [destruct Iv as [[X|Iv]|Iv]; [discriminate|auto..]|]. destruct Is as [[[X|Is]|[X|Is]]|Is]; try discriminate; auto.
    + (* a key *) destruct (typed_ok sy checked k _ _ (F1 k eq_refl) Nm E) as (A & B & C & D & _). split; auto. split; auto. destruct (current_same _ _ D B C) as [V W]. split; [destruct Iv as [[X|Iv]|Iv]; [discriminate|auto..]|]. destruct Is as [[[X|Is]|[X|Is]]|Is]; try discriminate; auto.
    + (* another size *) unfold resize in E. destruct ((fst (t_size (ts_term s)) =? w)%Z && (snd (t_size (ts_term s)) =? h)%Z).
      * injection E as <-. split; auto. split; auto. split; [destruct Iv as [[X|Iv]|Iv]; [discriminate|auto..]|]. destruct Is as [[[X|Is]|[X|Is]]|Is]; try discriminate; auto.
      * cbv zeta in E. cbn [t_conn] in E. rewrite Nm in E. apply shown_current in E. destruct E as (A & B & C). rewrite C. cbn [t_conn]. auto 10.
Qed.
(** For every interleaving without menus or hints, once nothing waits to be handled the screen shows the state: the last full
    drawing is that of the view, at the size of the terminal, and the last thing drawn is the status. *)
Theorem C67_partial : forall size files t0 ms s, term_new checked size files = Ok t0 -> trun ms (mkTS t0 []) = Ok s ->
  (forall e, In (MvMessage e) ms -> says_menu e = None /\ named (str "hint") dec_hint e = None) -> (forall k, In (MvKey k) ms -> one_code k) ->
  ts_queue s = [] -> view_current (ts_term s) /\ status_current (ts_term s).
Proof.
  intros size files t0 ms s T R Me Mk Q. destruct (files_inv _ _ _ _ T) as ((Nm & _) & Out & _ & _ & V & Ec & Es).
  assert (screen_inv (mkTS t0 [])) as I0.
  { split; [exact Nm|]. split; [constructor|]. cbn [ts_term] in *. split; right; left; cbn [ts_term]; [rewrite V, Out; split; [reflexivity|intros []]|auto]. }
  assert (forall ms s0 s, screen_inv s0 -> trun ms s0 = Ok s -> (forall e, In (MvMessage e) ms -> says_menu e = None /\ named (str "hint") dec_hint e = None) -> (forall k, In (MvKey k) ms -> one_code k) -> screen_inv s) as G.
  { clear. induction ms as [|m ms IH]; intros s0 s I0 R Me Mk; unfold Tui.trun in *; cbn [foldM] in R; [injection R as <-; auto|]. bnd R. apply (IH v s); [|exact R|intros; apply Me; now right|intros; apply Mk; now right]. apply (screen_step m s0 v I0); [intros x ->; apply Me; now left|intros x ->; apply Mk; now left|exact E]. }
  destruct (G ms _ _ I0 R Me Mk) as (_ & _ & A & B). rewrite Q in A, B. destruct A as [[]|A]. destruct B as [[[]|[]]|B]. auto.
Qed.
(** With a menu open, any message that refreshes the view hides the menu: the screen is cleared and the view drawn, although the keys
    still go to the menu. *)
Theorem C67_refuted : forall t e m, cs_menu (co_state (t_conn t)) = Some m -> (exists v, says_view e = Some v) -> forall s, trun [MvMessage e; MvHandle] (mkTS t []) = Ok s -> t_exit t = false ->
  cs_menu (co_state (t_conn (ts_term s))) = Some m /\ ts_queue s = [] /\ view_current (ts_term s) /\ status_current (ts_term s).
Proof.
  intros t e m M (v & Sv) s R X. unfold Tui.trun in R. cbn [foldM] in R. cbn [Tui.tstep cstep bind ts_term ts_queue app] in R.
  destruct (update_spec (co_state (t_conn t)) e) as (_ & _ & _ & _ & _ & U). assert (snd (event_update (co_state (t_conn t)) e) = CView v /\ says_menu e = None) as [Ev Sm].
  { destruct e as [n|]; [|discriminate]. unfold says_view, says_menu, named, event_update in *. destruct (eqb (nt_method n) (str "view")) eqn:Q; [|discriminate]. apply eqb_ok in Q. rewrite Q.
    replace (eqb (str "view") (str "echo")) with false by reflexivity. replace (eqb (str "view") (str "hint")) with false by reflexivity. replace (eqb (str "view") (str "info")) with false by reflexivity. replace (eqb (str "view") (str "menu")) with false by reflexivity. replace (eqb (str "view") (str "status")) with false by reflexivity. rewrite Sv. auto. }
  rewrite Sm in U. rewrite Ev in R. cbn [on_message] in R. rewrite X in R. cbn [t_exit] in R. destruct (handle_event EDrawView _) as [t1| |] eqn:E0 in R; cbn [bind] in R; try discriminate R. injection R as <-. cbn [Tui.handle_event] in E0. apply shown_current in E0. destruct E0 as (A & B & C). cbn [ts_term ts_queue]. rewrite C. cbn [t_conn co_state]. split; [now rewrite U|auto].
Qed.
End Tui.
