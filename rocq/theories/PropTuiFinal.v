(** C67, the whole screen: what the last clearing of the screen and everything after it leave on the terminal. *)
From Coq Require Import String List Arith Lia ZArith Bool.
From Verif Require Import Base ListFacts Maps Utf8 Utf8Facts Fmt Chars Json Proto ProtoFacts Payload Menu Editor EditorSpec Conn PropConn Tui TuiSpec TuiFacts PropTui PropTuiKeys PropTuiScreen.
Import ListNotations.

(** a line of text and a status line that leave room: at most [a] and [b] bytes, printable *)
Definition modest_echo (a : nat) (t : list fragment) : Prop := printable (plain_text t) /\ length (plain_text t) <= a.
Definition modest_status (b : nat) (l : list status_item) : Prop :=
  Forall (fun i => printable (plain_text (st_text i))) l /\ length (joined [194; 183] (map (fun i => plain_text (st_text i)) l)) <= b.
(** a message that is no menu and no hint, and whose texts are modest *)
Definition modest (a b : nat) (e : event) : Prop :=
  says_menu e = None /\ named (str "hint") dec_hint e = None /\
  (forall t, says_echo e = Some (Some t) -> modest_echo a t) /\ (forall l, says_status e = Some l -> modest_status b l).

Section Tui.
Variable sy : styles.
Variable checked : bool.
Hypothesis Sane : sane sy.
Variable a b : nat.
Notation tstep := (tstep sy checked).
Notation trun := (trun sy checked).
Definition calm_state (st : cstate) : Prop := modest_echo a (echo_of st) /\ modest_status b (cs_status st).
Definition drawn_status (size : Z * Z) (t : text) : Prop := exists st, calm_state st /\ status_text sy checked (fst size) st = Ok t.
Definition stats (h : Z) (ts : list text) : list tcmd := concat (map (fun t => [TMove 0 h; TPrint true t]) ts).
Definition view_drawn (t : term) : Prop := exists pre ts, t_out t = pre ++ stats (snd (t_size t)) ts /\ Forall (drawn_status (t_size t)) ts /\
  (cs_view (co_state (t_conn t)) = [] /\ pre = [] \/
   exists before content, pre = before ++ [TClear; TMove 0 0; TPrint false (joined [13; 10] content)] /\
     draw_items sy checked (fst (t_size t)) (snd (t_size t)) (cs_view (co_state (t_conn t))) [] 0 = Ok content).
Definition final_inv (s : tsys) : Prop :=
  cs_menu (co_state (t_conn (ts_term s))) = None /\ calm_state (co_state (t_conn (ts_term s))) /\
  Forall (fun v => (forall k, v = EInput k -> one_code k) /\ (forall l, v <> EDrawHint l) /\ (forall m, v <> EDrawMenu m)) (ts_queue s) /\
  (pending_view (ts_queue s) \/ view_drawn (ts_term s)).
Lemma stats_app h x y : stats h (x ++ y) = stats h x ++ stats h y.
Proof. unfold stats. now rewrite map_app, concat_app. Qed.
Lemma shown_drawn t t' : calm_state (co_state (t_conn t)) -> show_view sy checked t = Ok t' -> view_drawn t' /\ t_conn t' = t_conn t.
Proof.
  unfold show_view, draw_view, draw_status. intros C H. bnd H. bnd E. bnd E. bnd E1. injection E1 as <-. injection E as <-. injection H as <-. split; [|reflexivity]. unfold view_drawn. cbn [queue t_conn t_out t_size].
  exists (t_out t ++ [TClear; TMove 0 0; TPrint false (joined [13; 10] v0)]), [v2]. split; [unfold stats; cbn [map concat app]; rewrite <- app_assoc; reflexivity|]. split; [repeat constructor; exists (co_state (t_conn t)); auto|right; eauto].
Qed.
Lemma drawn_same t t' : co_state (t_conn t') = co_state (t_conn t) -> t_out t' = t_out t -> t_size t' = t_size t -> view_drawn t -> view_drawn t'.
Proof. unfold view_drawn. intros -> -> ->. auto. Qed.
Lemma calm_update s e : calm_state s -> modest a b e -> calm_state (fst (event_update s e)).
Proof.
  intros [C1 C2] (Hm & Hh & He & Hs). destruct (update_spec s e) as (U1 & U2 & _). unfold calm_state, echo_of. split.
  - rewrite U1. destruct (says_echo e) as [[t|]|] eqn:Q; [now apply He|split; [constructor|cbn; lia]|exact C1].
  - rewrite U2. destruct (says_status e) eqn:Q; [now apply Hs|exact C2].
Qed.
Lemma final_step m s s' : final_inv s -> (forall e, m = MvMessage e -> modest a b e) -> (forall k, m = MvKey k -> one_code k) -> tstep m s = Ok s' -> final_inv s'.
Proof.
  intros (Nm & Ca & Fq & Iv) Me Mk H.
  assert (forall v, (forall k, v = EInput k -> one_code k) -> (forall l, v <> EDrawHint l) -> (forall x, v <> EDrawMenu x) -> s' = mkTS (ts_term s) (ts_queue s ++ [v]) -> final_inv s') as Push.
  { intros v A B C ->. split; [exact Nm|]. split; [exact Ca|]. cbn [ts_queue ts_term]. split; [apply Forall_app; split; auto|]. unfold pending_view in *. destruct Iv; [left; apply in_or_app; auto|auto]. }
  destruct m as [e|k|w h|x|x|]; cbn [Tui.tstep] in H; try (injection H as <-; refine (Push _ _ _ _ eq_refl); try discriminate; intros k0 X; injection X as <-; now apply Mk).
  - cbn [cstep bind] in H. injection H as <-. pose proof (Me e eq_refl) as Mo. pose proof Mo as (Hm & Hh & _). destruct (update_spec (co_state (t_conn (ts_term s))) e) as (_ & _ & _ & _ & _ & U). rewrite Hm in U.
    pose proof (message_spec (co_state (t_conn (ts_term s))) e Hm Hh) as Sp. cbv zeta in Sp. pose proof (calm_update _ _ Ca Mo) as Ca'. set (s1 := fst (event_update _ e)) in *. set (v := snd (event_update _ e)) in *.
    unfold final_inv. cbn [ts_term ts_queue t_conn co_state]. split; [now rewrite U|]. split; [exact Ca'|]. split; [apply Forall_app; split; auto; destruct Sp as [->|(_ & _ & [->|(_ & ->)])]; repeat constructor; try discriminate|].
    unfold pending_view. destruct Sp as [->|(Ev & Ee & Sp)]; [left; apply in_or_app; right; now left|].
    destruct Iv as [Iv|Iv]; [left; apply in_or_app; auto|right]. unfold view_drawn in *. cbn [t_conn co_state t_out t_size]. rewrite Ev. exact Iv.
  - destruct (ts_queue s) as [|v q] eqn:Q; [injection H as <-; unfold final_inv; rewrite Q; auto|]. destruct (t_exit (ts_term s)); [injection H as <-; unfold final_inv; rewrite Q; auto|]. bnd H. injection H as <-. unfold final_inv. cbn [ts_term ts_queue]. inversion Fq as [|? ? (F1 & F2 & F3) F4]; subst. unfold pending_view in *.
    destruct v as [l|x| | |x|k|w h]; cbn [Tui.handle_event] in E; [destruct (F2 l eq_refl)|destruct (F3 x eq_refl)|..].
    + (* the status *) bnd E. injection E as <-. cbn [queue t_conn]. split; auto. split; auto. split; auto. unfold draw_status in E0. bnd E0. injection E0 as <-.
      destruct Iv as [[X|Iv]|(pre & ts & A & B & C)]; [discriminate|auto|right]. unfold view_drawn. cbn [queue t_conn t_out t_size]. exists pre, (ts ++ [v0]). rewrite A, stats_app, <- app_assoc. split; [reflexivity|]. split; [apply Forall_app; split; [exact B|repeat constructor; exists (co_state (t_conn (ts_term s))); auto]|exact C].
    + (* the view *) apply shown_drawn in E; [|exact Ca]. destruct E as (A & C). rewrite C. auto 10.
    + (* an error *) destruct (call_wish checked (WExec (str "editor:error(" ++ x ++ str ")")) _ _ I E) as (_ & A & B & C & _). rewrite C. split; auto. split; auto. split; auto. destruct Iv as [[X|Iv]|Iv]; [discriminate|auto|right; eapply drawn_same; eauto].
    + (* a key *) destruct (typed_ok sy checked k _ _ (F1 k eq_refl) Nm E) as (A & B & C & D & _). split; auto. rewrite D. split; auto. split; auto. destruct Iv as [[X|Iv]|Iv]; [discriminate|auto|right; eapply drawn_same; eauto].
    + (* another size *) unfold resize in E. destruct ((fst (t_size (ts_term s)) =? w)%Z && (snd (t_size (ts_term s)) =? h)%Z).
      * injection E as <-. split; auto. split; auto. split; auto. destruct Iv as [[X|Iv]|Iv]; [discriminate|auto..].
      * cbv zeta in E. cbn [t_conn] in E. rewrite Nm in E. apply shown_drawn in E; [|exact Ca]. destruct E as (A & C). rewrite C. cbn [t_conn]. auto 10.
Qed.
Lemma final_run ms : forall s0 s, final_inv s0 -> trun ms s0 = Ok s -> (forall e, In (MvMessage e) ms -> modest a b e) -> (forall k, In (MvKey k) ms -> one_code k) -> final_inv s.
Proof.
  induction ms as [|m ms IH]; intros s0 s I0 R Me Mk; unfold Tui.trun in *; cbn [foldM] in R; [injection R as <-; auto|]. bnd R. apply (IH v s); [|exact R|intros; apply Me; now right|intros; apply Mk; now right]. apply (final_step m s0 v I0); [intros x ->; apply Me; now left|intros x ->; apply Mk; now left|exact E].
Qed.
Lemma calm_status w st : (0 <= w < 65536)%Z -> (Z.of_nat (a + b) < w)%Z -> calm_state st ->
  exists t n, status_text sy checked w st = Ok t /\ no_cr t /\ (Z.of_nat (columns t) <= w)%Z /\ visible t = plain_text (echo_of st) ++ repeat 32 n ++ status_of st.
Proof.
  intros W Ab [[P1 P2] [P3 P4]]. change (joined [194; 183] (map (fun i => plain_text (st_text i)) (cs_status st))) with (status_of st) in P4. destruct (status_ok sy checked Sane w st W P1 P3 ltac:(lia)) as (n & E & N & V). eexists _, n. split; [exact E|]. split; [exact N|].
  assert (visible (status_of st) = status_of st) as Vs.
  { unfold status_of. assert (forall l, Forall printable l -> visible (joined [194; 183] l) = joined [194; 183] l) as J.
    { induction 1 as [|x l X F IH]; [reflexivity|]. destruct l as [|y l]; [cbn [joined]; now rewrite visible_all|]. change (joined [194; 183] (x :: y :: l)) with (x ++ [194; 183] ++ joined [194; 183] (y :: l)). rewrite visible_print by auto. change (visible ([194; 183] ++ joined [194; 183] (y :: l))) with (194 :: 183 :: visible (joined [194; 183] (y :: l))). rewrite IH. reflexivity. }
    apply J. now apply Forall_map. }
  rewrite render_visible, visible_print, Vs by (auto; apply printable_repeat; lia). split; [|reflexivity]. unfold columns. rewrite render_visible, visible_print, Vs in * by (auto; apply printable_repeat; lia). pose proof (chars_length (plain_text (echo_of st) ++ repeat 32 n ++ status_of st)). lia.
Qed.
Lemma stats_shown h ts : (1 <= h)%Z -> Forall no_cr ts -> forall s, sc_scrolls (fold_left (show h) (stats h ts) s) = sc_scrolls s /\
  sc_painted (fold_left (show h) (stats h ts) s) = sc_painted s ++ map (fun t => (0, h - 1, true, t)%Z) ts.
Proof.
  intro Hh. induction 1 as [|t ts N F IH]; intro s; [cbn; now rewrite app_nil_r|]. unfold stats. cbn [map concat]. rewrite fold_left_app. cbn [fold_left]. fold (stats h ts). destruct (IH (show h (show h s (TMove 0 h)) (TPrint true t))) as [A B]. rewrite A, B. cbn [show]. rewrite (split_no_cr t N). cbn [fold_left paint sc_painted sc_scrolls sc_x sc_y].
  rewrite (Z.min_r h (h - 1)) by lia. rewrite <- app_assoc. auto.
Qed.

(** For every interleaving without menus or hints, once nothing waits to be handled: since the screen was last cleared nothing
    scrolled and everything fits; from the top, the rows are those of the view; the last row was written last with the message
    and the status line as they are now. *)
Theorem C67_screen : forall size files t0 ms s w h, term_new checked size files = Ok t0 -> trun ms (mkTS t0 []) = Ok s ->
  (forall e, In (MvMessage e) ms -> modest a b e) -> (forall k, In (MvKey k) ms -> one_code k) -> ts_queue s = [] ->
  let st := co_state (t_conn (ts_term s)) in
  t_size (ts_term s) = (w, h) -> (2 <= h < 65536)%Z -> (Z.of_nat (a + b) < w)%Z -> cs_view st <> [] ->
  Forall (fun i => printable_item w i /\ (Z.of_nat (title_length i) <= w < 65536)%Z) (cs_view st) ->
  (forall k, k < length (cs_view st) -> (Z.of_nat (length (view_rows (firstn k (cs_view st)))) <> h - 1)%Z) ->
  exists before cs rows old status n, t_out (ts_term s) = before ++ TClear :: cs /\ fits w h (TClear :: cs) /\
    sc_painted (shown_screen h (TClear :: cs)) = numbered 0 0 false rows ++ map (fun t => (0, h - 1, true, t)%Z) (old ++ [status]) /\
    Forall2 (row_shows w) (firstn (Z.to_nat (h - 1)) (view_rows (cs_view st))) rows /\
    visible status = plain_text (echo_of st) ++ repeat 32 n ++ status_of st.
Proof.
  intros size files t0 ms s w h T R Me Mk Q st Sz Hh Ab V F K.
  destruct (C67_partial sy checked size files t0 ms s T R) as [_ Sc]; [intros e He; destruct (Me e He) as (A & B & _); auto|exact Mk|exact Q|].
  assert (final_inv (mkTS t0 [])) as I0.
  { destruct (files_inv _ _ _ _ T) as ((Nm & _) & Out & _ & _ & V0 & Ec & Es). cbn [ts_term] in *. split; [exact Nm|]. cbn [ts_term ts_queue]. split; [unfold calm_state, echo_of; rewrite Ec, Es; split; (split; [constructor|cbn; lia])|]. split; [constructor|]. right. exists [], []. rewrite V0, Out. cbn. auto. }
  destruct (final_run ms _ _ I0 R Me Mk) as (_ & Ca & _ & Iv). rewrite Q in Iv. destruct Iv as [[]|(pre & ts & Eo & Ft & Hv)]. fold st in Ca, Hv. destruct Hv as [[Hv _]|(before & content & -> & Hd)]; [contradiction|]. rewrite Sz in *. cbn [fst snd] in *.
  assert (0 <= w < 65536)%Z as W. { destruct (cs_view st) as [|i v]; [congruence|]. inversion F as [|? ? [_ X] _]; subst. lia. }
  pose proof (draw_items_ok sy checked Sane w h ltac:(lia) (cs_view st) [] F ltac:(cbn; lia) K) as D. cbn [length Z.of_nat app] in D. rewrite Nat.sub_0_r in D. rewrite D in Hd. injection Hd as <-.
  set (rows := map (row_text sy w) (firstn (Z.to_nat (h - 1)) (view_rows (cs_view st)))) in *.
  pose proof (rows_drawable sy Sane w _ F) as RD. assert (Forall (fun r => row_shows w r (row_text sy w r) /\ no_cr (row_text sy w r)) (firstn (Z.to_nat (h - 1)) (view_rows (cs_view st)))) as RD'. { rewrite <- (firstn_skipn (Z.to_nat (h - 1)) (view_rows (cs_view st))) in RD. now apply Forall_app in RD. }
  assert (Forall no_cr rows) as NR. { unfold rows. apply Forall_map. revert RD'. apply Forall_impl. tauto. }
  assert (length rows <= Z.to_nat (h - 1)) as LR by (unfold rows; rewrite map_length, firstn_length; lia).
  assert (exists r0 rr, rows = r0 :: rr) as (r0 & rr & ER). { unfold rows. destruct (cs_view st) as [|i v]; [congruence|]. rewrite rows_cons. destruct (Z.to_nat (h - 1)) eqn:Z0; [lia|]. cbn [firstn map]. eauto. }
  assert (Forall (fun t => no_cr t /\ (Z.of_nat (columns t) <= w)%Z) ts) as Ft'. { eapply Forall_impl; [|exact Ft]. intros t (st' & C' & E'). destruct (calm_status w st' W Ab C') as (t' & n' & E2 & N2 & C2 & _). cbn [fst] in E'. rewrite E' in E2. injection E2 as <-. auto. }
  assert (Forall no_cr ts) as Nt by (eapply Forall_impl; [|exact Ft']; tauto).
  destruct (calm_status w st W Ab Ca) as (status & n & Es & Ns & Cs & Vs).
  assert (exists old, ts = old ++ [status]) as (old & ->).
  { unfold status_current in Sc. cbv zeta in Sc. rewrite Sz in Sc. destruct Sc as [(_ & _ & Sc)|(b1 & cs & Sc & Dc)]; [exfalso; rewrite Eo in Sc; destruct before; discriminate|]. unfold draw_status in Dc. fold st in Dc. cbn [fst snd] in Dc. rewrite Es in Dc. cbn [bind] in Dc. injection Dc as <-.
    destruct ts as [|t ts _] using rev_ind.
    - exfalso. rewrite Eo in Sc. unfold stats in Sc. cbn [map concat] in Sc. rewrite app_nil_r in Sc. apply (f_equal (@rev _)) in Sc. rewrite !rev_app_distr in Sc. discriminate.
    - exists ts. f_equal. f_equal. rewrite Eo, stats_app in Sc. unfold stats at 2 in Sc. cbn [map concat app] in Sc. apply (f_equal (@rev _)) in Sc. rewrite !rev_app_distr in Sc. cbn [rev app] in Sc. now injection Sc. }
  exists before, ([TMove 0 0; TPrint false (joined [13; 10] rows)] ++ stats h (old ++ [status])), rows, old, status, n. split; [rewrite Eo, <- app_assoc; reflexivity|].
  assert (sc_scrolls (shown_screen h (TClear :: [TMove 0 0; TPrint false (joined [13; 10] rows)] ++ stats h (old ++ [status]))) = 0 /\
    sc_painted (shown_screen h (TClear :: [TMove 0 0; TPrint false (joined [13; 10] rows)] ++ stats h (old ++ [status]))) = numbered 0 0 false rows ++ map (fun t => (0, h - 1, true, t)%Z) (old ++ [status])) as [Sh1 Sh2].
  { unfold shown_screen. cbn [app fold_left]. match goal with |- context [fold_left (show h) (stats h (old ++ [status])) ?z] => destruct (stats_shown h (old ++ [status]) ltac:(lia) Nt z) as [-> ->] end.
    cbn [show sc_x sc_y sc_painted sc_scrolls]. rewrite split_joined by (auto; rewrite ER; discriminate). rewrite ER. rewrite (Z.min_l 0 (h - 1)) by lia.
    rewrite ER in LR. cbn [length] in LR. destruct (rows_shown h false rr (paint false r0 (mkScr 0 0 [] 0))) as [x X]; [cbn [paint sc_y]; lia|].
    rewrite X. cbn [paint sc_x sc_y sc_painted sc_scrolls]. cbn [numbered app]. auto. }
  split; [|split; [exact Sh2|split; [|exact Vs]]].
  - unfold fits. rewrite Sh1, Sh2. split; [reflexivity|]. apply Forall_app. split.
    + assert (Forall (fun t => (Z.of_nat (columns t) <= w)%Z) rows) as CR. { unfold rows. apply Forall_map. revert RD'. apply Forall_impl. intros r [Rr _]. destruct r; cbn [row_shows] in Rr; destruct Rr as [R1 R2]; [rewrite R2; lia|exact R1]. }
      assert (forall l y, Forall (fun t => (Z.of_nat (columns t) <= w)%Z) l -> (0 <= y)%Z -> (y + Z.of_nat (length l) <= h)%Z -> Forall (fun '(x, y, _, t) => 0 <= x /\ 0 <= y < h /\ x + Z.of_nat (columns t) <= w)%Z (numbered 0 y false l)) as NN.
      { induction l as [|t l IH]; intros y Fl Y Ll; cbn [numbered]; [constructor|]. inversion Fl; subst. cbn [length] in Ll. constructor; [lia|]. apply IH; auto; lia. }
      apply NN; auto; lia.
    + apply Forall_map. eapply Forall_impl; [|exact Ft']. intros t [_ C]. lia.
  - unfold rows. clear - RD'. induction RD' as [|r l [Rr _] _ IH]; cbn [map]; constructor; auto.
Qed.
End Tui.
Print Assumptions C67_screen.
