(** C79: the terminal program as a whole.  What is on the screen of a terminal that has read and handled everything is what the
    editor's view of its client shows. *)
From Coq Require Import String List Arith Lia ZArith Bool.
From Verif Require Import Base ListFacts PieceTable Coords Utf8 Utf8Facts Diff Selection Maps StackMap Fmt Buffer View Json Proto PropProto Core CoreSpec FreshSpec Payload Menu Editor EditorSpec Conn PropConn Server ServerSpec ServerFacts PropServer System SystemSpec SystemFacts PropSystem Tui TuiSpec TuiFacts PropTui PropTuiKeys PropTuiScreen PropTuiFinal Terminal TerminalSpec.
Import ListNotations.

Section Terminal.
Variable G : Graphemes.
Variable pol : policy.
Variable u : regex_crate.
Variable se : serde.
Variable L : lua.
Variable sty : styles.
Variable checked : bool.
Variable session : text.
Variable c : nat.
Notation ystep := (ystep G pol u se L checked session).
Notation yreach := (yreach G pol u se L checked session).
Notation pstep := (pstep G pol u se L sty checked session c).
Notation preach := (preach G pol u se L sty checked session c).
Notation started := (started G pol L session).

(** ** the program is a run of the system and a run of the terminal *)
(** functions are compared pointwise *)
Definition same (a b : system L) : Prop := sy_server L a = sy_server L b /\ forall d, sy_peer L a d = sy_peer L b d.
Lemma same_put a b n p : same a b -> same (mkSys L (sy_server L a) (put_peer n p (sy_peer L a))) (mkSys L (sy_server L b) (put_peer n p (sy_peer L b))).
Proof. intros [A B]. split; [exact A|]. intro d. cbn [sy_peer]. unfold put_peer. destruct (d =? n); auto. Qed.
Lemma ystep_same a b l b' : same a b -> ystep b l b' -> exists a', ystep a l a' /\ same a' b'.
Proof.
  intros [A B] H. destruct a as [s f]. cbn [sy_server sy_peer] in *. subst s. destruct H as [m s N M|k Sh|d line s p Hl M|d o n p N E|d line p Hl].
  - exists (mkSys L s f). split; [now apply ys_server|]. split; [reflexivity|exact B].
  - eexists. split; [apply ys_order; exact Sh|]. split; [reflexivity|exact B].
  - subst p. rewrite <- B in *. eexists. split; [eapply ys_read; [exact Hl|exact M]|]. split; [reflexivity|]. intro d'. cbn [sy_peer]. unfold put_peer. destruct (d' =? d); auto.
  - subst p. rewrite <- B in *. eexists. split; [eapply ys_call; [exact N|exact E]|]. split; [reflexivity|]. intro d'. cbn [sy_peer]. unfold put_peer. destruct (d' =? d); auto.
  - subst p. rewrite <- B in *. eexists. split; [eapply ys_receive; exact Hl|]. split; [reflexivity|]. intro d'. cbn [sy_peer]. unfold put_peer. destruct (d' =? d); auto.
Qed.
(** handling an event makes at most one request *)
Definition at_most_one (a b : conn) : Prop := b = a \/ exists o, (forall e, o <> OpEvent e) /\ cstep checked a o = Ok b.
Lemma call_one o t t' : (forall e, o <> OpEvent e) -> Tui.call checked o t = Ok t' -> at_most_one (t_conn t) (t_conn t').
Proof. intros N E. unfold Tui.call in E. bnd E. injection E as <-. right. eauto. Qed.
Lemma one_show t t1 t2 : at_most_one (t_conn t) (t_conn t1) -> t_conn t2 = t_conn t1 -> at_most_one (t_conn t) (t_conn t2).
Proof. now intros A ->. Qed.
Lemma show_view_conn t t' : show_view sty checked t = Ok t' -> t_conn t' = t_conn t.
Proof. unfold show_view. intro E. bnd E. injection E as <-. reflexivity. Qed.
Lemma show_menu_conn m t t' : Tui.show_menu sty checked m t = Ok t' -> t_conn t' = t_conn t.
Proof. unfold Tui.show_menu. intro E. bnd E. injection E as <-. reflexivity. Qed.
Lemma new_menu_conn t t' : new_menu sty checked t = Ok t' -> t_conn t' = t_conn t.
Proof. unfold new_menu. intro E. bnd E. eapply show_menu_conn; eauto. Qed.
Lemma input_one k t t' : handle_input sty checked k t = Ok t' -> at_most_one (t_conn t) (t_conn t').
Proof.
  unfold handle_input. intro E. destruct (to_key k) as [key|]; [|injection E as <-; now left]. destruct (cs_menu _) as [m|].
  - destruct (ke_key key); try (injection E as <-; now left); try (eapply call_one; [|exact E]; discriminate); bnd E.
    all: try (eapply one_show; [eapply call_one; [|exact E0]; discriminate|first [eapply show_view_conn; exact E|eapply new_menu_conn; exact E]]).
  - destruct (ke_key key) as [x| | | | | | |]; try (injection E as <-; now left); try (eapply call_one; [|exact E]; discriminate).
    repeat match type of E with (if ?b then _ else _) = _ => destruct b end; try discriminate; try (injection E as <-; now left); eapply call_one; try exact E; discriminate.
Qed.
Lemma handle_one v t t' : handle_event sty checked v t = Ok t' -> at_most_one (t_conn t) (t_conn t').
Proof.
  intro E. destruct v; cbn [handle_event] in E; try (bnd E; injection E as <-; now left).
  - left. eapply show_menu_conn; eauto.
  - left. eapply show_view_conn; eauto.
  - eapply call_one; [|exact E]; discriminate.
  - eapply input_one; eauto.
  - unfold resize in E. destruct (_ && _); [injection E as <-; now left|]. cbv zeta in E. cbn [t_conn] in E. left. destruct (cs_menu _); [apply show_menu_conn in E; exact E|apply show_view_conn in E; exact E].
Qed.
Lemma asked files : forall t t', ask_files checked files t = Ok t' -> exists ops, Forall (fun o => exists f, o = OpEdit f false) ops /\ foldM (fun n o => cstep checked n o) ops (t_conn t) = Ok (t_conn t').
Proof.
  induction files as [|f files IH]; intros t t' E; cbn [ask_files] in E; [injection E as <-; exists []; split; [constructor|reflexivity]|]. bnd E. destruct (IH _ _ E) as (ops & F & H). unfold Tui.call in E0. bnd E0. injection E0 as <-. cbn [t_conn] in H.
  exists (OpEdit f false :: ops). split; [constructor; eauto|]. cbn [foldM]. rewrite E1. exact H.
Qed.
Lemma calls_reach ops : Forall (fun o => forall e, o <> OpEvent e) ops -> forall ms y n, yreach ms y -> foldM (fun n o => cstep checked n o) ops (pr_conn (sy_peer L y c)) = Ok n ->
  exists y', yreach ms y' /\ same y' (put_conn L c n (pr_got (sy_peer L y c)) y).
Proof.
  induction 1 as [|o ops No F IH]; intros ms y n R E; cbn [foldM] in E.
  - injection E as <-. exists y. split; [exact R|]. split; [reflexivity|]. intro d. cbn [put_conn sy_peer]. unfold put_peer. destruct (Nat.eqb_spec d c) as [->|]; [destruct (sy_peer L y c); reflexivity|reflexivity].
  - bnd E. pose proof (yr_step _ _ _ _ _ _ _ _ _ _ _ R (ys_call G pol u se L checked session y c o v No E0)) as R1. rewrite app_nil_r in R1. edestruct (IH _ _ n R1) as (y' & R' & Sm).
    + cbn [sy_peer]. unfold put_peer. rewrite Nat.eqb_refl. cbn [pr_conn]. exact E.
    + exists y'. split; [exact R'|]. destruct Sm as [S1 S2]. split; [exact S1|]. intro d. rewrite S2. cbn [put_conn sy_peer]. unfold put_peer. rewrite Nat.eqb_refl. cbn [pr_read pr_got]. destruct (d =? c); reflexivity.
Qed.
Lemma trun_app a b s s1 s2 : trun sty checked a s = Ok s1 -> trun sty checked b s1 = Ok s2 -> trun sty checked (a ++ b) s = Ok s2.
Proof. unfold trun. revert s. induction a as [|m a IH]; intros s A B; cbn [app foldM] in *; [injection A as <-; exact B|]. bnd A. cbn [bind]. eauto. Qed.
Lemma trun_one m s s' : tstep sty checked m s = Ok s' -> trun sty checked [m] s = Ok s'.
Proof. unfold trun. cbn [foldM]. intros ->. reflexivity. Qed.
Definition messages (tms : list tmove) : list event := flat_map (fun m => match m with MvMessage e => [e] | _ => [] end) tms.
(** what was understood among the first lines *)
Definition understood (lines : list text) : list event := flat_map (fun l => match parse_event l with Some e => [e] | None => [] end) lines.
Lemma understood_app a b : understood (a ++ b) = understood a ++ understood b.
Proof. apply flat_map_app. Qed.
Lemma step_log y l y' d : ystep y l y' -> exists more, written_to session (sv_log L (sy_server L y')) d = written_to session (sv_log L (sy_server L y)) d ++ more.
Proof.
  assert (forall s m r, smoves G pol u se L s m r -> forall s', r = Ok s' -> exists more, sv_log L s' = sv_log L s ++ more) as Lg.
  { intros s m r H s' Er. destruct H as [Dn|Dn|x line Dn Hd|x Dn Hd|broken x Dn Hx|w broken v rest Dn Ev]; try discriminate; try (injection Er as <-; exists []; now rewrite app_nil_r).
    - injection Er as <-. cbn [deliver sv_log]. eauto.
    - unfold event_step in Er. bnd Er. destruct v0 as [[e l0] log]. destruct (removed_clients L e) as [quit e1]. bnd Er. injection Er as <-. cbn [sv_log]. destruct v as [x|x|x line]; cbn [on_event] in E; bnd E.
      + injection E as _ _ <-. exists []. now rewrite app_nil_r.
      + bnd E. injection E as _ _ <-. exists []. now rewrite app_nil_r.
      + destruct v as [r e2]. destruct (negb _); [discriminate|]. destruct (broken x); [discriminate|]. injection E as _ _ <-. eauto. }
  assert (forall a b, (exists more, sv_log L b = sv_log L a ++ more) -> exists more, written_to session (sv_log L b) d = written_to session (sv_log L a) d ++ more) as W by (intros a b (more & ->); unfold written_to; rewrite flat_map_app; eauto).
  intro H. destruct H as [m s N M|k Sh|x line s p Hl M|x o n p N E|x line p Hl]; apply W; cbn [sy_server]; try (exists []; now rewrite app_nil_r).
  - eapply Lg; eauto.
  - eapply Lg; eauto.
Qed.
Lemma step_fits y l y' ms : yreach ms y -> ystep y l y' -> SystemSpec.fits L y' -> SystemSpec.fits L y.
Proof.
  intros R St F. pose proof (yreach_inv _ _ _ _ _ _ _ _ _ R) as I. pose proof (yi_reach _ _ _ _ _ _ _ _ _ I) as Rs.
  assert (forall m s, smoves G pol u se L (sy_server L y) m (Ok s) -> Forall (fun x => fits_out (o_what x)) (ed_out L (sv_editor L s)) -> SystemSpec.fits L y) as M.
  { intros m s H Fs. pose proof (sreach_inv G pol u se L _ _ Rs) as Si. remember (Ok s) as r eqn:Er. destruct H as [Dn|Dn|x line Dn Hd|x Dn Hd|broken x Dn Hx|w broken v rest Dn Ev]; try discriminate; try (injection Er as <-; exact Fs).
    destruct (event_spec G pol u se L _ _ _ _ _ _ Si Er) as (_ & _ & _ & _ & _ & _ & _ & More & _). eapply more_fits; eauto. }
  destruct St as [m s N M'|k Sh|x line s p Hl M'|x o n p N E|x line p Hl]; try exact F.
  - eapply M; eauto.
  - unfold SystemSpec.fits in *. cbn [sy_server with_editor sv_editor] in F. rewrite shuffled_same in F by exact Sh. exact F.
  - eapply M; eauto.
Qed.
Lemma same_fits a b : same a b -> SystemSpec.fits L a -> SystemSpec.fits L b.
Proof. intros [A _]. unfold SystemSpec.fits. now rewrite A. Qed.
Lemma same_out a b d : same a b -> sy_out L session a d = sy_out L session b d.
Proof. intros [A _]. unfold sy_out. now rewrite A. Qed.

(** Whatever happens, there is a run of the system (System.v) in which the same happened, whose client is the terminal, and a run of
    the terminal (Tui.v) in which it received exactly the messages the client read. *)
Theorem C79_program : forall size files (new : editor L -> Prop) ms tms p, (forall e, new e -> started e) -> preach size files new ms tms p ->
  exists y t0, yreach ms y /\ sy_server L y = sy_server L (pg_sys L p) /\ (forall d, sy_peer L y d = sy_peer L (pg_sys L p) d) /\
    term_new checked size files = Ok t0 /\ trun sty checked tms (mkTS t0 []) = Ok (pg_tui L p) /\
    t_conn (ts_term (pg_tui L p)) = pr_conn (sy_peer L y c) /\
    (SystemSpec.fits L y -> messages tms = understood (firstn (pr_got (sy_peer L y c)) (str_lines (sy_out L session y c)))).
Proof.
  intros size files new ms tms p Nw H. induction H as [e t Ne T|ms tms p l k p' H IH St].
  - destruct (Nw e Ne) as (w & cwd & args & st & scripts & E). pose proof (yr_start G pol u se L checked session w cwd args st scripts e E) as R0.
    unfold term_new in T. destruct (asked _ _ _ T) as (ops & F & Fo). cbn [t_conn] in Fo. assert (Forall (fun o => forall e, o <> OpEvent e) ops) as F' by (eapply Forall_impl; [|exact F]; intros o (f & ->); discriminate).
    destruct (calls_reach ops F' _ _ (t_conn t) R0 Fo) as (y & R & S1 & S2). exists y, t. split; [exact R|]. split; [exact S1|]. split; [exact S2|]. split; [exact T|]. split; [reflexivity|]. cbn [ts_term pg_tui]. rewrite S2. cbn [put_conn sy_peer]. unfold put_peer. rewrite Nat.eqb_refl. split; [reflexivity|]. intros _. reflexivity.
  - destruct IH as (y & t0 & R & S1 & S2 & T & Tr & Co & Ms). assert (same y (pg_sys L p)) as Sm by (split; auto).
    destruct St as [l y' Y C1 C2|m s Hm E|s E|line m s Hl Hm E]; cbn [pg_sys pg_tui].
    + destruct (ystep_same _ _ _ _ Sm Y) as (y1 & Y1 & S3 & S4). exists y1, t0. split; [eapply yr_step; eauto|]. split; [exact S3|]. split; [exact S4|]. rewrite app_nil_r. split; [exact T|]. split; [exact Tr|]. rewrite S4, C1, <- S2. split; [exact Co|]. intro F.
      pose proof (step_fits _ _ _ _ R Y1 F) as F0. specialize (Ms F0). rewrite Ms. rewrite C2, <- S2. pose proof (yreach_inv _ _ _ _ _ _ _ _ _ R) as I. pose proof (yr_step _ _ _ _ _ _ _ _ _ _ _ R Y1) as R1. pose proof (yreach_inv _ _ _ _ _ _ _ _ _ R1) as I1.
      destruct (yi_got _ _ _ _ _ _ _ _ _ I F0 c) as (ops & _ & Le & _). destruct (step_log _ _ _ c Y1) as (more & W). unfold sy_out. rewrite (lines_to L session _ c (yi_log _ _ _ _ _ _ _ _ _ I) F0), (lines_to L session _ c (yi_log _ _ _ _ _ _ _ _ _ I1) F), W, map_app, firstn_app_le by (rewrite map_length; lia). reflexivity.
    + exists y, t0. rewrite app_nil_r. split; [exact R|]. split; [exact S1|]. split; [exact S2|]. split; [exact T|]. split; [eapply trun_app; [exact Tr|apply trun_one; exact E]|].
      assert (t_conn (ts_term s) = t_conn (ts_term (pg_tui L p)) /\ messages [m] = []) as [Cn Mm] by (destruct m; try contradiction; cbn [tstep] in E; injection E as <-; auto). split; [congruence|]. unfold messages in *. rewrite flat_map_app, Mm, app_nil_r. exact Ms.
    + assert (at_most_one (pr_conn (sy_peer L y c)) (t_conn (ts_term s))) as One.
      { rewrite <- Co. cbn [tstep] in E. destruct (ts_queue _) as [|v q]; [injection E as <-; now left|]. destruct (t_exit _); [injection E as <-; now left|]. bnd E. injection E as <-. cbn [ts_term]. eapply handle_one; eauto. }
      assert (exists ops, Forall (fun o => forall e, o <> OpEvent e) ops /\ foldM (fun n o => cstep checked n o) ops (pr_conn (sy_peer L y c)) = Ok (t_conn (ts_term s))) as (ops & F & Fo).
      { destruct One as [->|(o & No & Eo)]; [exists []; split; [constructor|reflexivity]|exists [o]; split; [repeat constructor; exact No|cbn [foldM]; rewrite Eo; reflexivity]]. }
      destruct (calls_reach ops F _ _ _ R Fo) as (y1 & R1 & S3 & S4). exists y1, t0. rewrite app_nil_r. split; [exact R1|].
      assert (same y1 (put_conn L c (t_conn (ts_term s)) (pr_got (sy_peer L (pg_sys L p) c)) (pg_sys L p))) as [S5 S6].
      { split; [rewrite S3; exact S1|]. intro d. rewrite S4. cbn [put_conn sy_peer]. unfold put_peer. rewrite !S2. reflexivity. }
      split; [exact S5|]. split; [exact S6|]. split; [exact T|]. split; [eapply trun_app; [exact Tr|apply trun_one; exact E]|]. rewrite S6. cbn [put_conn sy_peer]. unfold put_peer. rewrite Nat.eqb_refl. cbn [pr_conn pr_got]. split; [reflexivity|].
      intro Fy. unfold messages. rewrite flat_map_app. cbn [flat_map]. rewrite !app_nil_r. rewrite <- S2. replace (sy_out L session y1 c) with (sy_out L session y c) by (unfold sy_out; rewrite S3; reflexivity). apply Ms. unfold SystemSpec.fits in *. rewrite S3 in Fy. exact Fy.
    + rewrite <- (same_out _ _ c Sm), <- S2 in Hl. pose proof (yr_step _ _ _ _ _ _ _ _ _ _ _ R (ys_receive G pol u se L checked session y c line Hl)) as R1. rewrite app_nil_r in R1.
      assert (t_conn (ts_term s) = read_by line (pr_conn (sy_peer L y c)) /\ messages [m] = understood [line]) as [Cn Mm].
      { unfold read_by, understood, messages. cbn [flat_map]. destruct (parse_event line) as [e|]; [|destruct Hm as (msg & Hm)]; subst m; cbn [tstep] in E.
        - cbn [cstep bind] in E. injection E as <-. cbn [ts_term t_conn]. rewrite Co. auto.
        - injection E as <-. auto. }
      eexists _, t0. rewrite app_nil_r. split; [exact R1|]. cbn [sy_server put_conn]. split; [exact S1|]. split; [intro d; unfold put_conn; cbn [sy_peer pg_sys]; unfold put_peer; rewrite Cn, !S2; reflexivity|]. split; [exact T|]. split; [eapply trun_app; [exact Tr|apply trun_one; exact E]|].
      cbn [sy_peer]. unfold put_peer. rewrite Nat.eqb_refl. cbn [pr_conn pr_got]. split; [exact Cn|]. intro F. unfold messages in *. rewrite flat_map_app, Mm, (Ms F). match goal with |- context [firstn (S ?n) ?l] => change l with (str_lines (sy_out L session y c)) end.
      rewrite (nth_firstn _ _ _ Hl), understood_app. reflexivity.
Qed.

(** ** the screen *)
Notation received := PropProto.received.
Lemma other_method {T} m (dec : json -> option T) e : (match e with EvNotification n => nt_method n <> m | EvResponse _ => True end) -> named m dec e = None.
Proof. destruct e as [n|r]; [|reflexivity]. intro H. unfold named. destruct (eqb (nt_method n) m) eqn:Q; [apply eqb_ok in Q; contradiction|reflexivity]. Qed.
Lemma talk_modest a b log x : modest_talk a b log c -> In (c, x) log -> (forall n, x = WNotif n -> fits_out n) -> modest a b (received (wire_written session x)).
Proof.
  intros M I F. destruct x as [r|n].
  - split; [reflexivity|]. split; [reflexivity|]. split; intros t X; discriminate.
  - specialize (M n I). specialize (F n eq_refl). destruct (says_wire session n F) as (_ & Ss & Se & _). cbn [wire_written].
    assert (named (str "menu") dec_menu_info (received (EvNotification (wire_enotif session n))) = None /\ named (str "hint") dec_hint (received (EvNotification (wire_enotif session n))) = None) as [N1 N2].
    { destruct n as [[]| | |]; try contradiction; split; apply other_method; cbn; discriminate. }
    split; [exact N1|]. split; [exact N2|]. rewrite Ss, Se. split.
    + intros t X. destruct n as [[t0 err|x y|v]|m|l|l]; try discriminate; try contradiction. cbn [said_echo] in X. injection X as <-. unfold modest_echo, plain_text. cbn [map fr_text concat]. rewrite app_nil_r. exact M.
    + intros l X. destruct n as [[t0 err|x y|v]|m|l0|l0]; try discriminate; try contradiction. cbn [said_status] in X. injection X as <-. exact M.
Qed.
(** the messages the terminal has read are what was written to it *)
Lemma program_modest size files (new : editor L -> Prop) ms tms p a b : (forall e, new e -> started e) -> preach size files new ms tms p -> SystemSpec.fits L (pg_sys L p) ->
  modest_talk a b (sv_log L (sy_server L (pg_sys L p))) c -> forall e, In (MvMessage e) tms -> modest a b e.
Proof.
  intros Nw H F Mt. destruct (C79_program _ _ _ _ _ _ Nw H) as (y0 & t0 & R & S1 & S2 & T & Tr & Co & Ms).
  assert (SystemSpec.fits L y0) as F0 by (unfold SystemSpec.fits; rewrite S1; exact F). specialize (Ms F0). pose proof (yreach_inv _ _ _ _ _ _ _ _ _ R) as I.
  assert (forall e, In e (map received (written_to session (sv_log L (sy_server L y0)) c)) -> modest a b e) as Mm.
  { intros e He. apply in_map_iff in He. destruct He as (e0 & <- & He). unfold written_to in He. apply in_flat_map in He. destruct He as ([i x] & Hx & He). cbn [fst snd] in He. destruct (Nat.eqb_spec i c) as [->|]; [|destruct He]. destruct He as [<-|[]].
    eapply talk_modest; [exact Mt|rewrite S1 in Hx; exact Hx|]. intros n ->. destruct (yi_log _ _ _ _ _ _ _ _ _ I _ _ Hx) as (o & Ho & <-). unfold SystemSpec.fits in F0. rewrite Forall_forall in F0. exact (F0 _ Ho). }
  intros e He. apply Mm. assert (In e (messages tms)) as Hm by (unfold messages; apply in_flat_map; exists (MvMessage e); split; [exact He|now left]). rewrite Ms in Hm. unfold understood in Hm. apply in_flat_map in Hm. destruct Hm as (line & Hl & Hm).
    assert (In (Some e) (got L session y0 c)) as Hg by (unfold got; apply in_map_iff; exists line; destruct (parse_event line) as [e1|]; [destruct Hm as [->|[]]; auto|destruct Hm]).
    rewrite (got_written G pol u se L checked session ms y0 c I F0) in Hg. apply in_map_iff in Hg. destruct Hg as (e0 & X & Hg). injection X as <-. apply in_map. rewrite <- (firstn_skipn (pr_got (sy_peer L y0 c))). apply in_or_app. now left.
Qed.
Lemma runs_plain l : plain_text (Payload.runs l) = map fst l.
Proof.
  rewrite <- (runs_flat l) at 2. generalize (Payload.runs l). clear. intro r. unfold plain_text, flat. induction r as [|f r IH]; [reflexivity|]. cbn [map concat flat_map]. rewrite map_app, IH, map_map. cbn [fst]. now rewrite map_id.
Qed.
Lemma runs_unstyled l : Forall (fun x => snd x = false) l -> unstyled (Payload.runs l).
Proof.
  induction 1 as [|[b s] l H F IH]; [constructor|]. cbn [snd] in H. subst s. cbn [Payload.runs]. destruct (Payload.runs l) as [|[t g] q]; [repeat constructor; discriminate|]. inversion IH as [|? ? [A B] C]; subst. cbn [fr_face] in *. destruct (Bool.eqb _ _); repeat constructor; auto; cbn [fr_face]; auto; discriminate.
Qed.
Definition vrow_of (r : prow) : vrow := match r with PTitle i => Title (wire_item i) | PLine l => Line (Payload.runs l) end.
Lemma rows_wire v : view_rows (map wire_item v) = map vrow_of (shown_rows v).
Proof.
  unfold view_rows, shown_rows. induction v as [|i v IH]; [reflexivity|]. cbn [map concat]. rewrite map_app, IH. f_equal. cbn [map]. f_equal. rewrite map_map. destruct i as [bf x y ls]. cbn [wire_item wi_lenses pi_lenses]. rewrite map_map. cbn [wl_lines]. clear. induction ls as [|l ls IH]; [reflexivity|]. cbn [map concat]. rewrite !map_app, IH, !map_map. reflexivity.
Qed.
Lemma row_wire w r t : row_shows w (vrow_of r) t -> shows_row w r t.
Proof.
  destruct r as [i|l]; cbn [vrow_of row_shows shows_row]; [exact (fun x => x)|]. rewrite runs_plain. intros (A & B & C). split; [exact A|]. split; [exact B|]. intro H. apply C. rewrite map_length. destruct H as [H|H]; [left; now apply runs_unstyled|now right].
Qed.
Lemma fits_wire w i : fits_item w i -> printable_item w (wire_item i) /\ (Z.of_nat (title_length (wire_item i)) <= w < 65536)%Z.
Proof.
  intros (A & B & C). split; [split; [exact A|]|].
  - cbn [wire_item wi_lenses]. apply Forall_map. eapply Forall_impl; [|exact B]. intros l H. cbn [wl_lines]. apply Forall_map. eapply Forall_impl; [|exact H]. intros x Hx. cbv beta. now rewrite runs_plain.
  - unfold title_length. cbn [wire_item wi_buffer wi_start wi_end]. lia.
Qed.
Lemma numbered_combine rows : forall n, numbered 0 (Z.of_nat n) false rows = map (fun '(n, t) => (0, Z.of_nat n, false, t)%Z) (combine (seq n (length rows)) rows).
Proof. induction rows as [|r rows IH]; intro n; [reflexivity|]. cbn [numbered length seq combine map]. f_equal. rewrite <- IH. f_equal. lia. Qed.

(** A terminal that has read and handled everything, of a client whose display is up to date (C72), shows its view as the editor
    has it now: the rows of the view from the top, as many as there is room for, and on the last row the last message and the last
    status line. *)
Theorem C79_screen : sane sty -> forall size files (new : editor L -> Prop) ms tms p a b w h items, (forall e, new e -> started e) -> preach size files new ms tms p ->
  let y := pg_sys L p in let t := ts_term (pg_tui L p) in
  SystemSpec.fits L y -> In c (sv_index L (sy_server L y)) -> sound ms c -> settled L session y c -> current G (core_of L y) c ->
  ts_queue (pg_tui L p) = [] -> (forall k, In (MvKey k) tms -> one_code k) -> modest_talk a b (sv_log L (sy_server L y)) c ->
  t_size t = (w, h) -> (2 <= h < 65536)%Z -> (Z.of_nat (a + b) < w)%Z ->
  view_params G (core_of L y) c = Ok items -> items <> [] -> Forall (fits_item w) items ->
  (forall k, k < length items -> (Z.of_nat (length (shown_rows (firstn k items))) <> h - 1)%Z) ->
  exists rows status n, on_screen w h (t_out t) rows status /\ Forall2 (shows_row w) (firstn (Z.to_nat (h - 1)) (shown_rows items)) rows /\
    visible status = plain_text (match latest said_echo (notified (sv_log L (sy_server L y)) c) None with Some e => e | None => [] end) ++ repeat 32 n ++
      joined [194; 183] (map (fun i => plain_text (st_text i)) (latest said_status (notified (sv_log L (sy_server L y)) c) [])).
Proof.
  intros Sane size files new ms tms p a b w h items Nw H y t F Hc So St Cu Q Mk Mt Sz Hh Ab Vp Ni Fi K.
  destruct (C79_program _ _ _ _ _ _ Nw H) as (y0 & t0 & R & S1 & S2 & T & Tr & Co & Ms). fold y in S1, S2. assert (same y0 y) as Sm by (split; auto).
  assert (SystemSpec.fits L y0) as F0 by (unfold SystemSpec.fits; rewrite S1; exact F). specialize (Ms F0).
  assert (settled L session y0 c) as St0 by (destruct St as [A B]; split; [rewrite S1; exact A|rewrite S2, (same_out _ _ c Sm); exact B]).
  assert (core_of L y0 = core_of L y) as Ec by (unfold core_of; now rewrite S1).
  destruct (current_wire G pol u se L checked session ms y0 c R F0 ltac:(rewrite S1; exact Hc) So St0 ltac:(rewrite Ec; exact Cu)) as (items' & V' & Cv). rewrite Ec, Vp in V'. injection V' as <-.
  pose proof (yreach_inv _ _ _ _ _ _ _ _ _ R) as I. unfold SystemSpec.screen in Cv. rewrite <- Co in Cv. fold t in Cv.
  pose proof (program_modest _ _ _ _ _ _ a b Nw H F Mt) as Me.
  assert (items <> [] -> map wire_item items <> []) as Ni' by (destruct items; [congruence|discriminate]).
  destruct (C67_screen sty checked Sane a b size files t0 tms (pg_tui L p) w h T Tr Me Mk Q Sz Hh Ab) as (before & cs & rows & old & status & n & O1 & O2 & O3 & O4 & O5).
  - fold t. rewrite Cv. now apply Ni'.
  - fold t. rewrite Cv. apply Forall_map. eapply Forall_impl; [|exact Fi]. intros i. apply fits_wire.
  - fold t. rewrite Cv. rewrite map_length. intros k Hk. rewrite firstn_map, rows_wire, map_length. auto.
  - fold t in O1, O4, O5. rewrite Cv, rows_wire in O4. exists rows, status, n. split; [exists before, cs, old; split; [exact O1|]; split; [exact O2|]; rewrite O3; f_equal; apply (numbered_combine rows 0)|]. split.
    + clear - O4. rewrite firstn_map in O4. remember (firstn _ (shown_rows items)) as l. clear Heql. revert rows O4. induction l as [|r l IH]; intros rows O4; inversion O4; subst; constructor; [now apply row_wire|auto].
    + rewrite O5. unfold echo_of, status_of. destruct (yi_got _ _ _ _ _ _ _ _ _ I F0 c) as (ops & E & _ & Ev). destruct St0 as [_ Sg]. unfold sy_out in Sg. rewrite (lines_to L session _ c (yi_log _ _ _ _ _ _ _ _ _ I) F0), map_length in Sg. rewrite Sg, firstn_all in Ev.
      destruct (C45 _ _ _ E) as (C1 & C2 & _). rewrite <- Co in C1, C2. fold t in C1, C2. rewrite Ev, S1 in C1, C2.
      assert (forall n, In n (notified (sv_log L (sy_server L y)) c) -> fits_out n) as Fit by (intros n0 Hn; apply notified_in in Hn; rewrite <- S1 in Hn; destruct (yi_log _ _ _ _ _ _ _ _ _ I _ _ Hn) as (x & Hx & <-); unfold SystemSpec.fits in F0; rewrite Forall_forall in F0; exact (F0 _ Hx)).
      rewrite (latest_written session says_echo said_echo (fun x => x) _ c) in C1; [|reflexivity|intros n0 Hn; destruct (says_wire session n0 (Fit n0 Hn)) as (_ & _ & X & _); rewrite X; destruct (said_echo n0); reflexivity].
      rewrite (latest_written session says_status said_status (fun x => x) _ c) in C2; [|reflexivity|intros n0 Hn; destruct (says_wire session n0 (Fit n0 Hn)) as (_ & X & _); rewrite X; destruct (said_status n0); reflexivity].
      rewrite C1, C2. reflexivity.
Qed.
End Terminal.
Print Assumptions C79_program.
Print Assumptions C79_screen.
