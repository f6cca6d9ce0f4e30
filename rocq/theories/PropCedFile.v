(** C80: [ced FILE...] shows the last FILE: the whole program, from the command line to the screen. *)
From Coq Require Import String List Arith Lia ZArith Bool.
From Verif Require Import Base ListFacts PieceTable PieceTableSpec PieceTableFacts LineSpec LineFacts Coords CoordsFacts CoordsMore Utf8 Utf8Spec Utf8Facts History HistoryFacts Diff Selection Maps StackMap Fmt Buffer View ViewSpec ViewFacts Json Proto ProtoFacts PropProto Core CoreSpec CoreInv CoreOps FreshSpec Payload Menu Editor EditorSpec EditorFacts Conn PropConn Server ServerSpec ServerFacts PropServer System SystemSpec SystemFacts PropSystem PropShipped PropTyping PropNotifUtf8 Tui TuiSpec TuiFacts PropTui PropTuiKeys PropTuiScreen PropTuiFinal Terminal TerminalSpec PropTerminal Shipped SoloSpec PropSolo PropOneUser FileSpec PropFile.
Import ListNotations.

Lemma latest_app {A B} (g : A -> option B) l m d : latest g (l ++ m) d = latest g m (latest g l d).
Proof. revert d. induction l as [|x l IH]; intro d; cbn [app latest]; auto. Qed.
Lemma latest_none {A B} (g : A -> option B) l d : Forall (fun x => g x = None) l -> latest g l d = d.
Proof. induction 1 as [|x l H F IH]; cbn [latest]; [reflexivity|]. now rewrite H. Qed.
Lemma blank_shown w l : printable l \/ legible l /\ (Z.of_nat (length l) < w)%Z -> displayable w (l ++ [32]).
Proof.
  intros [Q|[(cs & F & ->) Lw]]; [left; apply Forall_app; split; [exact Q|repeat constructor; lia]|]. right. split.
  - exists (cs ++ [[32]]). split; [apply Forall_app; split; [exact F|constructor; [split; [cbn [is_char]; lia|lia]|constructor]]|]. rewrite concat_app. reflexivity.
  - rewrite app_length. cbn [length]. lia.
Qed.
Section Program.
Variable G : Graphemes.
Variable pol : policy.
Hypothesis P : policy_wrap pol \/ policy_succ pol.
Variable u : regex_crate.
Variable se : serde.
Variable R : lua_rest.
Notation L := (shipped R).
Hypothesis PO : pairs_ok R.
Variable sty : styles.
Variable checked : bool.
Variable session : text.
Hypothesis PS : plain_session session.
Variable t : nat.
Variable cwd f content : text.
Hypothesis Nd : f <> b_debug.
Hypothesis Ns : f <> b_scratch.
Notation preach := (Terminal.preach G pol u se L sty checked session 1).
(** an editor started in [cwd], with the scripts of the program *)
Definition started_in (e : editor L) : Prop := exists w args st path, editor_new G pol L w session cwd args st (prelude path) = Ok e.
Notation opens := (opens G R session t cwd f content).
Lemma in_plain e : started_in e -> started G pol L session e.
Proof. intros (w & args & st & path & E). exists w, cwd, args, st, (prelude path). exact E. Qed.

(** what the client was told is modest *)
Lemma greeted_talk out : printable session -> greeted session out -> forall n, In n (addressed out 1) ->
  match n with
  | OMenu _ | OHint _ => False
  | OStatus l => Forall (fun i => printable (plain_text (st_text i))) l /\ length (joined [194; 183] (map (fun i => plain_text (st_text i)) l)) <= length (who_where 1 session)
  | OCore (NEcho t _) => printable t /\ length t <= 0
  | OCore _ => True
  end.
Proof.
  intros Ps (a & b & -> & Fa & Fb) n Hn. unfold addressed in Hn. apply in_map_iff in Hn. destruct Hn as (x & <- & Hx). apply filter_In in Hx. destruct Hx as [Hx _].
  assert (x = greeting session \/ quiet_out x) as [->|Q].
  { rewrite Forall_forall in Fa, Fb. apply in_app_or in Hx. destruct Hx as [Hx|[<-|Hx]]; auto. }
  - cbn [greeting o_what st_text map]. split; [constructor; [|constructor]|].
    + assert (plain_text (st_text (mkStatus 100 (says (who_where 1 session)))) = who_where 1 session) as -> by apply app_nil_r. unfold who_where, printable. repeat (apply Forall_app; split); try exact Ps; repeat constructor; vm_compute; lia.
    + assert (plain_text (says (who_where 1 session)) = who_where 1 session) as -> by apply app_nil_r. apply Nat.le_refl.
  - unfold quiet_out in Q. destruct (o_what x) as [[ | | ]| | |]; try contradiction; exact Logic.I.
Qed.
Lemma notified_in log c n : In (c, WNotif n) log -> In n (notified log c).
Proof. intro H. unfold notified. apply in_flat_map. exists (c, WNotif n). split; [exact H|]. cbn [fst snd]. rewrite Nat.eqb_refl. now left. Qed.
Lemma opens_talk ms s : printable session -> opens ms s -> modest_talk 0 (length (who_where 1 session)) (sv_log L s) 1.
Proof.
  intros Ps O n Hn. apply notified_in in Hn. destruct (op_phase _ _ _ _ _ _ _ _ _ O) as [(_ & _ & _ & _ & _ & _ & Lg & _)|[(_ & _ & _ & _ & _ & Lg & _)|(_ & _ & Gr & _ & Nt & _)]]; [rewrite Lg in Hn; destruct Hn..|].
  apply (greeted_talk _ Ps Gr). rewrite Nt in Hn. clear - Hn. unfold addressed in *. apply in_map_iff in Hn. destruct Hn as (x & <- & Hx). apply in_map_iff. exists x. split; [reflexivity|]. apply filter_In in Hx. apply filter_In. split; [|apply Hx]. destruct Hx as [Hx _].
  rewrite <- (firstn_skipn (sv_taken L s)). apply in_or_app. now left.
Qed.
(** the requests of the terminal *)
Lemma asked_files size files ms tms p : printable session -> preach size files started_in ms tms p -> SystemSpec.fits L (pg_sys L p) -> opens ms (sy_server L (pg_sys L p)) ->
  (forall k, ~ In (MvKey k) tms) -> (forall x, ~ In (MvReadError x) tms) -> Forall2 fulfils (SystemSpec.made L (pg_sys L p) 1) (map WEdit files).
Proof.
  intros Ps H F O Mk Mr. pose proof (no_conn_error G pol u se L sty checked session 1 _ _ _ _ _ _ in_plain H F) as Ce.
  pose proof (program_modest G pol u se L sty checked session 1 _ _ _ _ _ _ 0 (length (who_where 1 session)) in_plain H F (opens_talk _ _ Ps O)) as Me.
  destruct (C79_program G pol u se L sty checked session 1 _ _ _ _ _ _ in_plain H) as (y & t0 & Ry & S1 & S2 & T & Tr & Co & _).
  destruct (C65_partial sty checked _ _ _ _ _ T Tr (fun e He => proj1 (Me e He)) (fun k Hk => match Mk k Hk with end)) as (sent & waiting & W1 & W2 & _).
  assert (concat (map move_wishes tms) = []) as W0.
  { clear - Ce Mk Mr. induction tms as [|m tms IH]; [reflexivity|]. cbn [map concat]. rewrite IH; [|intros x X; apply (Mk x); now right|intros x X; apply (Mr x); now right|intros x X; apply (Ce x); now right].
    destruct m as [e|k|a b|e|e|]; try reflexivity; exfalso; [apply (Mk k)|apply (Mr e)|apply (Ce e)]; now left. }
  rewrite W0 in W1. symmetry in W1. apply app_eq_nil in W1. destruct W1 as [-> _]. rewrite app_nil_r in W2. unfold SystemSpec.made. rewrite <- S2, <- Co. exact W2.
Qed.
Lemma fulfils_asks r g : wire_request r -> fulfils r (WEdit g) -> asks_for (print_request r) g.
Proof.
  intros W (M & j & Pj & D). exists (arrived r). split; [now apply line_parsed|]. split; [exact M|]. exists j. split; [|exact D]. cbn [arrived rq_params]. rewrite Pj. destruct j; try reflexivity. discriminate.
Qed.
Lemma asked_once line g h : asks_for line g -> asks_for line h -> g = h.
Proof. intros (q & Pq & _ & j & J & D) (q' & Pq' & _ & j' & J' & D'). rewrite Pq in Pq'. injection Pq' as <-. rewrite J in J'. injection J' as <-. rewrite D in D'. now injection D' as <-. Qed.
Lemma program_lines size files ms tms p : printable session -> preach size files started_in ms tms p -> SystemSpec.fits L (pg_sys L p) -> accepted ms <= 1 -> (forall d, ~ In (MEnd d) ms) -> sound ms 1 -> (forall w b, In (MEvent w b) ms -> readable t cwd f content (w_disk w)) ->
  (forall k, ~ In (MvKey k) tms) -> (forall x, ~ In (MvReadError x) tms) -> forall d line, In (MLine d line) ms -> exists g, asks_for line g.
Proof.
  intros Ps H. induction H as [e x Ne T|ms tms p l k p' H IH St]; intros F Ac Me So Mw Mk Mr d line Hl; [destruct Hl|].
  assert (accepted ms <= 1) as Ac0 by (unfold accepted in *; rewrite filter_app, app_length in Ac; lia). pose proof So as So'. apply Forall_app in So'. destruct So' as [So0 _].
  pose proof (pstep_fits G pol u se L sty checked session 1 _ _ _ _ _ _ _ _ _ in_plain H St F) as F0.
  assert (forall d line, In (MLine d line) ms -> exists g, asks_for line g) as Old.
  { apply IH; [exact F0|exact Ac0| |exact So0| | |]; [intros z X; apply (Me z)|intros w b X; apply (Mw w b)|intros z X; apply (Mk z)|intros z X; apply (Mr z)]; apply in_or_app; now left. }
  apply in_app_or in Hl. destruct Hl as [Hl|Hl]; [exact (Old d line Hl)|].
  destruct (program_runs _ _ _ _ _ _ _ _ _ _ _ _ _ _ _ H) as (e & (w & args & st & path & En) & Rn).
  assert (opens ms (sy_server L (pg_sys L p))) as O.
  { eapply opens_runs; [exact PO|exact PS|exact Nd|exact Ns|exact En|exact Rn|exact Ac0|exact Old| |exact So0|]; [intros z X; apply (Me z)|intros w' b X; apply (Mw w' b)]; apply in_or_app; now left. }
  assert (Forall2 fulfils (SystemSpec.made L (pg_sys L p) 1) (map WEdit files)) as Wf by (eapply asked_files; eauto; intros z X; [apply (Mk z)|apply (Mr z)]; apply in_or_app; now left).
  destruct (C79_program G pol u se L sty checked session 1 _ _ _ _ _ _ in_plain H) as (y & t0 & Ry & S1 & S2 & _). pose proof (yi_conn _ _ _ _ _ _ _ _ _ (yreach_inv _ _ _ _ _ _ _ _ _ Ry) 1) as [_ Cn].
  rewrite S2 in Cn. destruct St as [l y' Y C1 C2|m s Hm E|s E|ln m s Hln Hm E]; try (destruct Hl; fail).
  assert (d = 1) as ->.
  { destruct (program_runs _ _ _ _ _ _ _ _ _ _ _ _ _ _ _ (pr_step _ _ _ _ _ _ _ _ _ _ _ _ _ _ _ _ _ _ H (ps_system _ _ _ _ _ _ _ _ _ _ _ _ Y C1 C2))) as (e2 & Se2 & Rn2).
    destruct (only_client G pol u se L session e2 _ _ (in_plain _ Se2) Rn2) as [_ X]. specialize (X d line (in_or_app _ _ _ (or_intror Hl))). lia. }
  destruct Y as [m s N M|k Sh|c line0 s q Hq M|c o n q N E|c line0 q Hq]; try (destruct Hl; fail).
  - destruct Hl as [->|[]]. destruct (N 1 line eq_refl).
  - destruct Hl as [X|[]]. injection X as -> ->. unfold q in Hq. rewrite (lines_from _ Cn), nth_error_map in Hq. destruct (nth_error (co_sent (pr_conn (sy_peer L (pg_sys L p) 1))) (pr_read (sy_peer L (pg_sys L p) 1))) as [r|] eqn:Q; [|discriminate]. injection Hq as <-.
    assert (exists g, fulfils r (WEdit g)) as (g & Fg).
    { unfold SystemSpec.made in Wf. clear - Wf Q. revert Q. generalize (pr_read (sy_peer L (pg_sys L p) 1)). intros n. revert files Wf n. induction (co_sent (pr_conn (sy_peer L (pg_sys L p) 1))) as [|z zs IH]; intros [|g files] W [|n] Q; cbn [map nth_error] in *; try discriminate; inversion W; subst; [injection Q as <-; eauto|eauto]. }
    exists g. apply fulfils_asks; [|exact Fg]. rewrite Forall_forall in Cn. apply Cn. eapply nth_error_In; eauto.
Qed.

Lemma program_opens size files ms tms p : printable session -> preach size files started_in ms tms p -> SystemSpec.fits L (pg_sys L p) -> accepted ms <= 1 -> (forall d, ~ In (MEnd d) ms) -> sound ms 1 -> (forall w b, In (MEvent w b) ms -> readable t cwd f content (w_disk w)) ->
  (forall k, ~ In (MvKey k) tms) -> (forall x, ~ In (MvReadError x) tms) -> opens ms (sy_server L (pg_sys L p)) /\ Forall2 fulfils (SystemSpec.made L (pg_sys L p) 1) (map WEdit files).
Proof.
  intros Ps H F Ac Me So Mw Mk Mr. pose proof (program_lines _ _ _ _ _ Ps H F Ac Me So Mw Mk Mr) as Pl. destruct (program_runs _ _ _ _ _ _ _ _ _ _ _ _ _ _ _ H) as (e & (w & args & st & path & En) & Rn).
  assert (opens ms (sy_server L (pg_sys L p))) as O by (eapply opens_runs; [exact PO|exact PS|exact Nd|exact Ns|exact En|exact Rn|exact Ac|exact Pl|exact Me|exact So|exact Mw]). split; [exact O|]. eapply asked_files; eauto.
Qed.
(** the view of the file *)
Lemma file_view k items : valid content -> kept_file t cwd f content k -> looks_at k 1 (whole f) -> (exists b, get (k_buffers k) f = Some b) -> view_params G k 1 = Ok items ->
  exists pl, items = [mkPI f 1 (length (str_lines (ended content))) [pl]] /\ map (map fst) (pl_lines pl) = map (fun l => l ++ [32]) (str_lines (ended content)).
Proof.
  intros V [_ Kf] (c & Gc & Vc) (b & Gb) E. unfold view_params, the_client in E. rewrite Gc in E. cbn [unwrap bind] in E. rewrite Vc in E. destruct (Kf b Gb) as (_ & Cb & _).
  assert (ended content <> []) as Ne by (unfold ended; destruct (ends_lf content) eqn:Q; [intros ->; discriminate|destruct content; discriminate]).
  assert (showable (build_view [VAdd f FWhole]) (k_buffers k) (fun _ => ended content)) as Sh.
  { intros g Hg. assert (g = f) as -> by (destruct Hg as [<-|[]]; reflexivity). exists b. split; [exact Gb|]. split; [|exact Ne]. exists pol_wrap, (ended content), []. split; [exact Ne|]. split; [unfold ended; destruct (ends_lf content); [exact V|]; apply valid_app; [exact V|exists [[LF]]; split; [repeat constructor|reflexivity]]|].
    split; [cbn [pt_edits]; now rewrite Cb|]. split; [reflexivity|]. split; [exact pol_wrap_ok|exact Logic.I]. }
  change (whole f) with (build_view [VAdd f FWhole]) in E. destruct (C26_text G _ _ _ _ items Sh E) as [B It]. change (view_buffers (build_view [VAdd f FWhole])) with [f] in B. destruct items as [|it [|it2 r]]; try discriminate B. cbn [map] in B. injection B as Bf.
  destruct (It it (or_introl eq_refl)) as (Hd & Fs & Tx). rewrite Bf in *. assert (ViewSpec.shown f (build_view [VAdd f FWhole]) = [FWhole]) as Sf by (unfold ViewSpec.shown; change (build_view [VAdd f FWhole]) with [(f, [mkLens f FWhole])]; cbn [get fst snd]; rewrite eqb_refl; reflexivity). rewrite Sf in *. cbn [heading map focus_text focus_start last] in Hd, Fs, Tx.
  destruct it as [pb ps pe pls]. cbn [pi_buffer pi_start pi_end pi_lenses] in *. destruct pls as [|pl [|pl2 r]]; try discriminate Fs. exists pl. rewrite str_lines_length. injection Hd as -> ->. rewrite Bf. split; [reflexivity|]. cbn [map] in Tx. now injection Tx as ->.
Qed.
Lemma greeted_says out : greeted session out -> latest said_status (addressed out 1) [] = [mkStatus 100 (says (who_where 1 session))] /\ latest said_echo (addressed out 1) None = None.
Proof.
  intros (a & b & -> & Fa & Fb). assert (forall l, Forall quiet_out l -> Forall (fun x => said_status x = None /\ said_echo x = None) (addressed l 1)) as Q.
  { intros l Fl. unfold addressed. apply Forall_map. apply Forall_forall. intros x Hx. apply filter_In in Hx. rewrite Forall_forall in Fl. specialize (Fl x (proj1 Hx)). unfold quiet_out in Fl. destruct (o_what x) as [[ | | ]| | |]; try contradiction; split; reflexivity. }
  assert (forall B (g : enotif -> option B), g (o_what (greeting session)) = g (o_what (greeting session)) -> addressed (a ++ greeting session :: b) 1 = addressed a 1 ++ o_what (greeting session) :: addressed b 1) as Ad.
  { intros B g _. unfold addressed. rewrite filter_app, map_app. reflexivity. }
  rewrite (Ad _ said_status eq_refl), !latest_app. cbn [latest].
  assert (forall l, Forall quiet_out l -> Forall (fun x => said_status x = None) (addressed l 1) /\ Forall (fun x => said_echo x = None) (addressed l 1)) as Q2 by (intros l Fl; split; (eapply Forall_impl; [|exact (Q l Fl)]); intros x Hx; apply Hx).
  rewrite (latest_none said_status (addressed b 1)) by (now apply Q2). rewrite (latest_none said_echo (addressed b 1)) by (now apply Q2). rewrite (latest_none said_echo (addressed a 1)) by (now apply Q2). split; reflexivity.
Qed.
(** Mode term, the scripts of the program, nobody else connects and nobody writes files: when everything was handled, and before
    the user types, the terminal shows the last FILE of the command line, from its first line, as many lines as there is room
    for; the client and the session are on the last row. *)
Theorem C80_last_file : sane sty -> forall size before ms tms p w h, preach size (before ++ [f]) started_in ms tms p ->
  let lines := str_lines (ended content) in
  (* the file *)
  valid content -> printable f -> Forall (fun l => printable l \/ legible l /\ (Z.of_nat (length l) < w)%Z) lines -> printable session ->
  (* the screen *)
  t_size (ts_term (pg_tui L p)) = (w, h) -> (2 <= h < 65536)%Z -> (7 + Z.of_nat (length f + length (dec (length lines))) <= w < 65536)%Z -> (Z.of_nat (length session) + 4 < w)%Z ->
  (* the run *)
  accepted ms <= 1 -> (forall d, ~ In (MEnd d) ms) -> sound ms 1 -> (forall w b, In (MEvent w b) ms -> readable t cwd f content (w_disk w)) ->
  (forall k, ~ In (MvKey k) tms) -> (forall x, ~ In (MvReadError x) tms) -> SystemSpec.fits L (pg_sys L p) -> at_rest L session 1 p ->
  shows_file w h (t_out (ts_term (pg_tui L p))) session f lines.
Proof.
  intros Sane size before ms tms p w h H lines V Pf Pl Ps Sz Hh Hw Hs Ac Me So Mw Mk Mr F (Rq & Ev & Se & Qu). destruct (program_opens _ _ _ _ _ Ps H F Ac Me So Mw Mk Mr) as [O Wf].
  pose proof (opens_talk _ _ Ps O) as Mt. destruct (C79_program G pol u se L sty checked session 1 _ _ _ _ _ _ in_plain H) as (y & t0 & Ry & S1 & S2 & _). pose proof (yreach_inv _ _ _ _ _ _ _ _ _ Ry) as Yi.
  assert (lines_sent ms 1 = map print_request (SystemSpec.made L (pg_sys L p) 1)) as Ls.
  { destruct (yi_read _ _ _ _ _ _ _ _ _ Yi 1) as [_ X]. unfold SystemSpec.made in *. rewrite S2 in X. rewrite X, Rq, firstn_all. reflexivity. }
  destruct (exists_last (l := SystemSpec.made L (pg_sys L p) 1)) as (rs & r & Er). { intro X. rewrite X in Wf. clear - Wf. destruct before; inversion Wf. }
  assert (fulfils r (WEdit f)) as Fr.
  { rewrite Er, map_app in Wf. apply Forall2_app_inv_l in Wf. destruct Wf as (l1 & l2 & _ & W2 & Eq). inversion W2 as [|? z ? ? Fz Wn]; subst. inversion Wn; subst. apply app_inj_tail in Eq. destruct Eq as [_ <-]. exact Fz. }
  assert (asks_for (print_request r) f) as Ar. { apply fulfils_asks; [|exact Fr]. destruct (yi_conn _ _ _ _ _ _ _ _ _ Yi 1) as [_ Cn]. rewrite S2 in Cn. rewrite Forall_forall in Cn. apply Cn. fold (SystemSpec.made L (pg_sys L p) 1). rewrite Er. apply in_or_app. right. now left. }
  rewrite Er, map_app in Ls. cbn [map] in Ls.
  destruct (op_phase _ _ _ _ _ _ _ _ _ O) as [(_ & _ & _ & _ & _ & _ & _ & _ & X)|[(_ & X & _)|(_ & I1 & Gr & _ & Nt & hl & wl & Hl & Wl & Lk)]]; [rewrite X in Ls; symmetry in Ls; apply app_eq_nil in Ls; destruct Ls; discriminate|rewrite Ev in X; discriminate|].
  rewrite Ev in Wl. destruct wl; [|discriminate]. rewrite app_nil_r, Ls in Hl. destruct Lk as [->|(hl' & line & g & -> & Ag & La & Cu & Of)]; [apply app_eq_nil in Hl; destruct Hl; discriminate|]. apply app_inj_tail in Hl. destruct Hl as [_ <-].
  assert (g = f) as -> by (eapply asked_once; eauto). pose proof Cu as (items & _ & Vp). destruct (file_view _ _ V (op_kept _ _ _ _ _ _ _ _ _ O) La (Of eq_refl) Vp) as (pl & -> & Tx). fold lines in Vp, Tx.
  assert (length (who_where 1 session) = length session + 4) as Lw by (unfold who_where; rewrite !app_length; change (length (dec 1)) with 1; cbn; lia).
  destruct (C79_screen G pol u se L sty checked session 1 Sane _ _ _ ms tms p 0 (length (who_where 1 session)) w h [mkPI f 1 (length lines) [pl]] in_plain H F I1 So Se Cu Qu (fun k Hk => match Mk k Hk with end) Mt Sz Hh) as (rows & status & n & On & Rows & Vs); [lia|exact Vp|discriminate| | |].
  - constructor; [|constructor]. split; [exact Pf|]. split.
    + cbn [pi_lenses]. constructor; [|constructor]. apply Forall_forall. intros x Hx. assert (In (map fst x) (map (map fst) (pl_lines pl))) as Hm by (now apply in_map). rewrite Tx in Hm. apply in_map_iff in Hm. destruct Hm as (l & <- & Hin). rewrite Forall_forall in Pl. apply blank_shown. now apply Pl.
    + cbn [pi_buffer pi_start pi_end]. change (length (dec 1)) with 1. lia.
  - intros k Hk. cbn [length] in Hk. assert (k = 0) as -> by lia. cbn. lia.
  - destruct Se as [Tk _]. rewrite Nt, Tk, firstn_all in Vs. destruct (greeted_says _ Gr) as [Gs Ge]. rewrite Gs, Ge in Vs. cbn [map joined plain_text st_text says concat fr_text app] in Vs.
    assert (exists k, Z.to_nat (h - 1) = S k /\ Z.to_nat (h - 2) = k) as (k & K1 & K2) by (exists (Z.to_nat (h - 2)); lia). rewrite K1 in Rows. unfold shown_rows in Rows. cbn [map concat pi_lenses app firstn] in Rows. rewrite !app_nil_r in Rows.
    inversion Rows as [|? tl ? rw Rt Rl]; subst. destruct Rt as [(m & Et) Ct]. exists m, rw, status, n. cbn [pi_buffer pi_start pi_end] in Et.
    assert (tl = title_of f (length lines) m) as -> by (rewrite Et; reflexivity). split; [exact On|]. split; [exact Ct|]. split; [|rewrite Vs; unfold who_where; rewrite app_nil_r; reflexivity].
    clear - Rl Tx. clearbody lines. revert Rl. generalize (Z.to_nat (h - 2)). intros k Rl. revert lines Tx rw k Rl. generalize (pl_lines pl). induction l as [|x xs IH]; intros [|l ls] Tx rw [|k] Rl; cbn [map firstn] in *; try discriminate; inversion Rl; subst; constructor.
    + injection Tx as Hx _. match goal with X : shows_row _ _ _ |- _ => destruct X as (Cl & (q & Vq) & Ex) end. rewrite Hx in *. split; [exact Cl|]. split; [eauto|]. intro Lt. rewrite Ex; [apply firstn_all2; rewrite app_length; cbn; lia|]. right. rewrite <- (map_length fst), Hx, app_length. cbn [length]. lia.
    + injection Tx as _ Tx. eapply IH; eauto.
Qed.
End Program.
Print Assumptions C80_last_file.
