(** C79 for one user with the scripts of the program: the terminal shows the view as it is now, without assuming that the client
    was told of every change. *)
From Coq Require Import String List Arith Lia ZArith Bool.
From Verif Require Import Base ListFacts PieceTable Coords Utf8 Utf8Facts History HistoryFacts Diff Selection Maps StackMap Fmt Buffer View Json Proto ProtoFacts PropProto Core CoreSpec CoreInv FreshSpec Payload Menu Editor EditorSpec EditorFacts Conn PropConn Server ServerSpec ServerFacts PropServer System SystemSpec SystemFacts PropSystem PropShipped PropTyping Tui TuiSpec TuiFacts PropTui PropTuiKeys PropTuiScreen PropTuiFinal Terminal TerminalSpec PropTerminal Shipped SoloSpec PropSolo.
Import ListNotations.

(** a key, of one character, that is not one of the two that run a script (tui.rs:386-391) *)
Definition no_script_key (k : tkey) : Prop := one_code k /\ chord k true "d" = false /\ chord k true "e" = false.

Section Any.
Variable G : Graphemes.
Variable pol : policy.
Variable u : regex_crate.
Variable se : serde.
Variable L : lua.
Variable sty : styles.
Variable checked : bool.
Variable session : text.
Variable c : nat.
Notation pstep := (pstep G pol u se L sty checked session c).
Notation preach := (preach G pol u se L sty checked session c).
Notation started := (started G pol L session).
Notation runs := (Server.runs G pol u se L).

(** the server's part of the program is a run of the server *)
Lemma program_runs size files (new : editor L -> Prop) ms tms p : preach size files new ms tms p -> exists e, new e /\ runs (server_new L e) ms (sy_server L (pg_sys L p)).
Proof.
  intro H. induction H as [e t Ne T|ms tms p l k p' H IH St]; [exists e; split; [exact Ne|constructor]|]. destruct IH as (e & Ne & Rn). exists e. split; [exact Ne|].
  destruct St as [l y' Y C1 C2|m s Hm E|s E|line m s Hl Hm E]; cbn [pg_sys put_conn sy_server]; rewrite ?app_nil_r; try exact Rn.
  destruct Y as [m s N M|k Sh|d line s q Hl M|d o n q N E|d line q Hl]; cbn [sy_server]; rewrite ?app_nil_r; try exact Rn.
  - eapply ru_move; eauto.
  - apply ru_shuffle; auto.
  - eapply ru_move; eauto.
Qed.
Lemma pstep_fits size files (new : editor L -> Prop) ms tms p l k p' : (forall e, new e -> started e) -> preach size files new ms tms p -> pstep p l k p' -> SystemSpec.fits L (pg_sys L p') -> SystemSpec.fits L (pg_sys L p).
Proof.
  intros Nw H St F. destruct (C79_program G pol u se L sty checked session c _ _ _ _ _ _ Nw H) as (y & t0 & R & S1 & S2 & _). assert (same L y (pg_sys L p)) as Sm by (split; auto).
  destruct St as [l y' Y C1 C2|m s Hm E|s E|line m s Hl Hm E]; cbn [pg_sys put_conn] in F; try exact F.
  destruct (ystep_same _ _ _ _ _ _ _ _ _ _ _ Sm Y) as (y1 & Y1 & S3 & _). assert (SystemSpec.fits L y1) as F1 by (unfold SystemSpec.fits; rewrite S3; exact F). pose proof (step_fits _ _ _ _ _ _ _ _ _ _ _ R Y1 F1) as F0. unfold SystemSpec.fits in *. rewrite <- S1. exact F0.
Qed.
(** every line of the server is a message: the terminal meets no error there *)
Lemma no_conn_error size files (new : editor L -> Prop) ms tms p : (forall e, new e -> started e) -> preach size files new ms tms p -> SystemSpec.fits L (pg_sys L p) -> forall x, ~ In (MvConnError x) tms.
Proof.
  intros Nw H. induction H as [e t Ne T|ms tms p l k p' H IH St]; intros F x Hx; [destruct Hx|]. pose proof (pstep_fits _ _ _ _ _ _ _ _ _ Nw H St F) as F0. apply in_app_or in Hx. destruct Hx as [Hx|Hx]; [exact (IH F0 x Hx)|].
  destruct St as [l y' Y C1 C2|m s Hm E|s E|line m s Hl Hm E]; try destruct Hx as [Hx|[]]; [destruct Hx|subst m; exact Hm|discriminate|]. subst m.
  destruct (C79_program G pol u se L sty checked session c _ _ _ _ _ _ Nw H) as (y & t0 & R & S1 & S2 & _). pose proof (yreach_inv _ _ _ _ _ _ _ _ _ R) as I.
  assert (SystemSpec.fits L y) as Fy by (unfold SystemSpec.fits; rewrite S1; exact F0). unfold sy_out in Hl. rewrite <- S1 in Hl. rewrite (lines_to L session _ c (yi_log _ _ _ _ _ _ _ _ _ I) Fy), nth_error_map in Hl.
  destruct (nth_error (written_to session (sv_log L (sy_server L y)) c) (pr_got (sy_peer L (pg_sys L p) c))) as [e|] eqn:Q; [|discriminate]. injection Hl as <-. pose proof (written_wire L session _ c (yi_log _ _ _ _ _ _ _ _ _ I) Fy) as W. rewrite Forall_forall in W. apply nth_error_In in Q. specialize (W _ Q).
  assert (parse_event (print_event e) = Some (PropProto.received e)) as Pe by (destruct e; [now apply C38_notification|now apply response_event]). rewrite Pe in Hm. discriminate.
Qed.
(** with one connection at most, all lines are those of client 1 *)
Lemma only_client e ms s : started e -> runs (server_new L e) ms s ->
  (forall d, In d (sv_readers L s) \/ (exists v, In v (sv_events L s) /\ from v = d) \/ In d (sv_index L s) -> 1 <= d <= accepted ms) /\ forall d line, In (MLine d line) ms -> 1 <= d <= accepted ms.
Proof.
  intros (w0 & cwd & args & st & scripts & E0) Rn. pose proof (sinv_start G pol u se L _ _ _ _ _ _ _ E0) as I0. assert (sv_next L (server_new L e) = 1) as N0 by reflexivity.
  induction Rn as [|ms s1 m s2 Rn IH H|ms s1 k Rn IH H]; [split; [intros d [[]|[(v & [] & _)|[]]]|intros d line []]| |exact IH].
  pose proof (sinv_runs G pol u se L _ _ _ Rn I0) as I1. pose proof (runs_next G pol u se L _ _ _ Rn I0) as N1. rewrite N0 in N1. destruct IH as (A & C).
  assert (accepted ms <= accepted (ms ++ [m])) as Le by (unfold accepted; rewrite filter_app, app_length; lia).
  assert ((forall d, In d (sv_readers L s2) \/ (exists v, In v (sv_events L s2) /\ from v = d) \/ In d (sv_index L s2) -> 1 <= d <= accepted ms \/ (m = MAccept /\ d = sv_next L s1)) /\ forall d line, m = MLine d line -> In d (sv_readers L s1)) as (E & F).
  { remember (Ok s2) as r eqn:Er. destruct H as [Dn|Dn|d line Dn Hc|d Dn Hc|broken x Dn Hx|w broken v rest Dn Ev]; try discriminate.
    - injection Er as <-. cbn [accept sv_next sv_readers sv_events sv_index]. split; [|discriminate]. intros d [Hd|[(v & Hd & <-)|Hd]].
      + apply in_app_or in Hd. destruct Hd as [Hd|[<-|[]]]; auto.
      + apply in_app_or in Hd. destruct Hd as [Hd|[<-|[]]]; [left; apply A; right; left; eauto|right; auto].
      + left. apply A. auto.
    - injection Er as <-. cbn [read_line sv_next sv_readers sv_events sv_index]. split; [|intros d' l X; injection X as <- <-; exact Hc]. intros d' [Hd|[(v & Hd & <-)|Hd]]; [left; apply A; auto| |left; apply A; auto].
      apply in_app_or in Hd. destruct Hd as [Hd|[<-|[]]]; left; apply A; [right; left; eauto|left; exact Hc].
    - injection Er as <-. cbn [read_end sv_next sv_readers sv_events sv_index]. split; [|discriminate]. intros d' [Hd|[(v & Hd & <-)|Hd]]; [apply filter_In in Hd; left; apply A; left; apply Hd| |left; apply A; auto].
      apply in_app_or in Hd. destruct Hd as [Hd|[<-|[]]]; left; apply A; [right; left; eauto|left; exact Hc].
    - injection Er as <-. cbn [deliver sv_next sv_readers sv_events sv_index]. split; [|discriminate]. intros d Hd. left. apply A. exact Hd.
    - split; [|discriminate]. destruct (event_spec G pol u se L _ _ _ _ _ _ I1 Er) as (_ & Ic & _ & E1 & E2 & E3 & _). rewrite E1, E2. intros d [Hd|[(x & Hd & <-)|Hd]]; left; apply A; [auto|right; left; exists x; split; [rewrite Ev; now right|reflexivity]|].
      destruct v as [x|x|x line]; cbn [index_change] in Ic.
      + apply Ic in Hd. destruct Hd as [->|Hd]; [|auto]. right. left. exists (VJoin x). split; [rewrite Ev; now left|reflexivity].
      + destruct Ic as [_ Ic]. apply Ic in Hd. right. right. apply Hd.
      + destruct Ic as [_ Ic]. apply Ic in Hd. right. right. apply Hd. }
  split.
  - intros d Hd. destruct (E d Hd) as [X|[-> ->]]; [lia|]. unfold accepted. rewrite filter_app, app_length. cbn [filter length]. fold (accepted ms). lia.
  - intros d line Hd. apply in_app_or in Hd. destruct Hd as [Hd|[->|[]]]; [specialize (C d line Hd); lia|]. specialize (A d (or_introl (F d line eq_refl))). lia.
Qed.
(** what the terminal asks for *)
Lemma typed_lines size files (new : editor L -> Prop) ms tms p : (forall e, new e -> started e) -> preach size files new ms tms p -> SystemSpec.fits L (pg_sys L p) ->
  (forall e, In (MvMessage e) tms -> says_menu e = None) -> (forall k, In (MvKey k) tms -> no_script_key k) -> (forall x, ~ In (MvReadError x) tms) ->
  forall line, In (MLine c line) ms -> no_script line.
Proof.
  intros Nw H F Me Mk Mr line Hl. pose proof (no_conn_error _ _ _ _ _ _ Nw H F) as Ce. destruct (C79_program G pol u se L sty checked session c _ _ _ _ _ _ Nw H) as (y & t0 & R & S1 & S2 & T & Tr & Co & _). pose proof (yreach_inv _ _ _ _ _ _ _ _ _ R) as I.
  destruct (C65_partial sty checked _ _ _ _ _ T Tr Me (fun k Hk => proj1 (Mk k Hk))) as (sent & waiting & W1 & W2 & _).
  destruct (yi_read _ _ _ _ _ _ _ _ _ I c) as [_ Ls]. assert (In line (lines_sent ms c)) as Hs by (unfold lines_sent; apply in_flat_map; exists (MLine c line); split; [exact Hl|]; rewrite Nat.eqb_refl; now left).
  rewrite Ls in Hs. apply in_map_iff in Hs. destruct Hs as (r & <- & Hr). assert (In r (co_sent (t_conn (ts_term (pg_tui L p))))) as Hr' by (rewrite Co; unfold SystemSpec.made in Hr; rewrite <- (firstn_skipn (pr_read (sy_peer L y c))); apply in_or_app; now left).
  assert (exists w, fulfils r w /\ forall x, w <> WExec x) as (w & Fw & Nx).
  { destruct (In_nth_error _ _ Hr') as (n & Hn). assert (exists w, nth_error (map WEdit files ++ sent) n = Some w /\ fulfils r w) as (w & Hw & Fw).
    { clear - W2 Hn. revert n Hn. induction W2 as [|a b la lb H W IH]; intros [|n] Hn; cbn [nth_error] in *; try discriminate; [injection Hn as <-; eauto|eauto]. }
    exists w. split; [exact Fw|]. intros x ->. apply nth_error_In in Hw. apply in_app_or in Hw. destruct Hw as [Hw|Hw]; [apply in_map_iff in Hw; destruct Hw as (f & X & _); discriminate|].
    assert (In (WExec x) (concat (map move_wishes tms))) as Hw' by (rewrite W1; apply in_or_app; now left). apply in_concat in Hw'. destruct Hw' as (l & Hl1 & Hl2). apply in_map_iff in Hl1. destruct Hl1 as (m & <- & Hm).
    destruct m as [e|k|a b|e|e|]; cbn [move_wishes] in Hl2; try (destruct Hl2; fail); [|exact (Mr _ Hm)|exact (Ce _ Hm)]. destruct (Mk k Hm) as (_ & Kd & Ke). unfold typed in Hl2. rewrite Kd, Ke in Hl2.
    repeat match type of Hl2 with context [if ?b then _ else _] => destruct b | context [match ?b with _ => _ end] => destruct b end; cbn [In] in Hl2; repeat (destruct Hl2 as [Hl2|Hl2]); try discriminate Hl2; exact Hl2. }
  assert (rq_method r <> str "exec" /\ rq_method r <> str "menu-select") as [N1 N2] by (destruct w as [f|k|a b|x]; cbn [fulfils] in Fw; [| | |destruct (Nx x eq_refl)]; destruct Fw as [-> _]; split; discriminate).
  pose proof (yi_conn _ _ _ _ _ _ _ _ _ I c) as Cn. assert (wire_request r) as Wr by (rewrite Co in Hr'; destruct Cn as [_ Cn]; rewrite Forall_forall in Cn; exact (Cn _ Hr')).
  intros q Pq. rewrite (line_parsed _ Wr) in Pq. injection Pq as <-. cbn [arrived rq_method]. split; [exact N1|]. intros a [X _]. cbn [arrived rq_method] in X. contradiction.
Qed.
End Any.

Section User.
Variable G : Graphemes.
Variable pol : policy.
Hypothesis P : policy_wrap pol \/ policy_succ pol.
Variable u : regex_crate.
Variable se : serde.
Variable R : lua_rest.
Notation L := (shipped R).
Hypothesis PO : pairs_ok R.
Variable sty : styles.
Variable checked : bool.
Variable session : text.
Hypothesis PS : plain_session session.
Variable t : nat.
Variable c : nat.

(** Mode term with the scripts of the program, one client, which types no key that runs a script: what the client was shown last is
    what its view shows now, after every event. *)
Theorem C79_informed : forall size files ms tms p a b, Terminal.preach G pol u se L sty checked session c size files (started_plain G pol R session) ms tms p ->
  let y := pg_sys L p in
  SystemSpec.fits L y -> In c (sv_index L (sy_server L y)) -> modest_talk a b (sv_log L (sy_server L y)) c ->
  accepted ms <= 1 -> (forall w b, In (MEvent w b) ms -> undisturbed t (w_disk w)) ->
  (forall k, In (MvKey k) tms -> no_script_key k) -> (forall x, ~ In (MvReadError x) tms) ->
  current G (core_of L y) c.
Proof.
  intros size files ms tms p a b H y F Hc Mt Ac Un Mk Mr. assert (forall e, started_plain G pol R session e -> started G pol L session e) as Nw by (intros e (w & cwd & args & st & path & E); exists w, cwd, args, st, (prelude path); exact E).
  destruct (program_runs _ _ _ _ _ _ _ _ _ _ _ _ _ _ _ H) as (e & Se & Rn). fold y in Rn.
  pose proof (program_modest G pol u se L sty checked session c _ _ _ _ _ _ a b Nw H F Mt) as Me.
  destruct (only_client G pol u se L session e _ _ (Nw e Se) Rn) as (Oi & Oc).
  assert (forall line, In (MLine c line) ms -> no_script line) as Nl by (apply (typed_lines G pol u se L sty checked session c _ _ _ _ _ _ Nw H F (fun e He => proj1 (Me e He)) Mk Mr)).
  assert (c = 1) as C1. { assert (1 <= c <= accepted ms) as X by (apply Oi; auto). lia. }
  apply (C72_one_client G pol P u se R PO session PS t e ms (sy_server L y) Se Rn Ac); [|exact Un|exact Hc]. intros d line Hl. apply Nl. specialize (Oc d line Hl). replace c with d by lia. exact Hl.
Qed.
(** C79 for one user: C79_screen, without its hypothesis that the client was told of every change. *)
Theorem C79_one_user : sane sty -> forall size files ms tms p a b w h items, Terminal.preach G pol u se L sty checked session c size files (started_plain G pol R session) ms tms p ->
  let y := pg_sys L p in let x := ts_term (pg_tui L p) in
  SystemSpec.fits L y -> In c (sv_index L (sy_server L y)) -> sound ms c -> settled L session y c -> accepted ms <= 1 -> (forall w b, In (MEvent w b) ms -> undisturbed t (w_disk w)) ->
  ts_queue (pg_tui L p) = [] -> (forall k, In (MvKey k) tms -> no_script_key k) -> (forall e, ~ In (MvReadError e) tms) -> modest_talk a b (sv_log L (sy_server L y)) c ->
  t_size x = (w, h) -> (2 <= h < 65536)%Z -> (Z.of_nat (a + b) < w)%Z ->
  view_params G (core_of L y) c = Ok items -> items <> [] -> Forall (fits_item w) items ->
  (forall k, k < length items -> (Z.of_nat (length (shown_rows (firstn k items))) <> h - 1)%Z) ->
  exists rows status n, on_screen w h (t_out x) rows status /\ Forall2 (shows_row w) (firstn (Z.to_nat (h - 1)) (shown_rows items)) rows /\
    visible status = plain_text (match latest said_echo (notified (sv_log L (sy_server L y)) c) None with Some e => e | None => [] end) ++ repeat 32 n ++
      joined [194; 183] (map (fun i => plain_text (st_text i)) (latest said_status (notified (sv_log L (sy_server L y)) c) [])).
Proof.
  intros Sane size files ms tms p a b w h items H y x F Hc So St Ac Un Q Mk Mr Mt Sz Hh Ab Vp Ni Fi K. assert (forall e, started_plain G pol R session e -> started G pol L session e) as Nw by (intros e (w' & cwd & args & st & path & E); exists w', cwd, args, st, (prelude path); exact E).
  refine (C79_screen G pol u se L sty checked session c Sane size files _ ms tms p a b w h items Nw H F Hc So St _ Q (fun k Hk => proj1 (Mk k Hk)) Mt Sz Hh Ab Vp Ni Fi K).
  exact (C79_informed size files ms tms p a b H F Hc Mt Ac Un Mk Mr).
Qed.
End User.
Print Assumptions C79_one_user.
