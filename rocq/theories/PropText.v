(** C79 for one user, in terms of the texts of the buffers: what stands on the screen, without a word about notifications. *)
From Coq Require Import String List Arith Lia ZArith Bool.
From Verif Require Import CoreAll Base ListFacts PieceTable PieceTableSpec PieceTableFacts LineSpec LineFacts Coords CoordsFacts CoordsMore Utf8 Utf8Spec Utf8Facts History HistoryFacts Diff Selection Maps StackMap Fmt Buffer View ViewSpec ViewFacts Json Proto ProtoFacts PropProto Core CoreSpec CoreInv CoreOps FreshSpec Payload Menu Editor EditorSpec EditorFacts Conn PropConn Server ServerSpec ServerFacts PropServer System SystemSpec SystemFacts PropSystem PropShipped PropTyping NotifFacts PropNotifUtf8 Tui TuiSpec TuiFacts PropTui PropTuiKeys PropTuiScreen PropTuiFinal Terminal TerminalSpec PropTerminal Shipped SoloSpec PropSolo PropOneUser FileSpec.
Import ListNotations.

(** ** What the screen should show *)
(** a row: the title of a buffer, with the lines shown of it (C26), or one line of its text *)
Inductive trow := RTitle (b : text) (lines : nat * nat) | RLine (l : text).
(** for each buffer of the view, in order: its title; then, for each lens in order, the lines of it *)
Definition text_rows (v : view) (content : text -> text) : list trow :=
  concat (map (fun e => RTitle (fst e) (heading (map l_focus (snd e)) (length (lines_of (content (fst e))))) ::
    map RLine (concat (map (fun x => focus_text (l_focus x) (content (fst e))) (snd e)))) v).
(** a row of a screen of [w] columns: the title is filled with dashes; a line is followed by one blank, and what does not fit is cut off *)
Definition row_is (w : Z) (r : trow) (t : text) : Prop :=
  match r with
  | RTitle b (a, z) => (exists n, t = str "-[" ++ b ++ str "][" ++ dec a ++ [58] ++ dec z ++ str "]" ++ repeat 45 n) /\ Z.of_nat (columns t) = w
  | RLine l => shows_line w l t
  end.
(** printable ASCII and line feeds *)
Definition simple_text (x : text) : Prop := Forall (fun b => b = LF \/ 32 <= b < 127) x.
(** the buffers of the view have these texts *)
Definition has_texts (k : core) (v : view) (content : text -> text) : Prop :=
  forall b, In b (view_buffers v) -> exists u, get (k_buffers k) b = Some u /\ txt (b_content u) = content b /\ simple_text (content b).

(** ** Lemmas *)
Lemma simple_ascii x : simple_text x -> ascii x /\ ~ In 13 x.
Proof.
  intro H. split; [eapply Forall_impl; [|exact H]; cbv beta; unfold LF; lia|]. intro I. unfold simple_text in H. rewrite Forall_forall in H. specialize (H _ I). unfold LF in H. lia.
Qed.
Lemma simple_lines x : simple_text x -> Forall printable (lines_of x).
Proof.
  induction 1 as [|b x Hb H IH]; [constructor|]. cbn [lines_of]. destruct (b =? LF) eqn:Q; [constructor; [constructor|exact IH]|]. apply Nat.eqb_neq in Q. destruct Hb as [Hb|Hb]; [contradiction|].
  destruct (lines_of x) as [|l ls]; [constructor; [constructor; [exact Hb|constructor]|constructor]|]. inversion IH; subst. constructor; [constructor; assumption|assumption].
Qed.
Lemma focus_printable f x : simple_text x -> Forall printable (focus_text f x).
Proof.
  intro H. pose proof (simple_lines x H) as Pl. rewrite <- str_lines_nocr in Pl by (now apply simple_ascii). destruct f as [a e|]; cbn [focus_text]; [|exact Pl]. apply Forall_forall. intros l Hl. apply slice_In in Hl. rewrite Forall_forall in Pl. now apply Pl.
Qed.
(** a row of the notification and a row of text *)
Definition same_row (p : prow) (r : trow) : Prop :=
  match p, r with
  | PTitle i, RTitle b ab => b = pi_buffer i /\ ab = (pi_start i, pi_end i)
  | PLine l, RLine x => map fst l = x ++ [32]
  | _, _ => False
  end.
Lemma same_row_is w p r t : same_row p r -> shows_row w p t -> row_is w r t.
Proof.
  destruct p as [i|l], r as [b ab|x]; cbn [same_row shows_row row_is]; try contradiction.
  - intros [-> ->] H. exact H.
  - intros E (C & (n & V) & X). rewrite E in *. split; [exact C|]. split; [eauto|]. intro Lt. rewrite X; [apply firstn_all2; rewrite app_length; cbn [length]; lia|].
    right. rewrite <- (map_length fst), E, app_length. cbn [length]. lia.
Qed.
Lemma lens_rows pls content b g : map lens_text pls = snd (group_text content (b, g)) ->
  Forall2 same_row (map PLine (concat (map pl_lines pls))) (map RLine (concat (map (fun x => focus_text (l_focus x) (content b)) g))).
Proof.
  revert pls. induction g as [|x g IH]; intros [|pl pls] E; cbn [group_text snd fst map] in *; try discriminate; [constructor|]. unfold lens_text at 1 in E. injection E as _ E1 E2.
  cbn [concat]. rewrite !map_app. apply Forall2_app; [|now apply IH]. clear - E1. revert E1. generalize (focus_text (l_focus x) (content b)). induction (pl_lines pl) as [|l ls IH]; intros [|y ys] E; cbn [map] in *; try discriminate; constructor.
  - cbn [same_row]. now injection E.
  - apply IH. now injection E.
Qed.
Lemma item_rows content items v : Forall2 (item_shows content) items v -> Forall2 same_row (shown_rows items) (text_rows v content).
Proof.
  unfold shown_rows, text_rows. induction 1 as [|i [b g] items v [I Hd] F IH]; [constructor|]. cbn [map concat]. apply Forall2_app; [|exact IH]. unfold item_text, group_text in I. cbn [fst snd] in *. injection I as I1 I2. constructor.
  - cbn [same_row]. split; congruence.
  - eapply lens_rows. exact I2.
Qed.
Lemma Forall2_take {A B} (Q : A -> B -> Prop) n : forall l m, Forall2 Q l m -> Forall2 Q (firstn n l) (firstn n m).
Proof. induction n as [|n IH]; intros l m F; [constructor|]. destruct F; cbn [firstn]; constructor; auto. Qed.
Lemma Forall2_size {A B} (Q : A -> B -> Prop) l m : Forall2 Q l m -> length l = length m.
Proof. induction 1; cbn [length]; congruence. Qed.
Lemma rows_through w ps rs : Forall2 same_row ps rs -> forall ts, Forall2 (shows_row w) ps ts -> Forall2 (row_is w) rs ts.
Proof. induction 1 as [|p r ps rs H F IH]; intros ts X; inversion X; subst; constructor; [eapply same_row_is; eauto|auto]. Qed.
Lemma items_fit w content items v : Forall2 (item_shows content) items v -> Forall (fun e => printable (fst e) /\ simple_text (content (fst e)) /\
    let h := heading (map l_focus (snd e)) (length (lines_of (content (fst e)))) in (6 + Z.of_nat (length (fst e) + length (dec (fst h)) + length (dec (snd h))) <= w < 65536)%Z) v ->
  Forall (fits_item w) items.
Proof.
  induction 1 as [|i [b g] items v [I Hd] F IH]; intro W; [constructor|]. inversion W as [|? ? (Pb & Sb & Wb) Wr]; subst. constructor; [|now apply IH]. unfold item_text, group_text in I. cbn [fst snd] in *. injection I as I1 I2. rewrite <- Hd in Wb. cbn [fst snd] in Wb. split; [rewrite I1; exact Pb|]. split; [|rewrite I1; exact Wb].
  clear - I2 Sb. revert I2. generalize (pi_lenses i). induction g as [|x g IH]; intros [|pl pls] E; cbn [map] in *; try discriminate; constructor.
  - unfold lens_text in E at 1. injection E as _ E1 _. apply Forall_forall. intros l Hl. assert (In (map fst l) (map (map fst) (pl_lines pl))) as Hm by (now apply in_map). rewrite E1 in Hm. apply in_map_iff in Hm. destruct Hm as (y & <- & Hy).
    pose proof (focus_printable (l_focus x) _ Sb) as Pl. rewrite Forall_forall in Pl. left. apply Forall_app. split; [now apply Pl|repeat constructor; lia].
  - apply IH. now injection E.
Qed.

Section User.
Variable G : Graphemes.
Variable pol : policy.
Hypothesis P : policy_wrap pol \/ policy_succ pol.
Variable u : regex_crate.
Variable se : serde.
Variable R : lua_rest.
Notation L := (shipped R).
Hypothesis PO : pairs_ok R.
Variable sty : styles.
Variable checked : bool.
Variable session : text.
Hypothesis PS : plain_session session.
Variable t : nat.
Variable c : nat.

(** C79 for one user: from the top, the rows of the texts of the buffers it looks at, as many as there is room for. *)
Theorem C79_text : sane sty -> forall size files ms tms p a b w h v content, Terminal.preach G pol u se L sty checked session c size files (started_plain G pol R session) ms tms p ->
  let y := pg_sys L p in let x := ts_term (pg_tui L p) in
  (* what the user looks at *)
  looks_at (core_of L y) c v -> v <> [] -> has_texts (core_of L y) v content -> Forall printable (view_buffers v) ->
  (* the screen *)
  t_size x = (w, h) -> (2 <= h < 65536)%Z -> (Z.of_nat (a + b) < w < 65536)%Z ->
  Forall (fun e => let n := heading (map l_focus (snd e)) (length (lines_of (content (fst e)))) in (6 + Z.of_nat (length (fst e) + length (dec (fst n)) + length (dec (snd n))) <= w)%Z) v ->
  (forall k, k < length v -> (Z.of_nat (length (text_rows (firstn k v) content)) <> h - 1)%Z) ->
  (* the run *)
  SystemSpec.fits L y -> In c (sv_index L (sy_server L y)) -> sound ms c -> settled L session y c -> accepted ms <= 1 -> (forall w b, In (MEvent w b) ms -> undisturbed t (w_disk w)) ->
  ts_queue (pg_tui L p) = [] -> (forall k, In (MvKey k) tms -> no_script_key k) -> (forall e, ~ In (MvReadError e) tms) -> modest_talk a b (sv_log L (sy_server L y)) c ->
  exists rows status, on_screen w h (t_out x) rows status /\ Forall2 (row_is w) (firstn (Z.to_nat (h - 1)) (text_rows v content)) rows.
Proof.
  intros Sane size files ms tms p a b w h v content H y x La Nv Ht Pn Sz Hh Ab Wt K F Hc So St Ac Un Q Mk Mr Mt.
  assert (forall e, started_plain G pol R session e -> started G pol L session e) as Nw by (intros e (w' & cwd & args & st & path & E); exists w', cwd, args, st, (prelude path); exact E).
  destruct (program_runs _ _ _ _ _ _ _ _ _ _ _ _ _ _ _ H) as (e & Se & Rn). fold y in Rn.
  pose proof (program_modest G pol u se L sty checked session c _ _ _ _ _ _ a b Nw H F Mt) as Me.
  destruct (only_client G pol u se L session e _ _ (Nw e Se) Rn) as (Oi & Oc).
  assert (forall line, In (MLine c line) ms -> no_script line) as Nl by (apply (typed_lines G pol u se L sty checked session c _ _ _ _ _ _ Nw H F (fun e He => proj1 (Me e He)) Mk Mr)).
  assert (c = 1) as C1. { assert (1 <= c <= accepted ms) as X by (apply Oi; auto). lia. }
  assert (forall d line, In (MLine d line) ms -> no_script line) as Nl'. { intros d line Hl. apply Nl. specialize (Oc d line Hl). replace c with d by lia. exact Hl. }
  destruct (solo_runs G pol P u se R PO session PS t e ms (sy_server L y) Se Rn Ac Nl' Un) as (I & S & _).
  assert (current G (core_of L y) c) as (items & _ & Vp).
  { destruct (C72_one_client G pol P u se R PO session PS t e ms (sy_server L y) Se Rn Ac Nl' Un c Hc) as [_ Cu]. exact Cu. }
  assert (holds v (k_buffers (core_of L y)) content) as Ho.
  { intros n Hn. destruct (Ht n Hn) as (z & Gz & Tz & Sz'). exists z. split; [exact Gz|]. pose proof (every_get (healthy t) _ _ _ (so_well _ _ _ _ _ S) Gz) as (A & N & _). rewrite <- Tz in *. split; [|exact N]. split; [exact A|]. split; [reflexivity|]. apply string_ok; [exact A|now apply simple_ascii]. }
  pose proof (ereach_inv _ _ _ _ _ _ (si_ed _ _ _ _ _ _ I)) as Ei. pose proof (reach_inv _ _ _ (ei_core _ _ _ _ Ei)) as Ci.
  destruct La as (ctx & Gc & Vc). destruct (i_cl _ (i_0 _ Ci) _ _ Gc) as [[Sv Wv] _]. rewrite Vc in *.
  pose proof Vp as Vp'. unfold view_params, the_client in Vp. rewrite Gc in Vp. cbn [unwrap bind] in Vp. rewrite Vc in Vp.
  assert (Forall2 (item_shows content) items v) as Fi.
  { eapply notif_text; [|exact Ho|exact Vp]. eapply Forall_impl; [|exact Wv]. cbv beta. intros n Hn. split; apply Hn. }
  pose proof (item_rows _ _ _ Fi) as Fr.
  destruct (C79_one_user G pol P u se R PO sty checked session PS t c Sane size files ms tms p a b w h items H F Hc So St Ac Un Q Mk Mr Mt Sz Hh) as (rows & status & n & On & Rows & _); [lia|exact Vp'| | | |].
  - intros ->. inversion Fi; subst. now apply Nv.
  - eapply items_fit; [exact Fi|]. apply Forall_forall. intros g Hg. rewrite Forall_forall in Wt, Pn. assert (In (fst g) (view_buffers v)) as Hb by (now apply in_map). destruct (Ht _ Hb) as (z & _ & _ & Sg). split; [now apply Pn|]. split; [exact Sg|]. cbv zeta. split; [now apply Wt|lia].
  - intros k Hk. rewrite (Forall2_size _ _ _ Fi) in Hk. specialize (K k Hk). rewrite (Forall2_size _ _ _ (item_rows _ _ _ (Forall2_take _ k _ _ Fi))). exact K.
  - exists rows, status. split; [exact On|]. eapply rows_through; [|exact Rows]. now apply Forall2_take.
Qed.
End User.
Print Assumptions C79_text.
