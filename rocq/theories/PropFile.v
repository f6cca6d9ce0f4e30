(** C80: [ced FILE...] shows the last FILE.  The server's side: what it tells its only client, which asks for files. *)
From Coq Require Import String List Arith Lia ZArith Bool Permutation.
From Verif Require Import Base ListFacts PieceTable PieceTableSpec PieceTableFacts Coords Utf8 Utf8Facts HistoryFacts History Diff Selection Maps StackMap Fmt Buffer View ViewSpec ViewFacts Json Proto Keys Core CoreSpec CoreInv CoreOps CoreAll FreshSpec PropFresh PropCore Payload Menu MenuSpec Editor EditorSpec EditorFacts PropEditor EditorTame ServerFacts Shipped PropShipped PropConn PropStandalone Server ServerSpec PropServer System SystemSpec Tui Terminal SoloSpec PropSolo PropOneUser FileSpec.
Import ListNotations.

(** ** what a core says *)
(** views, and the client's name *)
Definition plain_news (x : sent) : Prop := match m_what x with NView _ | NInfo _ _ => True | _ => False end.
Definition speaks (k k' : core) : Prop := exists l, k_sent k' = k_sent k ++ l /\ Forall plain_news l.
Lemma speaks_same k k' : k_sent k' = k_sent k -> speaks k k'.
Proof. intro E. exists []. rewrite E, app_nil_r. split; [reflexivity|constructor]. Qed.
Lemma speaks_trans k1 k2 k3 : speaks k1 k2 -> speaks k2 k3 -> speaks k1 k3.
Proof. intros (l & E & F) (m & E' & F'). exists (l ++ m). rewrite E', E, app_assoc. split; [reflexivity|apply Forall_app; auto]. Qed.
Lemma speaks_emit k l : Forall plain_news l -> speaks k (emit k l).
Proof. intro F. exists l. split; [reflexivity|exact F]. Qed.
Lemma speaks_notify G ids k k' : notify_view_update G ids k = Ok k' -> speaks k k'.
Proof. intro E. apply notify_frame in E. destruct E as (ps & _ & -> & _). apply speaks_emit. apply Forall_forall. intros x Hx. apply in_map_iff in Hx. destruct Hx as (e & <- & _). exact Logic.I. Qed.
Lemma speaks_append G n x k k' : append_to G n x k = Ok k' -> speaks k k'.
Proof.
  unfold append_to. intro E. bnd E. apply (speaks_trans _ v); [|now apply speaks_notify in E]. apply speaks_same. destruct (negb _); [injection E0 as <-; reflexivity|]. bnd E0. bnd E0. injection E0 as <-. reflexivity.
Qed.
Lemma speaks_debug G x k k' : debug G x k = Ok k' -> speaks k k'.
Proof. apply speaks_append. Qed.
Lemma speaks_view G id v k e k' : view_cmd G id v k = Ok (e, k') -> speaks k k'.
Proof.
  unfold view_cmd. intro E. destruct (view_exists k v).
  - bnd E. bnd E. bnd E. injection E as _ <-. apply speaks_notify in E2. eapply speaks_trans; [|exact E2]. now apply speaks_same.
  - destruct (buffer_exists k v); [|injection E as _ <-; now apply speaks_same]. bnd E. bnd E. injection E as _ <-. apply speaks_notify in E1. eapply speaks_trans; [|exact E1]. now apply speaks_same.
Qed.
Lemma speaks_edit G pol d id name scratch k k' : edit_cmd G pol d id name scratch k = Ok k' -> speaks k k'.
Proof.
  unfold edit_cmd. intro E. bnd E. destruct v as [notify k1]. assert (speaks k k1) as S1.
  { destruct scratch; [injection E0 as _ <-; destruct (buffer_exists k name); now apply speaks_same|]. destruct (buffer_exists k name).
    - bnd E0. bnd E0. destruct v0 as [rl b]. bnd E0. injection E0 as _ <-. destruct rl; [apply speaks_debug in E3; eapply speaks_trans; [|exact E3]|injection E3 as <-]; now apply speaks_same.
    - bnd E0. injection E0 as _ <-. unfold open_file in E1. bnd E1. injection E1 as <-. now apply speaks_same. }
  clear E0. bnd E. apply add_view_eq in E0. assert (speaks k1 v) as S2 by (subst v; now apply speaks_same). bnd E. destruct v0 as [e k3]. destruct e; [discriminate|]. apply speaks_view in E1. bnd E. apply speaks_debug in E2.
  assert (speaks v0 k') as S5 by (destruct notify; [now apply speaks_notify in E|injection E as <-; now apply speaks_same]).
  eapply speaks_trans; [exact S1|]. eapply speaks_trans; [exact S2|]. eapply speaks_trans; [exact E1|]. eapply speaks_trans; [exact E2|exact S5].
Qed.
Lemma speaks_join G id k k' : add_client G id k = Ok k' -> speaks k k'.
Proof. unfold add_client. intro E. bnd E. bnd E. destruct v0 as [o m]. bnd E. injection E as <-. apply speaks_debug in E2. eapply speaks_trans; [|eapply speaks_trans; [exact E2|apply speaks_emit]]; [now apply speaks_same|]. constructor; [exact Logic.I|constructor]. Qed.
Lemma news_speaks k k' : speaks k k' -> Forall (fun x => match o_what x with OCore (NView _) | OCore (NInfo _ _) => True | _ => False end) (core_news k k').
Proof.
  intros (l & E & F). unfold core_news. rewrite E, skipn_app, skipn_all, Nat.sub_diag. cbn [app skipn]. apply Forall_map. eapply Forall_impl; [|exact F]. intros x Hx. unfold plain_news in Hx. cbn [o_what]. exact Hx.
Qed.

(** ** the core: a file that was opened once, as it was then *)
Section File.
Variable G : Graphemes.
Variable pol : policy.
Variable t : nat.
Variable cwd f content : text.
Hypothesis Nd : f <> b_debug.
Notation readable := (FileSpec.readable t cwd f content).
Definition as_read (b : buffer) : Prop := b_source b = SFile (path_join cwd f) /\ b_content b = pt_with_text (ended content) /\ exists dt, b_sync b = Some dt /\ t <= dt.
Definition kept_file (k : core) : Prop := k_cwd k = cwd /\ forall b, get (k_buffers k) f = Some b -> as_read b.
Lemma reads_file d b : readable d -> new_file d (path_join cwd f) = Ok b -> as_read b.
Proof. intros [[Hn _] Rd] E. unfold new_file in E. rewrite Rd in E. cbn [unwrap bind] in E. injection E as <-. split; [reflexivity|]. split; [reflexivity|]. exists (dk_now d). split; [reflexivity|exact Hn]. Qed.
Lemma keeps_file d b r b' : readable d -> as_read b -> load_from_disk pol d b = Ok (r, b') -> b' = b.
Proof.
  intros [[_ U] _] (S & _ & dt & Sy & Le) E. unfold load_from_disk in E. rewrite S in E. destruct (is_synced d b) eqn:Y; [now injection E as _ <-|]. exfalso. unfold is_synced in Y. rewrite S, Sy in Y.
  destruct (dk_read d (path_join cwd f)) as [x|] eqn:Rd; [|discriminate]. destruct (U (path_join cwd f)) as (m & M & Lt); [congruence|]. rewrite M in Y. apply Nat.ltb_ge in Y. lia.
Qed.
Lemma kept_edit d id name k k' : readable d -> kept_file k -> edit_cmd G pol d id name false k = Ok k' -> kept_file k' /\ (name = f -> exists b, get (k_buffers k') f = Some b).
Proof.
  intros Rd [W H] E. apply edit_spec in E. cbv zeta in E. destruct E as (c & _ & Ew & _ & _ & Eb & Eo & En & _). split; [split; [now rewrite Ew|]|].
  - intros b Hb. destruct (list_eq_dec Nat.eq_dec name f) as [->|Nn]; [|apply H; rewrite <- (Eb f) by congruence; exact Hb]. destruct (En Nd) as (b1 & Gb & Ed). rewrite Gb in Hb. injection Hb as <-. unfold edit_buffer in Ed. destruct (get (k_buffers k) f) as [b0|] eqn:Q.
    + destruct Ed as (r & Ed). rewrite (keeps_file _ _ _ _ Rd (H b0 eq_refl) Ed). now apply H.
    + rewrite W in Ed. exact (reads_file _ _ Rd Ed).
  - intros ->. destruct (En Nd) as (b1 & Gb & _). eauto.
Qed.
Lemma kept_appended x k k' : appended b_debug x k k' -> kept_file k -> kept_file k'.
Proof. intros (A & _ & _ & b & B & _) [W H]. split; [now rewrite A|]. intros b0. rewrite B, get_set_other by congruence. apply H. Qed.
Lemma kept_join id k k' : add_client G id k = Ok k' -> kept_file k -> kept_file k'.
Proof. unfold add_client. intro E. bnd E. bnd E. destruct v0 as [o m]. bnd E. injection E as <-. apply debug_frame in E2. intro K. exact (kept_appended _ _ _ E2 K). Qed.
Lemma kept_shuffle k k' : inv k -> shuffle k k' -> kept_file k -> kept_file k'.
Proof. intros I (A & _ & B & _) [W H]. split; [congruence|]. intros b. rewrite <- (get_perm _ _ f (i_ub _ (i_0 _ I)) B). apply H. Qed.
Lemma debug_quiet x k k' : debug G x k = Ok k' -> cmap k = [] -> k_sent k' = k_sent k.
Proof. unfold debug. intros E C. apply append_quiet in E; [exact E|rewrite C; discriminate|rewrite C; constructor]. Qed.
Lemma kept_init args k : f <> b_scratch -> editor_init G cwd args = Ok k -> kept_file k /\ k_sent k = [].
Proof.
  intros Ns E. unfold editor_init in E. bnd E. bnd E. pose proof (debug_frame _ _ _ _ E0) as F1. pose proof (debug_frame _ _ _ _ E1) as F2.
  assert (kept_file (core_new cwd)) as K0 by (split; [reflexivity|discriminate]). pose proof (kept_appended _ _ _ F2 (kept_appended _ _ _ F1 K0)) as [W H].
  assert (k_sent v = []) as S1 by (apply (debug_quiet _ _ _ E0); reflexivity).
  assert (cmap v = []) as C1 by (destruct F1 as (_ & C & _); unfold cmap; rewrite C; reflexivity).
  assert (k_sent v0 = []) as S2 by (rewrite <- S1; apply (debug_quiet _ _ _ E1 C1)).
  apply add_view_eq in E. subst k. split; [split; [exact W|]|exact S2]. cbn [set_cmap set_clients set_views open_scratch set_buffers k_buffers]. intros b. rewrite get_set_other by congruence. apply H.
Qed.
Lemma kept_debug d x k r k' : k_clients k = sm_new -> run_call G pol d (CDebug x) k = Ok (r, k') -> kept_file k -> kept_file k' /\ k_sent k' = k_sent k.
Proof.
  intros C E K. cbn [run_call] in E. bnd E. injection E as _ <-. split; [eapply kept_appended; [exact (debug_frame _ _ _ _ E0)|exact K]|]. apply (debug_quiet _ _ _ E0). unfold cmap. now rewrite C.
Qed.
End File.

(** ** the server *)
Section Server.
Variable G : Graphemes.
Variable pol : policy.
Variable u : regex_crate.
Variable se : serde.
Variable R : lua_rest.
Notation L := (shipped R).
Notation smoves := (smoves G pol u se L).
Notation runs := (Server.runs G pol u se L).
Notation sinv := (sinv G pol u se L).
Hypothesis PO : pairs_ok R.
Variable session : text.
Hypothesis PS : plain_session session.
Variable t : nat.
Variable cwd f content : text.
Hypothesis Nd : f <> b_debug.
Hypothesis Ns : f <> b_scratch.
Notation core_of s := (ed_core L (sv_editor L s)).
Notation kept_file := (kept_file t cwd f content).
Notation readable := (FileSpec.readable t cwd f content).

Definition asks_for (line g : text) : Prop := exists q, parse_request line = Some q /\ asks dec_edit (str "edit") (mkEdit g false) q.
Definition greeting : esent := mkES (Some [1]) (OStatus [mkStatus 100 (says (who_where 1 session))]).
Definition quiet_out (x : esent) : Prop := match o_what x with OCore (NView _) | OCore (NInfo _ _) => True | _ => False end.
Definition greeted (out : list esent) : Prop := exists a b, out = a ++ greeting :: b /\ Forall quiet_out a /\ Forall quiet_out b.
Definition looking (k : core) (hl : list text) : Prop :=
  hl = [] \/ exists hl' line g, hl = hl' ++ [line] /\ asks_for line g /\ looks_at k 1 (whole g) /\ current G k 1 /\ (g = f -> exists b, get (k_buffers k) f = Some b).
Record opens (ms : list smove) (s : server L) : Prop := {
  op_kept : kept_file (core_of s);
  op_asks : forall line, In line (lines_sent ms 1) -> exists g, asks_for line g;
  op_session : ed_session L (sv_editor L s) = session;
  op_phase :
    (sv_next L s = 1 /\ sv_events L s = [] /\ sv_readers L s = [] /\ sv_index L s = [] /\ unvisited (core_of s) /\ ed_out L (sv_editor L s) = [] /\ sv_log L s = [] /\ sv_taken L s = 0 /\ lines_sent ms 1 = []) \/
    (sv_next L s = 2 /\ sv_events L s = VJoin 1 :: map (VMessage 1) (lines_sent ms 1) /\ sv_index L s = [] /\ unvisited (core_of s) /\ ed_out L (sv_editor L s) = [] /\ sv_log L s = [] /\ sv_taken L s = 0) \/
    (sv_next L s = 2 /\ In 1 (sv_index L s) /\ greeted (ed_out L (sv_editor L s)) /\ sv_taken L s <= length (ed_out L (sv_editor L s)) /\ notified (sv_log L s) 1 = addressed (firstn (sv_taken L s) (ed_out L (sv_editor L s))) 1 /\
      exists hl wl, lines_sent ms 1 = hl ++ wl /\ sv_events L s = map (VMessage 1) wl /\ looking (core_of s) hl) }.

Lemma sent_app ms m : lines_sent (ms ++ [m]) 1 = lines_sent ms 1 ++ match m with MLine d x => if d =? 1 then [x] else [] | _ => [] end.
Proof. unfold lines_sent. rewrite flat_map_app. cbn [flat_map]. now rewrite app_nil_r. Qed.
Lemma opens_same ms m s : (forall d x, m <> MLine d x) -> opens ms s -> opens (ms ++ [m]) s.
Proof.
  intros H [A Q B C]. assert (lines_sent (ms ++ [m]) 1 = lines_sent ms 1) as E by (rewrite sent_app; destruct m; try apply app_nil_r; destruct (H c line eq_refl)). split; rewrite ?E; auto.
Qed.
Lemma opens_start w args st path e : editor_new G pol L w session cwd args st (prelude path) = Ok e -> opens [] (server_new L e).
Proof.
  intro E. unfold editor_new in E. bnd E. bnd E. destruct v0 as [x e1]. unfold prelude in E1. cbn [run_script lua_call] in E1. bnd E1. destruct v0 as [r1 e2]. bnd E1. destruct v0 as [r2 e3]. injection E1 as <- <-. injection E as <-.
  unfold on_core in E2, E3. cbn [ed_core] in E2. bnd E2. destruct v0 as [q1 k1]. injection E2 as _ <-. cbn [set_core ed_core] in E3. bnd E3. destruct v0 as [q2 k2]. injection E3 as _ <-.
  pose proof (unvisited_init G _ _ _ E0) as U0. pose proof (unvisited_debug _ _ _ _ _ _ _ U0 E) as U1. pose proof (unvisited_debug _ _ _ _ _ _ _ U1 E1) as U2.
  destruct (kept_init G t cwd f content Nd _ _ Ns E0) as [K0 S0]. destruct (kept_debug G pol t cwd f content Nd _ _ _ _ _ (proj1 U0) E K0) as [K1 S1]. destruct (kept_debug G pol t cwd f content Nd _ _ _ _ _ (proj1 U1) E1 K1) as [K2 S2].
  split; cbn [server_new sv_editor sv_index sv_events sv_readers sv_next sv_log sv_taken set_lua set_core ed_core ed_session ed_out]; [exact K2|intros line []|reflexivity|]. left. repeat (split; [reflexivity|]). split; [exact U2|]. split; [|repeat (split; [reflexivity|]); reflexivity]. rewrite S2, S1, S0. reflexivity.
Qed.
Lemma opens_shuffle ms s k : sinv s -> opens ms s -> shuffle (core_of s) k -> opens ms (with_editor L s (set_core L (sv_editor L s) k)).
Proof.
  intros I [A Qa B C] H. pose proof (ereach_inv _ _ _ _ _ _ (si_ed _ _ _ _ _ _ I)) as Ei. pose proof (reach_inv _ _ _ (ei_core _ _ _ _ Ei)) as Ki.
  assert (ed_out L (set_core L (sv_editor L s) k) = ed_out L (sv_editor L s)) as Eo by (cbn [set_core ed_out]; destruct H as (_ & Hs & _); rewrite Hs, skipn_all; apply app_nil_r).
  split; [exact (kept_shuffle _ _ _ _ _ _ Ki H A)|exact Qa|exact B|]. cbn [with_editor sv_editor sv_index sv_events sv_readers sv_next sv_log sv_taken]. rewrite Eo. change (ed_core L (set_core L (sv_editor L s) k)) with k.
  destruct C as [(P1 & P2 & P3 & P4 & P5 & P6)|[(P1 & P2 & P3 & P4 & P5)|(P1 & P2 & P3 & P4 & P5 & hl & wl & P6 & P7 & P8)]].
  - left. repeat (split; [assumption|]). split; [eapply unvisited_shuffle; eauto|exact P6].
  - right. left. repeat (split; [assumption|]). split; [eapply unvisited_shuffle; eauto|exact P5].
  - right. right. repeat (split; [assumption|]). exists hl, wl. split; [exact P6|]. split; [exact P7|]. destruct P8 as [P8|(hl' & line & g & Q1 & Q2 & Q3 & Q4 & Q5)]; [now left|]. right. exists hl', line, g. split; [exact Q1|]. split; [exact Q2|].
    assert (connected (core_of s) 1) as Cn by (apply (si_reg _ _ _ _ _ _ I); exact P2). split; [|split; [eapply C72_order; [apply Ei|exact Cn|exact H|exact Q4]|]].
    + destruct (shuffle_look 1 _ _ H Ki Cn) as (x & y & X & Y & _ & V & _). destruct Q3 as (c & Gc & Vc). rewrite X in Gc. injection Gc as <-. exists y. split; [exact Y|congruence].
    + intro Hg. destruct (Q5 Hg) as (b & Gb). destruct H as (_ & _ & Hb & _). exists b. now rewrite <- (get_perm _ _ f (i_ub _ (i_0 _ Ki)) Hb).
Qed.
Lemma opens_move e ms s m s' : started_plain G pol R session e -> runs (server_new L e) ms s -> opens ms s -> smoves s m (Ok s') ->
  (m = MAccept -> sv_next L s = 1) -> (forall d line, m = MLine d line -> d = 1 /\ exists g, asks_for line g) -> (forall d, m <> MEnd d) ->
  (forall b, m = MDeliver b -> b 1 = false) -> (forall w b, m = MEvent w b -> readable (w_disk w)) -> opens (ms ++ [m]) s'.
Proof.
  intros Se Rn O H Ma Ml Me Md Mw. destruct (started_new G pol R session e Se) as (w0 & cwd0 & args & st & scripts & E0). pose proof (sinv_runs G pol u se L _ _ _ Rn (sinv_start G pol u se L _ _ _ _ _ _ _ E0)) as I.
  assert (sreach G pol u se L ms s) as Sr by (exists w0, session, cwd0, args, st, scripts, e; split; assumption). pose proof (ereach_inv _ _ _ _ _ _ (si_ed _ _ _ _ _ _ I)) as Ei. pose proof (reach_inv _ _ _ (ei_core _ _ _ _ Ei)) as Ki.
  pose proof (sinv_move G pol u se L _ _ _ I H) as I2. pose proof (C44_each G pol u se L _ _ _ _ Sr H 1) as C44.
  remember (Ok s') as r eqn:Er. pose proof H as H0. destruct H as [Dn|Dn|c line Dn Hc|c Dn Hc|broken x Dn Hx|w broken v rest Dn Ev]; try discriminate.
  - injection Er as <-. specialize (Ma eq_refl). apply opens_same; [discriminate|]. destruct O as [A Qa B C]. split; [exact A|exact Qa|exact B|]. destruct C as [(P1 & P2 & P3 & P4 & P5 & P6 & P7 & P8 & P9)|[(P1 & _)|(P1 & _)]]; [|congruence..]. right. left. cbn [accept sv_editor sv_index sv_events sv_readers sv_next sv_log sv_taken]. rewrite Ma, P2, P9. auto 10.
  - injection Er as <-. destruct (Ml c line eq_refl) as [-> (g & Ag)]. destruct O as [A Qa B C]. split; [exact A|rewrite sent_app; cbn [Nat.eqb]; intros x X; apply in_app_or in X; destruct X as [X|[<-|[]]]; [exact (Qa x X)|exists g; exact Ag]|exact B|]. cbn [read_line sv_editor sv_index sv_events sv_readers sv_next sv_log sv_taken]. rewrite sent_app. cbn [Nat.eqb].
    destruct C as [(P1 & P2 & P3 & _)|[(P1 & P2 & P3 & P4 & P5)|(P1 & P2 & P3 & P4 & P5 & hl & wl & P6 & P7 & P8)]]; [rewrite P3 in Hc; destruct Hc| |].
    + right. left. split; [exact P1|]. split; [rewrite P2, map_app; reflexivity|auto].
    + right. right. repeat (split; [assumption|]). exists hl, (wl ++ [line]). split; [now rewrite P6, app_assoc|]. split; [rewrite P7, map_app; reflexivity|exact P8].
  - destruct (Me c eq_refl).
  - apply opens_same; [discriminate|]. destruct C44 as [_ C1]. destruct (C1 broken eq_refl) as (y & Ny & Tk & Cn & _). clear C1. injection Er as <-. destruct O as [A Qa B C]. split; [exact A|exact Qa|exact B|]. cbn [deliver sv_editor sv_index sv_events sv_readers sv_next sv_taken] in *.
    destruct C as [(P1 & P2 & P3 & P4 & P5 & P6 & _)|[(P1 & P2 & P3 & P4 & P5 & _)|(P1 & P2 & P3 & P4 & P5 & P6)]]; [rewrite P6 in Hx; destruct (sv_taken L s); discriminate|rewrite P5 in Hx; destruct (sv_taken L s); discriminate|].
    right. right. split; [exact P1|]. split; [exact P2|]. split; [exact P3|]. split; [apply nth_error_Some; congruence|]. split; [|exact P6].
    rewrite (Cn P2 (Md broken eq_refl)), P5. unfold addressed. rewrite <- map_app, <- filter_app. f_equal. f_equal. clear - Ny. revert Ny. generalize (ed_out L (sv_editor L s)), (sv_taken L s). intros l n. revert n. induction l as [|z l IH]; intros [|n] N; cbn [nth_error firstn app] in *; try discriminate; [injection N as ->; reflexivity|]. f_equal. now apply IH.
  - apply opens_same; [discriminate|]. specialize (Mw w broken eq_refl). destruct (event_spec G pol u se L _ _ _ _ _ _ I Er) as (I' & Ic & Lc & E1 & E2 & E3 & E4 & _ & _ & e1 & He & Ee).
    assert (ed_core L (sv_editor L s') = ed_core L e1 /\ ed_out L (sv_editor L s') = ed_out L e1 /\ ed_session L (sv_editor L s') = ed_session L e1) as (K1 & K2 & K3) by (rewrite Ee; repeat split).
    destruct O as [A Qa B C]. assert (plain_session (ed_session L (sv_editor L s))) as PSs by now rewrite B. destruct C as [(P1 & P2 & _)|[(P1 & P2 & P3 & P4 & P5 & P6 & P7)|(P1 & P2 & P3 & P4 & P5 & hl & wl & P6 & P7 & P8)]]; [congruence| |].
    + rewrite P2 in Ev. injection Ev as <- <-. cbn [happens index_change log_change] in *. apply (join_run G pol R PO) in He; [|exact PSs]. destruct He as (r & k & Ec & Ek & _ & _ & (Rs & _) & Eo). cbn [run_call] in Ec. bnd Ec. injection Ec as _ ->.
      split; rewrite ?K1, ?K2, ?K3, ?Ek; [eapply kept_join; eauto|exact Qa|now rewrite Rs|]. right. right. rewrite E3, E1, E4, Lc, Eo, P5, P6, P7. split; [exact P1|]. split; [apply Ic; now left|]. split.
      { exists (core_news (core_of s) k), []. split; [unfold greeting; now rewrite <- B|]. split; [|constructor]. apply news_speaks. now apply speaks_join in E. }
      split; [lia|]. split; [reflexivity|]. exists [], (lines_sent ms 1). split; [reflexivity|]. split; [reflexivity|now left].
    + destruct wl as [|line wl]; [rewrite P7 in Ev; discriminate|]. rewrite P7 in Ev. cbn [map] in Ev. injection Ev as <- <-. cbn [happens index_change log_change] in *. bnd He. destruct v as [r e2]. injection He as <-.
      destruct (Qa line) as (g & q & Pq & Aq); [rewrite P6; apply in_or_app; right; now left|]. rewrite (handle_edit G pol u se L w 1 line (sv_editor L s) q Pq _ Aq) in E. unfold answer, command_edit in E. bnd E. destruct v as [o e3]. injection E as _ <-. bnd E5. injection E5 as _ <-. cbn [ep_name ep_scratch] in E.
      apply do_core_fields in E. destruct E as (r1 & k & Ec & ->). cbn [set_core ed_core ed_out ed_session] in K1, K2, K3. pose proof Ec as Ec0. cbn [run_call] in Ec. bnd Ec. injection Ec as _ ->.
      destruct (kept_edit G pol t cwd f content Nd _ _ _ _ _ Mw A E) as [A' Of]. change (map (fun s => mkES (m_to s) (OCore (m_what s))) (skipn (length (k_sent (core_of s))) (k_sent k))) with (core_news (core_of s) k) in K2.
      split; rewrite ?K1, ?K2, ?K3; [exact A'|exact Qa|exact B|]. right. right. rewrite E3, E1, E4. split; [exact P1|]. split.
      { apply (si_reg _ _ _ _ _ _ I'). rewrite K1. apply (call_clients G pol _ _ _ _ _ (i_0 _ Ki) Ec0). apply (si_reg _ _ _ _ _ _ I). exact P2. }
      split. { destruct P3 as (a & b & -> & Fa & Fb). exists a, (b ++ core_news (core_of s) k). split; [now rewrite <- app_assoc|]. split; [exact Fa|]. apply Forall_app. split; [exact Fb|]. apply news_speaks. now apply speaks_edit in E. }
      split; [rewrite app_length; lia|]. split. { destruct Lc as (r2 & e4 & _ & ->). unfold notified. rewrite flat_map_app. cbn [flat_map snd app]. rewrite app_nil_r. fold (notified (sv_log L s) 1). rewrite P5. rewrite firstn_app. replace (sv_taken L s - length (ed_out L (sv_editor L s))) with 0 by lia. cbn [firstn]. now rewrite app_nil_r. }
      exists (hl ++ [line]), wl. split; [now rewrite P6, <- app_assoc|]. split; [reflexivity|]. right. exists hl, line, g. split; [reflexivity|]. split; [exists q; split; assumption|]. apply edit_spec in E. cbv zeta in E. destruct E as (c & _ & _ & _ & Kc & _).
      split; [exists (mkCl (whole g) (c_sels (with_view (whole g) c))); split; [unfold cmap; rewrite Kc; cbn [sm_map]; apply get_set_same|reflexivity]|]. split; [|exact Of]. eapply C72_refreshed; [apply Ei|exact Ec0|]. reflexivity.
Qed.
Lemma opens_runs w args st path e ms s : editor_new G pol L w session cwd args st (prelude path) = Ok e -> runs (server_new L e) ms s -> accepted ms <= 1 ->
  (forall d line, In (MLine d line) ms -> exists g, asks_for line g) -> (forall d, ~ In (MEnd d) ms) -> sound ms 1 -> (forall w b, In (MEvent w b) ms -> readable (w_disk w)) -> opens ms s.
Proof.
  intros En Rn. assert (started_plain G pol R session e) as Se by (exists w, cwd, args, st, path; exact En). assert (started G pol L session e) as Sg by (exists w, cwd, args, st, (prelude path); exact En).
  pose proof (sinv_start G pol u se L _ _ _ _ _ _ _ En) as I0. assert (sv_next L (server_new L e) = 1) as N0 by reflexivity.
  induction Rn as [|ms s1 m s2 Rn IH H|ms s1 k Rn IH H]; intros Ac Ml Me So Mw; [eapply opens_start; eauto| |].
  - assert (accepted ms <= 1) as Ac1 by (unfold accepted in *; rewrite filter_app, app_length in Ac; lia). apply Forall_app in So. destruct So as [So Sm]. inversion_clear Sm as [|? ? Sm1 _].
    pose proof (runs_next G pol u se L _ _ _ Rn I0) as N1. rewrite N0 in N1.
    eapply opens_move; [exact Se|exact Rn| |exact H| | | | |].
    + apply IH; [exact Ac1| | |exact So|]; [intros d line X; apply (Ml d)|intros d X; apply (Me d)|intros w' b X; apply (Mw w' b)]; apply in_or_app; now left.
    + intros ->. rewrite N1. unfold accepted in *. rewrite filter_app, app_length in Ac. cbn [filter length] in Ac. lia.
    + intros d line ->. split; [|apply (Ml d); apply in_or_app; right; now left]. destruct (only_client G pol u se L session e _ _ Sg (ru_move _ _ _ _ _ _ _ _ _ _ Rn H)) as [_ X]. specialize (X d line). rewrite in_app_iff in X. specialize (X (or_intror (or_introl eq_refl))). lia.
    + intros d ->. apply (Me d). apply in_or_app. right. now left.
    + intros b ->. exact Sm1.
    + intros w' b ->. apply (Mw w' b). apply in_or_app. right. now left.
  - apply opens_shuffle; [exact (sinv_runs G pol u se L _ _ _ Rn I0)|now apply IH|exact H].
Qed.
End Server.
