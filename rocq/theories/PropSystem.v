(** C75: the program as a whole.  A server and its clients, over streams of bytes: the n-th reply a client reads answers its n-th
    request, and a client that has read everything shows what the editor last said to it. *)
From Coq Require Import String List Arith Lia ZArith Bool.
From Verif Require Import EditorTame Base ListFacts PieceTable Coords CoordsFacts Utf8 Utf8Facts Diff Selection Maps StackMap Fmt Buffer View Json JsonFacts Proto ProtoFacts PropProto Core CoreSpec CoreInv CoreOps FreshSpec PropFresh Payload Menu Editor EditorSpec EditorFacts Conn PropConn Server ServerSpec ServerFacts PropServer PropShown System SystemSpec SystemFacts.
Import ListNotations.

Section Joined.
Variable G : Graphemes.
Variable pol : policy.
Variable u : regex_crate.
Variable se : serde.
Variable L : lua.
Notation server := (server L).
Notation smoves := (smoves G pol u se L).
Notation runs := (runs G pol u se L).
Notation sreach := (sreach G pol u se L).
Notation sinv := (sinv G pol u se L).
Notation the_core s := (ed_core L (sv_editor L s)).

Lemma sreach_snoc ms s m s' : sreach ms s -> smoves s m (Ok s') -> sreach (ms ++ [m]) s'.
Proof. intros (w & session & cwd & args & st & scripts & e & E & R) H. exists w, session, cwd, args, st, scripts, e. split; [exact E|]. eapply ru_move; eauto. Qed.
Lemma sreach_order ms s k : sreach ms s -> shuffle (the_core s) k -> sreach ms (with_editor L s (set_core L (sv_editor L s) k)).
Proof. intros (w & session & cwd & args & st & scripts & e & E & R) H. exists w, session, cwd, args, st, scripts, e. split; [exact E|]. apply ru_shuffle; auto. Qed.
Lemma sreach_runs ms s ms' s' : sreach ms s -> runs s ms' s' -> sreach (ms ++ ms') s'.
Proof.
  intros (w & session & cwd & args & st & scripts & e & E & R) R'. exists w, session, cwd, args, st, scripts, e. split; [exact E|]. induction R' as [|ms' s2 m' s3 R' IH H|ms' s2 k R' IH H]; [now rewrite app_nil_r|rewrite app_assoc; eapply ru_move; eauto|apply ru_shuffle; auto].
Qed.
Lemma einv_of s : sinv s -> einv G pol L (sv_editor L s).
Proof. intro I. eapply ereach_inv. apply (si_ed _ _ _ _ _ _ I). Qed.

(** what happens to the core when an event is handled *)
Lemma event_frame (j : nat) (R : core -> core -> Prop) : (forall k, R k k) -> (forall a b c, R a b -> R b c -> R a c) ->
  (forall d c k r k', inv0 k -> c <> CJoin j -> run_call G pol d c k = Ok (r, k') -> R k k') ->
  forall w b v rest s s', sinv s -> event_step G pol u se L w b v rest s = Ok s' -> v <> VJoin j -> R (the_core s) (the_core s').
Proof.
  intros Rr Rt Rc w b v rest s s' I E N. pose proof (einv_of _ I) as J. destruct (event_spec G pol u se L _ _ _ _ _ _ I E) as (_ & _ & _ & _ & _ & _ & _ & _ & _ & e & H & ->). cbn [removed_clients snd set_stopped ed_core].
  destruct v as [d|d|d line]; cbn [happens] in H.
  - refine (join_hush G pol L j R Rr Rt Rc _ _ _ _ J _ H). intros ->. now apply N.
  - exact (leave_hush G pol L j R Rr Rt Rc _ _ _ _ J H).
  - bnd H. destruct v as [r e1]. injection H as <-. exact (handle_hush G pol u se L j R Rr Rt Rc _ _ _ _ _ _ J E0).
Qed.
Lemma joins_told w j e e' : einv G pol L e -> editor_add_client G pol L w j e = Ok e' ->
  exists d, infos (k_sent (ed_core L e')) j = infos (k_sent (ed_core L e)) j ++ [(dec j, d)].
Proof.
  unfold editor_add_client. intros I E. bnd E. bnd E. destruct v0 as [r e1]. injection E as <-. pose proof (do_core_inv _ _ _ _ _ _ _ I E0) as I1.
  unfold do_core, on_core in E0. bnd E0. destruct v0 as [r0 e0]. bnd E. destruct v0 as [r2 k]. injection E as _ <-. injection E0 as <-. apply join_told in E2. cbn [set_core ed_core] in *.
  assert (told j (ed_core L (set_core L e k)) (ed_core L e1)) as T by (eapply (exec_hush G pol L j (told j) (tl_refl j) (tl_trans j) (fun d c k r k' _ N H => call_told j G pol d c k r k' H N)); eauto).
  unfold told in T. cbn [set_core ed_core] in T. rewrite T, E2. eauto.
Qed.
(** before it joins, a client was sent no view and not told its number; once it joined it was told it once *)
Lemma new_quiet w session cwd args st scripts e c : editor_new G pol L w session cwd args st scripts = Ok e -> shown_to (k_sent (ed_core L e)) c = [] /\ infos (k_sent (ed_core L e)) c = [].
Proof.
  intro E. unfold editor_new in E. bnd E. bnd E. destruct v0 as [r e1]. destruct r; [discriminate|]. injection E as <-.
  pose proof (start_inv G pol L session cwd args st v E0) as I0.
  assert (hidden c (core_new cwd) v /\ told c (core_new cwd) v) as [HH HT].
  { unfold editor_init in E0. bnd E0. bnd E0. cbv zeta in E0. split.
    - apply (hd_append c) in E. apply (hd_append c) in E2. apply (hd_add_view c) in E0. eapply hd_trans; [exact E|]. eapply hd_trans; [exact E2|]. eapply hd_trans; [|exact E0]. apply hd_same; reflexivity.
    - apply (tl_append c) in E. apply (tl_append c) in E2. apply (tl_add_view c) in E0. eapply tl_trans; [exact E|]. eapply tl_trans; [exact E2|]. eapply tl_trans; [|exact E0]. apply tl_same; reflexivity. }
  destruct (HH (fun X : connected (core_new cwd) c => X)) as [N1 S1]. split.
  - destruct (script_hush G pol L c (hidden c) (hd_refl c) (hd_trans c) (hidden_call G pol c) _ _ _ _ _ I0 E1 N1) as [_ S2]. cbn [ed_core] in S2. rewrite S2. exact S1.
  - pose proof (script_hush G pol L c (told c) (tl_refl c) (tl_trans c) (fun d c' k r k' _ N H => call_told c G pol d c' k r k' H N) _ _ _ _ _ I0 E1) as T. unfold hush, told in T. cbn [ed_core] in T. rewrite T. exact HT.
Qed.
Lemma shuffle_sent k k' : shuffle k k' -> k_sent k' = k_sent k.
Proof. intros (_ & S & _). now symmetry. Qed.
Lemma joined_once ms s c : sreach ms s ->
  (sv_next L s <= c \/ In (VJoin c) (sv_events L s) -> shown_to (k_sent (the_core s)) c = [] /\ infos (k_sent (the_core s)) c = []) /\
  (In c (sv_index L s) -> exists d, infos (k_sent (the_core s)) c = [(dec c, d)]).
Proof.
  intros (w0 & session & cwd & args & st & scripts & e & E & R0). pose proof (sinv_start G pol u se L _ _ _ _ _ _ _ E) as I0. induction R0 as [|ms s1 m s2 R0 IH H|ms s1 k R0 IH H].
  - split; [intros _; eapply new_quiet; exact E|intros []].
  - destruct IH as [A B]. pose proof (sinv_runs G pol u se L _ _ _ R0 I0) as I1. assert (sreach ms s1) as R1 by (exists w0, session, cwd, args, st, scripts, e; auto).
    remember (Ok s2) as r eqn:Er. destruct H as [Dn|Dn|d line Dn Hd|d Dn Hd|broken x Dn Hx|w broken v rest Dn Ev]; try discriminate.
    + injection Er as <-. split; [|exact B]. intro H. apply A. cbn [accept sv_next sv_events] in H. destruct H as [H|H]; [left; lia|]. apply in_app_iff in H. destruct H as [H|[H|[]]]; [now right|]. injection H as <-. now left.
    + injection Er as <-. split; [|exact B]. intro H. apply A. cbn [read_line sv_next sv_events] in H. destruct H as [H|H]; [now left|]. apply in_app_iff in H. destruct H as [H|[H|[]]]; [now right|discriminate].
    + injection Er as <-. split; [|exact B]. intro H. apply A. cbn [read_end sv_next sv_events] in H. destruct H as [H|H]; [now left|]. apply in_app_iff in H. destruct H as [H|[H|[]]]; [now right|discriminate].
    + injection Er as <-. split; [exact A|exact B].
    + pose proof (sreach_phase G pol u se L _ _ c R1) as Ph. destruct (event_spec G pol u se L _ _ _ _ _ _ I1 Er) as (I2 & Ic & _ & Q1 & _ & Q3 & _ & _ & _ & e2 & Hp & Q5). rewrite Q1, Q3.
      assert (v <> VJoin c -> told c (the_core s1) (the_core s2)) as T by (intro N; exact (event_frame c (told c) (tl_refl c) (tl_trans c) (fun d c' k r k' _ N H => call_told c G pol d c' k r k' H N) _ _ _ _ _ _ I1 Er N)).
      assert (v <> VJoin c -> hidden c (the_core s1) (the_core s2)) as Hh by (intro N; exact (event_frame c (hidden c) (hd_refl c) (hd_trans c) (hidden_call G pol c) _ _ _ _ _ _ I1 Er N)).
      assert (In (VJoin c) rest -> In (VJoin c) (mine c rest)) as Mi by (intro X; apply filter_In; split; [exact X|apply Nat.eqb_refl]).
      assert (v = VJoin c -> c < sv_next L s1 /\ ~ In (VJoin c) rest) as First.
      { intros ->. destruct Ph as [H1 H2 H3 H4 H5|t H1 H2 H3 H4 H5|H1 H2 H3|H1 H2 H3 H4|H0 H1 H2 H3]; rewrite Ev, mine_same in H2 by reflexivity; try discriminate.
        - injection H2 as <-. split; [exact H1|]. intro X. apply (not_in_tail _ _ _ H3). auto.
        - exfalso. apply (not_in_tail _ _ _ H2). now left.
        - exfalso. apply (not_in_tail _ _ _ H2). now left. }
      assert (sv_next L s1 <= c \/ In (VJoin c) (sv_events L s1) -> ~ connected (the_core s1) c) as NC.
      { intros X C. apply (si_reg _ _ _ _ _ _ I1) in C. destruct Ph as [H1 H2 H3 H4 H5|t H1 H2 H3 H4 H5|H1 H2 H3|H1 H2 H3 H4|H0 H1 H2 H3]; try contradiction. destruct X as [X|X]; [lia|]. apply (not_in_tail _ _ _ H2). apply filter_In. split; [exact X|apply Nat.eqb_refl]. }
      split.
      * intro H. assert (v <> VJoin c) as N by (intros ->; destruct (First eq_refl); destruct H; [lia|contradiction]).
        assert (sv_next L s1 <= c \/ In (VJoin c) (sv_events L s1)) as H' by (destruct H as [H|H]; [now left|right; rewrite Ev; now right]).
        destruct (A H') as [A1 A2]. destruct (Hh N (NC H')) as [_ A3]. specialize (T N). unfold told in T. rewrite A3, T. auto.
      * intro H. assert (v = VJoin c \/ v <> VJoin c) as [->|N] by (destruct v as [d|d|d l]; [destruct (Nat.eq_dec d c) as [->|]; [now left|right; congruence]|right; discriminate..]).
        -- assert (In (VJoin c) (sv_events L s1)) as Hj by (rewrite Ev; now left). destruct (A (or_intror Hj)) as [_ A2]. cbn [happens] in Hp. destruct (joins_told _ _ _ _ (einv_of _ I1) Hp) as (d & J). exists d. rewrite Q5. cbn [removed_clients snd set_stopped ed_core]. rewrite J, A2. reflexivity.
        -- specialize (T N). unfold told in T. rewrite T. apply B. destruct v as [d|d|d l]; cbn [index_change] in Ic; [|apply Ic in H; tauto..]. apply Ic in H. destruct H as [->|H]; [now destruct N|exact H].
  - destruct IH as [A B]. cbn [with_editor sv_next sv_events sv_index sv_editor set_core ed_core]. rewrite (shuffle_sent _ _ H). split; [exact A|exact B].
Qed.
(** the move with which a registered client joined *)
Lemma joined_split ms s c : sreach ms s -> In c (sv_index L s) -> exists ms1 s0 m s1 ms2,
  sreach ms1 s0 /\ handles L s0 m (VJoin c) /\ smoves s0 m (Ok s1) /\ runs s1 ms2 s /\ ms = ms1 ++ m :: ms2.
Proof.
  intros (w0 & session & cwd & args & st & scripts & e & E & R0). pose proof (sinv_start G pol u se L _ _ _ _ _ _ _ E) as I0. induction R0 as [|ms s1 m s2 R0 IH H|ms s1 k R0 IH H]; intro Hc.
  - destruct Hc.
  - assert (sreach ms s1) as R1 by (exists w0, session, cwd, args, st, scripts, e; auto). destruct (in_dec Nat.eq_dec c (sv_index L s1)) as [Hc1|Nc].
    + destruct (IH Hc1) as (ms1 & s0 & m0 & s1' & ms2 & A1 & A2 & A3 & A4 & ->). exists ms1, s0, m0, s1', (ms2 ++ [m]). split; [exact A1|]. split; [exact A2|]. split; [exact A3|]. split; [eapply ru_move; eauto|now rewrite <- app_assoc].
    + exists ms, s1, m, s2, []. split; [exact R1|]. split; [|split; [exact H|split; [apply ru_stay|reflexivity]]].
      pose proof (sinv_runs G pol u se L _ _ _ R0 I0) as I1. remember (Ok s2) as r eqn:Er. destruct H as [Dn|Dn|d line Dn Hd|d Dn Hd|broken x Dn Hx|w broken v rest Dn Ev]; try discriminate; try (injection Er as <-; contradiction).
      split; [eauto|]. exists rest. destruct (event_spec G pol u se L _ _ _ _ _ _ I1 Er) as (_ & Ic & _). destruct v as [d|d|d l]; cbn [index_change] in Ic; [|apply Ic in Hc; tauto..]. apply Ic in Hc. destruct Hc as [->|Hc]; [exact Ev|contradiction].
  - destruct (IH Hc) as (ms1 & s0 & m0 & s1' & ms2 & A1 & A2 & A3 & A4 & ->). exists ms1, s0, m0, s1', ms2. split; [exact A1|]. split; [exact A2|]. split; [exact A3|]. split; [apply ru_shuffle; auto|reflexivity].
Qed.
End Joined.

(** ** lists *)
Lemma last_none {A B} (f : A -> option B) l d : (forall x, In x l -> f x = None) -> latest f l d = d.
Proof. revert d. induction l as [|x l IH]; intros d H; [reflexivity|]. cbn [latest]. rewrite (H x (or_introl eq_refl)). apply IH. intros y Hy. apply H. now right. Qed.
Lemma latest_app {A B} (f : A -> option B) a b d : latest f (a ++ b) d = latest f b (latest f a d).
Proof. revert d. induction a as [|x a IH]; intro d; [reflexivity|]. cbn [app latest]. apply IH. Qed.
Lemma views_addressed o c : flat_map (fun n => match said_view n with Some v => [v] | None => [] end) (addressed o c) = shown_to (core_out o) c.
Proof.
  unfold addressed. induction o as [|[to w] o IH]; [reflexivity|]. cbn [filter o_to core_out flat_map o_what].
  change (flat_map (fun x => match o_what x with OCore n => [mkSent (o_to x) n] | _ => [] end) o) with (core_out o).
  destruct w as [n|m|l|l]; cbn [app]; try (destruct (match to with None => true | Some cs => existsb (Nat.eqb c) cs end); exact IH).
  cbn [shown_to flat_map m_what m_to]. change (flat_map _ (core_out o)) with (shown_to (core_out o) c) at 1. destruct n as [t err|x d|v]; try (destruct (match to with None => true | Some cs => existsb (Nat.eqb c) cs end); exact IH).
  destruct (match to with None => true | Some cs => existsb (Nat.eqb c) cs end); [|exact IH]. cbn [map o_what flat_map said_view app]. now rewrite IH.
Qed.
Lemma names_addressed o c : flat_map (fun n => match said_name n with Some v => [v] | None => [] end) (addressed o c) = map fst (infos (core_out o) c).
Proof.
  unfold addressed. induction o as [|[to w] o IH]; [reflexivity|]. cbn [filter o_to core_out flat_map o_what].
  change (flat_map (fun x => match o_what x with OCore n => [mkSent (o_to x) n] | _ => [] end) o) with (core_out o).
  destruct w as [n|m|l|l]; cbn [app]; try (destruct (match to with None => true | Some cs => existsb (Nat.eqb c) cs end); exact IH).
  cbn [infos flat_map m_what m_to]. change (flat_map _ (core_out o)) with (infos (core_out o) c) at 1. destruct n as [t err|x d|v]; try (destruct (match to with None => true | Some cs => existsb (Nat.eqb c) cs end); exact IH).
  destruct (match to with None => true | Some cs => existsb (Nat.eqb c) cs end); [|exact IH]. cbn [map o_what flat_map said_name app fst]. now rewrite IH.
Qed.
Lemma latest_values {A B} (f : A -> option B) l d : latest f l d = last (flat_map (fun x => match f x with Some b => [b] | None => [] end) l) d.
Proof.
  induction l as [|x l IH] using rev_ind; [reflexivity|]. rewrite latest_app, flat_map_app. cbn [latest flat_map]. rewrite app_nil_r. destruct (f x) as [b|]; [now rewrite last_last|now rewrite app_nil_r].
Qed.

Section System.
Variable G : Graphemes.
Variable pol : policy.
Variable u : regex_crate.
Variable se : serde.
Variable L : lua.
Variable checked : bool.
Variable session : text.
Notation system := (system L).
Notation ystep := (ystep G pol u se L checked session).
Notation yreach := (yreach G pol u se L checked session).
Notation sreach := (sreach G pol u se L).
Notation smoves := (smoves G pol u se L).
Notation made := (made L).
Notation replies := (replies L session).
Notation got := (got L session).
Notation fits := (fits L).
Notation settled := (settled L session).
Notation screen := (screen L).
Notation core_of := (core_of L).
Notation the_log y := (sv_log L (sy_server L y)).
Notation the_out y := (ed_out L (sv_editor L (sy_server L y))).

(** ** the invariant *)
Record yinv (ms : list smove) (y : system) : Prop := {
  yi_reach : sreach ms (sy_server L y);
  yi_log : log_ok L (sy_server L y);
  yi_conn : forall c, conn_ok (pr_conn (sy_peer L y c));
  yi_read : forall c, pr_read (sy_peer L y c) <= length (made y c) /\ lines_sent ms c = map print_request (firstn (pr_read (sy_peer L y c)) (made y c));
  yi_got : fits y -> forall c, exists ops, crun checked ops = Ok (pr_conn (sy_peer L y c)) /\ pr_got (sy_peer L y c) <= length (written_to session (the_log y) c) /\
    events_of ops = map received (firstn (pr_got (sy_peer L y c)) (written_to session (the_log y) c)) }.
Lemma more_fits e e' : more_out L e e' -> Forall (fun x => fits_out (o_what x)) (ed_out L e') -> Forall (fun x => fits_out (o_what x)) (ed_out L e).
Proof. intros [l ->] F. apply Forall_app in F. apply F. Qed.
Lemma firstn_app_le {A} n (a b : list A) : n <= length a -> firstn n (a ++ b) = firstn n a.
Proof. intro H. rewrite firstn_app. replace (n - length a) with 0 by lia. cbn [firstn]. apply app_nil_r. Qed.
Lemma nth_firstn {A} (l : list A) n x : nth_error l n = Some x -> firstn (S n) l = firstn n l ++ [x].
Proof. revert l. induction n as [|n IH]; intros [|y l] H; try discriminate; [injection H as ->; reflexivity|]. change (firstn (S (S n)) (y :: l)) with (y :: firstn (S n) l). rewrite (IH _ H). reflexivity. Qed.
Lemma lines_sent_app a b c : lines_sent (a ++ b) c = lines_sent a c ++ lines_sent b c.
Proof. apply flat_map_app. Qed.
Lemma crun_snoc ops c o c' : crun checked ops = Ok c -> cstep checked c o = Ok c' -> crun checked (ops ++ [o]) = Ok c'.
Proof. unfold crun. intros E H. generalize dependent conn0. induction ops as [|x ops IH]; intros c0 E; cbn [foldM app] in *; [injection E as ->; now rewrite H|]. destruct (cstep checked c0 x) as [c1| |]; cbn [bind] in *; try discriminate. now apply IH. Qed.
Lemma events_app a b : events_of (a ++ b) = events_of a ++ events_of b.
Proof. apply flat_map_app. Qed.
Lemma sends_more checked' c o c' : cstep checked' c o = Ok c' -> exists l, co_sent c' = co_sent c ++ l.
Proof.
  assert (forall m p a b, send checked' m p a = Ok b -> exists l, co_sent b = co_sent a ++ l) as S by (intros m p a b E; unfold send, request_id in E; bnd E; bnd E0; injection E0 as <-; injection E as <-; cbn [co_sent]; eauto).
  intro E. destruct o; cbn [cstep] in E; try (eapply S; exact E); try (injection E as <-; exists []; cbn [co_sent]; now rewrite app_nil_r).
  - destruct (cs_menu (co_state c)); [|injection E as <-; exists []; now rewrite app_nil_r]. bnd E. bnd E. injection E as <-. destruct (S _ _ _ _ E1) as (l & Q). exists l. exact Q.
  - destruct (cs_menu (co_state c)); injection E as <-; exists []; cbn [co_sent]; now rewrite app_nil_r.
  - destruct (cs_menu (co_state c)); [|injection E as <-; exists []; now rewrite app_nil_r]. bnd E. injection E as <-. exists []. cbn [co_sent]. now rewrite app_nil_r.
Qed.
Lemma read_sent line c : co_sent (read_by line c) = co_sent c /\ (conn_ok c -> conn_ok (read_by line c)).
Proof. unfold read_by. destruct (parse_event line); split; auto. Qed.

Lemma shuffled_same e k : shuffle (ed_core L e) k -> ed_out L (set_core L e k) = ed_out L e.
Proof. intros (_ & S & _). unfold set_core. cbn [ed_out]. rewrite S, skipn_all. cbn. apply app_nil_r. Qed.
Lemma yinv_server ms y m s : yinv ms y -> smoves (sy_server L y) m (Ok s) ->
  log_ok L s /\ (fits (mkSys L s (sy_peer L y)) -> forall c, exists ops, crun checked ops = Ok (pr_conn (sy_peer L y c)) /\ pr_got (sy_peer L y c) <= length (written_to session (sv_log L s) c) /\
    events_of ops = map received (firstn (pr_got (sy_peer L y c)) (written_to session (sv_log L s) c))).
Proof.
  intros I H. destruct (log_move G pol u se L _ _ _ (sreach_inv G pol u se L _ _ (yi_reach _ _ I)) H (yi_log _ _ I)) as (K & M & l & E). split; [exact K|]. intros F c.
  destruct (yi_got _ _ I (more_fits _ _ M F) c) as (ops & E1 & E2 & E3). exists ops. split; [exact E1|]. rewrite E, written_app, app_length. split; [lia|]. now rewrite firstn_app_le by exact E2.
Qed.
Lemma yinv_step ms y l y' : yinv ms y -> ystep y l y' -> yinv (ms ++ l) y'.
Proof.
  intros I H. destruct H as [m s Nl H|k H|c line s p Hl H|c o n p No H|c line p Hl].
  - destruct (yinv_server _ _ _ _ I H) as [K Gt]. split; cbn [sy_server sy_peer]; [eapply sreach_snoc; [apply I|exact H]|exact K|apply I| |exact Gt].
    intro c. destruct (yi_read _ _ I c) as [R1 R2]. split; [exact R1|]. rewrite lines_sent_app, R2. replace (lines_sent [m] c) with (@nil text); [now rewrite app_nil_r|]. destruct m; try reflexivity. exfalso. eapply Nl; reflexivity.
  - rewrite app_nil_r. split; cbn [sy_server sy_peer with_editor sv_log]; [apply sreach_order; [apply I|exact H]| |apply I|apply I|].
    + intros c x Hx. specialize (yi_log _ _ I c x Hx) as Q. cbn [with_editor sv_editor]. rewrite (shuffled_same _ _ H). exact Q.
    + intros F c. apply (yi_got _ _ I). unfold SystemSpec.fits in *. cbn [sy_server with_editor sv_editor] in F. rewrite (shuffled_same _ _ H) in F. exact F.
  - destruct (yinv_server _ _ _ _ I H) as [K Gt]. split; cbn [sy_server sy_peer].
    + eapply sreach_snoc; [apply I|exact H].
    + exact K.
    + intro d. unfold put_peer. destruct (d =? c); [exact (yi_conn _ _ I c)|apply I].
    + intro d. unfold SystemSpec.made. cbn [sy_peer]. unfold put_peer. rewrite lines_sent_app. destruct (yi_read _ _ I d) as [R1 R2]. unfold SystemSpec.made in R1, R2. destruct (Nat.eqb_spec d c) as [->|NE]; cbn [pr_conn pr_read].
      * rewrite lines_from in Hl by apply (yi_conn _ _ I c). assert (nth_error (map print_request (co_sent (pr_conn p))) (pr_read p) = Some line) as Hl' by exact Hl. rewrite nth_error_map in Hl'. destruct (nth_error (co_sent (pr_conn p)) (pr_read p)) as [q|] eqn:Q; [|discriminate]. injection Hl' as <-. fold p in R1, R2. split; [apply nth_error_Some; congruence|].
        rewrite R2. rewrite (nth_firstn _ _ _ Q), map_app. cbn [lines_sent flat_map map]. rewrite Nat.eqb_refl. reflexivity.
      * split; [exact R1|]. rewrite R2. cbn [lines_sent flat_map]. rewrite (proj2 (Nat.eqb_neq c d)) by congruence. cbn [app]. now rewrite app_nil_r.
    + intros F d. destruct (Gt F d) as (ops & E1 & E2 & E3). unfold put_peer. destruct (Nat.eqb_spec d c) as [->|NE]; cbn [pr_conn pr_got]; exists ops; auto.
  - rewrite app_nil_r. split; cbn [sy_server sy_peer].
    + apply I.
    + apply I.
    + intro d. unfold put_peer. destruct (d =? c); [cbn [pr_conn]; eapply step_wire; [apply (yi_conn _ _ I c)|exact H]|apply I].
    + intro d. unfold SystemSpec.made. cbn [sy_peer]. unfold put_peer. destruct (yi_read _ _ I d) as [R1 R2]. unfold SystemSpec.made in R1, R2. destruct (Nat.eqb_spec d c) as [->|NE]; cbn [pr_conn pr_read]; [|split; assumption].
      destruct (sends_more _ _ _ _ H) as (l & ->). fold p in R1, R2. rewrite app_length, R2. split; [lia|]. now rewrite firstn_app_le by exact R1.
    + intros F d. unfold put_peer. destruct (yi_got _ _ I F d) as (ops & E1 & E2 & E3). destruct (Nat.eqb_spec d c) as [->|NE]; cbn [pr_conn pr_got]; [|exists ops; auto].
      exists (ops ++ [o]). split; [eapply crun_snoc; [exact E1|exact H]|]. split; [exact E2|]. rewrite events_app, E3. destruct o; try (cbn [events_of flat_map]; now rewrite app_nil_r). exfalso. eapply No; reflexivity.
  - rewrite app_nil_r. split; cbn [sy_server sy_peer].
    + apply I.
    + apply I.
    + intro d. unfold put_peer. destruct (d =? c); [cbn [pr_conn]; apply read_sent, (yi_conn _ _ I c)|apply I].
    + intro d. unfold SystemSpec.made. cbn [sy_peer]. unfold put_peer. destruct (yi_read _ _ I d) as [R1 R2]. unfold SystemSpec.made in R1, R2. destruct (Nat.eqb_spec d c) as [->|NE]; cbn [pr_conn pr_read]; [|split; assumption]. rewrite (proj1 (read_sent line _)). split; assumption.
    + intros F d. unfold put_peer. destruct (yi_got _ _ I F d) as (ops & E1 & E2 & E3). destruct (Nat.eqb_spec d c) as [->|NE]; cbn [pr_conn pr_got]; [|exists ops; auto].
      unfold sy_out in Hl. rewrite (lines_to L session _ c (yi_log _ _ I) F), nth_error_map in Hl. fold p in E1, E2, E3. destruct (nth_error (written_to session (the_log y) c) (pr_got p)) as [e|] eqn:Q; [|discriminate]. injection Hl as <-.
      pose proof (written_wire L session _ c (yi_log _ _ I) F) as W. rewrite Forall_forall in W. specialize (W _ (nth_error_In _ _ Q)).
      assert (parse_event (print_event e) = Some (received e)) as P by (destruct e; [now apply C38_notification|now apply response_event]).
      exists (ops ++ [OpEvent (received e)]). split; [|split; [apply nth_error_Some; congruence|]].
      * eapply crun_snoc; [exact E1|]. unfold read_by. rewrite P. reflexivity.
      * rewrite events_app, E3, (nth_firstn _ _ _ Q), map_app. reflexivity.
Qed.
Lemma yreach_inv ms y : yreach ms y -> yinv ms y.
Proof.
  induction 1 as [w cwd args st scripts e E|ms y l y' R IH H]; [|eapply yinv_step; eauto]. split; cbn [sy_server sy_peer].
  - exists w, session, cwd, args, st, scripts, e. split; [exact E|apply ru_stay].
  - intros c x [].
  - intros _. apply conn0_ok.
  - intros c. split; [apply Nat.le_refl|reflexivity].
  - intros _ c. exists []. repeat split; auto.
Qed.

(** ** requests and replies *)
Definition back (r : response) : response := mkResp (rp_version r) (rp_id r) (no_null (rp_result r)) (option_map no_null_error (rp_error r)).
Definition responses (l : list (option event)) : list response := flat_map (fun o => match o with Some (EvResponse r) => [r] | _ => [] end) l.
Lemma responses_app a b : responses (a ++ b) = responses a ++ responses b.
Proof. apply flat_map_app. Qed.
Lemma responses_written log c : responses (map (fun e => Some (received e)) (written_to session log c)) = map back (answered log c).
Proof.
  induction log as [|[i x] log IH]; [reflexivity|]. change (written_to session ((i, x) :: log) c) with ((if i =? c then [wire_written session x] else []) ++ written_to session log c).
  change (answered ((i, x) :: log) c) with (match x with WAnswer r => if i =? c then [r] else [] | _ => [] end ++ answered log c). rewrite !map_app, responses_app, IH. f_equal. destruct x, (i =? c); reflexivity.
Qed.
Lemma got_written ms y c : yinv ms y -> fits y -> got y c = map (fun e => Some (received e)) (firstn (pr_got (sy_peer L y c)) (written_to session (the_log y) c)).
Proof.
  intros I F. unfold SystemSpec.got, sy_out. rewrite (lines_to L session _ c (yi_log _ _ I) F). rewrite firstn_map, map_map. apply map_ext_in. intros e H. pose proof (written_wire L session _ c (yi_log _ _ I) F) as W. rewrite Forall_forall in W.
  assert (In e (written_to session (the_log y) c)) as H' by (rewrite <- (firstn_skipn (pr_got (sy_peer L y c))); apply in_or_app; now left). specialize (W _ H'). destruct e; [now apply C38_notification|now apply response_event].
Qed.
Lemma replies_prefix ms y c : yinv ms y -> fits y -> exists rest, map back (answered (the_log y) c) = replies y c ++ rest.
Proof.
  intros I F. unfold SystemSpec.replies. rewrite (got_written _ _ _ I F). exists (responses (map (fun e => Some (received e)) (skipn (pr_got (sy_peer L y c)) (written_to session (the_log y) c)))).
  fold (responses (map (fun e => Some (received e)) (firstn (pr_got (sy_peer L y c)) (written_to session (the_log y) c)))). rewrite <- responses_app, <- map_app, firstn_skipn. symmetry. apply responses_written.
Qed.
Lemma forall2_len {A B} (P : A -> B -> Prop) l m : Forall2 P l m -> length l = length m.
Proof. induction 1; cbn; auto. Qed.
Lemma forall2_map_r {A B C} (P : A -> B -> Prop) (Q : A -> C -> Prop) (f : B -> C) l m : (forall a b, P a b -> Q a (f b)) -> Forall2 P l m -> Forall2 Q l (map f m).
Proof. intros H. induction 1; constructor; auto. Qed.
Lemma prefix_firstn {A} (a b c : list A) : a ++ b = c -> a = firstn (length a) c.
Proof. intros <-. rewrite firstn_app_le by lia. now rewrite firstn_all. Qed.
Lemma firstn_firstn_le {A} a b (l : list A) : a <= length (firstn b l) -> firstn a (firstn b l) = firstn a l.
Proof. intro H. rewrite firstn_firstn. rewrite firstn_length in H. f_equal. lia. Qed.
(** The lines the server reads from a client are the requests it made, in order.  The n-th reply the client reads answers its n-th
    request; everything it reads is a message. *)
Theorem C75_requests : forall ms y c, yreach ms y -> fits y ->
  ~ In None (got y c) /\
  (exists n, map parse_request (lines_sent ms c) = map (fun q => Some (arrived q)) (firstn n (made y c))) /\
  Forall2 (fun q r => rp_id r = rq_id q) (firstn (length (replies y c)) (made y c)) (replies y c) /\
  (forall n r, nth_error (replies y c) n = Some r -> rp_id r = IdNum (wrap (Z.of_nat n))).
Proof.
  intros ms y c R F. pose proof (yreach_inv _ _ R) as I. split; [|split].
  - rewrite (got_written _ _ _ I F). intro H. apply in_map_iff in H. destruct H as (e & H & _). discriminate.
  - exists (pr_read (sy_peer L y c)). rewrite (proj2 (yi_read _ _ I c)), map_map. apply map_ext_in. intros q H. apply line_parsed. destruct (yi_conn _ _ I c) as [_ W]. rewrite Forall_forall in W. apply W. rewrite <- (firstn_skipn (pr_read (sy_peer L y c))). apply in_or_app. now left.
  - assert (Forall2 (fun q r => rp_id r = rq_id q) (firstn (length (replies y c)) (made y c)) (replies y c)) as FR.
    { destruct (C64 G pol u se L _ _ (yi_reach _ _ I) c) as (handled & H1 & H2). destruct (replies_prefix _ _ c I F) as (rest & P).
      apply (forall2_map_r answers answers back) in H2; [|intros a b X; exact X]. rewrite P in H2. apply Forall2_app_inv_r in H2. destruct H2 as (h1 & h2 & F1 & _ & ->). rewrite (proj2 (yi_read _ _ I c)) in H1. rewrite <- app_assoc in H1. symmetry in H1. pose proof (prefix_firstn _ _ _ H1) as Eh.
      assert (length h1 <= length (firstn (pr_read (sy_peer L y c)) (made y c))) as Lh by (rewrite <- (map_length print_request), <- H1, app_length; lia).
      rewrite firstn_map, firstn_firstn_le in Eh by exact Lh. rewrite <- (forall2_len _ _ _ F1). rewrite Eh in F1. revert F1. destruct (yi_conn _ _ I c) as [_ W]. assert (Forall wire_request (firstn (length h1) (made y c))) as W' by (apply Forall_forall; intros q Hq; rewrite Forall_forall in W; apply W; rewrite <- (firstn_skipn (length h1)); apply in_or_app; now left).
      clear - W'. generalize (replies y c) as rs. revert W'. generalize (firstn (length h1) (made y c)) as qs. clear. induction qs as [|q qs IH]; intros W rs H; inversion H; subst; constructor; [|apply IH; auto; now inversion W]. inversion W; subst. unfold answers in H2. rewrite line_parsed in H2 by assumption. exact H2. }
    split; [exact FR|]. intros n r Hn. destruct (yi_got _ _ I F c) as (ops & E & _). destruct (run_numbered _ _ _ E) as (N & _ & _).
    assert (exists q, nth_error (firstn (length (replies y c)) (made y c)) n = Some q /\ rp_id r = rq_id q) as (q & Hq & ->).
    { clear - FR Hn. revert FR Hn. generalize (firstn (length (replies y c)) (made y c)) as qs. generalize (replies y c) as rs. intros rs qs FR. revert n. induction FR as [|q x qs rs H FR IH]; intros [|n] Hn; try discriminate; [injection Hn as <-; exists q; split; [reflexivity|exact H]|exact (IH _ Hn)]. }
    assert (nth_error (made y c) n = Some q) as Hq' by (rewrite <- (firstn_skipn (length (replies y c)) (made y c)), nth_error_app1; [exact Hq|apply nth_error_Some; congruence]).
    assert (nth_error (map rq_id (made y c)) n = Some (rq_id q)) as X by (rewrite nth_error_map, Hq'; reflexivity). unfold SystemSpec.made in X. rewrite N, nth_error_map in X. assert (n < length (co_sent (pr_conn (sy_peer L y c)))) as Ln by (apply nth_error_Some; unfold SystemSpec.made in Hq'; congruence). rewrite seq_nth_error in X by exact Ln. cbn [option_map Nat.add] in X. now injection X as <-.
Qed.
(** When the server has read and handled all a client wrote and the client has read all that was written to it, every request it
    made was answered, exactly once and in order. *)
Theorem C75_answered : forall ms y c, yreach ms y -> fits y -> pr_read (sy_peer L y c) = length (made y c) -> lines_waiting (sv_events L (sy_server L y)) c = [] ->
  pr_got (sy_peer L y c) = length (str_lines (sy_out L session y c)) -> Forall2 (fun q r => rp_id r = rq_id q) (made y c) (replies y c).
Proof.
  intros ms y c R F Hr Hw Hg. pose proof (yreach_inv _ _ R) as I. destruct (C75_requests ms y c R F) as (_ & _ & FR & _). replace (made y c) with (firstn (length (replies y c)) (made y c)) at 1; [exact FR|].
  destruct (C64 G pol u se L _ _ (yi_reach _ _ I) c) as (handled & H1 & H2). rewrite Hw, app_nil_r, (proj2 (yi_read _ _ I c)), Hr, firstn_all in H1. apply forall2_len in H2. rewrite <- H1, map_length in H2.
  assert (length (replies y c) = length (made y c)) as ->; [|apply firstn_all]. rewrite H2. unfold SystemSpec.replies. rewrite (got_written _ _ _ I F), Hg. unfold sy_out. rewrite (lines_to L session _ c (yi_log _ _ I) F), map_length, firstn_all.
  change (length (responses (map (fun e => Some (received e)) (written_to session (the_log y) c))) = length (answered (the_log y) c)). now rewrite responses_written, map_length.
Qed.

(** ** what is shown *)
Lemma screen_wire : forall ms y c, yreach ms y -> fits y -> In c (sv_index L (sy_server L y)) -> sound ms c -> settled y c ->
  exists ms1 s0 m ms2, ms = ms1 ++ m :: ms2 /\ sreach ms1 s0 /\ handles L s0 m (VJoin c) /\
    let news := addressed (skipn (sv_taken L s0) (the_out y)) c in
    cs_view (screen y c) = map wire_item (latest said_view news []) /\ cs_status (screen y c) = latest said_status news [] /\
    cs_echo (screen y c) = latest said_echo news None /\ cs_client (screen y c) = dec c /\ cs_session (screen y c) = session /\
    latest said_view news [] = last (shown_to (k_sent (core_of y)) c) [].
Proof.
  intros ms y c R F Hc S [St Sg]. pose proof (yreach_inv _ _ R) as I. destruct (joined_split G pol u se L _ _ _ (yi_reach _ _ I) Hc) as (ms1 & s0 & m & s1 & ms2 & R1 & Hm & Mv & Rs & ->). exists ms1, s0, m, ms2. split; [reflexivity|]. split; [exact R1|]. split; [exact Hm|]. intro news.
  assert (sound ms2 c) as S2 by (apply Forall_app in S; destruct S as [_ S]; now inversion S).
  pose proof (C44_order G pol u se L _ _ _ _ _ R1 Hm Mv _ _ Rs S2 Hc) as N. rewrite St in N. replace (length (the_out y)) with (length (the_out y)) in N by reflexivity.
  rewrite firstn_all2 in N by (rewrite skipn_length; lia). fold news in N.
  pose proof (joined_once G pol u se L _ _ c R1) as [J1 _]. destruct (joined_once G pol u se L _ _ c (yi_reach _ _ I)) as [_ J2]. destruct (J2 Hc) as (d & Inf). clear J2.
  assert (In (VJoin c) (sv_events L s0)) as Hj by (destruct Hm as [_ (rest & ->)]; now left). destruct (J1 (or_intror Hj)) as [Sh0 In0]. clear J1.
  (* the past holds nothing for it *)
  pose proof (einv_of G pol u se L _ (sreach_inv G pol u se L _ _ R1)) as I0. pose proof (einv_of G pol u se L _ (sreach_inv G pol u se L _ _ (yi_reach _ _ I))) as Iy.
  assert (exists l, the_out y = ed_out L (sv_editor L s0) ++ l) as (l & Out).
  { pose proof (sreach_inv G pol u se L _ _ R1) as Q0. assert (forall s ms' s', PropServer.sinv G pol u se L s -> Server.runs G pol u se L s ms' s' -> exists l, ed_out L (sv_editor L s') = ed_out L (sv_editor L s) ++ l) as Gr.
    { intros s ms' s' Q Rr. induction Rr as [|ms' a m' b Rr IH H|ms' a k Rr IH H]; [exists []; now rewrite app_nil_r| |].
      - destruct IH as (l & E). pose proof (sinv_runs G pol u se L _ _ _ Rr Q) as Qa. assert (exists l', ed_out L (sv_editor L b) = ed_out L (sv_editor L a) ++ l') as (l' & E').
        { remember (Ok b) as r eqn:Er. destruct H as [Dn|Dn|d' line Dn Hd|d' Dn Hd|broken x Dn Hx|w broken v rest Dn Ev]; try discriminate; try (injection Er as <-; exists []; now rewrite app_nil_r). destruct (event_spec G pol u se L _ _ _ _ _ _ Qa Er) as (_ & _ & _ & _ & _ & _ & _ & M & _). exact M. }
        exists (l ++ l'). rewrite E', E. now rewrite app_assoc.
      - destruct IH as (l & E). exists l. cbn [with_editor sv_editor]. rewrite (shuffled_same _ _ H). exact E. }
    eapply (Gr _ ([m] ++ ms2)); [exact Q0|]. clear - Mv Rs. induction Rs as [|ms' s2 m' s3 R' IH H|ms' s2 k R' IH H]; [apply (ru_move G pol u se L s0 [] s0 m s1 (ru_stay _ _ _ _ _ _) Mv)|rewrite app_assoc; eapply ru_move; eauto|apply ru_shuffle; auto]. }
  pose proof (sreach_taken G pol u se L _ _ R1) as T0.
  assert (the_out y = firstn (sv_taken L s0) (ed_out L (sv_editor L s0)) ++ skipn (sv_taken L s0) (the_out y)) as Split by (rewrite Out, <- (firstn_app_le _ _ l T0), firstn_skipn; reflexivity).
  assert (forall {B} (f : enotif -> option B) (all : list sent -> list B), (forall o, flat_map (fun n => match f n with Some v => [v] | None => [] end) (addressed o c) = all (core_out o)) -> all (k_sent (ed_core L (sv_editor L s0))) = [] ->
    flat_map (fun n => match f n with Some v => [v] | None => [] end) news = all (k_sent (core_of y))) as Since.
  { intros B f all Ha H0. unfold SystemSpec.core_of. rewrite <- (ei_out _ _ _ _ Iy), <- Ha, Split, addressed_app, flat_map_app. fold news. replace (flat_map _ (addressed (firstn _ _) c)) with (@nil B); [reflexivity|]. symmetry.
    rewrite <- (ei_out _ _ _ _ I0), <- Ha in H0. rewrite <- (firstn_skipn (sv_taken L s0) (ed_out L (sv_editor L s0))), addressed_app, flat_map_app in H0. apply app_eq_nil in H0. apply H0. }
  destruct (yi_got _ _ I F c) as (ops & E & _ & Ev). unfold sy_out in Sg. rewrite (lines_to L session _ c (yi_log _ _ I) F), map_length in Sg. rewrite Sg, firstn_all in Ev.
  destruct (C45 _ _ _ E) as (C1 & C2 & C3 & C4 & C5 & _). rewrite Ev in C1, C2, C3, C4, C5. unfold SystemSpec.screen.
  assert (forall n, In n (notified (the_log y) c) -> fits_out n) as Fit by (intros n Hn; apply notified_in in Hn; destruct (yi_log _ _ I _ _ Hn) as (x & Hx & <-); unfold SystemSpec.fits in F; rewrite Forall_forall in F; exact (F _ Hx)).
  assert (forall n, In n (notified (the_log y) c) -> _) as Sw by (intros n Hn; exact (says_wire session n (Fit n Hn))). cbv zeta in Sw.
  assert (flat_map (fun n => match said_name n with Some v => [v] | None => [] end) news = [dec c]) as Nm by (rewrite (Since _ said_name (fun k => map fst (infos k c)) (fun o => names_addressed o c)); [unfold SystemSpec.core_of; now rewrite Inf|now rewrite In0]).
  assert (forall {B} (h : text -> B) d0, latest (fun n => option_map h (said_name n)) news d0 = h (dec c)) as Nh.
  { intros B h d0. rewrite latest_values. replace (flat_map _ news) with [h (dec c)]; [reflexivity|]. transitivity (map h (flat_map (fun n => match said_name n with Some v => [v] | None => [] end) news)); [now rewrite Nm|]. clear. induction news as [|n l IH]; [reflexivity|]. cbn [flat_map]. rewrite map_app, IH. destruct (said_name n); reflexivity. }
  split; [|split; [|split; [|split; [|split]]]].
  - rewrite C3. change (@nil witem) with (map wire_item []). rewrite (latest_written session says_view said_view (map wire_item) _ c); [now rewrite N|reflexivity|intros n Hn; apply Sw, Hn].
  - rewrite C2. rewrite (latest_written session says_status said_status (fun x => x) _ c); [now rewrite N|reflexivity|intros n Hn; rewrite (proj1 (proj2 (Sw n Hn))); destruct (said_status n); reflexivity].
  - rewrite C1. rewrite (latest_written session says_echo said_echo (fun x => x) _ c); [now rewrite N|reflexivity|intros n Hn; rewrite (proj1 (proj2 (proj2 (Sw n Hn)))); destruct (said_echo n); reflexivity].
  - rewrite C4. rewrite (latest_written session (fun e => option_map in_client (says_info e)) (fun n => option_map (fun x => x) (said_name n)) (fun x => x) _ c); [rewrite N; apply Nh|reflexivity|intros n Hn; rewrite (proj1 (proj2 (proj2 (proj2 (Sw n Hn))))); destruct (said_name n); reflexivity].
  - rewrite C5. rewrite (latest_written session (fun e => option_map in_session (says_info e)) (fun n => option_map (fun _ => session) (said_name n)) (fun x => x) _ c); [rewrite N; apply (Nh _ (fun _ => session))|reflexivity|intros n Hn; rewrite (proj2 (proj2 (proj2 (proj2 (Sw n Hn))))); destruct (said_name n); reflexivity].
  - rewrite latest_values. f_equal. apply (Since _ said_view (fun k => shown_to k c) (fun o => views_addressed o c)). exact Sh0.
Qed.
(** A client that has read everything shows what the editor said to it since it joined: the last view, the last status line, the last
    message (unless a menu was opened since), its own number and the name of the session. *)
Theorem C75_screen : forall ms y c, yreach ms y -> fits y -> In c (sv_index L (sy_server L y)) -> sound ms c -> settled y c ->
  exists ms1 s0 m ms2, ms = ms1 ++ m :: ms2 /\ sreach ms1 s0 /\ handles L s0 m (VJoin c) /\
    let news := addressed (skipn (sv_taken L s0) (the_out y)) c in
    displayed (cs_view (screen y c)) = latest said_view news [] /\ cs_status (screen y c) = latest said_status news [] /\
    cs_echo (screen y c) = latest said_echo news None /\ cs_client (screen y c) = dec c /\ cs_session (screen y c) = session /\
    latest said_view news [] = last (shown_to (k_sent (core_of y)) c) [].
Proof.
  intros ms y c R F Hc S St. destruct (screen_wire ms y c R F Hc S St) as (ms1 & s0 & m & ms2 & A & B & C & D). exists ms1, s0, m, ms2. split; [exact A|]. split; [exact B|]. split; [exact C|]. cbv zeta in *. destruct D as (D & E). split; [|exact E]. rewrite D. apply displayed_wire.
Qed.
(** what is displayed, as it was sent *)
Lemma current_wire ms y c : yreach ms y -> fits y -> In c (sv_index L (sy_server L y)) -> sound ms c -> settled y c -> current G (core_of y) c ->
  exists items, view_params G (core_of y) c = Ok items /\ cs_view (screen y c) = map wire_item items.
Proof.
  intros R F Hc S St (items & La & V). exists items. split; [exact V|]. destruct (screen_wire ms y c R F Hc S St) as (ms1 & s0 & m & ms2 & _ & _ & _ & D & _ & _ & _ & _ & E). rewrite D, E. f_equal. unfold last_shown in La.
  destruct (shown_to (k_sent (core_of y)) c) as [|a l] using rev_ind; [discriminate|]. rewrite rev_app_distr in La. injection La as ->. apply last_last.
Qed.
(** So where what the editor sent last is up to date (C72), a client that has read everything displays exactly what its view shows now. *)
Theorem C75_current : forall ms y c, yreach ms y -> fits y -> In c (sv_index L (sy_server L y)) -> sound ms c -> settled y c -> current G (core_of y) c ->
  exists items, view_params G (core_of y) c = Ok items /\ displayed (cs_view (screen y c)) = items.
Proof.
  intros ms y c R F Hc S St (items & La & V). exists items. split; [exact V|]. destruct (C75_screen ms y c R F Hc S St) as (ms1 & s0 & m & ms2 & _ & _ & _ & D & _ & _ & _ & _ & E). rewrite D, E. unfold last_shown in La.
  destruct (shown_to (k_sent (core_of y)) c) as [|a l] using rev_ind; [discriminate|]. rewrite rev_app_distr in La. injection La as ->. apply last_last.
Qed.
(** ** everything can be read: only the server's writing and the client's reading are needed *)
Lemma deliver_all n : forall ms y, yreach ms y -> sv_done L (sy_server L y) = false -> length (the_out y) - sv_taken L (sy_server L y) = n -> exists l s,
  yreach (ms ++ l) (mkSys L s (sy_peer L y)) /\ Forall (fun m => m = MDeliver (fun _ => false)) l /\ sv_taken L s = length (the_out y) /\ sv_editor L s = sv_editor L (sy_server L y) /\ sv_index L s = sv_index L (sy_server L y).
Proof.
  induction n as [|n IH]; intros ms y R Dn E.
  - exists [], (sy_server L y). rewrite app_nil_r. split; [destruct y; exact R|]. split; [constructor|]. split; [|split; reflexivity]. pose proof (sreach_taken G pol u se L _ _ (yi_reach _ _ (yreach_inv _ _ R))). lia.
  - destruct (nth_error (the_out y) (sv_taken L (sy_server L y))) as [x|] eqn:Q; [|apply nth_error_None in Q; lia].
    set (s1 := deliver L (fun _ => false) x (sy_server L y)). assert (yreach (ms ++ [MDeliver (fun _ => false)]) (mkSys L s1 (sy_peer L y))) as R1.
    { eapply yr_step; [exact R|]. apply ys_server; [discriminate|]. now apply sm_deliver. }
    destruct (IH _ _ R1 Dn ltac:(cbn [sy_server s1 deliver sv_editor sv_taken]; lia)) as (l & s & A & B & C & D & E'). exists (MDeliver (fun _ => false) :: l), s. rewrite <- app_assoc in A. split; [exact A|]. split; [now constructor|]. auto.
Qed.
Lemma receive_all n c : forall ms y, yreach ms y -> fits y -> length (str_lines (sy_out L session y c)) - pr_got (sy_peer L y c) = n -> exists f,
  yreach ms (mkSys L (sy_server L y) f) /\ pr_got (f c) = length (str_lines (sy_out L session y c)) /\ co_sent (pr_conn (f c)) = made y c.
Proof.
  induction n as [|n IH]; intros ms y R F E.
  - exists (sy_peer L y). split; [destruct y; exact R|]. split; [|reflexivity]. pose proof (yreach_inv _ _ R) as I. destruct (yi_got _ _ I F c) as (_ & _ & B & _). unfold sy_out in *. rewrite (lines_to L session _ c (yi_log _ _ I) F), map_length in *. lia.
  - destruct (nth_error (str_lines (sy_out L session y c)) (pr_got (sy_peer L y c))) as [line|] eqn:Q; [|apply nth_error_None in Q; lia].
    pose proof (yr_step G pol u se L checked session ms y [] _ R (ys_receive G pol u se L checked session y c line Q)) as R1. rewrite app_nil_r in R1.
    edestruct (IH _ _ R1) as (f & A & B & C); [exact F|cbn [sy_peer]; unfold put_peer; rewrite Nat.eqb_refl; cbn [pr_got]; change (sy_out L session _ c) with (sy_out L session y c) at 1; lia|].
    exists f. split; [exact A|]. split; [exact B|]. rewrite C. unfold SystemSpec.made. cbn [sy_peer]. unfold put_peer. rewrite Nat.eqb_refl. cbn [pr_conn]. apply read_sent.
Qed.
Theorem C75_drain : forall ms y c, yreach ms y -> fits y -> sv_done L (sy_server L y) = false -> exists l y',
  yreach (ms ++ l) y' /\ Forall (fun m => m = MDeliver (fun _ => false)) l /\ settled y' c /\ fits y' /\ (sound ms c -> sound (ms ++ l) c) /\
  sv_editor L (sy_server L y') = sv_editor L (sy_server L y) /\ sv_index L (sy_server L y') = sv_index L (sy_server L y) /\ made y' c = made y c.
Proof.
  intros ms y c R F Dn. destruct (deliver_all _ ms y R Dn eq_refl) as (l & s & A & B & C & D & E). assert (fits (mkSys L s (sy_peer L y))) as F1 by (unfold SystemSpec.fits; cbn [sy_server]; rewrite D; exact F).
  destruct (receive_all _ c _ _ A F1 eq_refl) as (f & A1 & B1 & C1). exists l, (mkSys L s f). split; [exact A1|]. split; [exact B|]. split; [split; [cbn [sy_server]; rewrite C, D; reflexivity|exact B1]|]. split; [exact F1|]. split; [|auto].
  intro S. apply Forall_app. split; [exact S|]. eapply Forall_impl; [|exact B]. intros m ->. reflexivity.
Qed.
End System.
Print Assumptions C75_requests.
Print Assumptions C75_answered.
Print Assumptions C75_screen.
Print Assumptions C75_current.
Print Assumptions C75_drain.
