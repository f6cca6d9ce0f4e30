(** C78: sockets of bounded size, and writes that wait. *)
From Coq Require Import String List Arith Lia ZArith Bool.
From Verif Require Import EditorTame Base ListFacts PieceTable Coords CoordsFacts CoordsMore Utf8 Utf8Facts Diff Selection Maps StackMap Fmt Buffer View Json JsonFacts Proto ProtoFacts PropProto Core CoreSpec CoreInv Payload Menu Editor EditorSpec EditorFacts Conn PropConn Server ServerSpec ServerFacts PropServer System SystemSpec SystemFacts PropSystem Stream.
Import ListNotations.

(** ** lines *)
Notation lfs x := (count_occ Nat.eq_dec x LF).
Lemma lines_acc_prefix x : forall acc y k line, k < lfs x -> nth_error (str_lines_acc acc x) k = Some line -> nth_error (str_lines_acc acc (x ++ y)) k = Some line.
Proof.
  induction x as [|b x IH]; intros acc y k line H E; [cbn in H; lia|]. cbn [app str_lines_acc] in *. destruct (Nat.eqb_spec b LF) as [->|N].
  - destruct k as [|k]; [exact E|]. cbn [nth_error] in *. apply IH; [|exact E]. cbn [count_occ] in H. destruct (Nat.eq_dec LF LF); [lia|congruence].
  - apply IH; [|exact E]. cbn [count_occ] in H. destruct (Nat.eq_dec b LF); [congruence|exact H].
Qed.
Lemma arrived_whole x n k line : arrived_line (firstn n x) k line -> nth_error (str_lines x) k = Some line.
Proof. intros [H E]. rewrite <- (firstn_skipn n x). apply lines_acc_prefix; assumption. Qed.
Lemma lines_acc_count x : forall acc, length (str_lines_acc acc (x ++ [LF])) = S (lfs x).
Proof.
  induction x as [|b x IH]; intro acc; cbn [app str_lines_acc count_occ].
  - rewrite Nat.eqb_refl. reflexivity.
  - destruct (Nat.eqb_spec b LF) as [->|N]; [destruct (Nat.eq_dec LF LF); [|congruence]; cbn [length]; now rewrite IH|destruct (Nat.eq_dec b LF); [congruence|apply IH]].
Qed.
Lemma lines_ended {A} (f : A -> text) l : length (str_lines (flat_map (fun e => f e ++ [LF]) l)) = lfs (flat_map (fun e => f e ++ [LF]) l).
Proof.
  destruct l as [|a l _] using rev_ind; [reflexivity|]. rewrite flat_map_app. cbn [flat_map]. rewrite app_nil_r, app_assoc. unfold str_lines. rewrite lines_acc_count, !count_occ_app. cbn [count_occ]. destruct (Nat.eq_dec LF LF); [|congruence]. lia.
Qed.

Lemma add_same c n f : add_to c n f c = f c + n.
Proof. unfold add_to. now rewrite Nat.eqb_refl. Qed.
Lemma add_other c d n f : d <> c -> add_to c n f d = f d.
Proof. intro H. unfold add_to. apply Nat.eqb_neq in H. now rewrite H. Qed.

Section Stream.
Variable G : Graphemes.
Variable pol : policy.
Variable u : regex_crate.
Variable se : serde.
Variable L : lua.
Variable checked : bool.
Variable session : text.
Variable cap : nat.
Notation streams := (streams L).
Notation bstep := (bstep G pol u se L checked session cap).
Notation bruns := (bruns G pol u se L checked session cap).
Notation breach := (breach G pol u se L checked session cap).
Notation yreach := (yreach G pol u se L checked session).
Notation b_server := (b_server L).
Notation b_peer := (b_peer L).
Notation b_out := (b_out L session).
Notation b_in := (b_in L).
Notation b_sys := (b_sys L).
Notation b_todo := (b_todo L).
Notation b_put := (b_put L).
Notation b_got := (b_got L).
Notation b_cput := (b_cput L).
Notation b_cgot := (b_cgot L).

(** what the server has yet to write to client [c] *)
Definition left_for (todo : list (nat * text)) (c : nat) : text := flat_map snd (lines_for c todo).
(** the program behaves as with unbounded sockets; all that was written to a client is what it took, what is in the socket and what
    is left to write, and the same the other way *)
Record binv (b : streams) : Prop := {
  bi_sys : exists ms, yreach ms (b_sys b);
  bi_out : forall c, b_got b c <= b_put b c <= b_got b c + cap /\ b_put b c <= length (b_out b c) /\ skipn (b_put b c) (b_out b c) = left_for (b_todo b) c;
  bi_in : forall c, b_cgot b c <= b_cput b c <= b_cgot b c + cap /\ b_cput b c <= length (b_in b c);
  bi_todo : Forall (fun e => snd e <> []) (b_todo b) }.

Lemma start_inv w cwd args st scripts e : editor_new G pol L w session cwd args st scripts = Ok e -> binv (bstart L (server_new L e)).
Proof.
  intro E. constructor; cbn [bstart Stream.b_sys Stream.b_todo Stream.b_put Stream.b_got Stream.b_cput Stream.b_cgot].
  - exists []. eapply yr_start. exact E.
  - intro c. split; [lia|]. split; [lia|reflexivity].
  - intro c. split; lia.
  - constructor.
Qed.
Lemma bytes_app a b c : bytes_to session (a ++ b) c = bytes_to session a c ++ bytes_to session b c.
Proof. unfold bytes_to. now rewrite written_app, flat_map_app. Qed.
Lemma left_lines l c : left_for (map (line_of session) l) c = bytes_to session l c.
Proof.
  unfold left_for, lines_for, bytes_to, written_to. induction l as [|[d x] l IH]; [reflexivity|]. cbn [map line_of fst snd filter flat_map].
  destruct (d =? c); cbn [flat_map app snd fst]; [f_equal; exact IH|exact IH].
Qed.
Lemma left_same t t' c : lines_for c t = lines_for c t' -> left_for t c = left_for t' c.
Proof. unfold left_for. now intros ->. Qed.
Lemma server_more b m s : (exists ms, yreach ms (b_sys b)) -> smoves G pol u se L (b_server b) m (Ok s) -> exists l, sv_log L s = sv_log L (b_server b) ++ l.
Proof.
  intros (ms & R) H. pose proof (yreach_inv _ _ _ _ _ _ _ _ _ R) as I.
  destruct (log_move G pol u se L _ _ _ (sreach_inv G pol u se L _ _ (yi_reach _ _ _ _ _ _ _ _ _ I)) H (yi_log _ _ _ _ _ _ _ _ _ I)) as (_ & _ & X). exact X.
Qed.
Lemma put_peer_in f c p d : (co_sent (pr_conn p) = co_sent (pr_conn (f c))) -> bytes_from (co_sent (pr_conn (put_peer c p f d))) = bytes_from (co_sent (pr_conn (f d))).
Proof. intro H. unfold put_peer. destruct (Nat.eqb_spec d c) as [->|]; [now rewrite H|reflexivity]. Qed.
Lemma bytes_from_app a b : bytes_from (a ++ b) = bytes_from a ++ bytes_from b.
Proof. apply flat_map_app. Qed.

Lemma line_moves s c line s' : smoves G pol u se L s (MLine c line) (Ok s') -> s' = read_line L c line s.
Proof. intro H. remember (Ok s') as r eqn:Er. remember (MLine c line) as m eqn:Em. destruct H; try discriminate. injection Em as -> ->. now injection Er as <-. Qed.

Lemma binv_step b m b' : binv b -> bstep b m b' -> binv b'.
Proof.
  intros [(ms & R) O I T] H. destruct H as [m s todo Et N H Q|k Et H|c n Et Dn Hc Hn Hp|c line s p Et A H|c x r n Et Hn Hp|c o n p N H|c n Hn Hl Hp|c n Hn Hp|c line p A]; constructor;
    cbn [with_sys Stream.b_sys Stream.b_todo Stream.b_put Stream.b_got Stream.b_cput Stream.b_cgot]; try exact T; try (exists ms; exact R).
  - exists (ms ++ [m]). eapply yr_step; [exact R|]. apply ys_server; assumption.
  - destruct (server_more b m s (ex_intro _ ms R) H) as (l & E). intro c. destruct (O c) as (O1 & O2 & O3).
    rewrite (left_same _ _ _ (Q c)). unfold to_write. rewrite E, skipn_app, skipn_all, Nat.sub_diag. cbn [app skipn]. rewrite left_lines.
    assert (b_out (mkStreams L (mkSys L s (sy_peer L (b_sys b))) todo (b_put b) (b_got b) (b_cput b) (b_cgot b)) c = b_out b c ++ bytes_to session l c) as ->.
    { unfold Stream.b_out, sy_out. cbn [Stream.b_sys sy_server]. rewrite E. apply bytes_app. }
    rewrite Et in O3. cbn in O3. split; [exact O1|]. rewrite app_length. split; [lia|]. rewrite skipn_app, O3.
    replace (b_put b c - length (b_out b c)) with 0 by lia. reflexivity.
  - exact I.
  - assert (Forall (fun e => snd e <> []) (to_write L session (b_server b) s)) as F by (apply Forall_forall; intros e He; unfold to_write in He; apply in_map_iff in He; destruct He as (z & <- & _); cbn [line_of snd]; intro X; apply app_eq_nil in X; destruct X; discriminate).
    apply Forall_forall. intros [c x] He. rewrite Forall_forall in F. assert (In (c, x) (lines_for c todo)) as He' by (apply filter_In; split; [exact He|apply Nat.eqb_refl]). rewrite Q in He'. apply filter_In in He'. exact (F _ (proj1 He')).
  - exists (ms ++ []). eapply yr_step; [exact R|]. apply ys_order. exact H.
  - exact O.
  - exact I.
  - intro d. exact (O d).
  - intro d. destruct (I d) as [I1 I2]. destruct (Nat.eq_dec d c) as [->|Nd]; [rewrite add_same; split; [lia|exact I2]|rewrite add_other by exact Nd; auto].
  - exists (ms ++ [MLine c line]). eapply yr_step; [exact R|]. apply ys_read; [eapply arrived_whole; exact A|exact H].
  - intro d. apply line_moves in H. subst s. exact (O d).
  - intro d. destruct (I d) as [I1 I2]. split; [exact I1|]. unfold Stream.b_in, Stream.b_peer in *. cbn [with_sys Stream.b_sys sy_peer]. rewrite put_peer_in by reflexivity. exact I2.
  - intro d. destruct (O d) as (O1 & O2 & O3). change (b_out (mkStreams _ _ _ _ _ _ _) d) with (b_out b d). rewrite Et in O3.
    assert (forall y, left_for (match skipn n x with [] => r | z => (c, z) :: r end) y = (if y =? c then skipn n x else []) ++ left_for r y) as Lf.
    { intro y. unfold left_for, lines_for. destruct (skipn n x) as [|h t]; [now destruct (y =? c)|]. cbn [filter fst]. rewrite (Nat.eqb_sym y c). destruct (c =? y); reflexivity. }
    rewrite Lf. assert (left_for ((c, x) :: r) d = (if d =? c then x else []) ++ left_for r d) as L0 by (unfold left_for, lines_for; cbn [filter fst]; rewrite (Nat.eqb_sym d c); destruct (c =? d); reflexivity). rewrite L0 in O3. destruct (Nat.eqb_spec d c) as [->|Nd].
    + rewrite add_same. split; [lia|]. assert (b_put b c + n <= length (b_out b c)) as K by (assert (length (skipn (b_put b c) (b_out b c)) >= n) as X by (rewrite O3, app_length; lia); rewrite skipn_length in X; lia). split; [exact K|].
      rewrite <- skipn_skipn, O3, skipn_app. replace (n - length x) with 0 by lia. reflexivity.
    + rewrite add_other by exact Nd. split; [exact O1|]. split; [exact O2|exact O3].
  - exact I.
  - rewrite Et in T. inversion T as [|? ? Tx Tr]. subst. destruct (skipn n x) eqn:Q; [exact Tr|]. constructor; [discriminate|exact Tr].
  - exists (ms ++ []). eapply yr_step; [exact R|]. eapply ys_call; eassumption.
  - exact O.
  - intro d. destruct (I d) as [I1 I2]. split; [exact I1|]. unfold Stream.b_in, Stream.b_peer in *. cbn [with_sys Stream.b_sys sy_peer]. unfold put_peer. destruct (Nat.eqb_spec d c) as [->|]; [|exact I2]. cbn [pr_conn].
    destruct (sends_more checked _ _ _ H) as (l & ->). rewrite bytes_from_app, app_length. unfold p, Stream.b_peer. lia.
  - exact O.
  - intro d. destruct (I d) as [I1 I2]. change (b_in (mkStreams _ _ _ _ _ _ _) d) with (b_in b d). destruct (Nat.eq_dec d c) as [->|Nd]; [rewrite add_same; split; lia|rewrite add_other by exact Nd; auto].
  - intro d. destruct (O d) as (O1 & O2 & O3). change (b_out (mkStreams _ _ _ _ _ _ _) d) with (b_out b d). destruct (Nat.eq_dec d c) as [->|Nd]; [rewrite add_same; split; [lia|auto]|rewrite add_other by exact Nd; auto].
  - exact I.
  - exists (ms ++ []). eapply yr_step; [exact R|]. eapply ys_receive. eapply arrived_whole. exact A.
  - exact O.
  - intro d. destruct (I d) as [I1 I2]. split; [exact I1|]. unfold Stream.b_in, Stream.b_peer in *. cbn [with_sys Stream.b_sys sy_peer]. rewrite put_peer_in; [exact I2|]. cbn [pr_conn]. apply read_sent.
Qed.
Lemma runs_inv b ms b' : binv b -> bruns b ms b' -> binv b'.
Proof. intros I R. induction R; auto. eapply binv_step; eauto. Qed.
Lemma breach_inv ms b : breach ms b -> binv b.
Proof. intros (w & cwd & args & st & scripts & e & E & R). eapply runs_inv; [eapply start_inv; exact E|exact R]. Qed.

(** ** the same behaviour *)
(** Whatever the sizes of the sockets, what happens could also happen with unbounded ones (so everything proved in C75 holds); all that
    the server has written to a client is what the client took, what is in its socket, and what the server is still writing. *)
Theorem C78_same : forall bms b, breach bms b -> (exists ms, yreach ms (b_sys b)) /\
  forall c, b_got b c <= b_put b c <= b_got b c + cap /\ b_put b c <= length (b_out b c) /\ skipn (b_put b c) (b_out b c) = left_for (b_todo b) c /\
    b_cgot b c <= b_cput b c <= b_cgot b c + cap /\ b_cput b c <= length (b_in b c).
Proof. intros bms b R. destruct (breach_inv _ _ R) as [S O I _]. split; [exact S|]. intro c. destruct (O c) as (O1 & O2 & O3). destruct (I c). auto. Qed.

(** ** the server waits only for the client it writes to *)
(** the bytes the server has yet to write *)
Definition owed (b : streams) : nat := length (flat_map snd (b_todo b)).
(** the bytes written in a run *)
Definition wrote (m : bmove) : nat := match m with BWrite n => n | _ => 0 end.
Definition wrote_all (ms : list bmove) : nat := list_sum (map wrote ms).
(** While the server is writing to a client, it can go on as soon as that client reads: either bytes fit into the socket now, or they do
    once the client takes one out. *)
Theorem C78_progress : forall bms b c x r, 0 < cap -> breach bms b -> b_todo b = (c, x) :: r ->
  (exists b', bstep b (BWrite 1) b') \/
  (b_put b c = b_got b c + cap /\ exists b1 b2, bstep b (BTake c 1) b1 /\ bstep b1 (BWrite 1) b2).
Proof.
  intros bms b c x r Hc R E. destruct (breach_inv _ _ R) as [_ O _ T]. destruct (O c) as (O1 & _ & _). rewrite E in T. inversion T as [|? ? Tx _]. subst. cbn [snd] in Tx.
  assert (0 < 1 <= length x) as Lx by (destruct x; [congruence|cbn [length]; lia]).
  destruct (le_lt_dec (b_got b c + cap) (b_put b c)) as [Q|Q].
  - right. split; [lia|]. eexists. eexists. split; [apply bs_take; lia|]. eapply bs_write; cbn [Stream.b_todo Stream.b_put Stream.b_got]; [exact E|exact Lx|]. rewrite add_same. lia.
  - left. eexists. eapply bs_write; [exact E|exact Lx|lia].
Qed.
(** No byte is lost or repeated: until the write is finished, what was written and what is left are what was to be written, whatever else
    happens; the server starts nothing new before that. *)
Theorem C78_count : forall b ms b', binv b -> bruns b ms b' -> (forall m, ~ In (BServer m) ms) -> wrote_all ms + owed b' = owed b /\ (owed b' = 0 <-> b_todo b' = []).
Proof.
  intros b ms b' I R N. split.
  - induction R as [|ms b1 m b2 R IH H]; [reflexivity|]. assert (wrote_all ms + owed b1 = owed b) as E by (apply IH; intros m0 X; apply (N m0), in_or_app; now left).
    unfold wrote_all. rewrite map_app, list_sum_app. fold (wrote_all ms). cbn [map list_sum fold_right]. rewrite Nat.add_0_r.
    assert (wrote m + owed b2 = owed b1) as X; [|lia]. destruct H as [m s todo Et M H Q|k Et H|c n Et Dn Hc Hn Hp|c line s p Et A H|c x r n Et Hn Hp|c o n p M H|c n Hn Hl Hp|c n Hn Hp|c line p A]; try reflexivity.
    + destruct (N m). apply in_or_app. right. now left.
    + unfold owed. cbn [Stream.b_todo wrote]. rewrite Et. cbn [flat_map snd]. rewrite app_length. pose proof (skipn_length n x). destruct (skipn n x) eqn:Z; cbn [flat_map snd length] in *; [lia|]. rewrite app_length. cbn [length]. lia.
  - destruct (runs_inv _ _ _ I R) as [_ _ _ T]. unfold owed. destruct T as [|[c x] r Tx _]; [split; reflexivity|]. cbn [flat_map snd] in *. rewrite app_length. destruct x; [congruence|]. cbn [length]. split; [lia|discriminate].
Qed.

Lemma runs_app b ms b1 ms' b2 : bruns b ms b1 -> bruns b1 ms' b2 -> bruns b (ms ++ ms') b2.
Proof. intros R R'. induction R'; [now rewrite app_nil_r|]. rewrite app_assoc. econstructor; eauto. Qed.
Lemma breach_app ms b ms' b' : breach ms b -> bruns b ms' b' -> breach (ms ++ ms') b'.
Proof. intros (w & cwd & args & st & scripts & e & E & R) R'. exists w, cwd, args, st, scripts, e. split; [exact E|]. eapply runs_app; eauto. Qed.
Lemma run1 b m b' : bstep b m b' -> bruns b [m] b'.
Proof. intro H. change [m] with ([] ++ [m]). econstructor; [constructor|exact H]. Qed.
(** only writing and taking bytes *)
Definition pumps (m : bmove) : Prop := match m with BWrite _ | BTake _ _ => True | _ => False end.
Lemma flush n : forall b, 0 < cap -> binv b -> owed b = n -> exists ms b', bruns b ms b' /\ Forall pumps ms /\ b_todo b' = [] /\ b_sys b' = b_sys b /\ (forall c, b_got b c <= b_got b' c).
Proof.
  induction n as [|n IH]; intros b Hc I E.
  - exists [], b. split; [constructor|]. split; [constructor|]. split; [|split; [reflexivity|reflexivity]].
    apply (C78_count b [] b I (br_stay _ _ _ _ _ _ _ _ b)); [intros m []|exact E].
  - destruct (b_todo b) as [|[c x] r] eqn:Et; [unfold owed in E; rewrite Et in E; discriminate|]. pose proof I as [_ O _ T]. destruct (O c) as (O1 & _ & _). rewrite Et in T. inversion T as [|? ? Tx _]. subst. cbn [snd] in Tx.
    assert (0 < 1 <= length x) as Lx by (destruct x; [congruence|cbn [length]; lia]).
    assert (exists ms b1, bruns b ms b1 /\ Forall pumps ms /\ b_todo b1 = (c, x) :: r /\ b_put b1 c + 1 <= b_got b1 c + cap /\ b_sys b1 = b_sys b /\ owed b1 = owed b /\ (forall d, b_got b d <= b_got b1 d)) as (ms & b1 & R1 & P1 & Et1 & Q1 & S1 & W1 & K1).
    { destruct (le_lt_dec (b_got b c + cap) (b_put b c)) as [Q|Q].
      - eexists. eexists. split; [apply run1; apply (bs_take _ _ _ _ _ _ _ _ b c 1); lia|]. split; [repeat constructor|]. cbn [Stream.b_todo Stream.b_put Stream.b_got Stream.b_sys]. split; [exact Et|]. rewrite add_same. split; [lia|]. split; [reflexivity|]. split; [reflexivity|].
        intro d. unfold add_to. destruct (d =? c); lia.
      - exists [], b. split; [constructor|]. split; [constructor|]. split; [exact Et|]. split; [lia|]. split; [reflexivity|]. split; [reflexivity|]. reflexivity. }
    pose proof (bs_write G pol u se L checked session cap b1 c x r 1 Et1 Lx Q1) as H. match type of H with _ ?y => set (b2 := y) in H end.
    pose proof (runs_app _ _ _ _ _ R1 (run1 _ _ _ H)) as R2. pose proof (runs_inv _ _ _ I R2) as I2.
    assert (owed b2 = n) as E2. { pose proof (C78_count b1 [BWrite 1] b2 (runs_inv _ _ _ I R1) (run1 _ _ _ H)) as [X _]; [intros m [Y|[]]; discriminate Y|]. change (wrote_all [BWrite 1]) with 1 in X. lia. }
    destruct (IH b2 Hc I2 E2) as (ms' & b' & R' & P' & Et' & S' & K'). exists ((ms ++ [BWrite 1]) ++ ms'), b'. split; [eapply runs_app; eauto|].
    split; [apply Forall_app; split; [apply Forall_app; split; [exact P1|repeat constructor]|exact P']|]. split; [exact Et'|]. split; [rewrite S'; exact S1|]. intro d. etransitivity; [exact (K1 d)|exact (K' d)].
Qed.
(** Whenever the clients read, the server finishes what it is writing: taking and writing bytes is enough. *)
Theorem C78_finishes : forall bms b, 0 < cap -> breach bms b -> exists ms b', bruns b ms b' /\ Forall pumps ms /\ b_todo b' = [] /\ b_sys b' = b_sys b.
Proof. intros bms b Hc R. destruct (flush _ b Hc (breach_inv _ _ R) eq_refl) as (ms & b' & A & B & C & D & _). eauto 6. Qed.

(** ** everything can be read *)
Definition reading (m : bmove) : Prop := match m with BWrite _ | BTake _ _ | BReceive _ => True | BServer m => m = MDeliver (fun _ => false) | _ => False end.
Lemma pumps_reading ms : Forall pumps ms -> Forall reading ms.
Proof. intro F. eapply Forall_impl; [|exact F]. intros [] H; exact H || destruct H. Qed.
Notation the_out y := (ed_out L (sv_editor L (sy_server L y))).
Lemma deliver_b n : forall b, 0 < cap -> binv b -> sv_done L (b_server b) = false -> length (the_out (b_sys b)) - sv_taken L (b_server b) = n -> exists ms b',
  bruns b ms b' /\ Forall reading ms /\ b_todo b' = [] /\ sv_taken L (b_server b') = length (the_out (b_sys b')) /\ sv_editor L (b_server b') = sv_editor L (b_server b) /\ sy_peer L (b_sys b') = sy_peer L (b_sys b).
Proof.
  induction n as [|n IH]; intros b Hc I Dn E.
  - destruct (flush _ b Hc I eq_refl) as (ms & b' & R & P & T & S & _). exists ms, b'. split; [exact R|]. split; [now apply pumps_reading|]. split; [exact T|]. unfold Stream.b_server in *. rewrite S. split; [|split; reflexivity].
    destruct (bi_sys _ I) as (m & Y). pose proof (sreach_taken G pol u se L _ _ (yi_reach _ _ _ _ _ _ _ _ _ (yreach_inv _ _ _ _ _ _ _ _ _ Y))). lia.
  - destruct (flush _ b Hc I eq_refl) as (ms & b1 & R & P & T & S & _).
    destruct (nth_error (the_out (b_sys b)) (sv_taken L (b_server b))) as [x|] eqn:Q; [|apply nth_error_None in Q; unfold Stream.b_server in *; lia].
    assert (smoves G pol u se L (b_server b1) (MDeliver (fun _ => false)) (Ok (deliver L (fun _ => false) x (b_server b1)))) as M by (apply sm_deliver; unfold Stream.b_server in *; rewrite S; assumption).
    pose proof (bs_server G pol u se L checked session cap b1 (MDeliver (fun _ => false)) _ (to_write L session (b_server b1) (deliver L (fun _ => false) x (b_server b1))) T ltac:(intros c0 line0 X0; discriminate X0) M (fun c => eq_refl)) as H.
    match type of H with _ ?y => set (b2 := y) in H end.
    pose proof (runs_app _ _ _ _ _ R (run1 _ _ _ H)) as R2. pose proof (runs_inv _ _ _ I R2) as I2.
    destruct (IH b2 Hc I2) as (ms' & b' & R' & P' & T' & K1 & K2 & K3).
    { unfold b2, Stream.b_server in *. cbn [Stream.b_sys sy_server deliver sv_done]. rewrite S. exact Dn. }
    { unfold b2, Stream.b_server in *. cbn [Stream.b_sys sy_server deliver sv_editor sv_taken]. rewrite S. lia. }
    exists ((ms ++ [BServer (MDeliver (fun _ => false))]) ++ ms'), b'. split; [eapply runs_app; eauto|]. split; [apply Forall_app; split; [apply Forall_app; split; [now apply pumps_reading|repeat constructor]|exact P']|]. split; [exact T'|]. split; [exact K1|].
    rewrite K2, K3. unfold b2, Stream.b_server. cbn [Stream.b_sys sy_server deliver sv_editor sy_peer]. rewrite S. auto.
Qed.
Lemma take_all b c : binv b -> b_todo b = [] -> exists ms b', bruns b ms b' /\ Forall reading ms /\ b_todo b' = [] /\ b_sys b' = b_sys b /\ b_got b' c = length (b_out b c).
Proof.
  intros I T. destruct (bi_out _ I c) as (O1 & O2 & O3). rewrite T in O3. assert (b_put b c = length (b_out b c)) as Hp.
  { apply (f_equal (@length nat)) in O3. rewrite skipn_length in O3. cbn in O3. lia. }
  destruct (Nat.eq_dec (b_got b c) (b_put b c)) as [Q|Q]; [exists [], b; split; [constructor|]; split; [constructor|]; split; [exact T|]; split; [reflexivity|lia]|].
  eexists. eexists. split; [apply run1; apply (bs_take _ _ _ _ _ _ _ _ b c (b_put b c - b_got b c)); lia|]. split; [repeat constructor|]. cbn [Stream.b_todo Stream.b_sys Stream.b_got]. split; [exact T|]. split; [reflexivity|]. rewrite add_same. lia.
Qed.
Lemma out_lines b c : length (str_lines (b_out b c)) = lfs (b_out b c).
Proof. unfold Stream.b_out, sy_out, bytes_to. apply lines_ended. Qed.
Lemma receive_b n c : forall b, b_todo b = [] -> b_got b c = length (b_out b c) -> length (str_lines (b_out b c)) - pr_got (b_peer b c) = n -> pr_got (b_peer b c) <= length (str_lines (b_out b c)) -> exists ms b',
  bruns b ms b' /\ Forall reading ms /\ b_todo b' = [] /\ b_server b' = b_server b /\ pr_got (b_peer b' c) = length (str_lines (b_out b c)) /\ co_sent (pr_conn (b_peer b' c)) = co_sent (pr_conn (b_peer b c)).
Proof.
  induction n as [|n IH]; intros b T Hg E Le.
  - exists [], b. split; [constructor|]. split; [constructor|]. split; [exact T|]. split; [reflexivity|]. split; [lia|reflexivity].
  - destruct (nth_error (str_lines (b_out b c)) (pr_got (b_peer b c))) as [line|] eqn:Q; [|apply nth_error_None in Q; lia].
    assert (arrived_line (firstn (b_got b c) (b_out b c)) (pr_got (b_peer b c)) line) as A by (rewrite Hg, firstn_all; split; [rewrite <- out_lines; lia|exact Q]).
    pose proof (bs_receive G pol u se L checked session cap b c line A) as H. match type of H with _ ?y => set (b2 := y) in H end.
    assert (b_peer b2 c = mkPeer (read_by line (pr_conn (b_peer b c))) (pr_read (b_peer b c)) (S (pr_got (b_peer b c)))) as Pe by (unfold b2, Stream.b_peer, put_peer; cbn [with_sys Stream.b_sys sy_peer]; now rewrite Nat.eqb_refl).
    destruct (IH b2 T Hg) as (ms & b' & R & P & T' & S' & K1 & K2).
    { change (b_out b2 c) with (b_out b c). rewrite Pe. cbn [pr_got]. lia. }
    { change (b_out b2 c) with (b_out b c). rewrite Pe. cbn [pr_got]. lia. }
    exists ([BReceive c] ++ ms), b'. split; [eapply runs_app; [apply run1; exact H|exact R]|]. split; [constructor; [exact Logic.I|exact P]|]. split; [exact T'|]. split; [exact S'|]. split; [exact K1|].
    rewrite K2, Pe. cbn [pr_conn]. apply read_sent.
Qed.
(** From every state a client can come to have read everything the editor has to say to it, with the server's writing and the clients'
    reading alone, however small the sockets. *)
Theorem C78_drain : forall bms b c, 0 < cap -> breach bms b -> SystemSpec.fits L (b_sys b) -> sv_done L (b_server b) = false -> exists ms b',
  bruns b ms b' /\ Forall reading ms /\ b_todo b' = [] /\ settled L session (b_sys b') c /\ sv_editor L (b_server b') = sv_editor L (b_server b) /\ b_in b' c = b_in b c.
Proof.
  intros bms b c Hc R F Dn. destruct (deliver_b _ b Hc (breach_inv _ _ R) Dn eq_refl) as (m1 & b1 & R1 & P1 & T1 & K1 & K2 & K3). pose proof (runs_inv _ _ _ (breach_inv _ _ R) R1) as I1.
  destruct (take_all b1 c I1 T1) as (m2 & b2 & R2 & P2 & T2 & S2 & G2). pose proof (runs_inv _ _ _ I1 R2) as I2.
  assert (b_out b2 c = b_out b1 c) as Ob by (unfold Stream.b_out; now rewrite S2). rewrite <- Ob in G2.
  assert (pr_got (b_peer b2 c) <= length (str_lines (b_out b2 c))) as Le.
  { destruct (bi_sys _ I2) as (ms & Y). pose proof (yreach_inv _ _ _ _ _ _ _ _ _ Y) as J. assert (SystemSpec.fits L (b_sys b2)) as F2 by (unfold SystemSpec.fits in *; rewrite S2; unfold Stream.b_server in K2; rewrite K2; exact F).
    destruct (yi_got _ _ _ _ _ _ _ _ _ J F2 c) as (_ & _ & B & _). unfold Stream.b_peer, Stream.b_out, sy_out. rewrite (lines_to L session _ c (yi_log _ _ _ _ _ _ _ _ _ J) F2), map_length. exact B. }
  destruct (receive_b _ c b2 T2 G2 eq_refl Le) as (m3 & b3 & R3 & P3 & T3 & S3 & K4 & K5). exists ((m1 ++ m2) ++ m3), b3. split; [eapply runs_app; [eapply runs_app; eauto|exact R3]|]. split; [apply Forall_app; split; [apply Forall_app; auto|exact P3]|]. split; [exact T3|].
  assert (b_server b3 = b_server b1) as Sv by (unfold Stream.b_server in *; rewrite S3, S2; reflexivity). split; [|split].
  - split.
    + unfold Stream.b_server in *. rewrite Sv. exact K1.
    + unfold Stream.b_peer in K4. rewrite K4. unfold Stream.b_out, sy_out. unfold Stream.b_server in S3. now rewrite S3.
  - now rewrite Sv.
  - unfold Stream.b_in. rewrite K5. unfold Stream.b_peer. now rewrite S2, K3.
Qed.

(** ** a client that does not read *)
(** the server is writing to client [c], whose socket is full *)
Definition stalled (b : streams) (c : nat) : Prop := (exists x r, b_todo b = (c, x) :: r) /\ b_put b c = b_got b c + cap.
(** As long as that client does not read, the server does nothing at all: no other client gets another byte, none of their lines is read,
    none of their requests is handled; whatever they do and however long they wait. *)
Theorem C78_stall : forall b c ms b', stalled b c -> bruns b ms b' -> (forall n, ~ In (BTake c n) ms) ->
  stalled b' c /\ b_server b' = b_server b /\ forall d, b_put b' d = b_put b d /\ b_out b' d = b_out b d /\ b_cgot b' d = b_cgot b d /\ pr_read (b_peer b' d) = pr_read (b_peer b d).
Proof.
  intros b c ms b' St R N. induction R as [|ms b1 m b2 R IH H]; [split; [exact St|split; [reflexivity|auto]]|]. assert (forall n, ~ In (BTake c n) ms) as N1 by (intros n X; apply (N n), in_or_app; now left). destruct (IH N1) as (Sb & Sv & K). destruct Sb as [(x & r & Et) Q].
  assert (forall n, m <> BTake c n) as Nm by (intros n ->; apply (N n), in_or_app; right; now left).
  destruct H as [m s todo Et1 M H Z|k Et1 H|d n Et1 Dn Hc Hn Hp|d line s p Et1 A H|d x1 r1 n Et1 Hn Hp|d o n p M H|d n Hn Hl Hp|d n Hn Hp|d line p A]; try (rewrite Et1 in Et; discriminate).
  - rewrite Et1 in Et. injection Et as -> _ _. lia.
  - split; [split; [exists x, r; exact Et|exact Q]|]. split; [exact Sv|]. intro d'. destruct (K d') as (K1 & K2 & K3 & K4). split; [exact K1|]. split; [exact K2|]. split; [exact K3|]. unfold Stream.b_peer in *. cbn [with_sys Stream.b_sys sy_peer]. unfold put_peer. destruct (Nat.eqb_spec d' d) as [->|]; [|exact K4]. cbn [pr_read]. exact K4.
  - split; [split; [exists x, r; exact Et|exact Q]|]. split; [exact Sv|]. intro d'. exact (K d').
  - assert (d <> c) as Nd by (intros ->; exact (Nm n eq_refl)). split; [split; [exists x, r; exact Et|]|split; [exact Sv|intro d'; exact (K d')]]. cbn [Stream.b_put Stream.b_got]. rewrite add_other by congruence. exact Q.
  - split; [split; [exists x, r; exact Et|exact Q]|]. split; [exact Sv|]. intro d'. destruct (K d') as (K1 & K2 & K3 & K4). split; [exact K1|]. split; [exact K2|]. split; [exact K3|]. unfold Stream.b_peer in *. cbn [with_sys Stream.b_sys sy_peer]. unfold put_peer. destruct (Nat.eqb_spec d' d) as [->|]; [|exact K4]. cbn [pr_read]. exact K4.
Qed.
End Stream.

(** ** one request is enough to stall the server *)
Lemma print_str_len s : length s <= length (print_str s).
Proof.
  unfold print_str. cbn [length]. rewrite app_length. assert (length s <= length (flat_map escape s)); [|lia]. induction s as [|b s IH]; [cbn; lia|]. cbn [flat_map length]. rewrite app_length.
  assert (1 <= length (escape b)); [|lia]. unfold escape. repeat match goal with |- context [if ?x then _ else _] => destruct x end; cbn; lia.
Qed.
Lemma commas_len x l : In x l -> length x <= length (commas l).
Proof.
  induction l as [|a l IH]; intro H; [destruct H|]. destruct l as [|b l]; [destruct H as [->|[]]; reflexivity|]. change (commas (a :: b :: l)) with (a ++ 44 :: commas (b :: l)). rewrite app_length. cbn [length].
  destruct H as [->|H]; [lia|]. specialize (IH H). lia.
Qed.
Lemma member_len k j l : In (k, j) l -> length (print j) <= length (print (JObj l)).
Proof.
  intro H. cbn [print length]. rewrite app_length. assert (In (print_str k ++ 58 :: print j) (map (fun e => print_str (fst e) ++ 58 :: print (snd e)) l)) as M by (apply in_map_iff; exists (k, j); auto).
  apply commas_len in M. rewrite app_length in M. cbn [length] in M. lia.
Qed.
(** the answer to a menu that does not exist *)
Definition unknown_menu (i : id) (cmd : text) : response := new_response i (inr (invalid_params (str "unknown command: " ++ cmd))).
Lemma unknown_len i cmd : length cmd <= length (print_event (EvResponse (unknown_menu i cmd))).
Proof.
  unfold print_event. cbn [enc_event]. etransitivity; [|eapply (member_len (str "error")); apply in_or_app; right; apply in_or_app; right; left; reflexivity].
  etransitivity; [|eapply (member_len (str "data")); right; right; left; reflexivity]. cbn [er_data invalid_params print]. etransitivity; [|apply print_str_len]. rewrite app_length. lia.
Qed.
(** a name longer than those of all menus, and than the socket *)
Lemma long_name {A} (m : amap text A) n : exists cmd, get m cmd = None /\ n < length cmd.
Proof.
  exists (repeat 120 (S (n + list_sum (map (fun e => length (fst e)) m)))). split.
  - assert (forall k, list_sum (map (fun e : text * A => length (fst e)) m) < length k -> get m k = None) as H.
    { induction m as [|[k0 v] m IH]; intros k Hk; [reflexivity|]. cbn [map list_sum fold_right fst] in Hk. cbn [get]. destruct (eqb k k0) eqn:Q; [apply eqb_ok in Q; subst; lia|]. apply IH. unfold list_sum. lia. }
    apply H. rewrite repeat_length. lia.
  - rewrite repeat_length. lia.
Qed.

Section Stall.
Variable G : Graphemes.
Variable pol : policy.
Variable u : regex_crate.
Variable se : serde.
Variable L : lua.
Variable checked : bool.
Variable session : text.
Variable cap : nat.
Notation streams := (streams L).
Notation bruns := (bruns G pol u se L checked session cap).
Notation breach := (breach G pol u se L checked session cap).
Notation b_server := (b_server L).
Notation b_peer := (b_peer L).
Notation b_out := (b_out L session).
Notation b_in := (b_in L).
Notation b_sys := (b_sys L).
Notation b_todo := (b_todo L).
Notation b_put := (b_put L).
Notation b_got := (b_got L).
Notation b_cput := (b_cput L).
Notation b_cgot := (b_cgot L).
(** client [c] is registered, the server has nothing to do for the moment and has read all of [c]'s requests; [c] can make another *)
Definition idle (b : streams) (c : nat) : Prop :=
  b_todo b = [] /\ sv_done L (b_server b) = false /\ sv_events L (b_server b) = [] /\ In c (sv_index L (b_server b)) /\ In c (sv_readers L (b_server b)) /\
  b_cgot b c = length (b_in b c) /\ pr_read (b_peer b c) = length (co_sent (pr_conn (b_peer b c))) /\ (co_next (pr_conn (b_peer b c)) < 2147483647)%Z.
(** moves of client [c] that do not read, and of the server *)
Definition no_reading (c : nat) (m : bmove) : Prop := match m with BServer _ | BLoad _ _ | BRead _ | BWrite _ => True | BCall d _ | BSend d _ => d = c | _ => False end.

Lemma pump n c : forall b, 0 < cap -> b_todo b = [] -> sv_done L (b_server b) = false -> In c (sv_readers L (b_server b)) -> b_cgot b c <= b_cput b c <= length (b_in b c) -> length (b_in b c) - b_cgot b c = n -> b_cput b c <= b_cgot b c + cap -> exists ms b',
  bruns b ms b' /\ Forall (no_reading c) ms /\ b_sys b' = b_sys b /\ b_todo b' = [] /\ b_put b' = b_put b /\ b_got b' = b_got b /\ b_cgot b' c = length (b_in b c).
Proof.
  induction n as [|n IH]; intros b Hc T Dn Hr Hl E Hq; [exists [], b; repeat split; [constructor|constructor|exact T|lia]|].
  assert (exists ms b1, bruns b ms b1 /\ Forall (no_reading c) ms /\ b_sys b1 = b_sys b /\ b_todo b1 = [] /\ b_put b1 = b_put b /\ b_got b1 = b_got b /\ b_cgot b1 c = b_cgot b c /\ b_cgot b c < b_cput b1 c <= length (b_in b c) /\ b_cput b1 c <= b_cgot b c + cap) as (ms & b1 & R1 & P1 & S1 & T1 & K1 & K2 & K3 & K4 & K5).
  { destruct (Nat.eq_dec (b_cput b c) (b_cgot b c)) as [Q|Q].
    - eexists. eexists. split; [apply run1; apply (bs_send _ _ _ _ _ _ _ _ b c 1); lia|]. cbn [Stream.b_sys Stream.b_todo Stream.b_put Stream.b_got Stream.b_cput Stream.b_cgot]. rewrite add_same. repeat split; [repeat constructor|exact T|lia..].
    - exists [], b. repeat split; [constructor|constructor|exact T|lia..]. }
  assert (b_in b1 c = b_in b c) as Ib by (unfold Stream.b_in, Stream.b_peer; now rewrite S1). assert (b_server b1 = b_server b) as Sb by (unfold Stream.b_server; now rewrite S1).
  assert (b_cgot b1 c + 1 <= b_cput b1 c) as Hx by lia. rewrite <- Sb in Dn, Hr. pose proof (bs_load G pol u se L checked session cap b1 c 1 T1 Dn Hr Nat.lt_0_1 Hx) as H. match type of H with _ ?y => set (b2 := y) in H end.
  assert (b_cgot b2 c = b_cgot b c + 1) as G2 by (unfold b2; cbn [Stream.b_cgot]; rewrite add_same; lia).
  destruct (IH b2 Hc T1 Dn Hr) as (ms' & b' & R' & P' & S' & T' & M1 & M2 & M3).
  - rewrite G2. change (b_in b2 c) with (b_in b1 c). change (b_cput b2 c) with (b_cput b1 c). rewrite Ib. lia.
  - rewrite G2. change (b_in b2 c) with (b_in b1 c). rewrite Ib. lia.
  - rewrite G2. change (b_cput b2 c) with (b_cput b1 c). lia.
  - exists ((ms ++ [BLoad c 1]) ++ ms'), b'. split; [eapply runs_app; [eapply runs_app; [exact R1|apply run1; exact H]|exact R']|]. split; [apply Forall_app; split; [apply Forall_app; split; [exact P1|repeat constructor]|exact P']|].
    split; [rewrite S'; exact S1|]. split; [exact T'|]. split; [rewrite M1; exact K1|]. split; [rewrite M2; exact K2|]. rewrite M3. change (b_in b2 c) with (b_in b1 c). now rewrite Ib.
Qed.
Lemma unknown_handled w c id cmd e : wire_request (new_request id (str "menu") (Some (enc_menu (mkMenuP cmd [])))) -> get (ed_menus L e) cmd = None ->
  handle G pol u se L w c (print_request (new_request id (str "menu") (Some (enc_menu (mkMenuP cmd []))))) e = Ok (unknown_menu id cmd, e).
Proof.
  intros W M. rewrite (PropEditor.handle_menu G pol u se L w c _ e _ (line_parsed _ W) (mkMenuP cmd [])).
  - unfold command_menu. cbn [mp_command]. rewrite M. reflexivity.
  - split; [reflexivity|]. eexists. split; [reflexivity|]. reflexivity.
Qed.
(** From every state in which the server is idle, whatever the sizes of the sockets, one request of a client that does not read brings
    the server to a halt (until that client reads, see C78_stall). *)
Theorem C78_refuted : forall (w : world) bms b c, 0 < cap -> breach bms b -> idle b c -> exists ms b',
  bruns b ms b' /\ Forall (no_reading c) ms /\ stalled L cap b' c.
Proof.
  intros w bms b c Hc R (T & Dn & Ev & Hi & Hr & Hg & Hp & Hn). pose proof (breach_inv _ _ _ _ _ _ _ _ _ _ R) as I. destruct (bi_sys _ _ _ _ _ _ _ _ _ I) as (ys & Y). pose proof (yreach_inv _ _ _ _ _ _ _ _ _ Y) as J.
  destruct (long_name (ed_menus L (sv_editor L (b_server b))) cap) as (cmd & Gm & Lc). set (cn := pr_conn (b_peer b c)) in *. set (q := new_request (IdNum (co_next cn)) (str "menu") (Some (enc_menu (mkMenuP cmd [])))).
  (* the call *)
  assert (cstep checked cn (OpMenu cmd []) = Ok (mkConn (co_state cn) (co_next cn + 1) (co_sent cn ++ [q]))) as Hcall by (cbn [cstep]; unfold Conn.send, request_id, i32_succ; apply Z.ltb_lt in Hn; rewrite Hn; reflexivity).
  pose proof (bs_call G pol u se L checked session cap b c (OpMenu cmd []) _ ltac:(discriminate) Hcall) as H1. match type of H1 with _ ?y => set (b1 := y) in H1 end.
  pose proof (binv_step _ _ _ _ _ _ _ _ _ _ _ I H1) as I1.
  assert (b_peer b1 c = mkPeer (mkConn (co_state cn) (co_next cn + 1) (co_sent cn ++ [q])) (pr_read (b_peer b c)) (pr_got (b_peer b c))) as Pe by (unfold b1, Stream.b_peer, put_peer; cbn [with_sys Stream.b_sys sy_peer]; now rewrite Nat.eqb_refl).
  (* its bytes go over *)
  destruct (bi_in _ _ _ _ _ _ _ _ _ I1 c) as [N1 N2]. destruct (pump _ c b1 Hc T Dn Hr (conj (proj1 N1) N2) eq_refl (proj2 N1)) as (m2 & b2 & R2 & P2 & S2 & T2 & K1 & K2 & K3).
  pose proof (runs_inv _ _ _ _ _ _ _ _ _ _ _ I1 R2) as I2. assert (b_in b2 c = b_in b1 c) as In2 by (unfold Stream.b_in, Stream.b_peer; now rewrite S2). rewrite <- In2 in K3.
  (* the line is read *)
  assert (Forall wire_request (co_sent cn ++ [q])) as Wq. { destruct (bi_sys _ _ _ _ _ _ _ _ _ I1) as (ys1 & Y1). pose proof (yi_conn _ _ _ _ _ _ _ _ _ (yreach_inv _ _ _ _ _ _ _ _ _ Y1) c) as [_ W]. unfold Stream.b_peer in Pe. rewrite Pe in W. exact W. }
  assert (b_peer b2 c = b_peer b1 c) as Pe2 by (unfold Stream.b_peer; now rewrite S2). rewrite Pe in Pe2.
  assert (arrived_line (firstn (b_cgot b2 c) (b_in b2 c)) (pr_read (b_peer b2 c)) (print_request q)) as A.
  { rewrite K3, firstn_all. unfold Stream.b_in. rewrite Pe2. cbn [pr_conn co_sent pr_read]. rewrite Hp. fold cn. split.
    - unfold bytes_from. rewrite <- lines_ended. fold (bytes_from (co_sent cn ++ [q])). rewrite lines_from, map_length, app_length by exact Wq. cbn [length]. lia.
    - rewrite lines_from by exact Wq. rewrite map_app, nth_error_app2 by (rewrite map_length; lia). rewrite map_length, Nat.sub_diag. reflexivity. }
  assert (b_server b2 = b_server b) as Sv2 by (unfold Stream.b_server; rewrite S2; reflexivity).
  assert (smoves G pol u se L (b_server b2) (MLine c (print_request q)) (Ok (read_line L c (print_request q) (b_server b2)))) as M3 by (apply sm_line; rewrite Sv2; assumption).
  pose proof (bs_read G pol u se L checked session cap b2 c _ _ T2 A M3) as H3. match type of H3 with _ ?y => set (b3 := y) in H3 end.
  (* the request is handled *)
  assert (wire_request q) as W1 by (apply Forall_app in Wq; destruct Wq as [_ Wq]; now inversion Wq).
  set (s4 := mkSv L (sv_editor L (b_server b)) (sv_index L (b_server b)) [] (sv_readers L (b_server b)) (sv_next L (b_server b)) (sv_taken L (b_server b)) (sv_log L (b_server b) ++ [(c, WAnswer (unknown_menu (IdNum (co_next cn)) cmd))]) false).
  assert (smoves G pol u se L (b_server b3) (MEvent w (fun _ => false)) (Ok s4)) as M4.
  { assert (event_step G pol u se L w (fun _ => false) (VMessage c (print_request q)) [] (b_server b3) = Ok s4) as Es.
    { unfold event_step, on_event. unfold b3, Stream.b_server. cbn [with_sys Stream.b_sys sy_server read_line sv_editor sv_index sv_readers sv_next sv_taken sv_log]. fold (b_server b2). rewrite Sv2.
      unfold q. rewrite unknown_handled by (assumption || exact Gm). cbn [bind]. assert (existsb (Nat.eqb c) (sv_index L (b_server b)) = true) as -> by (apply existsb_exists; exists c; split; [exact Hi|apply Nat.eqb_refl]). cbn [negb bind].
      pose proof (si_stop _ _ _ _ _ _ (sreach_inv G pol u se L _ _ (yi_reach _ _ _ _ _ _ _ _ _ J))) as St. unfold removed_clients. fold (b_server b) in St. rewrite St. cbn [remove_all bind is_leave andb]. unfold s4. do 2 f_equal.
      unfold set_stopped. clear - St. destruct (sv_editor L (b_server b)). simpl in St. subst. reflexivity. }
    rewrite <- Es. apply sm_event; unfold b3, Stream.b_server; cbn [with_sys Stream.b_sys sy_server read_line sv_done sv_events]; fold (b_server b2); rewrite Sv2; [exact Dn|now rewrite Ev]. }
  pose proof (bs_server G pol u se L checked session cap b3 (MEvent w (fun _ => false)) s4 (to_write L session (b_server b3) s4) T2 ltac:(intros c0 l0 X0; discriminate X0) M4 (fun d => eq_refl)) as H4. match type of H4 with _ ?y => set (b4 := y) in H4 end.
  set (x := print_event (EvResponse (unknown_menu (IdNum (co_next cn)) cmd)) ++ [LF]).
  assert (b_todo b4 = [(c, x)]) as T4. { unfold b4. cbn [Stream.b_todo]. unfold to_write. assert (sv_log L (b_server b3) = sv_log L (b_server b)) as -> by (unfold b3, Stream.b_server; cbn [with_sys Stream.b_sys sy_server read_line sv_log]; fold (b_server b2); now rewrite Sv2). unfold s4. cbn [sv_log]. rewrite skipn_app, skipn_all, Nat.sub_diag. reflexivity. }
  assert (cap < length x) as Lx by (unfold x; rewrite app_length; pose proof (unknown_len (IdNum (co_next cn)) cmd); lia).
  (* and the answer does not fit *)
  assert (b_put b4 = b_put b /\ b_got b4 = b_got b) as [Eq1 Eq2] by (split; [exact K1|exact K2]).
  destruct (bi_out _ _ _ _ _ _ _ _ _ I c) as ((O1 & O2) & _).
  assert (bruns b ((([BCall c (OpMenu cmd [])] ++ m2) ++ [BRead c]) ++ [BServer (MEvent w (fun _ => false))]) b4) as R4 by (eapply runs_app; [eapply runs_app; [eapply runs_app; [apply run1; exact H1|exact R2]|apply run1; exact H3]|apply run1; exact H4]).
  assert (Forall (no_reading c) ((([BCall c (OpMenu cmd [])] ++ m2) ++ [BRead c]) ++ [BServer (MEvent w (fun _ => false))])) as P4 by (apply Forall_app; split; [apply Forall_app; split; [apply Forall_app; split; [repeat constructor|exact P2]|repeat constructor]|repeat constructor]).
  destruct (Nat.eq_dec (b_put b c) (b_got b c + cap)) as [Q|Q].
  - eexists. exists b4. split; [exact R4|]. split; [exact P4|]. split; [eauto|]. rewrite Eq1, Eq2. exact Q.
  - set (n := b_got b c + cap - b_put b c). assert (0 < n <= length x) as Hx by (unfold n; lia). assert (b_put b4 c + n <= b_got b4 c + cap) as Hy by (rewrite Eq1, Eq2; unfold n; lia).
    pose proof (bs_write G pol u se L checked session cap b4 c x [] n T4 Hx Hy) as H5. match type of H5 with _ ?y => set (b5 := y) in H5 end.
    eexists. exists b5. split; [eapply runs_app; [exact R4|apply run1; exact H5]|]. split; [apply Forall_app; split; [exact P4|repeat constructor]|]. split.
    + unfold b5. cbn [Stream.b_todo]. pose proof (skipn_length n x) as Sx. destruct (skipn n x) as [|h t]; [cbn [length] in Sx; unfold n in Sx; lia|eauto].
    + unfold b5. cbn [Stream.b_put Stream.b_got]. rewrite add_same, Eq1, Eq2. unfold n. lia.
Qed.
End Stall.
Print Assumptions C78_same.
Print Assumptions C78_progress.
Print Assumptions C78_count.
Print Assumptions C78_finishes.
Print Assumptions C78_drain.
Print Assumptions C78_stall.
Print Assumptions C78_refuted.
