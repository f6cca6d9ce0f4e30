(** C73: standalone mode answers every line of its input. *)
From Coq Require Import String List Arith Lia ZArith Bool Permutation Wellfounded Lexicographic_Product Relation_Operators.
From Verif Require Import Base ListFacts PieceTable Coords Utf8 Utf8Facts Diff Selection Maps StackMap Fmt Buffer View Json Proto Core CoreSpec CoreInv CoreOps Payload Menu PropMenu Editor EditorSpec EditorFacts PropEditor Server ServerSpec ServerFacts PropServer Standalone PropStandalone StandLoop.
Import ListNotations.

(** ** specification: the answers and the notifications among the lines printed *)
Definition printed_answers (l : list written) : list response := flat_map (fun x => match x with WAnswer r => [r] | _ => [] end) l.
Definition printed_notifs (l : list written) : list enotif := flat_map (fun x => match x with WNotif n => [n] | _ => [] end) l.
(** the lines that are UTF-8 *)
Definition texts (l : list (option text)) : list text := flat_map (fun x => match x with Some t => [t] | None => [] end) l.

Section Loop.
Variable G : Graphemes.
Variable pol : policy.
Variable u : regex_crate.
Variable se : serde.
Variable L : lua.
Notation lstep := (lstep G pol u se L).
Notation lruns := (lruns G pol u se L).

(** one client sends these lines one by one and gets these answers *)
Inductive served : editor L -> list text -> list response -> editor L -> Prop :=
| sv_none e : served e [] [] e
| sv_line w k x a e e1 e2 xs r : served e xs r e1 -> shuffle (ed_core L e1) k -> handle G pol u se L w standalone_client x (set_core L e1 k) = Ok (a, e2) -> served e (xs ++ [x]) (r ++ [a]) e2.
Lemma served_answers e xs r e' : served e xs r e' -> Forall2 answers xs r.
Proof.
  induction 1 as [|w k x a e e1 e2 xs r S IH _ E]; [constructor|]. apply Forall2_app; [exact IH|]. constructor; [|constructor]. pose proof (C37_partial G pol u se L _ _ _ _ _ _ E) as Z. unfold answers. destruct (parse_request x); apply Z.
Qed.
Definition told (s : loop L) : list response := printed_answers (lp_printed L s) ++ match lp_pending L s with Some a => [a] | None => [] end.
Lemma pa_app a b : printed_answers (a ++ b) = printed_answers a ++ printed_answers b.
Proof. apply flat_map_app. Qed.
Lemma pn_app a b : printed_notifs (a ++ b) = printed_notifs a ++ printed_notifs b.
Proof. apply flat_map_app. Qed.
Lemma texts_app a b : texts (a ++ b) = texts a ++ texts b.
Proof. apply flat_map_app. Qed.
Lemma addressed_snoc o x c : addressed (o ++ [x]) c = addressed o c ++ (if should_notify (o_to x) c then [o_what x] else []).
Proof. unfold addressed, should_notify. rewrite filter_app, map_app. f_equal. cbn [filter]. destruct (o_to x); [destruct (existsb _ _)|]; reflexivity. Qed.
Lemma firstn_more {A} n (l : list A) x : nth_error l n = Some x -> firstn (S n) l = firstn n l ++ [x].
Proof. revert l. induction n as [|n IH]; intros [|y l] E; cbn in E; try discriminate; [injection E as ->; reflexivity|]. change (y :: firstn (S n) l = y :: (firstn n l ++ [x])). now rewrite (IH l). Qed.

Lemma shuffle_refl k : shuffle k k.
Proof.
  assert (forall {K V} (R : V -> V -> Prop) (l : amap K V), (forall v, R v v) -> Forall2 (fun e e' => fst e = fst e' /\ R (snd e) (snd e')) l l) as F.
  { intros K V R l H. induction l; constructor; auto. }
  unfold shuffle. do 4 (split; [reflexivity|]). split; [apply Permutation_refl|]. split; [reflexivity|]. exists (cmap k). split; [apply Permutation_refl|]. apply F. intro c. split; [reflexivity|]. exists (c_sels c). split; [apply Permutation_refl|]. apply F. intro. apply Permutation_refl.
Qed.
Lemma shuffled_out e k : shuffle (ed_core L e) k -> ed_out L (set_core L e k) = ed_out L e.
Proof. intros (_ & S & _). unfold set_core. cbn [ed_out]. rewrite S, skipn_all. cbn. apply app_nil_r. Qed.
Lemma grow_firstn {A} n (a b : list A) : n <= length a -> firstn n (a ++ b) = firstn n a.
Proof. intro H. rewrite firstn_app. replace (n - length a) with 0 by lia. cbn. apply app_nil_r. Qed.

Lemma sh_inv e k : einv G pol L e -> shuffle (ed_core L e) k -> einv G pol L (set_core L e k).
Proof. intros I S. apply set_core_inv; auto; [eapply reach_shuffle; eauto; apply I|]. destruct S as (_ & S & _). apply same_sent. congruence. Qed.
Lemma leave_inv w id e e' : einv G pol L e -> editor_remove_client G pol L w id e = Ok e' -> einv G pol L e'.
Proof. intros I E. unfold editor_remove_client in E. bnd E. bnd E. destruct v0. injection E as <-. eapply exec_inv; [|eauto]. eapply do_core_inv; eauto. Qed.
(** the files were opened and the client is there *)
Definition begun (e : editor L) : Prop := exists w cwd args st scripts files, start_standalone G pol L w cwd args st scripts files = Ok (Some e).
Lemma begun_inv e : begun e -> einv G pol L e.
Proof.
  intros (w & cwd & args & st & scripts & files & E). unfold start_standalone in E. bnd E. destruct (negb _); [discriminate|]. bnd E. rename v0 into e1.
  assert (einv G pol L e1) as I1 by (eapply (ereach_inv G pol u se L), er_join; [eapply er_new|]; eauto). clear E0 E1. revert e1 I1 E. induction files as [|f r IH]; intros e1 I1 E; cbn [open_files] in E; destruct (negb _); try discriminate; [injection E as <-; exact I1|].
  bnd E. destruct v0 as [o e2]. apply (IH e2); [|exact E]. unfold command_edit in E0. bnd E0. injection E0 as _ <-. eapply do_core_inv; eauto.
Qed.
(** the two threads do not disturb each other *)
Record linv (e0 : editor L) (input : list (option text)) (s : loop L) : Prop := {
  v_reach : einv G pol L (lp_editor L s);
  v_taken : lp_taken L s <= length (ed_out L (lp_editor L s));
  v_notifs : printed_notifs (lp_printed L s) = addressed (firstn (lp_taken L s) (ed_out L (lp_editor L s))) standalone_client;
  v_lines : exists handled, input = handled ++ lp_input L s /\
    exists e, served e0 (texts handled) (told s) e /\
      (lp_left L s = false -> lp_editor L s = e /\ lp_exited L s = false) /\
      (lp_left L s = true -> lp_input L s = [] /\ lp_pending L s = None /\ exists w k, shuffle (ed_core L e) k /\ editor_remove_client G pol L w standalone_client (set_core L e k) = Ok (lp_editor L s)) }.
Lemma linv_new e input : einv G pol L e -> linv e input (loop_new L e input).
Proof.
  intro R. split; [exact R|cbn; lia|reflexivity|]. exists []. split; [reflexivity|]. exists e. split; [constructor|]. split; [auto|discriminate].
Qed.
Lemma linv_step e0 input s s' : linv e0 input s -> lstep s s' -> linv e0 input s'.
Proof.
  intros [R T N (h & Hi & e & Sv & Hl & Hr)] H. destruct H as [w k x r a e' Lf Pd In_ Sh E|r Lf Pd In_|a Lf Pd Ft|x Ex Nx|w k e' Lf Pd In_ Sh E|Lf Ex Ft]; try destruct (Hl Lf) as [<- _].
  - assert (einv G pol L (set_core L (lp_editor L s) k)) as R1 by (now apply sh_inv). pose proof R1 as I1.
    assert (more_out L (set_core L (lp_editor L s) k) e') as [l M] by (destruct (handle_effect G pol u se L _ _ _ _ _ _ I1 E) as [(_ & _ & _ & _ & M)|(_ & _ & _ & M)]; exact M). rewrite (shuffled_out _ _ Sh) in M.
    split; cbn [lp_editor lp_taken lp_printed lp_input lp_left].
    + eapply handle_inv; [exact R1|exact E].
    + rewrite M, app_length. lia.
    + rewrite M, grow_firstn by exact T. exact N.
    + exists (h ++ [Some x]). split; [rewrite Hi, In_, <- app_assoc; reflexivity|]. exists e'. split; [|split; [split; reflexivity|discriminate]]. rewrite texts_app. unfold told in *. cbn [lp_printed lp_pending]. rewrite Pd, app_nil_r in Sv. eapply sv_line; eauto.
  - split; cbn [lp_editor lp_taken lp_printed lp_input lp_left]; auto. exists (h ++ [None]). split; [rewrite Hi, In_, <- app_assoc; reflexivity|]. exists (lp_editor L s). split; [|split; [split; reflexivity|discriminate]]. rewrite texts_app. cbn. rewrite app_nil_r. unfold told in *. cbn [lp_printed lp_pending]. now rewrite Pd in Sv.
  - split; cbn [lp_editor lp_taken lp_printed lp_input lp_left]; auto.
    + rewrite pn_app. cbn. now rewrite app_nil_r.
    + exists h. split; [exact Hi|]. exists (lp_editor L s). split; [|split; [split; reflexivity|discriminate]]. unfold told in *. cbn [lp_printed lp_pending]. rewrite Pd in Sv. rewrite pa_app. cbn. now rewrite app_nil_r.
  - split; cbn [lp_editor lp_taken lp_printed lp_input lp_left]; auto.
    + apply nth_error_Some. congruence.
    + rewrite (firstn_more _ _ _ Nx), addressed_snoc, pn_app, N. f_equal. destruct (should_notify _ _); reflexivity.
    + exists h. split; [exact Hi|]. exists e. split; [|split; [|exact Hr]]. * unfold told in *. cbn [lp_printed lp_pending]. rewrite pa_app. replace (printed_answers (if should_notify (o_to x) standalone_client then _ else _)) with (@nil response) by (destruct (should_notify _ _); reflexivity). now rewrite app_nil_r.
      * intro X. destruct (Hl X). auto.
  - assert (einv G pol L (set_core L (lp_editor L s) k)) as R1 by (now apply sh_inv). pose proof R1 as I1. destruct (leave_effect G pol L _ _ _ _ I1 E) as (_ & _ & l & M). rewrite (shuffled_out _ _ Sh) in M.
    split; cbn [lp_editor lp_taken lp_printed lp_input lp_left].
    + eapply leave_inv; [exact R1|exact E].
    + rewrite M, app_length. lia.
    + rewrite M, grow_firstn by exact T. exact N.
    + exists h. split; [now rewrite Hi, In_|]. exists (lp_editor L s). split; [|split; [discriminate|]]. * unfold told in *. cbn [lp_printed lp_pending]. now rewrite Pd in Sv. * intros _. split; [reflexivity|]. split; [reflexivity|]. eauto.
  - split; cbn [lp_editor lp_taken lp_printed lp_input lp_left]; auto. exists h. split; [exact Hi|]. exists e. split; [exact Sv|]. split; [discriminate|]. intros _. now apply Hr.
Qed.
Lemma linv_runs e0 input s s' : linv e0 input s -> lruns s s' -> linv e0 input s'.
Proof. intros I R. induction R; [exact I|]. eapply linv_step; eauto. Qed.

(** ** C73 *)
(** At any moment: the lines that were read are a prefix of the input, each was answered once, in order, with its identifier
    ([told]: the answers printed, and the one about to be); the editor went through exactly these requests; the notifications
    printed are those addressed to the client among the ones taken from the queue, in order. *)
Theorem C73_partial : forall e0 input s, begun e0 -> lruns (loop_new L e0 input) s ->
  exists handled, input = handled ++ lp_input L s /\ Forall2 answers (texts handled) (told s) /\
    (lp_left L s = false -> served e0 (texts handled) (told s) (lp_editor L s)) /\
    printed_notifs (lp_printed L s) = addressed (firstn (lp_taken L s) (ed_out L (lp_editor L s))) standalone_client.
Proof.
  intros e0 input s R H. destruct (linv_runs _ _ _ _ (linv_new _ _ (begun_inv _ R)) H) as [_ _ N (h & Hi & e & Sv & Hl & _)]. exists h. split; [exact Hi|]. split; [eapply served_answers; eauto|]. split; [|exact N]. intro Lf. destruct (Hl Lf) as [-> _]. exact Sv.
Qed.
(** when the program has ended, every line of the input was answered *)
Theorem C73_complete : forall e0 input s, begun e0 -> lruns (loop_new L e0 input) s -> lp_exited L s = true ->
  Forall2 answers (texts input) (printed_answers (lp_printed L s)).
Proof.
  intros e0 input s R H X. destruct (linv_runs _ _ _ _ (linv_new _ _ (begun_inv _ R)) H) as [_ _ _ (h & Hi & e & Sv & Hl & Hr)]. destruct (lp_left L s) eqn:Lf; [|destruct (Hl eq_refl); congruence].
  destruct (Hr eq_refl) as (Ni & Np & _). rewrite Ni, app_nil_r in Hi. subst h. apply served_answers in Sv. unfold told in Sv. rewrite Np, app_nil_r in Sv. exact Sv.
Qed.
(** the program goes on until it ends, unless a call panics (or leaves the model); the input is finite *)
Theorem C73_progress : forall e0 input s w, begun e0 -> lruns (loop_new L e0 input) s -> lp_exited L s = false ->
  (exists s', lstep s s') \/
  (exists x r, lp_input L s = Some x :: r /\ lp_pending L s = None /\ forall y, handle G pol u se L w standalone_client x (lp_editor L s) <> Ok y) \/
  (lp_input L s = [] /\ lp_pending L s = None /\ forall y, editor_remove_client G pol L w standalone_client (lp_editor L s) <> Ok y).
Proof.
  intros e0 input s w R H X. destruct (linv_runs _ _ _ _ (linv_new _ _ (begun_inv _ R)) H) as [_ T _ _]. assert (set_core L (lp_editor L s) (ed_core L (lp_editor L s)) = lp_editor L s) as Sc.
  { unfold set_core. rewrite skipn_all. cbn. rewrite app_nil_r. now destruct (lp_editor L s). }
  destruct (le_lt_dec (length (ed_out L (lp_editor L s))) (lp_taken L s)) as [D|D].
  - assert (fits L s) as Ft by (unfold fits, queue_room; lia). destruct (lp_left L s) eqn:Lf; [left; eexists; now apply ls_exit|]. destruct (lp_pending L s) as [a|] eqn:Pd; [left; eexists; eapply ls_answer; eauto|].
    destruct (lp_input L s) as [|[x|] r] eqn:Ip.
    + destruct (editor_remove_client G pol L w standalone_client (lp_editor L s)) as [e'| |] eqn:E; [left; eexists; eapply (ls_end _ _ _ _ _ s w (ed_core L (lp_editor L s)) e'); eauto; [apply shuffle_refl|now rewrite Sc]|right; right..]; split; auto; split; auto; intro; congruence.
    + destruct (handle G pol u se L w standalone_client x (lp_editor L s)) as [[a e']| |] eqn:E; [left; eexists; eapply (ls_line _ _ _ _ _ s w (ed_core L (lp_editor L s)) x r a e'); eauto; [apply shuffle_refl|now rewrite Sc]|right; left..]; exists x, r; split; auto; split; auto; intro; congruence.
    + left. eexists. eapply ls_garbage; eauto.
  - left. destruct (nth_error (ed_out L (lp_editor L s)) (lp_taken L s)) as [x|] eqn:Nx; [|apply nth_error_None in Nx; lia]. eexists. eapply ls_notification; eauto.
Qed.
Definition rank (s : loop L) : nat := 2 * length (lp_input L s) + (match lp_pending L s with Some _ => 1 | None => 0 end) + (if lp_left L s then 0 else 1) + (if lp_exited L s then 0 else 1).
Definition backlog (s : loop L) : nat := length (ed_out L (lp_editor L s)) - lp_taken L s.
Lemma step_rank s s' : (lp_exited L s = true -> lp_left L s = true) -> lstep s s' -> rank s' < rank s \/ (rank s' = rank s /\ backlog s' < backlog s).
Proof.
  intros X H. destruct H as [w k x r a e' Lf Pd In_ Sh E|r Lf Pd In_|a Lf Pd Ft|x Ex Nx|w k e' Lf Pd In_ Sh E|Lf Ex Ft]; unfold rank, backlog; cbn [lp_editor lp_taken lp_printed lp_input lp_left lp_pending lp_exited].
  - left. rewrite In_, Pd, Lf. destruct (lp_exited L s); [specialize (X eq_refl); congruence|]. cbn [length]. lia.
  - left. rewrite In_, Pd, Lf. destruct (lp_exited L s); [specialize (X eq_refl); congruence|]. cbn [length]. lia.
  - left. rewrite Pd, Lf. destruct (lp_exited L s); [specialize (X eq_refl); congruence|]. lia.
  - right. rewrite Ex. split; [reflexivity|]. assert (lp_taken L s < length (ed_out L (lp_editor L s))) by (apply nth_error_Some; congruence). lia.
  - left. rewrite In_, Pd, Lf. destruct (lp_exited L s); [specialize (X eq_refl); congruence|]. cbn [length]. lia.
  - left. rewrite Lf, Ex. lia.
Qed.
(** no run goes on for ever *)
Theorem C73_ends : forall e0 input s, begun e0 -> lruns (loop_new L e0 input) s -> Acc (fun a b => lstep b a) s.
Proof.
  intros e0 input s R H. pose proof (linv_runs _ _ _ _ (linv_new _ _ (begun_inv _ R)) H) as I. clear H. revert s I.
  assert (forall n m s, linv e0 input s -> rank s <= n -> backlog s <= m -> Acc (fun a b => lstep b a) s) as A.
  { induction n as [n IHn] using lt_wf_ind. induction m as [m IHm] using lt_wf_ind. intros s I Hn Hm. constructor. intros s' St. pose proof (linv_step _ _ _ _ I St) as I'.
    assert (lp_exited L s = true -> lp_left L s = true) as X. { intro Y. destruct I as [_ _ _ (h & _ & e & _ & Hl & _)]. destruct (lp_left L s); [reflexivity|]. destruct (Hl eq_refl). congruence. }
    destruct (step_rank _ _ X St) as [Lt|[Eq Lt]].
    - apply (IHn (rank s') ltac:(lia) (backlog s') s' I'); lia.
    - apply (IHm (backlog s') ltac:(lia) s' I'); lia. }
  intros s I. exact (A (rank s) (backlog s) s I (le_n _) (le_n _)).
Qed.
(** the printing thread catches up *)
Lemma drain s : lp_exited L s = false -> lp_taken L s <= length (ed_out L (lp_editor L s)) -> exists out, lruns s (mkLp L (lp_editor L s) (lp_input L s) (lp_pending L s) (length (ed_out L (lp_editor L s))) out (lp_left L s) false) /\ printed_answers out = printed_answers (lp_printed L s).
Proof.
  intros X T. remember (backlog s) as n eqn:Hn. revert s X T Hn. induction n as [|n IH]; intros s X T Hn; unfold backlog in Hn.
  - exists (lp_printed L s). split; [|reflexivity]. replace (length (ed_out L (lp_editor L s))) with (lp_taken L s) by lia. rewrite <- X. destruct s. apply lr_stay.
  - destruct (nth_error (ed_out L (lp_editor L s)) (lp_taken L s)) as [x|] eqn:Nx; [|apply nth_error_None in Nx; lia]. pose proof (ls_notification G pol u se L s x X Nx) as St. set (s1 := mkLp _ _ _ _ _ _ _ _) in St.
    destruct (IH s1) as (out & R & P); [reflexivity|cbn; lia|unfold backlog; cbn; lia|]. exists out. split.
    + assert (forall b, lruns s1 b -> lruns s b) as Pre. { intros b Hb. induction Hb; [eapply lr_step; [apply lr_stay|exact St]|eapply lr_step; eauto]. } exact (Pre _ R).
    + rewrite P. cbn [s1 lp_printed]. rewrite pa_app. replace (printed_answers (if should_notify (o_to x) standalone_client then _ else _)) with (@nil response) by (destruct (should_notify _ _); reflexivity). apply app_nil_r.
Qed.
Lemma lruns_trans a b c : lruns a b -> lruns b c -> lruns a c.
Proof. intros R1 R2. induction R2; [exact R1|]. eapply lr_step; eauto. Qed.
(** the answers of Standalone.v are those of some run *)
Theorem C73_sequential : forall e0 input s, begun e0 -> lruns (loop_new L e0 input) s -> lp_left L s = false -> lp_pending L s = None -> forall w lines rs e', lp_input L s = map Some lines ->
  standalone_lines G pol u se L w lines (lp_editor L s) = Ok (rs, e') ->
  exists s', lruns s s' /\ lp_exited L s' = true /\ lp_editor L s' = e' /\ printed_answers (lp_printed L s') = printed_answers (lp_printed L s) ++ rs.
Proof.
  intros e0 input s R H Lf Pd w lines. assert (forall e, set_core L e (ed_core L e) = e) as Sc. { intro e. unfold set_core. rewrite skipn_all. cbn. rewrite app_nil_r. now destruct e. }
  assert (forall s, lruns (loop_new L e0 input) s -> lp_left L s = false -> lp_exited L s = false) as Nx. { intros s1 H1 L1. destruct (linv_runs _ _ _ _ (linv_new _ _ (begun_inv _ R)) H1) as [_ _ _ (h & _ & e & _ & Hl & _)]. now apply Hl. }
  revert w s H Lf Pd. induction lines as [|x r IH]; intros w s H Lf Pd rs e' Ip E; cbn [standalone_lines] in E; bnd E.
  - injection E as <- <-. rename v into e1.
    assert (lstep s (mkLp L e1 [] None (lp_taken L s) (lp_printed L s) true false)) as St by (eapply (ls_end _ _ _ _ _ s (w 0) (ed_core L (lp_editor L s)) e1); eauto; [apply shuffle_refl|now rewrite Sc]).
    set (s1 := mkLp _ _ _ _ _ _ _ _) in St. assert (lruns (loop_new L e0 input) s1) as H1 by (eapply lr_step; eauto). pose proof (linv_runs _ _ _ _ (linv_new _ _ (begun_inv _ R)) H1) as I1. destruct (drain s1 eq_refl (v_taken _ _ _ I1)) as (out & D & P).
    eexists. split; [eapply lr_step; [eapply lruns_trans; [eapply lr_step; [apply lr_stay|exact St]|exact D]|apply ls_exit; [reflexivity|reflexivity|unfold fits; cbn; lia]]|]. cbn [lp_exited lp_editor lp_printed]. split; [reflexivity|]. split; [reflexivity|]. rewrite P, app_nil_r. reflexivity.
  - destruct v as [a e1]. bnd E. destruct v as [l e2]. injection E as <- <-.
    assert (lstep s (mkLp L e1 (map Some r) (Some a) (lp_taken L s) (lp_printed L s) false false)) as St by (eapply (ls_line _ _ _ _ _ s (w 0) (ed_core L (lp_editor L s)) x (map Some r) a e1); eauto; [apply shuffle_refl|now rewrite Sc]).
    set (s1 := mkLp _ _ _ _ _ _ _ _) in St. assert (lruns (loop_new L e0 input) s1) as H1 by (eapply lr_step; eauto). pose proof (linv_runs _ _ _ _ (linv_new _ _ (begun_inv _ R)) H1) as I1. destruct (drain s1 eq_refl (v_taken _ _ _ I1)) as (out & D & P).
    set (s2 := mkLp _ _ _ _ _ _ _ _) in D. assert (lstep s2 (mkLp L e1 (map Some r) None (lp_taken L s2) (lp_printed L s2 ++ [WAnswer a]) false false)) as St2 by (apply (ls_answer _ _ _ _ _ s2 a); [reflexivity|reflexivity|unfold fits; cbn; lia]).
    set (s3 := mkLp _ _ _ _ _ (lp_printed L s2 ++ _) _ _) in St2. assert (lruns s s3) as H3 by (eapply lr_step; [eapply lruns_trans; [eapply lr_step; [apply lr_stay|exact St]|exact D]|exact St2]).
    destruct (IH (fun n => w (S n)) s3 (lruns_trans _ _ _ H H3) eq_refl eq_refl l e2 eq_refl) as (s' & H' & X & Ed & Pr); [exact E1|]. exists s'. split; [eapply lruns_trans; eauto|]. split; [exact X|]. split; [exact Ed|]. rewrite Pr. cbn [s3 lp_printed]. rewrite pa_app. cbn [s2 lp_printed]. rewrite P. cbn. now rewrite <- app_assoc.
Qed.

(** ** quitting does not end the program: it goes on reading, and the next request to open a file panics *)
Lemma gone_stays s s' : einv G pol L (lp_editor L s) -> ~ connected (ed_core L (lp_editor L s)) standalone_client -> lstep s s' -> einv G pol L (lp_editor L s') /\ ~ connected (ed_core L (lp_editor L s')) standalone_client.
Proof.
  intros R N H. destruct H as [w k x r a e' Lf Pd In_ Sh E|r Lf Pd In_|a Lf Pd Ft|x Ex Nx|w k e' Lf Pd In_ Sh E|Lf Ex Ft]; auto; cbn [lp_editor].
  - assert (einv G pol L (set_core L (lp_editor L s) k)) as R1 by (now apply sh_inv). pose proof R1 as I1. split; [eapply handle_inv; [exact R1|exact E]|].
    assert (~ connected (ed_core L (set_core L (lp_editor L s) k)) standalone_client) as N1 by (intro X; apply N; destruct Sh as (_ & _ & _ & _ & _ & _ & m & P & F); unfold connected, cmap in *; cbn [set_core ed_core] in X; rewrite (perm_keys _ _ _ P), (keys_F2 shuffle_client _ _ F); exact X).
    destruct (handle_effect G pol u se L _ _ _ _ _ _ I1 E) as [(_ & _ & _ & C & _)|(_ & _ & C & _)]; rewrite C; tauto.
  - assert (einv G pol L (set_core L (lp_editor L s) k)) as R1 by (now apply sh_inv). pose proof R1 as I1. split; [eapply leave_inv; [exact R1|exact E]|]. destruct (leave_effect G pol L _ _ _ _ I1 E) as (_ & C & _). rewrite C. tauto.
Qed.
Theorem C73_quit : forall e0 input s s1 x r, begun e0 -> lruns (loop_new L e0 input) s -> lp_left L s = false -> lp_pending L s = None ->
  lp_input L s = Some x :: r -> lp_input L s1 = r -> quits L (lp_editor L s) x -> lstep s s1 ->
  lp_left L s1 = false /\ forall s2, lruns s1 s2 -> forall w y q p res, parse_request y = Some q -> asks dec_edit (str "edit") p q -> handle G pol u se L w standalone_client y (lp_editor L s2) <> Ok res.
Proof.
  intros e0 input s s1 x r R H Lf Pd Ip Ip1 Q St. pose proof (linv_runs _ _ _ _ (linv_new _ _ (begun_inv _ R)) H) as [Rs _ _ _].
  assert (einv G pol L (lp_editor L s1) /\ ~ connected (ed_core L (lp_editor L s1)) standalone_client /\ lp_left L s1 = false) as (R1 & N1 & L1).
  { destruct St as [w k x' r' a e' _ _ In_ Sh E|r' _ _ In_|a _ Pd' Ft|x' Ex Nx|w k e' _ _ In_ Sh E|Lf' Ex Ft]; try congruence; [|cbn [lp_input] in Ip1; exfalso; rewrite Ip in Ip1; revert Ip1; clear; intro E; apply (f_equal (@length _)) in E; cbn in E; lia].
    rewrite Ip in In_. injection In_ as <- <-. cbn [lp_editor lp_left]. assert (einv G pol L (set_core L (lp_editor L s) k)) as R1 by (now apply sh_inv). pose proof R1 as I1. split; [eapply handle_inv; [exact R1|exact E]|]. split; [|reflexivity].
    destruct (handle_effect G pol u se L _ _ _ _ _ _ I1 E) as [(_ & G1)|(Nq & _)]; [|exfalso; apply Nq; destruct Q as (q & Pq & Hq); exists q; split; [exact Pq|exact Hq]]. destruct G1 as (_ & _ & C & _). rewrite C. tauto. }
  split; [exact L1|]. intros s2 H2. assert (~ connected (ed_core L (lp_editor L s2)) standalone_client) as N2. { assert (einv G pol L (lp_editor L s2) /\ ~ connected (ed_core L (lp_editor L s2)) standalone_client) as [_ N2]; [|exact N2]. clear -H2 R1 N1. induction H2 as [|a b _ IH St]; [auto|]. destruct IH. eapply gone_stays; eauto. }
  intros w y q p res Pq [Mq (j & Pj & Dj)] E. destruct res as [a e']. unfold handle in E. rewrite Pq, Mq in E. change (with_params se L dec_edit q (command_edit G pol L w standalone_client) (lp_editor L s2) = Ok (a, e')) in E.
  unfold with_params, answer in E. bnd E. destruct v as [o e1]. clear E. unfold params_of in E0. rewrite Pj in E0. assert (command_edit G pol L w standalone_client p (lp_editor L s2) = Ok (o, e1)) as E by (destruct j; rewrite ?Dj in E0; try exact E0; discriminate).
  unfold command_edit in E. bnd E. unfold do_core in E1. bnd E1. destruct v0 as [r0 e2]. unfold on_core in E2. bnd E2. destruct v0 as [r2 k2]. cbn [run_call] in E3. bnd E3. apply edit_spec in E4. destruct E4 as (c & Gc & _). apply N2. unfold connected. eapply get_key_in; eauto.
Qed.
End Loop.
Print Assumptions C73_partial.
Print Assumptions C73_complete.
Print Assumptions C73_progress.
Print Assumptions C73_ends.
Print Assumptions C73_sequential.
Print Assumptions C73_quit.
