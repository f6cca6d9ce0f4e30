(** C42, the positive part: a server where careful things happen and nobody quits does not panic. *)
From Coq Require Import String List Arith Lia ZArith Bool.
From Verif Require Import Base ListFacts PieceTable PieceTableSpec History Coords Utf8 Utf8Facts Diff Selection Maps StackMap Fmt Buffer View Json Proto Core CoreSpec CoreInv CoreOps Payload Menu PropMenu Editor EditorSpec EditorFacts PropEditor EditorTame PropEditorSafe Server ServerSpec ServerFacts PropServer ServerTame.
Import ListNotations.

Section Safe.
Variable G : Graphemes.
Variable pol : policy.
Hypothesis Hpol : policy_wrap pol \/ policy_succ pol.
Variable u : regex_crate.
Variable se : serde.
Variable L : lua.
Notation server := (server L).
Notation smoves := (smoves G pol u se L).
Notation careful_server := (careful_server G pol u se L).
Notation careful_move := (careful_move G pol u se L).

Lemma careful_event s w b v rest : sinv G pol u se L s -> (forall c, phase L False s c) -> careful_reach G pol u se L (sv_editor L s) ->
  sv_events L s = v :: rest -> careful_move s (MEvent w b) -> exists s', event_step G pol u se L w b v rest s = Ok s' /\ careful_reach G pol u se L (sv_editor L s').
Proof.
  intros I P R Ev C. destruct (C v rest Ev) as [Cv Cm]. destruct (C37_careful_partial G pol u se L Hpol w _ _ R Cv) as (e & H & R'). pose proof (si_stop _ _ _ _ _ _ I) as St. pose proof (ereach_inv _ _ _ _ _ _ (si_ed _ _ _ _ _ _ I)) as Ie.
  assert (forall t, mine (from v) (v :: t) = v :: mine (from v) t) as Mn by (intro; now apply mine_same).
  unfold event_step. destruct v as [c|c|c line]; cbn [as_event happens] in H; cbn [on_event].
  - rewrite H. cbn [bind]. destruct (join_effect G pol L _ _ _ _ Ie H) as (S & _). unfold removed_clients. rewrite S, St. cbn [remove_all bind]. eexists. split; [reflexivity|]. cbn [sv_editor]. exact (cr_removed _ _ _ _ _ _ R').
  - rewrite H. cbn [bind]. assert (In c (sv_index L s)) as Hc.
    { destruct (P c) as [H1 H2 H3 H4 H5|t H1 H2 H3 H4 H5|H1 H2 H3|H1 H2 H3 H4|H0 H1 H2 H3]; try contradiction; auto; rewrite Ev in H2; cbn [from] in Mn; rewrite Mn in H2; discriminate. }
    unfold index_remove. rewrite (proj2 (in_existsb c _) Hc). cbn [bind]. destruct (leave_effect G pol L _ _ _ _ Ie H) as (S & _). unfold removed_clients. rewrite S, St. cbn [remove_all bind]. eexists. split; [reflexivity|]. cbn [sv_editor]. exact (cr_removed _ _ _ _ _ _ R').
  - destruct (Cm c line eq_refl) as [B Q]. bnd H. destruct v as [r e1]. injection H as ->. cbn [bind]. assert (In c (sv_index L s)) as Hc.
    { destruct (P c) as [H1 H2 H3 H4 H5|t H1 H2 H3 H4 H5|H1 H2 H3|H1 H2 H3 H4|H0 H1 H2 H3]; try contradiction; auto; rewrite Ev in H2; cbn [from] in Mn; rewrite Mn in H2; discriminate. }
    rewrite (proj2 (in_existsb c _) Hc), B. cbn [negb bind]. destruct (handle_effect G pol u se L _ _ _ _ _ _ Ie E) as [[X _]|(_ & S & _)]; [contradiction|]. unfold removed_clients. rewrite S, St. cbn [remove_all bind]. eexists. split; [reflexivity|]. cbn [sv_editor]. exact (cr_removed _ _ _ _ _ _ R').
Qed.
Lemma careful_server_inv s : careful_server s -> sinv G pol u se L s /\ (forall c, phase L False s c) /\ careful_reach G pol u se L (sv_editor L s).
Proof.
  induction 1 as [w session cwd args st scripts e E R|s m s' C (I & P & R) Cm H|s k C (I & P & R) Sh].
  - split; [eapply sinv_start; eauto|]. split; [intro c; apply phase_start|exact R].
  - assert (sinv G pol u se L s') as I' by (eapply sinv_move; eauto). split; auto. split.
    + intro c. eapply phase_move; [exact I|exact H| |apply P]. intros w b line rest -> Ev Q. destruct (Cm _ _ Ev) as [_ X]. destruct (X c line eq_refl) as [_ N]. exact (N Q).
    + destruct m; try (inversion H; subst; exact R). assert (exists v rest, sv_events L s = v :: rest) as (v & rest & Ev) by (inversion H; subst; eauto). destruct (careful_event _ _ _ _ _ I P R Ev Cm) as (s2 & E & R2). rewrite (moves_event _ _ _ _ _ _ _ _ _ _ _ H Ev) in E. injection E as <-. exact R2.
  - split; [now apply sinv_shuffle|]. split; [intro c; apply phase_shuffle, P|]. apply cr_shuffle; auto.
Qed.
(** Whatever careful thing happens, the server goes on. *)
Theorem C42_careful_partial : forall s m r, careful_server s -> careful_move s m -> smoves s m r -> exists s', r = Ok s' /\ careful_server s'.
Proof.
  intros s m r C Cm H. destruct (careful_server_inv s C) as (I & P & R).
  assert (forall s', r = Ok s' -> careful_server s') as K by (intros s' ->; eapply cs_move; eauto).
  destruct m; try (inversion H; subst; [eexists; split; [reflexivity|]; auto]). 1: destruct Cm.
  assert (exists v rest, sv_events L s = v :: rest) as (v & rest & Ev) by (inversion H; subst; eauto). destruct (careful_event _ _ _ _ _ I P R Ev Cm) as (s2 & E & R2). rewrite (moves_event _ _ _ _ _ _ _ _ _ _ _ H Ev) in E. eauto.
Qed.
(** Nothing is lost by waiting: as long as it runs, a server with an event or a notification in its queues can handle it, and
    every connection can go on. *)
Theorem C42_progress : forall s, sv_done L s = false ->
  (sv_events L s <> [] -> forall w b, exists r, smoves s (MEvent w b) r) /\
  (sv_taken L s < length (ed_out L (sv_editor L s)) -> forall b, exists s', smoves s (MDeliver b) (Ok s')) /\
  (exists s', smoves s MAccept (Ok s')) /\
  (forall c, In c (sv_readers L s) -> (forall line, exists s', smoves s (MLine c line) (Ok s')) /\ exists s', smoves s (MEnd c) (Ok s')).
Proof.
  intros s D. split; [|split; [|split]].
  - intros N w b. destruct (sv_events L s) as [|v rest] eqn:Ev; [congruence|]. eexists. eapply sm_event; eauto.
  - intros T b. destruct (nth_error (ed_out L (sv_editor L s)) (sv_taken L s)) as [x|] eqn:E; [|apply nth_error_None in E; lia]. eexists. eapply sm_deliver; eauto.
  - eexists. now apply sm_accept.
  - intros c H. split; [intro line|]; eexists; [now apply sm_line|now apply sm_end].
Qed.
End Safe.
