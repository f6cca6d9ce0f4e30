(** C76: listing the sessions. *)
From Coq Require Import String List Arith Lia Bool Permutation.
From Verif Require Import Base Maps Daemon PropDaemon.
Import ListNotations.

Definition tidy (s : machine) : Prop := uniq (m_socks s) /\ (m_dir s = false -> m_socks s = []).
Lemma tidy_move s m s' : tidy s -> dmoves s m s' -> tidy s'.
Proof.
  intros [U D] M. unfold tidy. inversion M; subst; ss; try (split; [exact U|exact D]).
  - split; [exact U|discriminate].
  - split; [now apply uniq_set|]. intro X. congruence.
  - split; [now apply uniq_del|]. intro X. rewrite (D X). reflexivity.
  - split; [exact U|]. intros _. assumption.
Qed.
Lemma reached_tidy s : reached s -> tidy s.
Proof. intros (ms & R). induction R as [|ms s1 m s2 R IH M]; [split; [constructor|reflexivity]|]. eapply tidy_move; eauto. Qed.

(** In every reachable state, whatever crashed or raced: the list has no name twice, and only names for which a server was started. *)
Theorem C76_names : forall s l, reached s -> lists s l -> NoDup l /\ forall n, In n l -> exists i p, m_servers s i = Some (n, p).
Proof.
  intros s l R L. destruct (reached_tidy _ R) as [U D]. unfold lists in L. destruct (m_dir s) eqn:E.
  - split; [eapply Permutation_NoDup; [apply Permutation_sym; exact L|exact U]|]. intros n Hn.
    apply (Permutation_in _ L) in Hn. apply get_some in Hn. destruct Hn as (i & Hi). destruct (s_sock _ (reached_sane _ R) n i Hi) as (q & Q). eauto.
  - subst. split; [constructor|intros n []].
Qed.
Print Assumptions C76_names.

Lemma calm_reached s : calm s -> reached s.
Proof.
  assert (forall s m s', reached s -> dmoves s m s' -> reached s') as Go by (intros s0 m s' (ms & R) M; exists (ms ++ [m]); econstructor; eauto).
  induction 1; [exists []; constructor|eauto..].
Qed.
Lemma listed_sock s l n : reached s -> lists s l -> (In n l <-> exists i, m_sock s n = Some i).
Proof.
  intros R L. destruct (reached_tidy _ R) as [U D]. unfold lists, m_sock in *. destruct (m_dir s).
  - rewrite get_some. split; apply Permutation_in; [exact L|apply Permutation_sym; exact L].
  - subst. rewrite (D eq_refl). split; [intros []|intros (i & X); discriminate X].
Qed.
(** One thing at a time, nothing crashing: every session with a registered client is listed, every listed session has a server that is
    not dead; and when nothing is in progress the list is exactly the sessions whose server accepts clients. *)
Theorem C76_partial : forall s l, calm s -> lists s l ->
  (forall c n i, m_clients s c = Some (n, CJoined i) -> In n l) /\
  (forall n, In n l -> exists i p, m_servers s i = Some (n, p) /\ p <> Dead) /\
  (settled s -> forall n, In n l <-> exists i, m_servers s i = Some (n, Listening)).
Proof.
  intros s l C L. destruct (calm_ok _ C) as [k [B _]]. pose proof (fun n => listed_sock s l n (calm_reached _ C) L) as K. split; [|split].
  - intros c n i X. apply K. exists i. apply (b_listening _ B). exact (b_joined _ B _ _ _ X).
  - intros n X. apply K in X. destruct X as (i & X). destruct (b_sock _ B _ _ X) as [_ (p & Y & Z)]. exists i, p. split; auto. destruct Z as [-> |[-> | ->]]; discriminate.
  - intros [S _] n. rewrite K. split; intros (i & X).
    + destruct (b_sock _ B _ _ X) as [_ (p & Y & Z)]. exists i. destruct (S _ _ _ Y) as [-> | ->]; auto. destruct Z as [Z|[Z|Z]]; discriminate.
    + exists i. now apply (b_listening _ B).
Qed.
Print Assumptions C76_partial.
Example C76_demo : exists s l, calm s /\ settled s /\ lists s l /\ In w1 l.
Proof.
  destruct C71_demo as (s & C & S & A & B). exists s, (if m_dir s then keys (m_socks s) else []). split; [exact C|]. split; [exact S|].
  assert (lists s (if m_dir s then keys (m_socks s) else [])) as L by (unfold lists; destruct (m_dir s); [apply Permutation_refl|reflexivity]).
  split; [exact L|]. destruct (C76_partial _ _ C L) as (H & _). exact (H _ _ _ A).
Qed.

(** A session whose server crashed stays listed: whatever is done afterwards, until a server is started by hand, every list names it and no
    server of it runs. *)
Theorem C76_crash_refuted : forall s n i, reached s -> m_sock s n = Some i -> all_dead s n ->
  forall ms s' l, druns s ms s' -> (forall j, ~ In (Serve j n) ms) -> lists s' l ->
    In n l /\ all_dead s' n.
Proof.
  intros s n i R Sk D ms s' l Rs NS L.
  assert (m_sock s' n = Some i /\ all_dead s' n) as [Sk' D'].
  { clear L. induction Rs as [|ms s1 m s2 Rs IH M]; auto. destruct IH as [A B]; [intros j X; apply (NS j), in_app_iff; auto|].
    eapply dead_move; eauto. intros j ->. apply (NS j), in_app_iff. right. now left. }
  split; [|exact D']. apply (listed_sock s' l n); eauto. destruct R as (ms0 & R). exists (ms0 ++ ms). eapply druns_app; eauto.
Qed.
Print Assumptions C76_crash_refuted.
(** A session in use need not be listed: starting a second server for it by hand makes it vanish from the list. *)
Theorem C76_hand_refuted : forall s c n i j, reached s -> m_sock s n = Some i -> m_clients s c = Some (n, CJoined i) -> m_servers s j = None ->
  exists ms s', druns s ms s' /\ (forall k, ~ In (Crash k) ms) /\ m_clients s' c = Some (n, CJoined i) /\ m_servers s' i = m_servers s i /\
    forall l, lists s' l -> ~ In n l.
Proof.
  intros s c n i j R Sk Hc Hj. destruct (C71_hand_refuted s n i j R Sk Hj) as (s' & Rs & N & _ & Si & Cl).
  eexists. exists s'. split; [exact Rs|]. split. { intros k X. cbn in X. repeat (destruct X as [X|X]; [discriminate|]). destruct X. }
  split; [now rewrite Cl|]. split; [exact Si|]. intros l L Hn. apply (listed_sock s' l n) in Hn; auto.
  - destruct Hn as (k & X). congruence.
  - destruct R as (ms0 & R). eexists. eapply druns_app; eauto.
Qed.
Print Assumptions C76_hand_refuted.
