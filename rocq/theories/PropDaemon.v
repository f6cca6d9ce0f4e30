(** C71: the name of a session leads to its server. *)
From Coq Require Import String List Arith Lia Bool.
From Verif Require Import Base Maps Daemon.
Import ListNotations.

(** ** vocabulary *)
(** nothing is in progress: servers accept connections or are gone, clients are registered or gone *)
Definition settled_server (o : option (text * sphase)) : Prop := forall n p, o = Some (n, p) -> p = Listening \/ p = Dead.
Definition settled_client (o : option (text * cphase)) : Prop := forall n p, o = Some (n, p) -> (exists i, p = CJoined i) \/ p = CLeft.
Definition settled (s : machine) : Prop := (forall i, settled_server (m_servers s i)) /\ forall c, settled_client (m_clients s c).
(** the moves of processes that were started, nobody leaving *)
Definition internal (m : dmove) : Prop := match m with Server _ | Client _ | Join _ => True | _ => False end.
(** one thing at a time: clients start and leave when nothing is in progress; no crash; servers are started by clients only *)
Inductive calm : machine -> Prop :=
| ca_start : calm machine0
| ca_internal s m s' : calm s -> internal m -> dmoves s m s' -> calm s'
| ca_client s c n i s' : calm s -> settled s -> dmoves s (Start c n i) s' -> calm s'
| ca_leave s c s' : calm s -> settled s -> dmoves s (Leave c) s' -> calm s'.

(** ** the invariant *)
Lemma put_same A f i (x : A) : put f i x i = Some x.
Proof. unfold put. now rewrite Nat.eqb_refl. Qed.
Lemma put_other A f i (x : A) j : j <> i -> put f i x j = f j.
Proof. unfold put. destruct (Nat.eqb_spec j i); congruence. Qed.
Lemma sock_same f n o : get (sock_put f n o) n = o.
Proof. destruct o; [apply get_set_same|apply get_del_same]. Qed.
Lemma sock_other f n o m : m <> n -> get (sock_put f n o) m = get f m.
Proof. intro H. destruct o; [now apply get_set_other|now apply get_del_other]. Qed.

Record base (s : machine) : Prop := {
  b_joined : forall c n i, m_clients s c = Some (n, CJoined i) -> m_servers s i = Some (n, Listening);
  b_listening : forall i n, m_servers s i = Some (n, Listening) -> m_sock s n = Some i;
  b_sock : forall n i, m_sock s n = Some i -> m_dir s = true /\ exists p, m_servers s i = Some (n, p) /\ (p = Bound \/ p = Listening \/ p = Closing) }.
(** the thing in progress, and how many moves it still takes *)
Inductive shape (s : machine) : nat -> Prop :=
| sh_settled : settled s -> shape s 0
| sh_waiting c n i p k : m_clients s c = Some (n, CWaiting i) -> m_servers s i = Some (n, p) ->
    (forall j, j <> i -> settled_server (m_servers s j)) -> (forall d, d <> c -> settled_client (m_clients s d)) ->
    (p = Starting /\ k = 6 /\ m_sock s n = None \/ p = Rooted /\ k = 5 /\ m_sock s n = None /\ m_dir s = true \/ p = Bound /\ k = 4 /\ m_sock s n = Some i \/ p = Listening /\ k = 3) -> shape s k
| sh_connecting c n i : m_clients s c = Some (n, CConnecting) -> m_sock s n = Some i ->
    (forall j, settled_server (m_servers s j)) -> (forall d, d <> c -> settled_client (m_clients s d)) -> shape s 2
| sh_connected c n i : m_clients s c = Some (n, CConnected i) -> m_servers s i = Some (n, Listening) ->
    (forall j, settled_server (m_servers s j)) -> (forall d, d <> c -> settled_client (m_clients s d)) -> shape s 1
| sh_closing i n : m_servers s i = Some (n, Closing) -> m_sock s n = Some i ->
    (forall j, j <> i -> settled_server (m_servers s j)) -> (forall d, settled_client (m_clients s d)) -> shape s 2
| sh_cleaning i n : m_servers s i = Some (n, Cleaning) ->
    (forall j, j <> i -> settled_server (m_servers s j)) -> (forall d, settled_client (m_clients s d)) -> shape s 1.
Definition ok (s : machine) (k : nat) : Prop := base s /\ shape s k.

Ltac ss := unfold m_sock in *; cbn [set_client set_server set_sock set_dir ended m_dir m_socks m_servers m_clients] in *.
Lemma joined_cut i o : settled_client o -> (forall n, o <> Some (n, CJoined i)) -> match o with Some (m, p) => Some (m, cut i p) | None => None end = o.
Proof.
  intros S N. destruct o as [[m p]|]; auto. destruct (S m p eq_refl) as [[j ->]| ->]; cbn [cut]; auto. destruct (Nat.eqb_spec j i) as [->|]; auto. destruct (N m eq_refl).
Qed.
Lemma settled_cut i o : settled_client o -> (forall n, o <> Some (n, CJoined i)) -> settled_client (match o with Some (m, p) => Some (m, cut i p) | None => None end).
Proof. intros S N. now rewrite joined_cut. Qed.
Lemma put_settled i f n p : (forall j, j <> i -> settled_server (f j)) -> p = Listening \/ p = Dead -> forall j, settled_server (put f i (n, p) j).
Proof. intros H P j. unfold put. destruct (Nat.eqb_spec j i) as [->|N]; auto. intros m q X. injection X as _ <-. exact P. Qed.
Lemma put_others i f n p : (forall j, j <> i -> settled_server (f j)) -> forall j, j <> i -> settled_server (put f i (n, p) j).
Proof. intros H j N. now rewrite put_other by auto; apply H. Qed.
Lemma cput_others c f n p : (forall j, j <> c -> settled_client (f j)) -> forall j, j <> c -> settled_client (put f c (n, p) j).
Proof. intros H j N. now rewrite put_other by auto; apply H. Qed.
Lemma cput_settled c f n p : (forall j, j <> c -> settled_client (f j)) -> (exists i, p = CJoined i) \/ p = CLeft -> forall j, settled_client (put f c (n, p) j).
Proof. intros H P j. unfold put. destruct (Nat.eqb_spec j c) as [->|N]; auto. intros m q X. injection X as _ <-. exact P. Qed.

(** which move each shape allows *)
Lemma base_client s c n p : base s -> (forall i, p = CJoined i -> m_servers s i = Some (n, Listening)) -> base (set_client c n p s).
Proof.
  intros [A B C] H. constructor; ss; auto. intros d m i X. unfold put in X. destruct (Nat.eqb_spec d c); [injection X as <- ->; auto|eauto].
Qed.
(** a server that is not accepting, and not dying with a socket *)
Lemma base_server s i n p : base s -> (forall m, m_servers s i <> Some (m, Listening)) -> p <> Listening ->
  (forall m, m_sock s m = Some i -> n = m /\ (p = Bound \/ p = Closing)) -> base (set_server i n p s).
Proof.
  intros [A B C] N P H. constructor; ss.
  - intros c m j X. pose proof (A _ _ _ X) as Y. rewrite put_other; auto. intros ->. now apply (N m).
  - intros j m X. unfold put in X. destruct (Nat.eqb_spec j i); [congruence|auto].
  - intros m j X. destruct (C _ _ X) as [D (q & Y & Z)]. split; auto. destruct (Nat.eq_dec j i) as [->|Q]; [|rewrite put_other by auto; eauto]. rewrite put_same. destruct (H _ X) as [-> [-> | ->]]; eauto.
Qed.
Lemma waits_no_cut s i : base s -> (forall n, m_servers s i <> Some (n, Listening)) -> forall d n, m_clients s d <> Some (n, CJoined i).
Proof. intros B N d n X. apply (N n). now apply (b_joined _ B) in X. Qed.
Lemma settled_cuts s i : base s -> (forall n, m_servers s i <> Some (n, Listening)) -> (forall d, settled_client (m_clients s d)) -> forall d, m_clients (ended i (nil) s) d = m_clients s d.
Proof. intros B N S d. ss. apply joined_cut; auto. intro n. now apply waits_no_cut. Qed.
Lemma base_ended s i n : base s -> (forall m, m_servers s i <> Some (m, Listening)) -> (forall m, m_sock s m <> Some i) -> (forall d, settled_client (m_clients s d)) -> base (ended i n s).
Proof.
  intros [A B C] N H S. pose proof (settled_cuts s i {| b_joined := A; b_listening := B; b_sock := C |} N S) as K. ss. constructor; ss.
  - intros c m j X. rewrite K in X. pose proof (A _ _ _ X) as Y. rewrite put_other; auto. intros ->. now apply (N m).
  - intros j m X. unfold put in X. destruct (Nat.eqb_spec j i); [congruence|auto].
  - intros m j X. destruct (C _ _ X) as [D (q & Y & Z)]. split; auto. rewrite put_other; [eauto|]. intros ->. now apply (H m).
Qed.

Lemma internal_step s m s' k : ok s k -> internal m -> dmoves s m s' -> exists k', k = S k' /\ ok s' k'.
Proof.
  intros [B Sh] I M. destruct m as [ | |i|c|c| | ]; try destruct I.
  - (* a server *)
    assert (forall n p, m_servers s i = Some (n, p) -> p <> Listening /\ p <> Dead -> exists k', k = S k' /\ ok s' k') as Go; [|].
    { intros n p Hi [N1 N2]. destruct Sh as [[Ss _]|c n0 i0 p0 k H1 H2 H3 H4 H5|c n0 i0 H1 H2 H3 H4|c n0 i0 H1 H2 H3 H4|i0 n0 H1 H2 H3 H4|i0 n0 H1 H2 H3].
      1: destruct (Ss i _ _ Hi); contradiction. 2,3: destruct (H3 i _ _ Hi); contradiction.
      - destruct (Nat.eq_dec i i0) as [->|Ni]; [|destruct (H3 i Ni _ _ Hi); contradiction]. rewrite Hi in H2. injection H2 as -> ->.
        destruct H5 as [(-> & -> & Sk)|[(-> & -> & Sk & Dr)|[(-> & -> & Sk)|(-> & _)]]]; [| | |contradiction]; inversion M; subst; try congruence.
        + rewrite Hi in H0. injection H0 as <-. exists 5. split; [reflexivity|]. split.
          * assert (base (set_server i0 n0 Rooted s)) as [A1 A2 A3]. { apply base_server; auto; try discriminate; [intros m X; congruence|]. intros m X. destruct (b_sock _ B _ _ X) as [_ (q & Y & Z)]. rewrite Hi in Y. injection Y as <- <-. exfalso. destruct Z as [Z|[Z|Z]]; discriminate. }
            constructor; ss; auto. intros m j X. destruct (A3 _ _ X). split; auto.
          * eapply (sh_waiting _ c n0 i0 Rooted); ss; eauto using put_same, put_others. right. left. auto.
        + rewrite Hi in H0. injection H0 as <-. exists 4. split; [reflexivity|]. split.
          * destruct B as [A1 A2 A3]. constructor; ss.
            -- intros d m j X. pose proof (A1 _ _ _ X) as Y. rewrite put_other; auto. intros ->. congruence.
            -- intros j m X. unfold put in X. destruct (Nat.eqb_spec j i0); [discriminate|]. rewrite sock_other; auto. intros ->. apply A2 in X. congruence.
            -- intros m j X. destruct (list_eq_dec Nat.eq_dec m n0) as [->|Nm].
               ++ rewrite sock_same in X. injection X as <-. split; auto. exists Bound. rewrite put_same. auto.
               ++ rewrite sock_other in X by auto. destruct (A3 _ _ X) as [D (q & Y & Z)]. split; auto. exists q. split; auto. rewrite put_other; auto. intros ->. congruence.
          * eapply (sh_waiting _ c n0 i0 Bound); ss; eauto using put_same, put_others. right. right. left. rewrite sock_same. auto.
        + rewrite Hi in H0. injection H0 as <-. match goal with X : _ \/ _ |- _ => destruct X; congruence end.
        + rewrite Hi in H0. injection H0 as <-. exists 3. split; [reflexivity|]. split.
          * destruct B as [A1 A2 A3]. constructor; ss.
            -- intros d m j X. pose proof (A1 _ _ _ X) as Y. rewrite put_other; auto. intros ->. congruence.
            -- intros j m X. unfold put in X. destruct (Nat.eqb_spec j i0) as [->|]; [injection X as <-; exact Sk|auto].
            -- intros m j X. destruct (A3 _ _ X) as [D (q & Y & Z)]. split; auto. destruct (Nat.eq_dec j i0) as [->|Nj]; [|exists q; rewrite put_other; auto]. rewrite Hi in Y. injection Y as <- <-. exists Listening. rewrite put_same. auto.
          * eapply (sh_waiting _ c n0 i0 Listening); ss; eauto using put_same, put_others.
      - destruct (Nat.eq_dec i i0) as [->|Ni]; [|destruct (H3 i Ni _ _ Hi); contradiction]. rewrite Hi in H1. injection H1 as -> ->. inversion M; subst; try congruence.
        + rewrite Hi in H0. injection H0 as <-. exists 1. split; [reflexivity|]. split.
          * destruct B as [A1 A2 A3]. constructor; ss.
            -- intros d m j' X. pose proof (A1 _ _ _ X) as Y. rewrite put_other; auto. intros ->. congruence.
            -- intros j' m X. unfold put in X. destruct (Nat.eqb_spec j' i0); [discriminate|]. rewrite sock_other; auto. intros ->. apply A2 in X. congruence.
            -- intros m j' X. destruct (list_eq_dec Nat.eq_dec m n0) as [->|Nm]; [rewrite sock_same in X; discriminate|]. rewrite sock_other in X by auto. destruct (A3 _ _ X) as [D (q & Y & Z)]. split; auto. exists q. split; auto. rewrite put_other; auto. intros ->. congruence.
          * eapply (sh_cleaning _ i0 n0); ss; eauto using put_same, put_others.
      - destruct (Nat.eq_dec i i0) as [->|Ni]; [|destruct (H2 i Ni _ _ Hi); contradiction]. rewrite Hi in H1. injection H1 as -> ->.
        assert (base (ended i0 n0 s)) as Be. { apply base_ended; auto; [intros m X; congruence|]. intros m X. destruct (b_sock _ B _ _ X) as [_ (q & Y & Z)]. rewrite Hi in Y. injection Y as <- <-. destruct Z as [Z|[Z|Z]]; discriminate. }
        assert (forall d, settled_client (m_clients (ended i0 n0 s) d)) as Sc. { intro d. ss. apply settled_cut; auto. intro m. apply waits_no_cut; auto. intros m' X. congruence. }
        inversion M; subst; try congruence; rewrite Hi in H0; injection H0 as <-; (exists 0; split; [reflexivity|]); split; auto.
        + destruct Be as [A1 A2 A3]. constructor; ss; auto. intros m j X. rewrite H1 in X. discriminate X.
        + apply sh_settled. split; [|exact Sc]. ss. apply put_settled; auto.
        + apply sh_settled. split; [|exact Sc]. ss. apply put_settled; auto. }
    inversion M; subst; eapply Go; eauto; split; discriminate.
  - (* a client that starts *)
    assert (forall n p, m_clients s c = Some (n, p) -> (forall j, p <> CJoined j) /\ p <> CLeft -> exists k', k = S k' /\ ok s' k') as Go; [|].
    { intros n p Hc [N1 N2]. assert (~ ((exists j, p = CJoined j) \/ p = CLeft)) as NS by (intros [[j X]|X]; [now apply (N1 j)|contradiction]).
      destruct Sh as [[_ Sc]|c0 n0 i0 p0 k H1 H2 H3 H4 H5|c0 n0 i0 H1 H2 H3 H4|c0 n0 i0 H1 H2 H3 H4|i0 n0 H1 H2 H3 H4|i0 n0 H1 H2 H3].
      1: destruct (NS (Sc c _ _ Hc)). 4: destruct (NS (H4 c _ _ Hc)). 4: destruct (NS (H3 c _ _ Hc)).
      all: destruct (Nat.eq_dec c c0) as [->|Nc]; [|destruct (NS (H4 c Nc _ _ Hc))]; rewrite Hc in H1; injection H1 as -> ->; inversion M; subst; try congruence.
      - rewrite Hc in H0. injection H0 as <- <-. rewrite H2 in H1. injection H1 as <- <-. destruct H5 as [(-> & _)|[(-> & _)|[(-> & _)|(-> & ->)]]]; try (destruct H6; discriminate).
        exists 2. split; [reflexivity|]. split; [apply base_client; auto; discriminate|]. eapply (sh_connecting _ c0 n0 i0); ss; eauto using put_same, cput_others; [now apply (b_listening _ B)|].
        intro j. destruct (Nat.eq_dec j i0) as [->|Nj]; auto. intros m q X. rewrite H2 in X. injection X as _ <-. auto.
      - rewrite Hc in H0. injection H0 as <-. rewrite H2 in H1. injection H1 as <-. exists 1. split; [reflexivity|]. split; [apply base_client; auto; discriminate|].
        destruct (b_sock _ B _ _ H2) as [_ (q & Y & Z)]. assert (q = Listening) as ->. { destruct (H3 _ _ _ Y); auto. subst q. destruct Z as [Z|[Z|Z]]; discriminate. }
        eapply (sh_connected _ c0 n0 i0); ss; eauto using put_same, cput_others.
      - rewrite Hc in H0. injection H0 as <-. rewrite H2 in H1. injection H1 as <-. destruct (b_sock _ B _ _ H2) as [_ (q & Y & Z)]. rewrite Y in H5. injection H5 as <- <-. exfalso. destruct Z as [-> |[-> | ->]]; try contradiction. destruct (H3 _ _ _ Y); discriminate. }
    inversion M; subst; eapply Go; eauto; split; try (intro; discriminate); discriminate.
  - (* a registration *)
    inversion M as [| | | | | | | | | | | | | | |c' n i Hc Hi| | |]; subst.
    assert (~ settled_client (m_clients s c)) as NS by (intro X; destruct (X _ _ Hc) as [[j Y]|Y]; discriminate).
    destruct Sh as [[_ Sc]|c0 n0 i0 p0 k H1 H2 H3 H4 H5|c0 n0 i0 H1 H2 H3 H4|c0 n0 i0 H1 H2 H3 H4|i0 n0 H1 H2 H3 H4|i0 n0 H1 H2 H3]; try (exfalso; now auto).
    all: destruct (Nat.eq_dec c c0) as [->|Nc]; [|now destruct (NS (H4 c Nc))]; rewrite Hc in H1; try discriminate; injection H1 as <- <-.
    exists 0. split; [reflexivity|]. split; [apply base_client; auto; intros j X; injection X as <-; exact H2|]. apply sh_settled. split; ss; auto. apply cput_settled; eauto.
Qed.
Lemma settled_shape s k : shape s k -> settled s -> k = 0.
Proof.
  intros Sh [Ss Sc]. destruct Sh as [|c0 n0 i0 p0 k H1 H2 H3 H4 H5|c0 n0 i0 H1 H2 H3 H4|c0 n0 i0 H1 H2 H3 H4|i0 n0 H1 H2 H3 H4|i0 n0 H1 H2 H3]; auto; exfalso;
    try (destruct (Sc _ _ _ H1) as [[j X]|X]; discriminate); destruct (Ss _ _ _ H1); discriminate.
Qed.
Lemma calm_ok s : calm s -> exists k, ok s k.
Proof.
  induction 1 as [|s m s' H IH I M|s c n i s' H IH St M|s c s' H IH St M].
  - exists 0. split; [constructor; discriminate|]. apply sh_settled. split; intros ? ? ? X; discriminate.
  - destruct IH as [k O]. destruct (internal_step _ _ _ _ O I M) as (k' & _ & O'). eauto.
  - destruct IH as [k [B _]]. pose proof St as [Ss Sc]. inversion M; subst.
    + exists 2. split; [apply base_client; auto; discriminate|]. eapply (sh_connecting _ c n j); ss; eauto using put_same. apply cput_others. auto.
    + exists 6. split.
      * apply base_client; [|discriminate]. apply base_server; auto; try discriminate; [intros m X; congruence|]. intros m X. destruct (b_sock _ B _ _ X) as [_ (q & Y & _)]. congruence.
      * eapply (sh_waiting _ c n i Starting); ss; try (apply put_same); try (apply cput_others); auto; apply put_others; auto.
  - destruct IH as [k [B _]]. pose proof St as [Ss Sc]. inversion M as [| | | | | | | | | | | | | | | |c' n i Hc Hi Ho|c' n i Hc Hi Ho|]; subst.
    + exists 0. split; [apply base_client; auto; discriminate|]. apply sh_settled. split; ss; auto. apply cput_settled; auto.
    + exists 2. destruct B as [A1 A2 A3]. split.
      * constructor; ss.
        -- intros d m j X. unfold put in X. destruct (Nat.eqb_spec d c); [discriminate|]. rewrite put_other; eauto. intros ->. apply n0. eapply Ho; eauto.
        -- intros j m X. unfold put in X. destruct (Nat.eqb_spec j i); [discriminate|auto].
        -- intros m j X. destruct (A3 _ _ X) as [D (q & Y & Z)]. split; auto. destruct (Nat.eq_dec j i) as [->|Nj]; [|rewrite put_other by auto; eauto]. rewrite put_same. rewrite Hi in Y. injection Y as <- _. eauto 6.
      * eapply (sh_closing _ i n); ss; eauto using put_same; [apply put_others; auto|apply cput_settled; auto].
Qed.

(** ** C71 *)
(** One thing at a time: no client fails or is disconnected; a registered client is on the server that owns the socket of its session
    and accepts connections, so clients of one session share one server; and a start or a stop ends, by itself, in at most six moves
    whatever the order.  Missing from the full property: everything the following theorems refute. *)
Theorem C71_partial : forall s, calm s ->
  (forall c n, m_clients s c <> Some (n, CFailed) /\ m_clients s c <> Some (n, CCut)) /\
  (forall c n i, m_clients s c = Some (n, CJoined i) -> m_sock s n = Some i /\ m_servers s i = Some (n, Listening)) /\
  (forall i n, m_servers s i = Some (n, Listening) -> m_sock s n = Some i) /\
  (forall ms s', druns s ms s' -> Forall internal ms -> length ms <= 6) /\
  (settled s \/ exists m s', internal m /\ dmoves s m s').
Proof.
  intros s C. destruct (calm_ok _ C) as [k [B Sh]]. split; [|split; [|split; [|split]]].
  - assert (forall c n p, m_clients s c = Some (n, p) -> p <> CFailed /\ p <> CCut) as F.
    { intros c n p Hc. assert (forall d, settled_client (m_clients s d) -> d = c -> p <> CFailed /\ p <> CCut) as G. { intros d X ->. destruct (X _ _ Hc) as [[j ->]| ->]; split; discriminate. }
      destruct Sh as [[_ Sc]|c0 n0 i0 p0 k H1 H2 H3 H4 H5|c0 n0 i0 H1 H2 H3 H4|c0 n0 i0 H1 H2 H3 H4|i0 n0 H1 H2 H3 H4|i0 n0 H1 H2 H3]; try (eapply G; eauto; fail).
      all: destruct (Nat.eq_dec c c0) as [->|Nc]; [rewrite Hc in H1; injection H1 as -> ->; split; discriminate|eapply G; eauto]. }
    intros c n. split; intro X; apply F in X; destruct X; congruence.
  - intros c n i X. pose proof (b_joined _ B _ _ _ X) as Y. split; auto. now apply (b_listening _ B).
  - apply B.
  - assert (forall ms s', druns s ms s' -> Forall internal ms -> exists k', ok s' k' /\ k = length ms + k') as F.
    { induction 1 as [|ms s1 m s2 R IH M]; intro I; [exists k; split; [split; assumption|reflexivity]|]. apply Forall_app in I. destruct I as [I1 I2]. inversion I2; subst. destruct (IH I1) as (k1 & O & ->). destruct (internal_step _ _ _ _ O H1 M) as (k2 & -> & O2). exists k2. rewrite app_length. cbn. split; auto. lia. }
    intros ms s' R I. destruct (F _ _ R I) as (k' & _ & ->). assert (length ms + k' <= 6); [|lia].
    destruct Sh as [|c0 n0 i0 p0 k H1 H2 H3 H4 H5| | | |]; lia.
  - destruct Sh as [St|c0 n0 i0 p0 k H1 H2 H3 H4 H5|c0 n0 i0 H1 H2 H3 H4|c0 n0 i0 H1 H2 H3 H4|i0 n0 H1 H2 H3 H4|i0 n0 H1 H2 H3]; [now left|right..].
    + destruct H5 as [(-> & -> & Sk)|[(-> & -> & Sk & Dr)|[(-> & -> & Sk)|(-> & ->)]]].
      * exists (Server i0). eexists. split; [exact Logic.I|]. eapply dm_root; eauto.
      * exists (Server i0). eexists. split; [exact Logic.I|]. eapply dm_bind; eauto.
      * exists (Server i0). eexists. split; [exact Logic.I|]. eapply dm_listen; eauto.
      * exists (Client c0). eexists. split; [exact Logic.I|]. eapply dm_ready; eauto.
    + exists (Client c0). destruct (b_sock _ B _ _ H2) as [_ (q & Y & Z)]. eexists. split; [exact Logic.I|]. eapply dm_connect; eauto. destruct (H3 _ _ _ Y); auto. subst q. destruct Z as [Z|[Z|Z]]; discriminate.
    + exists (Join c0). eexists. split; [exact Logic.I|]. eapply dm_join; eauto.
    + exists (Server i0). eexists. split; [exact Logic.I|]. eapply dm_remove; eauto.
    + exists (Server i0). destruct (m_socks s) as [|x l] eqn:Q; eexists; (split; [exact Logic.I|]); [eapply dm_clean; eauto|eapply dm_clean_not; eauto; congruence].
Qed.
Print Assumptions C71_partial.

(** ** what can go wrong *)
Definition reached (s : machine) : Prop := exists ms, druns machine0 ms s.
Definition on (p : cphase) (i : nat) : Prop := p = CConnected i \/ p = CJoined i.
Record sane (s : machine) : Prop := {
  s_on : forall c n p i, m_clients s c = Some (n, p) -> on p i -> exists q, m_servers s i = Some (n, q) /\ q <> Dead;
  s_sock : forall n i, m_sock s n = Some i -> exists q, m_servers s i = Some (n, q) }.
Lemma sane_client s c n p : sane s -> (forall i, on p i -> exists q, m_servers s i = Some (n, q) /\ q <> Dead) -> sane (set_client c n p s).
Proof.
  intros [A B] H. constructor; ss; auto. intros d m q i X O. unfold put in X. destruct (Nat.eqb_spec d c); [injection X as <- <-; auto|eauto].
Qed.
Lemma sane_server s i n p : sane s -> (exists q, m_servers s i = Some (n, q)) \/ m_servers s i = None -> p <> Dead -> sane (set_server i n p s).
Proof.
  intros [A B] H P. constructor; ss.
  - intros c m r j X O. destruct (A _ _ _ _ X O) as (t & Y & Z). destruct (Nat.eq_dec j i) as [->|N]; [|rewrite put_other by auto; eauto]. rewrite put_same. destruct H as [[q H]|H]; rewrite Y in H; [injection H as <- _; eauto|discriminate].
  - intros m j X. destruct (B _ _ X) as (t & Y). destruct (Nat.eq_dec j i) as [->|N]; [|rewrite put_other by auto; eauto]. rewrite put_same. destruct H as [[q H]|H]; rewrite Y in H; [injection H as <- _; eauto|discriminate].
Qed.
Lemma sane_ended s i n q : sane s -> m_servers s i = Some (n, q) -> sane (ended i n s).
Proof.
  intros [A B] H. constructor; ss.
  - intros c m r j X O. destruct (m_clients s c) as [[m' p]|] eqn:Q; [|discriminate]. injection X as -> <-. assert (on p j /\ j <> i) as [O' N].
    { destruct p as [k| |k|k| | |]; cbn [cut] in O; try (destruct O; discriminate).
      all: destruct (Nat.eqb_spec k i) as [->|Nk]; destruct O as [O|O]; try discriminate; injection O as <-; (split; [unfold on; auto|auto]). }
    destruct (A _ _ _ _ Q O') as (t & Y & Z). exists t. rewrite put_other; auto.
  - intros m j X. destruct (B _ _ X) as (t & Y). destruct (Nat.eq_dec j i) as [->|N]; [|rewrite put_other by auto; eauto]. rewrite put_same. rewrite Y in H. injection H as <- _. eauto.
Qed.
Lemma sane_move s m s' : sane s -> dmoves s m s' -> sane s'.
Proof.
  intros S M. assert (forall p, (forall i, p <> CConnected i) -> (forall i, p <> CJoined i) -> forall c n, sane (set_client c n p s)) as Cl. { intros p N1 N2 c n. apply sane_client; auto. intros i [X|X]; [destruct (N1 i X)|destruct (N2 i X)]. }
  assert (forall s n j q, sane s -> m_servers s j = Some (n, q) -> sane (set_sock n (Some j) s)) as So.
  { clear. intros s n j q [A B] H. constructor; ss; auto. intros m i X. cbn [sock_put] in X. rewrite get_set in X. destruct (eqb m n) eqn:E; [apply eqb_ok in E; injection X as <-; subst; eauto|eauto]. }
  assert (forall s n, sane s -> sane (set_sock n None s)) as Sn.
  { clear. intros s n [A B]. constructor; ss; auto. intros m i X. cbn [sock_put] in X. rewrite get_del in X. destruct (eqb m n); [discriminate|eauto]. }
  assert (forall s d, sane s -> sane (set_dir d s)) as Sd by (clear; intros s d [A B]; constructor; ss; auto).
  inversion M; subst; try (apply Cl; intros; discriminate).
  - apply sane_client; [eapply sane_server; eauto; discriminate|]. intros k [X|X]; discriminate.
  - eapply sane_server; eauto; discriminate.
  - apply Sd. eapply sane_server; eauto; discriminate.
  - eapply (So _ _ _ Bound); [eapply sane_server; eauto; discriminate|ss; apply put_same].
  - eapply sane_server; eauto; discriminate.
  - eapply sane_server; eauto; discriminate.
  - apply Sn. eapply sane_server; eauto; discriminate.
  - eapply sane_ended; eauto.
  - apply Sd. eapply sane_ended; eauto.
  - eapply sane_ended; eauto.
  - apply sane_client; auto. intros k [X|X]; [|discriminate]. injection X as <-. destruct (s_sock _ S _ _ H0) as (q & Y). rewrite H1 in Y. injection Y as <- _. exists p. split; auto. destruct H2; congruence.
  - apply sane_client; auto. intros k [X|X]; [discriminate|]. injection X as <-. exists Listening. split; auto; discriminate.
  - apply sane_client; [eapply sane_server; eauto; discriminate|]. intros k [X|X]; discriminate.
  - eapply sane_ended; eauto.
Qed.
Lemma sane_runs s ms s' : sane s -> druns s ms s' -> sane s'.
Proof. induction 2; auto. eapply sane_move; eauto. Qed.
Lemma reached_sane s : reached s -> sane s.
Proof. intros (ms & R). eapply sane_runs; eauto. constructor; discriminate. Qed.

Definition all_dead (s : machine) (n : text) : Prop := forall j p, m_servers s j = Some (n, p) -> p = Dead.
Lemma dead_move s n i m s' : m_sock s n = Some i -> all_dead s n -> dmoves s m s' -> (forall j, m <> Serve j n) -> m_sock s' n = Some i /\ all_dead s' n.
Proof.
  intros Sk D M NS. assert (forall j m p, m <> n -> all_dead (set_server j m p s) n) as Sv. { intros j k p N k' q X. ss. unfold put in X. destruct (k' =? j); [congruence|eauto]. }
  assert (forall j k, all_dead (ended j k s) n) as En. { intros j k k' q X. ss. unfold put in X. destruct (k' =? j); [congruence|eauto]. }
  assert (forall j k p, m_servers s j = Some (k, p) -> p <> Dead -> k <> n) as Ne by (intros j k p X Y ->; apply D in X; contradiction).
  inversion M; subst; try (split; [exact Sk|assumption || exact D]).
  - split; [exact Sk|]. apply Sv. intros ->. congruence.
  - split; [exact Sk|]. apply Sv. intros ->. now apply (NS i0).
  - split; [exact Sk|]. apply Sv. eapply Ne; eauto; discriminate.
  - split; [|apply Sv; eapply Ne; eauto; discriminate]. ss. cbn [sock_put]. rewrite get_set_other; auto. intro. subst. rewrite Sk in H1. discriminate.
  - split; [exact Sk|]. apply Sv. eapply Ne; eauto; discriminate.
  - split; [exact Sk|]. apply Sv. eapply Ne; eauto; discriminate.
  - split; [|apply Sv; eapply Ne; eauto; discriminate]. ss. cbn [sock_put]. rewrite get_del_other; auto. intro. subst. eapply (Ne i0); eauto; discriminate.
  - split; [exact Sk|apply En].
  - split; [exact Sk|]. apply En.
  - split; [exact Sk|apply En].
  - split; [exact Sk|]. apply Sv. eapply Ne; eauto; discriminate.
  - split; [exact Sk|apply En].
Qed.
(** The server of a session crashed (a panic, a signal; C36, C42 say which requests do that).  Whatever happens afterwards, until
    somebody removes the socket or starts a server by hand, nobody can use the session: the socket stays, nobody is connected, and
    every client that tries fails. *)
Theorem C71_crash_refuted : forall s n i, reached s -> m_sock s n = Some i -> all_dead s n ->
  forall ms s', druns s ms s' -> (forall j, ~ In (Serve j n) ms) ->
    m_sock s' n = Some i /\ (forall c p j, m_clients s' c = Some (n, p) -> ~ on p j) /\
    (forall c s'', m_clients s' c = Some (n, CConnecting) -> dmoves s' (Client c) s'' -> m_clients s'' c = Some (n, CFailed)).
Proof.
  intros s n i R Sk D ms s' Rs NS. assert (m_sock s' n = Some i /\ all_dead s' n) as [Sk' D'].
  { induction Rs as [|ms s1 m s2 Rs IH M]; auto. destruct IH as [A B]; [intros j X; apply (NS j), in_app_iff; auto|]. eapply dead_move; eauto. intros j ->. apply (NS j), in_app_iff. right. now left. }
  pose proof (sane_runs _ _ _ (reached_sane _ R) Rs) as [A B]. split; auto. split.
  - intros c p j X O. destruct (A _ _ _ _ X O) as (q & Y & Z). apply D' in Y. contradiction.
  - intros c s'' X M. destruct (B _ _ Sk') as (q & Y). pose proof (D' _ _ Y) as Z. subst q. inversion M; subst; rewrite X in H0; try discriminate; injection H0 as <-; ss; rewrite ?put_same; auto.
    exfalso. rewrite Sk' in H1. injection H1 as <-. rewrite Y in H2. injection H2 as _ <-. destruct H3; discriminate.
Qed.
Print Assumptions C71_crash_refuted.
Lemma du_cons s m s1 ms s2 : dmoves s m s1 -> druns s1 ms s2 -> druns s (m :: ms) s2.
Proof.
  intros M R. induction R as [|ms s2 m' s3 R IH M']; [exact (du_move _ [] _ _ _ (du_stay _) M)|]. exact (du_move _ (m :: ms) _ _ _ IH M').
Qed.
Ltac step r := eapply du_cons; [eapply r; try reflexivity; try (left; reflexivity); try (right; reflexivity); try discriminate|].
Lemma del_only (n : text) (i : nat) : del [(n, i)] n = [].
Proof. unfold del. cbn [filter fst]. now rewrite eqb_refl. Qed.
Definition w1 : text := str "w".
(** the first client of a session, until it is registered *)
Definition first (c i : nat) (n : text) : list dmove := [Start c n i; Server i; Server i; Server i; Client c; Client c; Join c].
Lemma first_run s c n i : m_clients s c = None -> m_sock s n = None -> m_servers s i = None ->
  exists s', druns s (first c i n) s' /\ m_clients s' c = Some (n, CJoined i) /\ m_servers s' i = Some (n, Listening) /\ m_sock s' n = Some i /\
    (forall d, d <> c -> m_clients s' d = m_clients s d) /\ (forall j, j <> i -> m_servers s' j = m_servers s j) /\ (forall m, m <> n -> m_sock s' m = m_sock s m).
Proof.
  intros A B C. eexists. split.
  - unfold first. eapply du_cons; [eapply dm_start; auto|]. eapply du_cons; [eapply dm_root; ss; apply put_same|]. eapply du_cons; [eapply dm_bind; ss; [apply put_same|reflexivity|exact B]|].
    eapply du_cons; [eapply dm_listen; ss; apply put_same|]. eapply du_cons; [eapply dm_ready; ss; [apply put_same|apply put_same|now left]|]. eapply du_cons; [eapply dm_connect; ss; [apply put_same|apply get_set_same|apply put_same|now left]|].
    eapply du_cons; [eapply dm_join; ss; [apply put_same|apply put_same]|]. constructor.
  - ss. rewrite !put_same. split; [reflexivity|]. split; [reflexivity|]. split; [apply get_set_same|]. split; [intros d N; now rewrite !put_other by auto|]. split; [intros d N; now rewrite !put_other by auto|]. intros m N. now apply get_set_other.
Qed.
Lemma druns_app s ms s1 ms' s2 : druns s ms s1 -> druns s1 ms' s2 -> druns s (ms ++ ms') s2.
Proof. intros R R'. induction R' as [|ms' s2 m s3 R' IH M]; [now rewrite app_nil_r|]. rewrite app_assoc. econstructor; eauto. Qed.
Example C71_crash_demo : exists s, druns machine0 (first 0 0 w1 ++ [Crash 0]) s /\ m_sock s w1 = Some 0 /\ all_dead s w1 /\ m_clients s 0 = Some (w1, CCut).
Proof.
  destruct (first_run machine0 0 w1 0) as (s & R & A & B & C & _ & D & _); try reflexivity. exists (ended 0 w1 s). split; [|split; [|split]].
  - eapply druns_app; [exact R|]. eapply du_cons; [|constructor]. eapply dm_crash; eauto; discriminate.
  - exact C.
  - intros j p X. ss. unfold put in X. destruct (Nat.eqb_spec j 0); [congruence|]. rewrite D in X by auto. discriminate.
  - ss. now rewrite A.
Qed.

(** Two clients that start at the same time, without any crash: each starts a server; the second server cannot bind, ends, and
    on its way removes the socket of the first.  The second client fails; the first is on a server that nobody can find
    any more, and the next client is alone on a server of its own. *)
Theorem C71_race_refuted : forall n, exists ms s, druns machine0 ms s /\ (forall i, ~ In (Crash i) ms) /\ (forall i m, ~ In (Serve i m) ms) /\
  m_clients s 1 = Some (n, CFailed) /\ m_clients s 0 = Some (n, CJoined 0) /\ m_servers s 0 = Some (n, Listening) /\
  m_clients s 2 = Some (n, CJoined 2) /\ m_servers s 2 = Some (n, Listening) /\ m_sock s n = Some 2.
Proof.
  intro n. eexists ([Start 0 n 0; Start 1 n 1; Server 0; Server 0; Server 0; Client 0; Client 0; Join 0; Server 1; Server 1; Server 1; Server 1; Client 1; Client 1] ++ first 2 2 n).
  assert (exists s, druns machine0 [Start 0 n 0; Start 1 n 1; Server 0; Server 0; Server 0; Client 0; Client 0; Join 0; Server 1; Server 1; Server 1; Server 1; Client 1; Client 1] s /\
    m_clients s 1 = Some (n, CFailed) /\ m_clients s 0 = Some (n, CJoined 0) /\ m_servers s 0 = Some (n, Listening) /\ m_clients s 2 = None /\ m_servers s 2 = None /\ m_sock s n = None) as (s & R & A & B & C & D & E & F).
  { eexists. split.
    - step dm_start. step dm_start. step dm_root. step dm_bind. step dm_listen. step dm_ready. eapply du_cons; [eapply dm_connect; [reflexivity|apply get_set_same|reflexivity|now left]|]. step dm_join.
      step dm_root. eapply du_cons; [eapply dm_bind_error; [reflexivity|]; right; unfold m_sock; ss; rewrite sock_same; discriminate|].
      eapply du_cons; [eapply dm_remove; [reflexivity|apply get_set_same]|]. eapply du_cons; [eapply dm_clean; [reflexivity|apply del_only]|].
      step dm_ready. eapply du_cons; [eapply dm_connect_none; [reflexivity|apply sock_same]|]. constructor.
    - split; [reflexivity|]. split; [reflexivity|]. split; [reflexivity|]. split; [reflexivity|]. split; [reflexivity|]. ss. apply sock_same. }
  destruct (first_run s 2 n 2 D F E) as (s' & R' & A' & B' & C' & D' & E' & _). exists s'. split; [eapply druns_app; eauto|].
  split. { intros i X. cbn in X. repeat (destruct X as [X|X]; [discriminate|]). destruct X. }
  split. { intros i m X. cbn in X. repeat (destruct X as [X|X]; [discriminate|]). destruct X. }
  rewrite !D', E' by discriminate. auto 10.
Qed.
Print Assumptions C71_race_refuted.
(** A server started by hand for a session in use, in any state: it ends at once, and takes the socket of the session with it.
    The clients of the session and its server notice nothing, but nobody can join any more. *)
Theorem C71_hand_refuted : forall s n i j, reached s -> m_sock s n = Some i -> m_servers s j = None ->
  exists s', druns s [Serve j n; Server j; Server j; Server j; Server j] s' /\ m_sock s' n = None /\ m_servers s' j = Some (n, Dead) /\
    m_servers s' i = m_servers s i /\ forall c, m_clients s' c = m_clients s c.
Proof.
  intros s n i j Re A B. pose proof (reached_sane _ Re) as Sa. assert (i <> j) as N by (intros ->; destruct (s_sock _ Sa _ _ A) as (q & X); congruence).
  assert (forall c, match m_clients s c with Some (m, p) => Some (m, cut j p) | None => None end = m_clients s c) as K.
  { intro c. destruct (m_clients s c) as [[m p]|] eqn:Q; auto. assert (~ on p j) as NO by (intro O; destruct (s_on _ Sa _ _ _ _ Q O) as (q & X & _); congruence).
    destruct p as [k| |k|k| | |]; cbn [cut]; auto; destruct (Nat.eqb_spec k j) as [->|]; auto; exfalso; apply NO; [now left|now right]. }
  assert (exists s', dmoves (set_sock n None (set_server j n Cleaning (set_server j n Closing (set_dir true (set_server j n Rooted (set_server j n Starting s)))))) (Server j) s' /\
    m_sock s' n = None /\ m_servers s' j = Some (n, Dead) /\ m_servers s' i = m_servers s i /\ forall c, m_clients s' c = m_clients s c) as (s' & M & H).
  { destruct (del (m_socks s) n) as [|x l] eqn:Q; eexists; (split; [first [eapply dm_clean; ss; [apply put_same|exact Q]|eapply dm_clean_not; ss; [apply put_same|cbn; congruence]]|]).
    all: ss; cbn [sock_put]; rewrite put_same, !put_other, get_del_same by auto; auto. }
  exists s'. split; [|exact H]. eapply du_cons; [now apply dm_serve|]. eapply du_cons; [apply dm_root; ss; apply put_same|]. eapply du_cons; [eapply dm_bind_error; ss; [apply put_same|right; congruence]|].
  eapply du_cons; [eapply dm_remove; ss; [apply put_same|exact A]|]. eapply du_cons; [exact M|]. constructor.
Qed.
Print Assumptions C71_hand_refuted.
(** A client that connects just before the last one leaves is never served. *)
Definition closed (s : machine) (i : nat) : Prop := exists n p, m_servers s i = Some (n, p) /\ (p = Closing \/ p = Cleaning \/ p = Dead).
Theorem C71_late_refuted : forall s c d n m i s1, m_clients s c = Some (n, CJoined i) -> m_clients s d = Some (m, CConnected i) -> (forall e k, m_clients s e = Some (k, CJoined i) -> e = c) ->
  dmoves s (Leave c) s1 -> forall ms s2, druns s1 ms s2 -> m_clients s2 d = Some (m, CConnected i) \/ m_clients s2 d = Some (m, CCut).
Proof.
  intros s c d n m i s1 A B C M ms s2 R. assert (d <> c) as N by congruence.
  assert (closed s1 i /\ m_clients s1 d = Some (m, CConnected i)) as [Cl H].
  { inversion M as [| | | | | | | | | | | | | | | |c' n' j Hc Hi Ho|c' n' j Hc Hi Ho|]; subst; rewrite A in Hc; injection Hc as <- <-.
    - destruct Ho as (e & k & Ne & X). apply C in X. contradiction.
    - split; [exists n, Closing; ss; rewrite put_same; auto|]. ss. now rewrite put_other. }
  assert (closed s2 i /\ (m_clients s2 d = Some (m, CConnected i) \/ m_clients s2 d = Some (m, CCut))) as X; [|apply X].
  induction R as [|ms s2 mv s3 R IH Mv]; auto. destruct IH as [(n0 & p0 & S0 & P0) Hd].
  assert (forall e k p, m_clients s2 e = Some (k, p) -> (forall j, p <> CConnected j) -> p <> CCut -> d <> e) as Ne. { intros e k p X Y Z ->. destruct Hd as [Hd|Hd]; rewrite Hd in X; injection X as <- <-; [now apply (Y i)|contradiction]. }
  assert (forall e k p, d <> e -> closed (set_client e k p s2) i /\ (m_clients (set_client e k p s2) d = Some (m, CConnected i) \/ m_clients (set_client e k p s2) d = Some (m, CCut))) as Sc.
  { intros e k p Nd. split; [exists n0, p0; auto|]. ss. now rewrite put_other. }
  assert (forall j k p q, m_servers s2 j = Some (k, q) \/ m_servers s2 j = None -> (j = i -> p = Closing \/ p = Cleaning \/ p = Dead) -> closed (set_server j k p s2) i) as Ss.
  { intros j k p q X Y. unfold closed. ss. destruct (Nat.eq_dec i j) as [<-|Nj]; [rewrite put_same; eauto|]. rewrite put_other by auto. eauto. }
  assert (forall j k, closed (ended j k s2) i /\ (m_clients (ended j k s2) d = Some (m, CConnected i) \/ m_clients (ended j k s2) d = Some (m, CCut))) as En.
  { intros j k. split. { unfold closed. ss. destruct (Nat.eq_dec i j) as [<-|Nj]; [rewrite put_same; eauto 6|]. rewrite put_other by auto. eauto. } ss. destruct Hd as [-> | ->]; cbn [cut]; [destruct (i =? j); auto|auto]. }
  assert (forall k q, m_servers s2 i = Some (k, q) -> q = Closing \/ q = Cleaning \/ q = Dead) as Ph by (intros k q X; rewrite S0 in X; injection X as <- <-; auto).
  inversion Mv; subst; try (apply En); try (split; [|exact Hd]); try (apply Sc; eapply Ne; eauto; intros; discriminate).
  - apply Sc. intros ->. destruct Hd; congruence.
  - assert (d <> c0) by (intros ->; destruct Hd; congruence). split; [|ss; rewrite put_other by auto; exact Hd]. eapply (Ss i0 n1 Starting Dead); auto. intros ->. congruence.
  - eapply (Ss i0 n1 Starting Dead); auto. intros ->. congruence.
  - eapply (Ss i0 n1 Rooted); eauto. intros ->. destruct (Ph _ _ H0) as [X|[X|X]]; discriminate.
  - eapply (Ss i0 n1 Bound); eauto. intros ->. destruct (Ph _ _ H0) as [X|[X|X]]; discriminate.
  - eapply (Ss i0 n1 Closing); eauto.
  - eapply (Ss i0 n1 Listening); eauto. intros ->. destruct (Ph _ _ H0) as [X|[X|X]]; discriminate.
  - eapply (Ss i0 n1 Cleaning); eauto.
  - apply Sc. intros ->. destruct Hd as [Hd|Hd]; rewrite Hd in H0; try discriminate. injection H0 as <- <-. destruct (Ph _ _ H1) as [X|[X|X]]; discriminate.
  - assert (d <> c0) by (eapply Ne; eauto; intros; discriminate). split; [|ss; rewrite put_other by auto; exact Hd]. eapply (Ss i0 n1 Closing Listening); auto.
Qed.
Print Assumptions C71_late_refuted.
(** Two sessions get in each other's way as well: a server that stops removes the empty directory in which another is about to create its
    socket; that one panics, and its client fails. *)
Theorem C71_directory_refuted : forall n m, n <> m -> exists ms s, druns machine0 ms s /\ (forall i, ~ In (Crash i) ms) /\ (forall i k, ~ In (Serve i k) ms) /\
  m_clients s 1 = Some (m, CFailed) /\ m_servers s 1 = Some (m, Dead).
Proof.
  intros n m N. exists (first 0 0 n ++ [Start 1 m 1; Server 1; Leave 0; Server 0; Server 0; Server 1; Server 1; Client 1; Client 1]). eexists. split.
  - unfold first. cbn [app]. step dm_start. step dm_root. step dm_bind. step dm_listen. step dm_ready. eapply du_cons; [eapply dm_connect; [reflexivity|apply get_set_same|reflexivity|now left]|]. step dm_join.
    eapply du_cons; [eapply dm_start; [reflexivity|unfold m_sock; ss; rewrite sock_other; auto|reflexivity]|]. step dm_root.
    eapply du_cons; [eapply dm_leave_last; [reflexivity|reflexivity|]|]. { intros e k X. ss. unfold put in X. destruct (e =? 1); [discriminate|]. destruct (Nat.eqb_spec e 0); auto. discriminate. }
    eapply du_cons; [eapply dm_remove; [reflexivity|apply get_set_same]|]. eapply du_cons; [eapply dm_clean; [reflexivity|apply del_only]|].
    eapply du_cons; [eapply dm_bind_error; [reflexivity|left; reflexivity]|]. assert (forall x : amap text nat, x = [] -> get x m = None) as Z by (intros x ->; reflexivity).
    eapply du_cons; [eapply dm_remove_error; [reflexivity|apply Z, del_only]|]. step dm_ready. eapply du_cons; [eapply dm_connect_none; [reflexivity|apply Z, del_only]|]. constructor.
  - split. { intros i X. cbn in X. repeat (destruct X as [X|X]; [discriminate|]). destruct X. }
    split. { intros i k X. cbn in X. repeat (destruct X as [X|X]; [discriminate|]). destruct X. }
    split; reflexivity.
Qed.
Print Assumptions C71_directory_refuted.
(** concrete calm sessions: two clients share a server, which stops after both; a third client gets a new one *)
Example C71_demo : exists s, calm s /\ settled s /\ m_clients s 0 = Some (w1, CJoined 0) /\ m_clients s 1 = Some (w1, CJoined 0).
Proof.
  assert (settled machine0) as S0 by (split; intros ? ? ? X; discriminate).
  pose proof (ca_client _ 0 w1 0 _ ca_start S0 (dm_start machine0 0 w1 0 eq_refl eq_refl eq_refl)) as C0.
  match type of C0 with calm ?s => pose proof (ca_internal s (Server 0) _ C0 Logic.I (dm_root s 0 w1 eq_refl)) as C1 end. clear C0.
  match type of C1 with calm ?s => pose proof (ca_internal s (Server 0) _ C1 Logic.I (dm_bind s 0 w1 eq_refl eq_refl eq_refl)) as C2 end. clear C1.
  match type of C2 with calm ?s => pose proof (ca_internal s (Server 0) _ C2 Logic.I (dm_listen s 0 w1 eq_refl)) as C3 end. clear C2.
  match type of C3 with calm ?s => pose proof (ca_internal s (Client 0) _ C3 Logic.I (dm_ready s 0 w1 0 w1 Listening eq_refl eq_refl (or_introl eq_refl))) as C4 end. clear C3.
  match type of C4 with calm ?s => pose proof (ca_internal s (Client 0) _ C4 Logic.I (dm_connect s 0 w1 0 w1 Listening eq_refl eq_refl eq_refl (or_introl eq_refl))) as C5 end. clear C4.
  match type of C5 with calm ?s => pose proof (ca_internal s (Join 0) _ C5 Logic.I (dm_join s 0 w1 0 eq_refl eq_refl)) as C6 end. clear C5.
  match type of C6 with calm ?s => assert (settled s) as S1 end.
  { split; ss; intros k m p X; unfold put in X; repeat (destruct (k =? 0); [injection X as <- <-; eauto|]); discriminate. }
  match type of C6 with calm ?s => pose proof (ca_client s 1 w1 9 _ C6 S1 (dm_start_there s 1 w1 9 0 eq_refl eq_refl)) as C7 end. clear C6 S1.
  match type of C7 with calm ?s => pose proof (ca_internal s (Client 1) _ C7 Logic.I (dm_connect s 1 w1 0 w1 Listening eq_refl eq_refl eq_refl (or_introl eq_refl))) as C8 end. clear C7.
  match type of C8 with calm ?s => pose proof (ca_internal s (Join 1) _ C8 Logic.I (dm_join s 1 w1 0 eq_refl eq_refl)) as C9 end. clear C8.
  eexists. split; [exact C9|]. split; [|split; reflexivity].
  split; ss; intros k m p X; unfold put in X; repeat (destruct (k =? 1); [injection X as <- <-; eauto|]); repeat (destruct (k =? 0); [injection X as <- <-; eauto|]); discriminate.
Qed.
