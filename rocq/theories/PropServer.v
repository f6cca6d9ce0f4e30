(** C42, C43, C44, C64: the server. *)
From Coq Require Import String List Arith Lia ZArith Bool.
From Verif Require Import Base ListFacts PieceTable Coords Utf8 Utf8Facts Diff Selection Maps StackMap Fmt Buffer View Json Proto Core CoreSpec CoreInv CoreOps Payload Menu PropMenu Editor EditorSpec EditorFacts PropEditor EditorTame PropEditorSafe Server ServerSpec ServerFacts.
Import ListNotations.

Section Server.
Variable G : Graphemes.
Variable pol : policy.
Variable u : regex_crate.
Variable se : serde.
Variable L : lua.
Notation server := (server L).
Notation smoves := (smoves G pol u se L).
Notation runs := (runs G pol u se L).
Notation sreach := (sreach G pol u se L).
Notation event_step := (event_step G pol u se L).

(** ** the index *)
Lemma in_existsb c (l : list nat) : existsb (Nat.eqb c) l = true <-> In c l.
Proof. rewrite existsb_exists. split; [intros (x & H & E); apply Nat.eqb_eq in E; now subst|intro H; exists c; split; auto; apply Nat.eqb_refl]. Qed.
Lemma in_filter_neq c x (l : list nat) : In x (filter (fun d => negb (c =? d)) l) <-> In x l /\ x <> c.
Proof. rewrite filter_In, negb_true_iff, Nat.eqb_neq. intuition. Qed.
Lemma insert_in c x l : In x (index_insert c l) <-> x = c \/ In x l.
Proof. unfold index_insert. destruct (existsb (Nat.eqb c) l) eqn:E; [apply in_existsb in E; intuition congruence|]. rewrite in_app_iff. cbn. intuition congruence. Qed.
Lemma insert_nodup c l : NoDup l -> NoDup (index_insert c l).
Proof. intro N. unfold index_insert. destruct (existsb (Nat.eqb c) l) eqn:E; auto. apply NoDup_app_snoc; auto. intro H. apply in_existsb in H. congruence. Qed.
Lemma remove_ok c l l' : index_remove c l = Ok l' -> In c l /\ l' = filter (fun d => negb (c =? d)) l.
Proof. unfold index_remove. destruct (existsb (Nat.eqb c) l) eqn:E; [|discriminate]. intro H. injection H as <-. split; auto. now apply in_existsb. Qed.
Lemma remove_all_ok cs : forall l l', remove_all cs l = Ok l' -> (forall x, In x cs -> In x l) /\ (forall x, In x l' <-> In x l /\ ~ In x cs) /\ (NoDup l -> NoDup l').
Proof.
  induction cs as [|c cs IH]; intros l l' E; cbn [remove_all] in E; [injection E as <-; cbn; tauto|]. bnd E. apply remove_ok in E0. destruct E0 as [Hc ->]. apply IH in E. destruct E as (A & B & C). split; [|split].
  - intros x [<-|H]; auto. apply A in H. apply in_filter_neq in H. tauto.
  - intro x. rewrite B, in_filter_neq. cbn. intuition.
  - intro N. apply C. now apply NoDup_filter.
Qed.
Lemma remove_all_total cs : NoDup cs -> forall l, (forall x, In x cs -> In x l) -> exists l', remove_all cs l = Ok l'.
Proof.
  induction 1 as [|c cs N ND IH]; intros l H; cbn [remove_all]; [eauto|]. unfold index_remove. rewrite (proj2 (in_existsb c l) (H c (or_introl eq_refl))). cbn [bind]. apply IH.
  intros x Hx. apply in_filter_neq. split; [apply H; now right|]. intros ->. contradiction.
Qed.

(** ** the invariant: the editor knows exactly the registered clients *)
Record sinv (s : server) : Prop := {
  si_ed : ereach G pol u se L (sv_editor L s);
  si_stop : ed_stopped L (sv_editor L s) = [];
  si_reg : forall c, In c (sv_index L s) <-> connected (ed_core L (sv_editor L s)) c;
  si_nd : NoDup (sv_index L s) }.

(** what an event does to the index *)
Definition index_change (s : server) (v : sevent) (l : list nat) : Prop :=
  match v with
  | VJoin c => forall x, In x l <-> x = c \/ In x (sv_index L s)
  | VLeave c => In c (sv_index L s) /\ forall x, In x l <-> In x (sv_index L s) /\ x <> c
  | VMessage c line => In c (sv_index L s) /\ forall x, In x l <-> In x (sv_index L s) /\ ~ (x = c /\ quits L (sv_editor L s) line)
  end.
(** what an event writes *)
Definition log_change (w : world) (s : server) (v : sevent) (log : list (nat * written)) : Prop :=
  match v with
  | VMessage c line => exists r e, handle G pol u se L w c line (sv_editor L s) = Ok (r, e) /\ log = sv_log L s ++ [(c, WAnswer r)]
  | _ => log = sv_log L s
  end.
Lemma event_spec w broken v rest s s' : sinv s -> event_step w broken v rest s = Ok s' ->
  sinv s' /\ index_change s v (sv_index L s') /\ log_change w s v (sv_log L s') /\
  sv_events L s' = rest /\ sv_readers L s' = sv_readers L s /\ sv_next L s' = sv_next L s /\ sv_taken L s' = sv_taken L s /\
  more_out L (sv_editor L s) (sv_editor L s') /\ (sv_done L s' = true <-> (exists c, v = VLeave c) /\ sv_index L s' = []) /\
  (exists e, happens G pol u se L w (match v with VJoin c => Ejoin c | VLeave c => Eleave c | VMessage c line => Eline c line end) (sv_editor L s) = Ok e /\ sv_editor L s' = snd (removed_clients L e)).
Proof.
  intros [R S C N] E. unfold Server.event_step in E. bnd E. destruct v0 as [[e l] log]. unfold removed_clients in E. bnd E. injection E as <-. cbn [sv_editor sv_index sv_events sv_readers sv_next sv_taken sv_log sv_done].
  pose proof (remove_all_ok _ _ _ E1) as (RA & RB & RC). pose proof (ereach_inv _ _ _ _ _ _ R) as I.
  destruct v as [c|c|c line]; cbn [on_event] in E0.
  - bnd E0. injection E0 as <- <- <-. destruct (join_effect G pol L _ _ _ _ I E) as (S' & C' & M). rewrite S' in *. rewrite S in *.
    split; [|split; [|split; [|refine (conj eq_refl (conj eq_refl (conj eq_refl (conj eq_refl (conj M (conj _ _))))))]]].
    + split; cbn [sv_editor sv_index]; [apply er_removed; eapply er_join; eauto|reflexivity| |apply RC; now apply insert_nodup].
      intro x. rewrite RB. cbn [In]. rewrite insert_in. change (ed_core L (set_stopped L v []))with (ed_core L v). rewrite C', <- C. tauto.
    + cbn [index_change]. intro x. rewrite RB, insert_in. cbn. tauto.
    + reflexivity.
    + cbn. split; [discriminate|intros [(? & ?) _]; discriminate].
    + exists v. split; [exact E|reflexivity].
  - bnd E0. bnd E0. injection E0 as <- <- <-. destruct (leave_effect G pol L _ _ _ _ I E) as (S' & C' & M). rewrite S' in *. rewrite S in *. apply remove_ok in E2. destruct E2 as [Hc ->].
    split; [|split; [|split; [|refine (conj eq_refl (conj eq_refl (conj eq_refl (conj eq_refl (conj M (conj _ _))))))]]].
    + split; cbn [sv_editor sv_index]; [apply er_removed; eapply er_leave; eauto|reflexivity| |apply RC; now apply NoDup_filter].
      intro x. rewrite RB. cbn [In]. rewrite in_filter_neq. change (ed_core L (set_stopped L v [])) with (ed_core L v). rewrite C', <- C. tauto.
    + cbn [index_change]. split; auto. intro x. rewrite RB, in_filter_neq. cbn. tauto.
    + reflexivity.
    + cbn [is_leave andb]. destruct v0; split; [eauto|reflexivity|discriminate|intros [_ X]; discriminate].
    + exists v. split; [exact E|reflexivity].
  - bnd E0. destruct v as [r e1]. destruct (existsb (Nat.eqb c) (sv_index L s)) eqn:Q; cbn [negb] in E0; [|discriminate]. destruct (broken c); [discriminate|]. injection E0 as <- <- <-. apply in_existsb in Q.
    assert (exists e0, happens G pol u se L w (Eline c line) (sv_editor L s) = Ok e0 /\ set_stopped L e1 [] = snd (removed_clients L e0)) as H by (exists e1; cbn [happens]; rewrite E; split; reflexivity).
    destruct (handle_effect G pol u se L _ _ _ _ _ _ I E) as [(Qt & S' & ND & C' & M)|(Qt & S' & C' & M)].
    + split; [|split; [|split; [|refine (conj eq_refl (conj eq_refl (conj eq_refl (conj eq_refl (conj M (conj _ H))))))]]].
      * split; cbn [sv_editor sv_index]; [apply er_removed; eapply er_line; eauto|reflexivity| |now apply RC].
        intro x. rewrite RB. change (ed_core L (set_stopped L e1 [])) with (ed_core L e1). rewrite C', <- C, S', S. cbn. tauto.
      * cbn [index_change]. split; auto. intro x. rewrite RB, S', S. cbn. tauto.
      * cbn [log_change]. eauto.
      * cbn. split; [discriminate|intros [(? & ?) _]; discriminate].
    + rewrite S', S in *. split; [|split; [|split; [|refine (conj eq_refl (conj eq_refl (conj eq_refl (conj eq_refl (conj M (conj _ H))))))]]].
      * split; cbn [sv_editor sv_index]; [apply er_removed; eapply er_line; eauto|reflexivity| |now apply RC].
        intro x. rewrite RB. change (ed_core L (set_stopped L e1 [])) with (ed_core L e1). rewrite C', <- C. cbn. tauto.
      * cbn [index_change]. split; auto. intro x. rewrite RB. cbn. tauto.
      * cbn [log_change]. eauto.
      * cbn. split; [discriminate|intros [(? & ?) _]; discriminate].
Qed.
Lemma shuffle_connected k k' : shuffle k k' -> forall x, connected k' x <-> connected k x.
Proof. intros (_ & _ & _ & _ & _ & _ & m & S7 & S8) x. unfold connected. rewrite (perm_keys _ _ x S7). now rewrite (keys_F2 shuffle_client _ _ S8). Qed.
Lemma sinv_move s m s' : sinv s -> smoves s m (Ok s') -> sinv s'.
Proof.
  intros I H. remember (Ok s') as r eqn:Er. destruct H; try discriminate; try (injection Er as <-; destruct I; split; assumption). eapply event_spec; eauto.
Qed.
Lemma sinv_shuffle s k : sinv s -> shuffle (ed_core L (sv_editor L s)) k -> sinv (with_editor L s (set_core L (sv_editor L s) k)).
Proof.
  intros [R S C N] H. split; cbn [with_editor sv_editor sv_index]; auto; [now apply er_shuffle|]. intro c. rewrite C. symmetry. exact (shuffle_connected _ _ H c).
Qed.
Lemma sinv_runs s ms s' : runs s ms s' -> sinv s -> sinv s'.
Proof. induction 1 as [|ms s1 m s2 R IH H|ms s1 k R IH H]; intro I; [exact I|exact (sinv_move _ _ _ (IH I) H)|exact (sinv_shuffle _ _ (IH I) H)]. Qed.
Lemma start_inv session cwd args st v : editor_init G cwd args = Ok v ->
  einv G pol L (mkEd L session default_commands [] v st (map (fun s => mkES (m_to s) (OCore (m_what s))) (k_sent v))).
Proof.
  intro E. constructor; cbn [ed_core ed_menus ed_out].
  - eapply reach_init; eauto.
  - unfold menus_ok. clear; induction default_commands as [|x l IHl]; constructor; auto. split; auto. now left.
  - apply core_out_core.
  - intros cmd mi. pose proof (last_menu_core [] (k_sent v) cmd) as Z. cbn [app] in Z. rewrite Z. discriminate.
  - intros cmd m Hm _. pose proof (opened_core [] (k_sent v) cmd) as Z. cbn [app] in Z. rewrite Z. clear - Hm. unfold default_commands, provider_menu, prompt_menu in Hm. cbn [get] in Hm. repeat match type of Hm with (if ?c then _ else _) = _ => destruct c; [injection Hm as <-; constructor|] end. discriminate.
Qed.
Lemma new_clients w session cwd args st scripts e : editor_new G pol L w session cwd args st scripts = Ok e -> ed_stopped L e = [] /\ forall c, ~ connected (ed_core L e) c.
Proof.
  intro E. unfold editor_new in E. bnd E. bnd E. destruct v0 as [r e1]. destruct r; [discriminate|]. injection E as <-.
  apply (script_quiet G pol L) in E1; [|eapply start_inv; eauto]. destruct E1 as (S & C & _). split; [exact S|]. intros c H. apply C in H. cbn [ed_core] in H. revert H. clear - E0.
  unfold editor_init in E0. bnd E0. bnd E0. apply sc_append in E. apply sc_append in E1. apply sc_add_view in E0.
  unfold connected. assert (keys (cmap v) = []) as -> . 2: intros []. rewrite E0. change (keys (cmap v1) = []). rewrite E1, E. reflexivity.
Qed.
Lemma sinv_start w session cwd args st scripts e : editor_new G pol L w session cwd args st scripts = Ok e -> sinv (server_new L e).
Proof.
  intro E. destruct (new_clients _ _ _ _ _ _ _ E) as [S N]. split; cbn [server_new sv_editor sv_index]; auto; [eapply er_new; eauto| |constructor]. intro c. split; [intros []|intro H; destruct (N c H)].
Qed.
Lemma sreach_inv ms s : sreach ms s -> sinv s.
Proof. intros (w & session & cwd & args & st & scripts & e & E & R). eapply sinv_runs; [exact R|]. eapply sinv_start; eauto. Qed.

(** ** the life of a connection *)
Notation who := from.
Definition is_message (v : sevent) : Prop := match v with VMessage _ _ => True | _ => False end.
Definition mine (c : nat) (l : list sevent) : list sevent := filter (fun v => who v =? c) l.
Definition tail_ok (c : nat) (readers : list nat) (t : list sevent) : Prop :=
  (In c readers /\ Forall is_message t) \/ (~ In c readers /\ exists ms, Forall is_message ms /\ t = ms ++ [VLeave c]).
Definition unlogged (c : nat) (log : list (nat * written)) : Prop := forall x, ~ In (c, x) log.
(** [quit]: whether the connection may have quit *)
Inductive phase (quit : Prop) (s : server) (c : nat) : Prop :=
| ph_before : sv_next L s <= c -> mine c (sv_events L s) = [] -> ~ In c (sv_readers L s) -> ~ In c (sv_index L s) -> unlogged c (sv_log L s) -> phase quit s c
| ph_waiting t : c < sv_next L s -> mine c (sv_events L s) = VJoin c :: t -> tail_ok c (sv_readers L s) t -> ~ In c (sv_index L s) -> unlogged c (sv_log L s) -> phase quit s c
| ph_live : c < sv_next L s -> tail_ok c (sv_readers L s) (mine c (sv_events L s)) -> In c (sv_index L s) -> phase quit s c
| ph_left : c < sv_next L s -> mine c (sv_events L s) = [] -> ~ In c (sv_readers L s) -> ~ In c (sv_index L s) -> phase quit s c
| ph_quit : quit -> c < sv_next L s -> tail_ok c (sv_readers L s) (mine c (sv_events L s)) -> ~ In c (sv_index L s) -> phase quit s c.
Lemma mine_app c a b : mine c (a ++ b) = mine c a ++ mine c b.
Proof. apply filter_app. Qed.
Lemma mine_other c v : who v <> c -> mine c [v] = [].
Proof. intro H. unfold mine. cbn [filter]. now rewrite (proj2 (Nat.eqb_neq _ _) H). Qed.
Lemma mine_same c v l : who v = c -> mine c (v :: l) = v :: mine c l.
Proof. intro H. unfold mine. cbn [filter]. now rewrite (proj2 (Nat.eqb_eq _ _) H). Qed.
Lemma mine_skip c v l : who v <> c -> mine c (v :: l) = mine c l.
Proof. intro H. unfold mine. cbn [filter]. now rewrite (proj2 (Nat.eqb_neq _ _) H). Qed.
Lemma unlogged_app c a b : unlogged c (a ++ b) <-> unlogged c a /\ unlogged c b.
Proof. unfold unlogged. split; [intro H; split; intros x X; apply (H x), in_app_iff; auto|intros [A B] x X; apply in_app_iff in X; destruct X; [eapply A|eapply B]; eauto]. Qed.
(** nothing about [c] changes *)
Lemma phase_same quit s s' c : (forall q : Prop, phase q s c -> sv_next L s <= c -> sv_next L s' <= c) -> (c < sv_next L s -> c < sv_next L s') ->
  mine c (sv_events L s') = mine c (sv_events L s) -> (In c (sv_readers L s') <-> In c (sv_readers L s)) -> (In c (sv_index L s') <-> In c (sv_index L s)) ->
  (~ In c (sv_index L s) -> unlogged c (sv_log L s) -> unlogged c (sv_log L s')) -> phase quit s c -> phase quit s' c.
Proof.
  intros N N' M Rd Ix Lg H. pose proof (N _ H) as N1. unfold tail_ok in *. destruct H as [H1 H2 H3 H4 H5|t H1 H2 H3 H4 H5|H1 H2 H3|H1 H2 H3 H4|H0 H1 H2 H3]; unfold tail_ok in *.
  - apply ph_before; rewrite ?M, ?Rd, ?Ix; auto.
  - apply (ph_waiting _ _ _ t); unfold tail_ok; rewrite ?M, ?Rd, ?Ix; auto.
  - apply ph_live; unfold tail_ok; rewrite ?M, ?Rd, ?Ix; auto.
  - apply ph_left; rewrite ?M, ?Rd, ?Ix; auto.
  - apply ph_quit; unfold tail_ok; rewrite ?M, ?Rd, ?Ix; auto.
Qed.
Lemma tail_line c r t line : In c r -> tail_ok c r t -> tail_ok c r (t ++ [VMessage c line]).
Proof. intros H [[_ F]|[N _]]; [|contradiction]. left. split; auto. apply Forall_app. split; auto. constructor; [exact Logic.I|constructor]. Qed.
Lemma tail_end c r r' t : In c r -> ~ In c r' -> tail_ok c r t -> tail_ok c r' (t ++ [VLeave c]).
Proof. intros H H' [[_ F]|[N _]]; [|contradiction]. right. split; auto. exists t. auto. Qed.
Lemma phase_move (quit : Prop) s m s' c : sinv s -> smoves s m (Ok s') ->
  (forall w b line rest, m = MEvent w b -> sv_events L s = VMessage c line :: rest -> quits L (sv_editor L s) line -> quit) ->
  phase quit s c -> phase quit s' c.
Proof.
  intros I H Q P. remember (Ok s') as r eqn:Er. destruct H as [Dn|Dn|d line Dn Hd|d Dn Hd|broken x Dn Hx|w broken v rest Dn Ev]; try discriminate.
  - injection Er as <-. destruct (Nat.eq_dec c (sv_next L s)) as [->|NE].
    + destruct P; try lia. apply (ph_waiting _ _ _ []); cbn [accept sv_events sv_next sv_readers sv_index sv_log]; auto.
      * rewrite mine_app, H0. cbn [app]. now rewrite mine_same by reflexivity.
      * left. split; [apply in_app_iff; right; now left|constructor].
    + apply (phase_same quit s); auto; cbn [accept sv_events sv_next sv_readers sv_index sv_log]; auto; try tauto.
      * intros _ _ X. lia.
      * rewrite mine_app, mine_other by (cbn; congruence). apply app_nil_r.
      * rewrite in_app_iff. cbn. intuition congruence.
  - injection Er as <-. destruct (Nat.eq_dec d c) as [->|NE].
    + destruct P as [H1 H2 H3 H4 H5|t H1 H2 H3 H4 H5|H1 H2 H3|H1 H2 H3 H4|H0 H1 H2 H3]; try contradiction.
      * apply (ph_waiting _ _ _ (t ++ [VMessage c line])); cbn [read_line sv_events sv_next sv_readers sv_index sv_log]; auto; [|now apply tail_line]. rewrite mine_app, H2, mine_same by reflexivity. reflexivity.
      * apply ph_live; cbn [read_line sv_events sv_next sv_readers sv_index sv_log]; auto. rewrite mine_app, (mine_same c (VMessage c line)) by reflexivity. now apply tail_line.
      * apply ph_quit; cbn [read_line sv_events sv_next sv_readers sv_index sv_log]; auto. rewrite mine_app, (mine_same c (VMessage c line)) by reflexivity. now apply tail_line.
    + apply (phase_same quit s); auto; cbn [read_line sv_events sv_next sv_readers sv_index sv_log]; auto; try tauto. rewrite mine_app, mine_other by exact NE. apply app_nil_r.
  - injection Er as <-. assert (~ In d (filter (fun d0 => negb (d =? d0)) (sv_readers L s))) as Nd by (rewrite in_filter_neq; tauto). destruct (Nat.eq_dec d c) as [->|NE].
    + destruct P as [H1 H2 H3 H4 H5|t H1 H2 H3 H4 H5|H1 H2 H3|H1 H2 H3 H4|H0 H1 H2 H3]; try contradiction.
      * apply (ph_waiting _ _ _ (t ++ [VLeave c])); cbn [read_end sv_events sv_next sv_readers sv_index sv_log]; auto; [|apply (tail_end c (sv_readers L s)); auto]. rewrite mine_app, H2, mine_same by reflexivity. reflexivity.
      * apply ph_live; cbn [read_end sv_events sv_next sv_readers sv_index sv_log]; auto. rewrite mine_app, (mine_same c (VLeave c)) by reflexivity. apply (tail_end c (sv_readers L s)); auto.
      * apply ph_quit; cbn [read_end sv_events sv_next sv_readers sv_index sv_log]; auto. rewrite mine_app, (mine_same c (VLeave c)) by reflexivity. apply (tail_end c (sv_readers L s)); auto.
    + apply (phase_same quit s); auto; cbn [read_end sv_events sv_next sv_readers sv_index sv_log]; auto; try tauto; [rewrite mine_app, mine_other by exact NE; apply app_nil_r|]. rewrite in_filter_neq. intuition.
  - injection Er as <-. apply (phase_same quit s); auto; cbn [deliver sv_events sv_next sv_readers sv_index sv_log]; auto; try tauto. intros N U. apply unlogged_app. split; auto. intros y X. apply in_map_iff in X. destruct X as (z & X & Hz). apply filter_In in Hz. injection X as -> _. tauto.
  - destruct (event_spec _ _ _ _ _ _ I Er) as (_ & Ic & Lc & E1 & E2 & E3 & E4 & _). destruct (Nat.eq_dec (who v) c) as [Hw|NE].
    + assert (mine c (sv_events L s) = v :: mine c rest) as Mn by (rewrite Ev; now apply mine_same).
      destruct P as [H1 H2 H3 H4 H5|t H1 H2 H3 H4 H5|H1 H2 H3|H1 H2 H3 H4|H0 H1 H2 H3]; try (rewrite Mn in H2; discriminate).
      * rewrite Mn in H2. injection H2 as -> <-. cbn [index_change] in Ic. apply ph_live; rewrite ?E1, ?E2, ?E3; auto. apply Ic. auto.
      * destruct v as [d|d|d line]; cbn [from] in Hw; subst d.
        -- exfalso. rewrite Mn in H2. destruct H2 as [[_ F]|[_ (ms & F & X)]]; [inversion F; contradiction|]. destruct ms; [discriminate|]. injection X as <- _. inversion F. contradiction.
        -- cbn [index_change] in Ic. rewrite Mn in H2. destruct H2 as [[_ F]|[Nr (ms & F & X)]]; [inversion F; contradiction|]. destruct ms as [|y ms]; [|injection X as <- _; inversion F; contradiction]. injection X as X.
           apply ph_left; rewrite ?E1, ?E2, ?E3; auto. intro Y. apply Ic in Y. tauto.
        -- cbn [index_change] in Ic. destruct Ic as [_ Ic]. assert (tail_ok c (sv_readers L s) (mine c rest)) as T.
           { rewrite Mn in H2. destruct H2 as [[Hr F]|[Nr (ms & F & X)]]; [left; split; auto; now inversion F|right; split; auto]. destruct ms as [|y ms]; [discriminate|]. injection X as <- X. exists ms. split; auto. now inversion F. }
           assert (In c (sv_index L s') \/ ~ In c (sv_index L s')) as [Y|Y] by (destruct (existsb (Nat.eqb c) (sv_index L s')) eqn:Z; [left; now apply in_existsb|right; intro X; apply in_existsb in X; congruence]).
           ++ apply ph_live; rewrite ?E1, ?E2, ?E3; auto.
           ++ assert (quits L (sv_editor L s) line \/ ~ quits L (sv_editor L s) line) as [Z|Z].
              { destruct Lc as (r & e & Hh & _). destruct (handle_effect G pol u se L _ _ _ _ _ _ (ereach_inv _ _ _ _ _ _ (si_ed _ I)) Hh); tauto. }
              ** apply ph_quit; rewrite ?E1, ?E2, ?E3; auto. eapply Q; eauto.
              ** exfalso. apply Y, Ic. tauto.
      * exfalso. destruct v as [d|d|d line]; cbn [from] in Hw; subst d; cbn [index_change] in Ic; try tauto. rewrite Mn in H2. destruct H2 as [[_ F]|[_ (ms & F & X)]]; [inversion F; contradiction|]. destruct ms; [discriminate|]. injection X as <- _. inversion F. contradiction.
    + apply (phase_same quit s); auto; rewrite ?E1, ?E2, ?E3; auto; try tauto; try lia.
      * rewrite Ev. now rewrite mine_skip.
      * destruct v as [d|d|d line]; cbn [from] in NE; cbn [index_change] in Ic; [rewrite Ic|destruct Ic as [_ Ic]; rewrite Ic..]; intuition congruence.
      * intros _ U. destruct v as [d|d|d line]; cbn [log_change from] in *; try now rewrite Lc. destruct Lc as (r & e & _ & ->). apply unlogged_app. split; auto. intros x [X|[]]. congruence.
Qed.
Lemma phase_start e c quit : phase quit (server_new L e) c.
Proof.
  destruct c as [|c].
  - apply ph_left; cbn; auto; unfold first_client_id; lia.
  - apply ph_before; cbn; auto; [unfold first_client_id; lia|intros x []].
Qed.
Lemma phase_shuffle quit s k c : phase quit s c -> phase quit (with_editor L s (set_core L (sv_editor L s) k)) c.
Proof. intro H. apply (phase_same quit s); auto; try reflexivity. Qed.
Lemma phase_runs s ms s' c : runs s ms s' -> sinv s -> phase True s c -> phase True s' c.
Proof.
  induction 1 as [|ms s1 m s2 R IH H|ms s1 k R IH H]; intros I P; [exact P| |apply phase_shuffle; auto].
  eapply phase_move; [eapply sinv_runs; eauto|exact H| |auto]. auto.
Qed.
Lemma sreach_phase ms s c : sreach ms s -> phase True s c.
Proof. intros (w & session & cwd & args & st & scripts & e & E & R). eapply phase_runs; [exact R|eapply sinv_start; eauto|apply phase_start]. Qed.

(** * C42 *)
(** The registered connections are the clients the editor has; nobody is registered twice. *)
Theorem C42_registered : forall ms s, sreach ms s ->
  (forall c, In c (sv_index L s) <-> connected (ed_core L (sv_editor L s)) c) /\ NoDup (sv_index L s) /\ ereach G pol u se L (sv_editor L s).
Proof. intros ms s R. destruct (sreach_inv _ _ R) as [I1 I2 I3 I4]. auto. Qed.
(** They change when an event is handled, and exactly so: a client that joins is added; one that leaves, or asks to quit, is
    removed; a message of anyone else changes nothing.  The server stops exactly when a leave empties them. *)
Theorem C42_changes : forall ms s m s', sreach ms s -> smoves s m (Ok s') ->
  (forall c, handles L s m (VJoin c) -> forall x, In x (sv_index L s') <-> x = c \/ In x (sv_index L s)) /\
  (forall c, handles L s m (VLeave c) -> In c (sv_index L s) /\ forall x, In x (sv_index L s') <-> In x (sv_index L s) /\ x <> c) /\
  (forall c line, handles L s m (VMessage c line) -> In c (sv_index L s) /\ forall x, In x (sv_index L s') <-> In x (sv_index L s) /\ ~ (x = c /\ quits L (sv_editor L s) line)) /\
  ((forall v, ~ handles L s m v) -> sv_index L s' = sv_index L s) /\
  (sv_done L s' = true <-> (exists c, handles L s m (VLeave c)) /\ sv_index L s' = []).
Proof.
  intros ms s m s' R H. pose proof (sreach_inv _ _ R) as I. remember (Ok s') as r eqn:Er.
  assert (sv_done L s = false /\ ((forall v, ~ handles L s m v) /\ r = Ok s' -> sv_done L s' = false -> sv_index L s' = sv_index L s ->
    (forall c, handles L s m (VJoin c) -> forall x, In x (sv_index L s') <-> x = c \/ In x (sv_index L s)) /\
    (forall c, handles L s m (VLeave c) -> In c (sv_index L s) /\ forall x, In x (sv_index L s') <-> In x (sv_index L s) /\ x <> c) /\
    (forall c line, handles L s m (VMessage c line) -> In c (sv_index L s) /\ forall x, In x (sv_index L s') <-> In x (sv_index L s) /\ ~ (x = c /\ quits L (sv_editor L s) line)) /\
    ((forall v, ~ handles L s m v) -> sv_index L s' = sv_index L s) /\
    (sv_done L s' = true <-> (exists c, handles L s m (VLeave c)) /\ sv_index L s' = []))) as [Dn Z].
  { split; [destruct H; assumption|]. intros [N _] D Ix. split; [intros c Hc; destruct (N _ Hc)|]. split; [intros c Hc; destruct (N _ Hc)|]. split; [intros c line Hc; destruct (N _ Hc)|]. split; [auto|]. rewrite D. split; [discriminate|intros [(c & Hc) _]; destruct (N _ Hc)]. }
  destruct H as [D|D|d line D Hd|d D Hd|broken x D Hx|w broken v rest D Ev]; try discriminate;
    try (assert (s' = s') as _ by reflexivity; injection Er as Er; apply Z; [split; [intros v [(w & b & X) _]; discriminate|now rewrite Er]|rewrite <- Er; exact D|rewrite <- Er; reflexivity]).
  clear Z. destruct (event_spec _ _ _ _ _ _ I Er) as (_ & Ic & _ & _ & _ & _ & _ & _ & Sd & _).
  assert (forall v', handles L s (MEvent w broken) v' <-> v' = v) as Hv. { intro v'. unfold handles. rewrite Ev. split; [intros [_ (r' & X)]; now injection X|intros ->; eauto]. }
  split; [intros c Hc; apply Hv in Hc; subst v; exact Ic|]. split; [intros c Hc; apply Hv in Hc; subst v; exact Ic|]. split; [intros c line Hc; apply Hv in Hc; subst v; exact Ic|]. split; [intro N; destruct (N v); now apply Hv|].
  rewrite Sd. split; intros [(c & X) Y]; (split; [exists c|exact Y]); [apply Hv; auto|now apply Hv in X].
Qed.

(** * C43: the connections get the numbers 1, 2, 3, ... *)
Lemma runs_next s ms s' : runs s ms s' -> sinv s -> sv_next L s' = sv_next L s + accepted ms.
Proof.
  induction 1 as [|ms s1 m s2 R IH H|ms s1 k R IH H]; intro I; [cbn; lia| |cbn [with_editor sv_next]; auto]. specialize (IH I). pose proof (sinv_runs _ _ _ R I) as I1. unfold accepted. rewrite filter_app, app_length. fold (accepted ms).
  remember (Ok s2) as r eqn:Er. destruct H as [D|D|d line D Hd|d D Hd|broken x D Hx|w broken v rest D Ev]; try discriminate; try (injection Er as <-; cbn; lia).
  destruct (event_spec _ _ _ _ _ _ I1 Er) as (_ & _ & _ & _ & _ & E & _). rewrite E. cbn. lia.
Qed.
Theorem C43 : forall ms s s', sreach ms s -> smoves s MAccept (Ok s') ->
  (* the k-th connection gets the number k *)
  sv_events L s' = sv_events L s ++ [VJoin (S (accepted ms))] /\ sv_readers L s' = sv_readers L s ++ [S (accepted ms)] /\
  (* nobody has this number: no event, no answer, no notification, nor a connection *)
  (forall v, In v (sv_events L s) -> from v <> S (accepted ms)) /\ ~ In (S (accepted ms)) (sv_readers L s) /\ ~ In (S (accepted ms)) (sv_index L s) /\
  (forall x, ~ In (S (accepted ms), x) (sv_log L s)).
Proof.
  intros ms s s' R H. pose proof (sreach_phase _ _ (S (accepted ms)) R) as P. assert (sv_next L s = S (accepted ms)) as N.
  { destruct R as (w & session & cwd & args & st & scripts & e & E & R). apply runs_next in R; [exact R|eapply sinv_start; eauto]. }
  inversion H as [D|D|d line D Hd|d D Hd|broken x D Hx|w broken v rest D Ev]; subst s'. cbn [accept sv_events sv_readers]. rewrite N. split; [reflexivity|]. split; [reflexivity|].
  destruct P as [H1 H2 H3 H4 H5|t H1 H2 H3 H4 H5|H1 H2 H3|H1 H2 H3 H4|H0 H1 H2 H3]; try lia. split; auto. intros v Hv X.
  assert (In v (mine (S (accepted ms)) (sv_events L s))) as Y by (apply filter_In; split; auto; now apply Nat.eqb_eq). rewrite H2 in Y. destruct Y.
Qed.

Lemma moves_event s w b r v rest : smoves s (MEvent w b) r -> sv_events L s = v :: rest -> event_step w b v rest s = r.
Proof. intros H E. remember (MEvent w b) as m eqn:Em. destruct H; try discriminate. injection Em as -> ->. rewrite E in H0. now injection H0 as <- <-. Qed.
(** * C42, refuted: a client that quits crashes the server when it disconnects *)
Lemma not_in_tail c r t : tail_ok c r t -> ~ In (VJoin c) t.
Proof.
  intros [[_ F]|[_ (ms & F & ->)]] H; [rewrite Forall_forall in F; destruct (F _ H)|]. apply in_app_iff in H. destruct H as [H|[H|[]]]; [|discriminate]. rewrite Forall_forall in F. destruct (F _ H).
Qed.
Definition quitted (s : server) (c : nat) : Prop := c < sv_next L s /\ tail_ok c (sv_readers L s) (mine c (sv_events L s)) /\ ~ In c (sv_index L s).
Lemma quitted_event s c v rest w b s' : sinv s -> quitted s c -> sv_events L s = v :: rest -> from v = c -> event_step w b v rest s <> Ok s'.
Proof.
  intros I (H1 & H2 & H3) Ev F E. destruct (event_spec _ _ _ _ _ _ I E) as (_ & Ic & _). apply not_in_tail in H2. rewrite Ev, mine_same in H2 by exact F. destruct v; cbn [from] in F; subst; cbn [index_change] in Ic; try tauto. apply H2. now left.
Qed.
Lemma quitted_move s m s' c : sinv s -> smoves s m (Ok s') -> quitted s c -> quitted s' c.
Proof.
  intros I H Q. pose proof Q as (H1 & H2 & H3). remember (Ok s') as r eqn:Er. destruct H as [Dn|Dn|d line Dn Hd|d Dn Hd|broken x Dn Hx|w broken v rest Dn Ev]; try discriminate; try (injection Er as <-).
  - unfold quitted, tail_ok. cbn [accept sv_next sv_readers sv_events sv_index]. rewrite in_app_iff, mine_app, mine_other, app_nil_r by (cbn; lia). split; [lia|]. split; auto. destruct H2 as [[A B]|[A B]]; [left; auto|right; split; auto]. intros [X|[X|[]]]; [contradiction|lia].
  - unfold quitted. cbn [read_line sv_next sv_readers sv_events sv_index]. split; auto. split; auto. rewrite mine_app. destruct (Nat.eq_dec d c) as [->|NE]; [rewrite (mine_same c (VMessage c line)) by reflexivity; now apply tail_line|rewrite mine_other, app_nil_r by exact NE; exact H2].
  - unfold quitted. cbn [read_end sv_next sv_readers sv_events sv_index]. split; auto. split; auto. rewrite mine_app. destruct (Nat.eq_dec d c) as [->|NE].
    + rewrite (mine_same c (VLeave c)) by reflexivity. apply (tail_end c (sv_readers L s)); auto. rewrite in_filter_neq. tauto.
    + rewrite mine_other, app_nil_r by exact NE. unfold tail_ok. rewrite in_filter_neq. destruct H2 as [[A B]|[A B]]; [left; split; auto; split; congruence|right; split; tauto].
  - exact Q.
  - destruct (Nat.eq_dec (from v) c) as [F|F]; [destruct (quitted_event _ _ _ _ _ _ _ I Q Ev F Er)|]. destruct (event_spec _ _ _ _ _ _ I Er) as (_ & Ic & _ & E1 & E2 & E3 & _). unfold quitted. rewrite E1, E2, E3. split; auto. split; [now rewrite Ev, mine_skip in H2|].
    destruct v as [d|d|d line]; cbn [from] in F; cbn [index_change] in Ic; [rewrite Ic|destruct Ic as [_ Ic]; rewrite Ic..]; intuition congruence.
Qed.
Lemma quitted_runs s ms s' c : runs s ms s' -> sinv s -> quitted s c -> quitted s' c.
Proof. induction 1 as [|ms s1 m s2 R IH H|ms s1 k R IH H]; intros I Q; [exact Q| |exact (IH I Q)]. eapply quitted_move; [eapply sinv_runs; eauto|exact H|auto]. Qed.
(** After a client asked to quit, whatever happens next: none of its events can be handled (the server panics instead), and
    once its connection is closed the queue holds such an event. *)
Theorem C42_quit : forall ms s m s1 c line, sreach ms s -> handles L s m (VMessage c line) -> quits L (sv_editor L s) line -> smoves s m (Ok s1) ->
  forall ms' s2, runs s1 ms' s2 ->
    (forall m' v s3, handles L s2 m' v -> from v = c -> ~ smoves s2 m' (Ok s3)) /\
    (~ In c (sv_readers L s2) -> In (VLeave c) (sv_events L s2)).
Proof.
  intros ms s m s1 c line R Hm Qt H ms' s2 R'. pose proof (sreach_inv _ _ R) as I. pose proof (sinv_move _ _ _ I H) as I1. pose proof (sinv_runs _ _ _ R' I1) as I2.
  assert (quitted s1 c) as Q1.
  { pose proof (sreach_phase _ _ c R) as P. pose proof (phase_move True _ _ _ c I H (fun _ _ _ _ _ _ _ => Logic.I) P) as P1. destruct (C42_changes _ _ _ _ R H) as (_ & _ & Z & _). destruct (Z c line Hm) as [Hc Z']. assert (~ In c (sv_index L s1)) as N by (rewrite Z'; tauto).
    destruct Hm as [(w & b & ->) (rest & Ev)]. pose proof (moves_event _ _ _ _ _ _ H Ev) as Er. destruct (event_spec _ _ _ _ _ _ I Er) as (_ & _ & _ & E1 & E2 & E3 & _).
    assert (tail_ok c (sv_readers L s) (VMessage c line :: mine c rest) /\ c < sv_next L s) as [T Lt].
    { destruct P as [H1 H2 H3 H4 H5|t H1 H2 H3 H4 H5|H1 H2 H3|H1 H2 H3 H4|H0 H1 H2 H3]; try contradiction. rewrite Ev, mine_same in H2 by reflexivity. auto. }
    unfold quitted. rewrite E1, E2, E3. split; auto. split; auto. destruct T as [[A F]|[A (l & F & X)]]; [left; split; auto; now inversion F|right; split; auto]. destruct l as [|y l]; [discriminate|]. injection X as <- X. exists l. split; auto. now inversion F. }
  pose proof (quitted_runs _ _ _ _ R' I1 Q1) as Q2. split.
  - intros m' v s3 [(w & b & ->) (rest & Ev)] F X. exact (quitted_event _ _ _ _ _ _ _ I2 Q2 Ev F (moves_event _ _ _ _ _ _ X Ev)).
  - intro N. destruct Q2 as (_ & [[A _]|[_ (l & _ & X)]] & _); [contradiction|]. assert (In (VLeave c) (mine c (sv_events L s2))) as Y by (rewrite X; apply in_app_iff; right; now left). apply filter_In in Y. apply Y.
Qed.

(** * C44 *)
Lemma runs_taken s ms s' : runs s ms s' -> sinv s -> sv_taken L s <= length (ed_out L (sv_editor L s)) -> sv_taken L s' <= length (ed_out L (sv_editor L s')).
Proof.
  induction 1 as [|ms s1 m s2 R IH H|ms s1 k R IH H]; intros I T; [exact T| |]; specialize (IH I T); pose proof (sinv_runs _ _ _ R I) as I1.
  - remember (Ok s2) as r eqn:Er. destruct H as [Dn|Dn|d line Dn Hd|d Dn Hd|broken x Dn Hx|w broken v rest Dn Ev]; try discriminate; try (injection Er as <-); try exact IH.
    + cbn [deliver sv_taken sv_editor]. apply nth_error_Some. congruence.
    + destruct (event_spec _ _ _ _ _ _ I1 Er) as (_ & _ & _ & _ & _ & _ & E & (l & M) & _). rewrite E, M, app_length. lia.
  - cbn [with_editor sv_taken sv_editor set_core ed_out]. rewrite app_length. lia.
Qed.
Lemma sreach_taken ms s : sreach ms s -> sv_taken L s <= length (ed_out L (sv_editor L s)).
Proof. intros (w & session & cwd & args & st & scripts & e & E & R). eapply runs_taken; [exact R|eapply sinv_start; eauto|cbn; lia]. Qed.
Lemma notified_app a b c : notified (a ++ b) c = notified a c ++ notified b c.
Proof. apply flat_map_app. Qed.
Lemma answered_app a b c : answered (a ++ b) c = answered a c ++ answered b c.
Proof. apply flat_map_app. Qed.
Lemma notified_none c x l : ~ In c l -> notified (map (fun d => (d, WNotif x)) l) c = [].
Proof.
  induction l as [|d l IH]; intro H; [reflexivity|]. cbn. rewrite (proj2 (Nat.eqb_neq d c)) by (intros ->; apply H; now left). cbn. apply IH. intro X. apply H. now right.
Qed.
Lemma notified_once c x l : NoDup l -> In c l -> notified (map (fun d => (d, WNotif x)) l) c = [x].
Proof.
  induction 1 as [|d l N ND IH]; intros H; [destruct H|]. change (map (fun d => (d, WNotif x)) (d :: l)) with ((d, WNotif x) :: map (fun d => (d, WNotif x)) l). change ((d, WNotif x) :: map (fun d => (d, WNotif x)) l) with ([(d, WNotif x)] ++ map (fun d => (d, WNotif x)) l). rewrite notified_app. destruct (Nat.eq_dec d c) as [->|NE].
  - cbn. rewrite Nat.eqb_refl. now rewrite notified_none.
  - destruct H as [H|H]; [contradiction|]. rewrite IH by exact H. cbn. now rewrite (proj2 (Nat.eqb_neq d c) NE).
Qed.
(** Taking a notification from its queue writes it, once, to exactly the registered clients it is addressed to (a failed write
    affects nobody else); nothing else writes notifications. *)
Theorem C44_each : forall ms s m s', sreach ms s -> smoves s m (Ok s') -> forall c,
  ((forall b, m <> MDeliver b) -> notified (sv_log L s') c = notified (sv_log L s) c /\ sv_taken L s' = sv_taken L s) /\
  (forall b, m = MDeliver b -> exists x, nth_error (ed_out L (sv_editor L s')) (sv_taken L s) = Some x /\ sv_taken L s' = S (sv_taken L s) /\
    (In c (sv_index L s) -> b c = false -> notified (sv_log L s') c = notified (sv_log L s) c ++ addressed [x] c) /\
    (~ In c (sv_index L s) -> notified (sv_log L s') c = notified (sv_log L s) c)).
Proof.
  intros ms s m s' R H c. pose proof (sreach_inv _ _ R) as I. remember (Ok s') as r eqn:Er. destruct H as [Dn|Dn|d line Dn Hd|d Dn Hd|broken x Dn Hx|w broken v rest Dn Ev]; try discriminate.
  1-3: injection Er as <-; split; [auto|intros b X; discriminate].
  - injection Er as <-. split; [intro N; destruct (N broken eq_refl)|]. intros b X. injection X as <-. exists x. cbn [deliver sv_editor sv_taken sv_log]. rewrite notified_app. split; [exact Hx|]. split; [reflexivity|]. split.
    + intros Hc Bc. f_equal. unfold addressed. cbn [filter map]. change (match o_to x with Some cs => existsb (Nat.eqb c) cs | None => true end) with (should_notify (o_to x) c). destruct (should_notify (o_to x) c) eqn:Q.
      * apply notified_once; [apply NoDup_filter, I|]. apply filter_In. split; auto. now rewrite Q, Bc.
      * apply notified_none. intro Y. apply filter_In in Y. rewrite Q in Y. destruct Y as [_ Y]. discriminate.
    + intro N. rewrite notified_none; [apply app_nil_r|]. intro Y. apply filter_In in Y. tauto.
  - destruct (event_spec _ _ _ _ _ _ I Er) as (_ & _ & Lc & _ & _ & _ & E & _). split; [|intros b X; discriminate]. intros _. split; [|exact E]. destruct v as [d|d|d line]; cbn [log_change] in Lc; [now rewrite Lc..|]. destruct Lc as (r & e & _ & ->). rewrite notified_app. apply app_nil_r.
Qed.
Lemma addressed_app a b c : addressed (a ++ b) c = addressed a c ++ addressed b c.
Proof. unfold addressed. now rewrite filter_app, map_app. Qed.
Lemma segment_more {T} (o l : list T) a b : b <= length o -> firstn (b - a) (skipn a (o ++ l)) = firstn (b - a) (skipn a o).
Proof.
  intro H. rewrite skipn_app, firstn_app, skipn_length. replace (b - a - (length o - a)) with 0 by lia. cbn [firstn]. apply app_nil_r.
Qed.
Lemma segment_snoc {T} (o : list T) a b x : a <= b -> nth_error o b = Some x -> firstn (S b - a) (skipn a o) = firstn (b - a) (skipn a o) ++ [x].
Proof.
  intros H E. replace (S b - a) with (S (b - a)) by lia. assert (nth_error (skipn a o) (b - a) = Some x) as E' by (rewrite nth_error_skipn; now replace (a + (b - a)) with b by lia). clear E H. revert E'. generalize (skipn a o) as l. generalize (b - a) as n. clear. intro n. induction n as [|n IH]; intros [|y l] E; try discriminate; [injection E as ->; reflexivity|]. change (firstn (S (S n)) (y :: l)) with (y :: firstn (S n) l). rewrite (IH l E). reflexivity.
Qed.
(** From the moment it joins, and as long as it is registered, a client has received exactly the notifications taken from the
    queue since then that are addressed to it, in the order they were broadcast, none twice and none missing. *)
Theorem C44_order : forall ms s m s1 c, sreach ms s -> handles L s m (VJoin c) -> smoves s m (Ok s1) ->
  forall ms' s2, runs s1 ms' s2 -> sound ms' c -> In c (sv_index L s2) ->
    notified (sv_log L s2) c = addressed (firstn (sv_taken L s2 - sv_taken L s) (skipn (sv_taken L s) (ed_out L (sv_editor L s2)))) c.
Proof.
  intros ms s m s1 c R Hm H ms' s2 R'. pose proof (sreach_inv _ _ R) as I. pose proof (sinv_move _ _ _ I H) as I1.
  assert (sreach (ms ++ [m]) s1) as R1. { destruct R as (w & session & cwd & args & st & scripts & e & E & R). exists w, session, cwd, args, st, scripts, e. split; auto. eapply ru_move; eauto. }
  assert (sv_taken L s1 = sv_taken L s /\ notified (sv_log L s1) c = [] /\ ~ In (VJoin c) (sv_events L s1) /\ c < sv_next L s1) as (T1 & N1 & J1 & L1).
  { pose proof (sreach_phase _ _ c R) as P. destruct Hm as [(w & b & ->) (rest & Ev)]. pose proof (moves_event _ _ _ _ _ _ H Ev) as Er. destruct (event_spec _ _ _ _ _ _ I Er) as (_ & _ & Lc & E1 & E2 & E3 & E4 & _). cbn [log_change] in Lc.
    rewrite E1, E3, E4, Lc. split; [reflexivity|]. destruct P as [H1 H2 H3 H4 H5|t H1 H2 H3 H4 H5|H1 H2 H3|H1 H2 H3 H4|H0 H1 H2 H3]; rewrite Ev, mine_same in H2 by reflexivity; try discriminate.
    - injection H2 as <-. split; [|split; auto].
      + clear - H5. unfold notified. induction (sv_log L s) as [|[d y] l IH]; [reflexivity|]. assert (unlogged c l) as U by (intros z Z; apply (H5 z); now right). specialize (IH U). cbn. rewrite IH, app_nil_r. destruct y; auto. cbn. destruct (Nat.eqb_spec d c) as [->|]; auto. exfalso. apply (H5 (WNotif n)). now left.
      + apply not_in_tail in H3. intro X. apply H3. apply filter_In. split; auto. apply Nat.eqb_refl.
    - apply not_in_tail in H2. exfalso. apply H2. now left.
    - apply not_in_tail in H2. exfalso. apply H2. now left. }
  rewrite <- T1. clear H Hm R. revert R1. revert R'. generalize (ms ++ [m]) as ms0. intros ms0 R' R1.
  assert (~ In (VJoin c) (sv_events L s2) /\ c < sv_next L s2 /\ sv_taken L s1 <= sv_taken L s2 /\ (sound ms' c -> In c (sv_index L s2) -> notified (sv_log L s2) c = addressed (firstn (sv_taken L s2 - sv_taken L s1) (skipn (sv_taken L s1) (ed_out L (sv_editor L s2)))) c)) as (_ & _ & _ & Z).
  2:{ exact Z. }
  induction R' as [|ms' s2 m' s3 R' IH H|ms' s2 k R' IH H].
  - split; auto. split; auto. split; auto. intros _ _. rewrite Nat.sub_diag. exact N1.
  - destruct IH as (J2 & L2 & T2 & E2). pose proof (sinv_runs _ _ _ R' I1) as I2. assert (sreach (ms0 ++ ms') s2) as R2.
    { destruct R1 as (w & session & cwd & args & st & scripts & e & E & R). exists w, session, cwd, args, st, scripts, e. split; auto. clear - R R'. induction R' as [|ms' s2 m' s3 R' IH H|ms' s2 k R' IH H]; [now rewrite app_nil_r|rewrite app_assoc; eapply ru_move; eauto|apply ru_shuffle; auto]. }
    pose proof (sreach_taken _ _ R2) as B2. destruct (C44_each _ _ _ _ R2 H c) as [CA CB].
    assert (sound (ms' ++ [m']) c -> sound ms' c /\ sound [m'] c) as SA by apply Forall_app.
    remember (Ok s3) as r eqn:Er. destruct H as [Dn|Dn|d line Dn Hd|d Dn Hd|broken x Dn Hx|w broken v rest Dn Ev]; try discriminate.
    + injection Er as <-. cbn [accept sv_events sv_next sv_taken sv_index sv_editor sv_log]. split; [rewrite in_app_iff; intros [X|[X|[]]]; [contradiction|injection X as X; lia]|]. split; [lia|]. split; auto. intros S Hc. apply E2; auto. now apply SA.
    + injection Er as <-. cbn [read_line sv_events sv_next sv_taken sv_index sv_editor sv_log]. split; [rewrite in_app_iff; intros [X|[X|[]]]; [contradiction|discriminate]|]. split; auto. split; auto. intros S Hc. apply E2; auto. now apply SA.
    + injection Er as <-. cbn [read_end sv_events sv_next sv_taken sv_index sv_editor sv_log]. split; [rewrite in_app_iff; intros [X|[X|[]]]; [contradiction|discriminate]|]. split; auto. split; auto. intros S Hc. apply E2; auto. now apply SA.
    + injection Er as <-. split; auto. split; auto. split; [cbn; lia|]. intros S Hc. destruct (SA S) as [S1 S2]. destruct (CB broken eq_refl) as (y & Hy & Ty & CB1 & _). rewrite CB1; [|exact Hc|now inversion S2]. rewrite (E2 S1 Hc), Ty. rewrite (segment_snoc _ _ _ _ T2 Hy), addressed_app. reflexivity.
    + destruct (event_spec _ _ _ _ _ _ I2 Er) as (_ & Ic & _ & Q1 & _ & Q3 & Q4 & (l & M) & _). rewrite Q1, Q3, Q4, M. split; [intro X; apply J2; rewrite Ev; now right|]. split; auto. split; auto. intros S Hc. destruct (SA S) as [S1 _]. rewrite segment_more by exact B2. rewrite (proj1 (CA (fun b => ltac:(discriminate)))). apply E2; auto.
      destruct v as [d|d|d line]; cbn [index_change] in Ic; [|apply Ic in Hc; tauto..]. apply Ic in Hc. destruct Hc as [->|Hc]; auto. exfalso. apply J2. rewrite Ev. now left.
  - destruct IH as (J2 & L2 & T2 & E2). cbn [with_editor sv_events sv_next sv_taken sv_index sv_log sv_editor set_core ed_out]. split; auto. split; auto. split; auto. intros S Hc. rewrite segment_more; auto.
    assert (sv_taken L s2 <= length (ed_out L (sv_editor L s2))) as B by (eapply runs_taken; eauto; eapply sreach_taken; eauto). exact B.
Qed.

(** * C64: every line is answered once, in order *)
Theorem C64 : forall ms s, sreach ms s -> forall c,
  exists handled, lines_sent ms c = handled ++ lines_waiting (sv_events L s) c /\ Forall2 answers handled (answered (sv_log L s) c).
Proof.
  intros ms s (w0 & session & cwd & args & st & scripts & e & E & R) c. assert (sinv (server_new L e)) as I by (eapply sinv_start; eauto).
  induction R as [|ms s1 m s2 R IH H|ms s1 k R IH H]; [exists []; split; [reflexivity|constructor]| |exact IH]. destruct IH as (h & Hh & F). pose proof (sinv_runs _ _ _ R I) as I1. unfold lines_sent in *. rewrite flat_map_app, Hh.
  assert (forall a b, lines_waiting (a ++ b) c = lines_waiting a c ++ lines_waiting b c) as LW by (intros; apply flat_map_app).
  remember (Ok s2) as r eqn:Er. destruct H as [Dn|Dn|d line Dn Hd|d Dn Hd|broken x Dn Hx|w broken v rest Dn Ev]; try discriminate.
  - injection Er as <-. exists h. split; auto. cbn [accept sv_events]. rewrite LW. cbn. now rewrite !app_nil_r.
  - injection Er as <-. exists h. split; auto. cbn [read_line sv_events]. rewrite LW. cbn. rewrite !app_nil_r. now rewrite app_assoc.
  - injection Er as <-. exists h. split; auto. cbn [read_end sv_events]. rewrite LW. cbn. now rewrite !app_nil_r.
  - injection Er as <-. exists h. cbn [deliver sv_events sv_log]. cbn. rewrite app_nil_r. split; auto. rewrite answered_app. assert (forall l, answered (map (fun d => (d, WNotif (o_what x))) l) c = []) as -> by (induction l; auto). now rewrite app_nil_r.
  - destruct (event_spec _ _ _ _ _ _ I1 Er) as (_ & _ & Lc & Q1 & _). rewrite Q1, Ev. cbn [flat_map app]. rewrite app_nil_r. destruct v as [d|d|d line]; cbn [log_change] in Lc; [rewrite Lc; exists h; auto..|]. destruct Lc as (r & e' & Hr & ->). rewrite answered_app. cbn. destruct (Nat.eqb_spec d c) as [->|NE]; cbn [app]; [|exists h; rewrite app_nil_r; auto].
    exists (h ++ [line]). rewrite <- app_assoc. split; [reflexivity|]. apply Forall2_app; auto. constructor; [|constructor]. pose proof (C37_partial G pol u se L _ _ _ _ _ _ Hr) as Z. unfold answers. destruct (parse_request line); apply Z.
Qed.
End Server.
