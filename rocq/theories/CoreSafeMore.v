(** C36, continued: the remaining calls, the first state and reordered tables. *)
From Coq Require Import String List Arith Lia Bool Permutation.
From Verif Require Import Base ListFacts LineSpec LineFacts PieceTable PieceTableSpec PieceTableFacts Coords CoordsFacts Utf8 Diff Selection NavSpec NavFacts PropNav
  Maps StackMap Fmt Buffer View ViewSpec ViewFacts NotifFacts PropNotif Utf8Facts Core CoreSpec CoreInv CoreOps CoreTame CoreSafe CoreDelete.
Import ListNotations.

Lemma safe_weak (P Q : text -> Prop) k : safe P k -> (forall key, Q key -> P key) -> safe Q k.
Proof. intros S H. split; try apply S. intros id c key E. destruct (sf_keys _ _ S id c key E). auto. Qed.

Lemma group_add_length x g : length (group_add x g) = S (length g).
Proof. unfold group_add. rewrite (Permutation_length (sort_perm _ (g ++ [x]))), app_length. simpl. lia. Qed.
Lemma add_lens_neq b v : view_wf v -> add_lens (mkLens b FWhole) v <> v.
Proof.
  intros [S _] E. pose proof (get_add (mkLens b FWhole) v b S) as H. rewrite E in H. cbn [l_buffer] in H. rewrite eqb_refl in H.
  destruct (get v b) as [g|].
  - inversion H as [H1]. apply (f_equal (@length _)) in H1. rewrite group_add_length in H1. lia.
  - discriminate.
Qed.
Lemma open_names k v : safe full k -> (forall b, shows v b -> open k b) -> Forall plain_name (keys v).
Proof. intros S H. apply Forall_forall. intros b Hb. apply (open_plain full k b S). now apply H. Qed.

Lemma view_add_safe G k id b : safe full k -> connected k id ->
  exists e k', add_to_current_view G id b k = Ok (e, k') /\ safe full k'.
Proof.
  intros S C. unfold add_to_current_view. destruct (buffer_exists k b) eqn:Xb; cbn [negb]; [|eauto].
  assert (open k b) as O by (apply has_in; exact Xb). apply get_some in C. destruct C as (c & Ec). unfold the_client. rewrite Ec. cbn [unwrap bind].
  pose proof (sf_inv _ _ S) as I. pose proof (i_0 _ I) as I0. pose proof (sf_cur _ _ S _ _ Ec) as Cu. set (v := c_view c) in *.
  destruct (i_key _ I0 _ _ Cu) as [_ W]. set (v' := add_lens (mkLens b FWhole) v).
  assert (view_wf v') as W' by (now apply view_wf_add).
  assert (forall x, shows v' x <-> x = b \/ shows v x) as Hs by (intro x; apply (keys_add (mkLens b FWhole) v x)).
  assert (forall x, shows v' x -> open k x) as O'. { intros x Hx. apply Hs in Hx. destruct Hx as [->|Hx]; auto. exact (i_open _ I _ _ _ Cu Hx). }
  assert (view_key v <> view_key v') as N.
  { intro Q. symmetry in Q. apply (add_lens_neq b v W). apply key_inj; auto; apply (open_names k); auto. intros x Hx. apply O', Hs. auto. }
  unfold modify_view. rewrite Cu. cbn [unwrap bind]. fold v'. destruct (eqb (view_key v) (view_key v')) eqn:Q; [apply eqb_ok in Q; contradiction|]. clear Q.
  assert (view_is_empty v' = false) as ->. { destruct v' eqn:Q; auto. exfalso. apply (Hs b). auto. }
  destruct (add_view_ok v' (set_cmap k (map_vals (fun _ : nat => rename_sels (view_key v) (view_key v')) (cmap k)))) as (k1 & E1). rewrite E1. cbn [bind].
  assert (forall i e, get (cmap k) i = Some e -> exists m, get (c_sels e) (view_key v) = Some m) as Hm.
  { intros i e Y. apply get_some. apply (proj2 (sf_keys _ _ S _ _ _ Y)); [|exact Logic.I]. exact (get_key_in _ _ _ Cu). }
  assert (safe (fun key => key <> view_key v) k1) as S1.
  { apply (add_view_gen full _ (rename_sels (view_key v) (view_key v')) v' k k1); auto.
    - apply whole_add. exact (sf_views _ _ S _ _ Cu).
    - intro e. unfold rename_sels. now destruct (get (c_sels e) (view_key v)).
    - intros e [U1 U2]. unfold rename_sels. destruct (get (c_sels e) (view_key v)) as [m|] eqn:Em; [|now split]. split; cbn [c_sels].
      + apply uniq_set, uniq_del, U1.
      + intros key m'. rewrite get_set. destruct (eqb key (view_key v')); [intro X; injection X as <-; eapply U2; eauto|].
        rewrite get_del. destruct (eqb key (view_key v)); [discriminate|]. apply U2.
    - intros i e Y. destruct (Hm _ _ Y) as (m & Em). unfold rename_sels. rewrite Em. cbn [c_sels]. split; [|split; [|split]].
      + intros key m' Nk. rewrite get_set_other by auto. rewrite get_del. destruct (eqb key (view_key v)); [discriminate|auto].
      + intros key Nk Nv L. apply in_keys_set. right. apply in_keys_del. split; auto. apply (proj2 (sf_keys _ _ S _ _ _ Y)); auto. exact Logic.I.
      + intros m' x. rewrite get_set_same. intro X. injection X as <-. intro Hx. apply Hs. right. exact (proj1 (sf_sels _ _ S _ _ _ _ _ _ Y Em Cu) Hx).
      + intros key m' x ss u Y1 Y2 Y3. cbn [c_sels] in Y1. rewrite get_set in Y1. destruct (eqb key (view_key v')).
        * injection Y1 as <-. exact (sf_fine _ _ S _ _ Y _ _ _ _ _ Em Y2 Y3).
        * rewrite get_del in Y1. destruct (eqb key (view_key v)); [discriminate|]. exact (sf_fine _ _ S _ _ Y _ _ _ _ _ Y1 Y2 Y3). }
  pose proof (add_view_vmap _ _ _ E1) as Ev. change (vmap (set_cmap _ _)) with (vmap k) in Ev.
  pose proof (add_view_cmap _ _ _ E1) as Ecm. change (cmap (set_cmap _ _)) with (map_vals (fun (_ : nat) => rename_sels (view_key v) (view_key v')) (cmap k)) in Ecm.
  destruct (delete_safe G k1 (view_key v) v id (with_view v' (rename_sels (view_key v) (view_key v') c))) as (k2 & E2 & S2); auto.
  - rewrite Ev, get_set_other by auto. exact Cu.
  - now rewrite Ecm, !get_map_vals, Ec.
  - unfold with_view, rename_sels. cbn [c_view]. destruct (get (c_sels c) (view_key v)); reflexivity.
  - split.
    + exists (view_key v'). split; auto. unfold listed. rewrite Ev. apply in_keys_set. auto.
    + intros _ x Hx. right. exists (view_key v'), v'. split; auto. rewrite Ev, get_set_same. split; auto. apply Hs. auto.
  - rewrite E2. cbn [bind]. eauto.
Qed.

Lemma view_delete_safe G k id v : safe full k -> looks_at k id v -> deletable k v ->
  exists k', delete_current_view G id k = Ok k' /\ safe full k'.
Proof.
  intros S (c & Ec & <-) D. unfold delete_current_view, the_client. rewrite Ec. cbn [unwrap bind].
  destruct (delete_safe G k (view_key (c_view c)) (c_view c) id c) as (k' & E & S'); auto.
  - apply (safe_weak full); auto. intros; exact Logic.I.
  - exact (sf_cur _ _ S _ _ Ec).
  - rewrite E. cbn [bind]. eauto.
Qed.
Lemma view_remove_safe G k id b v : safe full k -> looks_at k id v -> ~ shows v b \/ (keys v = [b] /\ deletable k v) ->
  exists e k', remove_from_current_view G id b k = Ok (e, k') /\ safe full k'.
Proof.
  intros S (c & Ec & <-) H. unfold remove_from_current_view. destruct (buffer_exists k b) eqn:Xb; cbn [negb]; [|eauto].
  unfold the_client. rewrite Ec. cbn [unwrap bind]. pose proof (sf_cur _ _ S _ _ Ec) as Cu. unfold modify_view. rewrite Cu. cbn [unwrap bind]. unfold contains_buffer.
  destruct H as [H|[H D]].
  - rewrite (proj2 (has_not_in _ _) H). rewrite eqb_refl. cbn [bind]. eauto.
  - assert (shows (c_view c) b) as Hb by (unfold shows; rewrite H; now left). rewrite (proj2 (has_in _ _) Hb).
    assert (remove_lens_group b (c_view c) = []) as ->.
    { unfold remove_lens_group. destruct (c_view c) as [|[n g] [|e r]]; try discriminate. cbn in H. inversion H; subst. unfold del. cbn [filter fst]. rewrite eqb_refl. reflexivity. }
    cbn [view_is_empty].
    destruct (eqb (view_key (c_view c)) (view_key [])) eqn:Q.
    { cbn [bind]. eauto. }
    cbn [bind]. destruct (delete_safe G k (view_key (c_view c)) (c_view c) id c) as (k' & E & S'); auto.
    + apply (safe_weak full); auto. intros; exact Logic.I.
    + rewrite E. cbn [bind]. eauto.
Qed.

Lemma good_messages : good_name (str "*messages*").
Proof. apply good_str. reflexivity. Qed.
Lemma good_errors : good_name (str "*errors*").
Proof. apply good_str. reflexivity. Qed.
Lemma plain_origin c : plain (origin c).
Proof. destruct c; [apply plain_dec|apply plain_str; reflexivity]. Qed.
Lemma message_safe G c x k : safe full k -> plain x -> exists k', message G c x k = Ok k' /\ safe full k'.
Proof.
  intros S P. unfold message. destruct (append_safe full G (str "*messages*") (origin c ++ str "|" ++ x ++ [LF]) k) as (k' & E & S' & _); auto.
  - apply good_messages.
  - repeat apply plain_app; auto using plain_origin, plain_lf. apply plain_str. reflexivity.
  - rewrite !app_assoc. apply term_lf.
  - rewrite E. cbn [bind]. eexists. split; [reflexivity|]. eapply safe_same; [apply emit_same|exact S'].
Qed.
Lemma error_safe G c tag x k : safe full k -> plain tag -> plain x -> exists k', error G c tag x k = Ok k' /\ safe full k'.
Proof.
  intros S P Q. unfold error. cbv zeta. destruct (append_safe full G (str "*errors*") (origin c ++ str "|" ++ (tag ++ str ": " ++ x) ++ [LF]) k) as (k' & E & S' & _); auto.
  - apply good_errors.
  - repeat apply plain_app; auto using plain_origin, plain_lf; apply plain_str; reflexivity.
  - rewrite !app_assoc. apply term_lf.
  - rewrite E. cbn [bind]. eexists. split; [reflexivity|]. eapply safe_same; [apply emit_same|exact S'].
Qed.

Lemma scratch_safe G pol d k id name content : safe full k -> tame d k (CScratch id name content) ->
  exists k', edit_cmd G pol d id name true (open_scratch name content k) = Ok k' /\ safe full k'.
Proof.
  intros S (C & Gn & P & T & N). unfold open_scratch.
  pose proof (set_buffer_safe full k name (new_scratch name content) S Gn (good_scratch name content P T) N) as S1.
  apply edit_safe; auto. split; auto.
Qed.

Lemma call_safe G pol d c k : policy_fine pol -> safe full k -> tame d k c -> exists r k', run_call G pol d c k = Ok (r, k') /\ safe full k'.
Proof.
  intros Pf S T. destruct c; cbn [run_call].
  - destruct (edit_safe G pol d id name scratch k S T) as (k' & E & S'). rewrite E. cbn [bind]. eauto.
  - destruct T as [C T]. destruct (in_dec (list_eq_dec Nat.eq_dec) vid (keys (vmap k))) as [L|NL].
    + destruct (view_safe full G k id vid S C L) as (k' & E & S' & _). rewrite E. cbn [bind]. eauto.
    + destruct T as [L|T]; [contradiction|]. destruct (in_dec (list_eq_dec Nat.eq_dec) vid (keys (k_buffers k))) as [O|NO].
      * destruct T as [NO|L]; [contradiction|]. destruct (view_buffer_safe full G k id vid S C NL O L) as (k' & E & S'). rewrite E. cbn [bind]. eauto.
      * unfold view_cmd, view_exists, buffer_exists. rewrite (proj2 (has_not_in _ _) NL), (proj2 (has_not_in _ _) NO). cbn [bind]. eauto.
  - destruct T as (v & L & D). destruct (view_delete_safe G k id v S L D) as (k' & E & S'). rewrite E. cbn [bind]. eauto.
  - destruct (view_add_safe G k id b S T) as (e & k' & E & S'). rewrite E. cbn [bind]. eauto.
  - destruct T as (v & L & D). destruct (view_remove_safe G k id b v S L D) as (e & k' & E & S'). rewrite E. cbn [bind]. eauto.
  - destruct (move_safe G k id dir extend S T) as (k' & E & S'). rewrite E. cbn [bind]. eauto.
  - destruct (delete_selection_safe G pol d k id Pf S T) as (xs & k' & E & S'). rewrite E. cbn [bind]. eauto.
  - destruct T as (Gn & P & T). destruct (append_safe full G b x k S Gn P T) as (k' & E & S' & _). rewrite E. cbn [bind]. eauto.
  - destruct (scratch_safe G pol d k id name content S T) as (k' & E & S'). rewrite E. cbn [bind]. eauto.
  - destruct (message_safe G id x k S T) as (k' & E & S'). rewrite E. cbn [bind]. eauto.
  - destruct T as [P Q]. destruct (error_safe G id tag x k S P Q) as (k' & E & S'). rewrite E. cbn [bind]. eauto.
  - destruct (debug_safe full G x k S T) as (k' & E & S' & _). rewrite E. cbn [bind]. eauto.
  - destruct (context_ok G k id S T) as ([key sels] & E). rewrite E. cbn [bind]. eauto.
  - destruct (join_safe G k id S T) as (k' & E & S'). rewrite E. cbn [bind]. eauto.
  - destruct (leave_safe G k id S) as (k' & E & S'). rewrite E. cbn [bind]. eauto.
Qed.

(** ** the first state *)
Lemma debug_alone G x k : k_clients k = sm_new -> k_views k = sm_new -> bufs_good (k_buffers k) -> plain x ->
  exists k', debug G x k = Ok k' /\ k_clients k' = sm_new /\ k_views k' = sm_new /\ bufs_good (k_buffers k') /\ k_cwd k' = k_cwd k /\ open k' b_debug /\
    (uniq (k_buffers k) -> uniq (k_buffers k')).
Proof.
  intros C V B P. destruct (append_progress G b_debug (x ++ [LF]) k) as (k' & E & A & C' & V' & W' & B'); auto.
  - apply good_debug.
  - apply plain_app; auto using plain_lf.
  - apply term_lf.
  - unfold cmap. rewrite C. constructor.
  - intros bufs' _ id c H. unfold cmap in H. rewrite C in H. discriminate.
  - unfold debug. exists k'. rewrite C', V'. split; [exact E|]. split; [auto|]. split; [auto|]. split; [auto|]. split; [auto|]. split.
    + apply (append_keys _ _ _ _ _ A). now left.
    + destruct A as (u & -> & _). apply uniq_set.
Qed.
Lemma init_safe G cwd args : plain cwd -> plain args -> exists k, editor_init G cwd args = Ok k /\ safe full k.
Proof.
  intros Pc Pa. unfold editor_init.
  destruct (debug_alone G (str "command: " ++ args) (core_new cwd)) as (k1 & E1 & C1 & V1 & B1 & _ & O1 & U1); auto.
  { intros b u X. discriminate. }
  { apply plain_app; auto. apply plain_str. reflexivity. }
  rewrite E1. cbn [bind]. destruct (debug_alone G (str "cwd: " ++ cwd) k1) as (k2 & E2 & C2 & V2 & B2 & _ & O2 & U2); auto.
  { apply plain_app; auto. apply plain_str. reflexivity. }
  rewrite E2. cbn [bind]. set (v := add_lens (mkLens b_scratch FWhole) (add_lens (mkLens b_debug FWhole) [])).
  set (k3 := open_scratch b_scratch [] k2). destruct (add_view_ok v k3) as (k4 & E4). exists k4. split; auto.
  assert (editor_init G cwd args = Ok k4) as Ei. { unfold editor_init. rewrite E1. cbn [bind]. rewrite E2. cbn [bind]. exact E4. }
  pose proof (init_inv _ _ _ _ Ei) as I.
  assert (cmap k4 = []) as Cm. { rewrite (add_view_cmap _ _ _ E4). unfold k3, cmap. cbn [k_clients open_scratch set_buffers]. rewrite C2. reflexivity. }
  assert (vmap k4 = [(view_key v, v)]) as Vm. { rewrite (add_view_vmap _ _ _ E4). unfold k3, vmap. cbn [k_views open_scratch set_buffers]. rewrite V2. reflexivity. }
  assert (bufs_good (k_buffers k4)) as B4.
  { rewrite (add_view_buffers _ _ _ E4). unfold k3, open_scratch. cbn [k_buffers set_buffers]. intros b u. rewrite get_set. destruct (eqb b b_scratch) eqn:Q; [|apply B2].
    apply eqb_ok in Q. subst b. intro X. injection X as <-. split; [apply good_str; reflexivity|]. apply good_scratch; auto. split; [constructor|intros []]. }
  assert (forall key u, get (vmap k4) key = Some u -> key = view_key v /\ u = v) as Hv.
  { intros key u. rewrite Vm. cbn [get fst snd]. destruct (eqb key (view_key v)) eqn:Q; [|discriminate]. apply eqb_ok in Q. intro X. injection X as <-. auto. }
  split; auto.
  - intros key u X. apply Hv in X. destruct X as [_ ->]. apply whole_add, whole_add. constructor.
  - intros key L. rewrite (add_view_eq _ _ _ E4). unfold listed in L. rewrite Vm in L. destruct L as [<-|[]]. cbn [k_views sm_stack set_cmap set_clients set_views]. now left.
  - exists (view_key v). unfold listed. rewrite Vm. now left.
  - intros id c X. rewrite Cm in X. discriminate.
  - intros id c key X. rewrite Cm in X. discriminate.
  - intros id c key m u b X. rewrite Cm in X. discriminate.
  - intros id c X. rewrite Cm in X. discriminate.
Qed.

(** ** reordered tables *)
Lemma shuffle_safe k k' : shuffle k k' -> safe full k -> safe full k'.
Proof.
  intros Sh S. pose proof (shuffle_inv _ _ Sh (sf_inv _ _ S)) as I'. destruct Sh as (S1 & S2 & S3 & S4 & S5 & S6 & m & S7 & S8).
  pose proof (sf_inv _ _ S) as I. pose proof (i_0 _ I) as I0.
  assert (forall id c, get (cmap k') id = Some c -> exists c0, get (cmap k) id = Some c0 /\ shuffle_client c0 c) as Hc.
  { intros id c E. pose proof (get_F2 shuffle_client _ _ id S8) as X. rewrite E in X.
    rewrite (get_perm _ _ id (i_uc _ I0) S7). destruct (get m id); [eauto|tauto]. }
  assert (forall x, get (vmap k') x = get (vmap k) x) as Hv. { intro x. symmetry. apply get_perm; auto. apply I0. }
  assert (forall x, listed k' x <-> listed k x) as Hl. { intro x. symmetry. now apply perm_keys. }
  assert (forall x, get (k_buffers k') x = get (k_buffers k) x) as Hb. { intro x. symmetry. apply get_perm; auto. apply I0. }
  assert (forall c0 c key m, client_uniq c0 -> shuffle_client c0 c -> get (c_sels c) key = Some m ->
    exists m0, get (c_sels c0) key = Some m0 /\ (forall b, get m b = get m0 b) /\ (forall b, In b (keys m) <-> In b (keys m0))) as Hm.
  { intros c0 c key mm [U1 U2] (V & m0 & P & F) E.
    assert (match get m0 key, get (c_sels c) key with Some v, Some w => Permutation v w | None, None => True | _, _ => False end) as X
      by exact (get_F2 (@Permutation _) _ _ key F). rewrite E in X.
    destruct (get m0 key) as [mm0|] eqn:G0; [|tauto]. rewrite <- (get_perm _ _ key U1 P) in G0. exists mm0. split; auto. split.
    - intro b. symmetry. apply get_perm; auto. eapply U2; eauto.
    - intro b. symmetry. now apply perm_keys. }
  assert (forall c0 c key, shuffle_client c0 c -> (In key (keys (c_sels c)) <-> In key (keys (c_sels c0)))) as Hk.
  { intros c0 c key (V & m0 & P & F). rewrite (perm_keys _ _ key P). assert (keys (c_sels c) = keys m0) as -> by (symmetry; exact (keys_F2 (@Permutation _) _ _ F)). tauto. }
  split; auto.
  - intros b u. rewrite Hb. apply S.
  - intros key v. rewrite Hv. apply S.
  - intros key L. apply Hl in L. rewrite <- S4. now apply (sf_stack _ _ S).
  - destruct (sf_some _ _ S) as (key & L). exists key. now apply Hl.
  - intros id c E. destruct (Hc _ _ E) as (c0 & E0 & V & _). rewrite Hv, <- V. exact (sf_cur _ _ S _ _ E0).
  - intros id c key E. destruct (Hc _ _ E) as (c0 & E0 & X). rewrite (Hk _ _ key X), Hl. exact (sf_keys _ _ S _ _ key E0).
  - intros id c key mm v b E Em Ev. rewrite Hv in Ev. destruct (Hc _ _ E) as (c0 & E0 & X).
    destruct (Hm c0 c key mm (cmap_open full k id c0 S E0) X Em) as (m0 & Em0 & _ & K). rewrite K. exact (sf_sels _ _ S _ _ _ _ _ _ E0 Em0 Ev).
  - intros id c E key mm b ss u Em Es Eu. rewrite Hb in Eu. destruct (Hc _ _ E) as (c0 & E0 & X).
    destruct (Hm c0 c key mm (cmap_open full k id c0 S E0) X Em) as (m0 & Em0 & G & _). rewrite G in Es. exact (sf_fine _ _ S _ _ E0 _ _ _ _ _ Em0 Es Eu).
Qed.

Lemma tame_safe G pol k : policy_fine pol -> tame_reach G pol k -> safe full k.
Proof.
  intro Pf. induction 1 as [cwd args k Pc Pa E|d c k r k' R IH T E|k k' R IH Sh].
  - destruct (init_safe G cwd args Pc Pa) as (k' & E' & S). rewrite E in E'. injection E' as <-. exact S.
  - destruct (call_safe G pol d c k Pf IH T) as (r' & k1 & E' & S). rewrite E in E'. injection E' as _ <-. exact S.
  - eapply shuffle_safe; eauto.
Qed.
