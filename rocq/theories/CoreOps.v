(** What each call of the editor core does, in one equation per component of the state. *)
From Coq Require Import String List Arith Lia Bool Permutation.
From Verif Require Import Base ListFacts PieceTable Coords Utf8 Diff Selection Maps StackMap Fmt Buffer View ViewFacts Utf8Facts Core CoreSpec CoreInv.
Import ListNotations.

(** ** messages are only ever added *)
Definition sent_ext (k k' : core) : Prop := exists l, k_sent k' = k_sent k ++ l.
Lemma ext_refl k : sent_ext k k.
Proof. exists []. now rewrite app_nil_r. Qed.
Lemma ext_trans a b c : sent_ext a b -> sent_ext b c -> sent_ext a c.
Proof. intros [x X] [y Y]. exists (x ++ y). rewrite Y, X. now rewrite app_assoc. Qed.
Lemma emit_ext k x : sent_ext k (emit k x).
Proof. exists x. reflexivity. Qed.
Lemma notify_ext G ids k k' : notify_view_update G ids k = Ok k' -> sent_ext k k'.
Proof. intro E. apply notify_frame in E. destruct E as (ps & _ & -> & _). apply emit_ext. Qed.
Lemma append_ext G name x k k' : append_to G name x k = Ok k' -> sent_ext k k'.
Proof.
  unfold append_to. intro E. bnd E. apply notify_ext in E. eapply ext_trans; [|exact E]. destruct (negb _).
  - inversion E0; subst. exists []. simpl. now rewrite app_nil_r.
  - bnd E0. bnd E0. inversion E0; subst. exists []. simpl. now rewrite app_nil_r.
Qed.
Lemma drop_ext G bs k k' : drop_buffers G bs k = Ok k' -> sent_ext k k'.
Proof.
  revert k. induction bs as [|b bs IH]; intros k E; cbn [drop_buffers] in E.
  - inversion E; subst. apply ext_refl.
  - destruct (existsb _ _); [auto|]. bnd E. apply append_ext in E0. apply IH in E. eapply ext_trans; [|exact E].
    destruct E0 as [l El]. exists l. exact El.
Qed.
(** the messages sent by a call *)
Definition news (k k' : core) : list sent := skipn (length (k_sent k)) (k_sent k').
Lemma news_app k k' l : k_sent k' = k_sent k ++ l -> news k k' = l.
Proof. intro E. unfold news. rewrite E, skipn_app, skipn_all, Nat.sub_diag. reflexivity. Qed.
Lemma news_in k a b k' m : sent_ext k a -> sent_ext b k' -> (exists l, k_sent b = k_sent a ++ l /\ In m l) -> In m (news k k').
Proof.
  intros [x X] [y Y] (l & L & H). rewrite (news_app k k' (x ++ l ++ y)).
  - rewrite !in_app_iff. auto.
  - rewrite Y, L, X. now rewrite !app_assoc.
Qed.

(** a notification shows the buffers of the view, in order *)
Lemma loop_names G bufs sels v : view_wf v -> forall items params cur fl r, as_vec v = Ok items ->
  notif_loop G bufs sels items params cur fl = Ok r -> map pi_buffer r = map pi_buffer params ++ (if fl then [pi_buffer cur] else []) ++ keys v.
Proof.
  intros [_ W]. induction W as [|[b g] v _ W IH]; intros items params cur fl r E L; cbn [as_vec] in E.
  - inversion E; subst. cbn [notif_loop] in L. inversion L; subst. unfold keys. simpl. rewrite app_nil_r. destruct fl; [now rewrite map_app|now rewrite app_nil_r].
  - bnd E. bnd E. inversion E; subst items; clear E. cbn [notif_loop] in L. bnd L.
    assert (pi_buffer v2 = b) as Eb. { destruct v0; [inversion E|bnd E; bnd E; inversion E]; subst; reflexivity. }
    assert (forall gs params cur, pi_buffer cur = b -> notif_loop G bufs sels (map VLens gs ++ v1) params cur true = Ok r ->
      exists cur', pi_buffer cur' = b /\ notif_loop G bufs sels v1 params cur' true = Ok r) as Hg.
    { induction gs as [|x gs IHg]; intros ps cu Hc Hl; cbn [map app] in Hl; [eauto|]. cbn [notif_loop] in Hl. bnd Hl. eapply IHg; [|exact Hl]. exact Hc. }
    destruct (Hg _ _ _ Eb L) as (cur' & Ec & L'). rewrite (IH _ _ _ _ _ eq_refl L'), Ec. unfold keys. cbn [map fst].
    destruct fl; [rewrite map_app; cbn [map]; now rewrite <- !app_assoc|reflexivity].
Qed.
Lemma params_names G v bufs sels r : to_notification_params G v bufs sels = Ok r -> view_wf v -> map pi_buffer r = keys v.
Proof. unfold to_notification_params. intros E W. bnd E. exact (loop_names _ _ _ _ W _ _ _ _ _ E0 E). Qed.
Lemma notify_news G ids k k' id v : notify_view_update G ids k = Ok k' -> In id ids -> looks_at k id v -> view_wf v ->
  exists items l, k_sent k' = k_sent k ++ l /\ In (mkSent (Some [id]) (NView items)) l /\ map pi_buffer items = keys v.
Proof.
  intros E H (c & C & <-) W. apply notify_frame in E. destruct E as (ps & P & -> & F). rewrite <- P in H.
  apply in_map_iff in H. destruct H as ((i & p) & <- & H). exists p. eexists. split; [reflexivity|]. split.
  - apply in_map_iff. exists (i, p). auto.
  - rewrite Forall_forall in F. apply F in H. simpl in *. unfold view_params, the_client in H. rewrite C in H. cbn [unwrap bind] in H.
    eapply params_names; eauto.
Qed.

(** ** appends *)
Lemma appended_other name x k k' b : appended name x k k' -> b <> name -> get (k_buffers k') b = get (k_buffers k) b.
Proof. intros (_ & _ & _ & b0 & B & _) N. rewrite B. now apply get_set_other. Qed.
Lemma appended_has name x k k' : appended name x k k' -> open k' name.
Proof. intros (_ & _ & _ & b0 & B & _). unfold open. rewrite B. apply in_keys_set. auto. Qed.

(** ** edit *)
Definition whole (name : text) : view := [(name, [mkLens name FWhole])].
Lemma for_buffer_whole name : for_buffer name = whole name.
Proof. reflexivity. Qed.
Lemma whole_key name : view_key (whole name) = name ++ str "{*}".
Proof. reflexivity. Qed.

(** the buffer an edit shows: created, opened, reloaded or found *)
Definition edit_buffer (pol : policy) (d : disk) (k : core) (name : text) (scratch : bool) (b : buffer) : Prop :=
  match get (k_buffers k) name, scratch with
  | None, true => b = new_scratch name []
  | None, false => new_file d (path_join (k_cwd k) name) = Ok b
  | Some b0, true => b = b0
  | Some b0, false => exists reloaded, load_from_disk pol d b0 = Ok (reloaded, b)
  end.
Lemma edit_spec G pol d id name scratch k k' : edit_cmd G pol d id name scratch k = Ok k' ->
  let v := whole name in
  exists c,
    get (cmap k) id = Some c /\ k_cwd k' = k_cwd k /\
    k_views k' = mkSM (view_key v :: remove_first (view_key v) (sm_stack (k_views k))) (set (vmap k) (view_key v) v) /\
    k_clients k' = mkSM (sm_stack (k_clients k)) (set (map_vals (fun _ => with_view v) (cmap k)) id (mkCl v (c_sels (with_view v c)))) /\
    (forall b, b <> name -> b <> b_debug -> get (k_buffers k') b = get (k_buffers k) b) /\
    open k' name /\ (name <> b_debug -> exists b, get (k_buffers k') name = Some b /\ edit_buffer pol d k name scratch b) /\
    exists items, In (mkSent (Some [id]) (NView items)) (news k k') /\ map pi_buffer items = [name].
Proof.
  intros E v. unfold edit_cmd in E. bnd E. destruct v0 as [notify k1].
  assert (k_cwd k1 = k_cwd k /\ k_clients k1 = k_clients k /\ k_views k1 = k_views k /\ sent_ext k k1 /\ open k1 name /\
    (forall b, b <> name -> b <> b_debug -> get (k_buffers k1) b = get (k_buffers k) b) /\
    (name <> b_debug -> exists b, get (k_buffers k1) name = Some b /\ edit_buffer pol d k name scratch b)) as (A1 & B1 & C1 & S1 & O1 & Q1 & Q2).
  { unfold edit_buffer, buffer_exists, has in *. destruct scratch.
    - inversion E0; subst. destruct (get (k_buffers k) name) as [b|] eqn:X.
      + repeat split; auto; [apply ext_refl|eapply get_key_in; eauto|]. intros _. eauto.
      + unfold open, open_scratch. simpl. repeat split; auto; [exists []; now rewrite app_nil_r|apply in_keys_set; auto| |].
        * intros b N _. now apply get_set_other.
        * intros _. rewrite get_set_same. eauto.
    - destruct (get (k_buffers k) name) as [b0|] eqn:X.
      + cbn [unwrap bind] in E0. bnd E0. destruct v0 as [rl b]. bnd E0. inversion E0; subst; clear E0.
        set (k0 := set_buffers k (set (k_buffers k) name b)) in *.
        assert (same_state k0 k1 /\ sent_ext k0 k1 \/ appended b_debug ((str "reloaded from disk: " ++ name) ++ [LF]) k0 k1 /\ sent_ext k0 k1) as H.
        { destruct notify; [right|left].
          - split; [now apply debug_frame in E2|]. eapply append_ext; eauto.
          - inversion E2; subst. split; [repeat split|apply ext_refl]. }
        assert (sent_ext k k1) as S. { destruct H as [[_ H]|[_ H]]; destruct H as [l Hl]; exists l; exact Hl. }
        destruct H as [[(A & B & C & D) _]|[H _]].
        * rewrite A, B, C, D. repeat split; auto; simpl.
          -- unfold open. rewrite C. apply in_keys_set. auto.
          -- intros; now apply get_set_other.
          -- intros _. rewrite get_set_same. eauto.
        * pose proof H as (A & B & C & b1 & D & _). rewrite A, B, C. repeat split; auto; simpl.
          -- destruct (appended_vc _ _ _ _ H) as [_ Gr]. unfold open. rewrite D. apply in_keys_set. right. simpl. apply in_keys_set. auto.
          -- intros c N N'. rewrite D. rewrite !get_set_other by auto. simpl. now rewrite get_set_other.
          -- intros N. rewrite D. rewrite get_set_other by auto. simpl. rewrite get_set_same. eauto.
      + bnd E0. inversion E0; subst; clear E0. unfold open_file in E1. bnd E1. inversion E1; subst. unfold open; simpl. repeat split; auto.
        * exists []. simpl. now rewrite app_nil_r.
        * apply in_keys_set. auto.
        * intros; now apply get_set_other.
        * intros _. rewrite get_set_same. eauto. }
  clear E0. rewrite for_buffer_whole in E. fold v in E. bnd E. apply add_view_eq in E0. rename v0 into k2.
  bnd E. destruct v0 as [e k3]. destruct e; [discriminate|].
  assert (vmap k2 = set (vmap k) (view_key v) v) as V2. { subst k2. unfold vmap at 1. simpl. unfold vmap. now rewrite C1. }
  assert (cmap k2 = map_vals (fun _ => with_view v) (cmap k)) as M2. { subst k2. unfold cmap. simpl. now rewrite B1. }
  unfold view_cmd in E1. assert (view_exists k2 (view_key v) = true) as Ve. { unfold view_exists. rewrite V2. apply has_in, in_keys_set. auto. }
  rewrite Ve, V2, get_set_same in E1. cbn [unwrap bind] in E1. rewrite M2, get_map_vals in E1.
  destruct (get (cmap k) id) as [c|] eqn:Ec; [|discriminate]. cbn [unwrap bind] in E1. bnd E1. inversion E1; subst v0; clear E1.
  exists c. split; auto.
  pose proof (notify_same _ _ _ _ E2) as (N1 & N2 & N3 & N4).
  set (k2' := set_cmap k2 (set (map_vals (fun _ => with_view v) (cmap k)) id (mkCl v (c_sels (with_view v c))))) in *.
  assert (view_wf v) as W by apply (view_wf_for name).
  destruct (notify_news G [id] k2' k3 id v E2) as (items & l & L1 & L2 & L3); auto.
  { now left. } { exists (mkCl v (c_sels (with_view v c))). split; auto. unfold k2', set_cmap, cmap at 1. simpl. apply get_set_same. }
  bnd E. pose proof (append_ext _ _ _ _ _ E1) as X3. apply debug_frame in E1. rename v0 into k4. pose proof E1 as (A4 & B4 & C4 & b4 & D4 & _).
  assert (same_state k4 k' /\ sent_ext k4 k') as [(A5 & B5 & C5 & D5) X5].
  { destruct notify; [split; [eapply notify_same; eauto|eapply notify_ext; eauto]|inversion E; subst; split; [repeat split|apply ext_refl]]. }
  split; [rewrite A5, A4, N1; subst k2' k2; simpl; exact A1|].
  split; [rewrite D5, C4, N4; subst k2' k2; simpl; unfold vmap; now rewrite C1|].
  split; [rewrite B5, B4, N2; subst k2' k2; simpl; now rewrite B1|].
  assert (k_buffers k3 = k_buffers k1) as K3. { rewrite N3. subst k2' k2. reflexivity. }
  split; [intros b Hb Hb'; rewrite C5, (appended_other _ _ _ _ _ E1) by auto; rewrite K3; auto|].
  split; [unfold open; rewrite C5, D4, K3; apply in_keys_set; right; exact O1|].
  split; [intro Hb; rewrite C5, (appended_other _ _ _ _ _ E1) by auto; rewrite K3; auto|].
  exists items. split; [|exact L3]. apply (news_in k k2' k3).
  - destruct S1 as [s S1]. exists s. subst k2' k2. exact S1.
  - eapply ext_trans; eauto.
  - eauto.
Qed.

(** ** deletions notify the clients they redirect *)
Lemma delete_view_news G id k k' j v0 : delete_view G id k = Ok (None, k') -> inv k -> looks_at k j v0 -> view_key v0 = id ->
  exists items v, In (mkSent (Some [j]) (NView items)) (news k k') /\ looks_at k' j v /\ map pi_buffer items = keys v.
Proof.
  intros E I (c0 & Ec0 & V0) K0. pose proof (delete_view_inv _ _ _ _ _ j v0 E I ltac:(exists c0; auto) K0) as I'.
  destruct (delete_view_spec _ _ _ _ _ E (i_0 _ I)) as [(X & _)|(_ & v & latest & Ev & Ew & Evs & El & Ec & _)]; [discriminate|].
  assert (looks_at k' j latest) as L'.
  { unfold looks_at, cmap. rewrite Ec. cbn [sm_map]. rewrite get_map_vals, Ec0. eexists. split; [reflexivity|].
    rewrite after_delete_view, V0, K0, eqb_refl. reflexivity. }
  unfold delete_view in E. destruct (view_exists k id) eqn:X; cbn [negb] in E; [|discriminate].
  unfold sm_remove in E. destruct (existsb (fun x => eqb x id) (sm_stack (k_views k))) eqn:Xs; [|discriminate].
  destruct (get (sm_map (k_views k)) id) as [v'|] eqn:Ev'; [|discriminate]. cbn [unwrap bind] in E.
  bnd E. pose proof (append_ext _ _ _ _ _ E0) as X1. apply debug_frame in E0. destruct E0 as (A0 & B0 & C0 & b0 & D0 & F0). simpl in B0. rename v1 into k1.
  remember (set_cmap k1 (map_vals (fun (_ : nat) (c : client) => mkCl (c_view c) (del (c_sels c) id)) (cmap k1))) as k2 eqn:K2.
  bnd E. rename v1 into k3. pose proof (drop_ext _ _ _ _ E0) as X3. apply drop_spec in E0. destruct E0 as (A3 & B3 & C3 & D3 & F3 & Q3).
  bnd E. rename v1 into k4. bnd E. rename v1 into lt. bnd E. inversion E; subst v1; clear E.
  set (k5 := set_cmap k4 (map_vals (fun _ c => if eqb (view_key (c_view c)) id then mkCl lt (c_sels c) else c) (cmap k4))) in *.
  assert (sent_ext k k4) as X4.
  { eapply ext_trans; [destruct X1 as [l Hl]; exists l; exact Hl|]. eapply ext_trans; [|].
    { instantiate (1 := k2). exists []. rewrite K2. simpl. now rewrite app_nil_r. }
    eapply ext_trans; [exact X3|]. destruct (vmap k3) eqn:Vm; [|inversion E0; subst; apply ext_refl]. apply add_view_eq in E0. subst k4. exists [].
    destruct (k_buffers k3); simpl; now rewrite app_nil_r. }
  assert (exists c, get (cmap k4) j = Some c /\ view_key (c_view c) = id) as (c4 & G4 & V4).
  { assert (exists c, get (cmap k3) j = Some c /\ view_key (c_view c) = id) as (c3 & G3 & V3).
    { unfold cmap. rewrite B3, K2. simpl. change (sm_map (k_clients k1)) with (cmap k1). unfold cmap. rewrite B0. change (sm_map (k_clients k)) with (cmap k).
      rewrite get_map_vals, Ec0. eexists. split; [reflexivity|]. simpl. congruence. }
    destruct (vmap k3); [|inversion E0; subst; eauto]. rewrite (add_view_cmap _ _ _ E0).
    assert (cmap (match k_buffers k3 with [] => open_scratch b_scratch [] k3 | _ :: _ => k3 end) = cmap k3) as -> by (destruct (k_buffers k3); reflexivity).
    rewrite get_map_vals, G3. eexists. split; [reflexivity|]. exact V3. }
  assert (looks_at k5 j lt) as L5.
  { unfold looks_at. change (cmap k5) with (map_vals (fun (_ : nat) c => if eqb (view_key (c_view c)) id then mkCl lt (c_sels c) else c) (cmap k4)). rewrite get_map_vals, G4. eexists. split; [reflexivity|]. rewrite V4, eqb_refl. reflexivity. }
  assert (looks_at k' j lt) as L6.
  { destruct (notify_same _ _ _ _ E2) as (_ & N2 & _). unfold looks_at, cmap. rewrite N2. exact L5. }
  assert (view_wf lt) as Wl. { destruct L6 as (c6 & G6 & <-). apply (i_cl _ (i_0 _ I') _ _ G6). }
  destruct (notify_news _ _ _ _ j lt E2) as (items & l & L1 & L2 & L3); auto.
  { apply in_map_iff. exists (j, c4). split; auto. apply filter_In. split; [now apply get_in|]. cbn [snd]. rewrite V4. apply eqb_refl. }
  exists items, lt. split; [|split; auto]. apply (news_in k k5 k').
  - destruct X4 as [x X4]. exists x. exact X4.
  - apply ext_refl.
  - eauto.
Qed.

(** ** selections *)
Definition csel (c : client) (key b : text) : option (list sel) :=
  match get (c_sels c) key with Some m => get m b | None => None end.
Lemma sels_in_csel k j key b : sels_in k j key b = match get (cmap k) j with Some c => csel c key b | None => None end.
Proof. reflexivity. Qed.
Lemma fold_or_insert_get (bs : list text) (m : amap text (list sel)) b :
  get (fold_left (fun m b => or_insert m b [sel_new]) bs m) b =
    match get m b with Some x => Some x | None => if existsb (eqb b) bs then Some [sel_new] else None end.
Proof.
  revert m. induction bs as [|n bs IH]; intro m; cbn [fold_left existsb].
  - now destruct (get m b).
  - rewrite IH, get_or_insert. destruct (eqb b n) eqn:E; cbn [orb].
    + apply eqb_ok in E. subst n. now destruct (get m b).
    + reflexivity.
Qed.
Lemma with_view_csel v c key b : csel (with_view v c) key b =
  match csel c key b with Some x => Some x | None => if eqb key (view_key v) && existsb (eqb b) (keys v) then Some [sel_new] else None end.
Proof.
  unfold csel, with_view. cbn [c_sels]. rewrite get_set. destruct (eqb key (view_key v)) eqn:E; cbn [andb].
  - apply eqb_ok in E. subst key. rewrite fold_or_insert_get. destruct (get (c_sels c) (view_key v)); reflexivity.
  - destruct (get (c_sels c) key) as [m|]; [now destruct (get m b)|reflexivity].
Qed.
Lemma with_view_keeps v c key b ss : csel c key b = Some ss -> csel (with_view v c) key b = Some ss.
Proof. intro H. rewrite with_view_csel, H. reflexivity. Qed.
Lemma del_csel c v id key b : key <> id -> csel (mkCl v (del (c_sels c) id)) key b = csel c key b.
Proof. intro N. unfold csel. cbn [c_sels]. now rewrite get_del_other. Qed.
Lemma rename_csel old new c key b : key <> old -> key <> new -> csel (rename_sels old new c) key b = csel c key b.
Proof. intros N1 N2. unfold csel, rename_sels. destruct (get (c_sels c) old); auto. cbn [c_sels]. now rewrite get_set_other, get_del_other. Qed.
Lemma rename_csel_new old new c b ss : csel c old b = Some ss -> csel (rename_sels old new c) new b = Some ss.
Proof. unfold csel, rename_sels. destruct (get (c_sels c) old) eqn:E; [|discriminate]. cbn [c_sels]. rewrite get_set_same. auto. Qed.
Lemma after_delete_csel id last latest c key b ss : key <> id -> csel c key b = Some ss -> csel (after_delete id last latest c) key b = Some ss.
Proof.
  intros N H. unfold after_delete. cbv zeta. assert (csel (mkCl (c_view c) (del (c_sels c) id)) key b = Some ss) as H1 by (rewrite del_csel; auto).
  assert (csel (if last then with_view (for_buffer b_scratch) (mkCl (c_view c) (del (c_sels c) id)) else mkCl (c_view c) (del (c_sels c) id)) key b = Some ss) as H2.
  { destruct last; auto. now apply with_view_keeps. }
  destruct (eqb (view_key (c_view c)) id); exact H2.
Qed.

Lemma delete_client G id k k' j c : delete_view G id k = Ok (None, k') -> inv0 k -> get (cmap k) j = Some c ->
  exists c', get (cmap k') j = Some c' /\ (view_key (c_view c) <> id -> c_view c' = c_view c) /\
    forall key b ss, key <> id -> csel c key b = Some ss -> csel c' key b = Some ss.
Proof.
  intros E I Ec0. destruct (delete_view_spec _ _ _ _ _ E I) as [(X & _)|(_ & u & latest & Ev & Ew & Evs & El & Ec & _)]; [discriminate|].
  unfold cmap. rewrite Ec. cbn [sm_map]. rewrite get_map_vals, Ec0. eexists. split; [reflexivity|]. split.
  - intro N. rewrite after_delete_view. apply eqb_neq in N. now rewrite N.
  - intros key b ss N H. now apply after_delete_csel.
Qed.
(** changing a view: what happens to a client *)
Lemma modify_client G id f k k' j c v : modify_view G id f k = Ok k' -> inv k -> get (vmap k) id = Some v -> view_wf (f v) ->
  get (cmap k) j = Some c ->
  exists c', get (cmap k') j = Some c' /\ (view_key (c_view c) <> id -> c_view c' = c_view c) /\
    (forall key b ss, key <> id -> key <> view_key (f v) -> csel c key b = Some ss -> csel c' key b = Some ss) /\
    (f v <> [] -> forall b ss, csel c id b = Some ss -> csel c' (view_key (f v)) b = Some ss).
Proof.
  intros E I Ev W Ec. unfold modify_view in E. rewrite Ev in E. cbn [unwrap bind] in E. destruct (i_key _ (i_0 _ I) _ _ Ev) as [Kv _]. rewrite Kv in E.
  destruct (eqb id (view_key (f v))) eqn:Q.
  { apply eqb_ok in Q. inversion E; subst k'. exists c. rewrite <- Q. repeat split; auto. }
  apply eqb_neq in Q. bnd E. bnd E. destruct v1 as [[e|] k2]; [discriminate|]. inversion E; subst k2; clear E.
  assert (inv0 v0 /\ exists c1, get (cmap v0) j = Some c1 /\ c_view c1 = c_view c /\
    (forall key b ss, key <> id -> key <> view_key (f v) -> csel c key b = Some ss -> csel c1 key b = Some ss) /\
    (f v <> [] -> forall b ss, csel c id b = Some ss -> csel c1 (view_key (f v)) b = Some ss)) as (I1 & c1 & E1' & V1 & S1 & S2).
  { destruct (view_is_empty (f v)) eqn:Em.
    - inversion E0; subst v0. split; [apply I|]. exists c. repeat split; auto. intro N. destruct (f v); [congruence|discriminate].
    - split.
      + eapply add_view_inv0; eauto. apply map_clients_inv0; [apply I|apply rename_uniq|]. intros _ c2. now rewrite rename_view.
      + rewrite (add_view_cmap _ _ _ E0), get_map_vals. change (cmap (set_cmap k (map_vals (fun _ => rename_sels id (view_key (f v))) (cmap k))))
          with (map_vals (fun (_ : nat) => rename_sels id (view_key (f v))) (cmap k)). rewrite get_map_vals, Ec. eexists. split; [reflexivity|].
        split; [cbn [with_view c_view]; apply rename_view|]. split.
        * intros key b ss N1 N2 H. apply with_view_keeps. now rewrite rename_csel.
        * intros _ b ss H. apply with_view_keeps. now apply rename_csel_new. }
  destruct (delete_client _ _ _ _ j c1 E1 I1 E1') as (c' & E' & V' & S'). exists c'. split; auto. split; [intro N; rewrite V'; congruence|]. split.
  - intros key b ss N1 N2 H. apply S'; auto.
  - intros N b ss H. apply S'; auto.
Qed.
