(** Invariants of the editor core and what each operation leaves unchanged. *)
From Coq Require Import String List Arith Lia Bool Permutation.
From Verif Require Import Base ListFacts PieceTable Coords Utf8 Diff Selection Maps StackMap Fmt Buffer View ViewFacts Utf8Facts Core CoreSpec.
Import ListNotations.

(** ** lists and maps *)
Lemma remove_first_in {K} `{Eqb K} (k : K) l x : NoDup l -> (In x (remove_first k l) <-> In x l /\ x <> k).
Proof.
  induction l as [|y l IH]; simpl; intro N; [tauto|]. inversion N; subst. destruct (eqb y k) eqn:E.
  - apply eqb_ok in E. subst. split; [intro X; split; auto; congruence|]. intros [[->|X] D]; [congruence|exact X].
  - apply eqb_neq in E. simpl. rewrite IH by auto. split; intros X; [destruct X as [->|[X Y]]; auto|]. destruct X as [[->|X] Y]; auto.
Qed.
Lemma remove_first_nodup {K} `{Eqb K} (k : K) l : NoDup l -> NoDup (remove_first k l).
Proof.
  induction l as [|y l IH]; simpl; intro N; auto. inversion N; subst. destruct (eqb y k) eqn:E; auto.
  constructor; auto. rewrite remove_first_in by auto. tauto.
Qed.
Lemma get_key_in {K V} `{Eqb K} (m : amap K V) k v : get m k = Some v -> In k (keys m).
Proof. intro E. apply get_some. eauto. Qed.
Lemma perm_uniq {K V} (m m' : amap K V) : Permutation m m' -> uniq m -> uniq m'.
Proof. unfold uniq, keys. intros P U. eapply Permutation_NoDup; [apply Permutation_map, P|exact U]. Qed.
Lemma perm_keys {K V} (m m' : amap K V) k : Permutation m m' -> (In k (keys m) <-> In k (keys m')).
Proof.
  unfold keys. intro P. split; apply Permutation_in; [|apply Permutation_sym]; now apply Permutation_map.
Qed.
Lemma keys_F2 {K V W} (R : V -> W -> Prop) (m : amap K V) (m' : amap K W) :
  Forall2 (fun e e' => fst e = fst e' /\ R (snd e) (snd e')) m m' -> keys m = keys m'.
Proof. unfold keys. induction 1 as [|e e' m m' [X _] F IH]; simpl; congruence. Qed.
Lemma get_F2 {K V W} `{Eqb K} (R : V -> W -> Prop) (m : amap K V) (m' : amap K W) k :
  Forall2 (fun e e' => fst e = fst e' /\ R (snd e) (snd e')) m m' ->
  match get m k, get m' k with Some v, Some w => R v w | None, None => True | _, _ => False end.
Proof.
  induction 1 as [|[a v] [b w] m m' [X Y] F IH]; cbn [get fst snd] in *; auto. subst b. destruct (eqb k a); auto.
Qed.
Lemma mapM_keys {K V W} (f : K * V -> res (K * W)) m m' :
  (forall e e', f e = Ok e' -> fst e' = fst e) -> mapM f m = Ok m' -> keys m' = keys m.
Proof.
  intro Hf. revert m'. induction m as [|e m IH]; simpl; intros m' E.
  - inversion E. reflexivity.
  - bnd E. bnd E. inversion E; subst. apply Hf in E0. unfold keys in *. simpl. now rewrite E0, IH.
Qed.

(** ** what notifications and appends change *)
Lemma notify_frame G ids k k' : notify_view_update G ids k = Ok k' ->
  exists ps, map fst ps = ids /\ k' = emit k (map (fun e => mkSent (Some [fst e]) (NView (snd e))) ps) /\
    Forall (fun e => view_params G k (fst e) = Ok (snd e)) ps.
Proof.
  unfold notify_view_update. intro E. bnd E. inversion E; subst; clear E. exists v. split; [|split; auto].
  - revert v E0. induction ids as [|i ids IH]; simpl; intros v E; [inversion E; reflexivity|].
    bnd E. bnd E. bnd E0. inversion E; inversion E0; subst. simpl. f_equal. now apply IH.
  - revert v E0. induction ids as [|i ids IH]; simpl; intros v E; [inversion E; constructor|].
    bnd E. bnd E. bnd E0. inversion E; inversion E0; subst. constructor; auto.
Qed.

(** only the messages sent differ *)
Definition same_state (k k' : core) : Prop :=
  k_cwd k' = k_cwd k /\ k_clients k' = k_clients k /\ k_buffers k' = k_buffers k /\ k_views k' = k_views k.
Lemma notify_same G ids k k' : notify_view_update G ids k = Ok k' -> same_state k k'.
Proof. intro E. apply notify_frame in E. destruct E as (ps & _ & -> & _). repeat split. Qed.

(** only buffer [name] differs, and the messages sent *)
Definition appended (name x : text) (k k' : core) : Prop :=
  k_cwd k' = k_cwd k /\ k_clients k' = k_clients k /\ k_views k' = k_views k /\
  exists b, k_buffers k' = set (k_buffers k) name b /\
    match get (k_buffers k) name with
    | None => b = new_scratch name x
    | Some b0 => buf_append x b0 = Ok b
    end.
Lemma append_frame G name x k k' : append_to G name x k = Ok k' -> appended name x k k'.
Proof.
  unfold append_to. intro E. bnd E. apply notify_same in E. destruct E as (E1 & E2 & E3 & E4).
  unfold buffer_exists, has in E0. destruct (get (k_buffers k) name) as [b|] eqn:Eb; cbn [negb] in E0.
  - cbn [unwrap bind] in E0. bnd E0. inversion E0; subst v; clear E0. unfold appended. rewrite E1, E2, E3, E4, Eb. simpl. eauto 10.
  - inversion E0; subst v; clear E0. unfold appended. rewrite E1, E2, E3, E4, Eb. simpl. eauto 10.
Qed.
Lemma debug_frame G x k k' : debug G x k = Ok k' -> appended b_debug (x ++ [LF]) k k'.
Proof. apply append_frame. Qed.

(** ** the invariant *)
Definition client_uniq (c : client) : Prop := uniq (c_sels c) /\ forall key m, get (c_sels c) key = Some m -> uniq m.
(** the part that holds in the middle of a deletion *)
Record inv0 (k : core) : Prop := {
  i_ub : uniq (k_buffers k);
  i_uv : uniq (vmap k);
  i_uc : uniq (cmap k);
  i_vs : NoDup (sm_stack (k_views k));
  i_cs : NoDup (sm_stack (k_clients k));
  i_vin : forall x, In x (sm_stack (k_views k)) -> listed k x;
  i_cin : forall x, In x (sm_stack (k_clients k)) <-> connected k x;
  i_key : forall key v, get (vmap k) key = Some v -> view_key v = key /\ view_wf v;
  i_cl : forall id c, get (cmap k) id = Some c -> view_wf (c_view c) /\ client_uniq c }.
(** views show existing buffers *)
Definition views_open (k : core) : Prop := forall key v b, get (vmap k) key = Some v -> shows v b -> open k b.
(** clients look at listed views *)
Definition clients_listed (k : core) : Prop := forall id v, looks_at k id v -> listed k (view_key v).
Record inv (k : core) : Prop := { i_0 : inv0 k; i_open : views_open k; i_listed : clients_listed k }.

Lemma shuffle_inv k k' : shuffle k k' -> inv k -> inv k'.
Proof.
  intros (S1 & S2 & S3 & S4 & S5 & S6 & m & S7 & S8) [I0 Io Il].
  assert (forall id c, get (cmap k') id = Some c -> exists c0, get (cmap k) id = Some c0 /\ shuffle_client c0 c) as Hc.
  { intros id c E. pose proof (get_F2 shuffle_client _ _ id S8) as X. rewrite E in X.
    rewrite (get_perm _ _ id (i_uc _ I0) S7). destruct (get m id); [eauto|tauto]. }
  assert (forall x, get (vmap k') x = get (vmap k) x) as Hv. { intro x. symmetry. apply get_perm; auto. apply I0. }
  assert (forall x, listed k' x <-> listed k x) as Hl. { intro x. symmetry. now apply perm_keys. }
  assert (forall x, connected k' x <-> connected k x) as Hcc.
  { intro x. unfold connected. rewrite (perm_keys _ _ x S7). now rewrite (keys_F2 shuffle_client _ _ S8). }
  split.
  - split.
    + exact (perm_uniq _ _ S3 (i_ub _ I0)).
    + exact (perm_uniq _ _ S5 (i_uv _ I0)).
    + unfold uniq. rewrite <- (keys_F2 shuffle_client _ _ S8). exact (perm_uniq _ _ S7 (i_uc _ I0)).
    + rewrite <- S4. apply I0.
    + rewrite <- S6. apply I0.
    + intros x. rewrite <- S4, Hl. apply I0.
    + intro x. rewrite <- S6, Hcc. apply I0.
    + intros key v. rewrite Hv. apply I0.
    + intros id c E. destruct (Hc _ _ E) as (c0 & E0 & V & m0 & P & F). destruct (i_cl _ I0 _ _ E0) as (W & U1 & U2).
      split; [now rewrite <- V|]. split.
      * assert (keys (c_sels c) = keys m0) as K by (symmetry; exact (keys_F2 (@Permutation _) _ _ F)).
        unfold uniq. rewrite K. exact (perm_uniq _ _ P U1).
      * intros key mm G. assert (match get m0 key, get (c_sels c) key with Some v, Some w => Permutation v w | None, None => True | _, _ => False end) as X
          by exact (get_F2 (@Permutation _) _ _ key F). rewrite G in X.
        destruct (get m0 key) as [mm0|] eqn:G0; [|tauto]. rewrite <- (get_perm _ _ key U1 P) in G0. eapply perm_uniq; eauto.
  - intros key v b E H. rewrite Hv in E. unfold open. rewrite <- (perm_keys _ _ b S3). exact (Io _ _ _ E H).
  - intros id v (c & E & V). apply Hl. destruct (Hc _ _ E) as (c0 & E0 & V0 & _). apply (Il id). exists c0. split; auto. congruence.
Qed.

(** ** operations that change no view and no client *)
Definition same_vc (k k' : core) : Prop := k_clients k' = k_clients k /\ k_views k' = k_views k.
Definition grows (k k' : core) : Prop := uniq (k_buffers k) -> uniq (k_buffers k') /\ forall b, open k b -> open k' b.
Lemma vc_inv0 k k' : same_vc k k' -> grows k k' -> inv0 k -> inv0 k'.
Proof.
  intros [C V] H I. destruct (H (i_ub _ I)) as [U _]. destruct I. split; unfold listed, connected, vmap, cmap in *; rewrite ?C, ?V; auto.
Qed.
Lemma vc_inv k k' : same_vc k k' -> grows k k' -> inv k -> inv k'.
Proof.
  intros VC H [I0 Io Il]. split; [eapply vc_inv0; eauto| |]; destruct VC as [C V]; destruct (H (i_ub _ I0)) as [U O].
  - intros key v b E S. unfold vmap in E. rewrite V in E. apply O. eapply Io; eauto.
  - intros id v (c & E & X). unfold cmap in E. rewrite C in E. unfold listed, vmap. rewrite V. apply (Il id). exists c. auto.
Qed.
Lemma appended_vc name x k k' : appended name x k k' -> same_vc k k' /\ grows k k'.
Proof.
  intros (_ & C & V & b & B & _). split; [split; auto|]. intro U. unfold open. rewrite B. split; [now apply uniq_set|].
  intros c H. apply in_keys_set. auto.
Qed.
Lemma same_vc_of k k' : same_state k k' -> same_vc k k' /\ grows k k'.
Proof. intros (A & B & C & D). split; [split; auto|]. intro U. unfold open. rewrite C. auto. Qed.
Lemma emit_vc k x : same_vc k (emit k x) /\ grows k (emit k x).
Proof. split; [split; reflexivity|]. intro U. unfold open. auto. Qed.
Lemma scratch_vc name x k : same_vc k (open_scratch name x k) /\ grows k (open_scratch name x k).
Proof. split; [split; reflexivity|]. intro U. unfold open, open_scratch. simpl. split; [now apply uniq_set|]. intros b H. apply in_keys_set. auto. Qed.
Lemma buffers_vc name b k : same_vc k (set_buffers k (set (k_buffers k) name b)) /\ grows k (set_buffers k (set (k_buffers k) name b)).
Proof. split; [split; reflexivity|]. intro U. unfold open. simpl. split; [now apply uniq_set|]. intros c H. apply in_keys_set. auto. Qed.
Lemma vc_trans a b c : same_vc a b /\ grows a b -> same_vc b c /\ grows b c -> same_vc a c /\ grows a c.
Proof.
  intros [[X Y] Z] [[X' Y'] Z']. split; [split; congruence|]. intro U. destruct (Z U) as [U1 O1]. destruct (Z' U1) as [U2 O2].
  split; auto.
Qed.
Lemma vc_refl k : same_vc k k /\ grows k k.
Proof. split; [split; reflexivity|]. intro U. auto. Qed.
Lemma message_vc G c x k k' : message G c x k = Ok k' -> same_vc k k' /\ grows k k'.
Proof.
  unfold message. intro E. bnd E. inversion E; subst. apply append_frame in E0. eapply vc_trans; [eapply appended_vc; eauto|apply emit_vc].
Qed.
Lemma error_vc G c tag x k k' : error G c tag x k = Ok k' -> same_vc k k' /\ grows k k'.
Proof.
  unfold error. intro E. bnd E. inversion E; subst. apply append_frame in E0. eapply vc_trans; [eapply appended_vc; eauto|apply emit_vc].
Qed.

(** ** clients *)
(** a map of clients that keeps keys, views in order *)
Definition sels_uniq_keep (f : nat -> client -> client) : Prop := forall id c, client_uniq c -> client_uniq (f id c).
Lemma map_clients_inv0 k f : inv0 k -> sels_uniq_keep f -> (forall id c, view_wf (c_view c) -> view_wf (c_view (f id c))) ->
  inv0 (set_cmap k (map_vals f (cmap k))).
Proof.
  intros I F V. destruct I. split; auto; unfold connected in *; unfold set_cmap, set_clients, cmap; simpl.
  - now apply uniq_map_vals.
  - intro x. rewrite keys_map_vals. apply i_cin0.
  - intros id c. change (get (map_vals f (cmap k)) id = Some c -> view_wf (c_view c) /\ client_uniq c).
    rewrite get_map_vals. destruct (get (cmap k) id) as [c0|] eqn:E; [|discriminate]. intro X. inversion X; subst.
    destruct (i_cl0 _ _ E). split; auto.
Qed.
Lemma fresh_uniq v : view_wf v -> uniq (fresh_sels v).
Proof.
  intros [S _]. unfold uniq, fresh_sels, keys. rewrite map_map. simpl. rewrite map_id. exact (sorted_uniq _ S).
Qed.
Lemma fold_or_insert_uniq (bs : list text) (m : amap text (list sel)) : uniq m -> uniq (fold_left (fun m b => or_insert m b [sel_new]) bs m).
Proof. revert m. induction bs as [|b bs IH]; simpl; auto. intros m U. apply IH. now apply uniq_or_insert. Qed.
Lemma with_view_uniq v : sels_uniq_keep (fun _ => with_view v).
Proof.
  intros _ c [U H]. unfold with_view. split; simpl; [now apply uniq_set|]. intros key m. rewrite get_set. destruct (eqb key (view_key v)).
  - intro X. inversion X; subst. apply fold_or_insert_uniq. destruct (get (c_sels c) (view_key v)) eqn:E; [eauto|constructor].
  - apply H.
Qed.
Lemma rename_uniq old new : sels_uniq_keep (fun _ => rename_sels old new).
Proof.
  intros _ c [U H]. unfold rename_sels. destruct (get (c_sels c) old) eqn:E; [|split; auto]. split; simpl.
  - now apply uniq_set, uniq_del.
  - intros key m. rewrite get_set, get_del. destruct (eqb key new); [intro X; inversion X; subst; eauto|]. destruct (eqb key old); [discriminate|apply H].
Qed.
Lemma del_sels_uniq id : sels_uniq_keep (fun _ c => mkCl (c_view c) (del (c_sels c) id)).
Proof.
  intros _ c [U H]. split; simpl; [now apply uniq_del|]. intros key m. rewrite get_del. destruct (eqb key id); [discriminate|apply H].
Qed.
Lemma set_client_inv0 k id c c' : inv0 k -> get (cmap k) id = Some c -> view_wf (c_view c') -> client_uniq c' ->
  inv0 (set_cmap k (set (cmap k) id c')).
Proof.
  intros I E W U. destruct I. split; auto; unfold connected in *; unfold set_cmap, set_clients, cmap; simpl.
  - now apply uniq_set.
  - intro x. rewrite in_keys_set. rewrite i_cin0. split; auto. intros [->|X]; auto. eapply get_key_in. exact E.
  - intros j c0. change (get (set (cmap k) id c') j = Some c0 -> view_wf (c_view c0) /\ client_uniq c0). rewrite get_set.
    destruct (eqb j id); [intro X; inversion X; subst; auto|apply i_cl0].
Qed.

(** ** views *)
Lemma insert_ok {K V} `{Eqb K} (k : K) (v : V) m : exists o, sm_insert k v m = Ok (o, mkSM (k :: remove_first k (sm_stack m)) (set (sm_map m) k v)).
Proof.
  unfold sm_insert, sm_set_last. simpl. assert (has (set (sm_map m) k v) k = true) as X. { apply has_in, in_keys_set. auto. }
  rewrite X. eauto.
Qed.
Lemma add_view_eq v k k' : add_view v k = Ok k' ->
  k' = set_cmap (set_views k (mkSM (view_key v :: remove_first (view_key v) (sm_stack (k_views k))) (set (vmap k) (view_key v) v)))
         (map_vals (fun _ => with_view v) (cmap k)).
Proof.
  unfold add_view. intro E. destruct (insert_ok (view_key v) v (k_views k)) as [o X]. rewrite X in E. cbn [bind] in E. inversion E. reflexivity.
Qed.
Lemma add_view_inv0 v k k' : add_view v k = Ok k' -> view_wf v -> inv0 k -> inv0 k'.
Proof.
  intros E W I. apply add_view_eq in E. subst k'.
  change (map_vals (fun _ => with_view v) (cmap k)) with
    (map_vals (fun _ => with_view v) (cmap (set_views k (mkSM (view_key v :: remove_first (view_key v) (sm_stack (k_views k))) (set (vmap k) (view_key v) v))))).
  apply map_clients_inv0; [|apply with_view_uniq|auto].
  destruct I. split; auto; unfold listed in *; unfold vmap; simpl.
  - now apply uniq_set.
  - constructor; [|now apply remove_first_nodup]. rewrite remove_first_in by auto. tauto.
  - intros x [<-|X]; apply in_keys_set; auto. apply remove_first_in in X; auto. right. apply i_vin0. tauto.
  - intros key u. change (sm_map (k_views k)) with (vmap k). rewrite get_set. destruct (eqb key (view_key v)) eqn:Q; [|apply i_key0].
    apply eqb_ok in Q. intro X. inversion X; subst. auto.
Qed.
Lemma add_view_vmap v k k' : add_view v k = Ok k' -> vmap k' = set (vmap k) (view_key v) v.
Proof. intro E. apply add_view_eq in E. now subst. Qed.
Lemma add_view_buffers v k k' : add_view v k = Ok k' -> k_buffers k' = k_buffers k.
Proof. intro E. apply add_view_eq in E. now subst. Qed.
Lemma add_view_cmap v k k' : add_view v k = Ok k' -> cmap k' = map_vals (fun _ => with_view v) (cmap k).
Proof. intro E. apply add_view_eq in E. now subst. Qed.
Lemma add_view_open v k k' : add_view v k = Ok k' -> (forall b, shows v b -> open k b) -> views_open k -> views_open k'.
Proof.
  intros E H I key u b. rewrite (add_view_vmap _ _ _ E), get_set. unfold open. rewrite (add_view_buffers _ _ _ E).
  destruct (eqb key (view_key v)); [intro X; inversion X; subst; apply H|]. intros; eapply I; eauto.
Qed.
Lemma add_view_listed v k k' : add_view v k = Ok k' -> clients_listed k -> clients_listed k'.
Proof.
  intros E I id u (c & C & V). unfold listed. rewrite (add_view_vmap _ _ _ E). apply in_keys_set. right. apply (I id).
  rewrite (add_view_cmap _ _ _ E), get_map_vals in C. destruct (get (cmap k) id) as [c0|] eqn:X; [|discriminate]. inversion C; subst.
  exists c0. auto.
Qed.
Lemma add_view_inv v k k' : add_view v k = Ok k' -> view_wf v -> (forall b, shows v b -> open k b) -> inv k -> inv k'.
Proof. intros E W H [A B C]. split; [eapply add_view_inv0|eapply add_view_open|eapply add_view_listed]; eauto. Qed.

Lemma shows_for b c : shows (for_buffer b) c <-> c = b.
Proof. unfold shows, for_buffer. rewrite keys_add. simpl. tauto. Qed.

(** showing existing buffers is needed for a notification *)
Lemma as_vec_headers v items b : as_vec v = Ok items -> shows v b -> exists f, In (VHeader b f) items.
Proof.
  unfold shows, keys. revert items. induction v as [|[n g] v IH]; simpl; intros items E H; [tauto|]. bnd E. bnd E. inversion E; subst. destruct H as [->|H].
  - eexists. now left.
  - destruct (IH _ eq_refl H) as [f F]. exists f. right. apply in_or_app. now right.
Qed.
Lemma as_vec_lens v items b f : as_vec v = Ok items -> In (VHeader b f) items ->
  view_wf v -> exists l, In (VLens l) items /\ l_buffer l = b.
Proof.
  intros E H [_ W]. revert items E H. induction v as [|[n g] v IH]; simpl; intros items E H; [inversion E; subst; destruct H|].
  bnd E. bnd E. inversion E; subst. inversion W as [|? ? (W1 & _ & W2) W3]; subst. simpl in W1, W2. destruct H as [H|H].
  - inversion H; subst. destruct g as [|l g]; [congruence|]. exists l. split; [right; now left|]. inversion W2; auto.
  - apply in_app_or in H. destruct H as [H|H]; [apply in_map_iff in H; destruct H as (x & X & _); discriminate|].
    destruct (IH W3 _ eq_refl H) as (l & L & B). exists l. split; auto. right. apply in_or_app. now right.
Qed.
Lemma loop_lens G bufs sels items : forall params cur fl r, notif_loop G bufs sels items params cur fl = Ok r ->
  forall l, In (VLens l) items -> exists b, get bufs (l_buffer l) = Some b.
Proof.
  induction items as [|[b f|x] items IH]; intros params cur fl r E l H; simpl in H; [tauto| |]; cbn [notif_loop] in E.
  - bnd E. destruct H as [H|H]; [discriminate|]. eapply IH; eauto.
  - bnd E. destruct H as [H|H]; [|eapply IH; eauto]. inversion H; subst. unfold show_lens in E0.
    destruct (get bufs (l_buffer l)); [eauto|discriminate].
Qed.
Lemma params_open G v bufs sels r b : to_notification_params G v bufs sels = Ok r -> view_wf v -> shows v b -> In b (keys bufs).
Proof.
  unfold to_notification_params. intros E W H. bnd E. destruct (as_vec_headers _ _ _ E0 H) as [f F].
  destruct (as_vec_lens _ _ _ _ E0 F W) as (l & L & <-). apply get_some. eapply loop_lens; eauto.
Qed.
Lemma notify_open G ids k k' id v b : notify_view_update G ids k = Ok k' -> In id ids -> looks_at k id v -> view_wf v -> shows v b -> open k b.
Proof.
  intros E H (c & C & <-) W S. apply notify_frame in E. destruct E as (ps & P & _ & F). rewrite <- P in H.
  apply in_map_iff in H. destruct H as ((i & p) & <- & H). rewrite Forall_forall in F. apply F in H. simpl in *.
  unfold view_params, the_client in H. rewrite C in H. cbn [unwrap bind] in H. eapply params_open; eauto.
Qed.

(** ** deleting a view *)
Lemma map_vals_comp {K V W X} (f : K -> W -> X) (g : K -> V -> W) m : map_vals f (map_vals g m) = map_vals (fun k v => f k (g k v)) m.
Proof. unfold map_vals. rewrite map_map. reflexivity. Qed.
Definition shown_by (m : amap text view) (b : text) : bool := existsb (fun e => contains_buffer (snd e) b) m.
Lemma shown_by_spec m b : uniq m -> (shown_by m b = true <-> exists key v, get m key = Some v /\ shows v b).
Proof.
  intro U. unfold shown_by. rewrite existsb_exists. unfold contains_buffer, shows. split.
  - intros ((key, v) & H & X). apply has_in in X. exists key, v. split; auto. now apply get_uniq.
  - intros (key & v & H & X). exists (key, v). split; [now apply get_in|]. now apply has_in.
Qed.
Lemma drop_spec G bs k k' : drop_buffers G bs k = Ok k' ->
  k_cwd k' = k_cwd k /\ k_clients k' = k_clients k /\ k_views k' = k_views k /\
  (uniq (k_buffers k) -> uniq (k_buffers k')) /\ (open k b_debug -> open k' b_debug) /\
  forall b, b <> b_debug ->
    get (k_buffers k') b = if existsb (eqb b) bs && negb (shown_by (vmap k) b) then None else get (k_buffers k) b.
Proof.
  revert k. induction bs as [|n bs IH]; intros k E.
  - simpl in E. inversion E; subst. simpl. auto 10.
  - cbn [drop_buffers] in E. change (existsb (fun e => contains_buffer (snd e) n) (vmap k)) with (shown_by (vmap k) n) in E.
    destruct (shown_by (vmap k) n) eqn:S.
    + destruct (IH _ E) as (A & B & C & D & F & Q). repeat split; auto. intros b N. rewrite (Q b N).
      cbn [existsb]. destruct (eqb b n) eqn:X; auto. apply eqb_ok in X. subst b. rewrite S. cbn [negb]. now rewrite !andb_false_r.
    + bnd E. apply debug_frame in E0. destruct E0 as (A0 & B0 & C0 & b0 & D0 & F0). simpl in A0, B0, C0, D0.
      destruct (IH _ E) as (A & B & C & D & F & Q). repeat split; try congruence.
      * intro U. apply D. rewrite D0. now apply uniq_set, uniq_del.
      * intros _. apply F. unfold open. rewrite D0. apply in_keys_set. auto.
      * intros b N. rewrite (Q b N). unfold vmap at 1. rewrite C0. change (sm_map (k_views k)) with (vmap k).
        rewrite D0, get_set_other by auto. rewrite get_del. cbn [existsb]. destruct (eqb b n) eqn:X; auto.
        apply eqb_ok in X. subst b. rewrite S. cbn [negb orb]. destruct (existsb (eqb n) bs); reflexivity.
Qed.

(** what a deletion does to a client: its selections for the view go; it is redirected if it looked at the view *)
Definition after_delete (id : text) (last : bool) (latest : view) (c : client) : client :=
  let c1 := mkCl (c_view c) (del (c_sels c) id) in
  let c2 := if last then with_view (for_buffer b_scratch) c1 else c1 in
  if eqb (view_key (c_view c)) id then mkCl latest (c_sels c2) else c2.
Definition last_view (m : amap text view) (id : text) : bool := match del m id with [] => true | _ => false end.

Lemma delete_view_spec G id k e k' : delete_view G id k = Ok (e, k') -> inv0 k ->
  (e = Some (EView id) /\ k' = k /\ ~ listed k id) \/
  (e = None /\ exists v latest,
    get (vmap k) id = Some v /\
    k_cwd k' = k_cwd k /\
    k_views k' = (if last_view (vmap k) id
                  then mkSM [view_key (for_buffer b_scratch)] [(view_key (for_buffer b_scratch), for_buffer b_scratch)]
                  else mkSM (remove_first id (sm_stack (k_views k))) (del (vmap k) id)) /\
    sm_latest_value (k_views k') = Some latest /\
    k_clients k' = mkSM (sm_stack (k_clients k)) (map_vals (fun _ => after_delete id (last_view (vmap k) id) latest) (cmap k)) /\
    uniq (k_buffers k') /\ open k' b_debug /\
    (forall b, b <> b_debug ->
      get (k_buffers k') b = if has v b && negb (shown_by (del (vmap k) id) b) then None else get (k_buffers k) b) /\
    (forall j c b, get (cmap k) j = Some c -> view_key (c_view c) = id -> view_wf latest -> shows latest b -> open k' b)).
Proof.
  intros E I. unfold delete_view in E. destruct (view_exists k id) eqn:X; cbn [negb] in E.
  2:{ left. inversion E; subst. repeat split; auto. unfold view_exists in X. now apply has_not_in in X. }
  right. unfold sm_remove in E. destruct (existsb (fun x => eqb x id) (sm_stack (k_views k))) eqn:Xs; [|discriminate].
  destruct (get (sm_map (k_views k)) id) as [v|] eqn:Ev; [|discriminate]. cbn [unwrap bind] in E.
  bnd E. apply debug_frame in E0. destruct E0 as (A0 & B0 & C0 & b0 & D0 & F0). simpl in A0, B0, C0, D0, F0. rename v0 into k1.
  remember (set_cmap k1 (map_vals (fun (_ : nat) (c : client) => mkCl (c_view c) (del (c_sels c) id)) (cmap k1))) as k2 eqn:K2.
  bnd E. rename v0 into k3. apply drop_spec in E0. destruct E0 as (A3 & B3 & C3 & D3 & F3 & Q3).
  assert (cmap k1 = cmap k) as Cm by (unfold cmap; now rewrite B0).
  assert (vmap k3 = del (vmap k) id) as Vm. { unfold vmap. rewrite C3, K2. simpl. rewrite C0. reflexivity. }
  assert (open k3 b_debug) as Od. { apply F3. unfold open. rewrite K2. simpl. rewrite D0. apply in_keys_set. auto. }
  assert (uniq (k_buffers k3)) as Ub. { apply D3. rewrite K2. simpl. rewrite D0. apply uniq_set. apply I. }
  assert (forall b, b <> b_debug -> get (k_buffers k3) b = if has v b && negb (shown_by (del (vmap k) id) b) then None else get (k_buffers k) b) as Q.
  { intros b N. rewrite (Q3 b N). assert (vmap k2 = del (vmap k) id) as Vm2. { unfold vmap. rewrite K2. simpl. rewrite C0. reflexivity. }
    rewrite Vm2. assert (existsb (eqb b) (view_buffers v) = has v b) as Hb.
    { unfold has, view_buffers, keys. clear. induction v as [|[n g] v IH]; auto. cbn [map existsb fst get]. destruct (eqb b n); auto. }
    rewrite Hb, K2. simpl. rewrite D0, get_set_other by auto. reflexivity. }
  destruct (k_buffers k3) as [|e0 l0] eqn:Eb0. { exfalso. unfold open in Od. rewrite Eb0 in Od. exact Od. }
  rewrite <- Eb0 in *. clear e0 l0 Eb0.
  bnd E. rename v0 into k4.
  assert (k_cwd k4 = k_cwd k /\ k_buffers k4 = k_buffers k3 /\ sm_stack (k_clients k4) = sm_stack (k_clients k) /\
          k_views k4 = (if last_view (vmap k) id
                  then mkSM [view_key (for_buffer b_scratch)] [(view_key (for_buffer b_scratch), for_buffer b_scratch)]
                  else mkSM (remove_first id (sm_stack (k_views k))) (del (vmap k) id)) /\
          cmap k4 = map_vals (fun _ c => let c1 := mkCl (c_view c) (del (c_sels c) id) in
                       if last_view (vmap k) id then with_view (for_buffer b_scratch) c1 else c1) (cmap k)) as (A4 & B4 & C4 & D4 & F4).
  { rewrite Vm in E0. unfold last_view. destruct (del (vmap k) id) as [|e1 l1] eqn:Ed.
    - pose proof (add_view_eq _ _ _ E0) as H. subst k4. repeat split.
      + simpl. rewrite A3, K2. simpl. exact A0.
      + simpl. rewrite B3, K2. simpl. now rewrite B0.
      + cbn [set_cmap set_clients set_views k_views]. f_equal.
        * f_equal. rewrite C3, K2. simpl. rewrite C0. simpl.
          assert (forall l, (forall x, In x l -> In x [view_key (for_buffer b_scratch)]) -> NoDup l -> remove_first (view_key (for_buffer b_scratch)) l = []) as R.
          { intros l Hl Nl. destruct l as [|x l]; auto. pose proof (Hl x (or_introl eq_refl)) as [<-|[]]. cbn [remove_first]. rewrite eqb_refl.
            destruct l as [|y l]; auto. pose proof (Hl y (or_intror (or_introl eq_refl))) as [<-|[]]. inversion Nl. exfalso. apply H1. now left. }
          apply R; [|apply remove_first_nodup, I]. intros x Hx. apply remove_first_in in Hx; [|apply I]. destruct Hx as [Hx N].
          apply (i_vin _ I) in Hx. assert (In x (keys (del (vmap k) id))) as Y by (now apply in_keys_del). rewrite Ed in Y. destruct Y.
        * rewrite Vm. reflexivity.
      + unfold set_cmap, cmap at 1. simpl. unfold cmap. rewrite B3, K2. simpl. change (sm_map (k_clients k1)) with (cmap k1).
        rewrite Cm, map_vals_comp. reflexivity.
    - inversion E0; subst k4. repeat split.
      + rewrite A3, K2. simpl. exact A0.
      + rewrite B3, K2. simpl. now rewrite B0.
      + rewrite C3, K2. simpl. rewrite C0, <- Ed. reflexivity.
      + unfold cmap. rewrite B3, K2. simpl. change (sm_map (k_clients k1)) with (cmap k1). rewrite Cm. reflexivity. }
  clear E0. rewrite D4 in E.
  destruct (sm_latest_value (if last_view (vmap k) id then _ else _)) as [latest|] eqn:El; [|discriminate]. cbn [unwrap bind] in E.
  bnd E. inversion E; subst; clear E. split; auto. exists v, latest.
  pose proof (notify_same _ _ _ _ E0) as (N1 & N2 & N3 & N4). simpl in N1, N2, N3, N4.
  assert (forall c, eqb (view_key (c_view (if last_view (vmap k) id then with_view (for_buffer b_scratch) (mkCl (c_view c) (del (c_sels c) id))
             else mkCl (c_view c) (del (c_sels c) id)))) id = eqb (view_key (c_view c)) id) as Sv.
  { intro c. destruct (last_view (vmap k) id); reflexivity. }
  split; [exact Ev|]. split; [now rewrite N1|]. split; [now rewrite N4|]. split; [now rewrite N4, D4|]. split.
  { rewrite N2, C4. f_equal. rewrite F4, map_vals_comp. unfold map_vals. apply map_ext. intros [j c]. simpl. f_equal.
    unfold after_delete. cbv zeta. rewrite Sv. reflexivity. }
  split; [rewrite N3, B4; exact Ub|]. split; [unfold open; now rewrite N3, B4|]. split; [intros b Nb; now rewrite N3, B4, Q|].
  intros j c b Ec Ek W S. unfold open. rewrite N3. eapply (notify_open _ _ _ _ j latest b E0); auto.
  - apply in_map_iff. exists (j, mkCl (c_view c) (if last_view (vmap k) id then c_sels (with_view (for_buffer b_scratch) (mkCl (c_view c) (del (c_sels c) id))) else del (c_sels c) id)).
    split; auto. apply filter_In. split.
    + rewrite F4. apply get_in in Ec. unfold map_vals. apply in_map_iff. exists (j, c). split; auto. simpl. f_equal.
      destruct (last_view (vmap k) id); reflexivity.
    + cbn [snd c_view]. apply eqb_ok. exact Ek.
  - unfold looks_at, set_cmap, cmap at 1. simpl. rewrite get_map_vals, F4, get_map_vals, Ec. eexists. split; [reflexivity|].
    cbv zeta. rewrite Sv. apply eqb_ok in Ek. rewrite Ek. reflexivity.
Qed.

Lemma after_delete_view id last latest c : c_view (after_delete id last latest c) = if eqb (view_key (c_view c)) id then latest else c_view c.
Proof. unfold after_delete. destruct (eqb (view_key (c_view c)) id); auto. destruct last; auto. Qed.
Lemma after_delete_uniq id last latest : sels_uniq_keep (fun _ => after_delete id last latest).
Proof.
  intros j c U. pose proof (del_sels_uniq id j c U) as U1. cbv beta in U1.
  assert (client_uniq (if last then with_view (for_buffer b_scratch) (mkCl (c_view c) (del (c_sels c) id)) else mkCl (c_view c) (del (c_sels c) id))) as U2.
  { destruct last; auto. apply (with_view_uniq _ j). exact U1. }
  unfold after_delete. cbv zeta. destruct (eqb (view_key (c_view c)) id); exact U2.
Qed.
Lemma delete_view_inv G id k e k' j v0 : delete_view G id k = Ok (e, k') -> inv k -> looks_at k j v0 -> view_key v0 = id -> inv k'.
Proof.
  intros E [I0 Io Il] (c0 & Ec0 & V0) Ek0. destruct (delete_view_spec _ _ _ _ _ E I0) as [(_ & -> & _)|(_ & v & latest & Ev & Ew & Evs & El & Ec & Ub & Od & Q & N)]; [now split|].
  assert (forall key u, get (vmap k') key = Some u -> (last_view (vmap k) id = true /\ key = view_key (for_buffer b_scratch) /\ u = for_buffer b_scratch) \/
      (last_view (vmap k) id = false /\ key <> id /\ get (vmap k) key = Some u)) as Hv.
  { intros key u. unfold vmap at 1. rewrite Evs. destruct (last_view (vmap k) id).
    - cbn [sm_map get]. destruct (eqb key (view_key (for_buffer b_scratch))) eqn:Q1; [|discriminate]. apply eqb_ok in Q1. intro X. inversion X. auto.
    - cbn [sm_map]. rewrite get_del. destruct (eqb key id) eqn:Q1; [discriminate|]. apply eqb_neq in Q1. auto. }
  assert (forall key u, get (vmap k') key = Some u -> view_key u = key /\ view_wf u) as Hk.
  { intros key u X. apply Hv in X. destruct X as [(_ & -> & ->)|(_ & _ & X)]; [split; auto; apply view_wf_for|]. now apply (i_key _ I0). }
  assert (view_wf latest /\ listed k' (view_key latest)) as [Wl Ll].
  { unfold sm_latest_value in El. destruct (nth_error (sm_stack (k_views k')) 0) as [key|]; [|discriminate]. change (sm_map (k_views k')) with (vmap k') in El.
    destruct (Hk _ _ El) as [X Y]. split; auto. rewrite X. eapply get_key_in; eauto. }
  assert (last_view (vmap k) id = true -> latest = for_buffer b_scratch) as HL.
  { intro X. rewrite X in Evs. unfold sm_latest_value in El. rewrite Evs in El. cbn [sm_stack sm_map nth_error get] in El. rewrite eqb_refl in El. congruence. }
  split.
  - split.
    + exact Ub.
    + unfold vmap. rewrite Evs. destruct (last_view (vmap k) id); cbn [sm_map]; [repeat constructor; auto|]. apply uniq_del, I0.
    + unfold cmap. rewrite Ec. cbn [sm_map]. apply uniq_map_vals, I0.
    + rewrite Evs. destruct (last_view (vmap k) id); cbn [sm_stack]; [repeat constructor; auto|]. apply remove_first_nodup, I0.
    + rewrite Ec. apply I0.
    + intros x. unfold listed, vmap. rewrite Evs. destruct (last_view (vmap k) id); cbn [sm_stack sm_map]; [simpl; tauto|].
      rewrite remove_first_in by apply I0. intros [X Y]. apply in_keys_del. split; auto. now apply (i_vin _ I0).
    + intro x. rewrite Ec. cbn [sm_stack]. rewrite (i_cin _ I0). unfold connected, cmap. rewrite Ec. cbn [sm_map]. now rewrite keys_map_vals.
    + exact Hk.
    + intros i c. unfold cmap at 1. rewrite Ec. cbn [sm_map]. rewrite get_map_vals. destruct (get (cmap k) i) as [c1|] eqn:Ei; [|discriminate].
      intro X. inversion X; subst c. destruct (i_cl _ I0 _ _ Ei) as [W U]. split; [|now apply (after_delete_uniq _ _ _ i)].
      rewrite after_delete_view. destruct (eqb _ _); auto.
  - intros key u b X S. destruct (Hv _ _ X) as [(L & -> & ->)|(L & Nk & X')].
    + specialize (HL L). subst latest. eapply N; eauto. congruence.
    + destruct (eqb_dec b b_debug) as [->|Nb]; auto. unfold open. apply get_some. rewrite (Q b Nb).
      assert (shown_by (del (vmap k) id) b = true) as Sb.
      { apply shown_by_spec; [apply uniq_del, I0|]. exists key, u. split; auto. now rewrite get_del_other. }
      rewrite Sb, andb_false_r. apply get_some. eapply Io; eauto.
  - intros i u (c & X & <-). unfold cmap in X. rewrite Ec in X. cbn [sm_map] in X. rewrite get_map_vals in X.
    destruct (get (cmap k) i) as [c1|] eqn:Ei; [|discriminate]. inversion X; subst c. rewrite after_delete_view.
    destruct (eqb (view_key (c_view c1)) id) eqn:Q1; auto. apply eqb_neq in Q1.
    unfold listed, vmap. rewrite Evs. destruct (last_view (vmap k) id) eqn:L; cbn [sm_map].
    + exfalso. assert (In (view_key (c_view c1)) (keys (del (vmap k) id))) as Y. { apply in_keys_del. split; auto. apply (Il i). exists c1. auto. }
      unfold last_view in L. destruct (del (vmap k) id); [destruct Y|discriminate].
    + apply in_keys_del. split; auto. apply (Il i). exists c1. auto.
Qed.

(** ** the other operations *)
Lemma map_clients_inv k f : inv k -> sels_uniq_keep f -> (forall id c, c_view (f id c) = c_view c) -> inv (set_cmap k (map_vals f (cmap k))).
Proof.
  intros [I0 Io Il] F V. split.
  - apply map_clients_inv0; auto. intros id c W. now rewrite V.
  - exact Io.
  - intros id v (c & E & X). unfold set_cmap, cmap at 1 in E. simpl in E. rewrite get_map_vals in E.
    destruct (get (cmap k) id) as [c1|] eqn:Ei; [|discriminate]. inversion E; subst. rewrite V. apply (Il id). exists c1. auto.
Qed.
Lemma rename_view old new c : c_view (rename_sels old new c) = c_view c.
Proof. unfold rename_sels. destruct (get (c_sels c) old); auto. Qed.
Lemma the_client_get k id c : the_client k id = Ok c -> get (cmap k) id = Some c.
Proof. unfold the_client. destruct (get (cmap k) id); [|discriminate]. simpl. congruence. Qed.

Lemma modify_view_inv G id f k k' j v0 : modify_view G id f k = Ok k' -> inv k -> looks_at k j v0 -> view_key v0 = id ->
  (forall v, view_wf v -> view_wf (f v)) -> (forall v b, get (vmap k) id = Some v -> shows (f v) b -> open k b) -> inv k'.
Proof.
  intros E I L K W O. unfold modify_view in E. destruct (get (vmap k) id) as [v|] eqn:Ev; [|discriminate]. cbn [unwrap bind] in E.
  destruct (i_key _ (i_0 _ I) _ _ Ev) as [Kv Wv]. rewrite Kv in E. destruct (eqb id (view_key (f v))); [congruence|].
  bnd E. bnd E. destruct v2 as [e k2]. destruct e; [discriminate|]. inversion E; subst k2; clear E.
  assert (inv v1 /\ looks_at v1 j v0) as [I1 L1].
  { destruct (view_is_empty (f v)); [inversion E0; subst; auto|].
    pose proof (map_clients_inv k _ I (rename_uniq id (view_key (f v))) (fun _ c => rename_view _ _ c)) as Ir. split.
    - eapply add_view_inv; eauto.
    - destruct L as (c & Ec & V). unfold looks_at. rewrite (add_view_cmap _ _ _ E0), get_map_vals. unfold set_cmap, cmap at 1. simpl.
      rewrite get_map_vals, Ec. eexists. split; [reflexivity|]. simpl. now rewrite rename_view. }
  eapply delete_view_inv; eauto.
Qed.

Lemma set_client_listed k id c' : clients_listed k -> listed k (view_key (c_view c')) -> clients_listed (set_cmap k (set (cmap k) id c')).
Proof.
  intros H L i v (c & E & X). unfold set_cmap, cmap at 1 in E. simpl in E. rewrite get_set in E. destruct (eqb i id).
  - inversion E; subst. exact L.
  - apply (H i). exists c. auto.
Qed.
Lemma view_cmd_inv G id vid k e k' : view_cmd G id vid k = Ok (e, k') -> inv k -> inv k'.
Proof.
  intros E I. unfold view_cmd in E. destruct (view_exists k vid) eqn:X.
  - destruct (get (vmap k) vid) as [v|] eqn:Ev; [|discriminate]. cbn [unwrap bind] in E.
    destruct (get (cmap k) id) as [c|] eqn:Ec; [|discriminate]. cbn [unwrap bind] in E. bnd E. inversion E; subst; clear E.
    apply notify_same, same_vc_of in E0. destruct (i_key _ (i_0 _ I) _ _ Ev) as [K W]. destruct (i_cl _ (i_0 _ I) _ _ Ec) as [Wc Uc].
    eapply vc_inv; [apply E0|apply E0|]. split.
    + eapply set_client_inv0; eauto. apply I.
    + apply I.
    + apply set_client_listed; [apply I|]. simpl. rewrite K. eapply get_key_in; eauto.
  - destruct (buffer_exists k vid) eqn:B; [|inversion E; subst; auto].
    destruct (get (cmap k) id) as [c|] eqn:Ec; [|discriminate]. cbn [unwrap bind] in E. bnd E. inversion E; subst; clear E.
    apply notify_same, same_vc_of in E0. destruct (i_cl _ (i_0 _ I) _ _ Ec) as [Wc Uc].
    eapply vc_inv; [apply E0|apply E0|]. clear E0.
    set (vs := sm_or_insert _ _ _) in *. change (set_views (set_cmap k (set (cmap k) id (mkCl (for_buffer vid) (c_sels c)))) vs)
      with (set_cmap (set_views k vs) (set (cmap (set_views k vs)) id (mkCl (for_buffer vid) (c_sels c)))).
    assert (inv (set_views k vs)) as Iv.
    { destruct I as [I0 Io Il]. assert (forall key v, get (or_insert (vmap k) (view_key (for_buffer vid)) (for_buffer vid)) key = Some v ->
        get (vmap k) key = Some v \/ (key = view_key (for_buffer vid) /\ v = for_buffer vid)) as Hv.
      { intros key v. rewrite get_or_insert. destruct (eqb key (view_key (for_buffer vid))) eqn:Q; auto. apply eqb_ok in Q. subst key.
        destruct (get (vmap k) (view_key (for_buffer vid))); intro Y; inversion Y; subst; auto. }
      split.
      - destruct I0. split; auto; unfold listed in *; unfold vmap; simpl.
        + now apply uniq_or_insert.
        + intros x Hx. apply in_keys_or_insert. right. now apply i_vin0.
        + intros key v Y. apply Hv in Y. destruct Y as [Y|[-> ->]]; auto. split; auto. apply view_wf_for.
      - intros key v b Y S. apply Hv in Y. destruct Y as [Y|[-> ->]]; [eapply Io; eauto|]. apply shows_for in S. subst b.
        unfold buffer_exists in B. now apply has_in in B.
      - intros i v H. unfold listed, vmap. simpl. apply in_keys_or_insert. right. now apply (Il i). }
    split.
    + eapply set_client_inv0; [apply Iv|exact Ec| |exact Uc]. apply view_wf_for.
    + apply Iv.
    + apply set_client_listed; [apply Iv|]. cbn [c_view]. unfold listed, vmap. simpl. apply in_keys_or_insert. auto.
Qed.

Lemma edit_inv G pol d id name scratch k k' : edit_cmd G pol d id name scratch k = Ok k' -> inv k -> inv k'.
Proof.
  intros E I. unfold edit_cmd in E. bnd E. destruct v as [notify k1].
  assert ((same_vc k k1 /\ grows k k1) /\ open k1 name) as [V1 O1].
  { destruct scratch.
    - inversion E0; subst. destruct (buffer_exists k name) eqn:X; [split; [apply vc_refl|now apply has_in]|].
      split; [apply scratch_vc|]. unfold open, open_scratch. simpl. apply in_keys_set. auto.
    - destruct (buffer_exists k name) eqn:X.
      + bnd E0. bnd E0. destruct v0 as [rl b]. bnd E0. inversion E0; subst; clear E0.
        assert (open (set_buffers k (set (k_buffers k) name b)) name) as O by (unfold open; simpl; apply in_keys_set; auto).
        destruct notify; [|inversion E3; subst; split; [apply buffers_vc|exact O]].
        apply debug_frame, appended_vc in E3. split; [eapply vc_trans; [apply buffers_vc|exact E3]|]. destruct E3 as [_ Gr].
        apply Gr; auto. simpl. apply uniq_set, I.
      + bnd E0. inversion E0; subst; clear E0. unfold open_file in E1. bnd E1. inversion E1; subst. split; [apply buffers_vc|].
        unfold open. simpl. apply in_keys_set. auto. }
  assert (inv k1) as I1 by (eapply vc_inv; [apply V1|apply V1|exact I]).
  bnd E. rename v into k2. assert (inv k2) as I2.
  { eapply add_view_inv; eauto; [apply view_wf_for|]. intros b S. apply shows_for in S. now subst. }
  bnd E. destruct v as [e k3]. apply view_cmd_inv in E2; auto. destruct e; [discriminate|]. bnd E. apply debug_frame, appended_vc in E3.
  assert (inv v) as I4 by (eapply vc_inv; [apply E3|apply E3|exact E2]). destruct notify; [|inversion E; subst; exact I4].
  apply notify_same, same_vc_of in E. eapply vc_inv; [apply E|apply E|exact I4].
Qed.

Lemma move_inv G id dir ext k k' : move_cursor G id dir ext k = Ok k' -> inv k -> inv k'.
Proof.
  intros E I. unfold move_cursor in E. bnd E. apply the_client_get in E0. bnd E. bnd E.
  destruct (get (c_sels v) (view_key (c_view v))) as [m|] eqn:Em; [|discriminate]. inversion E1; subst v0; clear E1.
  destruct (i_cl _ (i_0 _ I) _ _ E0) as [W [U1 U2]].
  assert (inv (set_cmap k (set (cmap k) id (mkCl (c_view v) (set (c_sels v) (view_key (c_view v)) v1))))) as I1.
  { split.
    - eapply set_client_inv0; eauto; [apply I|]. split; simpl; [now apply uniq_set|]. intros key mm. rewrite get_set.
      destruct (eqb key (view_key (c_view v))); [|apply U2]. intro X. inversion X; subst. unfold uniq.
      assert (keys mm = keys m) as Km; [|rewrite Km; eapply U2; eauto]. refine (mapM_keys _ _ _ _ E2).
      intros e e' H. bnd H. bnd H. now inversion H.
    - apply I.
    - apply set_client_listed; [apply I|]. simpl. apply (i_listed _ I id). exists v. auto. }
  destruct (negb _); [|inversion E; subst; exact I1]. apply notify_same, same_vc_of in E. eapply vc_inv; [apply E|apply E|exact I1].
Qed.

Lemma delete_in_open G pol m bufs xs mods bufs' : delete_in_buffers G pol m bufs = Ok (xs, mods, bufs') -> uniq bufs ->
  uniq bufs' /\ forall b, In b (keys bufs') <-> In b (keys bufs).
Proof.
  revert bufs xs mods bufs'. induction m as [|[name ss] m IH]; intros bufs xs mods bufs' E U; cbn [delete_in_buffers] in E.
  - inversion E; subst. tauto.
  - bnd E. destruct (get bufs name) as [b|] eqn:Eb; [|discriminate]. inversion E0; subst v. clear E0. bnd E. destruct v as [ys t]. bnd E. bnd E.
    destruct v0 as [[zs ms] bf]. inversion E; subst. apply IH in E2; [|now apply uniq_set]. destruct E2 as [A B]. split; auto. intro x.
    rewrite B, in_keys_set. split; auto. intros [->|X]; auto. eapply get_key_in; eauto.
Qed.
Lemma clamp_uniq mods bufs m m' : clamp_buffers mods bufs m = Ok m' -> uniq m -> uniq m'.
Proof.
  revert m. induction mods as [|n mods IH]; intros m E U; cbn [clamp_buffers] in E; [congruence|].
  bnd E. bnd E. bnd E. apply IH in E; auto. now apply uniq_set.
Qed.
Lemma delete_selection_inv G pol id k xs k' : delete_selection G pol id k = Ok (xs, k') -> inv k -> inv k'.
Proof.
  intros E I. unfold delete_selection in E. bnd E. apply the_client_get in E0. bnd E. bnd E. destruct v1 as [[ys mods] bufs]. bnd E.
  destruct (get (c_sels v) (view_key (c_view v))) as [m|] eqn:Em; [|discriminate]. inversion E1; subst v0; clear E1.
  destruct (i_cl _ (i_0 _ I) _ _ E0) as [W [U1 U2]]. destruct (delete_in_open _ _ _ _ _ _ _ E2 (i_ub _ (i_0 _ I))) as [Ub Ob].
  assert (inv (set_buffers k bufs)) as Ib.
  { eapply vc_inv; [| |exact I]; [split; reflexivity|]. intros _. split; auto. intros b H. unfold open. simpl. now apply Ob. }
  assert (inv (set_cmap (set_buffers k bufs) (set (cmap k) id (mkCl (c_view v) (set (c_sels v) (view_key (c_view v)) v1))))) as I1.
  { change (cmap k) with (cmap (set_buffers k bufs)). split.
    - eapply set_client_inv0; eauto; [apply Ib|]. split; simpl; [now apply uniq_set|]. intros key mm. rewrite get_set.
      destruct (eqb key (view_key (c_view v))); [|apply U2]. intro X. inversion X; subst. eapply clamp_uniq; eauto.
    - apply Ib.
    - apply set_client_listed; [apply Ib|]. simpl. apply (i_listed _ Ib id). exists v. auto. }
  destruct ys; [inversion E; subst; exact I1|]. bnd E. inversion E; subst.
  apply notify_same, same_vc_of in E1. eapply vc_inv; [apply E1|apply E1|exact I1].
Qed.

Lemma add_client_inv G id k k' : add_client G id k = Ok k' -> inv k -> inv k'.
Proof.
  intros E I. unfold add_client in E. bnd E. rename v into ctx.
  assert (view_wf (c_view ctx) /\ client_uniq ctx /\ listed k (view_key (c_view ctx))) as (W & U & L).
  { destruct (sm_latest (k_clients k)) as [c|].
    - apply the_client_get in E0. destruct (i_cl _ (i_0 _ I) _ _ E0) as [W U]. split; [exact W|split; [exact U|]]. apply (i_listed _ I c). exists ctx. auto.
    - bnd E0. inversion E0; subst; clear E0. unfold sm_latest_value in E1. destruct (nth_error (sm_stack (k_views k)) 0) as [key|]; [|discriminate].
      destruct (get (sm_map (k_views k)) key) as [v'|] eqn:Ev; [|discriminate]. inversion E1; subst v'. destruct (i_key _ (i_0 _ I) _ _ Ev) as [K W].
      simpl. split; auto. split; [|rewrite K; eapply get_key_in; eauto]. split; [repeat constructor; auto|].
      intros q mm. cbn [c_sels get]. destruct (eqb q (view_key v)); [|intro X; discriminate X]. intro X. inversion X; subst. now apply fresh_uniq. }
  bnd E. destruct v as [o m]. destruct (insert_ok id ctx (k_clients k)) as [o' X]. rewrite X in E1. inversion E1; subst; clear E1 X.
  bnd E. inversion E; subst; clear E. apply debug_frame, appended_vc in E1.
  pose proof (emit_vc v [mkSent (Some [id]) (NInfo (dec id) (k_cwd v))]) as Ve. eapply vc_inv; [apply Ve|apply Ve|]. eapply vc_inv; [apply E1|apply E1|]. clear E1 Ve v.
  destruct I as [I0 Io Il]. split.
  - destruct I0. split; auto; unfold connected in *; unfold cmap; simpl.
    + now apply uniq_set.
    + constructor; [|now apply remove_first_nodup]. rewrite remove_first_in by auto. tauto.
    + intro x. rewrite in_keys_set, remove_first_in by auto. rewrite i_cin0. change (sm_map (k_clients k)) with (cmap k).
      destruct (eqb_dec x id) as [->|N]; [split; auto|]. split; intros [Y|Y]; try congruence; try tauto; right; tauto.
    + intros i c. change (sm_map (k_clients k)) with (cmap k). rewrite get_set. destruct (eqb i id); [intro Y; inversion Y; subst; auto|apply i_cl0].
  - exact Io.
  - intros i v (c & Y & Z). unfold cmap in Y. simpl in Y. change (sm_map (k_clients k)) with (cmap k) in Y. rewrite get_set in Y. destruct (eqb i id).
    + inversion Y; subst. exact L.
    + apply (Il i). exists c. auto.
Qed.
Lemma remove_client_inv0 k id : inv k -> inv (set_clients k (snd (sm_remove id (k_clients k)))).
Proof.
  intro I.
  unfold sm_remove. destruct (existsb _ _) eqn:X; cbn [snd].
  2:{ replace (set_clients k (k_clients k)) with k by (now destruct k). exact I. }
  destruct I as [I0 Io Il]. split.
  - destruct I0. split; auto; unfold connected in *; unfold cmap; simpl.
    + now apply uniq_del.
    + now apply remove_first_nodup.
    + intro x. rewrite in_keys_del, remove_first_in by auto. now rewrite i_cin0.
    + intros i c. change (sm_map (k_clients k)) with (cmap k). rewrite get_del. destruct (eqb i id); [discriminate|apply i_cl0].
  - exact Io.
  - intros i v (c & Y & Z). unfold cmap in Y. simpl in Y. change (sm_map (k_clients k)) with (cmap k) in Y. rewrite get_del in Y.
    destruct (eqb i id); [discriminate|]. apply (Il i). exists c. auto.
Qed.
Lemma remove_client_inv G id k k' : remove_client G id k = Ok k' -> inv k -> inv k'.
Proof.
  intros E I. unfold remove_client in E. apply debug_frame, appended_vc in E. eapply vc_inv; [apply E|apply E|]. now apply remove_client_inv0.
Qed.

Lemma init_inv G cwd args k : editor_init G cwd args = Ok k -> inv k.
Proof.
  intro E. unfold editor_init in E. bnd E. bnd E. apply debug_frame in E0. apply debug_frame in E1.
  assert (inv (core_new cwd)) as I. { split; [split|..]; unfold views_open, clients_listed, looks_at, connected, listed; simpl; try constructor; try tauto; try discriminate. intros id v' (c & X & _). discriminate. }
  pose proof (appended_vc _ _ _ _ E0) as V0. pose proof (appended_vc _ _ _ _ E1) as V1.
  assert (inv v) as Ia by (eapply vc_inv; [apply V0|apply V0|exact I]).
  assert (inv v0) as Ib by (eapply vc_inv; [apply V1|apply V1|exact Ia]).
  pose proof (scratch_vc b_scratch [] v0) as V2.
  eapply add_view_inv; eauto.
  - apply view_wf_add, view_wf_add, view_wf_nil.
  - intros b. unfold shows. rewrite !keys_add. simpl. unfold open, open_scratch. simpl. intros [->|[->|[]]]; apply in_keys_set; auto. right.
    destruct E1 as (_ & _ & _ & b & B & _). rewrite B. apply in_keys_set. auto.
  - eapply vc_inv; [apply V2|apply V2|exact Ib].
Qed.

Lemma run_call_inv G pol d c k r k' : run_call G pol d c k = Ok (r, k') -> inv k -> inv k'.
Proof.
  intros E I. destruct c; cbn [run_call] in E.
  - bnd E. inversion E; subst. eapply edit_inv; eauto.
  - bnd E. destruct v. inversion E; subst. eapply view_cmd_inv; eauto.
  - bnd E. inversion E; subst. unfold delete_current_view in E0. bnd E0. apply the_client_get in E1. bnd E0. destruct v0 as [[e|] k1]; [discriminate|].
    inversion E0; subst. eapply (delete_view_inv _ _ _ _ _ id (c_view v)); eauto. exists v. auto.
  - bnd E. destruct v as [e k1]. inversion E; subst. unfold add_to_current_view in E0. destruct (buffer_exists k b) eqn:B; cbn [negb] in E0; [|inversion E0; subst; auto].
    bnd E0. apply the_client_get in E1. bnd E0. inversion E0; subst. eapply (modify_view_inv _ _ _ _ _ id (c_view v)); eauto.
    + exists v. auto.
    + intros. now apply view_wf_add.
    + intros u b0 X S. unfold shows in S. rewrite keys_add in S. destruct S as [->|S]; [now apply has_in|]. eapply (i_open _ I); eauto.
  - bnd E. destruct v as [e k1]. inversion E; subst. unfold remove_from_current_view in E0. destruct (buffer_exists k b) eqn:B; cbn [negb] in E0; [|inversion E0; subst; auto].
    bnd E0. apply the_client_get in E1. bnd E0. inversion E0; subst. eapply (modify_view_inv _ _ _ _ _ id (c_view v)); eauto.
    + exists v. auto.
    + cbv beta. intros u W. destruct (contains_buffer u b); [now apply view_wf_remove|exact W].
    + intros u b0 X S. eapply (i_open _ I); eauto. unfold shows in *. cbv beta in S. destruct (contains_buffer u b); auto.
      unfold remove_lens_group in S. apply in_keys_del in S. tauto.
  - bnd E. inversion E; subst. eapply move_inv; eauto.
  - bnd E. destruct v. inversion E; subst. eapply delete_selection_inv; eauto.
  - bnd E. inversion E; subst. apply append_frame, appended_vc in E0. eapply vc_inv; [apply E0|apply E0|exact I].
  - bnd E. inversion E; subst. eapply edit_inv; eauto. eapply vc_inv; [apply scratch_vc|apply scratch_vc|exact I].
  - bnd E. inversion E; subst. apply message_vc in E0. eapply vc_inv; [apply E0|apply E0|exact I].
  - bnd E. inversion E; subst. apply error_vc in E0. eapply vc_inv; [apply E0|apply E0|exact I].
  - bnd E. inversion E; subst. apply debug_frame, appended_vc in E0. eapply vc_inv; [apply E0|apply E0|exact I].
  - bnd E. destruct v. inversion E; subst. exact I.
  - bnd E. inversion E; subst. eapply add_client_inv; eauto.
  - bnd E. inversion E; subst. eapply remove_client_inv; eauto.
Qed.
Lemma reach_inv G pol k : reach G pol k -> inv k.
Proof.
  induction 1 as [cwd args k E|d c k r k' _ IH E|k k' _ IH S].
  - eapply init_inv; eauto.
  - eapply run_call_inv; eauto.
  - eapply shuffle_inv; eauto.
Qed.
