(** C58: starting without a server. *)
From Coq Require Import String List Arith Lia ZArith Bool.
From Verif Require Import Base ListFacts PieceTable PieceTableSpec History Coords Utf8 Utf8Facts Diff Selection Maps StackMap Fmt Buffer View Json Proto Core CoreSpec CoreInv CoreOps CoreTame CoreSafe CoreSafeMore PropSafe Payload Menu PropMenu Editor EditorSpec EditorFacts PropEditor EditorTame PropEditorSafe Server ServerSpec ServerFacts PropServer Standalone.
Import ListNotations.

Section Standalone.
Variable G : Graphemes.
Variable pol : policy.
Variable u : regex_crate.
Variable se : serde.
Variable L : lua.

(** ** every file costs a notification *)
Lemma edit_costs w id n b e o e' : command_edit G pol L w id (mkEdit n b) e = Ok (o, e') -> length (ed_out L e) < length (ed_out L e').
Proof.
  unfold command_edit. intro E. bnd E. injection E as _ <-. unfold do_core in E0. bnd E0. destruct v0 as [r e1]. injection E0 as <-. unfold on_core in E. bnd E. destruct v as [r0 k]. injection E as _ <-. cbn [run_call ep_name ep_scratch] in E0. bnd E0. injection E0 as _ <-.
  apply edit_spec in E. destruct E as (c & _ & _ & _ & _ & _ & _ & _ & items & H & _). cbn [set_core ed_out]. rewrite app_length, map_length. unfold news in H. destruct (skipn _ _); [destruct H|]. cbn. lia.
Qed.
Lemma open_files_costs w files : forall e e', open_files G pol L w files e = Ok (Some e') -> length (ed_out L e) + length files <= queue_room.
Proof.
  induction files as [|f r IH]; intros e e' E; cbn [open_files] in E; unfold has_room in E; destruct (Nat.leb_spec (length (ed_out L e)) queue_room); cbn [negb] in E; try discriminate; [cbn; lia|].
  bnd E. destruct v as [o e1]. apply edit_costs in E0. apply IH in E. cbn [length]. lia.
Qed.
(** Whatever the files, the scripts and the world are: the command loop is not reached with more than a hundred files. *)
Theorem C58_refuted : forall w cwd args s scripts files, queue_room < length files -> forall e, start_standalone G pol L w cwd args s scripts files <> Ok (Some e).
Proof.
  intros w cwd args s scripts files H e E. unfold start_standalone in E. bnd E. destruct (negb _); [discriminate|]. bnd E. apply open_files_costs in E. lia.
Qed.

(** ** exactly one each *)
Definition file_ready (w : world) (cwd : text) (f : text) : Prop :=
  good_name f /\ f <> b_debug /\ (exists content, dk_read (w_disk w) (path_join cwd f) = Some content /\ plain content) /\
  exists m, dk_mtime (w_disk w) (path_join cwd f) = Some m /\ m < dk_now (w_disk w).
(** the buffer is a file that did not change since it was read *)
Definition settled_file (w : world) (k : core) (f : text) : Prop :=
  match get (k_buffers k) f with None => True | Some b => (exists p, b_source b = SFile p) /\ is_synced (w_disk w) b = true end.
Lemma append_quiet n x k k' : append_to G n x k = Ok k' -> (forall c cl, get (cmap k) c = Some cl -> contains_buffer (c_view cl) n = false) -> uniq (cmap k) -> k_sent k' = k_sent k.
Proof.
  unfold append_to. intros E H U. bnd E. assert (cmap v = cmap k /\ k_sent v = k_sent k) as [C S]. { destruct (negb _); [injection E0 as <-; split; reflexivity|]. bnd E0. bnd E0. injection E0 as <-. split; reflexivity. }
  assert (clients_with_buffer v n = []) as Z.
  { unfold clients_with_buffer. destruct (negb (buffer_exists v n)); [reflexivity|]. rewrite C. clear - H U. assert (forall l, (forall x, In x l -> contains_buffer (c_view (snd x)) n = false) -> map fst (filter (fun e : nat * client => contains_buffer (c_view (snd e)) n) l) = []) as F.
    { induction l as [|x l IH]; intro F; [reflexivity|]. cbn [filter]. rewrite (F x) by now left. apply IH. intros y Hy. apply F. now right. }
    apply F. intros [c cl] Hx. eapply H. eapply get_uniq; eauto. }
  rewrite Z in E. unfold notify_view_update in E. cbn in E. injection E as <-. cbn [emit k_sent]. rewrite S. apply app_nil_r.
Qed.
Lemma edit_single w cwd id f k k' : inv k -> (forall x, connected k x <-> x = id) -> k_cwd k = cwd -> file_ready w cwd f -> settled_file w k f ->
  edit_cmd G pol (w_disk w) id f false k = Ok k' -> length (k_sent k') = S (length (k_sent k)) /\ settled_file w k' f.
Proof.
  intros I C W (Gn & Nd & _ & m & Hm & Lt) St E. pose proof E as E'. unfold edit_cmd in E. bnd E. destruct v as [notify k1].
  assert (k_sent k1 = k_sent k /\ k_clients k1 = k_clients k /\ k_views k1 = k_views k /\ exists b, get (k_buffers k1) f = Some b /\ (exists p, b_source b = SFile p) /\ is_synced (w_disk w) b = true) as (S1 & C1 & V1 & b & Gb & Sb).
  { unfold buffer_exists, has, settled_file in *. destruct (get (k_buffers k) f) as [b0|] eqn:X.
    - destruct St as [[p Sp] Sy]. cbn [unwrap bind] in E0. unfold load_from_disk in E0. rewrite Sp, Sy in E0. cbn [bind] in E0. injection E0 as <- <-. cbn [set_buffers k_sent k_clients k_views k_buffers]. rewrite get_set_same. eauto 10.
    - bnd E0. injection E0 as <- <-. unfold open_file in E1. bnd E1. injection E1 as <-. unfold new_file in E0. bnd E0. injection E0 as <-. cbn [set_buffers k_sent k_clients k_views k_buffers]. rewrite get_set_same. split; [reflexivity|]. split; [reflexivity|]. split; [reflexivity|]. eexists. split; [reflexivity|].
      split; [eexists; reflexivity|]. unfold is_synced. cbn [b_source b_sync]. rewrite W, Hm. now apply Nat.ltb_lt. }
  clear E0. rewrite for_buffer_whole in E. bnd E. apply add_view_eq in E0. rename v into k2.
  assert (k_sent k2 = k_sent k /\ k_buffers k2 = k_buffers k1) as [S2 B2] by (subst k2; rewrite <- S1; split; reflexivity).
  bnd E. destruct v as [e k3]. destruct e; [discriminate|].
  assert (length (k_sent k3) = S (length (k_sent k2)) /\ k_buffers k3 = k_buffers k2) as [S3 B3].
  { unfold view_cmd in E1. assert (view_exists k2 (view_key (whole f)) = true) as Ve. { unfold view_exists. subst k2. unfold vmap at 1. cbn [set_cmap set_clients set_views k_views sm_map]. apply has_in, in_keys_set. auto. }
    rewrite Ve in E1. bnd E1. bnd E1. bnd E1. injection E1 as <-. apply notify_frame in E4. destruct E4 as (ps & Hp & -> & _). split; [|reflexivity]. cbn [emit k_sent set_cmap set_clients]. rewrite app_length, map_length. rewrite <- (map_length fst ps), Hp. cbn. lia. }
  bnd E.
  (* the clients after [view_cmd] *)
  assert (k_clients k' = k_clients k3 /\ appended b_debug ((str "edit: " ++ f) ++ [LF]) k3 v) as [Kk Ap].
  { apply append_frame in E2. pose proof E2 as (_ & K & _). split; [|exact E2]. rewrite <- K. destruct notify; [apply notify_same in E; apply E|injection E as <-; reflexivity]. }
  assert (uniq (cmap k3)) as U3. { unfold cmap. rewrite <- Kk. apply (edit_inv _ _ _ _ _ _ _ _ E' I). }
  assert (forall c cl, get (cmap k3) c = Some cl -> c = id /\ c_view cl = whole f) as C3.
  { apply edit_spec in E'. destruct E' as (c0 & _ & _ & _ & Kc & _). intros c cl Hc. rewrite Kk in Kc. unfold cmap in Hc. rewrite Kc in Hc. cbn [sm_map] in Hc. assert (c = id) as ->.
    { apply get_key_in in Hc. apply in_keys_set in Hc. destruct Hc as [|Hc]; auto. rewrite keys_map_vals in Hc. now apply C. }
    rewrite get_set_same in Hc. injection Hc as <-. auto. }
  assert (k_sent v = k_sent k3) as S4.
  { apply (append_quiet _ _ _ _ E2); [|exact U3]. intros c cl Hc. apply C3 in Hc. destruct Hc as [_ ->]. unfold contains_buffer, whole, has. cbn [get]. destruct (eqb b_debug f) eqn:Q; [apply eqb_ok in Q; congruence|reflexivity]. }
  assert (get (k_buffers v) f = Some b) as Gv. { destruct Ap as (_ & _ & _ & b' & B & _). rewrite B, get_set_other by congruence. now rewrite B3, B2. }
  assert (k_sent k' = k_sent v /\ k_buffers k' = k_buffers v) as [S5 B5].
  { destruct notify; [|injection E as <-; split; reflexivity]. assert (filter (fun i => negb (i =? id)) (clients_with_buffer v f) = []) as Z.
    { unfold clients_with_buffer. destruct (negb (buffer_exists v f)); [reflexivity|]. destruct Ap as (_ & Kv & _). unfold cmap. rewrite Kv. fold (cmap k3). clear - C3 U3.
      assert (forall l, (forall x, In x l -> fst x = id) -> filter (fun i => negb (i =? id)) (map fst (filter (fun e : nat * client => contains_buffer (c_view (snd e)) f) l)) = []) as F.
      { induction l as [|x l IH]; intro H; [reflexivity|]. cbn [filter]. destruct (contains_buffer (c_view (snd x)) f); [cbn [map filter]; rewrite (H x) by (now left); rewrite Nat.eqb_refl; cbn [negb]|]; apply IH; intros y Hy; apply H; now right. }
      apply F. intros [c cl] Hx. apply (C3 c cl). now apply get_uniq. }
    rewrite Z in E. cbn in E. injection E as <-. cbn [emit k_sent k_buffers]. rewrite app_nil_r. split; reflexivity. }
  split; [rewrite S5, S4, S3, S2; reflexivity|]. unfold settled_file. now rewrite B5, Gv.
Qed.
Lemma open_files_exact w cwd : policy_wrap pol \/ policy_succ pol -> forall files e, tame_reach G pol (ed_core L e) -> (forall x, connected (ed_core L e) x <-> x = standalone_client) -> k_cwd (ed_core L e) = cwd ->
  Forall (file_ready w cwd) files -> Forall (settled_file w (ed_core L e)) files ->
  (length (ed_out L e) + length files <= queue_room -> exists e', open_files G pol L w files e = Ok (Some e') /\ length (ed_out L e') = length (ed_out L e) + length files /\ forall f, In f files -> open (ed_core L e') f) /\
  (queue_room < length (ed_out L e) + length files -> open_files G pol L w files e = Ok None).
Proof.
  intros Pf files. assert (forall files e e' f, f <> b_debug -> open_files G pol L w files e = Ok (Some e') -> open (ed_core L e) f -> open (ed_core L e') f) as Keep.
  { clear. induction files as [|g r IH]; intros e e' f N E O; cbn [open_files] in E; destruct (negb _); try discriminate; [now injection E as <-|]. bnd E. destruct v as [o e1]. apply (IH _ _ _ N E). clear IH E.
    unfold command_edit in E0. bnd E0. injection E0 as _ <-. unfold do_core in E. bnd E. destruct v0 as [r0 e2]. injection E as <-. unfold on_core in E0. bnd E0. destruct v as [r1 k]. injection E0 as _ <-. cbn [run_call ep_name ep_scratch] in E. bnd E. injection E as _ <-. cbn [set_core ed_core].
    apply edit_spec in E0. destruct E0 as (c & _ & _ & _ & _ & Eb & Eo & _). destruct (list_eq_dec Nat.eq_dec f g) as [->|Ng]; auto. unfold open in *. apply get_some in O. destruct O as (b & O). rewrite <- (Eb f Ng N) in O. eapply get_key_in; eauto. }
  induction files as [|f r IH]; intros e R C W Fr St; cbn [open_files]; unfold has_room.
  - cbn [length]. rewrite Nat.add_0_r. split; intro H; [rewrite (proj2 (Nat.leb_le _ _) H)|rewrite (proj2 (Nat.leb_gt _ _) H)]; cbn [negb]; [eexists; split; [reflexivity|]; split; [lia|intros ? []]|reflexivity].
  - inversion Fr as [|? ? F1 F2]; inversion St as [|? ? St1 St2]; subst.
    assert (tame (w_disk w) (ed_core L e) (CEdit standalone_client f false)) as T.
    { pose proof F1 as (Gn & Nd & Rd & _). cbn [tame]. split; [now apply C|]. split; auto. unfold settled_file in St1. destruct (get (k_buffers (ed_core L e)) f); [apply St1|exact Rd]. }
    destruct (do_core_safe G pol L Pf w _ e R T) as (e1 & E1 & R1). pose proof (tame_safe G pol _ Pf R) as Sf.
    assert (length (ed_out L e1) = S (length (ed_out L e)) /\ (forall x, connected (ed_core L e1) x <-> x = standalone_client) /\ k_cwd (ed_core L e1) = k_cwd (ed_core L e) /\ (forall g, file_ready w (k_cwd (ed_core L e)) g -> settled_file w (ed_core L e) g -> settled_file w (ed_core L e1) g) /\ open (ed_core L e1) f) as (N1 & C1 & W1 & S1 & O1).
    { unfold do_core in E1. bnd E1. destruct v as [r0 e2]. injection E1 as <-. unfold on_core in E. bnd E. destruct v as [r1 k]. injection E as _ <-. cbn [run_call] in E0. bnd E0. injection E0 as _ <-. cbn [set_core ed_core ed_out].
      destruct (edit_single w _ standalone_client f _ _ (sf_inv _ _ Sf) C eq_refl F1 St1 E) as [Ln Sg]. pose proof (edit_ext _ _ _ _ _ _ _ _ E) as [l El].
      split; [rewrite app_length, map_length, skipn_length; lia|]. split; [intro x; rewrite <- C; unfold connected; now rewrite (sc_edit _ _ _ _ _ _ _ _ E)|].
      apply edit_spec in E. destruct E as (c & _ & Ew & _ & _ & Eb & Eo & _). split; [exact Ew|]. split; [|exact Eo]. intros g Fg Sgg. destruct (list_eq_dec Nat.eq_dec g f) as [->|Ng]; auto. unfold settled_file in *. rewrite Eb; auto. apply Fg. }
    assert (command_edit G pol L w standalone_client (mkEdit f false) e = Ok (None, e1)) as Ce by (unfold command_edit; cbn [ep_name ep_scratch]; now rewrite E1).
    assert (Forall (settled_file w (ed_core L e1)) r) as St1'. { rewrite Forall_forall in F2, St2 |- *. intros g Hg. apply S1; auto. }
    destruct (IH e1 R1 C1 W1 F2 St1') as [IH1 IH2]. cbn [length]. split; intro H.
    + rewrite (proj2 (Nat.leb_le _ _)) by lia. cbn [negb]. rewrite Ce. cbn [bind]. destruct IH1 as (e' & E' & N' & O'); [lia|]. exists e'. split; [exact E'|]. split; [lia|]. intros g [<-|Hg]; auto. apply (Keep _ _ _ _ (proj1 (proj2 F1)) E' O1).
    + destruct (Nat.leb_spec (length (ed_out L e)) queue_room); cbn [negb]; [|reflexivity]. rewrite Ce. cbn [bind]. apply IH2. lia.
Qed.
(** Files that can be read, in any number: they are all opened if they fit in the queue with the notifications sent before, one
    each; otherwise the program waits for ever.  Missing from the full property: the latter; files that cannot be read (C36). *)
Theorem C58_partial : forall w cwd args s scripts e0 e1 files, policy_wrap pol \/ policy_succ pol ->
  editor_new G pol L w [] cwd args s scripts = Ok e0 -> has_room L e0 = true -> editor_add_client G pol L w standalone_client e0 = Ok e1 ->
  careful_reach G pol u se L e1 -> Forall (file_ready w (k_cwd (ed_core L e1))) files -> Forall (fun f => ~ open (ed_core L e1) f) files ->
  (length (ed_out L e1) + length files <= 100 ->
     exists e, start_standalone G pol L w cwd args s scripts files = Ok (Some e) /\ forall f, In f files -> open (ed_core L e) f) /\
  (100 < length (ed_out L e1) + length files -> start_standalone G pol L w cwd args s scripts files = Ok None).
Proof.
  intros w cwd args s scripts e0 e1 files Pf E0 H0 E1 R1 Fr No. unfold start_standalone. rewrite E0. cbn [bind]. rewrite H0. cbn [negb]. rewrite E1. cbn [bind].
  destruct (open_files_exact w (k_cwd (ed_core L e1)) Pf files e1 (proj1 (careful_inv G pol u se L Pf e1 R1))) as [A B]; auto.
  - intro x. destruct (new_clients G pol L _ _ _ _ _ _ _ E0) as [_ N]. pose proof (ereach_inv _ _ _ _ _ _ (er_new G pol u se L _ _ _ _ _ _ _ E0)) as I0. destruct (join_effect G pol L _ _ _ _ I0 E1) as (_ & C & _). rewrite C. split; [intros [H|H]; [exact H|destruct (N _ H)]|auto].
  - rewrite Forall_forall in No |- *. intros f Hf. unfold settled_file. destruct (get (k_buffers (ed_core L e1)) f) eqn:Q; auto. destruct (No f Hf). unfold open. eapply get_key_in; eauto.
  - change 100 with queue_room. split; [|exact B]. intro H. destruct (A H) as (e & E & _ & O). eauto.
Qed.
End Standalone.
