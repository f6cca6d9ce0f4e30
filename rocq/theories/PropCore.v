(** C29-C35: views, buffers and clients of a running editor.  [reach G pol k]: [k] is the state of an editor that
    started and served calls of any clients without panicking (CoreSpec.v). *)
From Coq Require Import String List Arith Lia Bool Permutation.
From Verif Require Import Base ListFacts PieceTable PieceTableFacts PieceTableEdits Coords Utf8 GraphemeInst HistoryFacts History Diff Selection Maps StackMap
  Fmt Buffer View ViewFacts Utf8Facts Core CoreSpec CoreInv CoreOps.
Import ListNotations.

(** ** running calls, for the witnesses *)
Definition no_disk : disk := mkDisk (fun _ => None) (fun _ => None) 0.
Fixpoint run_calls (G : Graphemes) (pol : policy) (d : disk) (cs : list call) (k : core) : res core :=
  match cs with
  | [] => Ok k
  | c :: r => '(_, k) <- run_call G pol d c k ;; run_calls G pol d r k
  end.
Definition session (cs : list call) : res core :=
  k <- editor_init utf8_graphemes (str "/w") (str "ced") ;; run_calls utf8_graphemes pol_wrap no_disk cs k.
Lemma run_calls_reach G pol d cs k k' : reach G pol k -> run_calls G pol d cs k = Ok k' -> reach G pol k'.
Proof.
  revert k. induction cs as [|c cs IH]; simpl; intros k R E; [congruence|]. bnd E. destruct v as [r k1]. eapply IH; [|exact E].
  eapply reach_call; eauto.
Qed.
Lemma session_reach cs k : session cs = Ok k -> reach utf8_graphemes pol_wrap k.
Proof. unfold session. intro E. bnd E. eapply run_calls_reach; [|exact E]. eapply reach_init; eauto. Qed.
Definition get_ok {A} (d : A) (r : res A) : A := match r with Ok a => a | _ => d end.
Lemma session_state cs : (match session cs with Ok _ => true | _ => false end) = true -> session cs = Ok (get_ok (core_new []) (session cs)).
Proof. destruct (session cs); [reflexivity|discriminate|discriminate]. Qed.

Lemma listed_b k key : has (vmap k) key = true -> listed k key.
Proof. intro H. apply has_in. exact H. Qed.
Lemma unlisted_b k key : has (vmap k) key = false -> ~ listed k key.
Proof. intro H. apply has_not_in. exact H. Qed.
Lemma open_b k b : has (k_buffers k) b = true -> open k b.
Proof. intro H. apply has_in. exact H. Qed.
Lemma closed_b k b : has (k_buffers k) b = false -> ~ open k b.
Proof. intro H. apply has_not_in. exact H. Qed.

(** two clients, four views; used by the examples below *)
Definition demo : list call :=
  [CJoin 1; CEdit 1 (str "a") true; CEdit 1 (str "b") true; CJoin 2; CEdit 2 (str "c") true; CViewAdd 2 (str "a");
   CAppend (str "a") (str "text" ++ [LF]); CMove 1 MDown false; CView 2 (str "*debug*{*}|*scratch*{*}")].
Lemma demo_runs : session demo = Ok (get_ok (core_new []) (session demo)).
Proof. apply session_state. vm_compute. reflexivity. Qed.

(** ** C30 *)
Theorem C30_registered : forall G pol k, reach G pol k ->
  (forall key v, get (vmap k) key = Some v -> view_key v = key) /\
  (forall id v, looks_at k id v -> listed k (view_key v)).
Proof.
  intros G pol k R. apply reach_inv in R. split; [|apply R]. intros key v E. now apply (i_key _ (i_0 _ R)) in E.
Qed.
Print Assumptions C30_registered.
Example C30_demo : exists k, reach utf8_graphemes pol_wrap k /\ length (vmap k) = 4 /\ length (cmap k) = 2 /\
  looks_at k 1 (whole (str "b")).
Proof.
  eexists. split; [apply (session_reach _ _ demo_runs)|]. split; [vm_compute; reflexivity|]. split; [vm_compute; reflexivity|].
  eexists. split; vm_compute; reflexivity.
Qed.

(** ** C31 *)
Theorem C31_views_show_open_buffers : forall G pol k, reach G pol k ->
  forall key v b, get (vmap k) key = Some v -> shows v b -> open k b.
Proof. intros G pol k R. apply reach_inv in R. apply R. Qed.
Print Assumptions C31_views_show_open_buffers.
(** and no view is empty of content: the listed views have pairwise distinct keys, their buffers distinct names *)
Theorem C31_no_duplicates : forall G pol k, reach G pol k ->
  NoDup (keys (vmap k)) /\ NoDup (keys (k_buffers k)) /\ NoDup (keys (cmap k)) /\
  forall key v, get (vmap k) key = Some v -> NoDup (keys v).
Proof.
  intros G pol k R. apply reach_inv in R. destruct R as [I _ _]. repeat split; try apply I.
  intros key v E. apply (i_key _ I) in E. apply sorted_uniq. apply E.
Qed.
Print Assumptions C31_no_duplicates.

(** ** C33 *)
Theorem C33_scratch_edit : forall G pol d k id name r k', reach G pol k ->
  run_call G pol d (CEdit id name true) k = Ok (r, k') ->
  r = RUnit /\ open k' name /\
  (name <> b_debug -> exists b, get (k_buffers k') name = Some b /\
     match get (k_buffers k) name with Some b0 => b = b0 | None => pt_text (b_content b) = Ok [LF] end) /\
  get (vmap k') (name ++ str "{*}") = Some [(name, [mkLens name FWhole])] /\
  looks_at k' id [(name, [mkLens name FWhole])] /\
  sm_latest (k_views k') = Some (name ++ str "{*}") /\
  (exists items, In (mkSent (Some [id]) (NView items)) (news k k') /\ map pi_buffer items = [name]) /\
  (forall b, b <> name -> b <> b_debug -> get (k_buffers k') b = get (k_buffers k) b) /\
  (forall key, key <> name ++ str "{*}" -> get (vmap k') key = get (vmap k) key) /\
  (forall j v, j <> id -> (looks_at k' j v <-> looks_at k j v)).
Proof.
  intros G pol d k id name r k' R E. cbn [run_call] in E. bnd E. inversion E; subst; clear E. apply edit_spec in E0. cbv zeta in E0.
  destruct E0 as (c & Ec & Ew & Ev & Ek & Eo & On & Eb & En). rewrite whole_key in *.
  split; auto. split; auto. split.
  { intro N. destruct (Eb N) as (b & Gb & Hb). exists b. split; auto. unfold edit_buffer in Hb. destruct (get (k_buffers k) name); auto. subst b. vm_compute. reflexivity. }
  split; [unfold vmap; rewrite Ev; apply get_set_same|]. split.
  { unfold looks_at, cmap. rewrite Ek. cbn [sm_map]. rewrite get_set_same. eauto. }
  split; [rewrite Ev; reflexivity|]. split; [exact En|]. split; [exact Eo|]. split; [intros key N; unfold vmap at 1; rewrite Ev; now apply get_set_other|].
  intros j v N. unfold looks_at, cmap. rewrite Ek. cbn [sm_map]. rewrite get_set_other by auto. rewrite get_map_vals. fold (cmap k). split.
  - intros (c' & X & V). destruct (get (cmap k) j) as [c0|]; [|discriminate]. inversion X; subst c'. eauto.
  - intros (c' & X & V). change (get (cmap k) j = Some c') in X. rewrite X. eexists. split; [reflexivity|]. exact V.
Qed.
Print Assumptions C33_scratch_edit.
Example C33_demo : exists r k', reach utf8_graphemes pol_wrap (get_ok (core_new []) (session demo)) /\
  run_call utf8_graphemes pol_wrap no_disk (CEdit 2 (str "new") true) (get_ok (core_new []) (session demo)) = Ok (r, k') /\ length (k_buffers k') = 6.
Proof. eexists. eexists. split; [apply (session_reach _ _ demo_runs)|]. split; vm_compute; reflexivity. Qed.

(** opening a file that is not open yet: the buffer holds the text of the file, newline-terminated *)
Theorem C33_file_edit : forall G pol d k id name r k' content, reach G pol k -> ~ open k name -> name <> b_debug ->
  dk_read d (path_join (k_cwd k) name) = Some content ->
  run_call G pol d (CEdit id name false) k = Ok (r, k') ->
  exists b, get (k_buffers k') name = Some b /\ b_source b = SFile (path_join (k_cwd k) name) /\
    pt_text (b_content b) = Ok (if ends_lf content then content else content ++ [LF]) /\
    looks_at k' id [(name, [mkLens name FWhole])] /\ get (vmap k') (name ++ str "{*}") = Some [(name, [mkLens name FWhole])].
Proof.
  intros G pol d k id name r k' content R O N Er E. cbn [run_call] in E. bnd E. inversion E; subst; clear E. apply edit_spec in E0. cbv zeta in E0.
  destruct E0 as (c & Ec & Ew & Ev & Ek & Eo & On & Eb & En). rewrite whole_key in *. destruct (Eb N) as (b & Gb & Hb). exists b. split; auto.
  unfold edit_buffer in Hb. assert (get (k_buffers k) name = None) as G0 by (apply get_none; exact O). rewrite G0 in Hb.
  unfold new_file in Hb. rewrite Er in Hb. cbn [unwrap bind] in Hb. inversion Hb; subst b; clear Hb. split; [reflexivity|]. split.
  - cbn [b_content]. assert ((if ends_lf content then content else content ++ [LF]) <> []) as NE.
    { destruct (ends_lf content) eqn:X; [destruct content; [discriminate|discriminate]|destruct content; discriminate]. }
    destruct (sim_init _ NE) as [S _]. rewrite pt_text_txt by apply S. f_equal. destruct S as (_ & _ & T & _). exact T.
  - split; [|unfold vmap; rewrite Ev; apply get_set_same]. unfold looks_at, cmap. rewrite Ek. cbn [sm_map]. rewrite get_set_same. eauto.
Qed.
Print Assumptions C33_file_edit.
Example C33_file_demo : exists r k', let d := mkDisk (fun p => if list_nat_eqb p (str "/w/f") then Some (str "hi") else None) (fun _ => None) 5 in
  run_call utf8_graphemes pol_wrap d (CEdit 2 (str "f") false) (get_ok (core_new []) (session demo)) = Ok (r, k') /\ open k' (str "f").
Proof. eexists. eexists. split; [vm_compute; reflexivity|]. apply open_b. vm_compute. reflexivity. Qed.

(** ** C34 *)
(** the most recently used view other than [key] *)
Definition next_view (k : core) (key : text) : option text := find (fun x => negb (eqb x key)) (sm_stack (k_views k)).
Lemma remove_head key l : NoDup l -> hd_error (remove_first key l) = find (fun x => negb (eqb x key)) l.
Proof.
  induction l as [|x l IH]; cbn [remove_first find]; intro N; auto. inversion N; subst. destruct (eqb x key) eqn:E; cbn [negb]; auto.
  apply eqb_ok in E. subst x. destruct l as [|y l]; auto. cbn [hd_error find]. destruct (eqb y key) eqn:E; auto. apply eqb_ok in E. subst. exfalso. apply H1. now left.
Qed.
(** client [id] deletes its current view [v] and some other view is listed *)
Theorem C34_delete_view : forall G pol d k id v r k', reach G pol k -> looks_at k id v ->
  (exists key, listed k key /\ key <> view_key v) ->
  run_call G pol d (CViewDelete id) k = Ok (r, k') ->
  r = RUnit /\ ~ listed k' (view_key v) /\
  (forall key, key <> view_key v -> get (vmap k') key = get (vmap k) key) /\
  (exists key u, next_view k (view_key v) = Some key /\ get (vmap k) key = Some u /\
     forall j, (forall w, looks_at k j w -> view_key w = view_key v ->
          looks_at k' j u /\ exists items, In (mkSent (Some [j]) (NView items)) (news k k') /\ map pi_buffer items = keys u) /\
        (forall w, looks_at k j w -> view_key w <> view_key v -> looks_at k' j w)) /\
  (forall b, b <> b_debug ->
     (open k' b <-> open k b /\ ~ (exists u, get (vmap k) (view_key v) = Some u /\ shows u b /\
                                   forall key u', key <> view_key v -> get (vmap k) key = Some u' -> ~ shows u' b)) /\
     (open k' b -> get (k_buffers k') b = get (k_buffers k) b)).
Proof.
  intros G pol d k id v r k' R (c0 & Ec0 & V0) (key0 & L0 & N0) E. apply reach_inv in R. cbn [run_call] in E. bnd E. inversion E; subst r v0; clear E.
  unfold delete_current_view in E0. bnd E0. apply the_client_get in E. rewrite Ec0 in E. inversion E; subst v0; clear E. rewrite V0 in E0.
  bnd E0. destruct v0 as [[e|] k1]; [discriminate|]. inversion E0; subst k1; clear E0.
  pose proof (delete_view_news G (view_key v) k k') as News. specialize (fun j v0 => News j v0 E R).
  pose proof (delete_view_spec _ _ _ _ _ E (i_0 _ R)) as [(X & _)|(_ & u & latest & Ev & Ew & Evs & El & Ec & Ub & Od & Q & _)]; [discriminate|].
  assert (last_view (vmap k) (view_key v) = false) as LV.
  { unfold last_view. destruct (del (vmap k) (view_key v)) eqn:X; auto. exfalso.
    assert (In key0 (keys (del (vmap k) (view_key v)))) as Y by (apply in_keys_del; auto). rewrite X in Y. destruct Y. }
  rewrite LV in *. split; auto. split.
  { unfold listed, vmap. rewrite Evs. cbn [sm_map]. rewrite in_keys_del. tauto. }
  split. { intros key N. unfold vmap at 1. rewrite Evs. cbn [sm_map]. now apply get_del_other. }
  split.
  { unfold sm_latest_value in El. rewrite Evs in El. cbn [sm_stack sm_map] in El.
    destruct (nth_error (remove_first (view_key v) (sm_stack (k_views k))) 0) as [key|] eqn:Nk; [|discriminate].
    assert (next_view k (view_key v) = Some key) as NV.
    { unfold next_view. rewrite <- remove_head by apply R. destruct (remove_first _ _); [discriminate|exact Nk]. }
    assert (key <> view_key v) as Nkey. { apply find_some in NV. destruct NV as [_ NV]. apply negb_true_iff, eqb_neq in NV. exact NV. }
    exists key, latest. split; auto. rewrite get_del_other in El by auto. split; auto. intro j.
    assert (forall w, looks_at k j w -> looks_at k' j (if eqb (view_key w) (view_key v) then latest else w)) as H.
    { intros w (cj & Ej & Vj). unfold looks_at, cmap. rewrite Ec. cbn [sm_map]. rewrite get_map_vals, Ej. eexists. split; [reflexivity|].
      rewrite after_delete_view, Vj. reflexivity. }
    split.
    - intros w L K. pose proof (H w L) as H'. rewrite K, eqb_refl in H'. split; auto.
      destruct (News j w L K) as (items & v' & I1 & I2 & I3). exists items. split; auto. rewrite I3. f_equal.
      destruct I2 as (c2 & G2 & <-). destruct H' as (c3 & G3 & <-). congruence.
    - intros w L K. pose proof (H w L) as H'. apply eqb_neq in K. rewrite K in H'. exact H'. }
  intros b Nb. specialize (Q b Nb).
  assert (shown_by (del (vmap k) (view_key v)) b = true <-> exists key u', key <> view_key v /\ get (vmap k) key = Some u' /\ shows u' b) as Sb.
  { rewrite shown_by_spec by (apply uniq_del, R). split.
    - intros (key & u' & X & Y). rewrite get_del in X. destruct (eqb key (view_key v)) eqn:Z; [discriminate|]. apply eqb_neq in Z. exists key, u'. auto.
    - intros (key & u' & N & X & Y). exists key, u'. split; auto. now rewrite get_del_other. }
  unfold open. rewrite <- !get_some, Q.
  destruct (has u b) eqn:Hb; cbn [andb].
  - destruct (shown_by (del (vmap k) (view_key v)) b) eqn:S; cbn [negb].
    + apply proj1 in Sb. destruct (Sb eq_refl) as (key & u' & N & X & Y). split; auto. split; [|tauto]. intro O. split; auto.
      intros (u0 & _ & _ & H). eapply H; eauto.
    + split; [|intros [? X]; discriminate]. split; [intros [? X]; discriminate|]. intros [_ H]. exfalso. apply H. exists u. split; auto.
      split; [now apply has_in|]. intros key u' N X Y. assert (false = true) as Z by (apply Sb; eauto). discriminate Z.
  - split; auto. split; [|tauto]. intro O. split; auto. intros (u0 & X & Y & _). rewrite Ev in X. inversion X; subst. apply has_in in Y. congruence.
Qed.
Print Assumptions C34_delete_view.
Example C34_demo : exists r k', let k := get_ok (core_new []) (session demo) in
  reach utf8_graphemes pol_wrap k /\ looks_at k 1 (whole (str "b")) /\ listed k (str "a{*}") /\
  run_call utf8_graphemes pol_wrap no_disk (CViewDelete 1) k = Ok (r, k') /\ ~ open k' (str "b") /\ open k (str "b").
Proof.
  eexists. eexists. cbv zeta. split; [apply (session_reach _ _ demo_runs)|]. split; [eexists; split; vm_compute; reflexivity|].
  split; [apply listed_b; vm_compute; reflexivity|]. split; [vm_compute; reflexivity|].
  split; [apply closed_b; vm_compute; reflexivity|apply open_b; vm_compute; reflexivity].
Qed.

(** ** C35 *)
Theorem C35_unknown_view : forall G pol d k id vid, ~ listed k vid -> ~ open k vid ->
  run_call G pol d (CView id vid) k = Ok (RErr (EView vid), k).
Proof.
  intros G pol d k id vid L O. cbn [run_call]. unfold view_cmd, view_exists, buffer_exists.
  apply has_not_in in L. apply has_not_in in O. now rewrite L, O.
Qed.
Print Assumptions C35_unknown_view.
Theorem C35_unknown_buffer : forall G pol d k id b, ~ open k b ->
  run_call G pol d (CViewAdd id b) k = Ok (RErr (EBuffer b), k) /\ run_call G pol d (CViewRemove id b) k = Ok (RErr (EBuffer b), k).
Proof.
  intros G pol d k id b O. apply has_not_in in O. cbn [run_call]. unfold add_to_current_view, remove_from_current_view, buffer_exists. now rewrite O.
Qed.
Print Assumptions C35_unknown_buffer.
(** conversely, these are the only errors a client gets, and errors never change anything *)
Theorem C35_errors_change_nothing : forall G pol d k c e k', reach G pol k -> run_call G pol d c k = Ok (RErr e, k') ->
  k' = k /\ match c, e with
            | CView _ vid, EView x => x = vid /\ ~ listed k vid /\ ~ open k vid
            | CViewAdd _ b, EBuffer x | CViewRemove _ b, EBuffer x => x = b /\ ~ open k b
            | _, _ => False
            end.
Proof.
  intros G pol d k c e k' _ E. destruct c; cbn [run_call] in E; bnd E; try discriminate E.
  - destruct v as [[x|] k1]; [|discriminate]. inversion E; subst; clear E. unfold view_cmd in E0.
    destruct (view_exists k vid) eqn:V; [bnd E0; bnd E0; bnd E0; discriminate|]. destruct (buffer_exists k vid) eqn:B; [bnd E0; bnd E0; discriminate|].
    inversion E0; subst. split; auto. split; auto. split; apply has_not_in; auto.
  - destruct v as [[x|] k1]; [|discriminate]. inversion E; subst; clear E. unfold add_to_current_view in E0.
    destruct (buffer_exists k b) eqn:B; cbn [negb] in E0; [bnd E0; bnd E0; discriminate|]. inversion E0; subst. split; auto. split; auto. now apply has_not_in.
  - destruct v as [[x|] k1]; [|discriminate]. inversion E; subst; clear E. unfold remove_from_current_view in E0.
    destruct (buffer_exists k b) eqn:B; cbn [negb] in E0; [bnd E0; bnd E0; discriminate|]. inversion E0; subst. split; auto. split; auto. now apply has_not_in.
  - destruct v. discriminate.
  - destruct v. discriminate.
Qed.
Print Assumptions C35_errors_change_nothing.
Example C35_demo : let k := get_ok (core_new []) (session demo) in ~ listed k (str "zz") /\ ~ open k (str "zz").
Proof. split; [apply unlisted_b|apply closed_b]; vm_compute; reflexivity. Qed.

(** ** C29 *)
(** after [view *debug*] the editor lists a view that cannot be deleted *)
Theorem C29_refuted : exists k key v w, reach utf8_graphemes pol_wrap k /\ looks_at k 1 v /\ view_key v = key /\ listed k key /\
  run_call utf8_graphemes pol_wrap no_disk (CViewDelete 1) k = Panic w.
Proof.
  assert (session [CJoin 1; CView 1 (str "*debug*")] = Ok (get_ok (core_new []) (session [CJoin 1; CView 1 (str "*debug*")]))) as E
    by (apply session_state; vm_compute; reflexivity).
  eexists. exists (str "*debug*{*}"), (whole b_debug). eexists. split; [apply (session_reach _ _ E)|].
  split; [eexists; split; vm_compute; reflexivity|]. split; [vm_compute; reflexivity|]. split; [apply listed_b; vm_compute; reflexivity|].
  vm_compute. reflexivity.
Qed.
Print Assumptions C29_refuted.

(** ** C32 *)
(** who makes a call *)
Definition actor (c : call) : option nat :=
  match c with
  | CEdit id _ _ | CView id _ | CViewDelete id | CViewAdd id _ | CViewRemove id _ | CMove id _ _ | CDeleteSelection id
  | CScratch id _ _ | CGetContext id | CJoin id | CLeave id => Some id
  | CMessage id _ | CError id _ _ => id
  | CAppend _ _ | CDebug _ => None
  end.
(** the key under which the current view [v] of the caller is listed after the call *)
Definition changed_key (c : call) (v : view) : text :=
  match c with
  | CViewAdd _ b => view_key (add_lens (mkLens b FWhole) v)
  | CViewRemove _ b => view_key (remove_lens_group b v)
  | _ => view_key v
  end.
(** [v] is the current view of the client making the request, and the request deletes or modifies it *)
Definition changes_view (k : core) (c : call) (v : view) : Prop :=
  match c with CViewDelete id | CViewAdd id _ | CViewRemove id _ => looks_at k id v | _ => False end.

Definition client_kept (k : core) (c : call) (a a' : client) : Prop :=
  (c_view a' = c_view a \/ exists v, changes_view k c v /\ view_key (c_view a) = view_key v) /\
  forall key b ss, csel a key b = Some ss ->
    csel a' key b = Some ss \/ exists v, changes_view k c v /\ (key = view_key v \/ exists u, get (vmap k) (view_key v) = Some u /\ key = changed_key c u).
Lemma kept_refl k c a : client_kept k c a a.
Proof. split; auto. Qed.
Lemma other_client k id j c x y : j <> id -> get (cmap k) j = Some x -> get (set (cmap k) id c) j = Some y -> y = x.
Proof. intros N G E. rewrite get_set_other in E by auto. congruence. Qed.
Lemma vc_client k k' j x : same_vc k k' -> get (cmap k) j = Some x -> get (cmap k') j = Some x.
Proof. intros [C _] G. unfold cmap. now rewrite C. Qed.
Lemma run_call_kept G pol d c k r k' j a : inv k -> run_call G pol d c k = Ok (r, k') -> actor c <> Some j -> get (cmap k) j = Some a ->
  exists a', get (cmap k') j = Some a' /\ client_kept k c a a'.
Proof.
  intros I E N Ga.
  assert (forall id name scratch k0 k1, edit_cmd G pol d id name scratch k0 = Ok k1 -> cmap k0 = cmap k -> j <> id ->
    exists a', get (cmap k1) j = Some a' /\ client_kept k c a a') as Hedit.
  { intros id name scratch k0 k1 Ed Em Nj. apply edit_spec in Ed. cbv zeta in Ed. destruct Ed as (c0 & _ & _ & _ & Ek & _).
    exists (with_view (whole name) a). split.
    - unfold cmap. rewrite Ek. cbn [sm_map]. rewrite get_set_other by auto. rewrite get_map_vals, Em, Ga. reflexivity.
    - split; [left; reflexivity|]. intros key b ss H. left. now apply with_view_keeps. }
  assert (forall k1, same_vc k k1 -> exists a', get (cmap k1) j = Some a' /\ client_kept k c a a') as Hvc.
  { intros k1 V. exists a. split; [eapply vc_client; eauto|apply kept_refl]. }
  assert (forall id v, j <> id -> exists a', get (set (cmap k) id v) j = Some a' /\ client_kept k c a a') as Hset.
  { intros id v Nj. exists a. split; [now rewrite get_set_other|apply kept_refl]. }
  destruct c; cbn [run_call] in E; bnd E; try (assert (j <> id) as Nj by (intro; apply N; cbn [actor]; congruence)).
  - inversion E; subst. eapply Hedit; eauto.
  - destruct v as [e k1]. inversion E; subst; clear E. unfold view_cmd in E0. destruct (view_exists k vid).
    + bnd E0. bnd E0. bnd E0. inversion E0; subst. destruct (notify_same _ _ _ _ E2) as (_ & C & _). unfold cmap at 1. rewrite C. now apply Hset.
    + destruct (buffer_exists k vid); [|inversion E0; subst; apply Hvc; split; reflexivity].
      bnd E0. bnd E0. inversion E0; subst. destruct (notify_same _ _ _ _ E1) as (_ & C & _). unfold cmap at 1. rewrite C. now apply Hset.
  - inversion E; subst. unfold delete_current_view in E0. bnd E0. apply the_client_get in E1. bnd E0. destruct v0 as [[e|] k1]; [discriminate|].
    inversion E0; subst; clear E0. destruct (delete_client _ _ _ _ j a E2 (i_0 _ I) Ga) as (a' & G' & V' & S'). exists a'. split; auto.
    assert (changes_view k (CViewDelete id) (c_view v)) as Cv by (exists v; auto). split.
    + destruct (eqb_dec (view_key (c_view a)) (view_key (c_view v))); [right; eauto|left; auto].
    + intros key b ss H. destruct (eqb_dec key (view_key (c_view v))); [right; eauto|left; auto].
  - destruct v as [e k1]. inversion E; subst; clear E. unfold add_to_current_view in E0. destruct (buffer_exists k b); cbn [negb] in E0.
    2:{ inversion E0; subst. apply Hvc. split; reflexivity. }
    bnd E0. apply the_client_get in E. bnd E0. rename E1 into E2. inversion E0; subst; clear E0.
    assert (changes_view k (CViewAdd id b) (c_view v)) as Cv by (exists v; auto).
    destruct (get (vmap k) (view_key (c_view v))) as [u|] eqn:Eu. 2:{ unfold modify_view in E2. rewrite Eu in E2. discriminate. }
    destruct (modify_client _ _ _ _ _ j a u E2 I Eu) as (a' & G' & V' & S' & _); auto. { apply view_wf_add. now apply (i_key _ (i_0 _ I) _ _ Eu). }
    exists a'. split; auto. split.
    + destruct (eqb_dec (view_key (c_view a)) (view_key (c_view v))); [right; eauto|left; auto].
    + intros key b0 ss H. destruct (eqb_dec key (view_key (c_view v))) as [->|N1]; [right; eauto|].
      destruct (eqb_dec key (view_key (add_lens (mkLens b FWhole) u))) as [->|N2]; [right; exists (c_view v); split; eauto|]. left. eauto.
  - destruct v as [e k1]. inversion E; subst; clear E. unfold remove_from_current_view in E0. destruct (buffer_exists k b); cbn [negb] in E0.
    2:{ inversion E0; subst. apply Hvc. split; reflexivity. }
    bnd E0. apply the_client_get in E. bnd E0. rename E1 into E2. inversion E0; subst; clear E0.
    assert (changes_view k (CViewRemove id b) (c_view v)) as Cv by (exists v; auto).
    destruct (get (vmap k) (view_key (c_view v))) as [u|] eqn:Eu. 2:{ unfold modify_view in E2. rewrite Eu in E2. discriminate. }
    assert (view_wf u) as Wu by now apply (i_key _ (i_0 _ I) _ _ Eu).
    destruct (modify_client _ _ _ _ _ j a u E2 I Eu) as (a' & G' & V' & S' & _); auto. { destruct (contains_buffer u b); [now apply view_wf_remove|auto]. }
    exists a'. split; auto. split.
    + destruct (eqb_dec (view_key (c_view a)) (view_key (c_view v))); [right; eauto|left; auto].
    + intros key b0 ss H. destruct (eqb_dec key (view_key (c_view v))) as [->|N1]; [right; eauto|].
      destruct (eqb_dec key (view_key (remove_lens_group b u))) as [->|N2]; [right; exists (c_view v); split; eauto|]. left.
      apply S'; auto. destruct (contains_buffer u b); auto. rewrite (proj1 (i_key _ (i_0 _ I) _ _ Eu)). auto.
  - inversion E; subst. unfold move_cursor in E0. bnd E0. bnd E0. bnd E0. destruct (negb _).
    + destruct (notify_same _ _ _ _ E0) as (_ & C & _). unfold cmap at 1. rewrite C. now apply Hset.
    + inversion E0; subst. now apply Hset.
  - destruct v as [xs k1]. inversion E; subst; clear E. unfold delete_selection in E0. bnd E0. bnd E0. bnd E0. destruct v1 as [[ys mods] bufs]. bnd E0.
    destruct ys; [inversion E0; subst; now apply Hset|]. bnd E0. inversion E0; subst.
    destruct (notify_same _ _ _ _ E4) as (_ & C & _). unfold cmap at 1. rewrite C. now apply Hset.
  - inversion E; subst. apply Hvc. eapply appended_vc. eapply append_frame; eauto.
  - inversion E; subst. eapply Hedit; eauto.
  - inversion E; subst. apply Hvc. eapply message_vc; eauto.
  - inversion E; subst. apply Hvc. eapply error_vc; eauto.
  - inversion E; subst. apply Hvc. eapply appended_vc. eapply debug_frame; eauto.
  - destruct v. inversion E; subst. apply Hvc. split; reflexivity.
  - inversion E; subst. unfold add_client in E0. bnd E0. bnd E0. destruct v0 as [o m]. bnd E0. inversion E0; subst; clear E0.
    destruct (insert_ok id v (k_clients k)) as [o' X]. rewrite X in E2. inversion E2; subst; clear E2. apply debug_frame in E3. destruct E3 as (_ & C & _).
    unfold cmap at 1. cbn [emit k_clients]. rewrite C. now apply Hset.
  - inversion E; subst. unfold remove_client in E0. apply debug_frame in E0. destruct E0 as (_ & C & _). unfold cmap at 1. rewrite C.
    cbn [k_clients set_clients]. unfold sm_remove. destruct (existsb _ _); cbn [snd sm_map].
    + exists a. split; [|apply kept_refl]. rewrite get_del_other by auto. exact Ga.
    + exists a. split; [exact Ga|apply kept_refl].
Qed.

(** Missing w.r.t. C32: when the caller's view is modified and the result has the key of another listed view, the
    selections in that view are replaced (refuted below). *)
Theorem C32_isolation_partial : forall G pol d k c r k' j, reach G pol k -> run_call G pol d c k = Ok (r, k') -> actor c <> Some j ->
  (forall w, looks_at k j w -> looks_at k' j w \/ exists v, changes_view k c v /\ view_key w = view_key v) /\
  (forall key b ss, sels_in k j key b = Some ss ->
     sels_in k' j key b = Some ss \/
     exists v, changes_view k c v /\ (key = view_key v \/ exists u, get (vmap k) (view_key v) = Some u /\ key = changed_key c u)).
Proof.
  intros G pol d k c r k' j R E N. apply reach_inv in R. split.
  - intros w (a & Ga & Va). destruct (run_call_kept _ _ _ _ _ _ _ j a R E N Ga) as (a' & G' & [V'|(v & V1 & V2)] & _).
    + left. exists a'. split; auto. congruence.
    + right. exists v. split; auto. congruence.
  - intros key b ss H. rewrite sels_in_csel in H. destruct (get (cmap k) j) as [a|] eqn:Ga; [|discriminate].
    destruct (run_call_kept _ _ _ _ _ _ _ j a R E N Ga) as (a' & G' & _ & S'). rewrite sels_in_csel, G'. auto.
Qed.
Print Assumptions C32_isolation_partial.

Definition crash_course : list call :=
  [CJoin 1; CEdit 1 (str "a") true; CAppend (str "a") (str "text" ++ [LF]); CJoin 2; CEdit 2 (str "c") true; CViewAdd 2 (str "a");
   CMove 2 MDown false].
(** client 1, looking at a{*}, adds buffer c: the view a{*}|c{*} of client 2 is neither deleted nor renamed, but the
    cursor of client 2 in it moves back *)
Theorem C32_refuted : exists k r k', reach utf8_graphemes pol_wrap k /\
  run_call utf8_graphemes pol_wrap no_disk (CViewAdd 1 (str "c")) k = Ok (r, k') /\
  let key := str "a{*}|c{*}" in
  listed k key /\ listed k' key /\ looks_at k 1 (whole (str "a")) /\ looks_at k' 2 (add_lens (mkLens (str "c") FWhole) (whole (str "a"))) /\
  sels_in k 2 key (str "a") = Some [mkSel 1 1 1] /\ sels_in k' 2 key (str "a") = Some [sel_new].
Proof.
  assert (session crash_course = Ok (get_ok (core_new []) (session crash_course))) as E by (apply session_state; vm_compute; reflexivity).
  eexists. eexists. eexists. split; [apply (session_reach _ _ E)|]. split; [vm_compute; reflexivity|]. cbv zeta.
  split; [apply listed_b; vm_compute; reflexivity|]. split; [apply listed_b; vm_compute; reflexivity|].
  split; [eexists; split; vm_compute; reflexivity|]. split; [eexists; split; vm_compute; reflexivity|]. split; vm_compute; reflexivity.
Qed.
Print Assumptions C32_refuted.

(** ** C61: the cursors of every client survive a change of the view they look at *)
(** [u] is the view listed under the key of the client's view (there is one: C30) *)
Theorem C61_cursors_survive : forall G pol d k id b v u r k' j b' ss, reach G pol k -> looks_at k id v ->
  get (vmap k) (view_key v) = Some u ->
  run_call G pol d (CViewAdd id b) k = Ok (r, k') -> r = RUnit ->
  sels_in k j (view_key v) b' = Some ss ->
  sels_in k' j (view_key (add_lens (mkLens b FWhole) u)) b' = Some ss.
Proof.
  intros G pol d k id b v u r k' j b' ss R (a & Ga & Va) Ev E -> H. apply reach_inv in R. cbn [run_call] in E. bnd E. destruct v0 as [e k1].
  inversion E; subst k1; clear E. destruct e; [discriminate|]. unfold add_to_current_view in E0. destruct (buffer_exists k b); cbn [negb] in E0; [|discriminate].
  bnd E0. apply the_client_get in E. rewrite Ga in E. inversion E; subst v0; clear E. rewrite Va in E0. bnd E0. inversion E0; subst v0; clear E0.
  rewrite sels_in_csel in *. destruct (get (cmap k) j) as [c|] eqn:Gc; [|discriminate].
  destruct (modify_client _ _ _ _ _ j c u E R Ev) as (c' & -> & _ & _ & S); auto.
  - apply view_wf_add. now apply (i_key _ (i_0 _ R) _ _ Ev).
  - apply S; auto. intro X. pose proof (proj2 (keys_add (mkLens b FWhole) u b) (or_introl eq_refl)) as Y. rewrite X in Y. destruct Y.
Qed.
Print Assumptions C61_cursors_survive.
(** client 2 joins while client 1 looks at a{*} with a moved cursor; client 2 adds c: both keep the moved cursor *)
Definition survivors : list call :=
  [CJoin 1; CEdit 1 (str "c") true; CEdit 1 (str "a") true; CAppend (str "a") (str "text" ++ [LF]); CMove 1 MDown false; CJoin 2].
Example C61_demo : let k := get_ok (core_new []) (session survivors) in
  session survivors = Ok k /\ looks_at k 2 (whole (str "a")) /\ get (vmap k) (view_key (whole (str "a"))) = Some (whole (str "a")) /\
  sels_in k 1 (str "a{*}") (str "a") = Some [mkSel 1 1 1] /\
  exists k', run_call utf8_graphemes pol_wrap no_disk (CViewAdd 2 (str "c")) k = Ok (RUnit, k') /\
    sels_in k' 1 (str "a{*}|c{*}") (str "a") = Some [mkSel 1 1 1].
Proof.
  cbv zeta. split; [vm_compute; reflexivity|]. split; [eexists; split; vm_compute; reflexivity|]. split; [vm_compute; reflexivity|].
  split; [vm_compute; reflexivity|]. eexists. split; vm_compute; reflexivity.
Qed.
