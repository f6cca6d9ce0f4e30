(** The invariant behind C36: editors serving only tame calls do not panic. *)
From Coq Require Import String List Arith Lia Bool Permutation.
From Verif Require Import Base ListFacts LineSpec LineFacts PieceTable PieceTableSpec PieceTableFacts PieceTableEdits PieceTableDelete Coords CoordsFacts CoordsMore Utf8 GraphemeInst
  PieceTableDelete HistoryFacts History Diff DiffApply Selection NavSpec NavFacts PropNav Maps StackMap Fmt Buffer View ViewSpec ViewFacts NotifFacts PropNotif Utf8Facts Core CoreSpec CoreInv CoreOps CoreTame.
Import ListNotations.

(** ** texts *)
Lemma plain_app x y : plain x -> plain y -> plain (x ++ y).
Proof. intros [A B] [C D]. split; [apply Forall_app; auto|]. rewrite in_app_iff. tauto. Qed.
Lemma plain_str s : forallb (fun b => (b <? 128) && negb (b =? 13)) (str s) = true -> plain (str s).
Proof.
  intro H. rewrite forallb_forall in H. split.
  - apply Forall_forall. intros b Hb. apply H in Hb. apply andb_prop in Hb. destruct Hb as [Hb _]. now apply Nat.ltb_lt.
  - intro Hb. apply H in Hb. discriminate.
Qed.
Lemma plain_lf : plain [LF].
Proof. split; [repeat constructor|]. intros [H|[]]. discriminate. Qed.
Lemma plain_dec n : plain (dec n).
Proof.
  split.
  - apply Forall_forall. intros b Hb. apply dec_bytes in Hb. lia.
  - intro H. apply dec_bytes in H. lia.
Qed.
Lemma term_lf x : terminated (x ++ [LF]) = true.
Proof. rewrite terminated_app by discriminate. reflexivity. Qed.

Lemma lines_app x y : terminated x = true -> lines_of (x ++ y) = lines_of x ++ lines_of y.
Proof.
  induction x as [|l Hn Hl|l r Hl IH] using lines_ind; intro T.
  - discriminate.
  - rewrite terminated_nolf in T by auto. discriminate.
  - rewrite terminated_app in T by discriminate. rewrite <- app_assoc. cbn [app]. rewrite !lines_cons by auto. cbn [app]. f_equal.
    destruct r as [|b r]; [reflexivity|]. apply IH. change (LF :: b :: r) with ([LF] ++ b :: r) in T. now rewrite terminated_app in T by discriminate.
Qed.
Definition fine (x : text) (s : sel) : Prop := sel_inside x s /\ 0 < s_target s.
Lemma fine_inside x s : fine x s -> sel_inside x s.
Proof. now intros [H _]. Qed.
Lemma fine_new x : terminated x = true -> fine x sel_new.
Proof. intro T. destruct (term_nonempty x T) as [_ H]. split; [split; exact H|]. cbn. lia. Qed.
Lemma fine_app x y s : fine x s -> fine (x ++ y) s.
Proof. intros [[H1 H2] H3]. split; auto. split; rewrite app_length; lia. Qed.

(** ** buffers *)
Definition good_buf (u : buffer) : Prop := acc (b_content u) /\ plain (txt (b_content u)) /\ terminated (txt (b_content u)) = true.
Lemma good_ok u : good_buf u -> buf_ok u.
Proof. intros (A & [B C] & T). repeat split; auto; try apply A. apply (term_nonempty _ T). Qed.
Lemma good_scratch name content : plain content -> content = [] \/ terminated content = true -> good_buf (new_scratch name content).
Proof.
  intros P T. unfold new_scratch, good_buf. cbn [b_content].
  assert (exists x, match content with [] => [LF] | _ => content end = x /\ plain x /\ terminated x = true) as (x & -> & Px & Tx).
  { destruct content; eauto using plain_lf. destruct T; [discriminate|]. eauto. }
  destruct (term_nonempty x Tx) as [N _]. destruct (sim_init x N) as [S Nl].
  assert (acc (pt_with_text x) /\ txt (pt_with_text x) = x) as [A ->].
  { destruct (edited_doc_acc (pt_with_text x) x) as [A E]; [|split; auto]. exists pol_wrap, x, []. split; auto. split; [reflexivity|]. split; [reflexivity|].
    left. split; [apply pol_wrap_ok|constructor]. }
  auto.
Qed.
Lemma good_append x u : good_buf u -> plain x -> terminated x = true ->
  exists u', buf_append x u = Ok u' /\ good_buf u' /\ txt (b_content u') = txt (b_content u) ++ x.
Proof.
  intros ([W N] & P & T) Px Tx. destruct (term_nonempty x Tx) as [Nx _]. destruct (append_spec x (b_content u) W Nx) as (t' & E & W' & T' & N' & _).
  unfold buf_append. rewrite E. cbn [bind]. eexists. split; [reflexivity|]. unfold s_append in T'. unfold good_buf, set_content. cbn [b_content]. rewrite T'.
  split; [|reflexivity]. split; [split; auto|]. split; [now apply plain_app|]. now rewrite terminated_app.
Qed.
Lemma good_file d path content : dk_read d path = Some content -> plain content -> exists u, new_file d path = Ok u /\ good_buf u.
Proof.
  intros R P. unfold new_file. rewrite R. cbn [unwrap bind]. eexists. split; [reflexivity|].
  assert (ends_lf content = terminated content) as -> by reflexivity.
  pose proof (good_scratch [] (if terminated content then content else content ++ [LF])) as H. unfold new_scratch in H.
  assert (match (if terminated content then content else content ++ [LF]) with [] => [LF] | _ => (if terminated content then content else content ++ [LF]) end
    = (if terminated content then content else content ++ [LF])) as X.
  { destruct (terminated content) eqn:T; [|destruct content; reflexivity]. destruct content; [discriminate|reflexivity]. }
  rewrite X in H. apply H.
  - destruct (terminated content); auto. apply plain_app; auto using plain_lf.
  - right. destruct (terminated content) eqn:T; auto. apply term_lf.
Qed.

(** ** displaying *)
Definition bufs_good (bufs : amap text buffer) : Prop := forall b u, get bufs b = Some u -> good_name b /\ good_buf u.
(** one selection, inside the text *)
Definition lone (x : text) (ss : list sel) : Prop := length ss = 1 /\ Forall (fine x) ss.
Lemma lone_app x y ss : lone x ss -> lone (x ++ y) ss.
Proof. intros [L F]. split; auto. eapply Forall_impl; [|exact F]. intros s. apply fine_app. Qed.
Lemma lone_ex x ss : lone x ss -> exists s, ss = [s] /\ fine x s.
Proof. intros [L F]. destruct ss as [|s [|]]; try discriminate. exists s. split; auto. now inversion F. Qed.
Lemma lone_new x : terminated x = true -> lone x [sel_new].
Proof. intro T. split; auto. constructor; [|constructor]. now apply fine_new. Qed.
Definition sels_fine (bufs : amap text buffer) (c : client) : Prop :=
  forall key m b ss u, get (c_sels c) key = Some m -> get m b = Some ss -> get bufs b = Some u -> lone (txt (b_content u)) ss.
Definition view_fine (bufs : amap text buffer) (v : view) : Prop := whole_view v /\ forall b, shows v b -> In b (keys bufs).
Lemma notify_progress G ids k : bufs_good (k_buffers k) ->
  (forall id, In id ids -> exists c, get (cmap k) id = Some c /\ view_fine (k_buffers k) (c_view c) /\ sels_fine (k_buffers k) c) ->
  exists k', notify_view_update G ids k = Ok k'.
Proof.
  intros B H. unfold notify_view_update.
  assert (exists ps, mapM (fun id => p <- view_params G k id ;; Ok (id, p)) ids = Ok ps) as (ps & ->); [|cbn [bind]; eauto].
  induction ids as [|id ids IH]; cbn [mapM]; eauto. destruct IH as (ps & E). { intros i Hi. apply H. now right. }
  destruct (H id (or_introl eq_refl)) as (c & Ec & [Wv Wo] & S). unfold view_params, the_client. rewrite Ec. cbn [unwrap bind].
  rewrite notif_ok; auto.
  - cbn [bind]. unfold view_params, the_client in E. rewrite E. cbn [bind]. eauto.
  - intros b Hb. pose proof (Wo b Hb) as O. apply get_some in O. destruct O as (u & Eu). exists u. split; auto. destruct (B b u Eu) as [_ Gu].
    split; [now apply good_ok|]. unfold buf_sels. destruct (get (c_sels c) (view_key (c_view c))) as [m|] eqn:Em; [|constructor].
    destruct (get m b) as [ss|] eqn:Ess; [|constructor]. eapply Forall_impl; [|eapply S; eauto]. intros s. apply fine_inside.
Qed.

(** appending; [bufs'] are the buffers after *)
Definition append_bufs (name x : text) (bufs bufs' : amap text buffer) : Prop :=
  exists u, bufs' = set bufs name u /\ good_buf u /\
    match get bufs name with None => u = new_scratch name x | Some u0 => txt (b_content u) = txt (b_content u0) ++ x end.
Lemma append_progress G name x k : bufs_good (k_buffers k) -> good_name name -> plain x -> terminated x = true -> uniq (cmap k) ->
  (forall bufs', append_bufs name x (k_buffers k) bufs' -> forall id c, get (cmap k) id = Some c -> shows (c_view c) name ->
     view_fine bufs' (c_view c) /\ sels_fine bufs' c) ->
  exists k', append_to G name x k = Ok k' /\ append_bufs name x (k_buffers k) (k_buffers k') /\ k_clients k' = k_clients k /\ k_views k' = k_views k /\
    k_cwd k' = k_cwd k /\ bufs_good (k_buffers k').
Proof.
  intros B Gn P T U H. unfold append_to, buffer_exists, has.
  assert (exists u, (if negb (match get (k_buffers k) name with Some _ => true | None => false end) then Ok (open_scratch name x k)
      else b <- unwrap (get (k_buffers k) name) "unreachable" ;; b <- buf_append x b ;; Ok (set_buffers k (set (k_buffers k) name b)))
      = Ok (set_buffers k (set (k_buffers k) name u)) /\ append_bufs name x (k_buffers k) (set (k_buffers k) name u)) as (u & -> & A).
  { unfold append_bufs. destruct (get (k_buffers k) name) as [u0|] eqn:E; cbn [negb].
    - destruct (B _ _ E) as [_ G0]. destruct (good_append x u0 G0 P T) as (u' & E' & G' & T'). cbn [unwrap bind]. rewrite E'. cbn [bind]. eauto 10.
    - eexists. split; [reflexivity|]. eexists. split; [reflexivity|]. split; auto. apply good_scratch; auto. }
  cbn [bind].
  assert (bufs_good (set (k_buffers k) name u)) as B'.
  { destruct A as (u' & Eu & Gu & _). intros b w. rewrite Eu, get_set. destruct (eqb b name) eqn:E; [|apply B]. intro X. inversion X; subst. apply eqb_ok in E. now subst. }
  destruct (notify_progress G (clients_with_buffer (set_buffers k (set (k_buffers k) name u)) name) (set_buffers k (set (k_buffers k) name u))) as (k' & E).
  - exact B'.
  - intros id Hid. unfold clients_with_buffer in Hid. destruct (negb _); [destruct Hid|]. apply in_map_iff in Hid. destruct Hid as ((i & c) & <- & Hf).
    apply filter_In in Hf. destruct Hf as [Hi Hc]. cbn [snd] in Hc. exists c. cbn [fst]. assert (get (cmap k) i = Some c) as Gc by (now apply get_uniq).
    split; [exact Gc|]. cbn [k_buffers set_buffers]. eapply H; eauto. unfold contains_buffer in Hc. now apply has_in in Hc.
  - exists k'. pose proof (notify_same _ _ _ _ E) as (N1 & N2 & N3 & N4). rewrite N3, N2, N4, N1. auto 10.
Qed.

(** ** the invariant *)
(** [P]: the keys of views in which every client has selections *)
Record safe (P : text -> Prop) (k : core) : Prop := {
  sf_inv : inv k;
  sf_bufs : bufs_good (k_buffers k);
  sf_views : forall key v, get (vmap k) key = Some v -> whole_view v;
  sf_stack : forall key, listed k key -> In key (sm_stack (k_views k));
  sf_some : exists key, listed k key;
  sf_cur : forall id c, get (cmap k) id = Some c -> get (vmap k) (view_key (c_view c)) = Some (c_view c);
  sf_keys : forall id c key, get (cmap k) id = Some c -> (In key (keys (c_sels c)) -> listed k key) /\ (listed k key -> P key -> In key (keys (c_sels c)));
  sf_sels : forall id c key m v b, get (cmap k) id = Some c -> get (c_sels c) key = Some m -> get (vmap k) key = Some v -> (In b (keys m) <-> shows v b);
  sf_fine : forall id c, get (cmap k) id = Some c -> sels_fine (k_buffers k) c }.

Section Hole.
Variable P : text -> Prop.
Lemma safe_view_fine k key v : safe P k -> get (vmap k) key = Some v -> view_fine (k_buffers k) v.
Proof. intros S E. split; [eapply sf_views; eauto|]. intros b H. exact (i_open _ (sf_inv _ _ S) _ _ _ E H). Qed.
Lemma safe_notify G ids k : safe P k -> (forall id, In id ids -> connected k id) -> exists k', notify_view_update G ids k = Ok k'.
Proof.
  intros S H. apply notify_progress; [apply S|]. intros id Hi. apply H in Hi. apply get_some in Hi. destruct Hi as (c & Ec). exists c. split; auto.
  split; [eapply safe_view_fine; eauto; eapply sf_cur; eauto|eapply sf_fine; eauto].
Qed.
Lemma safe_same k k' : same_state k k' -> safe P k -> safe P k'.
Proof.
  intros SS S. pose proof SS as (E1 & E2 & E3 & E4). pose proof (vc_inv k k' (proj1 (same_vc_of _ _ SS)) (proj2 (same_vc_of _ _ SS)) (sf_inv _ _ S)) as I.
  destruct S. split; auto; unfold listed, cmap, vmap in *; rewrite ?E2, ?E3, ?E4; auto.
Qed.
Lemma safe_notify' G ids k : safe P k -> (forall id, In id ids -> connected k id) -> exists k', notify_view_update G ids k = Ok k' /\ safe P k'.
Proof.
  intros S H. destruct (safe_notify G ids k S H) as (k' & E). exists k'. split; auto. eapply safe_same; eauto. eapply notify_same; eauto.
Qed.
Lemma emit_same k x : same_state k (emit k x).
Proof. repeat split. Qed.

(** changing the buffers only *)
Lemma safe_buffers k k' : same_vc k k' -> safe P k -> uniq (k_buffers k') -> (forall b, open k b -> open k' b) -> bufs_good (k_buffers k') ->
  (forall id c, get (cmap k) id = Some c -> sels_fine (k_buffers k') c) -> safe P k'.
Proof.
  intros V S U O B F. pose proof (vc_inv k k' V (fun _ => conj U O) (sf_inv _ _ S)) as I. destruct V as [V1 V2].
  destruct S. split; auto; unfold listed, cmap, vmap in *; rewrite ?V1, ?V2; auto.
Qed.
(** the sizes of a selected buffer only grow by an append *)
Lemma append_sels name x bufs bufs' c : append_bufs name x bufs bufs' -> bufs_good bufs -> In name (keys bufs) -> sels_fine bufs c -> sels_fine bufs' c.
Proof.
  intros (u & -> & Gu & Hu) B O F key m b ss w E1 E2 E3. rewrite get_set in E3. destruct (eqb b name) eqn:Eb; [|eapply F; eauto].
  apply eqb_ok in Eb. subst b. inversion E3; subst w. apply get_some in O. destruct O as (u0 & E0). rewrite E0 in Hu. rewrite Hu.
  apply lone_app. eapply F; eauto.
Qed.
Lemma append_keys name x bufs bufs' b : append_bufs name x bufs bufs' -> (In b (keys bufs') <-> b = name \/ In b (keys bufs)).
Proof. intros (u & -> & _). apply in_keys_set. Qed.
(** selections are about shown, hence open, buffers *)
Lemma safe_sels_open k id c key m b : safe P k -> get (cmap k) id = Some c -> get (c_sels c) key = Some m -> In b (keys m) -> open k b.
Proof.
  intros S Ec Em Hb. assert (listed k key) as L. { apply (sf_keys _ _ S id c key Ec). apply get_some. eauto. }
  apply get_some in L. destruct L as (v & Ev). apply (sf_sels _ _ S id c key m v b Ec Em Ev) in Hb. exact (i_open _ (sf_inv _ _ S) _ _ _ Ev Hb).
Qed.
Lemma append_safe G name x k : safe P k -> good_name name -> plain x -> terminated x = true ->
  exists k', append_to G name x k = Ok k' /\ safe P k' /\ k_clients k' = k_clients k /\ k_views k' = k_views k /\ k_cwd k' = k_cwd k /\
    append_bufs name x (k_buffers k) (k_buffers k').
Proof.
  intros S Gn Px T. destruct (append_progress G name x k) as (k' & E & A & C & V & W & B); auto.
  - apply S.
  - apply (sf_inv _ _ S).
  - intros bufs' A id c Ec Hs. pose proof (sf_cur _ _ S _ _ Ec) as Cu.
    assert (open k name) as O by exact (i_open _ (sf_inv _ _ S) _ _ _ Cu Hs). split.
    + split; [eapply sf_views; eauto|]. intros b Hb. apply (append_keys _ _ _ _ _ A). right. exact (i_open _ (sf_inv _ _ S) _ _ _ Cu Hb).
    + eapply append_sels; eauto; [apply S|]. eapply sf_fine; eauto.
  - exists k'. split; auto. split; [|auto 10]. apply (safe_buffers k); auto.
    + split; auto.
    + destruct A as (u & -> & _). apply uniq_set, (sf_inv _ _ S).
    + intros b Ob. apply (append_keys _ _ _ _ _ A). now right.
    + intros id c Ec. destruct (get (k_buffers k) name) as [u0|] eqn:En.
      * eapply append_sels; eauto; [apply S|apply get_some; eauto|eapply sf_fine; eauto].
      * intros key m b ss w E1 E2 E3. assert (open k b) as O. { eapply safe_sels_open; eauto. apply get_some. eauto. }
        destruct A as (u & Eu & _). rewrite Eu, get_set in E3. destruct (eqb b name) eqn:Eb.
        { apply eqb_ok in Eb. subst. apply get_some in O. destruct O. congruence. }
        eapply sf_fine; eauto.
Qed.
Lemma good_debug : good_name b_debug.
Proof. split; [apply plain_str; reflexivity|]. unfold plain_name. intro H. vm_compute in H. repeat destruct H as [H|H]; try discriminate. destruct H. Qed.
Lemma debug_safe G x k : safe P k -> plain x ->
  exists k', debug G x k = Ok k' /\ safe P k' /\ k_clients k' = k_clients k /\ k_views k' = k_views k /\ k_cwd k' = k_cwd k /\
    append_bufs b_debug (x ++ [LF]) (k_buffers k) (k_buffers k').
Proof. intros S Px. apply append_safe; auto using good_debug. { apply plain_app; auto using plain_lf. } apply term_lf. Qed.

(** keys identify views *)
Lemma open_plain k b : safe P k -> open k b -> good_name b.
Proof. intros S O. apply get_some in O. destruct O as (u & E). apply (sf_bufs _ _ S _ _ E). Qed.
Lemma key_same k u v : safe P k -> get (vmap k) (view_key v) = Some u -> view_wf v -> (forall b, shows v b -> open k b) -> u = v.
Proof.
  intros S E W O. destruct (i_key _ (i_0 _ (sf_inv _ _ S)) _ _ E) as [K Wu]. apply key_inj; auto; apply Forall_forall; intros b Hb.
  - apply (open_plain k b S). exact (i_open _ (sf_inv _ _ S) _ _ _ E Hb).
  - apply (open_plain k b S). now apply O.
Qed.

Lemma join_bytes (R : nat -> Prop) sep l : Forall R sep -> Forall (Forall R) l -> Forall R (Fmt.join sep l).
Proof.
  intros Hs F. induction F as [|x l Hx F IH]; [constructor|]. destruct l as [|y l]; [exact Hx|].
  change (Fmt.join sep (x :: y :: l)) with (x ++ sep ++ Fmt.join sep (y :: l)). apply Forall_app. split; auto. apply Forall_app. auto.
Qed.
Lemma view_key_plain v : (forall b, shows v b -> good_name b) -> plain (view_key v).
Proof.
  intro H. assert (Forall (fun c => c < 128 /\ c <> 13) (view_key v)) as F.
  { unfold view_key. apply join_bytes; [repeat constructor; discriminate|]. apply Forall_forall. intros x Hx. apply in_map_iff in Hx. destruct Hx as ([n g] & <- & Hx).
    unfold group_key. cbn [fst snd]. assert (good_name n) as [[A B] _]. { apply H. unfold shows, keys. change n with (fst (n, g)). now apply in_map. }
    apply Forall_app. split.
    - unfold ascii in A. rewrite Forall_forall in *. intros c Hc. split; [now apply A|]. intros ->. auto.
    - apply Forall_app. split; [repeat constructor; discriminate|]. apply Forall_app. split; [|repeat constructor; discriminate].
      apply Forall_forall. intros c Hc. assert (c = 42 \/ c = 44 \/ c = 46 \/ 48 <= c <= 57) as X by (now apply (join_focus_bytes g)). lia. }
  split; [eapply Forall_impl; [|exact F]; cbv beta; tauto|]. intro X. rewrite Forall_forall in F. apply F in X. tauto.
Qed.

(** opening a buffer that no view shows *)
Lemma set_buffer_safe k name u : safe P k -> good_name name -> good_buf u -> (forall key v, get (vmap k) key = Some v -> ~ shows v name) ->
  safe P (set_buffers k (set (k_buffers k) name u)).
Proof.
  intros S Gn Gu N. apply (safe_buffers k); auto.
  - split; reflexivity.
  - apply uniq_set, (sf_inv _ _ S).
  - intros b O. unfold open. cbn [k_buffers set_buffers]. apply in_keys_set. auto.
  - intros b w. cbn [k_buffers set_buffers]. rewrite get_set. destruct (eqb b name) eqn:Q; [|apply S]. intro X. inversion X; subst. apply eqb_ok in Q. now subst.
  - intros id c Ec key m b ss w E1 E2. cbn [k_buffers set_buffers]. rewrite get_set. destruct (eqb b name) eqn:Q; [|eapply sf_fine; eauto].
    apply eqb_ok in Q. subst b. exfalso. assert (In key (keys (c_sels c))) as L by (apply get_some; eauto). apply (sf_keys _ _ S id c key Ec) in L.
    apply get_some in L. destruct L as (v & Ev). apply (N _ _ Ev). apply (sf_sels _ _ S id c key m v name Ec E1 Ev). apply get_some. eauto.
Qed.
Lemma closed_unshown k name : safe P k -> ~ open k name -> forall key v, get (vmap k) key = Some v -> ~ shows v name.
Proof. intros S N key v E H. apply N. exact (i_open _ (sf_inv _ _ S) _ _ _ E H). Qed.

(** one client changes *)
Lemma set_client_safe k id c c' : safe P k -> get (cmap k) id = Some c -> get (vmap k) (view_key (c_view c')) = Some (c_view c') -> client_uniq c' ->
  keys (c_sels c') = keys (c_sels c) ->
  (forall key m v b, get (c_sels c') key = Some m -> get (vmap k) key = Some v -> (In b (keys m) <-> shows v b)) ->
  sels_fine (k_buffers k) c' -> safe P (set_cmap k (set (cmap k) id c')).
Proof.
  intros S Ec Ev U K X F. pose proof (sf_inv _ _ S) as I.
  assert (inv (set_cmap k (set (cmap k) id c'))) as I'.
  { split.
    - eapply set_client_inv0; eauto; [apply I|]. now apply (i_key _ (i_0 _ I) _ _ Ev).
    - apply I.
    - apply set_client_listed; [apply I|]. eapply get_key_in; eauto. }
  assert (forall j e, get (set (cmap k) id c') j = Some e -> e = c' \/ get (cmap k) j = Some e) as H.
  { intros j e. rewrite get_set. destruct (eqb j id); auto. intro Y. inversion Y. auto. }
  split; auto; try apply S.
  - intros j e Y. change (cmap _) with (set (cmap k) id c') in Y. apply H in Y. destruct Y as [->|Y]; auto. exact (sf_cur _ _ S _ _ Y).
  - intros j e key Y. change (cmap _) with (set (cmap k) id c') in Y. apply H in Y. destruct Y as [->|Y]; [rewrite K; exact (sf_keys _ _ S _ _ key Ec)|exact (sf_keys _ _ S _ _ key Y)].
  - intros j e key m v b Y Ym Yv. change (cmap _) with (set (cmap k) id c') in Y. apply H in Y. destruct Y as [->|Y]; [exact (X _ _ _ _ Ym Yv)|exact (sf_sels _ _ S _ _ _ _ _ _ Y Ym Yv)].
  - intros j e Y. change (cmap _) with (set (cmap k) id c') in Y. apply H in Y. destruct Y as [->|Y]; auto. exact (sf_fine _ _ S _ _ Y).
Qed.
Lemma cmap_open k id c : safe P k -> get (cmap k) id = Some c -> client_uniq c.
Proof. intros S E. apply (i_cl _ (i_0 _ (sf_inv _ _ S)) _ _ E). Qed.
Lemma look_safe k id c v : safe P k -> get (cmap k) id = Some c -> get (vmap k) (view_key v) = Some v ->
  safe P (set_cmap k (set (cmap k) id (mkCl v (c_sels c)))).
Proof.
  intros S Ec Ev. eapply set_client_safe; eauto.
  - exact (cmap_open _ _ _ S Ec).
  - intros key m u b. cbn [c_sels]. intros. eapply sf_sels; eauto.
  - exact (sf_fine _ _ S _ _ Ec).
Qed.
Lemma set_connected k id c j : connected (set_cmap k (set (cmap k) id c)) j <-> j = id \/ connected k j.
Proof. unfold connected. change (cmap (set_cmap _ _)) with (set (cmap k) id c). apply in_keys_set. Qed.

Lemma view_safe G k id vid : safe P k -> connected k id -> listed k vid ->
  exists k', view_cmd G id vid k = Ok (None, k') /\ safe P k' /\ k_buffers k' = k_buffers k /\ k_views k' = k_views k /\
    (forall j, connected k j <-> connected k' j) /\ k_cwd k' = k_cwd k.
Proof.
  intros S C L. pose proof (proj2 (has_in _ _) L) as X. apply get_some in L. destruct L as (v & Ev). apply get_some in C. destruct C as (c & Ec).
  unfold view_cmd, view_exists. rewrite X, Ev, Ec. cbn [unwrap bind]. destruct (i_key _ (i_0 _ (sf_inv _ _ S)) _ _ Ev) as [K _].
  pose proof (look_safe k id c v S Ec) as S1. rewrite K in S1. specialize (S1 Ev).
  destruct (safe_notify' G [id] _ S1) as (k' & E & S'). { intros i [<-|[]]. apply set_connected. auto. }
  rewrite E. cbn [bind]. exists k'. split; auto. split; auto. pose proof (notify_same _ _ _ _ E) as (N1 & N2 & N3 & N4). rewrite N3, N4. repeat split; auto.
  - intro H. unfold connected, cmap. rewrite N2. apply in_keys_set. auto.
  - intro H. unfold connected, cmap in H. rewrite N2 in H. apply in_keys_set in H. destruct H as [->|H]; auto. apply get_some. eauto.
Qed.
Lemma view_buffer_safe G k id b : safe P k -> connected k id -> ~ listed k b -> open k b -> listed k (b ++ str "{*}") ->
  exists k', view_cmd G id b k = Ok (None, k') /\ safe P k'.
Proof.
  intros S C NL O L. pose proof (proj2 (has_not_in _ _) NL) as X. pose proof (proj2 (has_in _ _) O) as X2. apply get_some in C. destruct C as (c & Ec).
  unfold view_cmd, view_exists, buffer_exists. rewrite X, X2, Ec. cbn [unwrap bind]. rewrite for_buffer_whole.
  pose proof L as L'. rewrite <- whole_key in L'. apply get_some in L'. destruct L' as (u & Eu).
  assert (u = whole b) as ->. { apply (key_same k u (whole b) S Eu); [apply view_wf_for|]. intros x Hx. unfold shows, whole in Hx. simpl in Hx. destruct Hx as [<-|[]]. exact O. }
  pose proof (look_safe k id c (whole b) S Ec Eu) as S1.
  assert (k_views (set_cmap k (set (cmap k) id (mkCl (whole b) (c_sels c)))) = k_views k) as Kv by reflexivity. rewrite Kv.
  assert (sm_or_insert (view_key (whole b)) (whole b) (k_views k) = k_views k) as ->.
  { unfold sm_or_insert, or_insert, has. unfold vmap in Eu. rewrite Eu. now destruct (k_views k). }
  destruct (safe_notify' G [id] _ S1) as (k' & E & S'). { intros i [<-|[]]. apply set_connected. auto. }
  change (set_views (set_cmap k (set (cmap k) id (mkCl (whole b) (c_sels c)))) (k_views k))
    with (set_cmap k (set (cmap k) id (mkCl (whole b) (c_sels c)))). rewrite E. cbn [bind]. eauto.
Qed.

(** registering a view *)
Lemma with_view_keys v c key : In key (keys (c_sels (with_view v c))) <-> key = view_key v \/ In key (keys (c_sels c)).
Proof. unfold with_view. cbn [c_sels]. apply in_keys_set. Qed.
Lemma with_view_get v c key m : get (c_sels (with_view v c)) key = Some m ->
  (key <> view_key v /\ get (c_sels c) key = Some m) \/
  (key = view_key v /\ forall b, get m b = match (match get (c_sels c) key with Some m0 => get m0 b | None => None end) with
                                            | Some x => Some x | None => if existsb (eqb b) (keys v) then Some [sel_new] else None end).
Proof.
  unfold with_view. cbn [c_sels]. rewrite get_set. destruct (eqb key (view_key v)) eqn:E.
  - apply eqb_ok in E. subst. intro X. inversion X; subst; clear X. right. split; auto. intro b. rewrite fold_or_insert_get.
    destruct (get (c_sels c) (view_key v)) as [m0|]; reflexivity.
  - apply eqb_neq in E. auto.
Qed.
Lemma existsb_in (b : text) l : existsb (eqb b) l = true <-> In b l.
Proof. rewrite existsb_exists. split; [intros (x & H & E); apply eqb_ok in E; now subst|intro H; exists b; split; auto; apply eqb_refl]. Qed.
End Hole.

Lemma add_view_ok v k : exists k', add_view v k = Ok k'.
Proof. unfold add_view. destruct (insert_ok (view_key v) v (k_views k)) as (o & E). rewrite E. cbn [bind]. eauto. Qed.
(** registering a view after a change [f] of the selections of the clients *)
Lemma add_view_gen (P Q : text -> Prop) (f : client -> client) v k k' : safe P k -> view_wf v -> whole_view v -> (forall b, shows v b -> open k b) ->
  add_view v (set_cmap k (map_vals (fun _ => f) (cmap k))) = Ok k' ->
  (forall c, c_view (f c) = c_view c) -> (forall c, client_uniq c -> client_uniq (f c)) ->
  (forall id c, get (cmap k) id = Some c ->
     (forall key m, key <> view_key v -> get (c_sels (f c)) key = Some m -> get (c_sels c) key = Some m) /\
     (forall key, key <> view_key v -> Q key -> listed k key -> In key (keys (c_sels (f c)))) /\
     (forall m b, get (c_sels (f c)) (view_key v) = Some m -> In b (keys m) -> shows v b) /\
     sels_fine (k_buffers k) (f c)) ->
  safe Q k'.
Proof.
  intros S W Wh O E Fv Fu HF.
  assert (inv (set_cmap k (map_vals (fun _ => f) (cmap k)))) as I1.
  { apply map_clients_inv; [apply S| |auto]. intros id c. apply Fu. }
  pose proof (add_view_inv v _ k' E W O I1) as I'. pose proof (add_view_vmap _ _ _ E) as Ev. change (vmap (set_cmap _ _)) with (vmap k) in Ev.
  pose proof (add_view_cmap _ _ _ E) as Ec. change (cmap (set_cmap _ _)) with (map_vals (fun (_ : nat) => f) (cmap k)) in Ec.
  pose proof (add_view_buffers _ _ _ E) as Eb. change (k_buffers (set_cmap _ _)) with (k_buffers k) in Eb. pose proof (add_view_eq _ _ _ E) as Ek.
  assert (forall key u, get (vmap k') key = Some u -> (key = view_key v /\ u = v) \/ (key <> view_key v /\ get (vmap k) key = Some u)) as Hv.
  { intros key u. rewrite Ev, get_set. destruct (eqb key (view_key v)) eqn:Q0; [|apply eqb_neq in Q0; auto]. apply eqb_ok in Q0. intro X. inversion X; subst u. auto. }
  assert (forall key, listed k' key <-> key = view_key v \/ listed k key) as Hl. { intro key. unfold listed. rewrite Ev. apply in_keys_set. }
  assert (forall id c, get (cmap k') id = Some c -> exists c0, get (cmap k) id = Some c0 /\ c = with_view v (f c0)) as Hc.
  { intros id c. rewrite Ec, !get_map_vals. destruct (get (cmap k) id); [|discriminate]. intro X. inversion X. eauto. }
  split; auto.
  - rewrite Eb. apply S.
  - intros key u Y. apply Hv in Y. destruct Y as [[_ ->]|[_ Y]]; auto. eapply sf_views; eauto.
  - intros key L. apply Hl in L. rewrite Ek. simpl. destruct (eqb_dec key (view_key v)) as [->|N]; [now left|]. right. destruct L as [L|L]; [congruence|].
    apply remove_first_in; [apply (sf_inv _ _ S)|]. split; auto. now apply (sf_stack _ _ S).
  - exists (view_key v). apply Hl. auto.
  - intros id c Y. apply Hc in Y. destruct Y as (c0 & Y & ->). cbn [with_view c_view]. rewrite Fv, Ev, get_set. pose proof (sf_cur _ _ S _ _ Y) as Cu.
    destruct (eqb (view_key (c_view c0)) (view_key v)) eqn:Q0; auto. apply eqb_ok in Q0. rewrite Q0 in Cu. f_equal. symmetry.
    eapply key_same; eauto.
  - intros id c key Y. apply Hc in Y. destruct Y as (c0 & Y & ->). rewrite with_view_keys, Hl. destruct (HF id c0 Y) as (H1 & H2 & _). split.
    + intros [X|X]; auto. destruct (eqb_dec key (view_key v)) as [|N]; auto. right. apply get_some in X. destruct X as (m & X). apply H1 in X; auto.
      apply (sf_keys _ _ S id c0 key Y). apply get_some. eauto.
    + intros [L|L] Hq; auto. destruct (eqb_dec key (view_key v)) as [|N]; auto.
  - intros id c key m u b Y Ym Yv. apply Hc in Y. destruct Y as (c0 & Y & ->). destruct (HF id c0 Y) as (H1 & _ & H3 & _). apply Hv in Yv. apply with_view_get in Ym.
    destruct Ym as [[N Ym]|[-> Ym]].
    + destruct Yv as [[X _]|[_ Yv]]; [congruence|]. apply H1 in Ym; auto. eapply sf_sels; eauto.
    + destruct Yv as [[_ ->]|[X _]]; [|congruence]. rewrite <- has_in. unfold has. rewrite Ym.
      assert ((if existsb (eqb b) (keys v) then Some [sel_new] else None) = None <-> ~ shows v b) as Z.
      { unfold shows. rewrite <- existsb_in. destruct (existsb (eqb b) (keys v)); split; congruence. }
      destruct (get (c_sels (f c0)) (view_key v)) as [m0|] eqn:Em0.
      * destruct (get m0 b) as [x|] eqn:Gb.
        { split; [|tauto]. intros _. eapply H3; eauto. eapply get_key_in; eauto. }
        destruct (existsb (eqb b) (keys v)) eqn:Y2; [apply existsb_in in Y2; unfold shows; tauto|]. split; [discriminate|]. intro. apply existsb_in in H. congruence.
      * destruct (existsb (eqb b) (keys v)) eqn:Y2; [apply existsb_in in Y2; unfold shows; tauto|]. split; [discriminate|]. intro. apply existsb_in in H. congruence.
  - intros id c Y. apply Hc in Y. destruct Y as (c0 & Y & ->). destruct (HF id c0 Y) as (H1 & _ & H3 & H4). rewrite Eb. intros key m b ss u Y1 Y2 Y3. apply with_view_get in Y1.
    destruct Y1 as [[N Y1]|[-> Y1]]; [eapply H4; eauto|]. rewrite Y1 in Y2.
    destruct (match get (c_sels (f c0)) (view_key v) with Some m0 => get m0 b | None => None end) as [x|] eqn:Z.
    + inversion Y2; subst. destruct (get (c_sels (f c0)) (view_key v)) as [m0|] eqn:Em0; [|discriminate]. eapply H4; eauto.
    + destruct (existsb _ _); [|discriminate]. inversion Y2; subst. apply lone_new. apply (sf_bufs _ _ S _ _ Y3).
Qed.
Lemma add_view_safe (P Q : text -> Prop) v k k' : safe P k -> view_wf v -> whole_view v -> (forall b, shows v b -> open k b) -> add_view v k = Ok k' ->
  (forall key, Q key -> key = view_key v \/ P key) -> safe Q k'.
Proof.
  intros S W Wh O E HQ. apply (add_view_gen P Q (fun c => c) v k k'); auto.
  - replace (map_vals (fun (_ : nat) (c : client) => c) (cmap k)) with (cmap k).
    + replace (set_cmap k (cmap k)) with k; auto. destruct k as [? [] ? ? ?]; reflexivity.
    + unfold map_vals. symmetry. rewrite <- (map_id (cmap k)) at 2. apply map_ext. now intros [].
  - intros id c Ec. destruct (sf_keys _ _ S id c (view_key v) Ec) as [K1 _]. split; [auto|]. split.
    + intros key N Hq L. apply (sf_keys _ _ S id c key Ec); auto. destruct (HQ _ Hq); [congruence|auto].
    + split; [|exact (sf_fine _ _ S _ _ Ec)]. intros m b Em Hb. assert (listed k (view_key v)) as L by (apply K1, get_some; eauto).
      apply get_some in L. destruct L as (u & Eu). assert (u = v) as -> by (eapply key_same; eauto). exact (proj1 (sf_sels _ _ S _ _ _ _ _ _ Ec Em Eu) Hb).
Qed.

Definition full : text -> Prop := fun _ => True.
Lemma whole_wf b : view_wf (whole b).
Proof. rewrite <- for_buffer_whole. apply view_wf_for. Qed.
Lemma whole_whole b : whole_view (whole b).
Proof. repeat constructor. discriminate. Qed.
Lemma shows_whole b c : shows (whole b) c <-> c = b.
Proof. rewrite <- for_buffer_whole. apply shows_for. Qed.
Lemma good_str s : forallb (fun b => (b <? 128) && negb (b =? 13) && negb (b =? 123)) (str s) = true -> good_name (str s).
Proof.
  intro H. rewrite forallb_forall in H. split.
  - apply plain_str. apply forallb_forall. intros b Hb. apply H in Hb. apply andb_prop in Hb. tauto.
  - intro Hb. apply H in Hb. discriminate.
Qed.

(** showing an open buffer whole: the end of an edit *)
Lemma show_buffer_safe G k id name (notify : bool) : safe full k -> connected k id -> open k name -> good_name name ->
  exists k', (k <- add_view (for_buffer name) k ;; '(e, k) <- view_cmd G id (view_key (for_buffer name)) k ;;
    match e with
    | Some _ => Panic "set view after edit"
    | None => k <- debug G (str "edit: " ++ name) k ;;
        if notify then notify_view_update G (filter (fun i => negb (i =? id)) (clients_with_buffer k name)) k else Ok k
    end) = Ok k' /\ safe full k'.
Proof.
  intros S C O Gn. rewrite for_buffer_whole. destruct (add_view_ok (whole name) k) as (k1 & E1). rewrite E1. cbn [bind].
  assert (safe full k1) as S1.
  { eapply add_view_safe; eauto using whole_wf, whole_whole. intros b Hb. apply shows_whole in Hb. now subst. }
  destruct (view_safe full G k1 id (view_key (whole name)) S1) as (k2 & E2 & S2 & B2 & V2 & C2 & _).
  { unfold connected. rewrite (add_view_cmap _ _ _ E1), keys_map_vals. exact C. }
  { unfold listed. rewrite (add_view_vmap _ _ _ E1). apply in_keys_set. auto. }
  rewrite E2. cbn [bind]. destruct (debug_safe full G (str "edit: " ++ name) k2 S2) as (k3 & E3 & S3 & C3 & V3 & _).
  { apply plain_app; [apply plain_str; reflexivity|apply Gn]. }
  rewrite E3. cbn [bind]. destruct notify; [|eauto]. apply safe_notify'; auto. intros i Hi. apply filter_In in Hi. destruct Hi as [Hi _].
  unfold clients_with_buffer in Hi. destruct (negb _); [destruct Hi|]. apply in_map_iff in Hi. destruct Hi as ((j & c) & <- & Hi). apply filter_In in Hi.
  unfold connected. change (In (fst (j, c)) (map fst (cmap k3))). apply in_map. tauto.
Qed.
Lemma edit_safe G pol d id name scratch k : safe full k -> tame d k (CEdit id name scratch) ->
  exists k', edit_cmd G pol d id name scratch k = Ok k' /\ safe full k'.
Proof.
  intros S T. assert (connected k id /\ good_name name) as [C Gn] by (destruct scratch; cbn [tame] in T; tauto). unfold edit_cmd.
  assert (forall u, buffer_exists k name = false -> good_buf u -> safe full (set_buffers k (set (k_buffers k) name u))) as Hnew.
  { intros u X Gu. apply set_buffer_safe; auto. apply (closed_unshown full); auto. now apply has_not_in. }
  assert (forall u, open (set_buffers k (set (k_buffers k) name u)) name) as Ho.
  { intro u. unfold open. cbn [k_buffers set_buffers]. apply in_keys_set. auto. }
  destruct scratch.
  - cbn [bind]. destruct (buffer_exists k name) eqn:X.
    + apply (show_buffer_safe G _ id name false); auto. now apply has_in in X.
    + unfold open_scratch. apply (show_buffer_safe G _ id name false); auto. apply Hnew; auto. apply good_scratch; auto. split; [constructor|tauto].
  - cbn [tame] in T. destruct T as (_ & _ & T). destruct (buffer_exists k name) eqn:X.
    + pose proof X as X'. unfold buffer_exists, has in X'. destruct (get (k_buffers k) name) as [u|] eqn:Eu; [|discriminate]. cbn [unwrap bind].
      assert (set (k_buffers k) name u = k_buffers k) as Eset.
      { clear -Eu. induction (k_buffers k) as [|[n w] r IH]; [discriminate|]. cbn [get set] in *. destruct (eqb name n) eqn:Q.
        - apply eqb_ok in Q. inversion Eu. now subst.
        - now rewrite IH. }
      assert (load_from_disk pol d u = Ok (match b_source u with SScratch _ => true | SFile _ => false end, u)) as ->.
      { unfold load_from_disk. destruct (b_source u) eqn:Es; auto. now rewrite T. }
      cbn [bind]. rewrite Eset. replace (set_buffers k (k_buffers k)) with k by now destruct k.
      assert (open k name) as O by now apply has_in in X.
      destruct (b_source u); cbn [bind].
      * destruct (debug_safe full G (str "reloaded from disk: " ++ name) k S) as (k1 & -> & S1 & C1 & V1 & _ & A1).
        { apply plain_app; [apply plain_str; reflexivity|apply Gn]. }
        cbn [bind]. apply (show_buffer_safe G _ id name true); auto; [unfold connected, cmap; now rewrite C1|]. apply (append_keys _ _ _ _ _ A1). auto.
      * apply (show_buffer_safe G _ id name false); auto.
    + assert (get (k_buffers k) name = None) as En. { unfold buffer_exists, has in X. destruct (get (k_buffers k) name); congruence. }
      rewrite En in T. destruct T as (content & R & Pc). destruct (good_file d _ content R Pc) as (u & Eu & Gu). unfold open_file. rewrite Eu. cbn [bind].
      apply (show_buffer_safe G _ id name true); auto.
Qed.

(** ** moving and inspecting *)
Lemma mapM_ex {A B} (f : A -> res B) (R : A -> B -> Prop) l : (forall a, In a l -> exists b, f a = Ok b /\ R a b) ->
  exists m, mapM f l = Ok m /\ Forall2 R l m.
Proof.
  induction l as [|a l IH]; intro H; cbn [mapM]; [eauto|]. destruct (H a (or_introl eq_refl)) as (b & E & Rb).
  destruct IH as (m & Em & Fm). { intros x Hx. apply H. now right. } rewrite E. cbn [bind]. rewrite Em. cbn [bind]. eauto.
Qed.
Lemma move_one G t d ext s : acc t -> ascii (txt t) -> terminated (txt t) = true -> fine (txt t) s -> motion_ok (txt t) d (s_cursor s) ->
  exists s', sel_move G t d ext s = Ok s' /\ fine (txt t) s'.
Proof.
  intros A As T [[F1 F2] F3] M. destruct (term_nonempty _ T) as [NE _]. destruct (move_total G t A As NE T d ext s F2 F3 M) as (s' & E & (S1 & S2 & _) & S4).
  exists s'. split; auto. split; auto. split; auto. rewrite S4. now destruct ext.
Qed.
Lemma client_sels k id c : safe full k -> get (cmap k) id = Some c -> exists m, get (c_sels c) (view_key (c_view c)) = Some m /\
  forall b ss, In (b, ss) m -> exists u, get (k_buffers k) b = Some u /\ good_buf u /\ lone (txt (b_content u)) ss /\ get m b = Some ss.
Proof.
  intros S Ec. pose proof (sf_cur _ _ S _ _ Ec) as Cu. assert (listed k (view_key (c_view c))) as L by (eapply get_key_in; eauto).
  apply (sf_keys _ _ S _ _ _ Ec) in L; [|exact Logic.I]. apply get_some in L. destruct L as (m & Em). exists m. split; auto. intros b ss Hb.
  destruct (cmap_open full k id c S Ec) as [_ U]. assert (get m b = Some ss) as Gb by (apply get_uniq; eauto).
  assert (open k b) as O. { eapply safe_sels_open; eauto. eapply get_key_in; eauto. }
  apply get_some in O. destruct O as (u & Eu). exists u. split; auto. split; [apply (sf_bufs _ _ S _ _ Eu)|]. split; auto. eapply sf_fine; eauto.
Qed.
Lemma move_safe G k id d ext : safe full k -> tame (mkDisk (fun _ => None) (fun _ => None) 0) k (CMove id d ext) -> exists k', move_cursor G id d ext k = Ok k' /\ safe full k'.
Proof.
  intros S [C M]. apply get_some in C. destruct C as (c & Ec). destruct (client_sels k id c S Ec) as (m & Em & Hm).
  unfold move_cursor, the_client. rewrite Ec. cbn [unwrap bind]. rewrite Em. cbn [unwrap bind].
  destruct (mapM_ex (fun e => b <- unwrap (get (k_buffers k) (fst e)) "no entry found for key" ;; ss <- buffer_move G (b_content b) d ext (snd e) ;; Ok (fst e, ss))
    (fun e e' => fst e' = fst e /\ forall u, get (k_buffers k) (fst e) = Some u -> lone (txt (b_content u)) (snd e')) m) as (m' & Em' & Fm').
  { intros [b ss] Hb. cbn [fst snd]. destruct (Hm b ss Hb) as (u & Eu & (A & [As _] & T) & F & Gb). rewrite Eu. cbn [unwrap bind]. unfold buffer_move.
    destruct (pt_len (b_content u) =? 1).
    - cbn [bind]. eexists. split; [reflexivity|]. cbn [fst snd]. split; auto. intros u' X. inversion X; subst. exact F.
    - destruct (mapM_ex (sel_move G (b_content u) d ext) (fun _ s' => fine (txt (b_content u)) s') ss) as (ss' & E' & F').
      + intros s Hs. destruct F as [_ F]. rewrite Forall_forall in F. apply move_one; auto. apply (M (c_view c) b ss s); auto.
        * exists c. auto.
        * unfold sels_in. now rewrite Ec, Em.
        * unfold text_of. now rewrite Eu.
      + rewrite E'. cbn [bind]. eexists. split; [reflexivity|]. cbn [fst snd]. split; auto. intros u' X. inversion X; subst u'.
        split; [replace (length ss') with (length ss); [apply F|clear -F'; induction F'; cbn [length]; auto]|]. clear -F'. induction F'; constructor; auto. }
  rewrite Em'. cbn [bind]. set (k1 := set_cmap k _).
  assert (keys m' = keys m) as Km. { clear -Fm'. unfold keys. induction Fm' as [|e e' m m' [H _] _ IH]; cbn [map]; congruence. }
  assert (safe full k1) as S1.
  { destruct (cmap_open full k id c S Ec) as [U1 U2]. unfold k1. eapply set_client_safe; eauto.
    - exact (sf_cur _ _ S _ _ Ec).
    - split; cbn [c_sels]; [now apply uniq_set|]. intros key mm. rewrite get_set. destruct (eqb key (view_key (c_view c))); [|apply U2].
      intro X. inversion X; subst mm. unfold uniq. rewrite Km. eapply U2; eauto.
    - cbn [c_sels]. rewrite keys_set. unfold has. now rewrite Em.
    - intros key mm v b. cbn [c_sels]. rewrite get_set. destruct (eqb key (view_key (c_view c))) eqn:Q; [|intros; eapply sf_sels; eauto].
      apply eqb_ok in Q. subst key. intros X Ev. inversion X; subst mm. rewrite Km. exact (sf_sels _ _ S _ _ _ _ _ _ Ec Em Ev).
    - intros key mm b ss u. cbn [c_sels]. rewrite get_set. destruct (eqb key (view_key (c_view c))) eqn:Q; [|intros; eapply sf_fine; eauto].
      intros X Y Z. inversion X; subst mm. apply get_in in Y. clear -Fm' Y Z. induction Fm' as [|e e' m m' [H1 H2] _ IH]; [destruct Y|].
      destruct Y as [->|Y]; auto. cbn [fst snd] in *. subst b. now apply H2. }
  destruct (negb _); [|eauto]. apply safe_notify'; auto. intros i [<-|[]]. unfold k1. apply set_connected. auto.
Qed.
Lemma context_ok G k id : safe full k -> connected k id -> exists r, get_context G id k = Ok r.
Proof.
  intros S C. apply get_some in C. destruct C as (c & Ec). destruct (client_sels k id c S Ec) as (m & Em & Hm).
  unfold get_context, the_client. rewrite Ec. cbn [unwrap bind]. rewrite Em. cbn [unwrap bind].
  match goal with |- context [mapM ?f m] => destruct (mapM_ex f (fun _ _ => True) m) as (ds & E & _) end; [|rewrite E; cbn [bind]; eauto].
  intros [b ss] Hb. cbn [fst snd]. destruct (Hm b ss Hb) as (u & Eu & (A & [As _] & T) & F & _). rewrite Eu.
  match goal with |- context [mapM ?f ss] => destruct (mapM_ex f (fun _ _ => True) ss) as (ds & E & _) end; [|rewrite E; cbn [bind]; eauto].
  intros s Hs. destruct F as [_ F]. rewrite Forall_forall in F. destruct (F s Hs) as [[Ha Hc] _]. destruct (term_nonempty _ T) as [NE _].
  rewrite (nav_coords G _ A As) by auto. cbn [bind unwrap]. rewrite (nav_coords G _ A As) by auto. cbn [bind unwrap].
  rewrite selection_range_ok by auto. cbn [bind]. pose proof A as [W N]. pose proof W as ((Co & _) & _).
  destruct (get_node_in 0 (t_pieces (b_content u)) (min (s_anchor s) (s_cursor s)) Co) as (pre & p & post & Gn). { rewrite <- txt_length by apply W. lia. }
  rewrite Gn. rewrite sub_ok by lia. cbn [bind]. unfold pt_text_range. rewrite range_spec by auto. cbn [bind]. eauto.
Qed.

(** ** coming and going *)
Lemma latest_client k : inv k -> sm_latest (k_clients k) = None -> forall j, ~ connected k j.
Proof.
  intros I E j C. apply (i_cin _ (i_0 _ I)) in C. unfold sm_latest in E. destruct (sm_stack (k_clients k)); [destruct C|discriminate].
Qed.
Lemma latest_view k : safe full k -> exists key v, sm_latest_value (k_views k) = Some v /\ get (vmap k) key = Some v /\ view_key v = key.
Proof.
  intro S. destruct (sf_some _ _ S) as (key0 & L0). apply (sf_stack _ _ S) in L0. unfold sm_latest_value.
  destruct (sm_stack (k_views k)) as [|key r] eqn:Es; [destruct L0|]. cbn [nth_error].
  assert (listed k key) as L. { apply (i_vin _ (i_0 _ (sf_inv _ _ S))). rewrite Es. now left. }
  apply get_some in L. destruct L as (v & Ev). exists key, v. split; [exact Ev|]. split; [exact Ev|]. apply (i_key _ (i_0 _ (sf_inv _ _ S)) _ _ Ev).
Qed.
Lemma client_join_safe k id c o m : safe full k -> get (vmap k) (view_key (c_view c)) = Some (c_view c) -> client_uniq c ->
  (forall key, In key (keys (c_sels c)) <-> listed k key) ->
  (forall key m v b, get (c_sels c) key = Some m -> get (vmap k) key = Some v -> (In b (keys m) <-> shows v b)) ->
  sels_fine (k_buffers k) c -> sm_insert id c (k_clients k) = Ok (o, m) -> safe full (set_clients k m).
Proof.
  intros S Ev U K X F E. destruct (insert_ok id c (k_clients k)) as [o' E']. rewrite E' in E. inversion E; subst; clear E E'.
  pose proof (sf_inv _ _ S) as I.
  assert (inv (set_clients k (mkSM (id :: remove_first id (sm_stack (k_clients k))) (set (sm_map (k_clients k)) id c)))) as I'.
  { destruct I as [I0 Io Il]. destruct (i_key _ I0 _ _ Ev) as [_ W]. split.
    - pose proof (i_cin _ I0) as Ci. pose proof (i_cl _ I0) as Cl. destruct I0. split; auto; unfold connected in *; unfold cmap; simpl.
      + now apply uniq_set.
      + constructor; [|now apply remove_first_nodup]. rewrite remove_first_in by auto. tauto.
      + intro x. rewrite in_keys_set, remove_first_in by auto. rewrite Ci. change (sm_map (k_clients k)) with (cmap k).
        destruct (eqb_dec x id) as [->|N]; [split; auto|]. split; intros [Y|Y]; try congruence; try tauto; right; tauto.
      + intros i e. change (sm_map (k_clients k)) with (cmap k). rewrite get_set. destruct (eqb i id); [intro Y; inversion Y; subst; auto|apply Cl].
    - exact Io.
    - intros i v (e & Y & Z). unfold cmap in Y. simpl in Y. change (sm_map (k_clients k)) with (cmap k) in Y. rewrite get_set in Y. destruct (eqb i id).
      + inversion Y; subst. exact (get_key_in _ _ _ Ev).
      + apply (Il i). exists e. auto. }
  assert (forall j e, get (set (cmap k) id c) j = Some e -> e = c \/ get (cmap k) j = Some e) as H.
  { intros j e. rewrite get_set. destruct (eqb j id); auto. intro Y. inversion Y. auto. }
  split; auto; try apply S; cbn [k_buffers set_clients]; unfold cmap; cbn [k_clients set_clients sm_map]; change (sm_map (k_clients k)) with (cmap k).
  - intros j e Y. apply H in Y. destruct Y as [->|Y]; auto. exact (sf_cur _ _ S _ _ Y).
  - intros j e key Y. apply H in Y. destruct Y as [->|Y]; [|exact (sf_keys _ _ S _ _ key Y)]. split; [apply K|intros L _; now apply K].
  - intros j e key m v b Y Ym Yv. apply H in Y. destruct Y as [->|Y]; [exact (X _ _ _ _ Ym Yv)|exact (sf_sels _ _ S _ _ _ _ _ _ Y Ym Yv)].
  - intros j e Y. apply H in Y. destruct Y as [->|Y]; auto. exact (sf_fine _ _ S _ _ Y).
Qed.
Lemma join_safe G k id : safe full k -> ((exists j, connected k j) \/ (exists key, forall key', listed k key' -> key' = key)) ->
  exists k', add_client G id k = Ok k' /\ safe full k'.
Proof.
  intros S H. unfold add_client.
  assert (exists c, (match sm_latest (k_clients k) with
      | Some c => the_client k c
      | None => v <- unwrap (sm_latest_value (k_views k)) "called Option::unwrap on None" ;; Ok (mkCl v [(view_key v, fresh_sels v)])
      end) = Ok c /\ get (vmap k) (view_key (c_view c)) = Some (c_view c) /\ client_uniq c /\
      (forall key, In key (keys (c_sels c)) <-> listed k key) /\
      (forall key m v b, get (c_sels c) key = Some m -> get (vmap k) key = Some v -> (In b (keys m) <-> shows v b)) /\
      sels_fine (k_buffers k) c) as (c & Ec & X1 & X2 & X3 & X4 & X5).
  { destruct (sm_latest (k_clients k)) as [j|] eqn:El.
    - assert (connected k j) as C. { apply (i_cin _ (i_0 _ (sf_inv _ _ S))). unfold sm_latest in El. now apply nth_error_In in El. }
      apply get_some in C. destruct C as (c & Ec). exists c. unfold the_client. rewrite Ec. split; auto. split; [exact (sf_cur _ _ S _ _ Ec)|].
      split; [exact (cmap_open _ _ _ _ S Ec)|]. split.
      { intro key. destruct (sf_keys _ _ S _ _ key Ec) as [K1 K2]. split; auto. intro L. apply K2; auto. exact Logic.I. }
      split; [intros key m v b; exact (sf_sels _ _ S _ _ key m v b Ec)|exact (sf_fine _ _ S _ _ Ec)].
    - pose proof (latest_client k (sf_inv _ _ S) El) as NC. destruct H as [[j C]|[key0 H]]; [destruct (NC _ C)|].
      destruct (latest_view k S) as (key & v & Lv & Ev & Kv). rewrite Lv. cbn [unwrap bind]. eexists. split; [reflexivity|]. cbn [c_view c_sels].
      destruct (i_key _ (i_0 _ (sf_inv _ _ S)) _ _ Ev) as [_ W]. rewrite Kv. split; [exact Ev|].
      assert (forall q mm, get [(key, fresh_sels v)] q = Some mm -> q = key /\ mm = fresh_sels v) as Q.
      { intros q mm. cbn [get]. destruct (eqb q key) eqn:Y; [|intro Z; discriminate Z]. apply eqb_ok in Y. intro Z. inversion Z. auto. }
      assert (listed k key) as L by exact (get_key_in _ _ _ Ev).
      assert (forall b, In b (keys (fresh_sels v)) <-> shows v b) as Kf.
      { intro b. unfold fresh_sels, shows, keys, view_buffers. rewrite map_map. cbn [fst]. unfold keys. now rewrite map_id. }
      split; [split; [repeat constructor; intros []|]|].
      { intros q mm Y. apply Q in Y. destruct Y as [_ ->]. now apply fresh_uniq. }
      split. { intro q. cbn. split; [intros [<-|[]]; exact L|]. intro Lq. left. rewrite (H q Lq). now apply H. }
      split. { intros q mm u b Y Z. apply Q in Y. destruct Y as [-> ->]. rewrite Ev in Z. inversion Z; subst u. apply Kf. }
      intros q mm b ss u Y Z Eu. apply Q in Y. destruct Y as [-> ->]. apply get_in in Z. unfold fresh_sels in Z. apply in_map_iff in Z.
      destruct Z as (b' & Z & _). inversion Z; subst. apply lone_new. apply (sf_bufs _ _ S _ _ Eu). }
  rewrite Ec. cbn [bind]. destruct (insert_ok id c (k_clients k)) as [o Ei]. rewrite Ei. cbn [bind].
  pose proof (client_join_safe k id c _ _ S X1 X2 X3 X4 X5 Ei) as S1.
  destruct (debug_safe full G (str "new client: " ++ dec id) _ S1) as (k2 & E2 & S2 & _).
  { apply plain_app; [apply plain_str; reflexivity|apply plain_dec]. }
  rewrite E2. cbn [bind]. eexists. split; [reflexivity|]. eapply safe_same; [apply emit_same|exact S2].
Qed.
Lemma leave_safe G k id : safe full k -> exists k', remove_client G id k = Ok k' /\ safe full k'.
Proof.
  intro S. unfold remove_client.
  assert (safe full (set_clients k (snd (sm_remove id (k_clients k))))) as S1.
  { pose proof (remove_client_inv0 k id (sf_inv _ _ S)) as I'. unfold sm_remove in *. destruct (existsb _ _) eqn:X; cbn [snd] in *.
    2:{ replace (set_clients k (k_clients k)) with k by (now destruct k). exact S. }
    assert (forall j e, get (del (cmap k) id) j = Some e -> get (cmap k) j = Some e) as H.
    { intros j e. rewrite get_del. destruct (eqb j id); auto. discriminate. }
    split; auto; try apply S; cbn [k_buffers set_clients]; unfold cmap; cbn [k_clients set_clients sm_map]; change (sm_map (k_clients k)) with (cmap k).
    - intros j e Y. apply H in Y. exact (sf_cur _ _ S _ _ Y).
    - intros j e key Y. apply H in Y. exact (sf_keys _ _ S _ _ key Y).
    - intros j e key m v b Y Ym Yv. apply H in Y. exact (sf_sels _ _ S _ _ _ _ _ _ Y Ym Yv).
    - intros j e Y. apply H in Y. exact (sf_fine _ _ S _ _ Y). }
  destruct (debug_safe full G (str "client left: " ++ dec id) _ S1) as (k2 & E2 & S2 & _); [|eauto].
  apply plain_app; [apply plain_str; reflexivity|apply plain_dec].
Qed.

(** ** deleting views *)
Definition shown_in (m : amap text view) (b : text) : Prop := exists key u, get m key = Some u /\ shows u b.
Record dropping (k : core) : Prop := {
  dr_bufs : bufs_good (k_buffers k);
  dr_uc : uniq (cmap k);
  dr_uv : uniq (vmap k);
  dr_open : forall b, shown_in (vmap k) b -> open k b;
  dr_fine : forall id c, get (cmap k) id = Some c -> sels_fine (k_buffers k) c;
  dr_view : forall id c, get (cmap k) id = Some c -> shows (c_view c) b_debug -> view_fine (k_buffers k) (c_view c);
  dr_sels : forall id c key m b, get (cmap k) id = Some c -> get (c_sels c) key = Some m -> In b (keys m) -> shown_in (vmap k) b }.
Lemma drop_progress G bs : forall k, dropping k -> Forall good_name bs ->
  (forall b id c, In b bs -> get (cmap k) id = Some c -> shows (c_view c) b_debug -> shows (c_view c) b -> b = b_debug \/ shown_in (vmap k) b) ->
  exists k', drop_buffers G bs k = Ok k' /\ dropping k' /\ k_clients k' = k_clients k /\ k_views k' = k_views k.
Proof.
  induction bs as [|b bs IH]; intros k D Gn H; cbn [drop_buffers]; [eauto 10|]. inversion Gn; subst.
  destruct (existsb (fun e => contains_buffer (snd e) b) (vmap k)) eqn:X.
  { apply IH; auto. intros x id c Hx. apply H. now right. }
  assert (~ shown_in (vmap k) b) as NS.
  { intro Y. apply (shown_by_spec (vmap k) b (dr_uv _ D)) in Y. unfold shown_by in Y. congruence. }
  assert (forall bufs', append_bufs b_debug ((str "delete buffer: " ++ b) ++ [LF]) (del (k_buffers k) b) bufs' ->
    (forall id c, get (cmap k) id = Some c -> sels_fine bufs' c) /\
    (forall id c, get (cmap k) id = Some c -> shows (c_view c) b_debug -> view_fine bufs' (c_view c))) as HB.
  { intros bufs' A. split.
    - intros id c Ec key m x ss u E1 E2 E3. assert (shown_in (vmap k) x) as Sx. { apply (dr_sels _ D id c key m x Ec E1). eapply get_key_in; eauto. }
      assert (x <> b) as N by (intros ->; auto).
      destruct A as (w & -> & Gw & Hw). rewrite get_set in E3. destruct (eqb x b_debug) eqn:Q.
      + apply eqb_ok in Q. subst x. inversion E3; subst w. rewrite get_del_other in Hw by auto. apply (dr_open _ D) in Sx. apply get_some in Sx.
        destruct Sx as (u0 & E0). rewrite E0 in Hw. rewrite Hw. apply lone_app. eapply dr_fine; eauto.
      + rewrite get_del_other in E3 by auto. eapply dr_fine; eauto.
    - intros id c Ec Hs. destruct (dr_view _ D id c Ec Hs) as [Vw Vo]. split; auto. intros x Hx. apply (append_keys _ _ _ _ _ A). rewrite in_keys_del.
      destruct (eqb_dec x b_debug) as [|N]; auto. right. split; auto. intros ->. destruct (H b id c (or_introl eq_refl) Ec Hs Hx); [congruence|auto]. }
  destruct (append_progress G b_debug ((str "delete buffer: " ++ b) ++ [LF]) (set_buffers k (del (k_buffers k) b))) as (k1 & E1 & A1 & C1 & V1 & _ & B1).
  - intros x u. cbn [k_buffers set_buffers]. rewrite get_del. destruct (eqb x b); [discriminate|]. apply D.
  - apply good_debug.
  - apply plain_app; [|apply plain_lf]. apply plain_app; [apply plain_str; reflexivity|apply H2].
  - apply term_lf.
  - apply D.
  - intros bufs' A id c Ec Hs. destruct (HB bufs' A) as [Q1 Q2]. split; [eapply Q2|eapply Q1]; eauto.
  - unfold debug. rewrite E1. cbn [bind]. cbn [k_buffers set_buffers] in A1. destruct (HB _ A1) as [Q1 Q2].
    assert (cmap k1 = cmap k) as Cm by (unfold cmap; now rewrite C1). assert (vmap k1 = vmap k) as Vm by (unfold vmap; now rewrite V1).
    destruct (IH k1) as (k' & E' & D' & C' & V').
    + destruct D. split; rewrite ?Cm, ?Vm; auto. intros x Sx. apply (append_keys _ _ _ _ _ A1). rewrite in_keys_del. right. split; [now apply dr_open0|].
      intros ->. auto.
    + auto.
    + intros x id c Hx. rewrite Cm, Vm. apply H. now right.
    + exists k'. split; auto. split; auto. rewrite C', V', C1, V1. auto.
Qed.

Lemma delete_safe G k id v j c0 : safe (fun key => key <> id) k -> get (vmap k) id = Some v -> get (cmap k) j = Some c0 -> view_key (c_view c0) = id ->
  deletable k v -> exists k', delete_view G id k = Ok (None, k') /\ safe full k'.
Proof.
  intros S Ev Ej Kj [(key0 & L0 & N0) Hd]. pose proof (sf_inv _ _ S) as I. pose proof (i_0 _ I) as I0.
  destruct (i_key _ I0 _ _ Ev) as [Kv Wv]. rewrite Kv in N0. unfold shown_elsewhere in Hd. rewrite Kv in Hd.
  assert (listed k id) as Lid by exact (get_key_in _ _ _ Ev).
  unfold delete_view, view_exists. rewrite (proj2 (has_in _ _) Lid). cbn [negb]. unfold sm_remove.
  assert (existsb (fun x => eqb x id) (sm_stack (k_views k)) = true) as Xs.
  { apply existsb_exists. exists id. split; [now apply (sf_stack _ _ S)|apply eqb_refl]. }
  rewrite Xs. unfold vmap in Ev. rewrite Ev. fold (vmap k) in Ev. cbn [unwrap bind].
  set (k0 := set_views k (mkSM (remove_first id (sm_stack (k_views k))) (del (sm_map (k_views k)) id))).
  assert (bufs_good (k_buffers k)) as Bg by apply S.
  (* the first log line *)
  assert (forall bufs', append_bufs b_debug ((str "delete view: " ++ id) ++ [LF]) (k_buffers k) bufs' ->
     (forall i c, get (cmap k) i = Some c -> sels_fine bufs' c) /\
     (forall i c, get (cmap k) i = Some c -> view_fine bufs' (c_view c))) as HB.
  { intros bufs' A. split.
    - intros i c Ec key m b ss w E1 E2 E3. assert (open k b) as O. { eapply safe_sels_open; eauto. eapply get_key_in; eauto. }
      destruct (eqb_dec b b_debug) as [->|N].
      + refine (append_sels _ _ _ _ c A Bg O (sf_fine _ _ S _ _ Ec) key m b_debug ss w E1 E2 E3).
      + destruct A as (u & -> & _). rewrite get_set_other in E3 by auto. eapply sf_fine; eauto.
    - intros i c Ec. pose proof (sf_cur _ _ S _ _ Ec) as Cu. destruct (safe_view_fine _ _ _ _ S Cu) as [V1 V2]. split; auto.
      intros b Hb. apply (append_keys _ _ _ _ _ A). auto. }
  destruct (append_progress G b_debug ((str "delete view: " ++ id) ++ [LF]) k0) as (k1 & E1 & A1 & C1 & V1 & W1 & B1); auto.
  { apply good_debug. }
  { apply plain_app; [|apply plain_lf]. apply plain_app; [apply plain_str; reflexivity|]. rewrite <- Kv. apply (view_key_plain v).
    intros b Hb. apply (open_plain _ _ _ S). exact (i_open _ I _ _ _ Ev Hb). }
  { apply term_lf. }
  { apply I0. }
  { intros bufs' A i c Ec Hs. destruct (HB bufs' A) as [Q1 Q2]. split; [eapply Q2|eapply Q1]; eauto. }
  unfold debug at 1. rewrite E1. cbn [bind]. cbn [k_buffers k0 set_views] in A1. destruct (HB _ A1) as [Q1 Q2].
  assert (cmap k1 = cmap k) as Cm1 by (unfold cmap; now rewrite C1). assert (vmap k1 = del (vmap k) id) as Vm1 by (unfold vmap; now rewrite V1).
  set (k2 := set_cmap k1 _).
  assert (cmap k2 = map_vals (fun (_ : nat) c => mkCl (c_view c) (del (c_sels c) id)) (cmap k)) as Cm2.
  { unfold k2. change (cmap (set_cmap k1 ?m)) with m. now rewrite Cm1. }
  assert (vmap k2 = del (vmap k) id) as Vm2 by exact Vm1.
  assert (forall i c, get (cmap k2) i = Some c -> exists c1, get (cmap k) i = Some c1 /\ c = mkCl (c_view c1) (del (c_sels c1) id)) as Hc2.
  { intros i c. rewrite Cm2, get_map_vals. destruct (get (cmap k) i); [|discriminate]. intro X. inversion X. eauto. }
  assert (forall c1 key m, get (del (c_sels c1) id) key = Some m -> key <> id /\ get (c_sels c1) key = Some m) as Hdel.
  { intros c1 key m. rewrite get_del. destruct (eqb key id) eqn:Q; [discriminate|]. apply eqb_neq in Q. auto. }
  assert (dropping k2) as D2.
  { split.
    - exact B1.
    - rewrite Cm2. apply uniq_map_vals, I0.
    - rewrite Vm2. apply uniq_del, I0.
    - intros b (key & u & Eu & Hu). rewrite Vm2, get_del in Eu. destruct (eqb key id); [discriminate|]. apply (append_keys _ _ _ _ _ A1). right.
      exact (i_open _ I _ _ _ Eu Hu).
    - intros i c Y. apply Hc2 in Y. destruct Y as (c1 & Y & ->). intros key m b ss u Y1 Y2 Y3. cbn [c_sels] in Y1. apply Hdel in Y1. destruct Y1 as [_ Y1].
      exact (Q1 i c1 Y key m b ss u Y1 Y2 Y3).
    - intros i c Y _. apply Hc2 in Y. destruct Y as (c1 & Y & ->). exact (Q2 i c1 Y).
    - intros i c key m b Y Y1 Y2. apply Hc2 in Y. destruct Y as (c1 & Y & ->). cbn [c_sels] in Y1. apply Hdel in Y1. destruct Y1 as [N Y1].
      assert (listed k key) as L. { apply (sf_keys _ _ S _ _ key Y). apply get_some. eauto. } apply get_some in L. destruct L as (u & Eu).
      exists key, u. rewrite Vm2, get_del_other by auto. split; auto. exact (proj1 (sf_sels _ _ S _ _ _ _ _ _ Y Y1 Eu) Y2). }
  destruct (drop_progress G (view_buffers v) k2 D2) as (k3 & E3 & D3 & C3 & V3).
  { apply Forall_forall. intros b Hb. apply (open_plain _ _ _ S). exact (i_open _ I _ _ _ Ev Hb). }
  { intros b i c Hb Y Hs Hsb. apply Hc2 in Y. destruct Y as (c1 & Y & ->). cbn [c_view] in *. destruct (eqb_dec (view_key (c_view c1)) id) as [Q|N].
    - pose proof (sf_cur _ _ S _ _ Y) as Cu. rewrite Q, Ev in Cu. inversion Cu as [Cu']. rewrite <- Cu' in Hs. destruct (Hd Hs b Hb) as [|(key' & u & N' & Eu & Hu)]; auto.
      right. exists key', u. rewrite Vm2, get_del_other by auto. auto.
    - right. exists (view_key (c_view c1)), (c_view c1). rewrite Vm2, get_del_other by auto. split; auto. exact (sf_cur _ _ S _ _ Y). }
  rewrite E3. cbn [bind]. assert (vmap k3 = del (vmap k) id) as Vm3. { unfold vmap. rewrite V3. exact Vm2. }
  assert (cmap k3 = cmap k2) as Cm3 by (unfold cmap; now rewrite C3).
  rewrite Vm3. assert (In key0 (keys (del (vmap k) id))) as L0' by (apply in_keys_del; auto).
  destruct (del (vmap k) id) as [|e1 l1] eqn:Ed; [destruct L0'|]. rewrite <- Ed in *. clear e1 l1 Ed. cbn [bind].
  assert (k_views k3 = mkSM (remove_first id (sm_stack (k_views k))) (del (vmap k) id)) as Kv3. { rewrite V3. unfold k2. cbn [k_views set_cmap set_clients]. rewrite V1. reflexivity. }
  assert (exists key latest, sm_latest_value (k_views k3) = Some latest /\ get (vmap k) key = Some latest /\ key <> id /\ view_key latest = key) as (key & latest & El & Egl & Nl & Kl).
  { rewrite Kv3. unfold sm_latest_value. cbn [sm_stack sm_map].
    assert (In key0 (remove_first id (sm_stack (k_views k)))) as X. { apply remove_first_in; [apply I0|]. split; auto. now apply (sf_stack _ _ S). }
    destruct (remove_first id (sm_stack (k_views k))) as [|key r] eqn:Er; [destruct X|]. cbn [nth_error].
    assert (In key (sm_stack (k_views k)) /\ key <> id) as [X1 X2]. { apply remove_first_in; [apply I0|]. rewrite Er. now left. }
    apply (i_vin _ I0) in X1. apply get_some in X1. destruct X1 as (u & Eu). exists key, u. rewrite get_del_other by auto. split; [exact Eu|]. split; [exact Eu|]. split; auto.
    apply (i_key _ I0 _ _ Eu). }
  rewrite El. cbn [unwrap bind]. set (k4 := set_cmap k3 _). set (ids := map fst _).
  assert (forall i c, get (cmap k4) i = Some c -> exists c1, get (cmap k) i = Some c1 /\ c_sels c = del (c_sels c1) id /\
     ((view_key (c_view c1) = id /\ c_view c = latest) \/ (view_key (c_view c1) <> id /\ c_view c = c_view c1))) as Hc4.
  { intros i c. unfold k4. change (cmap (set_cmap k3 ?m)) with m. rewrite get_map_vals, Cm3. destruct (get (cmap k2) i) as [c2|] eqn:Y; [|discriminate].
    apply Hc2 in Y. destruct Y as (c1 & Y & ->). intro X. injection X as <-. exists c1. split; auto. cbn [c_view].
    match goal with |- context [if ?e then _ else _] => change e with (eqb (view_key (c_view c1)) id) end.
    destruct (eqb (view_key (c_view c1)) id) eqn:Q; [apply eqb_ok in Q|apply eqb_neq in Q]; split; auto. }
  assert (forall i, connected k4 i <-> connected k i) as Hcon.
  { intro i. unfold connected, k4. change (cmap (set_cmap k3 ?m)) with m. rewrite keys_map_vals, Cm3, Cm2, keys_map_vals. tauto. }
  assert (forall i c, get (cmap k4) i = Some c -> get (vmap k) (view_key (c_view c)) = Some (c_view c) /\ view_key (c_view c) <> id) as Hcur.
  { intros i c Y. apply Hc4 in Y. destruct Y as (c1 & Y & _ & [[Q ->]|[Q ->]]); [rewrite Kl; auto|]. split; auto. exact (sf_cur _ _ S _ _ Y). }
  assert (forall key u, get (vmap k) key = Some u -> key <> id -> view_fine (k_buffers k4) u) as Hvf.
  { intros q u Eu Nq. split; [exact (sf_views _ _ S _ _ Eu)|]. intros b Hb. apply (dr_open _ D3). exists q, u. rewrite Vm3, get_del_other by auto. auto. }
  assert (forall i c, get (cmap k4) i = Some c -> sels_fine (k_buffers k4) c) as Hsf.
  { intros i c Y. apply Hc4 in Y. destruct Y as (c1 & Y & Sc & _). intros q m b ss u Y1 Y2 Y3. rewrite Sc in Y1.
    refine (dr_fine _ D3 i (mkCl (c_view c1) (del (c_sels c1) id)) _ q m b ss u Y1 Y2 Y3). rewrite Cm3, Cm2, get_map_vals, Y. reflexivity. }
  destruct (notify_progress G ids k4) as (k5 & E5).
  { apply D3. }
  { intros i Hi. assert (connected k4 i) as C. { unfold ids in Hi. apply in_map_iff in Hi. destruct Hi as ((i' & c) & <- & Hi). apply filter_In in Hi. destruct Hi as [Hi _].
      unfold connected, k4. change (cmap (set_cmap k3 ?m)) with m. rewrite keys_map_vals. change (In (fst (i', c)) (map fst (cmap k3))). now apply in_map. }
    apply get_some in C. destruct C as (c & Ec). exists c. split; auto. destruct (Hcur _ _ Ec) as [X1 X2]. split; [eapply Hvf; eauto|eapply Hsf; eauto]. }
  rewrite E5. cbn [bind]. eexists. split; [reflexivity|].
  assert (delete_view G id k = Ok (None, k5)) as Edel.
  { unfold delete_view, view_exists. rewrite (proj2 (has_in _ _) Lid). cbn [negb]. unfold sm_remove. rewrite Xs. unfold vmap in Ev. rewrite Ev. fold (vmap k) in Ev.
    cbn [unwrap bind]. fold k0. unfold debug at 1. rewrite E1. cbn [bind]. fold k2. rewrite E3. cbn [bind]. rewrite Vm3.
    destruct (del (vmap k) id) as [|e1 l1] eqn:Ed; [destruct L0'|]. cbn [bind]. rewrite El. cbn [unwrap bind]. fold k4. fold ids. rewrite E5. reflexivity. }
  pose proof (delete_view_inv _ _ _ _ _ j (c_view c0) Edel I ltac:(exists c0; auto) Kj) as I5.
  apply (safe_same full k4 k5); [exact (notify_same _ _ _ _ E5)|].
  assert (inv k4) as I4. { pose proof (notify_same _ _ _ _ E5) as (N1 & N2 & N3 & N4). destruct I5 as [J0 J1 J2]. destruct J0.
    split; [split|..]; unfold views_open, clients_listed, looks_at, open, connected, listed, cmap, vmap in *; rewrite ?N2, ?N3, ?N4 in *; auto. }
  split; auto.
  - apply D3.
  - intros q u. change (vmap k4) with (vmap k3). rewrite Vm3, get_del. destruct (eqb q id); [discriminate|]. apply (sf_views _ _ S).
  - intros q. unfold listed. change (vmap k4) with (vmap k3). rewrite Vm3, in_keys_del. change (k_views k4) with (k_views k3). rewrite Kv3. cbn [sm_stack].
    intros [X1 X2]. apply remove_first_in; [apply I0|]. split; auto. now apply (sf_stack _ _ S).
  - exists key0. unfold listed. change (vmap k4) with (vmap k3). now rewrite Vm3.
  - intros i c Y. change (vmap k4) with (vmap k3). rewrite Vm3. destruct (Hcur _ _ Y) as [X1 X2]. now rewrite get_del_other.
  - intros i c q Y. apply Hc4 in Y. destruct Y as (c1 & Y & -> & _). unfold listed. change (vmap k4) with (vmap k3). rewrite Vm3, !in_keys_del.
    destruct (sf_keys _ _ S _ _ q Y) as [K1 K2]. split; [intros [X1 X2]; split; auto; now apply K1|intros [X1 X2] _; split; auto].
  - intros i c q m u b Y Y1 Y2. apply Hc4 in Y. destruct Y as (c1 & Y & Sc & _). rewrite Sc in Y1. apply Hdel in Y1. destruct Y1 as [Nq Y1].
    change (vmap k4) with (vmap k3) in Y2. rewrite Vm3, get_del_other in Y2 by auto. exact (sf_sels _ _ S _ _ _ _ _ _ Y Y1 Y2).
Qed.
