(** delete-selection on all buffers of a view: what it removes, and that it fails only as described in PropNav.v. *)
From Coq Require Import String List Arith Lia Bool Permutation.
From Verif Require Import Base ListFacts LineSpec LineFacts PieceTable PieceTableSpec PieceTableFacts PieceTableEdits PieceTableDelete Coords CoordsFacts CoordsMore Utf8
  HistoryFacts History Diff DiffApply Selection NavSpec NavFacts PropNav Maps StackMap Fmt Buffer View ViewSpec ViewFacts NotifFacts PropNotif Utf8Facts Core CoreSpec CoreInv CoreOps CoreTame CoreSafe.
Import ListNotations.

Definition policy_fine (pol : policy) : Prop := policy_wrap pol \/ policy_succ pol.

(** ** texts *)
Lemma unselected_in x s b : In b (unselected x s) -> In b x.
Proof. unfold unselected. rewrite in_app_iff. set (i := min _ _). set (j := max _ _ + 1). intros [H|H]; [rewrite <- (firstn_skipn i x)|rewrite <- (firstn_skipn j x)]; rewrite in_app_iff; auto. Qed.
Lemma remaining_plain x s : plain x -> plain (remaining x s).
Proof.
  intros [A B]. unfold remaining. destruct (unselected x s) as [|y r] eqn:E; [apply plain_lf|]. rewrite <- E. split.
  - apply Forall_forall. intros b Hb. unfold ascii in A. rewrite Forall_forall in A. apply A. eapply unselected_in; eauto.
  - intro H. apply B. eapply unselected_in; eauto.
Qed.
Lemma remaining_term x s : terminated x = true -> sel_inside x s -> inner_or_all x s -> terminated (remaining x s) = true.
Proof.
  intros T I H. unfold remaining. destruct (unselected x s) as [|y r] eqn:E; [reflexivity|]. rewrite <- E. pose proof (unselected_length x s I) as L.
  destruct H as [H|[H1 H2]]; [|rewrite E in L; simpl in L; lia]. unfold unselected.
  assert (skipn (max (s_anchor s) (s_cursor s) + 1) x <> []) as N. { intro X. apply (f_equal (@length _)) in X. rewrite skipn_length in X. simpl in X. lia. }
  rewrite terminated_app by auto. rewrite <- (firstn_skipn (max (s_anchor s) (s_cursor s) + 1) x) in T at 1. now rewrite terminated_app in T by auto.
Qed.
Lemma remaining_length x s : sel_inside x s ->
  length (remaining x s) = max 1 (length x - (max (s_anchor s) (s_cursor s) + 1 - min (s_anchor s) (s_cursor s))).
Proof.
  intro I. pose proof (unselected_length x s I) as L. unfold remaining. destruct (unselected x s) as [|y r]; cbn [length] in *; lia.
Qed.
Lemma clamp_fine x s : fine x s -> inner_or_all x s -> fine (remaining x s) (sel_clamp (length (remaining x s) - 1) s).
Proof.
  intros [I Ht] H. pose proof (remaining_length x s I) as L. set (n := length (remaining x s)) in *. destruct I as [Ha Hc].
  unfold fine, sel_inside, sel_clamp, sel_end, inner_or_all in *. fold n. clearbody n.
  destruct (Nat.ltb_spec (s_anchor s) (s_cursor s));
    match goal with |- context [?a <=? ?b] => destruct (Nat.leb_spec a b) end; cbn [s_anchor s_cursor s_target] in *; lia.
Qed.

(** ** the buffers *)
(** the selection of [m] in buffer [b] *)
Definition the_sel (m : amap text (list sel)) (b : text) : option sel := match get m b with Some (s :: _) => Some s | _ => None end.
Definition ready (G : Graphemes) (pol : policy) (bufs : amap text buffer) (e : text * list sel) : Prop :=
  exists u s, get bufs (fst e) = Some u /\ snd e = [s] /\ acc (b_content u) /\ ascii (txt (b_content u)) /\ sel_inside (txt (b_content u)) s /\
    (policy_wrap pol \/ (policy_succ pol /\ inner_or_all (txt (b_content u)) s)).
(** the deleted texts, in the order of the map *)
Definition cut (bufs : amap text buffer) (e : text * list sel) : text :=
  match get bufs (fst e), snd e with Some u, s :: _ => selected (txt (b_content u)) s | _, _ => [] end.
Definition cut_buffers (m : amap text (list sel)) (bufs bufs' : amap text buffer) : Prop :=
  keys bufs' = keys bufs /\
  (forall b, ~ In b (keys m) -> get bufs' b = get bufs b) /\
  (forall b s u, get m b = Some [s] -> get bufs b = Some u -> exists u', get bufs' b = Some u' /\ acc (b_content u') /\
     txt (b_content u') = remaining (txt (b_content u)) s /\ u' = set_content u (b_content u')).

Lemma keys_set_in {V} (m : amap text V) k v : In k (keys m) -> keys (set m k v) = keys m.
Proof. intro H. rewrite keys_set. now rewrite (proj2 (has_in _ _) H). Qed.
Lemma delete_in_buffers_ok G pol m : forall bufs, uniq m -> (forall e, In e m -> ready G pol bufs e) ->
  exists bufs', delete_in_buffers G pol m bufs = Ok (map (cut bufs) m, keys m, bufs') /\ cut_buffers m bufs bufs'.
Proof.
  induction m as [|[b ss] r IH]; intros bufs U H; cbn [delete_in_buffers].
  { exists bufs. split; [reflexivity|]. repeat split; auto. intros b s u E. discriminate. }
  destruct (H (b, ss) (or_introl eq_refl)) as (u & s & Eu & Es & A & As & I & P). cbn [fst snd] in *. subst ss. rewrite Eu. cbn [unwrap bind].
  destruct (delete_sel_step G pol _ _ s A eq_refl As I P) as (t1 & E1 & T1 & A1). rewrite E1. cbn [bind]. rewrite txt_nil_empty by apply A1. rewrite T1.
  assert (exists t2, (if match unselected (txt (b_content u)) s with [] => true | _ => false end then pt_append [LF] t1 else Ok t1) = Ok t2 /\
     txt t2 = remaining (txt (b_content u)) s /\ acc t2) as (t2 & E2 & T2 & A2).
  { unfold remaining. destruct (unselected (txt (b_content u)) s) as [|y l] eqn:Q; [|eauto].
    destruct (append_spec [LF] t1 (proj1 A1)) as (t2 & Ea & W' & T' & N' & _); [discriminate|]. exists t2. split; auto. unfold s_append in T'. rewrite T', T1.
    split; auto. split; auto. apply N', A1. }
  rewrite E2. cbn [bind]. inversion U as [|? ? Nb U']; subst.
  destruct (IH (set bufs b (set_content u t2)) U') as (bufs' & E3 & K & C1 & C2).
  { intros e He. assert (fst e <> b) as Ne. { intro X. apply Nb. rewrite <- X. now apply in_map. }
    destruct (H e (or_intror He)) as (w & s' & X & Y). exists w, s'. rewrite get_set_other by auto. auto. }
  rewrite E3. cbn [bind app]. exists bufs'. split.
  - f_equal. f_equal. f_equal. cbn [map]. f_equal; [|].
    + unfold cut. cbn [fst snd]. now rewrite Eu.
    + apply map_ext_in. intros e He. unfold cut. assert (fst e <> b) as Ne. { intro X. apply Nb. rewrite <- X. now apply in_map. } now rewrite get_set_other.
  - split; [rewrite K; apply keys_set_in; eapply get_key_in; eauto|]. split.
    + intros b' N. cbn [keys map fst] in N. rewrite C1 by (intro; apply N; now right). rewrite get_set_other; auto. intro; apply N; now left.
    + intros b' s' u' E Eu'. cbn [get fst snd] in E. destruct (eqb b' b) eqn:Q.
      * apply eqb_ok in Q. subst b'. rewrite Eu in Eu'. injection Eu' as <-. injection E as <-. rewrite C1 by exact Nb. rewrite get_set_same. eexists. split; [reflexivity|]. cbn. auto.
      * apply eqb_neq in Q. destruct (C2 b' s' u') as (w & X); auto. { now rewrite get_set_other. } eauto.
Qed.
Lemma clamp_buffers_ok mods : forall bufs m, NoDup mods -> (forall b, In b mods -> In b (keys m) /\ exists u, get bufs b = Some u /\ acc (b_content u) /\ txt (b_content u) <> []) ->
  exists m', clamp_buffers mods bufs m = Ok m' /\ keys m' = keys m /\
    forall b, get m' b = match get m b with
      | Some ss => Some (if existsb (eqb b) mods then match get bufs b with Some u => map (sel_clamp (length (txt (b_content u)) - 1)) ss | None => ss end else ss)
      | None => None end.
Proof.
  induction mods as [|b r IH]; intros bufs m ND H; cbn [clamp_buffers].
  { exists m. split; auto. split; auto. intro b. cbn [existsb]. now destruct (get m b). }
  destruct (H b (or_introl eq_refl)) as (Hm & u & Eu & A & N). rewrite Eu. cbn [unwrap bind]. rewrite max_offset_spec by apply A. cbn [bind].
  apply get_some in Hm. destruct Hm as (ss & Es). rewrite Es. cbn [unwrap bind]. inversion ND as [|? ? Nb ND']; subst.
  destruct (IH bufs (set m b (map (sel_clamp (length (txt (b_content u)) - 1)) ss))) as (m' & E & K & C); auto.
  { intros b' Hb. destruct (H b' (or_intror Hb)) as [X Y]. split; auto. apply in_keys_set. auto. }
  rewrite E. exists m'. split; auto. assert (keys (set m b (map (sel_clamp (length (txt (b_content u)) - 1)) ss)) = keys m) as Ks by (apply keys_set_in; eapply get_key_in; eauto).
  split; [congruence|]. intro b'. rewrite C, get_set. cbn [existsb]. destruct (eqb b' b) eqn:Q.
  - apply eqb_ok in Q. subst b'. rewrite Es, Eu. cbn [orb]. destruct (existsb (eqb b) r) eqn:X; auto. apply existsb_in in X. contradiction.
  - reflexivity.
Qed.

(** ** the editor *)
(** the selections of the acting client are ready to be deleted *)
Definition client_ready (G : Graphemes) (pol : policy) (k : core) (c : client) (m : amap text (list sel)) : Prop :=
  get (c_sels c) (view_key (c_view c)) = Some m /\ uniq m /\ forall e, In e m -> ready G pol (k_buffers k) e.
(** the state before the notification *)
Definition after_cut (k : core) (id : nat) (c : client) (bufs : amap text buffer) (m' : amap text (list sel)) : core :=
  set_cmap (set_buffers k bufs) (set (cmap k) id (mkCl (c_view c) (set (c_sels c) (view_key (c_view c)) m'))).
Definition clamped (m : amap text (list sel)) (bufs' : amap text buffer) (m' : amap text (list sel)) : Prop :=
  keys m' = keys m /\ forall b s u', get m b = Some [s] -> get bufs' b = Some u' -> get m' b = Some [sel_clamp (length (txt (b_content u')) - 1) s].

Lemma delete_selection_steps G pol k id c m : get (cmap k) id = Some c -> client_ready G pol k c m ->
  exists bufs' m', cut_buffers m (k_buffers k) bufs' /\ clamped m bufs' m' /\
    delete_selection G pol id k = (match map (cut (k_buffers k)) m with
                                   | [] => Ok ([], after_cut k id c bufs' m')
                                   | xs => k' <- notify_view_update G [id] (after_cut k id c bufs' m') ;; Ok (xs, k') end).
Proof.
  intros Ec (Em & U & R). destruct (delete_in_buffers_ok G pol m (k_buffers k) U R) as (bufs' & E & C). pose proof C as (K & C1 & C2).
  destruct (clamp_buffers_ok (keys m) bufs' m) as (m' & E' & K' & H'); auto.
  { intros b Hb. split; auto. apply get_some in Hb. destruct Hb as (ss & Eb). destruct (R (b, ss)) as (u & s & Eu & Es & _ & _ & I & _).
    { now apply get_in. } cbn [fst snd] in *. subst ss. destruct (C2 b s u Eb Eu) as (u' & Eu' & A' & T' & _). exists u'. split; auto. split; auto. rewrite T'.
    pose proof (remaining_length _ _ I). intro X. rewrite X in H. cbn [length] in H. lia. }
  exists bufs', m'. split; auto. split.
  - split; auto. intros b s u' Eb Eu'. rewrite H', Eb, Eu'. assert (In b (keys m)) as X by (eapply get_key_in; eauto). apply existsb_in in X. now rewrite X.
  - unfold delete_selection, the_client. rewrite Ec. cbn [unwrap bind]. rewrite Em. cbn [unwrap bind]. rewrite E. cbn [bind]. rewrite E'. cbn [bind]. now destruct (map (cut (k_buffers k)) m).
Qed.

Lemma safe_ready G pol k id c : policy_fine pol -> safe full k -> get (cmap k) id = Some c ->
  (policy_wrap pol \/ forall b s x, sels_in k id (view_key (c_view c)) b = Some [s] -> text_of k b = Some x -> inner_or_all x s) ->
  exists m, client_ready G pol k c m /\ (forall b, In b (keys m) <-> shows (c_view c) b).
Proof.
  intros Pf S Ec H. destruct (client_sels k id c S Ec) as (m & Em & Hm). exists m. split.
  - split; auto. destruct (cmap_open full k id c S Ec) as [_ U]. split; [eapply U; eauto|]. intros [b ss] Hb.
    destruct (Hm b ss Hb) as (u & Eu & (A & [As _] & T) & F & Gb). destruct (lone_ex _ _ F) as (s & -> & I & _). exists u, s. cbn [fst snd]. split; auto. split; auto.
    split; auto. split; auto. split; auto. destruct Pf as [Pw|Ps]; auto. destruct H as [Pw|H]; auto. right. split; auto. apply (H b).
    + unfold sels_in. now rewrite Ec, Em.
    + unfold text_of. now rewrite Eu.
  - intro b. exact (sf_sels _ _ S _ _ _ _ _ _ Ec Em (sf_cur _ _ S _ _ Ec)).
Qed.

Lemma delete_selection_safe G pol d k id : policy_fine pol -> safe full k -> tame d k (CDeleteSelection id) ->
  exists xs k', delete_selection G pol id k = Ok (xs, k') /\ safe full k'.
Proof.
  intros Pf S [C H]. apply get_some in C. destruct C as (c & Ec). assert (looks_at k id (c_view c)) as Lk by (exists c; auto).
  destruct (safe_ready G pol k id c Pf S Ec) as (m & R & Hs). { right. intros b s x E1 E2. eapply H; eauto. }
  destruct (delete_selection_steps G pol k id c m Ec R) as (bufs' & m' & (K & C1 & C2) & (K' & D) & E). destruct R as (Em & U & R).
  assert (forall b s u, get m b = Some [s] -> get (k_buffers k) b = Some u -> fine (txt (b_content u)) s /\ inner_or_all (txt (b_content u)) s) as Hf.
  { intros b s u E1 E2. assert (lone (txt (b_content u)) [s]) as L by (eapply sf_fine; eauto). destruct (lone_ex _ _ L) as (s' & X & F). injection X as <-. split; auto.
    apply (H (c_view c) b); auto. { unfold sels_in. now rewrite Ec, Em. } unfold text_of. now rewrite E2. }
  assert (forall b ss, get m b = Some ss -> exists s, ss = [s]) as H1.
  { intros b ss X. apply get_in in X. destruct (R _ X) as (u & s & _ & Y & _). eauto. }
  assert (forall b, In b (keys m) -> exists s, get m b = Some [s]) as H2.
  { intros b Hb. apply get_some in Hb. destruct Hb as (ss & Eb). destruct (H1 _ _ Eb) as (s & ->). eauto. }
  set (k1 := after_cut k id c bufs' m') in *.
  assert (inv k1) as I1.
  { unfold k1, after_cut. pose proof (sf_inv _ _ S) as I. assert (inv (set_buffers k bufs')) as Ib.
    { apply (vc_inv k); [split; reflexivity| |auto]. intro Ub. unfold open, uniq. cbn [k_buffers set_buffers]. rewrite K. auto. }
    destruct (i_cl _ (i_0 _ I) _ _ Ec) as (W & U1 & U2).
    change (cmap k) with (cmap (set_buffers k bufs')). split.
    - eapply set_client_inv0; eauto; [apply Ib|].
      split; cbn [c_sels]; [now apply uniq_set|]. intros key mm. rewrite get_set. destruct (eqb key (view_key (c_view c))); [|apply U2].
        intro X. injection X as <-. unfold uniq. rewrite K'. exact U.
    - apply Ib.
    - apply set_client_listed; [apply Ib|]. cbn [c_view]. eapply get_key_in. exact (sf_cur _ _ S _ _ Ec). }
  assert (bufs_good bufs') as B1.
  { intros b u' Eu'. assert (In b (keys (k_buffers k))) as O by (rewrite <- K; eapply get_key_in; eauto). apply get_some in O. destruct O as (u & Eu).
    destruct (sf_bufs _ _ S _ _ Eu) as [Gn Gb]. split; auto. destruct (in_dec (list_eq_dec Nat.eq_dec) b (keys m)) as [Hb|Hb].
    - destruct (H2 b Hb) as (s & Es). destruct (C2 b s u Es Eu) as (u2 & Eu2 & A2 & T2 & _). rewrite Eu' in Eu2. injection Eu2 as <-.
      destruct Gb as (_ & Pl & T). destruct (Hf b s u Es Eu) as [[I _] Hi]. split; auto. rewrite T2. split; [now apply remaining_plain|now apply remaining_term].
    - rewrite C1 in Eu' by auto. rewrite Eu in Eu'. now injection Eu' as <-. }
  assert (forall j e, get (cmap k1) j = Some e -> (j = id /\ e = mkCl (c_view c) (set (c_sels c) (view_key (c_view c)) m')) \/ (j <> id /\ get (cmap k) j = Some e)) as Hc.
  { intros j e. unfold k1, after_cut. change (cmap (set_cmap _ ?x)) with x. rewrite get_set. destruct (eqb j id) eqn:Q; [apply eqb_ok in Q|apply eqb_neq in Q; auto].
    intro X. injection X as <-. auto. }
  (* the selections that are not deleted *)
  assert (forall j e key mm b ss u', get (cmap k) j = Some e -> get (c_sels e) key = Some mm -> get mm b = Some ss -> get bufs' b = Some u' ->
     j <> id \/ key <> view_key (c_view c) -> lone (txt (b_content u')) ss) as Ho.
  { intros j e key mm b ss u' Y1 Y2 Y3 Y4 Ne. assert (In b (keys (k_buffers k))) as O by (rewrite <- K; eapply get_key_in; eauto). apply get_some in O. destruct O as (u & Eu).
    pose proof (sf_fine _ _ S _ _ Y1 _ _ _ _ _ Y2 Y3 Eu) as L. destruct (in_dec (list_eq_dec Nat.eq_dec) b (keys m)) as [Hb|Hb].
    - destruct (H2 b Hb) as (s & Es). destruct (C2 b s u Es Eu) as (u2 & Eu2 & A2 & T2 & _). rewrite Y4 in Eu2. injection Eu2 as <-. rewrite T2.
      destruct (lone_ex _ _ L) as (s' & -> & F). split; auto. constructor; [|constructor]. split; [|apply F].
      apply (proj2 (H (c_view c) b s (txt (b_content u)) Lk ltac:(unfold sels_in; now rewrite Ec, Em) ltac:(unfold text_of; now rewrite Eu)) j key); auto.
      unfold sels_in. now rewrite Y1, Y2.
    - rewrite C1 in Y4 by auto. rewrite Eu in Y4. injection Y4 as <-. exact L. }
  assert (safe full k1) as S1.
  { split; auto.
    - exact (sf_views _ _ S).
    - exact (sf_stack _ _ S).
    - exact (sf_some _ _ S).
    - intros j e Y. change (vmap k1) with (vmap k). destruct (Hc _ _ Y) as [[-> ->]|[_ Y']]; [exact (sf_cur _ _ S _ _ Ec)|exact (sf_cur _ _ S _ _ Y')].
    - intros j e key Y. change (listed k1 key) with (listed k key). destruct (Hc _ _ Y) as [[-> ->]|[_ Y']]; [|exact (sf_keys _ _ S _ _ key Y')].
      cbn [c_sels]. rewrite keys_set_in by (eapply get_key_in; eauto). exact (sf_keys _ _ S _ _ key Ec).
    - intros j e key mm v b Y Ym Yv. change (vmap k1) with (vmap k) in Yv. destruct (Hc _ _ Y) as [[-> ->]|[_ Y']]; [|exact (sf_sels _ _ S _ _ _ _ _ _ Y' Ym Yv)].
      cbn [c_sels] in Ym. rewrite get_set in Ym. destruct (eqb key (view_key (c_view c))) eqn:Q; [|exact (sf_sels _ _ S _ _ _ _ _ _ Ec Ym Yv)].
      apply eqb_ok in Q. subst key. injection Ym as <-. rewrite K'. exact (sf_sels _ _ S _ _ _ _ _ _ Ec Em Yv).
    - intros j e Y key mm b ss u' Y1 Y2 Y3. change (k_buffers k1) with bufs' in Y3. destruct (Hc _ _ Y) as [[-> ->]|[Nj Y']]; [|eapply Ho; eauto].
      cbn [c_sels] in Y1. rewrite get_set in Y1. destruct (eqb key (view_key (c_view c))) eqn:Q; [|apply eqb_neq in Q; eapply (Ho id c); eauto].
      injection Y1 as <-. assert (In b (keys m)) as Hb by (rewrite <- K'; eapply get_key_in; eauto). destruct (H2 b Hb) as (s & Es).
      rewrite (D b s u' Es Y3) in Y2. injection Y2 as <-. assert (In b (keys (k_buffers k))) as O by (rewrite <- K; eapply get_key_in; eauto). apply get_some in O. destruct O as (u & Eu).
      destruct (C2 b s u Es Eu) as (u2 & Eu2 & A2 & T2 & _). rewrite Y3 in Eu2. injection Eu2 as <-. rewrite T2. destruct (Hf b s u Es Eu) as [F Hi].
      split; auto. constructor; [|constructor]. now apply clamp_fine. }
  destruct (map (cut (k_buffers k)) m) as [|x xs] eqn:Ex.
  - rewrite E. eauto.
  - destruct (safe_notify' full G [id] k1 S1) as (k2 & E2 & S2). { intros i [<-|[]]. unfold k1, after_cut. apply set_connected. auto. }
    rewrite E, E2. cbn [bind]. eauto.
Qed.
