(** C21, C22 for the whole editor, C23. *)
From Coq Require Import String List Arith Lia Bool Permutation.
From Verif Require Import Base ListFacts LineSpec PieceTable PieceTableSpec PieceTableFacts PieceTableEdits PieceTableDelete Coords CoordsFacts Utf8 GraphemeInst HistoryFacts History Diff
  Selection NavSpec NavFacts PropNav Maps StackMap Fmt Buffer View ViewSpec ViewFacts NotifFacts PropNotif Utf8Facts Core CoreSpec CoreInv CoreOps PropCore CoreTame CoreSafe CoreDelete CoreSafeMore PropSafe.
Import ListNotations.

(** ** C21 *)
(** client [id], looking at [v], has selection [s] in [b], whose text is [x] *)
Definition selects (k : core) (id : nat) (v : view) (b : text) (s : sel) (x : text) : Prop :=
  sels_in k id (view_key v) b = Some [s] /\ text_of k b = Some x.

(** the acting client alone must be able to see its view *)
Lemma notify_one G id k c : get (cmap k) id = Some c -> bufs_good (k_buffers k) -> view_fine (k_buffers k) (c_view c) ->
  (forall m b ss u, get (c_sels c) (view_key (c_view c)) = Some m -> get m b = Some ss -> get (k_buffers k) b = Some u -> Forall (sel_inside (txt (b_content u))) ss) ->
  exists k', notify_view_update G [id] k = Ok k'.
Proof.
  intros Ec B [Wv Wo] S. unfold notify_view_update. cbn [mapM]. unfold view_params, the_client. rewrite Ec. cbn [unwrap bind]. rewrite notif_ok; auto.
  - cbn [bind]. eauto.
  - intros b Hb. pose proof (Wo b Hb) as O. apply get_some in O. destruct O as (u & Eu). exists u. split; auto. destruct (B b u Eu) as [_ Gu].
    split; [now apply good_ok|]. unfold buf_sels. destruct (get (c_sels c) (view_key (c_view c))) as [m|] eqn:Em; [|constructor].
    destruct (get m b) as [ss|] eqn:Ess; [|constructor]. eapply S; eauto.
Qed.

Theorem C21_editor_partial : forall G pol d k id v r k', policy_wrap pol \/ policy_succ pol -> tame_reach G pol k -> looks_at k id v ->
  policy_wrap pol \/ (forall b s x, selects k id v b s x -> inner_or_all x s) ->
  run_call G pol d (CDeleteSelection id) k = Ok (r, k') ->
  (* the reply: the selected texts, in some order of the buffers *)
  (exists bs xs, r = RTexts xs /\ Permutation bs (keys v) /\
     Forall2 (fun b y => exists s x, selects k id v b s x /\ y = selected x s) bs xs) /\
  (* the buffers *)
  (forall b s x, selects k id v b s x -> text_of k' b = Some (remaining x s)) /\
  (forall b, ~ shows v b -> get (k_buffers k') b = get (k_buffers k) b) /\
  (* nothing else *)
  vmap k' = vmap k /\ keys (cmap k') = keys (cmap k) /\ looks_at k' id v /\ (forall j, j <> id -> get (cmap k') j = get (cmap k) j) /\
  (forall key b, key <> view_key v -> sels_in k' id key b = sels_in k id key b).
Proof.
  intros G pol d k id v r k' Pf R (c & Ec & Ev) H E. apply tame_safe in R; auto. subst v.
  destruct (safe_ready G pol k id c Pf R Ec) as (m & Rd & Hs). { destruct H as [|H]; auto. right. intros b s x X Y. apply (H b). split; auto. }
  destruct (delete_selection_steps G pol k id c m Ec Rd) as (bufs' & m' & (K & C1 & C2) & (K' & D) & E1). destruct Rd as (Em & U & Rd).
  assert (Permutation (keys m) (keys (c_view c))) as Pm.
  { apply NoDup_Permutation; [exact U| |exact Hs]. apply sorted_uniq. apply (i_cl _ (i_0 _ (sf_inv _ _ R)) _ _ Ec). }
  cbn [run_call] in E. rewrite E1 in E. clear E1. destruct (match map _ m with [] => _ | _ => _ end) as [[xs k2]| |] eqn:E0 in E; try discriminate. cbn [bind] in E. injection E as <- <-.
  assert (xs = map (cut (k_buffers k)) m /\ same_state (after_cut k id c bufs' m') k2) as [-> SS].
  { destruct (map (cut (k_buffers k)) m) as [|x l] eqn:Ex.
    - injection E0 as <- <-. split; auto. repeat split.
    - bnd E0. injection E0 as <- <-. split; auto. eapply notify_same; eauto. }
  destruct SS as (N1 & N2 & N3 & N4). cbn [after_cut k_cwd k_clients k_views k_buffers set_cmap set_clients set_buffers] in *.
  assert (cmap k2 = set (cmap k) id (mkCl (c_view c) (set (c_sels c) (view_key (c_view c)) m'))) as Cm by (unfold cmap at 1; now rewrite N2).
  split; [|split; [|split; [|split; [|split; [|split; [|split]]]]]].
  - exists (keys m), (map (cut (k_buffers k)) m). split; auto. split; auto.
    assert (forall l, (forall e, In e l -> In e m) -> Forall2 (fun b y => exists s x, selects k id (c_view c) b s x /\ y = selected x s) (keys l) (map (cut (k_buffers k)) l)) as HF.
    { induction l as [|[b ss] l IH]; intro Hl; cbn [keys map fst]; [constructor|]. constructor; [|apply IH; intros; apply Hl; now right].
      pose proof (Hl (b, ss) (or_introl eq_refl)) as Hb. destruct (Rd _ Hb) as (u & s & Eu & Es & _). cbn [fst snd] in *. subst ss. exists s, (txt (b_content u)). split.
      - split; [|unfold text_of; now rewrite Eu]. unfold sels_in. rewrite Ec, Em. now apply get_uniq.
      - unfold cut. cbn [fst snd]. now rewrite Eu. }
    apply HF. auto.
  - intros b s x [S1 S2]. unfold sels_in in S1. rewrite Ec, Em in S1. unfold text_of in S2. destruct (get (k_buffers k) b) as [u|] eqn:Eu; [|discriminate].
    injection S2 as <-. destruct (C2 b s u S1 Eu) as (u' & Eu' & _ & T' & _). unfold text_of. rewrite N3, Eu'. cbn [option_map]. now rewrite T'.
  - intros b N. rewrite N3. apply C1. now rewrite Hs.
  - unfold vmap. now rewrite N4.
  - rewrite Cm, keys_set. replace (has (cmap k) id) with true; auto. symmetry. apply has_in. eapply get_key_in; eauto.
  - exists (mkCl (c_view c) (set (c_sels c) (view_key (c_view c)) m')). split; auto. rewrite Cm. apply get_set_same.
  - intros j N. rewrite Cm. now apply get_set_other.
  - intros key b N. unfold sels_in. rewrite Cm, get_set_same, Ec. cbn [c_sels]. now rewrite get_set_other.
Qed.
Print Assumptions C21_editor_partial.

(** ** C22: the acting client.  Its deletion succeeds when no selection reaches the end of a buffer (other than a whole
    buffer); then its selections in the view are inside the buffers.  Missing from the full property: other views and other clients. *)
Theorem C22_own_partial : forall G pol d k id v, policy_wrap pol \/ policy_succ pol -> tame_reach G pol k -> looks_at k id v ->
  (forall b s x, selects k id v b s x -> inner_or_all x s) ->
  exists xs k', run_call G pol d (CDeleteSelection id) k = Ok (RTexts xs, k') /\
    forall b, shows v b -> exists s x, selects k' id v b s x /\ sel_inside x s.
Proof.
  intros G pol d k id v Pf R (c & Ec & Ev) H. apply tame_safe in R; auto. subst v.
  destruct (safe_ready G pol k id c Pf R Ec) as (m & Rd & Hs). { right. intros b s x X Y. apply (H b). split; auto. }
  destruct (delete_selection_steps G pol k id c m Ec Rd) as (bufs' & m' & (K & C1 & C2) & (K' & D) & E1). destruct Rd as (Em & U & Rd).
  assert (forall b, In b (keys m) -> exists s u u', get m b = Some [s] /\ get (k_buffers k) b = Some u /\ get bufs' b = Some u' /\ acc (b_content u') /\
    txt (b_content u') = remaining (txt (b_content u)) s /\ get m' b = Some [sel_clamp (length (txt (b_content u')) - 1) s] /\
    fine (txt (b_content u)) s /\ inner_or_all (txt (b_content u)) s) as Hb.
  { intros b Hb. apply get_some in Hb. destruct Hb as (ss & Eb). destruct (Rd (b, ss)) as (u & s & Eu & Es & _); [now apply get_in|]. cbn [fst snd] in *. subst ss.
    destruct (C2 b s u Eb Eu) as (u' & Eu' & A' & T' & _). exists s, u, u'. split; auto. split; auto. split; auto. split; auto. split; auto. split; [now apply D|].
    destruct (lone_ex _ _ (sf_fine _ _ R _ _ Ec _ _ _ _ _ Em Eb Eu)) as (s' & X & F). injection X as <-. split; auto. apply (H b).
    split; [unfold sels_in; now rewrite Ec, Em|]. unfold text_of. now rewrite Eu. }
  set (k1 := after_cut k id c bufs' m') in *.
  assert (bufs_good bufs') as B1.
  { intros b u' Eu'. assert (In b (keys (k_buffers k))) as O by (rewrite <- K; eapply get_key_in; eauto). apply get_some in O. destruct O as (u & Eu).
    destruct (sf_bufs _ _ R _ _ Eu) as [Gn Gb]. split; auto. destruct (in_dec (list_eq_dec Nat.eq_dec) b (keys m)) as [Hi|Hi].
    - destruct (Hb b Hi) as (s & u2 & u3 & _ & X2 & X3 & A & T & _ & F & I). rewrite Eu in X2. injection X2 as <-. rewrite Eu' in X3. injection X3 as <-.
      destruct Gb as (_ & Pl & Tm). split; auto. rewrite T. split; [now apply remaining_plain|]. apply remaining_term; auto. apply F.
    - rewrite C1 in Eu' by auto. rewrite Eu in Eu'. now injection Eu' as <-. }
  set (c1 := mkCl (c_view c) (set (c_sels c) (view_key (c_view c)) m')) in *.
  assert (get (cmap k1) id = Some c1) as Ec1. { unfold k1, after_cut. change (cmap (set_cmap _ ?x)) with x. apply get_set_same. }
  assert (forall b, shows (c_view c) b -> exists s x, selects k1 id (c_view c) b s x /\ sel_inside x s) as Hin.
  { intros b Sb. destruct (Hb b (proj2 (Hs b) Sb)) as (s & u & u' & X1 & X2 & X3 & A & T & X4 & F & I).
    exists (sel_clamp (length (txt (b_content u')) - 1) s), (txt (b_content u')). split; [split|].
    - unfold sels_in. rewrite Ec1. cbn [c1 c_sels]. now rewrite get_set_same.
    - unfold text_of, k1, after_cut. cbn [k_buffers set_cmap set_clients set_buffers]. now rewrite X3.
    - rewrite T. now apply clamp_fine. }
  assert (exists k2, notify_view_update G [id] k1 = Ok k2) as (k2 & E2).
  { eapply notify_one; [exact Ec1|exact B1| |].
    - destruct (safe_view_fine full k _ _ R (sf_cur _ _ R _ _ Ec)) as [W1 W2]. split; auto. intros b Sb. cbn [c1 c_view] in Sb. unfold k1, after_cut. cbn [k_buffers set_cmap set_clients set_buffers]. rewrite K.
      now apply W2.
    - intros mm b ss u Xm Xs Xu. cbn [c1 c_view c_sels] in Xm. rewrite get_set_same in Xm. injection Xm as <-. assert (In b (keys m)) as Hi by (rewrite <- K'; eapply get_key_in; eauto).
      destruct (Hb b Hi) as (s & u2 & u3 & _ & X2 & X3 & A & T & X4 & F & I). change (get bufs' b = Some u) in Xu. rewrite Xu in X3. injection X3 as <-. rewrite X4 in Xs. injection Xs as <-.
      constructor; [|constructor]. rewrite T. now apply clamp_fine. }
  cbn [run_call]. rewrite E1. destruct (map (cut (k_buffers k)) m) as [|x xs].
  - cbn [bind]. eauto.
  - rewrite E2. cbn [bind]. do 2 eexists. split; [reflexivity|]. apply notify_same in E2. destruct E2 as (_ & N2 & N3 & _). intros b Sb. destruct (Hin b Sb) as (s & y & [Y1 Y2] & I).
    exists s, y. split; auto. unfold selects, sels_in, text_of, cmap. rewrite N2, N3. split; auto.
Qed.
Print Assumptions C22_own_partial.

(** all the clients, in all their listed views: deletions that spare the selections of the others *)
Theorem C22_all_partial : forall G pol d k id r k', policy_wrap pol \/ policy_succ pol -> tame_reach G pol k -> tame d k (CDeleteSelection id) ->
  run_call G pol d (CDeleteSelection id) k = Ok (r, k') ->
  forall j key b ss x, sels_in k' j key b = Some ss -> text_of k' b = Some x -> exists s, ss = [s] /\ sel_inside x s.
Proof.
  intros G pol d k id r k' Pf R T E j key b ss x Hs Hx. assert (safe full k') as S. { eapply tame_safe; [exact Pf|]. eapply tame_call; eauto. }
  unfold sels_in in Hs. destruct (get (cmap k') j) as [c|] eqn:Ec; [|discriminate]. destruct (get (c_sels c) key) as [m|] eqn:Em; [|discriminate].
  unfold text_of in Hx. destruct (get (k_buffers k') b) as [u|] eqn:Eu; [|discriminate]. injection Hx as <-.
  destruct (lone_ex _ _ (sf_fine _ _ S _ _ Ec _ _ _ _ _ Em Hs Eu)) as (s & -> & F). exists s. split; auto. apply F.
Qed.
Print Assumptions C22_all_partial.

(** the clause about the others cannot be dropped: two clients on "abc\n", client 1 deletes a selection of two
    characters before the cursor of client 2, which is left outside *)
Definition other_left : list call :=
  [CJoin 1; CScratch 1 (str "a") (str "abc" ++ [LF]); CJoin 2; CMove 2 MRight false; CMove 2 MRight false; CMove 2 MRight false; CMove 1 MRight true; CDeleteSelection 1].
Theorem C22_others_refuted : exists k s x, session other_left = Ok k /\ looks_at k 2 (whole (str "a")) /\ selects k 2 (whole (str "a")) (str "a") s x /\ ~ sel_inside x s.
Proof.
  exists (get_ok (core_new []) (session other_left)), (mkSel 3 3 4), [99; LF]. split; [apply session_state; vm_compute; reflexivity|].
  split; [eexists; split; vm_compute; reflexivity|]. split; [split; vm_compute; reflexivity|]. intros [H _]. cbn in H. lia.
Qed.
Print Assumptions C22_others_refuted.

(** the hypotheses of these theorems are met: client 2 of [careful] deletes the first character of the two buffers it sees *)
Example C22_demo : exists k, session careful = Ok k /\ tame_reach utf8_graphemes pol_wrap k /\ tame no_disk k (CDeleteSelection 2) /\
  exists k', run_call utf8_graphemes pol_wrap no_disk (CDeleteSelection 2) k = Ok (RTexts [str "o"; [LF]], k').
Proof.
  exists (get_ok (core_new []) (session careful)). assert (session careful = Ok (get_ok (core_new []) (session careful))) as E by (apply session_state; vm_compute; reflexivity).
  split; auto. split; [apply (session_tame careful); [vm_compute; reflexivity|exact E]|]. clear E. split.
  - cbn [tame]. split; [apply connected_b; vm_compute; reflexivity|]. intros v b s x (c & Ec & <-). revert c Ec.
    assert (exists c0, get (cmap (get_ok (core_new []) (session careful))) 2 = Some c0 /\ view_key (c_view c0) = str "a{*}|b{*}") as (c0 & E0 & V0) by (eexists; split; vm_compute; reflexivity).
    intros c Ec. rewrite E0 in Ec. injection Ec as <-. rewrite V0. clear c0 E0 V0.
    assert (forall j key b ss, sels_in (get_ok (core_new []) (session careful)) j key b = Some ss -> ss = [sel_new]) as Hn.
    { intros j key b0 ss Hs. unfold sels_in in Hs. destruct (get (cmap _) j) as [c|] eqn:Ec; [|discriminate]. destruct (get (c_sels c) key) as [m|] eqn:Em; [|discriminate].
      apply get_in in Ec, Em, Hs. assert (forallb (fun e : nat * client => forallb (fun e1 : text * amap text (list sel) => forallb (fun e2 : text * list sel => sels_eqb (snd e2) [sel_new]) (snd e1)) (c_sels (snd e)))
        (cmap (get_ok (core_new []) (session careful))) = true) as F by (vm_compute; reflexivity).
      rewrite forallb_forall in F. apply F in Ec. cbn [snd] in Ec. rewrite forallb_forall in Ec. apply Ec in Em. cbn [snd] in Em. rewrite forallb_forall in Em. apply Em in Hs. cbn [snd] in Hs.
      destruct ss as [|[a c1 t] [|]]; cbn [sels_eqb] in Hs; try discriminate; [|rewrite andb_false_r in Hs; discriminate]. unfold sel_eqb in Hs. cbn [sel_new s_anchor s_cursor s_target] in Hs.
      repeat match goal with X : _ && _ = true |- _ => apply andb_prop in X; destruct X end. repeat match goal with X : _ =? _ = true |- _ => apply Nat.eqb_eq in X end. now subst. }
    intros Hs Hx. pose proof (Hn _ _ _ _ Hs) as X. injection X as ->.
    assert (b = str "a" \/ b = str "b") as Hb.
    { unfold sels_in in Hs. revert Hs. match goal with |- context [get (cmap ?k) 2] => let c := eval vm_compute in (get (cmap k) 2) in replace (get (cmap k) 2) with c by (vm_compute; reflexivity) end.
      cbn [c_sels]. intro Hs. apply get_in in Hs. cbn in Hs. destruct Hs as [Hs|[Hs|[]]]; apply (f_equal fst) in Hs; cbn [fst] in Hs; subst b; auto. }
    assert (2 <= length x) as L by (destruct Hb as [-> | ->]; vm_compute in Hx; injection Hx as <-; cbn; lia).
    split; [left; cbn; lia|]. intros j key s' _ Hs'. apply Hn in Hs'. injection Hs' as ->.
    assert (0 < length (remaining x sel_new)) by (destruct Hb as [-> | ->]; vm_compute in Hx; injection Hx as <-; cbn; lia). split; cbn [sel_new s_anchor s_cursor]; lia.
  - eexists. vm_compute. reflexivity.
Qed.

(** ** C23: no buffer is ever empty *)
(** the calls whose effect on the buffers C23 is about: everything but reloading a file, and appending nothing *)
Definition no_reload (d : disk) (k : core) (c : call) : Prop :=
  match c with
  | CEdit _ name false => match get (k_buffers k) name with Some u => (exists n, b_source u = SScratch n) \/ is_synced d u = true | None => True end
  | CAppend b x => x <> []
  | _ => True
  end.
Inductive reach_no_reload (G : Graphemes) (pol : policy) : core -> Prop :=
| nr_init cwd args k : editor_init G cwd args = Ok k -> reach_no_reload G pol k
| nr_call d c k r k' : reach_no_reload G pol k -> no_reload d k c -> run_call G pol d c k = Ok (r, k') -> reach_no_reload G pol k'
| nr_shuffle k k' : reach_no_reload G pol k -> shuffle k k' -> reach_no_reload G pol k'.

Definition alive (u : buffer) : Prop := wf (b_content u) /\ txt (b_content u) <> [].
Definition all_alive (m : amap text buffer) : Prop := Forall (fun e => alive (snd e)) m.
Lemma alive_set m n u : all_alive m -> alive u -> all_alive (set m n u).
Proof.
  unfold all_alive. intros F A. induction m as [|[a b] m IH]; cbn [set]; [now constructor|]. inversion F; subst. destruct (eqb n a); constructor; auto.
Qed.
Lemma alive_del m n : all_alive m -> all_alive (del m n).
Proof. unfold all_alive, del. rewrite !Forall_forall. intros F e He. apply filter_In in He. apply F, He. Qed.
Lemma alive_get m n u : all_alive m -> get m n = Some u -> alive u.
Proof. unfold all_alive. rewrite Forall_forall. intros F E. apply get_in in E. exact (F _ E). Qed.
Lemma alive_with s src y : s <> [] -> alive (mkBuf src (pt_with_text s) y).
Proof. intro H. destruct (sim_init s H) as [(W & _ & T & _) _]. split; auto. cbn [b_content]. rewrite T. exact H. Qed.
Lemma alive_new n x : alive (new_scratch n x).
Proof. apply alive_with. destruct x; discriminate. Qed.
Lemma alive_append x u u' : alive u -> x <> [] -> buf_append x u = Ok u' -> alive u'.
Proof.
  intros [W T] Hx E. unfold buf_append in E. destruct (append_spec x _ W Hx) as (t' & E' & W' & T' & _). rewrite E' in E. cbn [bind] in E. injection E as <-.
  split; cbn [b_content set_content]; auto. rewrite T'. unfold s_append. destruct (txt (b_content u)); [congruence|discriminate].
Qed.
Lemma alive_appended G n x k k' : append_to G n x k = Ok k' -> all_alive (k_buffers k) -> x <> [] -> all_alive (k_buffers k').
Proof.
  intros E A Hx. apply append_frame in E. destruct E as (_ & _ & _ & b & -> & H). apply alive_set; auto. destruct (get (k_buffers k) n) as [u|] eqn:Eu.
  - eapply alive_append; eauto. eapply alive_get; eauto.
  - subst b. apply alive_new.
Qed.
Lemma alive_debug G x k k' : debug G x k = Ok k' -> all_alive (k_buffers k) -> all_alive (k_buffers k').
Proof. intros E A. eapply alive_appended; eauto. destruct x; discriminate. Qed.
Lemma alive_notify G ids k k' : notify_view_update G ids k = Ok k' -> all_alive (k_buffers k) -> all_alive (k_buffers k').
Proof. intros E A. apply notify_same in E. destruct E as (_ & _ & -> & _). exact A. Qed.
Lemma alive_add_view v k k' : add_view v k = Ok k' -> all_alive (k_buffers k) -> all_alive (k_buffers k').
Proof. intros E A. now rewrite (add_view_buffers _ _ _ E). Qed.
Lemma alive_drop G bs : forall k k', drop_buffers G bs k = Ok k' -> all_alive (k_buffers k) -> all_alive (k_buffers k').
Proof.
  induction bs as [|b bs IH]; intros k k' E A; cbn [drop_buffers] in E; [now injection E as <-|]. destruct (existsb _ _); [eauto|]. bnd E. eapply IH; eauto.
  eapply alive_debug; eauto. cbn [k_buffers set_buffers]. now apply alive_del.
Qed.
Lemma alive_delete_view G id k e k' : delete_view G id k = Ok (e, k') -> all_alive (k_buffers k) -> all_alive (k_buffers k').
Proof.
  intros E A. unfold delete_view in E. destruct (negb (view_exists k id)); [now injection E as <- <-|]. destruct (sm_remove id (k_views k)) as [ov vs].
  destruct ov as [v|]; [|discriminate]. cbn [unwrap bind] in E. bnd E. bnd E. bnd E. bnd E. bnd E. injection E as <- <-.
  apply alive_debug in E0; [|exact A]. apply alive_drop in E1; [|exact E0]. assert (all_alive (k_buffers v2)) as A2.
  { destruct (vmap v1); [|now injection E2 as <-]. eapply alive_add_view; eauto. destruct (k_buffers v1) eqn:Eb; [|now rewrite Eb]. unfold open_scratch. cbn [k_buffers set_buffers]. apply alive_set; [now rewrite Eb|apply alive_new]. }
  eapply alive_notify; eauto.
Qed.
Lemma alive_modify G id f k k' : modify_view G id f k = Ok k' -> all_alive (k_buffers k) -> all_alive (k_buffers k').
Proof.
  intros E A. unfold modify_view in E. bnd E. destruct (eqb _ _); [now injection E as <-|]. bnd E. bnd E. destruct v1 as [e k2]. destruct e; [discriminate|]. injection E as <-.
  eapply alive_delete_view; eauto. destruct (view_is_empty (f v)); [now injection E1 as <-|]. eapply alive_add_view; eauto.
Qed.
Lemma alive_view G id vid k e k' : view_cmd G id vid k = Ok (e, k') -> all_alive (k_buffers k) -> all_alive (k_buffers k').
Proof.
  intros E A. unfold view_cmd in E. destruct (view_exists k vid).
  - bnd E. bnd E. bnd E. injection E as <- <-. eapply alive_notify; eauto.
  - destruct (buffer_exists k vid); [|now injection E as <- <-]. bnd E. bnd E. injection E as <- <-. eapply alive_notify; eauto.
Qed.
Lemma alive_edit G pol d id name scratch k k' : edit_cmd G pol d id name scratch k = Ok k' -> no_reload d k (CEdit id name scratch) ->
  all_alive (k_buffers k) -> all_alive (k_buffers k').
Proof.
  intros E H A. unfold edit_cmd in E. bnd E. destruct v as [notify k1]. assert (all_alive (k_buffers k1)) as A1.
  { destruct scratch.
    - injection E0 as <- <-. destruct (buffer_exists k name); auto. apply alive_set; auto. apply alive_new.
    - cbn [no_reload] in H. unfold buffer_exists, has in E0. destruct (get (k_buffers k) name) as [u|] eqn:Eu.
      + cbn [unwrap bind] in E0. bnd E0. destruct v as [rl u']. bnd E0. injection E0 as <- <-. assert (u' = u) as ->.
        { unfold load_from_disk in E1. destruct (b_source u) eqn:Es; [now injection E1 as _ <-|]. destruct H as [[n H]|H]; [discriminate|]. rewrite H in E1. now injection E1 as _ <-. }
        assert (all_alive (set (k_buffers k) name u)) as As by (apply alive_set; auto; eapply alive_get; eauto). destruct rl; [|injection E2 as <-; exact As]. eapply alive_debug; eauto.
      + bnd E0. injection E0 as <- <-. unfold open_file in E1. bnd E1. injection E1 as <-. cbn [k_buffers set_buffers]. apply alive_set; auto.
        unfold new_file in E0. bnd E0. injection E0 as <-. apply alive_with. destruct (ends_lf v) eqn:En; [|now destruct v]. destruct v; [|discriminate]. cbn in En. discriminate. }
  bnd E. bnd E. destruct v0 as [e k2]. destruct e; [discriminate|]. bnd E. apply alive_add_view in E1; auto. apply alive_view in E2; auto. apply alive_debug in E3; auto.
  destruct notify; [|now injection E as <-]. eapply alive_notify; eauto.
Qed.
(** deleting anything from a piece table keeps it well-formed *)
Lemma delete_wf pol o n t t' : policy_wrap pol -> wf t -> pt_delete pol o n t = Ok t' -> wf t'.
Proof.
  intros P W E. destruct n as [|n]; [apply (delete_zero _ _ _ _ W E)|]. destruct (delete_ok pol o (S n) t W) as (t2 & E2 & H2); [lia|right; now apply delete_fine_wrap|].
  rewrite E2 in E. injection E as <-. apply H2.
Qed.
Lemma delete_sels_wf G pol ss : policy_wrap pol -> forall t xs t', delete_sels G pol ss t = Ok (xs, t') -> wf t -> wf t'.
Proof.
  intro P. induction ss as [|s ss IH]; intros t xs t' E W; cbn [delete_sels] in E; [now injection E as _ <-|]. bnd E. destruct v as [b e]. bnd E. bnd E. destruct v0 as [x|]; [|eauto].
  bnd E. bnd E. destruct v1 as [ys t2]. injection E as _ <-. eapply IH; eauto. eapply delete_wf; eauto.
Qed.
Lemma alive_delete_in G pol m : policy_wrap pol -> forall bufs r, delete_in_buffers G pol m bufs = Ok r -> all_alive bufs -> all_alive (snd r).
Proof.
  intro P. induction m as [|[n ss] m IH]; intros bufs r E A; cbn [delete_in_buffers] in E; [now injection E as <-|]. bnd E. bnd E. destruct v0 as [xs t]. bnd E. bnd E.
  destruct v1 as [[ys mods] bufs']. injection E as <-. cbn [snd]. apply IH in E3; [exact E3|]. apply alive_set; auto. destruct (get bufs n) as [u|] eqn:Eu; [|discriminate]. cbn [unwrap] in E0. injection E0 as <-.
  destruct (alive_get _ _ _ A Eu) as [W T]. pose proof (delete_sels_wf _ _ _ P _ _ _ E1 W) as W1. rewrite txt_nil_empty in E2 by exact W1.
  destruct (txt t) as [|y l] eqn:Et.
  - destruct (append_spec [LF] t W1) as (t' & E' & W' & T' & _); [discriminate|]. rewrite E' in E2. injection E2 as <-. split; cbn [b_content set_content]; auto. rewrite T', Et. discriminate.
  - injection E2 as <-. split; cbn [b_content set_content]; auto. rewrite Et. discriminate.
Qed.
Lemma alive_call G pol d c k r k' : policy_wrap pol -> no_reload d k c -> run_call G pol d c k = Ok (r, k') -> all_alive (k_buffers k) -> all_alive (k_buffers k').
Proof.
  intros P H E A. destruct c; cbn [run_call] in E.
  - bnd E. injection E as _ <-. eapply alive_edit; eauto.
  - bnd E. destruct v. injection E as _ <-. eapply alive_view; eauto.
  - bnd E. injection E as _ <-. unfold delete_current_view in E0. bnd E0. bnd E0. destruct v1 as [e k2]. destruct e; [discriminate|]. injection E0 as <-. eapply alive_delete_view; eauto.
  - bnd E. destruct v. injection E as _ <-. unfold add_to_current_view in E0. destruct (negb _); [now injection E0 as _ <-|]. bnd E0. bnd E0. injection E0 as _ <-. eapply alive_modify; eauto.
  - bnd E. destruct v. injection E as _ <-. unfold remove_from_current_view in E0. destruct (negb _); [now injection E0 as _ <-|]. bnd E0. bnd E0. injection E0 as _ <-. eapply alive_modify; eauto.
  - bnd E. injection E as _ <-. unfold move_cursor in E0. bnd E0. bnd E0. bnd E0. destruct (negb _); [eapply alive_notify; eauto|now injection E0 as <-].
  - bnd E. destruct v as [xs k1]. injection E as _ <-. unfold delete_selection in E0. bnd E0. bnd E0. bnd E0. destruct v1 as [[ys mods] bufs]. bnd E0. pose proof (alive_delete_in _ _ _ P _ _ E2 A) as A1. cbn [snd] in A1.
    destruct ys; [injection E0 as _ <-; exact A1|]. bnd E0. injection E0 as _ <-. eapply alive_notify; eauto.
  - bnd E. injection E as _ <-. eapply alive_appended; eauto.
  - bnd E. injection E as _ <-. eapply alive_edit; [exact E0|exact Logic.I|]. apply alive_set; auto. apply alive_new.
  - bnd E. injection E as _ <-. unfold message in E0. bnd E0. injection E0 as <-. cbn [k_buffers emit]. eapply alive_appended; [exact E|exact A|]. intro X. apply app_eq_nil in X. destruct X as [_ X]. discriminate.
  - bnd E. injection E as _ <-. unfold error in E0. bnd E0. injection E0 as <-. cbn [k_buffers emit]. eapply alive_appended; [exact E|exact A|]. intro X. apply app_eq_nil in X. destruct X as [_ X]. discriminate.
  - bnd E. injection E as _ <-. eapply alive_debug; eauto.
  - bnd E. destruct v. injection E as _ <-. exact A.
  - bnd E. injection E as _ <-. unfold add_client in E0. bnd E0. bnd E0. destruct v1. bnd E0. injection E0 as <-. cbn [k_buffers emit]. eapply alive_debug; [eassumption|exact A].
  - bnd E. injection E as _ <-. unfold remove_client in E0. eapply alive_debug; [eassumption|exact A].
Qed.
Theorem C23_partial : forall G pol k b u, policy_wrap pol -> reach_no_reload G pol k -> get (k_buffers k) b = Some u -> 0 < length (txt (b_content u)).
Proof.
  intros G pol k b u P R. assert (all_alive (k_buffers k)) as A.
  { induction R as [cwd args k E|d c k r k' R IH N E|k k' R IH S].
    - unfold editor_init in E. bnd E. bnd E. eapply alive_add_view; eauto. apply alive_debug in E0; [|constructor]. apply alive_debug in E1; auto. apply alive_set; auto. apply alive_new.
    - eapply alive_call; eauto.
    - destruct S as (_ & _ & Pm & _). unfold all_alive in *. eapply Permutation_Forall; eauto. }
  intro E. destruct (alive_get _ _ _ A E) as [_ T]. destruct (txt (b_content u)); [congruence|cbn; lia].
Qed.
Print Assumptions C23_partial.

(** reloading a file can empty its buffer: "ab\n" on disk, then "x" *)
Definition disk_of (x : text) : disk := mkDisk (fun _ => Some x) (fun _ => None) 0.
Fixpoint run_on (G : Graphemes) (pol : policy) (cs : list (disk * call)) (k : core) : res core :=
  match cs with [] => Ok k | (d, c) :: r => '(_, k) <- run_call G pol d c k ;; run_on G pol r k end.
Lemma run_on_reach G pol cs : forall k k', reach G pol k -> run_on G pol cs k = Ok k' -> reach G pol k'.
Proof.
  induction cs as [|[d c] cs IH]; intros k k' R E; cbn [run_on] in E; [congruence|]. bnd E. destruct v as [r k1]. eapply IH; [|exact E]. eapply reach_call; eauto.
Qed.
Definition reload_calls : list (disk * call) :=
  [(no_disk, CJoin 1); (disk_of (str "ab" ++ [LF]), CEdit 1 (str "f") false); (disk_of (str "x"), CEdit 1 (str "f") false)].
Lemma run_on_text G pol cwd args cs b x :
  (match (k <- editor_init G cwd args ;; run_on G pol cs k) with Ok k => text_of k b | _ => None end) = Some x ->
  exists k, reach G pol k /\ text_of k b = Some x.
Proof.
  destruct (editor_init G cwd args) as [k0| |] eqn:E0; cbn [bind]; try discriminate. destruct (run_on G pol cs k0) as [k| |] eqn:E; try discriminate.
  intro H. exists k. split; auto. eapply run_on_reach; [|exact E]. eapply reach_init; eauto.
Qed.
Theorem C23_refuted : exists k, reach utf8_graphemes pol_wrap k /\ text_of k (str "f") = Some [].
Proof. apply (run_on_text _ _ (str "/w") (str "ced") reload_calls). vm_compute. reflexivity. Qed.
Print Assumptions C23_refuted.

(** deleting everything, again and again, is covered by [C23_partial] *)
Definition emptied : list call := [CJoin 1; CScratch 1 (str "a") (str "ab" ++ [LF]); CMove 1 MEnd true; CDeleteSelection 1; CDeleteSelection 1; CAppend (str "a") (str "x"); CDeleteSelection 1].
Lemma run_nr G pol d cs : Forall (fun c => forall k, no_reload d k c) cs -> forall k k', reach_no_reload G pol k -> run_calls G pol d cs k = Ok k' -> reach_no_reload G pol k'.
Proof.
  induction 1 as [|c cs N F IH]; intros k k' R E; cbn [run_calls] in E; [congruence|]. destruct (run_call G pol d c k) as [[r k1]| |] eqn:E1; try discriminate. cbn [bind] in E.
  eapply IH; [|exact E]. eapply nr_call; eauto.
Qed.
Lemma session_nr cs k : Forall (fun c => forall k, no_reload no_disk k c) cs -> session cs = Ok k -> reach_no_reload utf8_graphemes pol_wrap k.
Proof.
  intros F E. unfold session in E. destruct (editor_init _ _ _) as [k0| |] eqn:E0; try discriminate. cbn [bind] in E.
  eapply run_nr; [exact F|eapply nr_init; exact E0|exact E].
Qed.
Example C23_demo : exists k, session emptied = Ok k /\ reach_no_reload utf8_graphemes pol_wrap k /\ text_of k (str "a") = Some (str "x").
Proof.
  exists (get_ok (core_new []) (session emptied)). assert (session emptied = Ok (get_ok (core_new []) (session emptied))) as E by (apply session_state; vm_compute; reflexivity).
  split; auto. split; [|vm_compute; reflexivity]. eapply session_nr; [|exact E]. repeat constructor; discriminate.
Qed.
