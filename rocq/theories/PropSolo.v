(** C72 for a whole server with one client and the scripts of the program: what the client was shown last is what its view shows. *)
From Coq Require Import String List Arith Lia ZArith Bool Permutation.
From Verif Require Import Base ListFacts PieceTable PieceTableSpec PieceTableFacts PieceTableEdits Coords CoordsFacts Utf8 Utf8Facts HistoryFacts History Diff Selection NavFacts PropNav Maps StackMap Fmt Buffer View ViewSpec ViewFacts Json Proto Keys Core CoreSpec CoreInv CoreOps CoreAll Profiles FreshSpec PropFresh PropCore Payload Menu MenuSpec PropMenu Modal PropModal Editor EditorSpec EditorFacts PropEditor EditorTame ServerFacts Shipped PropShipped PropTyping Server ServerSpec PropServer SoloSpec.
Import ListNotations.

(** ** the core *)
(** a buffer that is not empty, and whose file was read after [t] *)
Definition healthy (t : nat) (u : buffer) : Prop :=
  acc (b_content u) /\ txt (b_content u) <> [] /\ forall p, b_source u = SFile p -> exists dt, b_sync u = Some dt /\ t <= dt.
Notation well t k := (every (healthy t) (k_buffers k)).
Lemma with_txt s : s <> [] -> txt (pt_with_text s) = s.
Proof. intro H. destruct (sim_init s H) as [(_ & _ & T & _) _]. exact T. Qed.
Section Core.
Variable G : Graphemes.
Variable pol : policy.
Hypothesis P : policy_wrap pol \/ policy_succ pol.
Variable t : nat.
Lemma hl_scratch n x : healthy t (new_scratch n x).
Proof. assert (match x with [] => [LF] | _ => x end <> []) as H by (destruct x; discriminate). split; [now apply with_acc|]. split; [cbn [new_scratch b_content]; now rewrite with_txt|discriminate]. Qed.
Lemma hl_file d p u : undisturbed t d -> new_file d p = Ok u -> healthy t u.
Proof.
  intros [Hn _] E. unfold new_file in E. bnd E. injection E as <-. assert ((if ends_lf v then v else v ++ [LF]) <> []) as H.
  { destruct (ends_lf v) eqn:Q; [|intro X; apply app_eq_nil in X; destruct X; discriminate]. intros ->. discriminate. }
  split; [now apply with_acc|]. split; [cbn [b_content]; now rewrite with_txt|]. intros q _. exists (dk_now d). split; [reflexivity|exact Hn].
Qed.
Lemma hl_append x u u' : healthy t u -> x <> [] -> buf_append x u = Ok u' -> healthy t u'.
Proof.
  intros (A & N & S) Hx E. unfold buf_append in E. bnd E. injection E as <-. split; [eapply append_acc; eauto|]. split; [|exact S]. cbn [set_content b_content]. destruct (append_spec x (b_content u) (proj1 A) Hx) as (t2 & E2 & _ & T & _). rewrite E2 in E0. injection E0 as <-. rewrite T.
  unfold s_append. intro X. apply app_eq_nil in X. tauto.
Qed.
Lemma hl_load p d u r u' : undisturbed t d -> healthy t u -> load_from_disk p d u = Ok (r, u') -> healthy t u'.
Proof.
  intros [_ U] (A & N & S) E. unfold load_from_disk in E. destruct (b_source u) as [n|f] eqn:Q; [injection E as _ <-; split; [exact A|]; split; [exact N|]; intros g X; congruence|].
  destruct (is_synced d u) eqn:Y; [injection E as _ <-; split; [exact A|]; split; [exact N|]; intros g X; rewrite Q in X; exact (S g X)|]. exfalso. unfold is_synced in Y. rewrite Q in Y. destruct (S f eq_refl) as (dt & Z & Le). rewrite Z in Y.
  destruct (dk_read d f) as [x|] eqn:Rd; [|discriminate]. destruct (U f) as (m & M & Lt); [congruence|]. rewrite M in Y. apply Nat.ltb_ge in Y. lia.
Qed.
Lemma hl_delete p ss u xs v v' : policy_wrap p -> healthy t u -> delete_sels G p ss (b_content u) = Ok (xs, v) -> (if pt_is_empty v then pt_append [LF] v else Ok v) = Ok v' -> healthy t (set_content u v').
Proof.
  intros Pw (A & N & S) E1 E2. pose proof (delete_sels_acc _ _ _ Pw _ _ _ E1 A) as A1. pose proof (txt_nil_empty v (proj1 A1)) as Em. destruct (pt_is_empty v).
  - destruct (append_spec [LF] v (proj1 A1)) as (t2 & E3 & _ & T & _); [discriminate|]. split; [|split; [|exact S]].
    + refine (append_acc [LF] v v' A1 _ E2). discriminate.
    + rewrite E3 in E2. injection E2 as <-. cbn [set_content b_content]. rewrite T. unfold s_append. intro X. apply app_eq_nil in X. destruct X; discriminate.
  - injection E2 as <-. split; [exact A1|]. split; [|exact S]. cbn [set_content b_content]. intro X. rewrite X in Em. discriminate.
Qed.
Lemma well_call d c k r k' : undisturbed t d -> feeds c -> run_call G pol d c k = Ok (r, k') -> well t k -> well t k'.
Proof.
  intros U F E W. assert (exists p, policy_wrap p /\ run_call G p d c k = Ok (r, k')) as (p & Pw & E').
  { destruct P as [Q|Q]; [eauto|]. exists pol_wrap. split; [exact pol_wrap_ok|]. apply (le_call pol Q). exact E. }
  refine (every_call G p (undisturbed t) (healthy t) hl_scratch hl_file hl_append (hl_load p) _ d c k r k' U F E' W). intros ss u xs v v'. now apply hl_delete.
Qed.
Lemma well_init cwd args k : editor_init G cwd args = Ok k -> well t k.
Proof. exact (every_init G (healthy t) hl_scratch hl_append cwd args k). Qed.
Lemma well_full k : well t k -> no_empty_buffer k.
Proof. intros W b x Gx. apply (every_get (healthy t)) in Gx; [|exact W]. destruct Gx as (A & N & _). rewrite txt_nil_empty by apply A. now destruct (txt (b_content x)). Qed.

(** before anybody joined *)
Definition unvisited (k : core) : Prop := k_clients k = sm_new /\ exists v, sm_latest_value (k_views k) = Some v /\ shows v b_debug.
Lemma unvisited_init cwd args k : editor_init G cwd args = Ok k -> unvisited k.
Proof.
  intro E0. unfold editor_init in E0. bnd E0. bnd E0. pose proof (debug_frame _ _ _ _ E) as (_ & F2 & F3 & _). pose proof (debug_frame _ _ _ _ E1) as (_ & F5 & F6 & _).
  unfold add_view in E0. destruct (insert_ok (view_key (add_lens (mkLens b_scratch FWhole) (add_lens (mkLens b_debug FWhole) []))) (add_lens (mkLens b_scratch FWhole) (add_lens (mkLens b_debug FWhole) [])) (k_views (open_scratch b_scratch [] v0))) as [o X]. rewrite X in E0. cbn [bind] in E0. injection E0 as <-.
  unfold unvisited. cbn [set_cmap set_clients set_views k_clients k_views]. unfold cmap. cbn [open_scratch set_buffers set_views k_clients k_views]. rewrite F5, F2. split; [reflexivity|]. exists (add_lens (mkLens b_scratch FWhole) (add_lens (mkLens b_debug FWhole) [])). split; [|vm_compute; auto].
  unfold sm_latest_value. cbn [sm_stack nth_error sm_map]. apply get_set_same.
Qed.
Lemma unvisited_debug d x k r k' : unvisited k -> run_call G pol d (CDebug x) k = Ok (r, k') -> unvisited k'.
Proof. intros [A B] E. cbn [run_call] in E. bnd E. injection E as _ <-. apply debug_frame in E0. destruct E0 as (_ & F2 & F3 & _). unfold unvisited. now rewrite F2, F3. Qed.
Lemma unvisited_shuffle k k' : inv k -> unvisited k -> shuffle k k' -> unvisited k'.
Proof.
  intros I [A (v & B & C)] (_ & _ & _ & S4 & S5 & S6 & m & S7 & S8). split.
  - unfold cmap in *. rewrite A in *. cbn [sm_new sm_map] in S7. apply Permutation_nil in S7. subst m. inversion S8. destruct (k_clients k') as [st mp]. cbn [sm_new sm_stack sm_map] in *. subst. reflexivity.
  - exists v. split; [|exact C]. unfold sm_latest_value in *. rewrite <- S4. destruct (nth_error (sm_stack (k_views k)) 0) as [key|]; [|discriminate]. apply get_in in B.
    assert (uniq (vmap k')) as U by (unfold uniq in *; eapply Permutation_NoDup; [apply Permutation_map; exact S5|apply (i_0 _ I)]). apply get_uniq; [exact U|]. eapply Permutation_in; [exact S5|exact B].
Qed.
Lemma joined_current d j k r k' : reach G pol k -> unvisited k -> run_call G pol d (CJoin j) k = Ok (r, k') -> current G k' j.
Proof. intros R (Nc & v & Lv & Sv) E. eapply C72_refreshed; [exact R|exact E|]. cbn [refreshes]. exists v. split; [exact Sv|]. left. split; [reflexivity|]. rewrite Nc. exact Lv. Qed.
Definition own (j : nat) (c : call) : Prop := by_client j c /\ feeds c.
Lemma own_run d j cs : undisturbed t d -> Forall (own j) cs -> forall k k', reach G pol k -> well t k -> connected k j -> current G k j -> run_calls G pol d cs k = Ok k' ->
  well t k' /\ current G k' j.
Proof.
  intros U F. induction F as [|c cs [B Fe] F IH]; intros k k' R W Cn Cu E; cbn [run_calls] in E; [injection E as <-; auto|]. bnd E. destruct v as [r k1]. pose proof (reach_inv _ _ _ R) as I.
  apply (IH k1); [eapply reach_call; eauto|eapply well_call; eauto| | |exact E].
  - apply (call_clients G pol d c k r k1 (i_0 _ I) E0). destruct c; cbn [by_client] in B; try contradiction; exact Cn.
  - eapply keeps_current; [|exact Cu]. eapply own_keeps; eauto. intros _. now apply well_full.
Qed.
Lemma well_run d j cs : undisturbed t d -> Forall (own j) cs -> forall k k', well t k -> run_calls G pol d cs k = Ok k' -> well t k'.
Proof. intros U F. induction F as [|c cs [B Fe] F IH]; intros k k' W E; cbn [run_calls] in E; [injection E as <-; auto|]. bnd E. destruct v as [r k1]. apply (IH k1); [eapply well_call; eauto|exact E]. Qed.
End Core.

(** ** the editor *)
Section Editor.
Variable G : Graphemes.
Variable pol : policy.
Variable u : regex_crate.
Variable se : serde.
Variable R : lua_rest.
Notation L := (shipped R).
Notation editor := (editor L).
Notation handle := (handle G pol u se L).
Hypothesis PO : pairs_ok R.

(** what a request of client [id] does to the core: calls of its own, and, if it quits, its removal *)
Definition outcome_of (w : world) (id : nat) (e e' : editor) : Prop :=
  (exists cs, Forall (own id) cs /\ run_calls G pol (w_disk w) cs (ed_core L e) = Ok (ed_core L e')) \/
  (exists r, run_call G pol (w_disk w) (CLeave id) (ed_core L e) = Ok (r, ed_core L e')).
Lemma own_core w id c e e' : own id c -> do_core G pol L w c e = Ok e' -> outcome_of w id e e'.
Proof. intros O E. apply do_core_fields in E. destruct E as (r & k & E & ->). left. exists [c]. split; [constructor; [exact O|constructor]|]. cbn [run_calls]. rewrite E. reflexivity. Qed.
Lemma own_on w id c e r e' : own id c -> on_core G pol L w c e = Ok (r, e') -> outcome_of w id e e'.
Proof. intros O E. eapply own_core; [exact O|]. unfold do_core. rewrite E. reflexivity. Qed.
Lemma same_core w id e e' : ed_core L e' = ed_core L e -> outcome_of w id e e'.
Proof. intro Q. left. exists []. split; [constructor|]. cbn [run_calls]. now rewrite Q. Qed.
Lemma show_core w id m key s b e e' : show_menu u L w id m key s b e = Ok e' -> ed_core L e' = ed_core L e.
Proof. unfold show_menu. intro E. bnd E. injection E as <-. reflexivity. Qed.
Ltac mine := split; [first [reflexivity|exact Logic.I]|exact Logic.I].
Lemma action_own w a c id e o e' : a <> AExec -> run_action G pol u L w a c id e = Ok (o, e') -> outcome_of w id e e'.
Proof.
  intros N E. destruct a; cbn [run_action] in E; try congruence.
  - unfold submenu_action in E. bnd E. bnd E. injection E as _ <-. apply same_core. eapply show_core; eauto.
  - unfold command_quit in E. bnd E. injection E as _ <-. apply do_core_fields in E0. destruct E0 as (r & k & E & ->). right. exists r. exact E.
  - unfold command_view_delete in E. bnd E. injection E as _ <-. eapply own_core; [|exact E0]. mine.
  - unfold command_edit in E. bnd E. injection E as _ <-. eapply own_core; [|exact E0]. mine.
  - unfold command_edit in E. bnd E. injection E as _ <-. eapply own_core; [|exact E0]. mine.
  - unfold command_view in E. bnd E. destruct v. injection E as _ <-. eapply own_on; [|exact E0]. mine.
  - unfold command_view_add in E. bnd E. destruct v. injection E as _ <-. eapply own_on; [|exact E0]. mine.
  - unfold command_view_remove in E. bnd E. destruct v. injection E as _ <-. eapply own_on; [|exact E0]. mine.
Qed.
Lemma select_own w id p e o e' : menus_ok (ed_menus L e) -> sp_command p <> str "exec" -> command_menu_select G pol u L w id p e = Ok (o, e') -> outcome_of w id e e'.
Proof.
  unfold command_menu_select. intros M N E. destruct (get (ed_menus L e) (sp_command p)) as [m|] eqn:Q; [|injection E as _ <-; now apply same_core]. cbv zeta in E.
  destruct (get_forall2 _ _ _ _ _ M Q) as (m0 & H0 & K). apply get_in in H0.
  assert (forall i, In i (mn_entries m) -> it_action i <> AExec) as A.
  { intros i Hi. destruct K as [->|(w' & k' & ->)]; [|eapply items_no_exec; eauto]. exfalso. clear - H0 Hi. destruct H0 as [X|[X|[X|[X|[X|[X|[X|[]]]]]]]]; injection X as _ X2; subst m0; exact Hi. }
  match type of E with match ?x with _ => _ end = _ => destruct x as [i|] eqn:F; [|injection E as _ <-; now apply same_core] end.
  eapply action_own; [|exact E]. apply A. unfold menu_get in F. destruct (find (fun i => eqb (it_key i) (sp_choice p)) _) as [j|] eqn:F1.
  - injection F as <-. apply find_some in F1. apply F1.
  - destruct (is_prompt m); [|discriminate]. apply find_some in F. apply F.
Qed.
Lemma leave_core w id e e' : plain_session (ed_session L e) -> editor_remove_client G pol L w id e = Ok e' ->
  exists r, run_call G pol (w_disk w) (CLeave id) (ed_core L e) = Ok (r, ed_core L e') /\ ed_session L e' = ed_session L e.
Proof.
  intros Pl E. unfold editor_remove_client in E. bnd E. apply do_core_fields in E0. destruct E0 as (r & k & E0 & ->). bnd E. destruct v as [x e1]. injection E as <-. exists r.
  unfold exec_lua in E1. change (lu_exec L) with (exec_source R) in E1. change (ed_session L (set_core L e k)) with (ed_session L e) in E1. rewrite exec_env in E1 by exact Pl. cbn [Editor.run_script bind set_lua ed_lua] in E1. rewrite exec_remove in E1. unfold remove_client_lua in E1. cbn [Editor.run_script bind] in E1. injection E1 as _ <-.
  split; [exact E0|reflexivity].
Qed.
Lemma key_own id c : key_call id c -> own id c.
Proof. intros [(m & x & ->)|[->|[->| ->]]]; split; first [reflexivity|exact Logic.I]. Qed.
Lemma line_own w id p line e r e' : plain_session (ed_session L e) -> menus_ok (ed_menus L e) -> at_place R e id p -> no_script line -> handle w id line e = Ok (r, e') ->
  ed_session L e' = ed_session L e /\ (exists q, at_place R e' id q) /\ outcome_of w id e e'.
Proof.
  intros PS M A N E. destruct (line_quiet G pol u se R _ _ _ _ _ _ M N E) as [(Kn & Ql & Qs)|(q & jp & ks & Pq & Me & Pa & D & K)].
  - split; [exact Qs|]. split; [destruct A as (o & A); exists p, o; now rewrite Ql|]. clear Ql Qs A. unfold Editor.handle in E.
    destruct (parse_request line) as [q|] eqn:Pq; [|bnd E; injection E as _ <-; eapply own_core; [|eassumption]; mine]. destruct (N q Pq) as [N1 N2].
    destruct (eqb (rq_method q) (str "edit")). { apply with_case in E. destruct E as [->|(j & x & o & _ & _ & E)]; [now apply same_core|]. unfold command_edit in E. bnd E. injection E as _ <-. eapply own_core; [|exact E0]. mine. }
    destruct (eqb (rq_method q) (str "quit")). { unfold answer in E. bnd E. destruct v. injection E as _ <-. apply (action_own w AQuit [] id e o e0); [discriminate|exact E0]. }
    destruct (eqb (rq_method q) (str "view")). { apply with_case in E. destruct E as [->|(j & x & o & _ & _ & E)]; [now apply same_core|]. apply (action_own w AViewSelect x id e o e'); [discriminate|exact E]. }
    destruct (eqb (rq_method q) (str "view-delete")). { unfold answer in E. bnd E. destruct v. injection E as _ <-. apply (action_own w AViewDelete [] id e o e0); [discriminate|exact E0]. }
    destruct (eqb (rq_method q) (str "view-add")). { apply with_case in E. destruct E as [->|(j & x & o & _ & _ & E)]; [now apply same_core|]. apply (action_own w AViewAdd x id e o e'); [discriminate|exact E]. }
    destruct (eqb (rq_method q) (str "view-remove")). { apply with_case in E. destruct E as [->|(j & x & o & _ & _ & E)]; [now apply same_core|]. apply (action_own w AViewRemove x id e o e'); [discriminate|exact E]. }
    destruct (eqb (rq_method q) (str "menu")). { apply with_case in E. destruct E as [->|(j & x & o & _ & _ & E)]; [now apply same_core|]. unfold command_menu in E. destruct (get _ _); [|injection E as _ <-; now apply same_core]. bnd E. injection E as _ <-. apply same_core. eapply show_core; eauto. }
    destruct (eqb (rq_method q) (str "menu-select")) eqn:K2. { apply eqb_ok in K2. apply with_case in E. destruct E as [->|(j & x & o & A & B & E)]; [now apply same_core|]. eapply select_own; [exact M|apply N2; split; eauto|exact E]. }
    destruct (eqb (rq_method q) (str "keys")) eqn:K4. { apply with_case in E. destruct E as [->|(j & ks & o & A & B & E)]; [now apply same_core|]. unfold keys_of in Kn. rewrite Pq, K4, A, B in Kn. subst ks. cbn [command_keys] in E. injection E as _ <-. now apply same_core. }
    destruct (eqb (rq_method q) (str "exec")) eqn:K3; [apply eqb_ok in K3; contradiction|]. bnd E. injection E as _ <-. eapply own_core; [|eassumption]. mine.
  - assert (asks dec_keys (str "keys") ks q) as Ak by (split; eauto). rewrite (handle_keys _ _ _ _ _ _ _ _ _ _ Pq _ Ak) in E. unfold answer in E. bnd E. destruct v as [o e2]. injection E as _ <-.
    assert (Forall wf_event ks) as Fk by (rewrite <- K; apply keys_of_wf). destruct (keys_run G pol R PO w id ks Fk p e PS A) as (p' & cs & D1 & Rn). rewrite E0 in Rn. destruct (run_calls G pol (w_disk w) cs (ed_core L e)) as [k'| |] eqn:Rc; [|discriminate..].
    destruct Rn as (e3 & out & X & _ & Ek & _ & A1 & _ & (Rs & _)). injection X as _ <-. split; [exact Rs|]. split; [eauto|]. left. exists cs. split; [eapply Forall_impl; [|eapply documented_keys_calls; exact D1]; intro c; apply key_own|]. now rewrite Rc, Ek.
Qed.
End Editor.

(** ** the server *)
Section Server.
Variable G : Graphemes.
Variable pol : policy.
Hypothesis P : policy_wrap pol \/ policy_succ pol.
Variable u : regex_crate.
Variable se : serde.
Variable R : lua_rest.
Notation L := (shipped R).
Notation smoves := (smoves G pol u se L).
Notation runs := (runs G pol u se L).
Notation sinv := (sinv G pol u se L).
Hypothesis PO : pairs_ok R.
Variable session : text.
Hypothesis PS : plain_session session.
Variable t : nat.
Notation core_of s := (ed_core L (sv_editor L s)).

Definition source_of (v : sevent) : nat := match v with VJoin c | VLeave c | VMessage c _ => c end.
Definition no_joins (l : list sevent) : Prop := forall c, ~ In (VJoin c) l.
Record solo (s : server L) : Prop := {
  so_well : well t (core_of s);
  so_session : ed_session L (sv_editor L s) = session;
  so_from : forall v, In v (sv_events L s) -> source_of v = 1;
  so_readers : forall d, In d (sv_readers L s) -> d = 1;
  so_lines : forall d line, In (VMessage d line) (sv_events L s) -> no_script line;
  so_index : forall d, In d (sv_index L s) -> d = 1;
  so_phase :
    (sv_next L s = 1 /\ sv_events L s = [] /\ sv_readers L s = [] /\ sv_index L s = [] /\ unvisited (core_of s)) \/
    (sv_next L s = 2 /\ sv_index L s = [] /\ unvisited (core_of s) /\ exists rest, sv_events L s = VJoin 1 :: rest /\ no_joins rest) \/
    (sv_next L s = 2 /\ no_joins (sv_events L s) /\ (In 1 (sv_index L s) -> current G (core_of s) 1 /\ exists p, at_place R (sv_editor L s) 1 p)) }.
Lemma no_joins_snoc l v : no_joins l -> (forall c, v <> VJoin c) -> no_joins (l ++ [v]).
Proof. intros N H c I. apply in_app_or in I. destruct I as [I|[->|[]]]; [exact (N c I)|exact (H c eq_refl)]. Qed.
Lemma solo_push s v readers : solo s -> sv_next L s = 2 -> source_of v = 1 -> (forall c, v <> VJoin c) -> (forall d line, v = VMessage d line -> no_script line) -> (forall d, In d readers -> d = 1) ->
  solo (mkSv L (sv_editor L s) (sv_index L s) (sv_events L s ++ [v]) readers (sv_next L s) (sv_taken L s) (sv_log L s) (sv_done L s)).
Proof.
  intros [A B C D E F H] N2 Sv Nj Nl Rd. split; cbn [sv_editor sv_index sv_events sv_readers sv_next]; auto.
  - intros x I. apply in_app_or in I. destruct I as [I|[<-|[]]]; auto.
  - intros d line I. apply in_app_or in I. destruct I as [I|[X|[]]]; eauto.
  - destruct H as [(X & _)|[(_ & I & U & rest & Ev & Nr)|(_ & Ne & Cu)]]; [congruence| |].
    + right. left. split; [exact N2|]. split; [exact I|]. split; [exact U|]. exists (rest ++ [v]). split; [rewrite Ev; reflexivity|now apply no_joins_snoc].
    + right. right. split; [exact N2|]. split; [now apply no_joins_snoc|exact Cu].
Qed.
Lemma solo_move s m s' : sinv s -> solo s -> smoves s m (Ok s') -> (m = MAccept -> sv_next L s = 1) -> (forall c line, m = MLine c line -> no_script line) ->
  (forall w b, m = MEvent w b -> undisturbed t (w_disk w)) -> solo s'.
Proof.
  intros I S H Ma Ml Mw. pose proof (si_ed _ _ _ _ _ _ I) as Er0. pose proof (ereach_inv _ _ _ _ _ _ Er0) as Ei. remember (Ok s') as r eqn:Er. destruct H as [Dn|Dn|c line Dn Hc|c Dn Hc|broken x Dn Hx|w broken v rest Dn Ev]; try discriminate.
  - injection Er as <-. specialize (Ma eq_refl). destruct (so_phase _ S) as [(_ & Ev & Rd & Ix & U)|[(X & _)|(X & _)]]; [|congruence..]. split; cbn [accept sv_editor sv_index sv_events sv_readers sv_next].
    + apply S.
    + apply S.
    + rewrite Ev, Ma. intros v [<-|[]]. reflexivity.
    + rewrite Rd, Ma. intros d [<-|[]]. reflexivity.
    + rewrite Ev. intros d line [X|[]]. discriminate.
    + apply S.
    + right. left. rewrite Ma, Ev. split; [reflexivity|]. split; [exact Ix|]. split; [exact U|]. exists []. split; [reflexivity|intros c []].
  - injection Er as <-. assert (c = 1) as -> by (now apply (so_readers _ S)). assert (sv_next L s = 2) as N2 by (destruct (so_phase _ S) as [(_ & _ & Rd & _)|[(X & _)|(X & _)]]; [rewrite Rd in Hc; destruct Hc|exact X..]).
    apply (solo_push s (VMessage 1 line) _ S N2); [reflexivity|discriminate| |apply S]. intros d l X. injection X as <- <-. eauto.
  - injection Er as <-. assert (c = 1) as -> by (now apply (so_readers _ S)). assert (sv_next L s = 2) as N2 by (destruct (so_phase _ S) as [(_ & _ & Rd & _)|[(X & _)|(X & _)]]; [rewrite Rd in Hc; destruct Hc|exact X..]).
    apply (solo_push s (VLeave 1) _ S N2); [reflexivity|discriminate|discriminate|]. intros d Hd. apply filter_In in Hd. apply (so_readers _ S). apply Hd.
  - injection Er as <-. destruct S as [A B C D E F H]. split; assumption.
  - specialize (Mw w broken eq_refl). destruct (event_spec G pol u se L _ _ _ _ _ _ I Er) as (I' & Ic & _ & E1 & E2 & E3 & _ & _ & _ & e & He & Ee).
    assert (ed_core L (sv_editor L s') = ed_core L e /\ ed_lua L (sv_editor L s') = ed_lua L e /\ ed_session L (sv_editor L s') = ed_session L e) as (K1 & K2 & K3) by (rewrite Ee; repeat split).
    assert (plain_session (ed_session L (sv_editor L s))) as PSs by now rewrite (so_session _ S).
    assert (source_of v = 1) as Sv by (apply (so_from _ S); rewrite Ev; now left).
    assert (forall v0, In v0 rest -> source_of v0 = 1) as Fr by (intros v0 Hv; apply (so_from _ S); rewrite Ev; now right).
    assert (forall d line, In (VMessage d line) rest -> no_script line) as Ls by (intros d line Hv; eapply (so_lines _ S); rewrite Ev; right; exact Hv).
    assert (forall d, In d (sv_index L s') -> d = 1) as Ix.
    { intros d Hd. destruct v as [c|c|c line]; cbn [index_change source_of] in *; subst c.
      - apply Ic in Hd. destruct Hd as [->|Hd]; [reflexivity|now apply (so_index _ S)].
      - destruct Ic as [_ Ic]. apply Ic in Hd. apply (so_index _ S), Hd.
      - destruct Ic as [_ Ic]. apply Ic in Hd. apply (so_index _ S), Hd. }
    assert (forall x, at_place R e 1 x -> at_place R (sv_editor L s') 1 x) as Ap by (intros x (o & Ho); exists o; now rewrite K2).
    destruct v as [c|c|c line]; cbn [source_of] in Sv; subst c; cbn [EditorTame.happens] in He.
    + destruct (so_phase _ S) as [(_ & X & _)|[(N2 & Ix0 & U & rest0 & X & Nj)|(_ & Nj & _)]]; [congruence| |destruct (Nj 1); rewrite Ev; now left]. rewrite Ev in X. injection X as <-.
      apply (join_run G pol R PO) in He; [|exact PSs]. destruct He as (r & k & Ec & Ek & A & _ & (Rs & _) & _). split; rewrite ?E1, ?E2, ?E3, ?K1, ?K3, ?Ek; auto.
      * eapply well_call; [exact P|exact Mw| |exact Ec|apply S]. exact Logic.I.
      * rewrite Rs. apply S.
      * apply S.
      * right. right. split; [exact N2|]. split; [exact Nj|]. intros _. split; [|exists InNormal; auto]. eapply joined_current; [apply Ei|exact U|exact Ec].
    + destruct (so_phase _ S) as [(_ & X & _)|[(_ & _ & _ & rest0 & X & _)|(N2 & Nj & _)]]; [congruence|rewrite Ev in X; discriminate|].
      assert (exists r, run_call G pol (w_disk w) (CLeave 1) (ed_core L (sv_editor L s)) = Ok (r, ed_core L e) /\ ed_session L e = ed_session L (sv_editor L s)) as (r & Ec & Es).
      { eapply leave_core; eauto. }
      split; rewrite ?E1, ?E2, ?E3, ?K1, ?K3; auto.
      * eapply well_call; [exact P|exact Mw| |exact Ec|apply S]. exact Logic.I.
      * rewrite Es. apply S.
      * apply S.
      * right. right. split; [exact N2|]. split; [intros c Hc; apply (Nj c); rewrite Ev; now right|]. intro X. apply Ic in X. destruct X as [_ X]. congruence.
    + destruct (so_phase _ S) as [(_ & X & _)|[(_ & _ & _ & rest0 & X & _)|(N2 & Nj & Cu)]]; [congruence|rewrite Ev in X; discriminate|].
      destruct Ic as [H1 Ic]. destruct (Cu H1) as (Cu1 & p & A). bnd He. destruct v as [r e1]. injection He as <-. assert (no_script line) as Nl by (eapply (so_lines _ S); rewrite Ev; now left).
      destruct (line_own G pol u se R PO w 1 p line _ r e1 PSs ltac:(apply Ei) A Nl E) as (Es & (q & Aq) & [(cs & Fo & Ec)|(rr & Ec)]).
      * assert (well t (ed_core L e1) /\ current G (ed_core L e1) 1) as [W1 C1] by (eapply own_run; [exact P|exact Mw|exact Fo|apply Ei|apply S|apply (si_reg _ _ _ _ _ _ I); exact H1|exact Cu1|exact Ec]).
        split; rewrite ?E1, ?E2, ?E3, ?K1, ?K3; auto; [now rewrite Es; apply S|apply S|]. right. right. split; [exact N2|]. split; [intros c Hc; apply (Nj c); rewrite Ev; now right|]. intros _. split; [exact C1|eauto].
      * split; rewrite ?E1, ?E2, ?E3, ?K1, ?K3; auto; [|now rewrite Es; apply S|apply S|].
        -- eapply well_call; [exact P|exact Mw| |exact Ec|apply S]. exact Logic.I.
        -- right. right. split; [exact N2|]. split; [intros c Hc; apply (Nj c); rewrite Ev; now right|]. intro X. exfalso. apply (si_reg _ _ _ _ _ _ I') in X. rewrite K1 in X. apply (call_clients G pol _ _ _ _ _ (i_0 _ (reach_inv _ _ _ (ei_core _ _ _ _ Ei))) Ec) in X. destruct X; congruence.
Qed.
Lemma solo_start e : started_plain G pol R session e -> solo (server_new L e).
Proof.
  intros (w & cwd & args & st & path & E). unfold editor_new in E. bnd E. bnd E. destruct v0 as [x e1]. unfold prelude in E1. cbn [run_script lua_call] in E1. bnd E1. destruct v0 as [r1 e2]. bnd E1. destruct v0 as [r2 e3]. injection E1 as <- <-. injection E as <-.
  unfold on_core in E2, E3. cbn [ed_core] in E2. bnd E2. destruct v0 as [q1 k1]. injection E2 as _ <-. cbn [set_core ed_core] in E3. bnd E3. destruct v0 as [q2 k2]. injection E3 as _ <-.
  pose proof (well_init G pol P t _ _ _ E0) as W0. pose proof (unvisited_init G _ _ _ E0) as U0. pose proof (unvisited_debug _ _ _ _ _ _ _ U0 E) as U1. pose proof (unvisited_debug _ _ _ _ _ _ _ U1 E1) as U2.
  assert (undisturbed t (mkDisk (fun _ => None) (fun _ => None) t)) as Un by (split; [apply Nat.le_refl|]; intros f X; destruct (X eq_refl)).
  assert (well t k1) as W1 by (refine (well_call G pol P t _ (CDebug _) v q1 k1 Un Logic.I _ W0); exact E). assert (well t k2) as W2 by (refine (well_call G pol P t _ (CDebug _) k1 q2 k2 Un Logic.I _ W1); exact E1).
  split; cbn [server_new sv_editor sv_index sv_events sv_readers sv_next set_lua set_core ed_core ed_session]; try (intros; contradiction); auto.
  left. repeat (split; [reflexivity|]). exact U2.
Qed.
Lemma started_new e : started_plain G pol R session e -> exists w cwd args st scripts, editor_new G pol L w session cwd args st scripts = Ok e.
Proof. intros (w & cwd & args & st & path & E). eauto 10. Qed.
Lemma solo_runs e ms s : started_plain G pol R session e -> runs (server_new L e) ms s -> accepted ms <= 1 ->
  (forall c line, In (MLine c line) ms -> no_script line) -> (forall w b, In (MEvent w b) ms -> undisturbed t (w_disk w)) -> sinv s /\ solo s /\ sv_next L s = S (accepted ms).
Proof.
  intros Se Rn. destruct (started_new e Se) as (w0 & cwd & args & st & scripts & E). pose proof (sinv_start G pol u se L _ _ _ _ _ _ _ E) as I0. induction Rn as [|ms s1 m s2 Rn IH H|ms s1 k Rn IH H]; intros Ac Nl Un.
  - split; [exact I0|]. split; [now apply solo_start|reflexivity].
  - unfold accepted in Ac. rewrite filter_app, app_length in Ac. cbn [filter] in Ac. destruct IH as (I1 & S1 & N1); [unfold accepted; lia|intros c line X; apply (Nl c); apply in_or_app; now left|intros w b X; apply (Un w b); apply in_or_app; now left|]. split; [eapply sinv_move; eauto|]. split.
    + eapply solo_move; [exact I1|exact S1|exact H| | |].
      * intros ->. cbn [length] in Ac. rewrite N1. unfold accepted. f_equal. lia.
      * intros c line ->. apply (Nl c). apply in_or_app. right. now left.
      * intros w b ->. apply (Un w b). apply in_or_app. right. now left.
    + unfold accepted in *. rewrite filter_app, app_length. cbn [filter]. remember (Ok s2) as r eqn:Er. destruct H as [Dn|Dn|c line Dn Hc|c Dn Hc|broken x Dn Hx|w broken v rest Dn Ev]; try discriminate; try (injection Er as <-; cbn [accept read_line read_end deliver sv_next length]; lia).
      destruct (event_spec G pol u se L _ _ _ _ _ _ I1 Er) as (_ & _ & _ & _ & _ & E3 & _). cbn [length]. lia.
  - destruct (IH Ac Nl Un) as (I1 & S1 & N1). split; [now apply sinv_shuffle|]. split; [|exact N1]. pose proof (ereach_inv _ _ _ _ _ _ (si_ed _ _ _ _ _ _ I1)) as Ei. pose proof (reach_inv _ _ _ (ei_core _ _ _ _ Ei)) as I.
    destruct S1 as [A B C D F X Ph]. split; cbn [with_editor sv_editor sv_index sv_events sv_readers sv_next set_core ed_core ed_session]; auto.
    + eapply every_shuffle; eauto.
    + destruct Ph as [(P1 & P2 & P3 & P4 & P5)|[(P1 & P2 & P3 & P4)|(P1 & P2 & P3)]].
      * left. repeat (split; [assumption|]). eapply unvisited_shuffle; eauto.
      * right. left. split; [assumption|]. split; [assumption|]. split; [|exact P4]. eapply unvisited_shuffle; eauto.
      * right. right. split; [assumption|]. split; [assumption|]. intro In1. destruct (P3 In1) as (Cu & p & At). split; [|exists p; exact At]. eapply C72_order; [apply Ei|apply (si_reg _ _ _ _ _ _ I1); exact In1|exact H|exact Cu].
Qed.
(** The scripts of the program, one client at most, which sends no scripts, and nobody else writes the files: what the client was
    shown last is, after every event and whatever it asks for, what its view shows now. *)
Theorem C72_one_client : forall e ms s, started_plain G pol R session e -> runs (server_new L e) ms s -> accepted ms <= 1 ->
  (forall c line, In (MLine c line) ms -> no_script line) -> (forall w b, In (MEvent w b) ms -> undisturbed t (w_disk w)) ->
  forall c, In c (sv_index L s) -> c = 1 /\ current G (core_of s) c.
Proof.
  intros e ms s Se Rn Ac Nl Un c Hc. destruct (solo_runs e ms s Se Rn Ac Nl Un) as (I & S & _). assert (c = 1) as -> by (now apply (so_index _ S)). split; [reflexivity|].
  destruct (so_phase _ S) as [(_ & _ & _ & X & _)|[(_ & X & _)|(_ & _ & Cu)]]; [rewrite X in Hc; destruct Hc..|]. now apply Cu.
Qed.
End Server.
Print Assumptions C72_one_client.
