(** Facts about the editor: its core is a core state, its menus are the default ones, what it broadcasts. *)
From Coq Require Import String List Arith Lia ZArith Bool Permutation.
From Verif Require Import Base ListFacts PieceTable Coords Utf8 Utf8Facts Diff Selection Maps StackMap Fmt Buffer View Json Proto Core CoreSpec CoreInv CoreOps Payload Menu PropMenu MenuOpen Editor EditorSpec MenusSpec.
Import ListNotations.

(** ** the core only ever adds messages *)
Lemma same_sent k k' : k_sent k' = k_sent k -> sent_ext k k'.
Proof. intro E. exists []. now rewrite app_nil_r. Qed.
Lemma add_view_ext v k k' : add_view v k = Ok k' -> sent_ext k k'.
Proof. unfold add_view. intro E. bnd E. destruct v0. injection E as <-. now apply same_sent. Qed.
Lemma delete_view_ext G id k r k' : delete_view G id k = Ok (r, k') -> sent_ext k k'.
Proof.
  unfold delete_view. intro E. destruct (negb _); [injection E as _ <-; apply ext_refl|]. destruct (sm_remove id (k_views k)) as [ov vs]. bnd E. bnd E. bnd E. bnd E. bnd E. bnd E. injection E as _ <-.
  apply append_ext in E1. apply drop_ext in E2. apply notify_ext in E5.
  destruct E1 as [l1 E1]. destruct E2 as [l2 E2]. destruct E5 as [l5 E5]. cbn in E1, E2, E5.
  assert (sent_ext v1 v2) as [l3 E3']. { destruct (vmap v1) eqn:V. - apply add_view_ext in E3. destruct E3 as [l E3]. exists l. rewrite E3. destruct (k_buffers v1); reflexivity. - injection E3 as <-. apply ext_refl. }
  exists (l1 ++ l2 ++ l3 ++ l5). rewrite E5, E3', E2, E1, <- !app_assoc. reflexivity.
Qed.
Lemma modify_view_ext G id f k k' : modify_view G id f k = Ok k' -> sent_ext k k'.
Proof.
  unfold modify_view. intro E. bnd E. cbv zeta in E. destruct (eqb _ _); [injection E as <-; apply ext_refl|]. bnd E. bnd E. destruct v1 as [r k1]. destruct r; [discriminate|]. injection E as <-.
  apply delete_view_ext in E2. eapply ext_trans; [|exact E2]. destruct (view_is_empty _); [injection E1 as <-; apply ext_refl|]. apply add_view_ext in E1. destruct E1 as [l E1]. exists l. exact E1.
Qed.
Lemma view_ext G id v k r k' : view_cmd G id v k = Ok (r, k') -> sent_ext k k'.
Proof.
  unfold view_cmd. intro E. destruct (view_exists k v).
  - bnd E. bnd E. bnd E. injection E as _ <-. apply notify_ext in E2. destruct E2 as [l E2]. now exists l.
  - destruct (buffer_exists k v); [|injection E as _ <-; apply ext_refl]. bnd E. bnd E. injection E as _ <-. apply notify_ext in E1. destruct E1 as [l E1]. now exists l.
Qed.
Lemma edit_ext G pol d id n s k k' : edit_cmd G pol d id n s k = Ok k' -> sent_ext k k'.
Proof.
  unfold edit_cmd. intro E. bnd E. destruct v as [nt k1]. bnd E. bnd E. destruct v0 as [r k3]. destruct r; [discriminate|]. bnd E.
  assert (sent_ext k k1) as A.
  { destruct s; [injection E0 as _ <-; destruct (buffer_exists k n); [apply ext_refl|now apply same_sent]|]. destruct (buffer_exists k n).
    - bnd E0. bnd E0. destruct v2 as [rl b]. bnd E0. injection E0 as _ <-. destruct rl; [apply append_ext in E6; destruct E6 as [l E6]; now exists l|injection E6 as <-; now apply same_sent].
    - bnd E0. injection E0 as _ <-. unfold open_file in E4. bnd E4. injection E4 as <-. now apply same_sent. }
  apply add_view_ext in E1. apply view_ext in E2. apply append_ext in E3. assert (sent_ext k v0) as B by eauto using ext_trans.
  destruct nt; [apply notify_ext in E; eauto using ext_trans|now injection E as <-].
Qed.
Lemma call_ext G pol d c k r k' : run_call G pol d c k = Ok (r, k') -> sent_ext k k'.
Proof.
  destruct c; cbn [run_call]; intro E.
  - bnd E. injection E as _ <-. eapply edit_ext; eauto.
  - bnd E. destruct v. injection E as _ <-. eapply view_ext; eauto.
  - bnd E. injection E as _ <-. unfold delete_current_view in E0. bnd E0. bnd E0. destruct v1 as [o k1]. destruct o; [discriminate|]. injection E0 as <-. eapply delete_view_ext; eauto.
  - bnd E. destruct v. injection E as _ <-. unfold add_to_current_view in E0. destruct (negb _); [injection E0 as _ <-; apply ext_refl|]. bnd E0. bnd E0. injection E0 as _ <-. eapply modify_view_ext; eauto.
  - bnd E. destruct v. injection E as _ <-. unfold remove_from_current_view in E0. destruct (negb _); [injection E0 as _ <-; apply ext_refl|]. bnd E0. bnd E0. injection E0 as _ <-. eapply modify_view_ext; eauto.
  - bnd E. injection E as _ <-. unfold move_cursor in E0. bnd E0. bnd E0. bnd E0. destruct (negb _); [apply notify_ext in E0; destruct E0 as [l E0]; now exists l|injection E0 as <-; now apply same_sent].
  - bnd E. destruct v as [xs k1]. injection E as _ <-. unfold delete_selection in E0. bnd E0. bnd E0. bnd E0. destruct v1 as [[xs' mods] bufs]. bnd E0. destruct xs'; [injection E0 as _ <-; now apply same_sent|]. bnd E0. injection E0 as _ <-. apply notify_ext in E4. destruct E4 as [l0 E4]. now exists l0.
  - bnd E. injection E as _ <-. eapply append_ext; eauto.
  - bnd E. injection E as _ <-. apply edit_ext in E0. destruct E0 as [l E0]. now exists l.
  - bnd E. injection E as _ <-. unfold message in E0. bnd E0. injection E0 as <-. apply append_ext in E. eapply ext_trans; eauto using emit_ext.
  - bnd E. injection E as _ <-. unfold Core.error in E0. cbv zeta in E0. bnd E0. injection E0 as <-. apply append_ext in E. eapply ext_trans; eauto using emit_ext.
  - bnd E. injection E as _ <-. eapply append_ext; eauto.
  - bnd E. destruct v. injection E as _ <-. unfold get_context in E0. apply ext_refl.
  - bnd E. injection E as _ <-. unfold add_client in E0. bnd E0. bnd E0. destruct v1. bnd E0. injection E0 as <-. apply append_ext in E2. destruct E2 as [l E2]. eapply ext_trans; [exists l; exact E2|apply emit_ext].
  - bnd E. injection E as _ <-. unfold remove_client in E0. apply append_ext in E0. destruct E0 as [l E0]. now exists l.
Qed.

Section Facts.
Variable G : Graphemes.
Variable pol : policy.
Variable u : regex_crate.
Variable se : serde.
Variable L : lua.
Notation editor := (editor L).
Notation ereach := (ereach G pol u se L).

(** ** what holds of every editor and is kept by everything it does *)
Definition core_out (o : list esent) : list sent :=
  flat_map (fun x => match o_what x with OCore n => [mkSent (o_to x) n] | _ => [] end) o.
(** a menu as it was created, possibly filled since *)
Definition menu_ok (m0 m : menu) : Prop := m = m0 \/ exists w k, m = populate w k m0.
Definition menus_ok (l : amap text menu) : Prop := Forall2 (fun a b => fst a = fst b /\ menu_ok (snd a) (snd b)) default_commands l.
(** the entries of the menus that were sent last are entries of the menus *)
Definition shown_ok (l : amap text menu) (o : list esent) : Prop := forall cmd mi, last_menu o cmd = Some mi ->
  exists m, get l cmd = Some m /\ Forall (fun x => exists i, In i (mn_entries m) /\ it_key i = en_value x) (me_entries mi).
(** the entries of the other menus are those that were sent when they were last opened *)
Definition offer_of (i : item) : offer := (it_key i, it_label i, it_descr i).
Definition opened_ok (l : amap text menu) (o : list esent) : Prop := forall cmd m, get l cmd = Some m -> is_prompt m = false ->
  Permutation (map offer_of (mn_entries m)) (opened_entries o cmd).
Record einv (e : editor) : Prop := {
  ei_core : reach G pol (ed_core L e);
  ei_menus : menus_ok (ed_menus L e);
  ei_out : core_out (ed_out L e) = k_sent (ed_core L e);
  ei_shown : shown_ok (ed_menus L e) (ed_out L e);
  ei_opened : opened_ok (ed_menus L e) (ed_out L e) }.

Lemma core_out_app a b : core_out (a ++ b) = core_out a ++ core_out b.
Proof. apply flat_map_app. Qed.
Lemma core_out_core l : core_out (map (fun s => mkES (m_to s) (OCore (m_what s))) l) = l.
Proof. induction l as [|[a b] l IH]; cbn; [reflexivity|]. unfold core_out in IH. now rewrite IH. Qed.
Lemma last_menu_snoc o x cmd : last_menu (o ++ [x]) cmd = match o_what x with OMenu m => if eqb (me_command m) cmd then Some m else last_menu o cmd | _ => last_menu o cmd end.
Proof. unfold last_menu. rewrite fold_left_app. reflexivity. Qed.
Lemma last_menu_core o l cmd : last_menu (o ++ map (fun s => mkES (m_to s) (OCore (m_what s))) l) cmd = last_menu o cmd.
Proof. unfold last_menu. rewrite fold_left_app. generalize (fold_left (fun a x => match o_what x with OMenu m => if eqb (me_command m) cmd then Some m else a | _ => a end) o None). induction l as [|x l IH]; intro a; cbn; auto. Qed.
Lemma opened_snoc o x cmd : opened_entries (o ++ [x]) cmd = match o_what x with OMenu m => if eqb (me_command m) cmd && eqb (me_search m) [] then map offered (me_entries m) else opened_entries o cmd | _ => opened_entries o cmd end.
Proof. unfold opened_entries, last_opened. rewrite fold_left_app. cbn [fold_left]. destruct (o_what x); try reflexivity. destruct (_ && _); reflexivity. Qed.
Lemma opened_core o l cmd : opened_entries (o ++ map (fun s => mkES (m_to s) (OCore (m_what s))) l) cmd = opened_entries o cmd.
Proof. unfold opened_entries, last_opened. rewrite fold_left_app. generalize (fold_left (fun a x => match o_what x with OMenu m => if eqb (me_command m) cmd && eqb (me_search m) [] then Some m else a | _ => a end) o None). induction l as [|x l IH]; intro a; cbn; auto. Qed.
Lemma set_core_inv e k : einv e -> reach G pol k -> sent_ext (ed_core L e) k -> einv (set_core L e k).
Proof.
  intros I R [l E]. constructor; [exact R|apply I| |unfold set_core, shown_ok; cbn [ed_out ed_menus]; intros cmd mi; rewrite last_menu_core; apply I|unfold set_core, opened_ok; cbn [ed_out ed_menus]; intros cmd m; rewrite opened_core; apply I]. unfold set_core. cbn [ed_out ed_core]. rewrite core_out_app, core_out_core, (ei_out e I). rewrite E, skipn_app, skipn_all, Nat.sub_diag. reflexivity.
Qed.
Lemma on_core_inv w c e r e' : einv e -> on_core G pol L w c e = Ok (r, e') -> einv e'.
Proof.
  unfold on_core. intros I E. bnd E. destruct v as [r0 k]. injection E as _ <-. apply set_core_inv; auto; [eapply reach_call; eauto; apply I|eapply call_ext; eauto].
Qed.
Lemma do_core_inv w c e e' : einv e -> do_core G pol L w c e = Ok e' -> einv e'.
Proof. unfold do_core. intros I E. bnd E. destruct v. injection E as <-. eapply on_core_inv; eauto. Qed.
Lemma send_inv e to x : einv e -> (forall n, x <> OCore n) -> (forall m, x <> OMenu m) -> einv (send L e to x).
Proof.
  intros I N N'. constructor; try apply I.
  - unfold send. cbn [ed_out ed_core]. rewrite core_out_app. unfold core_out at 2. cbn [flat_map o_what]. destruct x; try (now cbn; rewrite app_nil_r; apply I). exfalso. eapply N; eauto.
  - unfold send, shown_ok. cbn [ed_out ed_menus]. intros cmd mi. rewrite last_menu_snoc. cbn [o_what]. destruct x; try apply I. exfalso. eapply N'; eauto.
  - unfold send, opened_ok. cbn [ed_out ed_menus]. intros cmd m. rewrite opened_snoc. cbn [o_what]. destruct x; try apply I. exfalso. eapply N'; eauto.
Qed.
Lemma lua_call_inv w c e r e' : einv e -> lua_call G pol L w c e = Ok (r, e') -> einv e'.
Proof. intros I E. destruct c; cbn [lua_call] in E; try (eapply on_core_inv; eauto; fail); injection E as _ <-; apply send_inv; auto; try discriminate. Qed.
Lemma set_lua_inv e s : einv e -> einv (set_lua L e s).
Proof. intros [A B C D E]. now constructor. Qed.
Lemma script_inv w t : forall e r e', einv e -> run_script G pol L w t e = Ok (r, e') -> einv e'.
Proof.
  induction t as [s|x s|c k IH]; intros e r e' I E; cbn [run_script] in E; [injection E as _ <-; now apply set_lua_inv..|]. bnd E. destruct v as [r0 e1]. eapply IH; [|exact E]. eapply lua_call_inv; eauto.
Qed.
Lemma exec_inv w s c f e r e' : einv e -> exec_lua G pol L w s c f e = Ok (r, e') -> einv e'.
Proof.
  unfold exec_lua. intros I E. bnd E. destruct v as [r0 e0]. apply script_inv in E0; auto. bnd E. destruct v as [r1 e1].
  assert (einv e1) as I1 by (destruct r0; [now injection E1 as _ <-|eapply script_inv; eauto]). destruct r1; [|now injection E as _ <-]. bnd E. bnd E. injection E as _ <-. eapply do_core_inv; [|eauto]. eapply do_core_inv; eauto.
Qed.
Lemma keep_inv e e' : einv e -> ed_menus L e' = ed_menus L e -> ed_core L e' = ed_core L e -> ed_out L e' = ed_out L e -> einv e'.
Proof. intros [A B C D E] M K O. constructor; rewrite ?M, ?K, ?O; auto. Qed.

Lemma set_forall2 {A B} (R : A -> B -> Prop) (l0 : amap text A) (l : amap text B) key v0 v :
  Forall2 (fun a b => fst a = fst b /\ R (snd a) (snd b)) l0 l -> get l0 key = Some v0 -> R v0 v -> Forall2 (fun a b => fst a = fst b /\ R (snd a) (snd b)) l0 (set l key v).
Proof.
  intro F. induction F as [|[k0 x0] [k x] l0 l [E H] F IH]; intros Hg Hv; cbn [get] in Hg; [discriminate|]. cbn [fst snd] in *. subst k0. cbn [set]. destruct (eqb key k) eqn:Q.
  - injection Hg as <-. constructor; auto.
  - constructor; auto.
Qed.
Lemma get_forall2 {A B} (R : A -> B -> Prop) (l0 : amap text A) (l : amap text B) key v :
  Forall2 (fun a b => fst a = fst b /\ R (snd a) (snd b)) l0 l -> get l key = Some v -> exists v0, get l0 key = Some v0 /\ R v0 v.
Proof.
  intro F. induction F as [|[k0 x0] [k x] l0 l [E H] F IH]; intro Hg; cbn [get] in *; [discriminate|]. cbn [fst snd] in *. subst k0. destruct (eqb key k); [injection Hg as <-; eauto|auto].
Qed.
Lemma none_forall2 {A B} (R : A -> B -> Prop) (l0 : amap text A) (l : amap text B) key :
  Forall2 (fun a b => fst a = fst b /\ R (snd a) (snd b)) l0 l -> get l key = None <-> get l0 key = None.
Proof.
  intro F. induction F as [|[k0 x0] [k x] l0 l [E H] F IH]; cbn [get] in *; [tauto|]. cbn [fst snd] in *. subst k0. destruct (eqb key k); [split; discriminate|auto].
Qed.
Lemma populate_again w k w' k' m : populate w k (populate w' k' m) = populate w k m.
Proof. reflexivity. Qed.
Lemma show_menu_inv w id m key search b e e' : einv e -> get (ed_menus L e) key = Some m -> b = eqb search [] -> show_menu u L w id m key search b e = Ok e' -> einv e'.
Proof.
  unfold show_menu. intros I Hm Eb E. bnd E. injection E as <-. destruct (get_forall2 _ _ _ _ _ (ei_menus e I) Hm) as (m0 & H0 & Hk).
  set (m1 := if b then populate w (ed_core L e) m else m) in *. assert (mn_command m1 = key) as Kc.
  { assert (mn_command m0 = key) as K0. { clear - H0. unfold default_commands, provider_menu, prompt_menu in H0. cbn [get] in H0. repeat match type of H0 with (if eqb ?a ?b then _ else _) = _ => destruct (eqb a b) eqn:?Q; [injection H0 as <-; cbn [mn_command]; symmetry; now apply eqb_ok|] end. discriminate. }
    unfold m1. destruct b; destruct Hk as [->|(w' & k' & ->)]; exact K0. }
  constructor; try apply I.
  2:{ unfold send. cbn [ed_out ed_core set_menus]. rewrite core_out_app. cbn. rewrite app_nil_r. apply I. }
  2:{ unfold send, shown_ok. cbn [ed_out ed_menus set_menus]. intros cmd mi. rewrite last_menu_snoc. cbn [o_what]. destruct (C51_concat _ _ _ _ E0) as (C1 & _ & _ & C2). rewrite C1, Kc. destruct (eqb key cmd) eqn:Q.
      - intro X. injection X as <-. apply eqb_ok in Q. subst cmd. exists m1. split; [apply get_set_same|]. eapply Forall_impl; [|exact C2]. intros x (i & Hi & Hv & _). eauto.
      - intro X. destruct (ei_shown _ I _ _ X) as (m' & Hg & Hf). exists m'. split; auto. rewrite get_set_other; auto. apply eqb_neq. now rewrite eqb_sym. }
  2:{ unfold send, opened_ok. cbn [ed_out ed_menus set_menus]. intros cmd m'. rewrite opened_snoc. cbn [o_what]. destruct (C51_concat _ _ _ _ E0) as (C1 & _ & C3 & _). rewrite C1, C3, Kc. destruct (eqb key cmd) eqn:Q.
      - apply eqb_ok in Q. subst cmd. rewrite get_set_same. intros X P. injection X as <-. cbn [andb]. destruct (eqb search []) eqn:Qs.
        + apply eqb_ok in Qs. subst search. destruct (opened_only u (opened_fits _ _ _ P E0) _ _ P E0) as (l & -> & Pl). cbn [me_entries]. rewrite map_map.
          replace (map (fun x => offered (whole_entry x)) l) with (map offer_of l); [apply Permutation_map; now symmetry|]. apply map_ext. intro i. unfold offered, whole_entry, offer_of. cbn [en_value en_text en_descr].
          destruct (it_label i); [reflexivity|]. cbn [map concat fr_text]. now rewrite app_nil_r.
        + subst b. subst m1. apply (ei_opened _ I _ _ Hm P).
      - cbn [andb]. rewrite get_set_other by (apply eqb_neq; now rewrite eqb_sym). apply I. }
  cbn [send set_menus ed_menus]. clear Kc. subst m1. apply (set_forall2 menu_ok _ _ _ m0); auto; [apply I|]. destruct b; [right; exists w, (ed_core L e); destruct Hk as [->|(w' & k' & ->)]; reflexivity|auto].
Qed.
Lemma quit_inv w id e o e' : einv e -> command_quit G pol L w id e = Ok (o, e') -> einv e'.
Proof. unfold command_quit. intros I E. bnd E. injection E as _ <-. apply do_core_inv in E0; auto. eapply keep_inv; eauto. Qed.
Lemma exec_cmd_inv w id s e o e' : einv e -> command_exec G pol L w id s e = Ok (o, e') -> einv e'.
Proof. unfold command_exec. intros I E. bnd E. destruct v. injection E as _ <-. eapply exec_inv; eauto. Qed.
Lemma menu_inv w id p e o e' : einv e -> command_menu u L w id p e = Ok (o, e') -> einv e'.
Proof.
  unfold command_menu. intros I E. destruct (get (ed_menus L e) (mp_command p)) eqn:Q; [|now injection E as _ <-]. bnd E. injection E as _ <-. eapply show_menu_inv; [exact I|exact Q|reflexivity|eauto].
Qed.
Lemma action_inv w a c id e o e' : einv e -> run_action G pol u L w a c id e = Ok (o, e') -> einv e'.
Proof.
  intros I E. destruct a; cbn [run_action] in E.
  - unfold submenu_action in E. bnd E. destruct (get (ed_menus L e) c) eqn:Q; [|discriminate]. injection E0 as ->. bnd E. injection E as _ <-. eapply show_menu_inv; [exact I|exact Q| |eauto]. reflexivity.
  - eapply quit_inv; eauto.
  - unfold command_view_delete in E. bnd E. injection E as _ <-. eapply do_core_inv; eauto.
  - unfold command_edit in E. bnd E. injection E as _ <-. eapply do_core_inv; eauto.
  - unfold command_edit in E. bnd E. injection E as _ <-. eapply do_core_inv; eauto.
  - unfold command_view in E. bnd E. destruct v. injection E as _ <-. eapply on_core_inv; eauto.
  - unfold command_view_add in E. bnd E. destruct v. injection E as _ <-. eapply on_core_inv; eauto.
  - unfold command_view_remove in E. bnd E. destruct v. injection E as _ <-. eapply on_core_inv; eauto.
  - eapply exec_cmd_inv; eauto.
Qed.
Lemma select_inv w id p e o e' : einv e -> command_menu_select G pol u L w id p e = Ok (o, e') -> einv e'.
Proof.
  unfold command_menu_select. intros I E. destruct (get (ed_menus L e) (sp_command p)); [|now injection E as _ <-]. cbv zeta in E.
  destruct (match menu_get m (sp_choice p) with None => if is_prompt m then menu_get m [] else None | Some _ => menu_get m (sp_choice p) end); [|now injection E as _ <-]. eapply action_inv; eauto.
Qed.
Lemma keys_inv w id ks : forall e o e', einv e -> command_keys G pol L w id ks e = Ok (o, e') -> einv e'.
Proof.
  induction ks as [|k ks IH]; intros e o e' I E; cbn [command_keys] in E; [now injection E as _ <-|]. bnd E. destruct v as [x e1]. apply exec_inv in E0; auto. destruct x; [|eauto]. bnd E. injection E as _ <-. eapply do_core_inv; eauto.
Qed.
Lemma answer_inv i r rp e' : (forall o e1, r = Ok (o, e1) -> einv e1) -> answer L i r = Ok (rp, e') -> einv e'.
Proof. unfold answer. intros H E. bnd E. destruct v as [o e1]. injection E as _ <-. eauto. Qed.
Lemma with_inv {T} (dec : json -> option T) r f e rp e' : einv e -> (forall p o e1, f p e = Ok (o, e1) -> einv e1) -> with_params se L dec r f e = Ok (rp, e') -> einv e'.
Proof.
  unfold with_params. intros I H E. eapply answer_inv; [|exact E]. intros o e1 Q. destruct (params_of dec (rq_params r)) as [[p|]|]; [eauto|now injection Q as _ <-..].
Qed.
Lemma handle_inv w id line e r e' : einv e -> handle G pol u se L w id line e = Ok (r, e') -> einv e'.
Proof.
  unfold handle. intros I E. destruct (parse_request line) as [q|]; [|bnd E; injection E as _ <-; eapply do_core_inv; eauto].
  repeat match type of E with (if ?b then _ else _) = _ => destruct b end;
    try (eapply with_inv; [exact I| |exact E]; intros p o e1 Q; cbv beta in Q);
    try (eapply answer_inv; [|exact E]; intros o e1 Q).
  - unfold command_edit in Q. bnd Q. injection Q as _ <-. eapply do_core_inv; eauto.
  - eapply quit_inv; eauto.
  - unfold command_view in Q. bnd Q. destruct v. injection Q as _ <-. eapply on_core_inv; eauto.
  - unfold command_view_delete in Q. bnd Q. injection Q as _ <-. eapply do_core_inv; eauto.
  - unfold command_view_add in Q. bnd Q. destruct v. injection Q as _ <-. eapply on_core_inv; eauto.
  - unfold command_view_remove in Q. bnd Q. destruct v. injection Q as _ <-. eapply on_core_inv; eauto.
  - eapply menu_inv; eauto.
  - eapply select_inv; eauto.
  - eapply keys_inv; eauto.
  - eapply exec_cmd_inv; eauto.
  - bnd E. injection E as _ <-. eapply do_core_inv; eauto.
Qed.
Lemma ereach_inv e : ereach e -> einv e.
Proof.
  induction 1 as [w session cwd args s scripts e E|w id e e' R I E|w id e e' R I E|w id line e r e' R I E|e R I|e k R I S].
  - unfold editor_new in E. bnd E. bnd E. destruct v0 as [r e1]. destruct r; [discriminate|]. injection E as <-. eapply script_inv; [|exact E1]. constructor; cbn [ed_core ed_menus ed_out].
    + eapply reach_init; eauto.
    + unfold menus_ok. clear; induction default_commands as [|x l IHl]; constructor; auto. split; auto. now left.
    + apply core_out_core.
    + intros cmd mi. pose proof (last_menu_core [] (k_sent v) cmd) as Z. cbn [app] in Z. rewrite Z. discriminate.
    + intros cmd m Hm _. pose proof (opened_core [] (k_sent v) cmd) as Z. cbn [app] in Z. rewrite Z. clear - Hm. unfold default_commands, provider_menu, prompt_menu in Hm. cbn [get] in Hm. repeat match type of Hm with (if ?c then _ else _) = _ => destruct c; [injection Hm as <-; constructor|] end. discriminate.
  - unfold editor_add_client in E. bnd E. bnd E. destruct v0. injection E as <-. eapply exec_inv; [|eauto]. eapply do_core_inv; eauto.
  - unfold editor_remove_client in E. bnd E. bnd E. destruct v0. injection E as <-. eapply exec_inv; [|eauto]. eapply do_core_inv; eauto.
  - eapply handle_inv; eauto.
  - eapply keep_inv; eauto.
  - apply set_core_inv; auto; [eapply reach_shuffle; eauto; apply I|]. destruct S as (_ & S & _). apply same_sent. congruence.
Qed.
End Facts.
