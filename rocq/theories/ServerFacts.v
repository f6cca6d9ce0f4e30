(** Facts about the server: which clients the editor knows, which are registered. *)
From Coq Require Import String List Arith Lia ZArith Bool.
From Verif Require Import Base ListFacts PieceTable Coords Utf8 Utf8Facts Diff Selection Maps StackMap Fmt Buffer View Json Proto Core CoreSpec CoreInv CoreOps Payload Menu PropMenu Editor EditorSpec EditorFacts PropEditor Server ServerSpec.
Import ListNotations.

(** ** the clients of the core *)
Definition same_clients (k k' : core) : Prop := keys (cmap k') = keys (cmap k).
Lemma sc_trans a b c : same_clients a b -> same_clients b c -> same_clients a c.
Proof. unfold same_clients. congruence. Qed.
Lemma sc_of k k' : k_clients k' = k_clients k -> same_clients k k'.
Proof. unfold same_clients, cmap. congruence. Qed.
Lemma sc_append G n x k k' : append_to G n x k = Ok k' -> same_clients k k'.
Proof. intro E. apply append_frame in E. apply sc_of, E. Qed.
Lemma sc_notify G ids k k' : notify_view_update G ids k = Ok k' -> same_clients k k'.
Proof. intro E. apply notify_same in E. apply sc_of, E. Qed.
Lemma sc_map k f : same_clients k (set_cmap k (map_vals f (cmap k))).
Proof. unfold same_clients. change (cmap (set_cmap k (map_vals f (cmap k)))) with (map_vals f (cmap k)). apply keys_map_vals. Qed.
Lemma sc_set k id c : has (cmap k) id = true -> same_clients k (set_cmap k (set (cmap k) id c)).
Proof. intro H. unfold same_clients. change (cmap (set_cmap k (set (cmap k) id c))) with (set (cmap k) id c). now rewrite keys_set, H. Qed.
Lemma sc_add_view v k k' : add_view v k = Ok k' -> same_clients k k'.
Proof. intro E. unfold same_clients. rewrite (add_view_cmap _ _ _ E). apply keys_map_vals. Qed.
Lemma has_unwrap {V} (m : amap nat V) id c s : unwrap (get m id) s = Ok c -> has m id = true.
Proof. unfold has. destruct (get m id); [reflexivity|discriminate]. Qed.
Lemma sc_drop G bs k k' : drop_buffers G bs k = Ok k' -> same_clients k k'.
Proof. intro E. apply drop_spec in E. apply sc_of. tauto. Qed.
Lemma sc_delete_view G id k r k' : delete_view G id k = Ok (r, k') -> same_clients k k'.
Proof.
  unfold delete_view. intro E. destruct (negb _); [injection E as _ <-; reflexivity|]. destruct (sm_remove id (k_views k)) as [ov vs]. bnd E. bnd E. bnd E. bnd E. bnd E. bnd E. injection E as _ <-.
  apply sc_append in E1. apply sc_drop in E2. apply sc_notify in E5.
  assert (same_clients v1 v2) as E3'. { destruct (vmap v1) eqn:V. - apply sc_add_view in E3. eapply sc_trans; [|exact E3]. destruct (k_buffers v1); reflexivity. - injection E3 as <-. reflexivity. }
  eapply sc_trans; [|exact E5]. eapply sc_trans; [|apply sc_map]. eapply sc_trans; [|exact E3']. eapply sc_trans; [|exact E2]. eapply sc_trans; [|apply sc_map]. exact E1.
Qed.
Lemma sc_modify_view G id f k k' : modify_view G id f k = Ok k' -> same_clients k k'.
Proof.
  unfold modify_view. intro E. bnd E. cbv zeta in E. destruct (eqb _ _); [injection E as <-; reflexivity|]. bnd E. bnd E. destruct v1 as [r k1]. destruct r; [discriminate|]. injection E as <-.
  apply sc_delete_view in E2. eapply sc_trans; [|exact E2]. destruct (view_is_empty _); [injection E1 as <-; reflexivity|]. apply sc_add_view in E1. eapply sc_trans; [|exact E1]. apply sc_map.
Qed.
Lemma sc_view G id v k r k' : view_cmd G id v k = Ok (r, k') -> same_clients k k'.
Proof.
  unfold view_cmd. intro E. destruct (view_exists k v).
  - bnd E. bnd E. bnd E. injection E as _ <-. apply sc_notify in E2. eapply sc_trans; [|exact E2]. apply sc_set. eapply has_unwrap; eauto.
  - destruct (buffer_exists k v); [|injection E as _ <-; reflexivity]. bnd E. bnd E. injection E as _ <-. apply sc_notify in E1. eapply sc_trans; [|exact E1]. exact (sc_set k id _ (has_unwrap _ _ _ _ E0)).
Qed.
Lemma sc_edit G pol d id n s k k' : edit_cmd G pol d id n s k = Ok k' -> same_clients k k'.
Proof.
  intro E. destruct (edit_spec _ _ _ _ _ _ _ _ E) as (c & Ec & _ & _ & Kc & _). unfold same_clients, cmap. rewrite Kc. cbn [sm_map]. rewrite keys_set, keys_map_vals.
  unfold has. assert (get (map_vals (fun _ : nat => with_view (whole n)) (cmap k)) id <> None) as N. { intro X. apply get_none in X. apply X. rewrite keys_map_vals. eapply get_key_in; eauto. }
  destruct (get (map_vals (fun _ : nat => with_view (whole n)) (cmap k)) id); [reflexivity|congruence].
Qed.
(** joining and leaving are the only calls that change the set of clients *)
Lemma call_clients G pol d c k r k' : inv0 k -> run_call G pol d c k = Ok (r, k') -> forall x,
  connected k' x <-> match c with CJoin id => x = id \/ connected k x | CLeave id => connected k x /\ x <> id | _ => connected k x end.
Proof.
  intros I E x. assert (same_clients k k' -> connected k' x <-> connected k x) as S by (unfold same_clients, connected; now intros ->).
  destruct c; cbn [run_call] in E.
  - bnd E. injection E as _ <-. apply S. eapply sc_edit; eauto.
  - bnd E. destruct v. injection E as _ <-. apply S. eapply sc_view; eauto.
  - bnd E. injection E as _ <-. apply S. unfold delete_current_view in E0. bnd E0. bnd E0. destruct v1 as [o k1]. destruct o; [discriminate|]. injection E0 as <-. eapply sc_delete_view; eauto.
  - bnd E. destruct v. injection E as _ <-. apply S. unfold add_to_current_view in E0. destruct (negb _); [injection E0 as _ <-; reflexivity|]. bnd E0. bnd E0. injection E0 as _ <-. eapply sc_modify_view; eauto.
  - bnd E. destruct v. injection E as _ <-. apply S. unfold remove_from_current_view in E0. destruct (negb _); [injection E0 as _ <-; reflexivity|]. bnd E0. bnd E0. injection E0 as _ <-. eapply sc_modify_view; eauto.
  - bnd E. injection E as _ <-. apply S. unfold move_cursor in E0. bnd E0. bnd E0. bnd E0. apply has_unwrap in E. destruct (negb _); [apply sc_notify in E0; eapply sc_trans; [|exact E0]; now apply sc_set|injection E0 as <-; now apply sc_set].
  - bnd E. destruct v as [xs k1]. injection E as _ <-. apply S. unfold delete_selection in E0. bnd E0. bnd E0. bnd E0. destruct v1 as [[xs' mods] bufs]. bnd E0. apply has_unwrap in E. destruct xs'; [injection E0 as _ <-; exact (sc_set (set_buffers k bufs) id _ E)|]. bnd E0. injection E0 as _ <-. apply sc_notify in E4. eapply sc_trans; [|exact E4]. exact (sc_set (set_buffers k bufs) id _ E).
  - bnd E. injection E as _ <-. apply S. eapply sc_append; eauto.
  - bnd E. injection E as _ <-. apply S. apply sc_edit in E0. exact E0.
  - bnd E. injection E as _ <-. apply S. unfold message in E0. bnd E0. injection E0 as <-. apply sc_append in E. exact E.
  - bnd E. injection E as _ <-. apply S. unfold Core.error in E0. cbv zeta in E0. bnd E0. injection E0 as <-. apply sc_append in E. exact E.
  - bnd E. injection E as _ <-. apply S. eapply sc_append; eauto.
  - bnd E. destruct v. injection E as _ <-. apply S. reflexivity.
  - bnd E. injection E as _ <-. unfold add_client in E0. bnd E0. bnd E0. destruct v1 as [o m]. bnd E0. injection E0 as <-. apply sc_append in E2. unfold connected. cbn [emit cmap k_clients]. unfold same_clients in E2. unfold cmap in E2 |- *. cbn in E2 |- *. rewrite E2.
    unfold sm_insert in E1. destruct (sm_set_last id _) as [ok m'] eqn:Q. destruct ok; [|discriminate]. injection E1 as _ <-. unfold sm_set_last in Q. destruct (has _ id) in Q; [|discriminate]. injection Q as <-. cbn [sm_map]. apply in_keys_set.
  - bnd E. injection E as _ <-. unfold remove_client in E0. apply sc_append in E0. unfold connected. unfold same_clients in E0. rewrite E0. unfold cmap. cbn. unfold sm_remove. destruct (existsb (fun y => eqb y id) (sm_stack (k_clients k))) eqn:Q.
    + cbn [snd sm_map]. apply in_keys_del.
    + cbn [snd]. split; [|tauto]. intro H. split; auto. intros ->. assert (In id (sm_stack (k_clients k))) as H'. { apply (i_cin _ I). exact H. }
      assert (existsb (fun y => eqb y id) (sm_stack (k_clients k)) = true) as T. { apply existsb_exists. exists id. split; auto. apply eqb_refl. } congruence.
Qed.

Lemma NoDup_app_snoc {T} (l : list T) x : NoDup l -> ~ In x l -> NoDup (l ++ [x]).
Proof. intros N H. apply (Permutation.Permutation_NoDup (l := x :: l)); [apply Permutation.Permutation_cons_append|now constructor]. Qed.
Section Facts.
Variable G : Graphemes.
Variable pol : policy.
Variable u : regex_crate.
Variable se : serde.
Variable L : lua.
Notation editor := (editor L).
Notation ereach := (ereach G pol u se L).
(** neither the clients nor the list of those who quit change *)
Definition more_out (e e' : editor) : Prop := exists l, ed_out L e' = ed_out L e ++ l.
Lemma more_refl e : more_out e e.
Proof. exists []. now rewrite app_nil_r. Qed.
Lemma more_trans a b c : more_out a b -> more_out b c -> more_out a c.
Proof. intros [l H] [m H']. exists (l ++ m). now rewrite H', H, app_assoc. Qed.
Definition quiet (e e' : editor) : Prop := ed_stopped L e' = ed_stopped L e /\ (forall x, connected (ed_core L e') x <-> connected (ed_core L e) x) /\ more_out e e'.
Ltac qt := split; [reflexivity|split; [intro; reflexivity|first [exists []; rewrite app_nil_r; reflexivity|eexists; reflexivity]]].
Lemma quiet_refl e : quiet e e.
Proof. qt. Qed.
Lemma quiet_trans a b c : quiet a b -> quiet b c -> quiet a c.
Proof. intros (A & B & A') (C & D & C'). split; [congruence|]. split; [intro x; rewrite D; apply B|eapply more_trans; eauto]. Qed.
Definition plain_call (c : call) : Prop := match c with CJoin _ | CLeave _ => False | _ => True end.
Lemma einv_inv0 e : einv G pol L e -> inv0 (ed_core L e).
Proof. intro I. pose proof (reach_inv _ _ _ (ei_core _ _ _ _ I)) as H. apply H. Qed.
Lemma on_core_quiet w c e r e' : einv G pol L e -> plain_call c -> on_core G pol L w c e = Ok (r, e') -> quiet e e'.
Proof.
  unfold on_core. intros I P E. bnd E. destruct v as [r0 k]. injection E as _ <-. split; [reflexivity|]. split; [|eexists; reflexivity]. intro x. cbn [set_core ed_core]. rewrite (call_clients _ _ _ _ _ _ _ (einv_inv0 e I) E0 x). destruct c; cbn in P; tauto.
Qed.
Lemma do_core_quiet w c e e' : einv G pol L e -> plain_call c -> do_core G pol L w c e = Ok e' -> quiet e e'.
Proof. unfold do_core. intros I P E. bnd E. destruct v. injection E as <-. eapply on_core_quiet; eauto. Qed.
Lemma lua_call_quiet w c e r e' : einv G pol L e -> lua_call G pol L w c e = Ok (r, e') -> quiet e e'.
Proof. intros I E. destruct c; cbn [lua_call] in E; try (eapply on_core_quiet; [exact I| |exact E]; exact Logic.I); injection E as _ <-; qt. Qed.
Lemma script_quiet w t : forall e r e', einv G pol L e -> run_script G pol L w t e = Ok (r, e') -> quiet e e'.
Proof.
  induction t as [s|x s|c k IH]; intros e r e' I E; cbn [run_script] in E; [injection E as _ <-; qt..|]. bnd E. destruct v as [r0 e1]. eapply quiet_trans; [eapply lua_call_quiet; eauto|]. eapply IH; [|exact E]. eapply lua_call_inv; eauto.
Qed.
Lemma exec_quiet w s c f e r e' : einv G pol L e -> exec_lua G pol L w s c f e = Ok (r, e') -> quiet e e'.
Proof.
  unfold exec_lua. intros I E. bnd E. destruct v as [r0 e0]. pose proof (script_quiet _ _ _ _ _ I E0) as Q0. apply script_inv in E0; auto. bnd E. destruct v as [r1 e1].
  assert (quiet e0 e1 /\ einv G pol L e1) as [Q1 I1] by (destruct r0; [injection E1 as _ <-; split; [apply quiet_refl|auto]|split; [eapply script_quiet; eauto|eapply script_inv; eauto]]).
  assert (quiet e e1) as Q by (eapply quiet_trans; eauto). destruct r1; [|now injection E as _ <-]. bnd E. bnd E. injection E as _ <-.
  eapply quiet_trans; [exact Q|]. eapply quiet_trans; [eapply (do_core_quiet w); [exact I1| |exact E2]; exact Logic.I|]. eapply (do_core_quiet w); [| |exact E3]; [eapply do_core_inv; eauto|exact Logic.I].
Qed.
Lemma exec_cmd_quiet w id s e o e' : einv G pol L e -> command_exec G pol L w id s e = Ok (o, e') -> quiet e e'.
Proof. unfold command_exec. intros I E. bnd E. destruct v. injection E as _ <-. eapply exec_quiet; eauto. Qed.
Lemma keys_quiet w id ks : forall e o e', einv G pol L e -> command_keys G pol L w id ks e = Ok (o, e') -> quiet e e'.
Proof.
  induction ks as [|k ks IH]; intros e o e' I E; cbn [command_keys] in E; [injection E as _ <-; qt|]. bnd E. destruct v as [x e1]. pose proof (exec_quiet _ _ _ _ _ _ _ I E0) as Q. apply exec_inv in E0; auto. eapply quiet_trans; [exact Q|]. destruct x; [|eauto]. bnd E. injection E as _ <-. eapply do_core_quiet; [exact E0| |exact E1]. exact Logic.I.
Qed.
Lemma show_menu_quiet w id m key search b e e' : show_menu u L w id m key search b e = Ok e' -> quiet e e'.
Proof. unfold show_menu. intro E. bnd E. injection E as <-. qt. Qed.
Lemma menu_quiet w id p e o e' : command_menu u L w id p e = Ok (o, e') -> quiet e e'.
Proof. unfold command_menu. intro E. destruct (get (ed_menus L e) (mp_command p)); [|injection E as _ <-; qt]. bnd E. injection E as _ <-. eapply show_menu_quiet; eauto. Qed.
(** a client quit *)
Definition gone (id : nat) (e e' : editor) : Prop :=
  (forall x, In x (ed_stopped L e') <-> In x (ed_stopped L e) \/ x = id) /\ (NoDup (ed_stopped L e) -> NoDup (ed_stopped L e')) /\
  (forall x, connected (ed_core L e') x <-> connected (ed_core L e) x /\ x <> id) /\ more_out e e'.
Lemma quit_gone w id e o e' : einv G pol L e -> command_quit G pol L w id e = Ok (o, e') -> gone id e e'.
Proof.
  unfold command_quit. intros I E. bnd E. injection E as _ <-. unfold do_core in E0. bnd E0. destruct v0 as [r e1]. injection E0 as <-. unfold on_core in E. bnd E. destruct v as [r0 k]. injection E as _ <-.
  assert (ed_stopped L (set_core L e k) = ed_stopped L e) as -> by reflexivity. split; [|split; [|split]].
  - intro x. cbn [set_stopped ed_stopped]. destruct (existsb (Nat.eqb id) (ed_stopped L e)) eqn:Q.
    + apply existsb_exists in Q. destruct Q as (y & Hy & Q). apply Nat.eqb_eq in Q. subst y. split; [tauto|intros [H| ->]; auto].
    + rewrite in_app_iff. cbn. intuition congruence.
  - cbn [set_stopped ed_stopped]. destruct (existsb (Nat.eqb id) (ed_stopped L e)) eqn:Q; auto. intro N. apply NoDup_app_snoc; auto. intro H. assert (existsb (Nat.eqb id) (ed_stopped L e) = true) as T by (apply existsb_exists; exists id; split; auto; apply Nat.eqb_refl). congruence.
  - intro x. cbn [set_stopped set_core ed_core]. apply (call_clients _ _ _ _ _ _ _ (einv_inv0 e I) E0 x).
  - eexists; reflexivity.
Qed.
Lemma action_effect w a c id e o e' : einv G pol L e -> run_action G pol u L w a c id e = Ok (o, e') -> (a = AQuit /\ gone id e e') \/ (a <> AQuit /\ quiet e e').
Proof.
  intros I E. destruct a; cbn [run_action] in E; [right; split; [discriminate|]|left; split; [reflexivity|eapply quit_gone; eauto]|right; split; [discriminate|]..].
  - unfold submenu_action in E. bnd E. bnd E. injection E as _ <-. eapply show_menu_quiet; eauto.
  - unfold command_view_delete in E. bnd E. injection E as _ <-. eapply do_core_quiet; [exact I| |exact E0]. exact Logic.I.
  - unfold command_edit in E. bnd E. injection E as _ <-. eapply do_core_quiet; [exact I| |exact E0]. exact Logic.I.
  - unfold command_edit in E. bnd E. injection E as _ <-. eapply do_core_quiet; [exact I| |exact E0]. exact Logic.I.
  - unfold command_view in E. bnd E. destruct v. injection E as _ <-. eapply on_core_quiet; [exact I| |exact E0]. exact Logic.I.
  - unfold command_view_add in E. bnd E. destruct v. injection E as _ <-. eapply on_core_quiet; [exact I| |exact E0]. exact Logic.I.
  - unfold command_view_remove in E. bnd E. destruct v. injection E as _ <-. eapply on_core_quiet; [exact I| |exact E0]. exact Logic.I.
  - eapply exec_cmd_quiet; eauto.
Qed.
Lemma select_effect w id cmd choice e o e' : einv G pol L e -> command_menu_select G pol u L w id (mkSelP cmd choice) e = Ok (o, e') ->
  ((cmd = [] /\ choice = str "quit" /\ In (str "quit") (values L e [])) /\ gone id e e') \/ (~ (cmd = [] /\ choice = str "quit" /\ In (str "quit") (values L e [])) /\ quiet e e').
Proof.
  intros I E. unfold command_menu_select in E. cbn [sp_command sp_choice] in E. unfold values.
  destruct (get (ed_menus L e) cmd) as [m|] eqn:Q. 2:{ injection E as _ <-. right. split; [|apply quiet_refl]. intros (-> & _ & H). rewrite Q in H. destruct H. }
  cbv zeta in E. destruct (get_forall2 _ _ _ _ _ (ei_menus _ _ _ _ I) Q) as (m0 & H0 & K). apply get_in in H0.
  destruct (match menu_get m choice with None => if is_prompt m then menu_get m [] else None | Some _ => menu_get m choice end) as [i|] eqn:F.
  - apply (action_effect _ _ _ _ _ _ _ I) in E.
    assert (it_action i = AQuit <-> cmd = [] /\ choice = str "quit" /\ In (str "quit") (match get (ed_menus L e) [] with Some m => map it_key (mn_entries m) | None => [] end)) as B.
    { assert (In i (mn_entries m)) as Hi. { unfold menu_get in F. destruct (find _ (mn_entries m)) eqn:F1; [injection F as ->; apply find_some in F1; apply F1|]. destruct (is_prompt m); [|discriminate]. apply find_some in F. apply F. }
      assert (exists w' k', m = populate w' k' m0) as (w' & k' & ->). { destruct K as [->|K]; auto. exfalso. destruct H0 as [X|[X|[X|[X|[X|[X|[X|[]]]]]]]]; injection X as _ <-; exact Hi. }
      assert (forall l a, In i (map (plain_item a) l) -> it_action i = a) as PI. { intros l a Hj. apply in_map_iff in Hj. now destruct Hj as (? & <- & _). }
      destruct H0 as [X|[X|[X|[X|[X|[X|[X|[]]]]]]]]; injection X as <- <-; try (cbn [populate mn_entries mn_source provide] in Hi; apply PI in Hi; rewrite Hi; split; [discriminate|intros (X & _); discriminate]);
        try (cbn [populate mn_entries mn_source] in Hi; destruct Hi as [<-|[]]; split; [discriminate|intros (X & _); discriminate]).
      cbn [is_prompt populate mn_source] in F. destruct (menu_get (populate w' k' (mkMenuM [] (str "command") (Provider PCommands) [])) choice) as [j|] eqn:F1; [|discriminate]. injection F as ->. unfold menu_get in F1. cbn [populate mn_entries mn_source provide] in F1. apply find_some in F1. destruct F1 as [Hj Ej]. apply eqb_ok in Ej. rewrite Q. cbn [populate mn_entries mn_source provide].
      split.
      - intro A. split; auto. assert (it_key i = str "quit") as Kq. { clear - Hj A. cbn in Hj. destruct Hj as [<-|[<-|[<-|[<-|[<-|[<-|[<-|[<-|[]]]]]]]]]; try discriminate A. reflexivity. } split; [congruence|]. cbn. tauto.
      - intros (_ & C & _). clear - Hj Ej C. rewrite C in Ej. cbn in Hj. destruct Hj as [<-|[<-|[<-|[<-|[<-|[<-|[<-|[<-|[]]]]]]]]]; try discriminate Ej. reflexivity. }
    destruct E as [(A & H)|(A & H)]; [left; split; auto; now apply B|right; split; auto; intro C; apply A; now apply B].
  - injection E as _ <-. right. split; [|apply quiet_refl]. intros (-> & -> & H). rewrite Q in H. apply in_map_iff in H. destruct H as (i & Ki & Hi). unfold menu_get in F. destruct (find (fun i0 => eqb (it_key i0) (str "quit")) (mn_entries m)) eqn:F1; [discriminate|]. pose proof (find_none _ _ F1 _ Hi) as Z. cbn beta in Z. rewrite Ki, eqb_refl in Z. discriminate.
Qed.
Lemma answer_effect i x r e' (P : editor -> Prop) : answer L i x = Ok (r, e') -> (forall o e1, x = Ok (o, e1) -> P e1) -> P e'.
Proof. unfold answer. intros E H. bnd E. destruct v as [o e1]. injection E as _ <-. eauto. Qed.
Lemma with_effect {T} (dec : json -> option T) q f e r e' : dec JNull = None -> with_params se L dec q f e = Ok (r, e') ->
  (exists p o, asks dec (rq_method q) p q /\ f p e = Ok (o, e')) \/ (e' = e /\ forall p, ~ asks dec (rq_method q) p q).
Proof.
  unfold with_params. intros DN E. destruct (params_of dec (rq_params q)) as [[p|]|] eqn:P.
  - left. unfold answer in E. bnd E. destruct v as [o e1]. injection E as _ <-. exists p, o. split; auto. split; auto. unfold params_of in P. destruct (rq_params q) as [j|]; [|discriminate]. exists j. split; auto. clear - P. destruct j; try (destruct (dec _); [now injection P as ->|discriminate]). discriminate.
  - right. unfold answer in E. cbn in E. injection E as _ <-. split; auto. intros p A. rewrite (asks_params _ _ _ _ DN A) in P. discriminate.
  - right. unfold answer in E. cbn in E. injection E as _ <-. split; auto. intros p A. rewrite (asks_params _ _ _ _ DN A) in P. discriminate.
Qed.
(** ** what a line does to the set of clients *)
Lemma handle_effect w id line e r e' : einv G pol L e -> handle G pol u se L w id line e = Ok (r, e') ->
  (quits L e line /\ gone id e e') \/ (~ quits L e line /\ quiet e e').
Proof.
  intros I E. unfold handle in E. destruct (parse_request line) as [q|] eqn:P.
  2:{ right. split; [intros (q & X & _); congruence|]. bnd E. injection E as _ <-. eapply do_core_quiet; [exact I| |exact E0]. exact Logic.I. }
  assert (rq_method q <> str "quit" -> rq_method q <> str "menu-select" -> ~ quits L e line) as NQ.
  { intros N1 N2 (q' & P' & H). rewrite P in P'. injection P' as <-. destruct H as [H|[[H _] _]]; contradiction. }
  destruct (eqb (rq_method q) (str "menu-select")) eqn:Q1.
  { apply eqb_ok in Q1. rewrite Q1 in E. repeat match type of E with context[eqb (str ?a) (str ?b)] => let x := eval vm_compute in (eqb (str a) (str b)) in replace (eqb (str a) (str b)) with x in E by reflexivity; cbv iota in E end.
    apply with_effect in E; [|reflexivity]. rewrite Q1 in E. destruct E as [([cmd choice] & o & A & E)|(-> & N)].
    - apply select_effect in E; auto. destruct E as [((-> & -> & V) & H)|(N & H)]; [left; split; auto; exists q; auto|right; split; auto].
      intros (q' & P' & [X|[(_ & j & J & D) V]]); rewrite P in P'; injection P' as <-; [rewrite Q1 in X; discriminate|]. destruct A as (_ & j' & J' & D'). rewrite J in J'. injection J' as <-. rewrite D in D'. injection D' as <- <-. apply N. auto.
    - right. split; [|apply quiet_refl]. intros (q' & P' & [X|[A V]]); rewrite P in P'; injection P' as <-; [rewrite Q1 in X; discriminate|]. exact (N _ A). }
  destruct (eqb (rq_method q) (str "quit")) eqn:Q2.
  { left. apply eqb_ok in Q2. split; [exists q; auto|]. rewrite Q2 in E. repeat match type of E with context[eqb (str ?a) (str ?b)] => let x := eval vm_compute in (eqb (str a) (str b)) in replace (eqb (str a) (str b)) with x in E by reflexivity; cbv iota in E end.
    apply (answer_effect _ _ _ _ (gone id e) E). intros o e1 X. eapply quit_gone; eauto. }
  right. split. { apply NQ; intro X; rewrite X, eqb_refl in *; discriminate. }
  repeat match type of E with (if ?b then _ else _) = _ => destruct b end;
    try (apply with_effect in E; [|reflexivity]; destruct E as [(p & o & A & E)|(-> & N)]; [|apply quiet_refl]; cbv beta in E);
    try (apply (answer_effect _ _ _ _ (quiet e) E); intros o e1 X).
  - unfold command_edit in E. bnd E. injection E as _ <-. eapply do_core_quiet; [exact I| |exact E0]. exact Logic.I.
  - unfold command_view in E. bnd E. destruct v. injection E as _ <-. eapply on_core_quiet; [exact I| |exact E0]. exact Logic.I.
  - unfold command_view_delete in X. bnd X. injection X as _ <-. eapply do_core_quiet; [exact I| |exact E0]. exact Logic.I.
  - unfold command_view_add in E. bnd E. destruct v. injection E as _ <-. eapply on_core_quiet; [exact I| |exact E0]. exact Logic.I.
  - unfold command_view_remove in E. bnd E. destruct v. injection E as _ <-. eapply on_core_quiet; [exact I| |exact E0]. exact Logic.I.
  - eapply menu_quiet; eauto.
  - eapply keys_quiet; eauto.
  - eapply exec_cmd_quiet; eauto.
  - bnd E. injection E as _ <-. eapply do_core_quiet; [exact I| |exact E0]. exact Logic.I.
Qed.
Lemma join_effect w id e e' : einv G pol L e -> editor_add_client G pol L w id e = Ok e' ->
  ed_stopped L e' = ed_stopped L e /\ (forall x, connected (ed_core L e') x <-> x = id \/ connected (ed_core L e) x) /\ more_out e e'.
Proof.
  unfold editor_add_client. intros I E. bnd E. bnd E. destruct v0 as [r e1]. injection E as <-. pose proof (do_core_inv _ _ _ _ _ _ _ I E0) as I1. unfold do_core in E0. bnd E0. destruct v0 as [r0 e0]. injection E0 as ->. unfold on_core in E. bnd E. destruct v0 as [r1 k]. injection E as _ <-.
  apply exec_quiet in E1; auto. destruct E1 as (S & C & M). split; [exact S|]. split; [|eapply more_trans; [|exact M]; eexists; reflexivity]. intro x. rewrite C. exact (call_clients _ _ _ _ _ _ _ (einv_inv0 e I) E0 x).
Qed.
Lemma leave_effect w id e e' : einv G pol L e -> editor_remove_client G pol L w id e = Ok e' ->
  ed_stopped L e' = ed_stopped L e /\ (forall x, connected (ed_core L e') x <-> connected (ed_core L e) x /\ x <> id) /\ more_out e e'.
Proof.
  unfold editor_remove_client. intros I E. bnd E. bnd E. destruct v0 as [r e1]. injection E as <-. pose proof (do_core_inv _ _ _ _ _ _ _ I E0) as I1. unfold do_core in E0. bnd E0. destruct v0 as [r0 e0]. injection E0 as ->. unfold on_core in E. bnd E. destruct v0 as [r1 k]. injection E as _ <-.
  apply exec_quiet in E1; auto. destruct E1 as (S & C & M). split; [exact S|]. split; [|eapply more_trans; [|exact M]; eexists; reflexivity]. intro x. rewrite C. exact (call_clients _ _ _ _ _ _ _ (einv_inv0 e I) E0 x).
Qed.
End Facts.
