(** Views are only sent to connected clients (used for C75). *)
From Coq Require Import String List Arith Lia ZArith Bool.
From Verif Require Import Base ListFacts PieceTable Coords Utf8 Utf8Facts Diff Selection Maps StackMap Fmt Buffer View Json Proto Core CoreSpec CoreInv CoreOps FreshSpec PropFresh Payload Menu PropMenu Editor EditorSpec EditorFacts PropEditor Server ServerSpec ServerFacts.
Import ListNotations.

(** somebody who is not connected is not shown anything *)
Definition hidden (j : nat) (k k' : core) : Prop := ~ connected k j -> ~ connected k' j /\ shown_to (k_sent k') j = shown_to (k_sent k) j.
Lemma hd_trans j a b c : hidden j a b -> hidden j b c -> hidden j a c.
Proof. intros H K N. destruct (H N) as [A B]. destruct (K A) as [C D]. split; [exact C|congruence]. Qed.
Lemma hd_same j k k' : same_clients k k' -> k_sent k' = k_sent k -> hidden j k k'.
Proof. intros S E N. split; [|now rewrite E]. intro C. apply N. unfold connected in *. unfold same_clients in S. now rewrite S in C. Qed.
Lemma hd_refl j k : hidden j k k.
Proof. now apply hd_same. Qed.
Lemma hd_notify j G ids k k' : notify_view_update G ids k = Ok k' -> hidden j k k'.
Proof.
  intros E N. pose proof (sc_notify _ _ _ _ E) as S. split; [intro C; apply N; unfold connected in *; unfold same_clients in S; now rewrite S in C|]. apply (notify_other _ _ _ _ _ E). intro H. apply N.
  apply notify_frame in E. destruct E as (ps & P & _ & F). rewrite <- P in H. apply in_map_iff in H. destruct H as (p & <- & Hp). rewrite Forall_forall in F. specialize (F _ Hp). unfold view_params, the_client in F. destruct (get (cmap k) (fst p)) eqn:Q; [|discriminate]. eapply get_key_in; eauto.
Qed.
Lemma hd_append j G n x k k' : append_to G n x k = Ok k' -> hidden j k k'.
Proof.
  unfold append_to. intro E. bnd E. apply (hd_notify j) in E. eapply hd_trans; [|exact E]. apply hd_same.
  - destruct (negb _); [injection E0 as <-; reflexivity|]. bnd E0. bnd E0. injection E0 as <-. reflexivity.
  - destruct (negb _); [injection E0 as <-; reflexivity|]. bnd E0. bnd E0. injection E0 as <-. reflexivity.
Qed.
Lemma hd_emit j k l : Forall (fun m => match m_what m with NView _ => False | _ => True end) l -> hidden j k (emit k l).
Proof.
  intros F N. split; [exact N|]. cbn [emit k_sent]. rewrite shown_app. rewrite <- (app_nil_r (shown_to (k_sent k) j)) at 2. f_equal. induction F as [|m l Hm F IH]; [reflexivity|]. cbn [shown_to flat_map]. destruct (m_what m); [exact IH|exact IH|destruct Hm].
Qed.
Lemma hd_map j k f : hidden j k (set_cmap k (map_vals f (cmap k))).
Proof. apply hd_same; [apply sc_map|reflexivity]. Qed.
Lemma hd_set j k id c : has (cmap k) id = true -> hidden j k (set_cmap k (set (cmap k) id c)).
Proof. intro H. apply hd_same; [now apply sc_set|reflexivity]. Qed.
Lemma hd_add_view j v k k' : add_view v k = Ok k' -> hidden j k k'.
Proof. intro E. apply hd_same; [eapply sc_add_view; eauto|]. unfold add_view in E. bnd E. destruct v0. injection E as <-. reflexivity. Qed.
Lemma hd_drop j G bs : forall k k', drop_buffers G bs k = Ok k' -> hidden j k k'.
Proof.
  induction bs as [|b bs IH]; intros k k' E; cbn [drop_buffers] in E; [injection E as <-; apply hd_refl|]. destruct (existsb _ _); [auto|]. bnd E. apply IH in E. eapply hd_trans; [|exact E]. apply (hd_append j) in E0. exact E0.
Qed.
Lemma hd_delete_view j G id k r k' : delete_view G id k = Ok (r, k') -> hidden j k k'.
Proof.
  unfold delete_view. intro E. destruct (negb _); [injection E as _ <-; apply hd_refl|]. destruct (sm_remove id (k_views k)) as [ov vs]. bnd E. bnd E. bnd E. bnd E. bnd E. bnd E. injection E as _ <-.
  apply (hd_append j) in E1. apply (hd_drop j) in E2. apply (hd_notify j) in E5.
  assert (hidden j v1 v2) as E3'. { destruct (vmap v1) eqn:V. - apply (hd_add_view j) in E3. eapply hd_trans; [|exact E3]. destruct (k_buffers v1); apply hd_same; reflexivity. - injection E3 as <-. apply hd_refl. }
  eapply hd_trans; [|exact E5]. eapply hd_trans; [|apply hd_map]. eapply hd_trans; [|exact E3']. eapply hd_trans; [|exact E2]. eapply hd_trans; [|apply hd_map]. exact E1.
Qed.
Lemma hd_modify_view j G id f k k' : modify_view G id f k = Ok k' -> hidden j k k'.
Proof.
  unfold modify_view. intro E. bnd E. cbv zeta in E. destruct (eqb _ _); [injection E as <-; apply hd_refl|]. bnd E. bnd E. destruct v1 as [r k1]. destruct r; [discriminate|]. injection E as <-.
  apply (hd_delete_view j) in E2. eapply hd_trans; [|exact E2]. destruct (view_is_empty _); [injection E1 as <-; apply hd_refl|]. apply (hd_add_view j) in E1. eapply hd_trans; [|exact E1]. apply hd_map.
Qed.
Lemma hd_view j G id v k r k' : view_cmd G id v k = Ok (r, k') -> hidden j k k'.
Proof.
  unfold view_cmd. intro E. destruct (view_exists k v).
  - bnd E. bnd E. bnd E. injection E as _ <-. apply (hd_notify j) in E2. eapply hd_trans; [|exact E2]. apply hd_set. eapply has_unwrap; eauto.
  - destruct (buffer_exists k v); [|injection E as _ <-; apply hd_refl]. bnd E. bnd E. injection E as _ <-. apply (hd_notify j) in E1. eapply hd_trans; [|exact E1]. exact (hd_set j k id _ (has_unwrap _ _ _ _ E0)).
Qed.
Lemma hd_edit j G pol d id n s k k' : edit_cmd G pol d id n s k = Ok k' -> hidden j k k'.
Proof.
  unfold edit_cmd. intro E. bnd E. destruct v as [nt k1]. bnd E. bnd E. destruct v0 as [e k2]. destruct e; [discriminate|]. bnd E.
  apply (hd_add_view j) in E1. apply (hd_view j) in E2. apply (hd_append j) in E3.
  assert (hidden j k k1) as E0'.
  { destruct s; [injection E0 as _ <-; destruct (buffer_exists k n); apply hd_same; reflexivity|]. destruct (buffer_exists k n).
    - bnd E0. bnd E0. destruct v2 as [rl b]. bnd E0. injection E0 as _ <-. destruct rl; [apply (hd_append j) in E6; exact E6|injection E6 as <-; apply hd_same; reflexivity].
    - bnd E0. injection E0 as _ <-. unfold open_file in E4. bnd E4. injection E4 as <-. apply hd_same; reflexivity. }
  eapply hd_trans; [exact E0'|]. eapply hd_trans; [exact E1|]. eapply hd_trans; [exact E2|]. eapply hd_trans; [exact E3|]. destruct nt; [eapply hd_notify; eauto|injection E as <-; apply hd_refl].
Qed.
Lemma call_hidden j G pol d c k r k' : run_call G pol d c k = Ok (r, k') -> ~ connected k j -> c <> CJoin j -> shown_to (k_sent k') j = shown_to (k_sent k) j.
Proof.
  intros E N NJ. assert (hidden j k k' -> shown_to (k_sent k') j = shown_to (k_sent k) j) as S by (intro H; now apply H).
  destruct c; cbn [run_call] in E.
  - bnd E. injection E as _ <-. apply S. eapply hd_edit; eauto.
  - bnd E. destruct v. injection E as _ <-. apply S. eapply hd_view; eauto.
  - bnd E. injection E as _ <-. apply S. unfold delete_current_view in E0. bnd E0. bnd E0. destruct v1 as [o k1]. destruct o; [discriminate|]. injection E0 as <-. eapply hd_delete_view; eauto.
  - bnd E. destruct v. injection E as _ <-. apply S. unfold add_to_current_view in E0. destruct (negb _); [injection E0 as _ <-; apply hd_refl|]. bnd E0. bnd E0. injection E0 as _ <-. eapply hd_modify_view; eauto.
  - bnd E. destruct v. injection E as _ <-. apply S. unfold remove_from_current_view in E0. destruct (negb _); [injection E0 as _ <-; apply hd_refl|]. bnd E0. bnd E0. injection E0 as _ <-. eapply hd_modify_view; eauto.
  - bnd E. injection E as _ <-. apply S. unfold move_cursor in E0. bnd E0. bnd E0. bnd E0. apply has_unwrap in E. destruct (negb _); [apply (hd_notify j) in E0; eapply hd_trans; [|exact E0]; now apply hd_set|injection E0 as <-; now apply hd_set].
  - bnd E. destruct v as [xs k1]. injection E as _ <-. apply S. unfold delete_selection in E0. bnd E0. bnd E0. bnd E0. destruct v1 as [[xs' mods] bufs]. bnd E0. apply has_unwrap in E. destruct xs'; [injection E0 as _ <-; exact (hd_set j (set_buffers k bufs) id _ E)|]. bnd E0. injection E0 as _ <-. apply (hd_notify j) in E4. eapply hd_trans; [|exact E4]. exact (hd_set j (set_buffers k bufs) id _ E).
  - bnd E. injection E as _ <-. apply S. eapply hd_append; eauto.
  - bnd E. injection E as _ <-. apply S. apply (hd_edit j) in E0. exact E0.
  - bnd E. injection E as _ <-. apply S. unfold message in E0. bnd E0. injection E0 as <-. apply (hd_append j) in E. eapply hd_trans; [exact E|]. apply hd_emit. repeat constructor.
  - bnd E. injection E as _ <-. apply S. unfold Core.error in E0. cbv zeta in E0. bnd E0. injection E0 as <-. apply (hd_append j) in E. eapply hd_trans; [exact E|]. apply hd_emit. repeat constructor.
  - bnd E. injection E as _ <-. apply S. eapply hd_append; eauto.
  - bnd E. destruct v. injection E as _ <-. reflexivity.
  - bnd E. injection E as _ <-. unfold add_client in E0. bnd E0. bnd E0. destruct v1 as [o m]. bnd E0. injection E0 as <-. apply (hd_append j) in E2.
    assert (shown_to (k_sent v1) j = shown_to (k_sent k) j) as X.
    { apply E2. intro C. unfold connected, cmap in C. cbn [set_clients k_clients] in C. unfold sm_insert in E1. destruct (sm_set_last id _) as [ok m'] eqn:Q. destruct ok; [|discriminate]. injection E1 as _ <-. unfold sm_set_last in Q. destruct (has _ id) in Q; [|discriminate]. injection Q as <-. cbn [sm_map] in C. apply in_keys_set in C. destruct C as [->|C]; [now apply NJ|now apply N]. }
    cbn [emit k_sent]. rewrite shown_app, X. apply app_nil_r.
  - bnd E. injection E as _ <-. unfold remove_client in E0. apply (hd_append j) in E0. apply E0. intro C. apply N. unfold connected, cmap in *. cbn [set_clients k_clients] in C. unfold sm_remove in C. destruct (existsb (fun y => eqb y id) (sm_stack (k_clients k))); [|exact C]. cbn [snd sm_map] in C. apply in_keys_del in C. apply C.
Qed.

(** the numbers and directories client [j] was told *)
Definition infos (l : list sent) (j : nat) : list (text * text) :=
  flat_map (fun m => match m_what m with
                     | NInfo c d => if match m_to m with None => true | Some ids => existsb (Nat.eqb j) ids end then [(c, d)] else []
                     | _ => []
                     end) l.
Definition told (j : nat) (k k' : core) : Prop := infos (k_sent k') j = infos (k_sent k) j.
Lemma infos_app a b j : infos (a ++ b) j = infos a j ++ infos b j.
Proof. apply flat_map_app. Qed.
Lemma tl_trans j a b c : told j a b -> told j b c -> told j a c.
Proof. unfold told. congruence. Qed.
Lemma tl_same j k k' : k_sent k' = k_sent k -> told j k k'.
Proof. unfold told. now intros ->. Qed.
Lemma tl_refl j k : told j k k.
Proof. reflexivity. Qed.
Lemma tl_notify j G ids k k' : notify_view_update G ids k = Ok k' -> told j k k'.
Proof.
  intro E. apply notify_frame in E. destruct E as (ps & _ & -> & _). unfold told. cbn [emit k_sent]. rewrite infos_app. rewrite <- (app_nil_r (infos (k_sent k) j)) at 2. f_equal. induction ps as [|p ps IH]; [reflexivity|exact IH].
Qed.
Lemma tl_append j G n x k k' : append_to G n x k = Ok k' -> told j k k'.
Proof.
  unfold append_to. intro E. bnd E. apply (tl_notify j) in E. eapply tl_trans; [|exact E]. apply tl_same.
  destruct (negb _); [injection E0 as <-; reflexivity|]. bnd E0. bnd E0. injection E0 as <-. reflexivity.
Qed.
Lemma tl_emit j k l : Forall (fun m => match m_what m with NInfo _ _ => False | _ => True end) l -> told j k (emit k l).
Proof.
  intros F. unfold told. cbn [emit k_sent]. rewrite infos_app. rewrite <- (app_nil_r (infos (k_sent k) j)) at 2. f_equal. induction F as [|m l Hm F IH]; [reflexivity|]. cbn [infos flat_map]. destruct (m_what m); [exact IH|destruct Hm|exact IH].
Qed.
Lemma tl_map j k f : told j k (set_cmap k (map_vals f (cmap k))).
Proof. reflexivity. Qed.
Lemma tl_set j k id c : told j k (set_cmap k (set (cmap k) id c)).
Proof. reflexivity. Qed.
Lemma tl_add_view j v k k' : add_view v k = Ok k' -> told j k k'.
Proof. intro E. apply tl_same. unfold add_view in E. bnd E. destruct v0. injection E as <-. reflexivity. Qed.
Lemma tl_drop j G bs : forall k k', drop_buffers G bs k = Ok k' -> told j k k'.
Proof.
  induction bs as [|b bs IH]; intros k k' E; cbn [drop_buffers] in E; [injection E as <-; apply tl_refl|]. destruct (existsb _ _); [auto|]. bnd E. apply IH in E. eapply tl_trans; [|exact E]. apply (tl_append j) in E0. exact E0.
Qed.
Lemma tl_delete_view j G id k r k' : delete_view G id k = Ok (r, k') -> told j k k'.
Proof.
  unfold delete_view. intro E. destruct (negb _); [injection E as _ <-; apply tl_refl|]. destruct (sm_remove id (k_views k)) as [ov vs]. bnd E. bnd E. bnd E. bnd E. bnd E. bnd E. injection E as _ <-.
  apply (tl_append j) in E1. apply (tl_drop j) in E2. apply (tl_notify j) in E5.
  assert (told j v1 v2) as E3'. { destruct (vmap v1) eqn:V. - apply (tl_add_view j) in E3. eapply tl_trans; [|exact E3]. destruct (k_buffers v1); apply tl_same; reflexivity. - injection E3 as <-. apply tl_refl. }
  eapply tl_trans; [|exact E5]. eapply tl_trans; [|apply tl_map]. eapply tl_trans; [|exact E3']. eapply tl_trans; [|exact E2]. eapply tl_trans; [|apply tl_map]. exact E1.
Qed.
Lemma tl_modify_view j G id f k k' : modify_view G id f k = Ok k' -> told j k k'.
Proof.
  unfold modify_view. intro E. bnd E. cbv zeta in E. destruct (eqb _ _); [injection E as <-; apply tl_refl|]. bnd E. bnd E. destruct v1 as [r k1]. destruct r; [discriminate|]. injection E as <-.
  apply (tl_delete_view j) in E2. eapply tl_trans; [|exact E2]. destruct (view_is_empty _); [injection E1 as <-; apply tl_refl|]. apply (tl_add_view j) in E1. eapply tl_trans; [|exact E1]. apply tl_map.
Qed.
Lemma tl_view j G id v k r k' : view_cmd G id v k = Ok (r, k') -> told j k k'.
Proof.
  unfold view_cmd. intro E. destruct (view_exists k v).
  - bnd E. bnd E. bnd E. injection E as _ <-. apply (tl_notify j) in E2. eapply tl_trans; [|exact E2]. apply tl_set.
  - destruct (buffer_exists k v); [|injection E as _ <-; apply tl_refl]. bnd E. bnd E. injection E as _ <-. apply (tl_notify j) in E1. eapply tl_trans; [|exact E1]. exact (tl_set j k id _).
Qed.
Lemma tl_edit j G pol d id n s k k' : edit_cmd G pol d id n s k = Ok k' -> told j k k'.
Proof.
  unfold edit_cmd. intro E. bnd E. destruct v as [nt k1]. bnd E. bnd E. destruct v0 as [e k2]. destruct e; [discriminate|]. bnd E.
  apply (tl_add_view j) in E1. apply (tl_view j) in E2. apply (tl_append j) in E3.
  assert (told j k k1) as E0'.
  { destruct s; [injection E0 as _ <-; destruct (buffer_exists k n); apply tl_same; reflexivity|]. destruct (buffer_exists k n).
    - bnd E0. bnd E0. destruct v2 as [rl b]. bnd E0. injection E0 as _ <-. destruct rl; [apply (tl_append j) in E6; exact E6|injection E6 as <-; apply tl_same; reflexivity].
    - bnd E0. injection E0 as _ <-. unfold open_file in E4. bnd E4. injection E4 as <-. apply tl_same; reflexivity. }
  eapply tl_trans; [exact E0'|]. eapply tl_trans; [exact E1|]. eapply tl_trans; [exact E2|]. eapply tl_trans; [exact E3|]. destruct nt; [eapply tl_notify; eauto|injection E as <-; apply tl_refl].
Qed.
Lemma call_told j G pol d c k r k' : run_call G pol d c k = Ok (r, k') -> c <> CJoin j -> told j k k'.
Proof.
  intros E NJ. assert (told j k k' -> told j k k') as S by auto.
  destruct c; cbn [run_call] in E.
  - bnd E. injection E as _ <-. apply S. eapply tl_edit; eauto.
  - bnd E. destruct v. injection E as _ <-. apply S. eapply tl_view; eauto.
  - bnd E. injection E as _ <-. apply S. unfold delete_current_view in E0. bnd E0. bnd E0. destruct v1 as [o k1]. destruct o; [discriminate|]. injection E0 as <-. eapply tl_delete_view; eauto.
  - bnd E. destruct v. injection E as _ <-. apply S. unfold add_to_current_view in E0. destruct (negb _); [injection E0 as _ <-; apply tl_refl|]. bnd E0. bnd E0. injection E0 as _ <-. eapply tl_modify_view; eauto.
  - bnd E. destruct v. injection E as _ <-. apply S. unfold remove_from_current_view in E0. destruct (negb _); [injection E0 as _ <-; apply tl_refl|]. bnd E0. bnd E0. injection E0 as _ <-. eapply tl_modify_view; eauto.
  - bnd E. injection E as _ <-. apply S. unfold move_cursor in E0. bnd E0. bnd E0. bnd E0. clear E. destruct (negb _); [apply (tl_notify j) in E0; eapply tl_trans; [|exact E0]; apply tl_set|injection E0 as <-; apply tl_set].
  - bnd E. destruct v as [xs k1]. injection E as _ <-. apply S. unfold delete_selection in E0. bnd E0. bnd E0. bnd E0. destruct v1 as [[xs' mods] bufs]. bnd E0. destruct xs'; [injection E0 as _ <-; exact (tl_set j (set_buffers k bufs) id _)|]. bnd E0. injection E0 as _ <-. apply (tl_notify j) in E4. eapply tl_trans; [|exact E4]. exact (tl_set j (set_buffers k bufs) id _).
  - bnd E. injection E as _ <-. apply S. eapply tl_append; eauto.
  - bnd E. injection E as _ <-. apply S. apply (tl_edit j) in E0. exact E0.
  - bnd E. injection E as _ <-. apply S. unfold message in E0. bnd E0. injection E0 as <-. apply (tl_append j) in E. eapply tl_trans; [exact E|]. apply tl_emit. repeat constructor.
  - bnd E. injection E as _ <-. apply S. unfold Core.error in E0. cbv zeta in E0. bnd E0. injection E0 as <-. apply (tl_append j) in E. eapply tl_trans; [exact E|]. apply tl_emit. repeat constructor.
  - bnd E. injection E as _ <-. apply S. eapply tl_append; eauto.
  - bnd E. destruct v. injection E as _ <-. apply tl_refl.
  - bnd E. injection E as _ <-. unfold add_client in E0. bnd E0. bnd E0. destruct v1 as [o m]. bnd E0. injection E0 as <-. apply (tl_append j) in E2.
    eapply tl_trans; [exact E2|]. unfold told. cbn [emit k_sent]. rewrite infos_app. cbn [infos flat_map m_what m_to existsb]. rewrite (proj2 (Nat.eqb_neq j id)) by congruence. cbn [orb app]. apply app_nil_r.
  - bnd E. injection E as _ <-. unfold remove_client in E0. apply (tl_append j) in E0. exact E0.
Qed.
Lemma join_told j G pol d k r k' : run_call G pol d (CJoin j) k = Ok (r, k') -> infos (k_sent k') j = infos (k_sent k) j ++ [(dec j, k_cwd k')].
Proof.
  intro E. cbn [run_call] in E. bnd E. injection E as _ <-. unfold add_client in E0. bnd E0. bnd E0. destruct v1 as [o m]. bnd E0. injection E0 as <-. apply (tl_append j) in E2. unfold told in E2. cbn [emit k_sent]. rewrite infos_app, E2. cbn [infos flat_map m_what m_to existsb]. rewrite Nat.eqb_refl. reflexivity.
Qed.

Lemma hidden_call G pol j d c k r k' : inv0 k -> c <> CJoin j -> run_call G pol d c k = Ok (r, k') -> hidden j k k'.
Proof.
  intros I P E N. split; [|eapply call_hidden; eauto].
  intro C. apply (call_clients _ _ _ _ _ _ _ I E) in C. destruct c; try (now apply N); destruct C as [->|C]; [now apply P|now apply N].
Qed.

Section Facts.
Variable G : Graphemes.
Variable pol : policy.
Variable u : regex_crate.
Variable se : serde.
Variable L : lua.
Variable j : nat.
Notation editor := (editor L).
(** what holds across every call but the one that makes [j] join *)
Variable R : core -> core -> Prop.
Hypothesis R_refl : forall k, R k k.
Hypothesis R_trans : forall a b c, R a b -> R b c -> R a c.
Hypothesis R_call : forall d c k r k', inv0 k -> c <> CJoin j -> run_call G pol d c k = Ok (r, k') -> R k k'.
Definition hush (e e' : editor) : Prop := R (ed_core L e) (ed_core L e').
Lemma hush_trans a b c : hush a b -> hush b c -> hush a c.
Proof. apply R_trans. Qed.
Lemma hush_refl e : hush e e.
Proof. apply R_refl. Qed.
Lemma hush_core e e' : ed_core L e' = ed_core L e -> hush e e'.
Proof. unfold hush. intros ->. apply R_refl. Qed.
Lemma on_core_hush w c e r e' : einv G pol L e -> c <> CJoin j -> on_core G pol L w c e = Ok (r, e') -> hush e e'.
Proof. unfold on_core. intros I P E. bnd E. destruct v as [r0 k]. injection E as _ <-. eapply R_call; [exact (einv_inv0 G pol L e I)|exact P|exact E0]. Qed.
Lemma do_core_hush w c e e' : einv G pol L e -> c <> CJoin j -> do_core G pol L w c e = Ok e' -> hush e e'.
Proof. unfold do_core. intros I P E. bnd E. destruct v. injection E as <-. eapply on_core_hush; eauto. Qed.
Lemma lua_call_hush w c e r e' : einv G pol L e -> lua_call G pol L w c e = Ok (r, e') -> hush e e'.
Proof. intros I E. destruct c; cbn [lua_call] in E; try (eapply on_core_hush; [exact I| |exact E]; discriminate); injection E as _ <-; apply hush_core; reflexivity. Qed.
Lemma script_hush w t : forall e r e', einv G pol L e -> run_script G pol L w t e = Ok (r, e') -> hush e e'.
Proof.
  induction t as [s|x s|c k IH]; intros e r e' I E; cbn [run_script] in E; [injection E as _ <-; apply hush_core; reflexivity..|]. bnd E. destruct v as [r0 e1]. eapply hush_trans; [eapply lua_call_hush; eauto|]. eapply IH; [|exact E]. eapply lua_call_inv; eauto.
Qed.
Lemma exec_hush w s c f e r e' : einv G pol L e -> exec_lua G pol L w s c f e = Ok (r, e') -> hush e e'.
Proof.
  unfold exec_lua. intros I E. bnd E. destruct v as [r0 e0]. pose proof (script_hush _ _ _ _ _ I E0) as Q0. apply script_inv in E0; auto. bnd E. destruct v as [r1 e1].
  assert (hush e0 e1 /\ einv G pol L e1) as [Q1 I1] by (destruct r0; [injection E1 as _ <-; split; [apply hush_refl|auto]|split; [eapply script_hush; eauto|eapply script_inv; eauto]]).
  assert (hush e e1) as Q by (eapply hush_trans; eauto). destruct r1; [|now injection E as _ <-]. bnd E. bnd E. injection E as _ <-.
  eapply hush_trans; [exact Q|]. eapply hush_trans; [eapply (do_core_hush w); [exact I1| |exact E2]; discriminate|]. eapply (do_core_hush w); [| |exact E3]; [eapply do_core_inv; eauto|discriminate].
Qed.
Lemma exec_cmd_hush w id s e o e' : einv G pol L e -> command_exec G pol L w id s e = Ok (o, e') -> hush e e'.
Proof. unfold command_exec. intros I E. bnd E. destruct v. injection E as _ <-. eapply exec_hush; eauto. Qed.
Lemma keys_hush w id ks : forall e o e', einv G pol L e -> command_keys G pol L w id ks e = Ok (o, e') -> hush e e'.
Proof.
  induction ks as [|k ks IH]; intros e o e' I E; cbn [command_keys] in E; [injection E as _ <-; apply hush_refl|]. bnd E. destruct v as [x e1]. pose proof (exec_hush _ _ _ _ _ _ _ I E0) as Q. apply exec_inv in E0; auto. eapply hush_trans; [exact Q|]. destruct x; [|eauto]. bnd E. injection E as _ <-. eapply do_core_hush; [exact E0| |exact E1]. discriminate.
Qed.
Lemma show_menu_hush w id m key search b e e' : show_menu u L w id m key search b e = Ok e' -> hush e e'.
Proof. unfold show_menu. intro E. bnd E. injection E as <-. apply hush_core. reflexivity. Qed.
Lemma menu_hush w id p e o e' : command_menu u L w id p e = Ok (o, e') -> hush e e'.
Proof. unfold command_menu. intro E. destruct (get (ed_menus L e) (mp_command p)); [|injection E as _ <-; apply hush_refl]. bnd E. injection E as _ <-. eapply show_menu_hush; eauto. Qed.
Lemma quit_hush w id e o e' : einv G pol L e -> command_quit G pol L w id e = Ok (o, e') -> hush e e'.
Proof.
  unfold command_quit. intros I E. bnd E. injection E as _ <-. eapply hush_trans; [eapply do_core_hush; [exact I| |exact E0]; discriminate|]. apply hush_core. reflexivity.
Qed.
Lemma action_hush w a c id e o e' : einv G pol L e -> run_action G pol u L w a c id e = Ok (o, e') -> hush e e'.
Proof.
  intros I E. destruct a; cbn [run_action] in E.
  - unfold submenu_action in E. bnd E. bnd E. injection E as _ <-. eapply show_menu_hush; eauto.
  - eapply quit_hush; eauto.
  - unfold command_view_delete in E. bnd E. injection E as _ <-. eapply do_core_hush; [exact I| |exact E0]. discriminate.
  - unfold command_edit in E. bnd E. injection E as _ <-. eapply do_core_hush; [exact I| |exact E0]. discriminate.
  - unfold command_edit in E. bnd E. injection E as _ <-. eapply do_core_hush; [exact I| |exact E0]. discriminate.
  - unfold command_view in E. bnd E. destruct v. injection E as _ <-. eapply on_core_hush; [exact I| |exact E0]. discriminate.
  - unfold command_view_add in E. bnd E. destruct v. injection E as _ <-. eapply on_core_hush; [exact I| |exact E0]. discriminate.
  - unfold command_view_remove in E. bnd E. destruct v. injection E as _ <-. eapply on_core_hush; [exact I| |exact E0]. discriminate.
  - eapply exec_cmd_hush; eauto.
Qed.
Lemma select_hush w id p e o e' : einv G pol L e -> command_menu_select G pol u L w id p e = Ok (o, e') -> hush e e'.
Proof.
  intros I E. unfold command_menu_select in E. destruct (get (ed_menus L e) (sp_command p)) as [m|]; [|injection E as _ <-; apply hush_refl]. cbv zeta in E.
  match type of E with match ?x with Some _ => _ | None => _ end = _ => destruct x as [i|] end; [eapply action_hush; eauto|injection E as _ <-; apply hush_refl].
Qed.
Lemma handle_hush w id line e r e' : einv G pol L e -> handle G pol u se L w id line e = Ok (r, e') -> hush e e'.
Proof.
  intros I E. unfold handle in E. destruct (parse_request line) as [q|] eqn:P.
  2:{ bnd E. injection E as _ <-. eapply do_core_hush; [exact I| |exact E0]. discriminate. }
  repeat match type of E with (if ?b then _ else _) = _ => destruct b end;
    try (apply with_effect in E; [|reflexivity]; destruct E as [(p & o & A & E)|(-> & N)]; [|apply hush_refl]; cbv beta in E);
    try (apply (answer_effect _ _ _ _ _ (hush e) E); intros o e1 X).
  - unfold command_edit in E. bnd E. injection E as _ <-. eapply do_core_hush; [exact I| |exact E0]. discriminate.
  - eapply quit_hush; eauto.
  - unfold command_view in E. bnd E. destruct v. injection E as _ <-. eapply on_core_hush; [exact I| |exact E0]. discriminate.
  - unfold command_view_delete in X. bnd X. injection X as _ <-. eapply do_core_hush; [exact I| |exact E0]. discriminate.
  - unfold command_view_add in E. bnd E. destruct v. injection E as _ <-. eapply on_core_hush; [exact I| |exact E0]. discriminate.
  - unfold command_view_remove in E. bnd E. destruct v. injection E as _ <-. eapply on_core_hush; [exact I| |exact E0]. discriminate.
  - eapply menu_hush; eauto.
  - eapply select_hush; eauto.
  - eapply keys_hush; eauto.
  - eapply exec_cmd_hush; eauto.
  - bnd E. injection E as _ <-. eapply do_core_hush; [exact I| |exact E0]. discriminate.
Qed.
Lemma join_hush w id e e' : einv G pol L e -> id <> j -> editor_add_client G pol L w id e = Ok e' -> hush e e'.
Proof.
  unfold editor_add_client. intros I N E. bnd E. bnd E. destruct v0 as [r e1]. injection E as <-. pose proof (do_core_inv _ _ _ _ _ _ _ I E0) as I1. eapply hush_trans; [eapply do_core_hush; [exact I| |exact E0]; congruence|]. eapply exec_hush; eauto.
Qed.
Lemma leave_hush w id e e' : einv G pol L e -> editor_remove_client G pol L w id e = Ok e' -> hush e e'.
Proof.
  unfold editor_remove_client. intros I E. bnd E. bnd E. destruct v0 as [r e1]. injection E as <-. pose proof (do_core_inv _ _ _ _ _ _ _ I E0) as I1. eapply hush_trans; [eapply do_core_hush; [exact I| |exact E0]; discriminate|]. eapply exec_hush; eauto.
Qed.
End Facts.
