(** C82: asking for a menu. *)
From Coq Require Import String List Arith Lia ZArith Bool Permutation Sorted.
From Verif Require Import Base ListFacts PieceTable Coords Utf8 Utf8Spec Utf8Facts Diff Selection Maps StackMap Fmt Buffer View ViewSpec ViewFacts Json Proto Core CoreSpec CoreInv Payload Menu MenuSpec PropMenu MenuOpen Editor EditorSpec MenusSpec EditorFacts PropEditor.
Import ListNotations.

Section Prop82.
Variable G : Graphemes.
Variable pol : policy.
Variable u : regex_crate.
Variable se : serde.
Variable L : lua.
Notation ereach := (ereach G pol u se L).
Notation handle := (handle G pol u se L).

(** the menus of the editor are the default ones, filled or not *)
Lemma menu_there e cmd m0 : einv G pol L e -> get default_commands cmd = Some m0 -> exists m, get (ed_menus L e) cmd = Some m /\ menu_ok m0 m.
Proof.
  intros I H. destruct (get (ed_menus L e) cmd) as [m|] eqn:E.
  - exists m. split; [reflexivity|]. destruct (get_forall2 _ _ _ _ _ (ei_menus _ _ _ e I) E) as (m1 & H1 & K). congruence.
  - apply (none_forall2 _ _ _ _ (ei_menus _ _ _ e I)) in E. congruence.
Qed.
Lemma refilled m0 m w k : menu_ok m0 m -> populate w k m = populate w k m0.
Proof. intros [->|(w' & k' & ->)]; reflexivity. Qed.
Lemma perm_alone (P : text -> bool) (Q : text -> Prop) l alone : NoDup l -> (forall b, P b = true <-> Q b) -> NoDup alone -> (forall b, In b alone <-> In b l /\ Q b) -> Permutation (filter P l) alone.
Proof.
  intros N HP N' H. apply NoDup_Permutation; [now apply NoDup_filter|exact N'|]. intro b. rewrite filter_In, H, HP. tauto.
Qed.
Lemma not_listed b l : negb (existsb (eqb b) l) = true <-> ~ In b l.
Proof.
  rewrite negb_true_iff. split; intro H.
  - intro I. assert (existsb (eqb b) l = true) as X by (apply existsb_exists; exists b; split; [exact I|apply eqb_refl]). congruence.
  - apply not_true_is_false. intro X. apply existsb_exists in X. destruct X as (y & Hy & E). apply eqb_ok in E. subst. contradiction.
Qed.
Lemma map_itself a l : map offer_of (map (plain_item a) l) = map itself l.
Proof. rewrite map_map. reflexivity. Qed.
Lemma offers_entries w k cmd title l : NoDup (keys (k_buffers k)) -> offers w k cmd title l ->
  exists m0, get default_commands cmd = Some m0 /\ is_prompt m0 = false /\ mn_command m0 = cmd /\ mn_title m0 = title /\ Permutation (map offer_of (mn_entries (populate w k m0))) l.
Proof.
  intros N O. destruct O as [| |alone Na Ha| |]; eexists; (split; [reflexivity|]); (split; [reflexivity|]); (split; [reflexivity|]); (split; [reflexivity|]); cbn [populate provider_menu snd mn_source mn_entries provide].
  - reflexivity.
  - rewrite map_itself. reflexivity.
  - rewrite map_itself. apply Permutation_map, Permutation_app_head. eapply perm_alone; [exact N| |exact Na|exact Ha]. intro b. apply not_listed.
  - rewrite map_itself. reflexivity.
  - rewrite map_itself. reflexivity.
Qed.
Lemma offered_whole i : offered (whole_entry i) = offer_of i.
Proof. unfold offered, whole_entry, offer_of. cbn [en_value en_text en_descr]. destruct (it_label i); [reflexivity|]. cbn [map concat fr_text]. now rewrite app_nil_r. Qed.
Lemma show_only e cmd m x id : only_menu L id x e (send L (set_menus L e (set (ed_menus L e) cmd m)) (Some [id]) (OMenu x)).
Proof. repeat split. Qed.
Lemma offered_sorted l : StronglySorted label_le l -> StronglySorted text_before (map offer_of l).
Proof. induction 1 as [|x l S IH F]; cbn [map]; constructor; auto. apply Forall_map. exact F. Qed.
(** A client that asks for a menu, searching for nothing, is told that it succeeded and is sent the menu: its title and all it has to offer, read
    now and in alphabetical order.  Nobody else is sent anything, and nothing else changes. *)
Theorem C82_opened : forall e w id line q cmd title l, ereach e -> parse_request line = Some q -> asks dec_menu (str "menu") (mkMenuP cmd []) q ->
  offers w (ed_core L e) cmd title l -> rx_fits u (str "(?i)") = true -> Forall (fun x => valid (snd (fst x))) l ->
  exists r e' m, handle w id line e = Ok (r, e') /\ granted r /\ rp_id r = rq_id q /\ only_menu L id m e e' /\
    me_command m = cmd /\ me_title m = title /\ me_search m = [] /\
    Permutation (map offered (me_entries m)) l /\ StronglySorted text_before (map offered (me_entries m)).
Proof.
  intros e w id line q cmd title l R P A O F V. apply ereach_inv in R. rewrite (handle_menu _ _ _ _ _ _ _ _ _ _ P _ A). unfold command_menu. cbn [mp_command mp_search].
  destruct (offers_entries w (ed_core L e) cmd title l (i_ub _ (i_0 _ (reach_inv _ _ _ (ei_core _ _ _ e R)))) O) as (m0 & D & Pr & Mc & Mt & Pe).
  destruct (menu_there e cmd m0 R D) as (m & -> & K). unfold show_menu. rewrite eqb_refl. rewrite (refilled m0 m _ _ K).
  assert (is_prompt (populate w (ed_core L e) m0) = false) as Pr' by exact Pr.
  destruct (opened_notification u F (populate w (ed_core L e) m0) Pr') as (es & -> & Ps & Ss).
  { apply Forall_forall. intros i I. rewrite Forall_forall in V. apply (V (offer_of i)). apply (Permutation_in _ Pe). now apply in_map. }
  cbn [bind answer]. eexists _, _, _. split; [reflexivity|]. split; [split; reflexivity|]. split; [reflexivity|]. split; [apply show_only|].
  cbn [me_command me_title me_search me_entries]. rewrite map_map. rewrite (map_ext _ _ offered_whole).
  split; [exact Mc|]. split; [exact Mt|]. split; [reflexivity|]. split; [|now apply offered_sorted]. rewrite <- Pe. now apply Permutation_map.
Qed.
(** A prompt has one entry, its question. *)
Theorem C82_prompt : forall e w id line q cmd title message, ereach e -> parse_request line = Some q -> asks dec_menu (str "menu") (mkMenuP cmd []) q ->
  asks_text cmd title message ->
  exists r e', handle w id line e = Ok (r, e') /\ granted r /\ rp_id r = rq_id q /\
    only_menu L id (mkMenu cmd title [] [mkEntry [] [mkFrag message FPrompt] None]) e e'.
Proof.
  intros e w id line q cmd title message R P A T. apply ereach_inv in R. rewrite (handle_menu _ _ _ _ _ _ _ _ _ _ P _ A). unfold command_menu. cbn [mp_command mp_search].
  destruct T; (match goal with |- context [get (ed_menus L e) ?c] => destruct (menu_there e c _ R eq_refl) as (m & -> & K) end);
    unfold show_menu; rewrite eqb_refl, (refilled _ m _ _ K); eexists _, _; (split; [reflexivity|]); (split; [split; reflexivity|]); (split; [reflexivity|apply show_only]).
Qed.
Lemma split_offers u' search l es : Forall2 (fun i e => en_value e = it_key i /\ en_descr e = it_descr i /\ displayed u' search (it_label i) (en_text e)) l es -> map offered es = map offer_of l.
Proof. induction 1 as [|i x l es (A & B & C & _) F IH]; cbn [map]; [reflexivity|]. rewrite IH. f_equal. unfold offered, offer_of. now rewrite A, B, C. Qed.
Lemma chosen cmd title : In (cmd, title) choosable -> exists m0, get default_commands cmd = Some m0 /\ is_prompt m0 = false /\ mn_command m0 = cmd /\ mn_title m0 = title.
Proof. cbn [choosable map In]. intros [H|[H|[H|[H|[H|[]]]]]]; injection H as <- <-; eexists; repeat split. Qed.
(** A client that searches a menu is sent those of its entries that match, as they were when the menu was last opened, by anyone: nothing is read again. *)
Theorem C82_searched : forall e w id line q cmd title s, ereach e -> parse_request line = Some q -> asks dec_menu (str "menu") (mkMenuP cmd s) q ->
  In (cmd, title) choosable -> s <> [] -> plain_search s -> rx_fits u (raw_regex s) = true ->
  Forall (fun x => valid (snd (fst x)) /\ (Z.of_nat (length (snd (fst x))) < 2 ^ 23)%Z) (opened_entries (ed_out L e) cmd) ->
  exists r e' m l', handle w id line e = Ok (r, e') /\ granted r /\ rp_id r = rq_id q /\ only_menu L id m e e' /\
    me_command m = cmd /\ me_title m = title /\ me_search m = s /\
    Permutation (map offered (me_entries m) ++ l') (opened_entries (ed_out L e) cmd) /\
    Forall (fun x => matches u s (snd (fst x))) (map offered (me_entries m)) /\ Forall (fun x => ~ matches u s (snd (fst x))) l'.
Proof.
  intros e w id line q cmd title s R P A D0 Ns Pl F V. destruct (chosen cmd title D0) as (m0 & D & Pr & Mc & Mt). apply ereach_inv in R. rewrite (handle_menu _ _ _ _ _ _ _ _ _ _ P _ A). unfold command_menu. cbn [mp_command mp_search].
  destruct (menu_there e cmd m0 R D) as (m & Gm & K). rewrite Gm. unfold show_menu. replace (eqb s []) with false by (symmetry; now apply eqb_neq).
  assert (is_prompt m = false) as Pr' by (destruct K as [->|(w' & k' & ->)]; exact Pr).
  pose proof (ei_opened _ _ _ e R cmd m Gm Pr') as Op.
  destruct (C52_partial u m s Pr' Pl F) as (info & l & l' & E & Pm & Ma & Nm & _ & Sh).
  { apply Forall_forall. intros i I. rewrite Forall_forall in V. apply (V (offer_of i)). apply (Permutation_in _ Op). now apply in_map. }
  rewrite E. cbn [bind answer]. eexists _, _, info, (map offer_of l'). split; [reflexivity|]. split; [split; reflexivity|]. split; [reflexivity|]. split; [apply show_only|].
  destruct (C51_concat _ _ _ _ E) as (C1 & C2 & C3 & _). rewrite C1, C2, C3, (split_offers _ _ _ _ Sh), <- map_app.
  split; [destruct K as [->|(w' & k' & ->)]; exact Mc|]. split; [destruct K as [->|(w' & k' & ->)]; exact Mt|].
  split; [reflexivity|]. split; [rewrite <- Op; now apply Permutation_map|]. split; apply Forall_map; assumption.
Qed.
(** Searching a menu that nobody has opened finds nothing, whatever there is to find. *)
Theorem C82_unopened_refuted : forall e w id line q cmd title s, ereach e -> parse_request line = Some q -> asks dec_menu (str "menu") (mkMenuP cmd s) q ->
  In (cmd, title) choosable -> s <> [] -> plain_search s -> rx_fits u (raw_regex s) = true ->
  last_opened (ed_out L e) cmd = None ->
  exists r e' m, handle w id line e = Ok (r, e') /\ granted r /\ only_menu L id m e e' /\ me_search m = s /\ me_entries m = [].
Proof.
  intros e w id line q cmd title s R P A D Ns Pl F N. assert (opened_entries (ed_out L e) cmd = []) as Z by (unfold opened_entries; now rewrite N).
  destruct (C82_searched e w id line q cmd title s R P A D Ns Pl F) as (r & e' & m & l' & H & Gr & _ & Om & _ & _ & Se & Pe & _); [rewrite Z; constructor|].
  exists r, e', m. split; [exact H|]. split; [exact Gr|]. split; [exact Om|]. split; [exact Se|]. rewrite Z in Pe. apply Permutation_sym, Permutation_nil in Pe. apply app_eq_nil in Pe. destruct Pe as [Pe _]. now apply map_eq_nil in Pe.
Qed.
End Prop82.
Print Assumptions C82_opened.
Print Assumptions C82_prompt.
Print Assumptions C82_searched.
Print Assumptions C82_unopened_refuted.
