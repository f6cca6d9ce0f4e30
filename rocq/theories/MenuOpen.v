(** A menu asked for with an empty search shows all its entries. *)
From Coq Require Import String List Arith Lia ZArith Bool Permutation Sorted.
From Verif Require Import Base ListFacts Maps Utf8 Utf8Spec Utf8Facts Fmt Chars View ViewSpec ViewFacts Json Proto Payload Menu MenuSpec MenuFacts.
Import ListNotations.

(** an entry as it is when nothing is searched for *)
Definition whole_entry (i : item) : entry := mkEntry (it_key i) (match it_label i with [] => [] | x => [mkFrag x FDefault] end) (it_descr i).
Definition label_le (a b : item) : Prop := it_label a = it_label b \/ text_lt (it_label a) (it_label b).
Definition all_match (i : item) : candidate := mkCand i (Some (score_div 1)) [Some (0, 0)].
Lemma regex_nil u : rx_fits u (str "(?i)") = true -> exists f, regex_new u (raw_regex []) = Some f /\ forall s, f s = Some [Some (0, 0)].
Proof.
  intro F. unfold regex_new. change (raw_regex []) with (str "(?i)"). rewrite F. cbn [negb]. change (eqb (firstn 4 (str "(?i)")) (str "(?i)")) with true. cbv iota. change (skipn 4 (str "(?i)")) with (@nil nat).
  change (parse_items (chars [])) with (Some (@nil ritem)). cbn [balanced Nat.eqb]. eexists. split; [reflexivity|]. intro s. cbv beta. destruct (chars s); reflexivity.
Qed.
Lemma text_cmp_refl a : text_cmp a a = Eq.
Proof. now apply text_cmp_eq. Qed.
Lemma all_cmp a b : candidate_cmp (all_match b) (all_match a) = text_cmp (it_label a) (it_label b).
Proof. unfold candidate_cmp. cbn [all_match ca_score ca_item opt_score_compare]. unfold score_compare. rewrite Z.compare_refl. reflexivity. Qed.
Lemma ins_all x l : ins_by (fun a b => candidate_cmp b a) (all_match x) (map all_match l) = map all_match (ins_by (fun a b => text_cmp (it_label a) (it_label b)) x l).
Proof.
  induction l as [|y l IH]; cbn [map ins_by]; auto. unfold less. rewrite all_cmp. destruct (text_cmp (it_label x) (it_label y)); cbn [map]; congruence.
Qed.
Lemma sort_all l : sort_by (fun a b => candidate_cmp b a) (map all_match l) = map all_match (sort_by (fun a b => text_cmp (it_label a) (it_label b)) l).
Proof.
  unfold sort_by. change (@nil candidate) with (map all_match []). generalize (@nil item) as s. induction l as [|x l IH]; intro s; cbn [map fold_left]; auto. rewrite ins_all. apply IH.
Qed.
Lemma label_le_trans a b c : label_le a b -> label_le b c -> label_le a c.
Proof. unfold label_le. intros [->|H] [<-|H']; auto. right. eapply text_lt_trans; eauto. Qed.
Lemma sort_labels l : StronglySorted label_le (sort_by (fun a b => text_cmp (it_label a) (it_label b)) l).
Proof.
  assert (forall x l, StronglySorted label_le l -> StronglySorted label_le (ins_by (fun a b => text_cmp (it_label a) (it_label b)) x l)) as Ins.
  { intros x s. induction 1 as [|y s S IH H]; cbn [ins_by]; [repeat constructor|]. rewrite Forall_forall in H. unfold less. destruct (text_cmp (it_label x) (it_label y)) eqn:E.
    - apply text_cmp_eq in E. apply sorted_cons; auto. intros z Hz. apply (Permutation_in _ (ins_perm _ _ _)) in Hz. destruct Hz as [<-|Hz]; [left; congruence|auto].
    - apply text_cmp_lt in E. apply sorted_cons; [apply sorted_cons; auto|]. intros z [<-|Hz]; [now right|]. eapply label_le_trans; [right; exact E|auto].
    - apply text_cmp_gt in E. apply sorted_cons; auto. intros z Hz. apply (Permutation_in _ (ins_perm _ _ _)) in Hz. destruct Hz as [<-|Hz]; [now right|auto]. }
  unfold sort_by. assert (StronglySorted label_le []) as H by constructor. revert H. generalize (@nil item) as s. induction l as [|x l IH]; intros s S; cbn [fold_left]; auto.
Qed.
Lemma boundary_ends s : valid s -> char_boundary s 0 = true /\ char_boundary s (length s) = true.
Proof.
  intro V. split; [exact (boundary_valid [] s valid_nil V)|]. pose proof (boundary_valid s [] V valid_nil) as B. rewrite app_nil_r in B. exact B.
Qed.
Lemma whole_shown i : valid (it_label i) -> shown_entry (all_match i) = Ok (whole_entry i).
Proof.
  intro V. unfold shown_entry, tokenize, whole_entry, all_match. cbn [ca_item ca_locs tl tokens_from]. destruct (boundary_ends _ V) as [B0 B1]. unfold str_slice. rewrite B0, B1. unfold slice. rewrite Nat.sub_0_r. cbn [skipn Nat.leb andb]. rewrite firstn_all.
  destruct (it_label i) as [|b l]; reflexivity.
Qed.
Lemma whole_only i x : shown_entry (all_match i) = Ok x -> x = whole_entry i.
Proof.
  unfold shown_entry, tokenize, whole_entry, all_match. cbn [ca_item ca_locs tl tokens_from]. destruct (it_label i) as [|b l]; [intro H; injection H as <-; reflexivity|]. cbn [length Nat.ltb Nat.leb]. unfold str_slice. destruct (_ && _ && _); cbn [bind]; [|discriminate].
  intro H. injection H as <-. unfold slice. cbn [skipn Nat.sub]. change (firstn (S (length l)) (b :: l)) with (firstn (length (b :: l)) (b :: l)). rewrite firstn_all. reflexivity.
Qed.
Section Opened.
Variable u : regex_crate.
Hypothesis F : rx_fits u (str "(?i)") = true.
Lemma opened_sorted m : is_prompt m = false -> let l := sort_by (fun a b => text_cmp (it_label a) (it_label b)) (mn_entries m) in
  menu_notification u m [] = (es <- mapM shown_entry (map all_match l) ;; Ok (mkMenu (mn_command m) (mn_title m) [] es)).
Proof.
  intros P l. destruct (regex_nil u F) as (f & Ef & Hf). unfold menu_notification. rewrite P. unfold filter_items. rewrite Ef. cbn [unwrap bind].
  assert (forall l, mapM (candidate_new f) l = Ok (map all_match l)) as M.
  { induction l0 as [|i l0 IH]; cbn [mapM map]; auto. unfold candidate_new at 1. rewrite Hf. change (compute_candidate_score [Some (0, 0)]) with (Ok (score_div 1)). cbn [bind]. rewrite IH. reflexivity. }
  rewrite M. cbn [bind]. rewrite sort_all. fold l. assert (forall l, List.filter (fun c => match ca_score c with Some _ => true | None => false end) (map all_match l) = map all_match l) as Fi by (induction l0 as [|i l0 IH]; cbn [map filter all_match ca_score]; congruence).
  now rewrite Fi.
Qed.
(** all of them, in alphabetical order *)
Lemma opened_notification m : is_prompt m = false -> Forall (fun i => valid (it_label i)) (mn_entries m) ->
  exists l, menu_notification u m [] = Ok (mkMenu (mn_command m) (mn_title m) [] (map whole_entry l)) /\ Permutation l (mn_entries m) /\ StronglySorted label_le l.
Proof.
  intros P V. exists (sort_by (fun a b => text_cmp (it_label a) (it_label b)) (mn_entries m)). split; [|split; [apply sort_perm|apply sort_labels]].
  rewrite opened_sorted by exact P. assert (forall l, (forall i, In i l -> valid (it_label i)) -> mapM shown_entry (map all_match l) = Ok (map whole_entry l)) as Sh.
  { induction l as [|i l IH]; intro Vl; cbn [map mapM]; [reflexivity|]. rewrite whole_shown by (apply Vl; now left). cbn [bind]. rewrite IH by (intros; apply Vl; now right). reflexivity. }
  rewrite Sh; [reflexivity|]. rewrite Forall_forall in V. intros i I. apply V. exact (Permutation_in _ (sort_perm _ _) I).
Qed.
Lemma opened_only m info : is_prompt m = false -> menu_notification u m [] = Ok info ->
  exists l, info = mkMenu (mn_command m) (mn_title m) [] (map whole_entry l) /\ Permutation l (mn_entries m).
Proof.
  intros P E. exists (sort_by (fun a b => text_cmp (it_label a) (it_label b)) (mn_entries m)). split; [|apply sort_perm]. rewrite opened_sorted in E by exact P. revert E. generalize (sort_by (fun a b => text_cmp (it_label a) (it_label b)) (mn_entries m)) as l. intros l E.
  destruct (mapM shown_entry (map all_match l)) as [es| |] eqn:M; cbn [bind] in E; try discriminate. injection E as <-. f_equal. revert es M. induction l as [|i l IH]; intros es M; cbn [map mapM] in M; [injection M as <-; reflexivity|].
  destruct (shown_entry (all_match i)) as [x| |] eqn:S; cbn [bind] in M; try discriminate. destruct (mapM shown_entry (map all_match l)) as [ys| |]; cbn [bind] in M; try discriminate. injection M as <-. cbn [map]. f_equal; [now apply whole_only|now apply IH].
Qed.
End Opened.
Lemma opened_fits u m info : is_prompt m = false -> menu_notification u m [] = Ok info -> rx_fits u (str "(?i)") = true.
Proof.
  intros P. unfold menu_notification. rewrite P. unfold filter_items, regex_new. change (raw_regex []) with (str "(?i)"). destruct (rx_fits u (str "(?i)")); [reflexivity|]. cbn [negb unwrap bind]. discriminate.
Qed.
