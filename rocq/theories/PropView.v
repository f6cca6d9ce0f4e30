(** Properties C24 and C25: view keys and the order of lenses. *)
From Coq Require Import String List Arith Lia Bool Sorted Permutation.
From Verif Require Import Base ListFacts Selection Maps Fmt Buffer View ViewSpec ViewFacts.
Import ListNotations.

Lemma build_names os : Forall (fun b => In b (map vop_name os)) (keys (build_view os)).
Proof.
  unfold build_view. rewrite <- (app_nil_l (map vop_name os)).
  assert (forall v acc, Forall (fun b => In b acc) (keys v) ->
    Forall (fun b => In b (acc ++ map vop_name os)) (keys (fold_left do_vop os v))) as H.
  2:{ apply H. constructor. }
  induction os as [|o os IH]; simpl; intros v acc F.
  - now rewrite app_nil_r.
  - replace (acc ++ vop_name o :: map vop_name os) with ((acc ++ [vop_name o]) ++ map vop_name os) by (now rewrite <- app_assoc).
    apply IH. rewrite Forall_forall in *. intros b Hb. rewrite in_app_iff. destruct o as [c f|c]; cbn [do_vop vop_name] in *.
    + apply keys_add in Hb. cbn [l_buffer] in Hb. destruct Hb as [->|Hb]; [right; now left|left; auto].
    + unfold remove_lens_group in Hb. apply in_keys_del in Hb. left. apply F. tauto.
Qed.

(** ** C24: equal keys, equal views, for buffer names without an opening brace *)
Theorem C24_key_identifies_view_partial : forall os1 os2,
  Forall plain_name (map vop_name os1) -> Forall plain_name (map vop_name os2) ->
  view_key (build_view os1) = view_key (build_view os2) ->
  build_view os1 = build_view os2.
Proof.
  intros os1 os2 P1 P2. apply key_inj; try apply build_wf.
  - pose proof (build_names os1) as B. rewrite Forall_forall in *. auto.
  - pose proof (build_names os2) as B. rewrite Forall_forall in *. auto.
Qed.
Print Assumptions C24_key_identifies_view_partial.
(** ... the same views show the same focuses *)
Theorem C24_same_focuses_partial : forall os1 os2 b,
  Forall plain_name (map vop_name os1) -> Forall plain_name (map vop_name os2) ->
  view_key (build_view os1) = view_key (build_view os2) -> shown b (build_view os1) = shown b (build_view os2).
Proof. intros os1 os2 b P1 P2 E. now rewrite (C24_key_identifies_view_partial os1 os2 P1 P2 E). Qed.
Print Assumptions C24_same_focuses_partial.
(** without the restriction the claim is false: a buffer called "a{*}|b" *)
Theorem C24_any_name_refuted : exists os1 os2,
  view_key (build_view os1) = view_key (build_view os2) /\ keys (build_view os1) <> keys (build_view os2).
Proof.
  exists [VAdd (str "a") FWhole; VAdd (str "b") FWhole], [VAdd (str "a{*}|b") FWhole].
  split; [vm_compute; reflexivity|vm_compute; discriminate].
Qed.
Print Assumptions C24_any_name_refuted.
(** the documented example *)
Example C24_example : view_key (build_view [VAdd (str "buffer1") (FRange 20 51); VAdd (str "buffer2") FWhole; VAdd (str "buffer1") (FRange 10 12)])
  = str "buffer1{10..12,20..51}|buffer2{*}".
Proof. vm_compute. reflexivity. Qed.

(** ** C25 *)
Lemma shown_add b x v : names_sorted v ->
  Permutation (shown b (add_lens x v)) (if list_nat_eqb b (l_buffer x) then shown b v ++ [l_focus x] else shown b v).
Proof.
  intro S. unfold shown. rewrite get_add by auto. change (@eqb (list nat) text_Eqb) with list_nat_eqb.
  destruct (list_nat_eqb b (l_buffer x)) eqn:E; auto.
  rewrite group_add_perm, map_app. destruct (get v b); reflexivity.
Qed.
Lemma shown_remove b c v : shown b (remove_lens_group c v) = if list_nat_eqb b c then [] else shown b v.
Proof.
  unfold shown, remove_lens_group. rewrite get_del. change (@eqb (list nat) text_Eqb) with list_nat_eqb.
  destruct (list_nat_eqb b c); reflexivity.
Qed.

(** nothing lost, nothing duplicated *)
Theorem C25_exactly_the_added_lenses : forall os b, Permutation (shown b (build_view os)) (wanted b os).
Proof.
  intros os b. unfold build_view, wanted.
  assert (forall v fs, names_sorted v -> Permutation (shown b v) fs ->
    Permutation (shown b (fold_left do_vop os v)) (fold_left (wanted_step b) os fs)) as H.
  2:{ apply H; [apply build_wf with (os := [])|reflexivity]. }
  induction os as [|[c f|c] os IH]; simpl; intros v fs S P; auto.
  - apply IH; [now apply names_add|]. rewrite shown_add by auto. cbn [l_buffer l_focus].
    destruct (list_nat_eqb b c); auto. now rewrite P.
  - apply IH; [now apply names_remove|]. rewrite shown_remove. destruct (list_nat_eqb b c); auto.
Qed.
Print Assumptions C25_exactly_the_added_lenses.

Lemma sorted_map {A B} (f : A -> B) (R : B -> B -> Prop) l : StronglySorted (fun a b => R (f a) (f b)) l -> StronglySorted R (map f l).
Proof. induction 1 as [|a l S IH H]; simpl; constructor; auto. rewrite Forall_forall in *. intros y Hy. apply in_map_iff in Hy. destruct Hy as (x & <- & Hx). auto. Qed.

(** document order *)
Theorem C25_document_order : forall os b, StronglySorted focus_le (shown b (build_view os)).
Proof.
  intros os b. unfold shown. destruct (get (build_view os) b) as [g|] eqn:E; [|constructor].
  apply get_in in E. destruct (build_wf os) as [_ F]. rewrite Forall_forall in F. apply F in E. destruct E as (_ & S & _).
  cbn [snd] in S. apply sorted_map. exact S.
Qed.
Print Assumptions C25_document_order.

(** buffers in name order, exactly those with a lens *)
Theorem C25_name_order : forall os, StronglySorted text_lt (view_buffers (build_view os)).
Proof. intro os. apply build_wf. Qed.
Print Assumptions C25_name_order.
Theorem C25_buffers : forall os b, In b (view_buffers (build_view os)) <-> wanted b os <> [].
Proof.
  intros os b. pose proof (C25_exactly_the_added_lenses os b) as P. destruct (build_wf os) as [S F].
  unfold view_buffers. rewrite <- get_some. unfold shown in P. destruct (get (build_view os) b) as [g|] eqn:E.
  - split; eauto. intros _ X. rewrite X in P. apply Permutation_sym, Permutation_nil in P.
    apply get_in in E. rewrite Forall_forall in F. apply F in E. cbn [snd] in E. destruct E as (N & _).
    destruct g; [congruence|discriminate].
  - apply Permutation_nil in P. rewrite P. split; [intros [v X]; discriminate|congruence].
Qed.
Print Assumptions C25_buffers.

(** the listing: each buffer's header, then its lenses in order; the header goes from the start of the first lens
    to the end of the last one *)
Definition header (fs : list focus) : focus :=
  match fs, rev fs with
  | FRange a _ :: _, FRange _ d :: _ => FRange a d
  | _, _ => FWhole
  end.
Theorem C25_listing : forall os, as_vec (build_view os) =
  Ok (concat (map (fun b => VHeader b (header (shown b (build_view os))) :: map (fun f => VLens (mkLens b f)) (shown b (build_view os)))
    (view_buffers (build_view os)))).
Proof.
  intro os. destruct (build_wf os) as [S F]. generalize dependent (build_view os). intros v S F.
  assert (forall w, (forall e, In e w -> In e v) -> Forall (fun e => snd e <> [] /\ StronglySorted lens_le (snd e) /\ Forall (fun l => l_buffer l = fst e) (snd e)) w ->
    as_vec w = Ok (concat (map (fun b => VHeader b (header (shown b v)) :: map (fun f => VLens (mkLens b f)) (shown b v)) (keys w)))) as H; [|apply H; auto].
  intros w Hin Fw. induction Fw as [|[n g] w (H1 & H2 & H3) Fw IH]; cbn [as_vec]; auto.
  rewrite IH by (intros; apply Hin; now right). cbn [keys map fst snd] in *.
  assert (shown n v = map l_focus g) as ->.
  { unfold shown. rewrite (get_uniq v n g); auto; [now apply sorted_uniq|apply Hin; now left]. }
  assert (group_focus g = Ok (header (map l_focus g))) as ->.
  { unfold group_focus. set (hd := map l_focus g). assert (rev hd = map l_focus (rev g)) as R by (unfold hd; now rewrite map_rev).
    unfold header. destruct g as [|x g]; [congruence|]. cbn [nth_error unwrap bind]. subst hd. cbn [map] in *.
    destruct (rev (x :: g)) as [|y r] eqn:E. { apply (f_equal (@length lens)) in E. rewrite rev_length in E. discriminate. }
    cbn [nth_error unwrap bind map] in *. destruct (l_focus x) as [p q|]; [|reflexivity]. rewrite R. destruct (l_focus y); reflexivity. }
  cbn [bind concat app]. do 2 f_equal. f_equal. rewrite map_map. apply map_ext_in. intros [b f] Hl. rewrite Forall_forall in H3.
  apply H3 in Hl. cbn [l_buffer] in Hl. subst. reflexivity.
Qed.
Print Assumptions C25_listing.
(** the header need not span all the lenses: the last lens in document order may end before an earlier one *)
Theorem C25_header_cover_refuted : exists os b a d f,
  as_vec (build_view os) = Ok [VHeader b (FRange a d); VLens (mkLens b f); VLens (mkLens b (FRange 2 5))] /\ f = FRange 0 10 /\ d < 10.
Proof.
  exists [VAdd (str "b") (FRange 2 5); VAdd (str "b") (FRange 0 10)], (str "b"), 0, 5, (FRange 0 10).
  split; [vm_compute; reflexivity|split; [reflexivity|lia]].
Qed.
Print Assumptions C25_header_cover_refuted.
Example C25_example : shown (str "b") (build_view [VAdd (str "b") FWhole; VAdd (str "a") FWhole; VAdd (str "b") (FRange 5 9); VAdd (str "b") (FRange 2 3)])
  = [FRange 2 3; FRange 5 9; FWhole].
Proof. vm_compute. reflexivity. Qed.
