(** Facts about the order of lenses and buffers and about view keys. *)
From Coq Require Import String List Arith Lia Bool Sorted Permutation.
From Verif Require Import Base ListFacts Selection Maps Fmt Buffer View ViewSpec.
Import ListNotations.

(** ** buffers in name order *)
Lemma text_cmp_eq a b : text_cmp a b = Eq <-> a = b.
Proof.
  revert b. induction a as [|x a IH]; intros [|y b]; simpl; try (split; [discriminate|discriminate]); [tauto|].
  destruct (Nat.compare_spec x y).
  - rewrite IH. subst. split; congruence.
  - split; [discriminate|]. intro E. inversion E. lia.
  - split; [discriminate|]. intro E. inversion E. lia.
Qed.
Lemma text_cmp_lt a b : text_cmp a b = Lt <-> text_lt a b.
Proof.
  revert b. induction a as [|x a IH]; intros [|y b]; simpl; try (split; [discriminate|tauto]); [tauto|].
  destruct (Nat.compare_spec x y); [rewrite IH|split; auto|]; subst.
  - split; [auto|]. intros [X|[_ X]]; [lia|exact X].
  - split; [discriminate|]. intros [X|[-> _]]; lia.
Qed.
Lemma text_cmp_gt a b : text_cmp a b = Gt <-> text_lt b a.
Proof.
  rewrite <- text_cmp_lt. revert b. induction a as [|x a IH]; intros [|y b]; simpl; try (split; congruence).
  rewrite (Nat.compare_antisym x y). destruct (Nat.compare x y) eqn:E; simpl; try (split; congruence). apply IH.
Qed.
Lemma text_lt_irrefl a : ~ text_lt a a.
Proof. induction a as [|x a IH]; simpl; auto. intros [X|[_ X]]; [lia|auto]. Qed.
Lemma text_lt_trans a b c : text_lt a b -> text_lt b c -> text_lt a c.
Proof.
  revert b c. induction a as [|x a IH]; intros [|y b] [|z c]; simpl; auto; try tauto.
  intros [X|[-> X]] [Y|[-> Y]]; eauto; left; lia.
Qed.

Definition names_sorted (v : view) : Prop := StronglySorted text_lt (keys v).

Lemma keys_add x v b : In b (keys (add_lens x v)) <-> b = l_buffer x \/ In b (keys v).
Proof.
  induction v as [|[n g] r IH]; simpl; [intuition|]. destruct (text_cmp (l_buffer x) n) eqn:E; simpl.
  - apply text_cmp_eq in E. subst. intuition.
  - intuition.
  - rewrite IH. intuition.
Qed.
Lemma sorted_cons_inv {A} (R : A -> A -> Prop) a l : StronglySorted R (a :: l) -> StronglySorted R l /\ forall x, In x l -> R a x.
Proof. intro H. inversion H; subst. rewrite Forall_forall in *. auto. Qed.
Lemma sorted_cons {A} (R : A -> A -> Prop) a l : StronglySorted R l -> (forall x, In x l -> R a x) -> StronglySorted R (a :: l).
Proof. intros. constructor; auto. apply Forall_forall. auto. Qed.
Lemma names_add x v : names_sorted v -> names_sorted (add_lens x v).
Proof.
  unfold names_sorted. induction v as [|[n g] r IH]; simpl; intro S.
  - repeat constructor.
  - apply sorted_cons_inv in S. destruct S as [S H]. destruct (text_cmp (l_buffer x) n) eqn:E; simpl.
    + apply sorted_cons; auto.
    + apply text_cmp_lt in E. apply sorted_cons; [apply sorted_cons; auto|]. intros y [<-|Hy]; auto.
      eapply text_lt_trans; eauto.
    + apply text_cmp_gt in E. apply sorted_cons; auto. intros y Hy. apply keys_add in Hy. destruct Hy as [->|Hy]; auto.
Qed.
Lemma sorted_filter {A} (R : A -> A -> Prop) f l : StronglySorted R l -> StronglySorted R (filter f l).
Proof.
  induction l as [|a l IH]; simpl; auto. intro S. apply sorted_cons_inv in S. destruct S as [S H].
  destruct (f a); auto. apply sorted_cons; auto. intros x Hx. apply filter_In in Hx. apply H. tauto.
Qed.
Lemma keys_filter b (v : view) : keys (del v b) = filter (fun k => negb (eqb b k)) (keys v).
Proof. unfold keys, del. induction v as [|[n g] r IH]; cbn [filter map fst]; auto. destruct (negb (eqb b n)); cbn [map fst]; now rewrite IH. Qed.
Lemma names_remove b v : names_sorted v -> names_sorted (remove_lens_group b v).
Proof. unfold names_sorted, remove_lens_group. rewrite keys_filter. apply sorted_filter. Qed.
Lemma sorted_uniq v : names_sorted v -> uniq v.
Proof.
  unfold names_sorted, uniq. intro S. induction S as [|a l S IH H]; constructor; auto. intro X.
  rewrite Forall_forall in H. apply H in X. now apply text_lt_irrefl in X.
Qed.

Lemma get_add x v b : names_sorted v ->
  get (add_lens x v) b = if eqb b (l_buffer x) then Some (group_add x (match get v b with Some g => g | None => [] end)) else get v b.
Proof.
  induction v as [|[n g] r IH]; intro S.
  - simpl. destruct (list_nat_eqb b (l_buffer x)); reflexivity.
  - unfold names_sorted in S. simpl in S. apply sorted_cons_inv in S. destruct S as [S H]. specialize (IH S).
    cbn [add_lens]. destruct (text_cmp (l_buffer x) n) eqn:E.
    + apply text_cmp_eq in E. subst n. cbn [get]. destruct (eqb b (l_buffer x)) eqn:Q; auto.
    + apply text_cmp_lt in E. cbn [get]. destruct (eqb b (l_buffer x)) eqn:Q; auto. apply eqb_ok in Q. subst b.
      assert (eqb (l_buffer x) n = false) as ->. { apply eqb_neq. intro X. rewrite X in E. now apply text_lt_irrefl in E. }
      assert (get r (l_buffer x) = None) as ->; auto. apply get_none. intro X. apply H in X.
      apply (text_lt_irrefl n). eapply text_lt_trans; eauto.
    + apply text_cmp_gt in E. cbn [get]. rewrite IH. destruct (eqb b n) eqn:Q; auto. apply eqb_ok in Q. subst b.
      assert (eqb n (l_buffer x) = false) as ->; auto. apply eqb_neq. intro X. rewrite X in E. now apply text_lt_irrefl in E.
Qed.

(** ** lenses of a buffer in document order *)
Definition lens_cmp (a b : lens) : comparison := focus_cmp (l_focus a) (l_focus b).
Definition lens_le (a b : lens) : Prop := focus_le (l_focus a) (l_focus b).
Lemma less_le a b : less lens_cmp a b = false -> lens_le b a.
Proof.
  unfold less, lens_cmp, lens_le, focus_cmp, focus_le. destruct (l_focus a) as [p q|], (l_focus b) as [r s|]; try congruence; auto.
  destruct (Nat.eqb_spec p r).
  - destruct (Nat.compare_spec q s); try congruence; intros _; right; lia.
  - destruct (Nat.compare_spec p r); try congruence; intros _; left; lia.
Qed.
Lemma less_le' a b : less lens_cmp a b = true -> lens_le a b.
Proof.
  unfold less, lens_cmp, lens_le, focus_cmp, focus_le. destruct (l_focus a) as [p q|], (l_focus b) as [r s|]; try congruence; auto.
  destruct (Nat.eqb_spec p r).
  - destruct (Nat.compare_spec q s); try congruence; intros _; right; lia.
  - destruct (Nat.compare_spec p r); try congruence; intros _; left; lia.
Qed.
Lemma lens_le_trans a b c : lens_le a b -> lens_le b c -> lens_le a c.
Proof.
  unfold lens_le, focus_le. destruct (l_focus a), (l_focus b), (l_focus c); auto; try tauto.
  intros [X|[X1 X2]] [Y|[Y1 Y2]]; lia.
Qed.
Lemma ins_perm {A} cmp (x : A) l : Permutation (ins_by cmp x l) (x :: l).
Proof.
  induction l as [|y r IH]; simpl; auto. destruct (less cmp x y); auto. rewrite IH. apply perm_swap.
Qed.
Lemma sort_perm_acc {A} cmp (l : list A) s : Permutation (fold_left (fun s x => ins_by cmp x s) l s) (s ++ l).
Proof.
  revert s. induction l as [|x l IH]; simpl; intro s; [now rewrite app_nil_r|]. rewrite IH, ins_perm.
  simpl. apply Permutation_middle.
Qed.
Lemma sort_perm {A} cmp (l : list A) : Permutation (sort_by cmp l) l.
Proof. apply sort_perm_acc. Qed.
Lemma ins_sorted x l : StronglySorted lens_le l -> StronglySorted lens_le (ins_by lens_cmp x l).
Proof.
  induction l as [|y r IH]; simpl; intro S; [repeat constructor|]. apply sorted_cons_inv in S. destruct S as [S H].
  destruct (less lens_cmp x y) eqn:E.
  - apply less_le' in E. apply sorted_cons; [now apply sorted_cons|]. intros z [<-|Hz]; auto. eapply lens_le_trans; eauto.
  - apply less_le in E. apply sorted_cons; auto. intros z Hz. apply (Permutation_in _ (ins_perm _ _ _)) in Hz.
    destruct Hz as [<-|Hz]; auto.
Qed.
Lemma sort_sorted l : StronglySorted lens_le (sort_by lens_cmp l).
Proof.
  unfold sort_by. assert (StronglySorted lens_le []) as H by constructor. revert H. generalize (@nil lens) as s.
  induction l as [|x l IH]; simpl; intros s S; auto. apply IH. now apply ins_sorted.
Qed.
Lemma group_add_perm x g : Permutation (group_add x g) (g ++ [x]).
Proof. apply sort_perm. Qed.
Lemma group_add_sorted x g : StronglySorted lens_le (group_add x g).
Proof. apply sort_sorted. Qed.

(** what every view looks like *)
Definition view_wf (v : view) : Prop :=
  names_sorted v /\ Forall (fun e => snd e <> [] /\ StronglySorted lens_le (snd e) /\ Forall (fun l => l_buffer l = fst e) (snd e)) v.
Lemma view_wf_nil : view_wf [].
Proof. split; constructor. Qed.
Lemma group_add_ok b x g : l_buffer x = b -> Forall (fun l => l_buffer l = b) g ->
  group_add x g <> [] /\ StronglySorted lens_le (group_add x g) /\ Forall (fun l => l_buffer l = b) (group_add x g).
Proof.
  intros Hx Hg. pose proof (group_add_perm x g) as P. split; [|split; [apply group_add_sorted|]].
  - intro E. rewrite E in P. apply Permutation_nil in P. destruct g; discriminate.
  - eapply Permutation_Forall; [apply Permutation_sym; exact P|]. apply Forall_app. split; auto.
Qed.
Lemma view_wf_add x v : view_wf v -> view_wf (add_lens x v).
Proof.
  intros [S F]. split; [now apply names_add|]. clear S. induction F as [|[n g] r (H1 & H2 & H3) F IH]; cbn [add_lens].
  - constructor; [|constructor]. cbn [snd fst]. apply group_add_ok; auto.
  - destruct (text_cmp (l_buffer x) n) eqn:E.
    + apply text_cmp_eq in E. constructor; auto. cbn [fst snd] in *. apply group_add_ok; auto.
    + constructor; [|constructor; auto]. cbn [fst snd]. apply group_add_ok; auto.
    + constructor; auto.
Qed.
Lemma view_wf_remove b v : view_wf v -> view_wf (remove_lens_group b v).
Proof.
  intros [S F]. split; [now apply names_remove|]. unfold remove_lens_group, del. rewrite Forall_forall in *.
  intros e He. apply filter_In in He. apply F. tauto.
Qed.
Lemma build_wf os : view_wf (build_view os).
Proof.
  unfold build_view. assert (view_wf []) as H by apply view_wf_nil. revert H. generalize (@nil (text * list lens)) as v.
  induction os as [|[b f|b] os IH]; simpl; intros v W; auto; apply IH; [now apply view_wf_add|now apply view_wf_remove].
Qed.
Lemma view_wf_for b : view_wf (for_buffer b).
Proof. apply view_wf_add, view_wf_nil. Qed.

(** ** keys *)
Lemma app_sep {A} (P : A -> bool) (a b x y : list A) : forallb (fun c => negb (P c)) a = true -> forallb (fun c => negb (P c)) b = true ->
  (match x with [] => True | c :: _ => P c = true end) -> (match y with [] => True | c :: _ => P c = true end) ->
  a ++ x = b ++ y -> a = b /\ x = y.
Proof.
  revert b. induction a as [|c a IH]; intros [|d b] Ha Hb Hx Hy E; simpl in *; auto.
  - subst x. apply andb_true_iff in Hb. destruct Hb as [Hb _]. rewrite Hx in Hb. discriminate.
  - subst y. apply andb_true_iff in Ha. destruct Ha as [Ha _]. rewrite Hy in Ha. discriminate.
  - apply andb_true_iff in Ha. apply andb_true_iff in Hb. inversion E; subst.
    destruct (IH b) as [-> ->]; tauto.
Qed.
Lemma forallb_not P (l : text) : (forall c, In c l -> P c = false) -> forallb (fun c => negb (P c)) l = true.
Proof. intro H. apply forallb_forall. intros c Hc. rewrite H; auto. Qed.

(** the bytes of a focus: digits, '.', '*' *)
Lemma dec_bytes n c : In c (dec n) -> 48 <= c <= 57.
Proof. intro H. pose proof (dec_digits n) as D. rewrite Forall_forall in D. apply D in H. unfold digit in H. apply andb_true_iff in H. rewrite !Nat.leb_le in H. lia. Qed.
Lemma focus_bytes f c : In c (focus_str f) -> c = 42 \/ c = 46 \/ 48 <= c <= 57.
Proof.
  destruct f as [a b|]; cbn [focus_str].
  - rewrite !in_app_iff. intros [H|[H|H]]; [apply dec_bytes in H; auto| |apply dec_bytes in H; auto].
    change (str "..") with [46;46] in H. destruct H as [<-|[<-|[]]]; auto.
  - change (str "*") with [42]. intros [<-|[]]. auto.
Qed.
Lemma focus_nonempty f : focus_str f <> [].
Proof. destruct f; cbn [focus_str]; [|discriminate]. intro E. apply app_eq_nil in E. destruct E as [E _]. now apply dec_nonempty in E. Qed.
Lemma focus_str_inj f g : focus_str f = focus_str g -> f = g.
Proof.
  assert (forall a b, dec a ++ str ".." ++ dec b <> str "*") as NE.
  { intros a b E. change (str "*") with [42] in E. pose proof (dec_nonempty a) as N. pose proof (dec_bytes a) as B.
    destruct (dec a) as [|c r]; [congruence|]. inversion E; subst. specialize (B 42 (or_introl eq_refl)). lia. }
  destruct f as [a b|], g as [c d|]; cbn [focus_str]; intro E; auto.
  - change (str "..") with [46;46] in E.
    apply (app_sep (fun c => c =? 46)) in E; try reflexivity.
    + destruct E as [E1 E2]. inversion E2. f_equal; now apply dec_inj.
    + apply forallb_not. intros z Hz. apply dec_bytes in Hz. apply Nat.eqb_neq. lia.
    + apply forallb_not. intros z Hz. apply dec_bytes in Hz. apply Nat.eqb_neq. lia.
  - exfalso. eapply NE. exact E.
  - exfalso. eapply NE. symmetry. exact E.
Qed.
(** comma-separated non-empty fields *)
Lemma join_inj sep (l m : list text) : (forall x, In x l \/ In x m -> x <> [] /\ ~ In sep x) ->
  join [sep] l = join [sep] m -> l = m.
Proof.
  revert m. induction l as [|x l IH]; intros m H E.
  - destruct m as [|y m]; auto. exfalso. destruct (H y) as [N _]; [right; now left|]. simpl in E. destruct m; [congruence|].
    destruct y; [congruence|discriminate].
  - destruct m as [|y m].
    { exfalso. destruct (H x) as [N _]; [left; now left|]. simpl in E. destruct l; [congruence|]. destruct x; [congruence|discriminate]. }
    destruct (H x) as [_ Nx]; [left; now left|]. destruct (H y) as [_ Ny]; [right; now left|].
    assert (forall (z : text) zs, join [sep] (z :: zs) = z ++ match zs with [] => [] | _ => sep :: join [sep] zs end) as J.
    { intros z [|w zs]; simpl; [now rewrite app_nil_r|reflexivity]. }
    rewrite !J in E.
    apply (app_sep (fun c => c =? sep)) in E.
    2:{ apply forallb_not. intros c Hc. apply Nat.eqb_neq. intros ->. auto. }
    2:{ apply forallb_not. intros c Hc. apply Nat.eqb_neq. intros ->. auto. }
    2:{ destruct l; auto. apply Nat.eqb_refl. }
    2:{ destruct m; auto. apply Nat.eqb_refl. }
    destruct E as [-> E2]. f_equal. destruct l as [|x' l], m as [|y' m]; try discriminate; auto. inversion E2.
    apply IH; auto. intros z [Hz|Hz]; apply H; [left|right]; now right.
Qed.

Definition focuses (e : text * list lens) : list text := map (fun l => focus_str (l_focus l)) (snd e).
Lemma join_focus_bytes l c : In c (join [44] (map (fun l => focus_str (l_focus l)) l)) -> c = 42 \/ c = 44 \/ c = 46 \/ 48 <= c <= 57.
Proof.
  induction l as [|x l IH]; simpl; [tauto|]. destruct l as [|y l].
  - simpl. intro H. apply focus_bytes in H. tauto.
  - change (map _ (y :: l)) with (focus_str (l_focus y) :: map (fun l => focus_str (l_focus l)) l) in *. simpl in *.
    rewrite in_app_iff. intros [H|[<-|H]]; auto. apply focus_bytes in H. tauto.
Qed.
Lemma group_key_eq n g : group_key (n, g) = n ++ 123 :: join [44] (focuses (n, g)) ++ [125].
Proof. reflexivity. Qed.
Lemma view_key_cons e v : view_key (e :: v) = group_key e ++ match v with [] => [] | _ => 124 :: view_key v end.
Proof. unfold view_key. destruct v; simpl; [now rewrite app_nil_r|reflexivity]. Qed.
Lemma key_inj_focuses u v : Forall plain_name (keys u) -> Forall plain_name (keys v) ->
  Forall (fun e => snd e <> []) u -> Forall (fun e => snd e <> []) v ->
  view_key u = view_key v -> map (fun e => (fst e, map l_focus (snd e))) u = map (fun e => (fst e, map l_focus (snd e))) v.
Proof.
  revert v. induction u as [|[n g] u IH]; intros [|[m h] v] Pu Pv Gu Gv E; auto.
  - exfalso. rewrite view_key_cons, group_key_eq in E. simpl in E. destruct m; discriminate.
  - exfalso. rewrite view_key_cons, group_key_eq in E. simpl in E. destruct n; discriminate.
  - rewrite !view_key_cons, !group_key_eq in E. inversion Pu; inversion Pv; inversion Gu; inversion Gv; subst. cbn [fst snd] in *.
    rewrite <- !app_assoc in E.
    apply (app_sep (fun c => c =? 123)) in E.
    2:{ apply forallb_not. intros c Hc. apply Nat.eqb_neq. intros ->. auto. }
    2:{ apply forallb_not. intros c Hc. apply Nat.eqb_neq. intros ->. auto. }
    2:{ reflexivity. }
    2:{ reflexivity. }
    destruct E as [-> E2].
    apply (f_equal (@tl nat)) in E2. cbn [tl app] in E2. rewrite <- !app_assoc in E2.
    apply (app_sep (fun c => c =? 125)) in E2.
    2:{ apply forallb_not. intros c Hc. apply join_focus_bytes in Hc. apply Nat.eqb_neq. lia. }
    2:{ apply forallb_not. intros c Hc. apply join_focus_bytes in Hc. apply Nat.eqb_neq. lia. }
    2:{ reflexivity. }
    2:{ reflexivity. }
    destruct E2 as [E3 E4].
    apply join_inj in E3.
    2:{ intros x [Hx|Hx]; apply in_map_iff in Hx; destruct Hx as (l & <- & _); (split; [apply focus_nonempty|]);
        intro X; apply focus_bytes in X; lia. }
    simpl. f_equal.
    + f_equal. unfold focuses in E3. cbn [snd] in E3.
      revert E3. clear. revert h. induction g as [|x g IH]; intros [|y h] E; simpl in *; try discriminate; auto.
      inversion E. f_equal; auto. now apply focus_str_inj.
    + apply IH; auto. apply (f_equal (@tl nat)) in E4. cbn [tl app] in E4.
      destruct u as [|e u], v as [|e' v]; try discriminate; auto. apply (f_equal (@tl nat)) in E4. exact E4.
Qed.
Lemma key_inj u v : view_wf u -> view_wf v -> Forall plain_name (keys u) -> Forall plain_name (keys v) ->
  view_key u = view_key v -> u = v.
Proof.
  intros [_ Fu] [_ Fv] Pu Pv E. apply key_inj_focuses in E; auto.
  2:{ rewrite Forall_forall in *. intros e He. apply Fu. exact He. }
  2:{ rewrite Forall_forall in *. intros e He. apply Fv. exact He. }
  clear Pu Pv. revert v Fv E. induction Fu as [|[n g] u (G1 & G2 & G3) Fu IH]; intros v Fv E; destruct v as [|[m h] v]; try discriminate; auto.
  simpl in E. inversion E. subst m. inversion Fv as [|? ? (H3 & H4 & H5) Fv']; subst. cbn [fst snd] in *. f_equal; auto. f_equal.
  revert H1 G3 H5. clear. revert h. induction g as [|[b f] g IH]; intros [|[c k] h] E F F'; try discriminate; auto.
  inversion E. inversion F. inversion F'. cbn [l_focus l_buffer] in *. subst. f_equal. auto.
Qed.
