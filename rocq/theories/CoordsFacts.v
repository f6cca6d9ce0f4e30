(** Proofs about lines, columns and character lookup. *)
From Coq Require Import String List Arith Lia Bool.
From Verif Require Import Base ListFacts PieceTable PieceTableSpec PieceTableFacts PieceTableEdits PieceTableDelete
  History Coords LineSpec LineFacts.
Import ListNotations.

(** documents whose newline cache is accurate *)
Definition acc (t : pt) : Prop := wf t /\ nl_ok t.

Lemma max_offset_spec t : wf t -> pt_max_offset t = Ok (length (txt t) - 1).
Proof.
  intro W. unfold pt_max_offset, pt_is_empty. pose proof (txt_length t W) as L. pose proof W as ((C & B) & _).
  rewrite pt_len_txt by auto. destruct (t_pieces t) as [|p r] eqn:E.
  - unfold total in L. simpl in L. now rewrite L.
  - apply sub_ok. rewrite L. rewrite total_cons. simpl in C. lia.
Qed.

Lemma terminated_nth s : s <> [] -> (terminated s = true <-> nth_error s (length s - 1) = Some LF).
Proof.
  intro H. destruct s as [|x r] using rev_ind; [congruence|]. clear IHr.
  unfold terminated. rewrite rev_unit, app_length. simpl.
  rewrite nth_error_app2 by lia. replace (length r + 1 - 1 - length r) with 0 by lia. simpl.
  rewrite Nat.eqb_eq. split; congruence.
Qed.

Lemma existsb_nl s m : existsb (Nat.eqb m) (newline_positions s) = true <-> nth_error s m = Some LF.
Proof.
  rewrite existsb_exists, <- newline_positions_In. split.
  - intros (x & Hx & E). apply Nat.eqb_eq in E. now subst.
  - intro H. exists m. split; auto. apply Nat.eqb_refl.
Qed.

Lemma nl_len s : length (newline_positions s) = count_lf s.
Proof. rewrite newline_positions_nl_from. apply nl_count. Qed.

Lemma line_count_spec t : acc t -> txt t <> [] -> pt_line_count t = Ok (length (lines_of (txt t))).
Proof.
  intros [W N] Hs. unfold pt_line_count. rewrite max_offset_spec by auto. cbn [bind]. rewrite N.
  f_equal. rewrite lines_count, nl_len. set (s := txt t) in *. clearbody s.
  destruct (existsb (Nat.eqb (length s - 1)) (newline_positions s)) eqn:E.
  - rewrite existsb_nl in E. rewrite <- terminated_nth in E by auto. rewrite E. lia.
  - destruct (terminated s) eqn:T.
    + rewrite terminated_nth in T by auto. rewrite <- existsb_nl in T. congruence.
    + destruct s; [congruence|lia].
Qed.
Lemma line_count_empty t : acc t -> txt t = [] -> pt_line_count t = Ok 1.
Proof.
  intros [W N] Hs. unfold pt_line_count. rewrite max_offset_spec by auto. cbn [bind]. rewrite N, Hs. reflexivity.
Qed.

Lemma lines_pos s : s <> [] -> 0 < length (lines_of s).
Proof.
  intro H. destruct s as [|x r]; [congruence|]. simpl. destruct (x =? LF); simpl; [lia|].
  destruct (lines_of r); simpl; lia.
Qed.

Lemma nl_nth s i v : nth_error (newline_positions s) i = Some v ->
  exists l, nth_error (lines_of s) i = Some l /\ v = loff s i + length l /\ v < length s.
Proof.
  intro H. assert (i < length (newline_positions s)) as Hi by (apply nth_error_Some; congruence).
  rewrite nl_len in Hi. pose proof (lines_count s) as LC.
  destruct (lines_nth_ex s i) as (l & El); [lia|]. exists l.
  destruct (lines_facts s i l El) as (F1 & F2 & F3 & [F4|(F4 & _)]); [|congruence].
  rewrite H in F4. inversion F4; subst. repeat split; auto.
  apply nth_error_In in H. apply newline_positions_In in H.
  apply nth_error_Some. congruence.
Qed.

Lemma line_bytes_spec t n : acc t -> txt t <> [] ->
  pt_line_bytes t n = Ok (if n =? 0 then None else nth_error (lines_of (txt t)) (n - 1)).
Proof.
  intros A Hs. pose proof A as [W N]. unfold pt_line_bytes. rewrite line_count_spec by auto. cbn [bind].
  rewrite N. set (s := txt t) in *.
  destruct (n =? 0) eqn:E0; simpl orb; [reflexivity|]. apply Nat.eqb_neq in E0.
  destruct (length (lines_of s) <? n) eqn:E1.
  { apply Nat.ltb_lt in E1. f_equal. symmetry. apply nth_error_None. lia. }
  apply Nat.ltb_ge in E1. cbv iota.
  destruct (lines_nth_ex s (n - 1)) as (l & El); [lia|].
  destruct (lines_facts s (n - 1) l El) as (F1 & F2 & F3 & F4).
  assert (0 < length s) as Hpos by (destruct s; [congruence|simpl; lia]).
  destruct (n =? 1) eqn:E2.
  - apply Nat.eqb_eq in E2. subst n. simpl Nat.sub in *. rewrite El. rewrite range_spec by auto.
    fold s. apply Nat.ltb_lt in Hpos. rewrite Hpos. f_equal. f_equal. rewrite pt_len_txt by auto. fold s.
    change (loff s 0) with 0 in *. transitivity (slice s 0 (length l)); [|exact F1]. f_equal.
    destruct (newline_positions s) as [|v vs] eqn:Ev; simpl in F4.
    + destruct F4 as [F4|(_ & F4 & _)]; [discriminate|]. simpl in F4. lia.
    + destruct F4 as [F4|(F4 & _)]; [|discriminate]. inversion F4. lia.
  - apply Nat.eqb_neq in E2.
    assert (length (lines_of s) <= S (length (newline_positions s))) as LC.
    { rewrite lines_count, nl_len. destruct (terminated s); [lia|]. destruct s; lia. }
    destruct (nth_error (newline_positions s) (n - 2)) as [v|] eqn:Ev.
    2:{ apply nth_error_None in Ev. lia. }
    cbn [unwrap bind].
    destruct (nl_nth s (n - 2) v Ev) as (l' & El' & Evv & Hv).
    assert (loff s (n - 1) = v + 1) as Eoff.
    { replace (n - 1) with (S (n - 2)) by lia. rewrite (loff_S s (n - 2) l' El'). lia. }
    destruct F4 as [F4|(F4 & F5 & F6 & _)].
    + rewrite F4. rewrite sub_ok by lia. cbn [bind]. rewrite sub_ok by lia. cbn [bind].
      rewrite range_spec by auto. fold s.
      assert (v + 1 < length s) as Hlt.
      { apply nth_error_In in F4. apply newline_positions_In in F4.
        assert (loff s (n - 1) + length l < length s) by (apply nth_error_Some; congruence). lia. }
      apply Nat.ltb_lt in Hlt. rewrite Hlt. f_equal. rewrite El. f_equal.
      transitivity (slice s (loff s (n - 1)) (length l)); [f_equal; lia|exact F1].
    + rewrite F4. cbn [bind]. rewrite pt_len_txt by auto. fold s. rewrite sub_ok by lia. cbn [bind].
      rewrite range_spec by auto. fold s.
      assert (v + 1 < length s) as Hlt. { destruct l; [congruence|]. simpl in F5. lia. }
      apply Nat.ltb_lt in Hlt. rewrite Hlt. f_equal. rewrite El. f_equal.
      transitivity (slice s (loff s (n - 1)) (length l)); [|exact F1].
      rewrite Eoff. unfold slice. rewrite firstn_all2 by (rewrite skipn_length; lia).
      symmetry. apply firstn_all2. rewrite skipn_length. lia.
Qed.

Lemma line_length_spec t n : acc t -> newline_positions (txt t) <> [] -> 0 < n ->
  pt_line_length t n = Ok (match nth_error (lines_of (txt t)) (n - 1) with Some l => length l | None => 0 end).
Proof.
  intros A Hnl Hn. pose proof A as [W N]. unfold pt_line_length. rewrite N. rewrite pt_len_txt by auto.
  set (s := txt t) in *. destruct (newline_positions s) as [|first vs] eqn:Ev; [congruence|]. clear Hnl.
  rewrite <- Ev.
  assert (length (lines_of s) <= S (length (newline_positions s)) /\ length (newline_positions s) <= length (lines_of s)) as LC.
  { rewrite lines_count, nl_len. destruct (terminated s); [lia|]. destruct s; lia. }
  assert (forall k v, nth_error (newline_positions s) k = Some v ->
    exists l, nth_error (lines_of s) k = Some l /\ v = loff s k + length l /\ v < length s) as NN by apply nl_nth.
  destruct (n =? 1) eqn:E1.
  - apply Nat.eqb_eq in E1. subst n. destruct (NN 0 first) as (l & El & Ef & _). { now rewrite Ev. }
    replace (1 - 1) with 0 by lia. rewrite El. f_equal. exact Ef.
  - apply Nat.eqb_neq in E1. rewrite sub_ok by lia. cbn [bind].
    destruct (n - 1 <? length (newline_positions s)) eqn:E2; [apply Nat.ltb_lt in E2|apply Nat.ltb_ge in E2].
    + destruct (nth_error (newline_positions s) (n - 1)) as [a|] eqn:Ea; [|apply nth_error_None in Ea; lia].
      destruct (nth_error (newline_positions s) (n - 2)) as [b|] eqn:Eb; [|apply nth_error_None in Eb; lia].
      destruct (NN _ _ Ea) as (la & La & Va & _). destruct (NN _ _ Eb) as (lb & Lb & Vb & _).
      unfold index. rewrite Ea. cbn [bind unwrap]. rewrite sub_ok by lia. cbn [bind]. rewrite Eb. cbn [bind unwrap].
      pose proof (loff_S s _ _ Lb) as HS. replace (S (n - 2)) with (n - 1) in HS by lia.
      rewrite sub_ok by lia. cbn [bind]. rewrite sub_ok by lia. rewrite La. f_equal. lia.
    + destruct (n - 1 =? length (newline_positions s)) eqn:E3; [apply Nat.eqb_eq in E3|apply Nat.eqb_neq in E3].
      * assert (exists b, nth_error (newline_positions s) (n - 2) = Some b) as [b Eb].
        { destruct (nth_error (newline_positions s) (n - 2)) eqn:X; [eauto|]. apply nth_error_None in X.
          rewrite Ev in *. simpl in *. lia. }
        destruct (NN _ _ Eb) as (lb & Lb & Vb & Hb).
        rewrite sub_ok by lia. cbn [bind]. unfold index. rewrite Eb. cbn [bind unwrap].
        rewrite sub_ok by lia. cbn [bind]. rewrite sub_ok by lia. f_equal.
        pose proof (loff_S s _ _ Lb) as HS. replace (S (n - 2)) with (n - 1) in HS by lia.
        destruct (nth_error (lines_of s) (n - 1)) as [l|] eqn:El.
        -- destruct (lines_facts s (n - 1) l El) as (F1 & F2 & F3 & [F4|(F4 & F5 & _)]); [|lia].
           assert (n - 1 < length (newline_positions s)) by (apply nth_error_Some; congruence). lia.
        -- (* the last line feed ends the text *)
           apply nth_error_None in El.
           assert (terminated s = true) as T.
           { pose proof (lines_count s) as X. rewrite nl_len in *. destruct (terminated s); auto. destruct s; [discriminate|lia]. }
           apply terminated_nth in T. 2:{ intro X. rewrite X in Ev. discriminate. }
           apply newline_positions_In in T. apply In_nth_error in T. destruct T as [k Ek].
           assert (k < length (newline_positions s)) as Hk by (apply nth_error_Some; congruence).
           (* b is the greatest newline position *)
           assert (length s - 1 <= b).
           { pose proof (newline_positions_sset s) as SS.
             destruct (Nat.eq_dec k (n - 2)) as [->|]; [rewrite Eb in Ek; inversion Ek; lia|].
             destruct (NN _ _ Ek) as (lk & Lk & Vk & Hkk).
             (* positions increase with the index *)
             assert (forall l i j x y, sset l -> i < j -> nth_error l i = Some x -> nth_error l j = Some y -> x < y) as Mono.
             { clear. intros l i j x y H. revert i j. induction H as [|a l Hl IH Ha]; intros i j Hij Hi Hj; [destruct i; discriminate|].
               destruct i, j; try lia; simpl in *.
               - inversion Hi; subst. rewrite Forall_forall in Ha. apply Ha. eapply nth_error_In; eauto.
               - eapply IH; [|eauto|eauto]. lia. }
             assert (length s - 1 < b); [|lia]. eapply (Mono (newline_positions s) k (n - 2)); eauto. lia. }
           lia.
      * destruct (nth_error (lines_of s) (n - 1)) as [l|] eqn:El; auto.
        assert (n - 1 < length (lines_of s)) by (apply nth_error_Some; congruence). lia.
Qed.

(** ** offsets to coordinates *)
Lemma position_of_some x l i : position_of x l = Some i -> nth_error l i = Some x.
Proof.
  revert i. induction l as [|y r IH]; simpl; intros i H; [discriminate|].
  destruct (x =? y) eqn:E. { apply Nat.eqb_eq in E. inversion H; subst. reflexivity. }
  destruct (position_of x r) as [j|]; [|discriminate]. inversion H; subst. simpl. auto.
Qed.
Lemma position_of_none x l : position_of x l = None <-> ~ In x l.
Proof.
  induction l as [|y r IH]; simpl; [tauto|]. destruct (x =? y) eqn:E.
  - apply Nat.eqb_eq in E. subst. split; [discriminate|]. tauto.
  - apply Nat.eqb_neq in E. destruct (position_of x r); split; try discriminate; try tauto.
    + intros H. exfalso. destruct IH as [_ IH]. discriminate IH. tauto.
    + intros _ [X|X]; [congruence|]. apply IH; auto.
Qed.

Lemma starts_from_shift b n lens : starts_from (b + n) lens = map (fun x => x + n) (starts_from b lens).
Proof.
  revert b. induction lens as [|k r IH]; simpl; auto. intro b. f_equal.
  replace (b + n + k) with (b + k + n) by lia. apply IH.
Qed.
Lemma starts_from_bounds b lens x : (forall n, In n lens -> 0 < n) -> In x (starts_from b lens) -> b <= x < b + list_sum lens.
Proof.
  revert b. induction lens as [|k r IH]; simpl; [tauto|]. intros b H [->|Hx].
  - specialize (H k (or_introl eq_refl)). lia.
  - apply IH in Hx; [|auto]. lia.
Qed.
Lemma starts_from_length b lens : length (starts_from b lens) = length lens.
Proof. revert b. induction lens; simpl; auto. Qed.
Lemma starts_from_sset b lens : (forall n, In n lens -> 0 < n) -> sset (starts_from b lens).
Proof.
  unfold sset. revert b. induction lens as [|k r IH]; simpl; intros b H; constructor; auto.
  rewrite Forall_forall. intros x Hx. apply starts_from_bounds in Hx; auto. specialize (H k (or_introl eq_refl)). lia.
Qed.
Lemma gstarts_sset G s : sset (gstarts G s).
Proof. apply starts_from_sset, g_pos. Qed.
Lemma gstarts_length G s : length (gstarts G s) = gcount G s.
Proof. apply starts_from_length. Qed.
Lemma gstarts_lt G s x : In x (gstarts G s) -> x < length s.
Proof. intro H. apply starts_from_bounds in H; [|apply g_pos]. rewrite g_sum in H. lia. Qed.
Lemma gcount_0 G s : gcount G s = 0 <-> s = [].
Proof.
  unfold gcount. pose proof (g_sum G s) as H. destruct (glens G s) as [|n r] eqn:E; simpl in *.
  - split; auto. intros _. now apply length_zero_iff_nil.
  - split; [discriminate|]. intros ->. pose proof (g_pos G [] n) as P. rewrite E in P. specialize (P (or_introl eq_refl)).
    simpl in H. lia.
Qed.

(** counting elements below a bound in a strictly increasing list *)
Lemma filter_lt_nth l x : sset l -> forall i, nth_error l i = Some x -> length (filter (fun y => y <? S x) l) = S i.
Proof.
  unfold sset. induction 1 as [|a r Hr IH Ha]; intros i H; [destruct i; discriminate|].
  rewrite Forall_forall in Ha. destruct i as [|i]; simpl in H.
  - inversion H; subst. simpl. assert (x <? S x = true) as -> by (apply Nat.ltb_lt; lia). simpl. f_equal.
    assert (filter (fun y => y <? S x) r = []) as ->; auto.
    clear - Ha. induction r as [|y r IH]; simpl; auto. assert (y <? S x = false) as ->.
    { apply Nat.ltb_ge. specialize (Ha y (or_introl eq_refl)). lia. }
    apply IH. intros z Hz. apply Ha. now right.
  - simpl. assert (a < x) by (apply Ha; eapply nth_error_In; eauto).
    assert (a <? S x = true) as -> by (apply Nat.ltb_lt; lia). simpl. f_equal. auto.
Qed.

Definition col_on_line (G : Graphemes) (i : nat) (l : text) (rel : nat) : nat :=
  if rel =? length l then length l + 1
  else if i =? 0 then rel + 1
  else length (filter (fun x => x <? S rel) (gstarts G l)).

Lemma last_before s o i l : nth_error (lines_of s) (S i) = Some l -> S i = count_lf (firstn o s) ->
  exists a, filter (fun x => x <? o) (newline_positions s) = a ++ [loff s (S i) - 1] /\ 0 < loff s (S i).
Proof.
  intros El Ei. pose proof (nl_before s o) as LB. rewrite <- Ei in LB.
  (* the filtered list is the prefix of length S i *)
  assert (forall l, sset l -> filter (fun x => x <? o) l = firstn (length (filter (fun x => x <? o) l)) l) as PF.
  { clear. unfold sset. induction 1 as [|a r Hr IH Ha]; simpl; auto. destruct (a <? o) eqn:E; simpl.
    - f_equal. exact IH.
    - apply Nat.ltb_ge in E. assert (filter (fun x => x <? o) r = []) as ->; auto.
      rewrite Forall_forall in Ha. clear - E Ha. induction r as [|y r IH]; simpl; auto.
      assert (y <? o = false) as ->. { apply Nat.ltb_ge. specialize (Ha y (or_introl eq_refl)). lia. }
      apply IH. intros z Hz. apply Ha. now right. }
  rewrite (PF _ (newline_positions_sset s)), LB.
  assert (exists v, nth_error (newline_positions s) i = Some v) as [v Ev].
  { destruct (nth_error (newline_positions s) i) eqn:X; [eauto|]. apply nth_error_None in X.
    assert (length (filter (fun x => x <? o) (newline_positions s)) <= length (newline_positions s)).
    { clear. induction (newline_positions s) as [|y r IH]; simpl; auto. destruct (y <? o); simpl; lia. }
    lia. }
  destruct (nl_nth s i v Ev) as (l' & El' & Vv & _). rewrite (loff_S s i l' El').
  destruct (nth_error_split _ _ Ev) as (a & b & E & La). exists a. rewrite E.
  split; [|lia].
  replace (a ++ v :: b) with ((a ++ [v]) ++ b) by now rewrite <- app_assoc.
  rewrite firstn_app_le by (rewrite app_length; simpl; lia).
  rewrite firstn_all2 by (rewrite app_length; simpl; lia). f_equal. f_equal. lia.
Qed.

Lemma sset_nth_inj l i j x : sset l -> nth_error l i = Some x -> nth_error l j = Some x -> i = j.
Proof.
  intros H Hi Hj. apply sset_NoDup in H. rewrite NoDup_nth_error in H. apply H; [|congruence].
  apply nth_error_Some. congruence.
Qed.

Lemma offset_to_coord_spec G t o : acc t -> o < length (txt t) ->
  exists i l, nth_error (lines_of (txt t)) i = Some l /\
    loff (txt t) i <= o <= loff (txt t) i + length l /\
    i = count_lf (firstn o (txt t)) /\ line_start (txt t) o = loff (txt t) i /\
    (nth_error (txt t) o = Some LF <-> o = loff (txt t) i + length l) /\
    pt_offset_to_coord G t o = Ok (Some (mkC (i + 1) (col_on_line G i l (o - loff (txt t) i)))).
Proof.
  intros A Ho. pose proof A as [W N]. set (s := txt t) in *.
  destruct (offset_line s o Ho) as (i & l & El & Hr & Ei & Es & En).
  exists i, l. repeat (split; [tauto|]). unfold pt_offset_to_coord, col_on_line.
  destruct (lines_facts s i l El) as (F1 & F2 & F3 & F4).
  destruct (o =? 0) eqn:E0.
  - apply Nat.eqb_eq in E0. subst o. change (firstn 0 s) with (@nil nat) in Ei. unfold count_lf in Ei; simpl in Ei. subst i.
    change (loff s 0) with 0. simpl Nat.sub. destruct (0 =? length l) eqn:E; [|reflexivity].
    apply Nat.eqb_eq in E. rewrite <- E. reflexivity.
  - apply Nat.eqb_neq in E0. rewrite max_offset_spec by auto. cbn [bind]. fold s.
    assert (length s - 1 <? o = false) as -> by (apply Nat.ltb_ge; lia).
    rewrite N. fold s. destruct (position_of o (newline_positions s)) as [idx|] eqn:Ep.
    + apply position_of_some in Ep. destruct (nl_nth s idx o Ep) as (l' & El' & Eo & _).
      assert (idx = i) as ->.
      { assert (nth_error s o = Some LF) as X by (apply newline_positions_In; eapply nth_error_In; eauto).
        apply En in X. destruct F4 as [F4|(F4 & F5 & _)]; [|lia].
        eapply sset_nth_inj; [apply newline_positions_sset|exact Ep|]. rewrite F4. f_equal. lia. }
      rewrite El in El'. inversion El'; subst l'.
      rewrite line_length_spec; auto; try lia.
      2:{ intro X. fold s in X. rewrite X in Ep. destruct i; discriminate. }
      fold s. replace (i + 1 - 1) with i by lia. rewrite El. cbn [bind].
      assert (o - loff s i =? length l = true) as -> by (apply Nat.eqb_eq; lia). reflexivity.
    + apply position_of_none in Ep. rewrite newline_positions_In in Ep.
      assert (o - loff s i =? length l = false) as ->. { apply Nat.eqb_neq. intro X. apply Ep, En. lia. }
      rewrite nl_before, <- Ei. cbv zeta.
      destruct i as [|i].
      * assert (filter (fun i => i <? o) (newline_positions s) = []) as ->.
        { apply length_zero_iff_nil. rewrite nl_before. auto. }
        simpl. change (loff s 0) with 0. now rewrite Nat.sub_0_r.
      * destruct (last_before s o i l El Ei) as (a & Ea & Hp). rewrite Ea, rev_unit.
        rewrite line_bytes_spec by (auto; intro X; fold s in X; rewrite X in Ho; simpl in Ho; lia). fold s.
        replace (S i + 1 =? 0) with false by (symmetry; apply Nat.eqb_neq; lia).
        replace (S i + 1 - 1) with (S i) by lia. rewrite El. cbn [bind unwrap].
        rewrite sub_ok by lia. cbn [bind]. simpl Nat.eqb. cbv iota. f_equal. f_equal. f_equal. f_equal.
        apply filter_ext. intro x. f_equal. lia.
Qed.

Lemma offset_to_coord_out G t o : acc t -> length (txt t) <= o -> o <> 0 -> pt_offset_to_coord G t o = Ok None.
Proof.
  intros [W N] Ho Hz. unfold pt_offset_to_coord. apply Nat.eqb_neq in Hz. rewrite Hz. apply Nat.eqb_neq in Hz.
  rewrite max_offset_spec by auto. cbn [bind].
  assert (length (txt t) - 1 <? o = true) as -> by (apply Nat.ltb_lt; lia). reflexivity.
Qed.

Lemma coord_to_offset_spec G t c l : acc t -> 0 < cl c -> nth_error (lines_of (txt t)) (cl c - 1) = Some l ->
  pt_coord_to_offset G t c =
    if cc c =? gcount G l + 1 then Ok (Some (loff (txt t) (cl c - 1) + length l))
    else if cc c =? 0 then Panic "attempt to subtract with overflow"
    else Ok (match nth_error (gstarts G l) (cc c - 1) with
             | Some x => Some (loff (txt t) (cl c - 1) + x) | None => None end).
Proof.
  intros A Hl El. pose proof A as [W N]. unfold pt_coord_to_offset. set (s := txt t) in *.
  assert (cl c - 1 < length (lines_of s)) as Hlt by (apply nth_error_Some; congruence).
  assert (s <> []) as Hs by (intro X; rewrite X in Hlt; simpl in Hlt; lia).
  replace (cl c =? 0) with false by (symmetry; apply Nat.eqb_neq; lia).
  rewrite line_count_spec by auto. cbn [bind]. fold s.
  replace (length (lines_of s) <? cl c) with false by (symmetry; apply Nat.ltb_ge; lia).
  rewrite line_bytes_spec by auto. fold s.
  replace (cl c =? 0) with false by (symmetry; apply Nat.eqb_neq; lia). rewrite El. cbn [bind unwrap].
  rewrite N. fold s.
  assert ((if 1 <? cl c then match nth_error (newline_positions s) (cl c - 2) with Some nl => nl + 1 | None => 0 end else 0)
          = loff s (cl c - 1)) as ->.
  { destruct (1 <? cl c) eqn:E.
    - apply Nat.ltb_lt in E.
      assert (length (lines_of s) <= S (length (newline_positions s))) as LC.
      { rewrite lines_count, nl_len. destruct (terminated s); [lia|]. destruct s; lia. }
      destruct (nth_error (newline_positions s) (cl c - 2)) as [v|] eqn:Ev.
      2:{ apply nth_error_None in Ev. lia. }
      destruct (nl_nth s _ v Ev) as (l' & El' & Vv & _).
      replace (cl c - 1) with (S (cl c - 2)) by lia. rewrite (loff_S s _ l' El'). lia.
    - apply Nat.ltb_ge in E. replace (cl c - 1) with 0 by lia. reflexivity. }
  destruct (cc c =? gcount G l + 1); auto.
  destruct (cc c =? 0) eqn:Ec.
  - apply Nat.eqb_eq in Ec. rewrite Ec. reflexivity.
  - apply Nat.eqb_neq in Ec. rewrite sub_ok by lia. reflexivity.
Qed.

Lemma coord_to_offset_past G t c : acc t -> txt t <> [] -> length (lines_of (txt t)) < cl c ->
  pt_coord_to_offset G t c = Ok None.
Proof.
  intros A Hs H. unfold pt_coord_to_offset. replace (cl c =? 0) with false by (symmetry; apply Nat.eqb_neq; lia).
  rewrite line_count_spec by auto. cbn [bind]. apply Nat.ltb_lt in H. now rewrite H.
Qed.

(** ** ASCII texts *)
Lemma slice_In {A} (s : list A) a n x : In x (slice s a n) -> In x s.
Proof.
  unfold slice. intro H. rewrite <- (firstn_skipn a s), <- (firstn_skipn n (skipn a s)).
  apply in_or_app. right. apply in_or_app. now left.
Qed.
Lemma ascii_line s i l : ascii s -> nth_error (lines_of s) i = Some l -> ascii_plain l.
Proof.
  intros A El. destruct (lines_facts s i l El) as (F1 & _ & F3 & _).
  unfold ascii, ascii_plain, nolf in *. rewrite Forall_forall in *. intros x Hx. split; auto.
  apply A. rewrite <- F1 in Hx. eapply slice_In; eauto.
Qed.
Lemma starts_ones b (l : text) : starts_from b (map (fun _ => 1) l) = seq b (length l).
Proof.
  revert b. induction l; simpl; auto. intro b. f_equal. rewrite Nat.add_1_r. auto.
Qed.
Lemma gstarts_ascii G l : ascii_plain l -> gstarts G l = seq 0 (length l).
Proof. intro H. unfold gstarts. rewrite g_ascii by auto. apply starts_ones. Qed.
Lemma gcount_ascii G l : ascii_plain l -> gcount G l = length l.
Proof. intro H. unfold gcount. rewrite g_ascii by auto. apply map_length. Qed.

Lemma col_ascii G i l rel : ascii_plain l -> rel <= length l -> col_on_line G i l rel = rel + 1.
Proof.
  intros A H. unfold col_on_line. destruct (rel =? length l) eqn:E.
  - apply Nat.eqb_eq in E. lia.
  - apply Nat.eqb_neq in E. destruct (i =? 0); auto. rewrite gstarts_ascii by auto.
    rewrite (filter_lt_nth _ rel (sset_seq 0 _) rel); [lia|].
    rewrite nth_error_nth' with (d := 0) by (rewrite seq_length; lia). f_equal. rewrite seq_nth; lia.
Qed.

Lemma nth_error_seq n i : nth_error (seq 0 n) i = if i <? n then Some i else None.
Proof.
  destruct (i <? n) eqn:E.
  - apply Nat.ltb_lt in E. rewrite nth_error_nth' with (d := 0) by (rewrite seq_length; lia). f_equal. rewrite seq_nth; lia.
  - apply Nat.ltb_ge in E. apply nth_error_None. rewrite seq_length. lia.
Qed.

Lemma ascii_offset_to_coord G t o : acc t -> ascii (txt t) -> o < length (txt t) ->
  pt_offset_to_coord G t o = Ok (Some (mkC (line_of_offset (txt t) o) (byte_col (txt t) o))).
Proof.
  intros A As Ho. destruct (offset_to_coord_spec G t o A Ho) as (i & l & El & Hr & Ei & Es & En & E).
  rewrite E. unfold line_of_offset, byte_col. rewrite col_ascii by (try lia; eapply ascii_line; eauto).
  rewrite Es, <- Ei. f_equal. f_equal. f_equal; lia.
Qed.

Lemma ascii_coord_to_offset G t c l : acc t -> ascii (txt t) -> 0 < cl c -> 0 < cc c ->
  nth_error (lines_of (txt t)) (cl c - 1) = Some l ->
  pt_coord_to_offset G t c =
    Ok (if cc c <=? length l + 1 then Some (line_offset (txt t) (cl c) + (cc c - 1)) else None).
Proof.
  intros A As Hl Hc El. rewrite (coord_to_offset_spec G t c l) by auto.
  pose proof (ascii_line _ _ _ As El) as Al. rewrite gcount_ascii, gstarts_ascii by auto.
  rewrite line_offset_loff.
  destruct (cc c =? length l + 1) eqn:E.
  - apply Nat.eqb_eq in E. assert (cc c <=? length l + 1 = true) as -> by (apply Nat.leb_le; lia).
    f_equal. f_equal. lia.
  - apply Nat.eqb_neq in E. replace (cc c =? 0) with false by (symmetry; apply Nat.eqb_neq; lia).
    f_equal. rewrite nth_error_seq.
    destruct (cc c - 1 <? length l) eqn:E2; [apply Nat.ltb_lt in E2|apply Nat.ltb_ge in E2].
    + assert (cc c <=? length l + 1 = true) as -> by (apply Nat.leb_le; lia). reflexivity.
    + assert (cc c <=? length l + 1 = false) as -> by (apply Nat.leb_gt; lia). reflexivity.
Qed.

(** ** character lookup *)
Lemma filter_split_lt o L : sset L ->
  filter (fun x => o <=? x) L = skipn (length (filter (fun x => x <? o) L)) L.
Proof.
  unfold sset. induction 1 as [|a r Hr IH Ha]; simpl; auto.
  destruct (a <? o) eqn:E.
  - apply Nat.ltb_lt in E. assert (o <=? a = false) as -> by (apply Nat.leb_gt; lia). simpl. auto.
  - apply Nat.ltb_ge in E. assert (o <=? a = true) as -> by (apply Nat.leb_le; lia).
    rewrite Forall_forall in Ha.
    assert (filter (fun x => x <? o) r = []) as E1.
    { clear - E Ha. induction r as [|y r IH]; simpl; auto.
      assert (y <? o = false) as ->. { apply Nat.ltb_ge. specialize (Ha y (or_introl eq_refl)). lia. }
      apply IH. intros z Hz. apply Ha. now right. }
    rewrite E1 in *. simpl in *. now rewrite IH.
Qed.
Lemma skipn_nth_error {A} (L : list A) i : match skipn i L with x :: _ => Some x | [] => None end = nth_error L i.
Proof. revert i. induction L as [|a L IH]; intros [|i]; simpl; auto. Qed.

Lemma next_newline s o i l : o < length s -> nth_error (lines_of s) i = Some l -> i = count_lf (firstn o s) ->
  match filter (fun i => o <=? i) (newline_positions s) with x :: _ => x | [] => length s end = loff s i + length l.
Proof.
  intros Ho El Ei. rewrite (filter_split_lt _ _ (newline_positions_sset s)), nl_before, <- Ei.
  pose proof (skipn_nth_error (newline_positions s) i) as X.
  destruct (lines_facts s i l El) as (F1 & F2 & F3 & [F4|(F4 & F5 & _)]); rewrite F4 in X;
    destruct (skipn i (newline_positions s)); congruence.
Qed.

Definition first_grapheme (G : Graphemes) (l : text) : option text :=
  match glens G l with [] => None | n :: _ => Some (firstn n l) end.

Lemma char_at_offset_spec G t o : acc t -> o < length (txt t) ->
  exists i l, nth_error (lines_of (txt t)) i = Some l /\ loff (txt t) i <= o <= loff (txt t) i + length l /\
  i = count_lf (firstn o (txt t)) /\ (nth_error (txt t) o = Some LF <-> o = loff (txt t) i + length l) /\
  pt_char_at_offset G t o =
    Ok (if o =? loff (txt t) i + length l then first_grapheme G [LF]
        else first_grapheme G (skipn (o - loff (txt t) i) l)).
Proof.
  intros A Ho. pose proof A as [W N]. set (s := txt t) in *.
  destruct (offset_line s o Ho) as (i & l & El & Hr & Ei & Es & En). exists i, l. repeat (split; [tauto|]).
  destruct (lines_facts s i l El) as (F1 & F2 & F3 & F4).
  unfold pt_char_at_offset. rewrite N. fold s. rewrite pt_len_txt by auto. fold s.
  rewrite (next_newline s o i l) by auto. rewrite sub_ok by lia. cbn [bind].
  rewrite range_spec by auto. fold s. assert (o <? length s = true) as -> by (apply Nat.ltb_lt; lia). cbn [bind].
  f_equal. destruct (o =? loff s i + length l) eqn:E.
  - apply Nat.eqb_eq in E. replace (loff s i + length l - o) with 0 by lia. simpl max.
    assert (slice s o 1 = [LF]) as ->; [|reflexivity].
    unfold slice. pose proof (proj2 En E) as En'. pose proof (skipn_nth_error s o) as X. rewrite En' in X.
    destruct (skipn o s) as [|y ys]; [discriminate|]. inversion X. reflexivity.
  - apply Nat.eqb_neq in E. replace (max (loff s i + length l - o) 1) with (loff s i + length l - o) by lia.
    assert (slice s o (loff s i + length l - o) = skipn (o - loff s i) l) as ->; [|reflexivity].
    rewrite <- F1 at 2. rewrite slice_skipn. f_equal; lia.
Qed.

Lemma first_grapheme_lf G : first_grapheme G [LF] = Some [LF].
Proof. unfold first_grapheme. rewrite g_ascii by auto. reflexivity. Qed.

Lemma ascii_char_at_offset G t o : acc t -> ascii (txt t) -> o < length (txt t) ->
  pt_char_at_offset G t o = Ok (Some [nth o (txt t) 0]).
Proof.
  intros A As Ho. destruct (char_at_offset_spec G t o A Ho) as (i & l & El & Hr & Ei & En & ->).
  f_equal. destruct (o =? _) eqn:E.
  - apply Nat.eqb_eq in E. rewrite first_grapheme_lf. f_equal. f_equal. symmetry. apply nth_error_nth. tauto.
  - apply Nat.eqb_neq in E. pose proof (ascii_line _ _ _ As El) as Al.
    assert (ascii_plain (skipn (o - loff (txt t) i) l)) as As'.
    { unfold ascii_plain in *. rewrite <- (firstn_skipn (o - loff (txt t) i) l) in Al. apply Forall_app in Al. tauto. }
    unfold first_grapheme. rewrite g_ascii by auto.
    destruct (lines_facts _ i l El) as (F1 & F2 & F3 & F4).
    destruct (skipn (o - loff (txt t) i) l) as [|y ys] eqn:Sk.
    + apply (f_equal (@length nat)) in Sk. rewrite skipn_length in Sk. simpl in Sk. lia.
    + simpl. f_equal. f_equal. pose proof (skipn_nth_error l (o - loff (txt t) i)) as X. rewrite Sk in X.
      symmetry in X. apply nth_error_nth with (d := 0) in X. rewrite <- X. rewrite <- F1. rewrite nth_slice by lia. f_equal. lia.
Qed.

Lemma char_at_offset_end G t : acc t -> pt_char_at_offset G t (length (txt t)) = Ok None.
Proof.
  intros [W N]. unfold pt_char_at_offset. rewrite N, pt_len_txt by auto.
  rewrite (filter_split_lt _ _ (newline_positions_sset (txt t))), nl_before, firstn_all.
  rewrite <- nl_len, skipn_all. rewrite sub_ok by lia. cbn [bind]. rewrite Nat.sub_diag.
  rewrite range_spec by auto. rewrite Nat.ltb_irrefl. reflexivity.
Qed.
