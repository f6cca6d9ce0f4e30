(** Proofs about cursor motions in ASCII documents ending with a newline. *)
From Coq Require Import String List Arith Lia Bool.
From Verif Require Import Base ListFacts PieceTable PieceTableSpec PieceTableFacts PieceTableEdits PieceTableDelete
  History HistoryFacts Coords LineSpec LineFacts CoordsFacts CoordsMore Selection NavSpec.
Import ListNotations.

Lemma loff_mono s a c : a <= c -> loff s a <= loff s c.
Proof.
  intro H. induction H; auto. etransitivity; [exact IHle|].
  destruct (nth_error (lines_of s) m) as [lm|] eqn:E.
  - rewrite (loff_S _ _ _ E). lia.
  - apply nth_error_None in E. unfold loff. rewrite !firstn_all2 by lia. lia.
Qed.
Lemma line_unique s i l i' l' o : nth_error (lines_of s) i = Some l -> nth_error (lines_of s) i' = Some l' ->
  loff s i <= o <= loff s i + length l -> loff s i' <= o <= loff s i' + length l' -> i = i' /\ l = l'.
Proof.
  intros E E' H H'. assert (i = i') as ->; [|split; congruence].
  destruct (Nat.lt_trichotomy i i') as [X|[X|X]]; auto; exfalso.
  - pose proof (loff_mono s (S i) i' X) as M. rewrite (loff_S _ i l E) in M. lia.
  - pose proof (loff_mono s (S i') i X) as M. rewrite (loff_S _ i' l' E') in M. lia.
Qed.

(** an offset, its line and the line's offset *)
Definition on_line (s : text) (o i : nat) (l : text) : Prop :=
  nth_error (lines_of s) i = Some l /\ loff s i <= o <= loff s i + length l /\ o < length s.

Lemma on_line_ex s o : o < length s -> exists i l, on_line s o i l.
Proof. intro H. destruct (offset_line s o H) as (i & l & El & Hr & _). exists i, l. repeat split; auto; lia. Qed.
Lemma on_line_coords s o i l : on_line s o i l ->
  line_of_offset s o = i + 1 /\ byte_col s o = o - loff s i + 1 /\ line_start s o = loff s i /\
  (nth_error s o = Some LF <-> o = loff s i + length l).
Proof.
  intros (El & Hr & Ho). destruct (offset_line s o Ho) as (i' & l' & El' & Hr' & Ei & Es & En).
  destruct (line_unique s i l i' l' o El El' Hr Hr') as [<- <-].
  unfold line_of_offset, byte_col. rewrite Es, <- Ei. repeat split; try lia; tauto.
Qed.
Lemma coords_at_on s o i l : on_line s o i l -> coords_at s o = mkC (i + 1) (o - loff s i + 1).
Proof. intro H. destruct (on_line_coords _ _ _ _ H) as (H1 & H2 & _). unfold coords_at. now rewrite H1, H2. Qed.

Lemma term_line s i l : terminated s = true -> nth_error (lines_of s) i = Some l ->
  loff s i + length l < length s /\ nth_error s (loff s i + length l) = Some LF.
Proof.
  intros T El. destruct (lines_facts _ _ _ El) as (F1 & F2 & F3 & [F4|(F4 & F5 & F6 & F7)]).
  - apply nth_error_In in F4. apply newline_positions_In in F4. split; auto. apply nth_error_Some. congruence.
  - exfalso. apply nth_error_None in F4. rewrite nl_len in F4. pose proof (lines_count s) as LC. rewrite T in LC.
    assert (i < length (lines_of s)) by (apply nth_error_Some; congruence). lia.
Qed.
Lemma term_nonempty s : terminated s = true -> s <> [] /\ 0 < length s.
Proof. intro H. destruct s; [discriminate|]. split; [discriminate|simpl; lia]. Qed.
Lemma term_has_nl s : terminated s = true -> newline_positions s <> [].
Proof.
  intros T X. destruct (term_nonempty s T) as [N _]. apply (terminated_nth s N) in T. apply newline_positions_In in T.
  rewrite X in T. destruct T.
Qed.

Section Ascii.
Variables (G : Graphemes) (t : pt).
Hypothesis A : acc t.
Hypothesis As : ascii (txt t).
Hypothesis NE : txt t <> [].
Let x := txt t.

Lemma nav_coords o : o < length x -> pt_offset_to_coord G t o = Ok (Some (coords_at x o)).
Proof. intro H. now apply ascii_offset_to_coord. Qed.

Lemma nav_offset i l c : nth_error (lines_of x) i = Some l -> 0 < c <= length l + 1 ->
  pt_coord_to_offset G t (mkC (i + 1) c) = Ok (Some (loff x i + (c - 1))).
Proof.
  intros El Hc. rewrite (ascii_coord_to_offset G t _ l); simpl; auto; try lia.
  - assert (c <=? length l + 1 = true) as -> by (apply Nat.leb_le; lia). rewrite line_offset_loff.
    replace (i + 1 - 1) with i by lia. reflexivity.
  - now replace (i + 1 - 1) with i by lia.
Qed.
Lemma nav_offset_back o : o < length x -> pt_coord_to_offset G t (coords_at x o) = Ok (Some o).
Proof.
  intro H. destruct (on_line_ex x o H) as (i & l & Hl). rewrite (coords_at_on _ _ _ _ Hl). destruct Hl as (El & Hr & _).
  rewrite (nav_offset i l) by (auto; lia). do 2 f_equal. lia.
Qed.
Lemma coords_at_inj o o' : o < length x -> o' < length x -> coords_at x o = coords_at x o' -> o = o'.
Proof. intros H H' E. pose proof (nav_offset_back o H) as X. rewrite E, (nav_offset_back o' H') in X. congruence. Qed.
Lemma coords_eqb_spec a b : coords_eqb a b = true <-> a = b.
Proof.
  unfold coords_eqb. rewrite andb_true_iff, !Nat.eqb_eq. destruct a, b; simpl. split; [intros [-> ->]|intro H; inversion H]; auto.
Qed.
Lemma coords_eqb_at o o' : o < length x -> o' < length x -> coords_eqb (coords_at x o) (coords_at x o') = (o =? o').
Proof.
  intros H H'. destruct (o =? o') eqn:E.
  - apply Nat.eqb_eq in E. subst. now apply coords_eqb_spec.
  - apply Nat.eqb_neq in E. destruct (coords_eqb _ _) eqn:X; auto. apply coords_eqb_spec in X.
    exfalso. apply E. now apply coords_at_inj.
Qed.

Lemma xpos : 0 < length x.
Proof. unfold x. destruct (txt t); [congruence|simpl; lia]. Qed.
Lemma max_coord_ok : pt_max_coord G t = Ok (coords_at x (length x - 1)).
Proof.
  unfold pt_max_coord. rewrite max_offset_spec by apply A. cbn [bind]. fold x.
  rewrite nav_coords by (pose proof xpos; lia). reflexivity.
Qed.

Lemma char_ok o : o < length x -> pt_char_at G t (coords_at x o) = Ok (Some [nth o x 0]).
Proof. intro H. unfold pt_char_at. rewrite nav_offset_back by auto. cbn [bind]. unfold x. rewrite ascii_char_at_offset by auto. reflexivity. Qed.

Lemma begin_coords : coords_at x 0 = BEGIN.
Proof. reflexivity. Qed.

(** the position shown for a line and a wanted column *)
Lemma pos_ok_in i l c tg : nth_error (lines_of x) i = Some l -> 0 < tg -> loff x i + min (length l) (tg - 1) < length x ->
  exists p, nav_pos G t (mkNav (mkC (i + 1) c) tg) = Ok p /\ pos_offset p = loff x i + min (length l) (tg - 1).
Proof.
  intros El Ht TL.
  unfold nav_pos. cbn [n_cur n_target cl]. rewrite line_bytes_spec; auto.
  fold x. replace (i + 1 =? 0) with false by (symmetry; apply Nat.eqb_neq; lia).
  replace (i + 1 - 1) with i by lia. rewrite El. cbn [bind unwrap].
  rewrite gcount_ascii by (eapply ascii_line; eauto).
  rewrite (nav_offset i l) by (auto; lia). cbn [bind unwrap].
  assert (mkC (i + 1) (min (length l + 1) tg) = coords_at x (loff x i + (min (length l + 1) tg - 1))) as ->.
  { rewrite (coords_at_on x _ i l); [f_equal; lia|]. repeat split; auto; lia. }
  rewrite char_ok by lia. cbn [bind]. eexists. split; [reflexivity|]. cbn [pos_offset]. lia.
Qed.

Lemma clamp_on i l c : nth_error (lines_of x) i = Some l -> clamp_col x (i + 1) c = loff x i + min (length l) (c - 1).
Proof.
  intro El. unfold clamp_col, nth_line. rewrite line_offset_loff. replace (i + 1 - 1) with i by lia.
  now rewrite (nth_error_nth _ _ [] El).
Qed.

Lemma navigate_ok o : o < length x -> pt_navigate G t (Some (coords_at x o)) = Ok (Some (mkNav (coords_at x o) (byte_col x o))).
Proof. intro H. unfold pt_navigate, nav_from. rewrite nav_offset_back by auto. reflexivity. Qed.

(** the motions, as navigator states *)
Definition nav_goes (d : motion) (o tg : nat) : Prop :=
  exists i l c, nav_move G t d (mkNav (coords_at x o) tg) = Ok (mkNav (mkC (i + 1) c) (snd (motion_spec x d o tg))) /\
    nth_error (lines_of x) i = Some l /\ 0 < snd (motion_spec x d o tg) /\
    fst (motion_spec x d o tg) = loff x i + min (length l) (snd (motion_spec x d o tg) - 1).

Lemma nav_next_ok o tg : o < length x ->
  nav_next G t (mkNav (coords_at x o) tg) =
    Ok (if o =? length x - 1 then mkNav (coords_at x o) tg else mkNav (coords_at x (o + 1)) (byte_col x (o + 1))).
Proof.
  intro H. unfold nav_next. rewrite max_coord_ok. cbn [bind n_cur]. rewrite coords_eqb_at by (pose proof xpos; lia).
  destruct (o =? length x - 1) eqn:E; [reflexivity|]. apply Nat.eqb_neq in E.
  rewrite char_ok by auto. cbn [bind].
  destruct (on_line_ex x o H) as (i & l & Hl). pose proof (on_line_coords _ _ _ _ Hl) as (C1 & C2 & C3 & C4).
  destruct (list_nat_eqb [nth o x 0] [LF]) eqn:L.
  - assert (nth_error x o = Some LF) as X.
    { unfold list_nat_eqb in L. destruct (list_eq_dec Nat.eq_dec [nth o x 0] [LF]) as [L'|]; [|discriminate].
      assert (nth o x 0 = LF) as <- by congruence. apply nth_error_nth'. auto. }
    apply C4 in X. destruct Hl as (El & Hr & _).
    assert (exists l', nth_error (lines_of x) (S i) = Some l') as (l' & El').
    { apply lines_nth_ex. destruct (on_line_ex x (o + 1)) as (i' & l' & El' & Hr' & _); [lia|].
      destruct (Nat.le_gt_cases i' i) as [Hle|Hgt].
      - exfalso. destruct (Nat.eq_dec i' i) as [->|Hn].
        + rewrite El in El'. inversion El'; subst. lia.
        + pose proof (loff_mono x (S i') i ltac:(lia)) as M. rewrite (loff_S _ _ _ El') in M. lia.
      - assert (i' < length (lines_of x)) by (apply nth_error_Some; congruence). lia. }
    assert (on_line x (o + 1) (S i) l') as Hl'.
    { repeat split; auto; rewrite ?(loff_S _ _ _ El); lia. }
    rewrite (coords_at_on x (o + 1) _ _ Hl'). destruct (on_line_coords _ _ _ _ Hl') as (D1 & D2 & _). rewrite D2.
    rewrite (coords_at_on x o i l) by (repeat split; auto; lia). cbn [cl]. rewrite (loff_S _ _ _ El).
    f_equal. f_equal; [f_equal; lia|lia].
  - rewrite nav_offset_back by auto. cbn [bind unwrap]. rewrite nav_coords by lia. reflexivity.
Qed.

Lemma selection_range_ok s : s_anchor s < length x -> s_cursor s < length x ->
  selection_range G t s = Ok (min (s_anchor s) (s_cursor s), max (s_anchor s) (s_cursor s) + 1).
Proof.
  intros Ha Hc. unfold selection_range. rewrite max_offset_spec by apply A. cbn [bind]. fold x.
  assert (sel_begin s = min (s_anchor s) (s_cursor s)) as ->.
  { unfold sel_begin. destruct (Nat.leb_spec (s_anchor s) (s_cursor s)); lia. }
  assert (sel_end s = max (s_anchor s) (s_cursor s)) as ->.
  { unfold sel_end. destruct (Nat.ltb_spec (s_anchor s) (s_cursor s)); lia. }
  set (o := max (s_anchor s) (s_cursor s)) in *. assert (o < length x) as Ho by (unfold o; lia).
  destruct (o =? length x - 1) eqn:E; [reflexivity|].
  rewrite nav_coords by auto. cbn [bind]. rewrite navigate_ok by auto. cbn [bind unwrap].
  rewrite nav_next_ok, E by auto. cbn [bind]. apply Nat.eqb_neq in E.
  destruct (on_line_ex x (o + 1)) as (i & l & Hl); [lia|]. rewrite (coords_at_on _ _ _ _ Hl).
  destruct (on_line_coords _ _ _ _ Hl) as (_ & C2 & _). rewrite C2. destruct Hl as (El & Hr & Hx).
  destruct (pos_ok_in i l (o + 1 - loff x i + 1) (o + 1 - loff x i + 1) El) as (p & -> & Ep); try lia.
  cbn [bind]. rewrite Ep. do 2 f_equal. lia.
Qed.

Hypothesis T : terminated (txt t) = true.
Lemma pos_ok i l c tg : nth_error (lines_of x) i = Some l -> 0 < tg ->
  exists p, nav_pos G t (mkNav (mkC (i + 1) c) tg) = Ok p /\ pos_offset p = loff x i + min (length l) (tg - 1).
Proof. intros El Ht. apply pos_ok_in; auto. pose proof (term_line x i l T El) as [TL _]. lia. Qed.

Lemma nav_previous_ok o tg : o < length x ->
  nav_previous t (mkNav (coords_at x o) tg) =
    Ok (if o =? 0 then mkNav (coords_at x o) tg else mkNav (coords_at x (o - 1)) (byte_col x (o - 1))).
Proof.
  intro H. unfold nav_previous. cbn [n_cur]. rewrite <- begin_coords, coords_eqb_at by (pose proof xpos; lia).
  destruct (o =? 0) eqn:E; [reflexivity|]. apply Nat.eqb_neq in E.
  destruct (on_line_ex x o H) as (i & l & Hl). rewrite (coords_at_on x o i l Hl). cbn [cl cc].
  pose proof Hl as (El & Hr & _).
  replace (i + 1 =? 1) with (i =? 0) by (destruct i; [reflexivity|]; symmetry; simpl; apply Nat.eqb_neq; lia).
  destruct (o - loff x i + 1 =? 1) eqn:C1.
  - apply Nat.eqb_eq in C1. destruct i as [|i].
    { unfold loff in *. simpl in *. lia. }
    simpl negb. simpl andb. cbv iota.
    assert (exists lp, nth_error (lines_of x) i = Some lp) as (lp & Ep).
    { apply lines_nth_ex. assert (S i < length (lines_of x)) by (apply nth_error_Some; congruence). lia. }
    pose proof (loff_S _ _ _ Ep) as LS.
    rewrite sub_ok by lia. cbn [bind]. rewrite line_length_spec; auto; try lia.
    2:{ apply term_has_nl. exact T. }
    fold x. replace (S i + 1 - 1 - 1) with i by lia. rewrite Ep. cbn [bind].
    assert (on_line x (o - 1) i lp) as Hp by (repeat split; auto; lia).
    rewrite (coords_at_on x (o - 1) i lp Hp). destruct (on_line_coords _ _ _ _ Hp) as (_ & D2 & _). rewrite D2. cbn [cc].
    f_equal. f_equal; [f_equal; lia|lia].
  - apply Nat.eqb_neq in C1. rewrite andb_false_r. rewrite sub_ok by lia. cbn [bind].
    assert (on_line x (o - 1) i l) as Hp by (repeat split; auto; lia).
    rewrite (coords_at_on x (o - 1) i l Hp). destruct (on_line_coords _ _ _ _ Hp) as (_ & D2 & _). rewrite D2. cbn [cc].
    f_equal. f_equal; [f_equal; lia|lia].
Qed.

Lemma settled_on o tg i l : on_line x o i l -> 0 < tg -> o = clamp_col x (line_of_offset x o) tg ->
  o = loff x i + min (length l) (tg - 1).
Proof.
  intros Hl Ht E. destruct (on_line_coords _ _ _ _ Hl) as (C1 & _). rewrite C1 in E. destruct Hl as (El & _).
  now rewrite (clamp_on i l) in E.
Qed.
Lemma goes_at o' : o' < length x -> exists i l, on_line x o' i l /\ coords_at x o' = mkC (i + 1) (o' - loff x i + 1) /\
  byte_col x o' = o' - loff x i + 1 /\ o' = loff x i + min (length l) (byte_col x o' - 1).
Proof.
  intro H. destruct (on_line_ex x o' H) as (i & l & Hl). exists i, l. destruct (on_line_coords _ _ _ _ Hl) as (_ & C2 & _).
  rewrite (coords_at_on _ _ _ _ Hl), C2. destruct Hl as (El & Hr & Ho). repeat split; auto; lia.
Qed.

(** the motions that go nowhere *)
Definition at_edge d o : Prop := (d = MLeft /\ o = 0) \/ (d = MRight /\ o = length x - 1).
Lemma nav_goes_ok d o tg : o < length x -> 0 < tg -> (at_edge d o -> o = clamp_col x (line_of_offset x o) tg) -> motion_ok x d o ->
  nav_goes d o tg.
Proof.
  intros Ho Ht Es Hm. unfold nav_goes.
  destruct (on_line_ex x o Ho) as (i & l & Hl). pose proof (on_line_coords _ _ _ _ Hl) as (C1 & C2 & C3 & _).
  pose proof (fun E => settled_on o tg i l Hl Ht (Es E)) as Eo. pose proof Hl as (El & Hr & _).
  destruct d; cbn [nav_move motion_spec].
  - rewrite nav_previous_ok by auto. destruct (o =? 0) eqn:E.
    + apply Nat.eqb_eq in E. exists i, l, (o - loff x i + 1). rewrite (coords_at_on _ _ _ _ Hl). cbn [fst snd]. repeat split; auto. specialize (Eo (or_introl (conj eq_refl E))). lia.
    + destruct (goes_at (o - 1)) as (i' & l' & (El' & _) & D2 & D3 & D4); [lia|]. exists i', l', (o - 1 - loff x i' + 1).
      cbn [fst snd]. rewrite D2. repeat split; auto. lia.
  - rewrite nav_next_ok by auto. destruct (o =? length x - 1) eqn:E.
    + apply Nat.eqb_eq in E. exists i, l, (o - loff x i + 1). rewrite (coords_at_on _ _ _ _ Hl). cbn [fst snd]. repeat split; auto. specialize (Eo (or_intror (conj eq_refl E))). lia.
    + apply Nat.eqb_neq in E. destruct (goes_at (o + 1)) as (i' & l' & (El' & _) & D2 & D3 & D4); [lia|]. exists i', l', (o + 1 - loff x i' + 1).
      cbn [fst snd]. rewrite D2. repeat split; auto. lia.
  - unfold nav_previous_line. rewrite C1, (coords_at_on _ _ _ _ Hl). cbn [n_cur n_target cl cc fst snd].
    destruct (1 <? i + 1) eqn:E.
    + apply Nat.ltb_lt in E. assert (exists lp, nth_error (lines_of x) (i - 1) = Some lp) as (lp & Ep).
      { apply lines_nth_ex. assert (i < length (lines_of x)) by (apply nth_error_Some; congruence). lia. }
      exists (i - 1), lp, (o - loff x i + 1). replace (i + 1 - 1) with (i - 1 + 1) by lia. repeat split; auto.
      rewrite <- (clamp_on (i - 1) lp) by auto. f_equal. unfold line_up. lia.
    + apply Nat.ltb_ge in E. exists i, l, (o - loff x i + 1). repeat split; auto.
      rewrite <- (clamp_on i l) by auto. f_equal. unfold line_up. lia.
  - unfold nav_next_line. rewrite line_count_spec by (auto; apply term_nonempty, T). cbn [bind]. fold x.
    rewrite C1, (coords_at_on _ _ _ _ Hl). cbn [n_cur n_target cl cc fst snd].
    assert (i < length (lines_of x)) by (apply nth_error_Some; congruence).
    destruct (i + 1 <? length (lines_of x)) eqn:E.
    + apply Nat.ltb_lt in E. destruct (lines_nth_ex x (S i)) as (lp & Ep); [lia|].
      exists (S i), lp, (o - loff x i + 1). replace (i + 1 + 1) with (S i + 1) by lia. repeat split; auto.
      rewrite <- (clamp_on (S i) lp) by auto. f_equal. unfold line_down. lia.
    + apply Nat.ltb_ge in E. exists i, l, (o - loff x i + 1). repeat split; auto.
      rewrite <- (clamp_on i l) by auto. f_equal. unfold line_down. lia.
  - unfold nav_line_begin. rewrite (coords_at_on _ _ _ _ Hl). cbn [n_cur cl fst snd]. exists i, l, 1.
    repeat split; auto. rewrite C3. lia.
  - unfold nav_line_end. rewrite (coords_at_on _ _ _ _ Hl). cbn [n_cur cl fst snd].
    rewrite line_length_spec; auto; try lia. 2:{ apply term_has_nl. exact T. }
    fold x. replace (i + 1 - 1) with i by lia. rewrite El. cbn [bind]. specialize (Hm eq_refl).
    rewrite C1 in *. unfold nth_line in *. replace (i + 1 - 1) with i in * by lia. rewrite (nth_error_nth _ _ [] El) in *.
    assert (0 < length l) by (destruct l; [congruence|simpl; lia]).
    exists i, l, (length l). repeat split; auto. rewrite line_offset_loff. replace (i + 1 - 1) with i by lia. lia.
  - unfold nav_begin. cbn [fst snd]. pose proof xpos as X. destruct (goes_at 0 X) as (i' & l' & (El' & _) & D2 & D3 & D4).
    exists i', l', (0 - loff x i' + 1). rewrite <- begin_coords, D2. cbn [cc].
    rewrite <- D2, begin_coords. unfold BEGIN. cbn [cc].
    assert (byte_col x 0 = 1) as B by reflexivity. rewrite B in *.
    repeat split; auto.
  - unfold nav_end. rewrite max_coord_ok. cbn [bind fst snd]. pose proof xpos as X.
    destruct (goes_at (length x - 1)) as (i' & l' & (El' & _) & D2 & D3 & D4); [lia|].
    exists i', l', (length x - 1 - loff x i' + 1). rewrite D2. cbn [cc]. rewrite <- D3. repeat split; auto. lia.
Qed.

Lemma move_ok d ext s : placed x s -> (at_edge d (s_cursor s) -> settled x s) -> motion_ok x d (s_cursor s) ->
  let r := motion_spec x d (s_cursor s) (s_target s) in
  sel_move G t d ext s = Ok (mkSel (if ext then s_anchor s else fst r) (fst r) (snd r)) /\
  settled x (mkSel (if ext then s_anchor s else fst r) (fst r) (snd r)).
Proof.
  intros (Ho & Ht) Es Hm r.
  destruct (nav_goes_ok d (s_cursor s) (s_target s) Ho Ht (fun E => proj2 (proj2 (Es E))) Hm) as (i & l & c & E & El & Hp & Ef). fold r in E, Hp, Ef.
  split.
  - unfold sel_move. rewrite nav_coords by auto. cbn [bind]. rewrite navigate_ok by auto. cbn [bind unwrap n_cur].
    rewrite E. cbn [bind]. destruct (pos_ok i l c (snd r) El Hp) as (p & -> & Ep). cbn [bind n_target]. rewrite Ep, <- Ef. reflexivity.
  - pose proof (term_line x i l T El) as [TL _].
    unfold settled. cbn [s_cursor s_target]. split; [rewrite Ef; lia|]. split; auto.
    assert (on_line x (fst r) i l) as Hl by (repeat split; auto; lia).
    destruct (on_line_coords _ _ _ _ Hl) as (C1 & _). rewrite C1, (clamp_on i l) by auto. exact Ef.
Qed.

(** the motions need no settled cursor, only one inside the text *)
Lemma edge_any o tg : o < length x -> 0 < tg -> exists i l c, mkNav (coords_at x o) tg = mkNav (mkC (i + 1) c) tg /\ nth_error (lines_of x) i = Some l /\ 0 < tg.
Proof.
  intros Ho Ht. destruct (on_line_ex x o Ho) as (i & l & Hl). exists i, l, (o - loff x i + 1). rewrite (coords_at_on _ _ _ _ Hl). split; auto. split; auto. apply Hl.
Qed.
Lemma nav_any d o tg : o < length x -> 0 < tg -> motion_ok x d o ->
  exists i l c tg', nav_move G t d (mkNav (coords_at x o) tg) = Ok (mkNav (mkC (i + 1) c) tg') /\ nth_error (lines_of x) i = Some l /\ 0 < tg'.
Proof.
  intros Ho Ht Hm. destruct (on_line_ex x o Ho) as (i & l & Hl). pose proof (on_line_coords _ _ _ _ Hl) as (C1 & C2 & C3 & _). pose proof Hl as (El & Hr & _).
  assert (i < length (lines_of x)) as Li by (apply nth_error_Some; congruence).
  destruct d; cbn [nav_move].
  - rewrite nav_previous_ok by auto. destruct (o =? 0) eqn:E.
    + destruct (edge_any o tg Ho Ht) as (i' & l' & c & -> & X). exists i', l', c, tg. auto.
    + apply Nat.eqb_neq in E. destruct (edge_any (o - 1) (byte_col x (o - 1))) as (i' & l' & c & -> & X); [lia|unfold byte_col; lia|]. exists i', l', c. eauto.
  - rewrite nav_next_ok by auto. destruct (o =? length x - 1) eqn:E.
    + destruct (edge_any o tg Ho Ht) as (i' & l' & c & -> & X). exists i', l', c, tg. auto.
    + apply Nat.eqb_neq in E. destruct (edge_any (o + 1) (byte_col x (o + 1))) as (i' & l' & c & -> & X); [lia|unfold byte_col; lia|]. exists i', l', c. eauto.
  - unfold nav_previous_line. rewrite (coords_at_on _ _ _ _ Hl). cbn [n_cur n_target cl cc]. destruct (1 <? i + 1) eqn:E.
    + apply Nat.ltb_lt in E. destruct (lines_nth_ex x (i - 1)) as (lp & Ep); [lia|].
      exists (i - 1), lp, (o - loff x i + 1), tg. replace (i + 1 - 1) with (i - 1 + 1) by lia. auto.
    + exists i, l, (o - loff x i + 1), tg. auto.
  - unfold nav_next_line. rewrite line_count_spec by (auto; apply term_nonempty, T). cbn [bind]. fold x. rewrite (coords_at_on _ _ _ _ Hl). cbn [n_cur n_target cl cc].
    destruct (i + 1 <? length (lines_of x)) eqn:E.
    + apply Nat.ltb_lt in E. destruct (lines_nth_ex x (S i)) as (lp & Ep); [lia|].
      exists (S i), lp, (o - loff x i + 1), tg. replace (i + 1 + 1) with (S i + 1) by lia. auto.
    + exists i, l, (o - loff x i + 1), tg. auto.
  - unfold nav_line_begin. rewrite (coords_at_on _ _ _ _ Hl). cbn [n_cur cl]. exists i, l, 1, 1. auto.
  - unfold nav_line_end. rewrite (coords_at_on _ _ _ _ Hl). cbn [n_cur cl]. rewrite line_length_spec; auto; try lia. 2:{ apply term_has_nl. exact T. }
    fold x. replace (i + 1 - 1) with i by lia. rewrite El. cbn [bind]. specialize (Hm eq_refl).
    rewrite C1 in *. unfold nth_line in *. replace (i + 1 - 1) with i in * by lia. rewrite (nth_error_nth _ _ [] El) in *.
    assert (0 < length l) by (destruct l; [congruence|simpl; lia]). exists i, l, (length l), (length l). auto.
  - unfold nav_begin. rewrite <- begin_coords. cbn [BEGIN cc]. pose proof xpos as X. destruct (edge_any 0 1 X) as (i' & l' & c & E & Y); [lia|].
    exists i', l', c, 1. split; auto. f_equal. exact E.
  - unfold nav_end. rewrite max_coord_ok. cbn [bind]. pose proof xpos as X. destruct (goes_at (length x - 1)) as (i' & l' & (El' & _) & D2 & D3 & D4); [lia|].
    rewrite D2. cbn [cc]. exists i', l', (length x - 1 - loff x i' + 1), (length x - 1 - loff x i' + 1). repeat split; auto. lia.
Qed.
Lemma move_total d ext s : s_cursor s < length x -> 0 < s_target s -> motion_ok x d (s_cursor s) ->
  exists s', sel_move G t d ext s = Ok s' /\ settled x s' /\ s_anchor s' = if ext then s_anchor s else s_cursor s'.
Proof.
  intros Ho Ht Hm. destruct (nav_any d (s_cursor s) (s_target s) Ho Ht Hm) as (i & l & c & tg & E & El & Hp).
  unfold sel_move. rewrite nav_coords by auto. cbn [bind]. rewrite navigate_ok by auto. cbn [bind unwrap n_cur]. rewrite E. cbn [bind].
  destruct (pos_ok i l c tg El Hp) as (p & -> & Ep). cbn [bind n_target]. eexists. split; [reflexivity|]. cbn [s_anchor s_cursor]. split; auto.
  pose proof (term_line x i l T El) as [TL _]. unfold settled. cbn [s_cursor s_target]. rewrite Ep. split; [lia|]. split; auto.
  assert (on_line x (loff x i + min (length l) (tg - 1)) i l) as Hl by (repeat split; auto; lia).
  destruct (on_line_coords _ _ _ _ Hl) as (C1 & _). rewrite C1, (clamp_on i l) by auto. reflexivity.
Qed.
End Ascii.
