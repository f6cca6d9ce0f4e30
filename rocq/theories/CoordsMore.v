(** More proofs: graphemes, round trips, line listing, longest line; reachable documents. *)
From Coq Require Import String List Arith Lia Bool.
From Verif Require Import Base ListFacts PieceTable PieceTableSpec PieceTableFacts PieceTableEdits PieceTableDelete
  History HistoryFacts Coords LineSpec LineFacts CoordsFacts.
Import ListNotations.

(** [t] is a document obtained from a non-empty text by public editing calls, and [x] is what its text
    must be. *)
Definition edited_doc (t : pt) (x : text) : Prop :=
  exists pol s es, s <> [] /\ pt_edits pol es (pt_with_text s) = Ok t /\ x = s_edits es s /\
    ((policy_wrap pol /\ Forall edit_ok es) \/ (policy_succ pol /\ edits_ok delete_inside es s)).

Lemma edited_doc_acc t x : edited_doc t x -> acc t /\ txt t = x.
Proof.
  intros (pol & s & es & Hs & E & -> & H). destruct (sim_init s Hs) as [S N].
  assert (exists t', pt_edits pol es (pt_with_text s) = Ok t' /\ sim t' (fold_left (fun d e => d_edit e d) es (d_init s)) /\
    txt t' = s_edits es s /\ nl_ok t') as (t' & E' & S' & T' & N').
  { destruct H as [[P F]|[P F]].
    - destruct (edits_sim pol any_edit es (pt_with_text s) (d_init s)) as (t' & ? & ? & ? & ?); eauto 10 using edits_ok_any.
      intros. now apply edit_fine_wrap.
    - destruct (edits_sim pol delete_inside es (pt_with_text s) (d_init s)) as (t' & ? & ? & ? & ?); eauto 10.
      intros. now apply edit_fine_inside. }
  rewrite E in E'. inversion E'; subst t'. split; auto. split; auto. apply S'.
Qed.

Lemma edited_doc_init s : s <> [] -> edited_doc (pt_with_text s) s.
Proof. intro H. exists pol_wrap, s, []. split; auto. split; auto. split; auto. left. split; [apply pol_wrap_ok|constructor]. Qed.

(** ** graphemes of a line *)
Lemma graphemes_nth G s k : nth_error (graphemes G s) k =
  match nth_error (gstarts G s) k with
  | Some b => first_grapheme G (skipn b s)
  | None => None
  end.
Proof.
  assert (forall k s b, nth_error (cut (glens G s) s) k =
    match nth_error (starts_from b (glens G s)) k with
    | Some o => first_grapheme G (skipn (o - b) s) | None => None end) as H.
  { clear. induction k as [|k IH]; intros s b; destruct (glens G s) as [|n r] eqn:E; simpl; auto.
    - rewrite Nat.sub_diag. simpl. unfold first_grapheme. now rewrite E.
    - rewrite (g_step G s n r E). rewrite (IH (skipn n s) (b + n)).
      destruct (nth_error (starts_from (b + n) (glens G (skipn n s))) k) as [o|] eqn:X; auto.
      assert (b + n <= o).
      { apply nth_error_In in X. apply starts_from_bounds in X; [lia|apply g_pos]. }
      rewrite skipn_skipn. do 2 f_equal. lia. }
  unfold graphemes, gstarts. rewrite (H k s 0). destruct (nth_error (starts_from 0 (glens G s)) k); auto. now rewrite Nat.sub_0_r.
Qed.
Lemma graphemes_length G s : length (graphemes G s) = gcount G s.
Proof.
  unfold graphemes, gcount. generalize (glens G s) as L. intro L. revert s. induction L; simpl; auto.
Qed.

(** ** str::lines *)
Lemma str_lines_acc_nolf a l : nolf l -> str_lines_acc a l = match rev a ++ l with [] => [] | x => [x] end.
Proof.
  intro H. revert a. induction H as [|x l Hx Hl IH]; intro a; simpl.
  - rewrite app_nil_r. destruct a as [|y a]; auto. destruct (rev (y :: a)) eqn:E; auto.
    apply (f_equal (@length nat)) in E. rewrite rev_length in E. discriminate.
  - apply Nat.eqb_neq in Hx. rewrite Hx, IH. simpl. rewrite <- app_assoc. reflexivity.
Qed.
Lemma str_lines_acc_cons a l r : nolf l -> str_lines_acc a (l ++ LF :: r) = strip_cr (rev a ++ l) :: str_lines_acc [] r.
Proof.
  intro H. revert a. induction H as [|x l Hx Hl IH]; intro a; simpl.
  - now rewrite app_nil_r.
  - apply Nat.eqb_neq in Hx. rewrite Hx, IH. simpl. rewrite <- app_assoc. reflexivity.
Qed.
Lemma str_lines_length s : length (str_lines s) = length (lines_of s).
Proof.
  unfold str_lines. induction s as [|l Hn Hl|l r Hl IH] using lines_ind; auto.
  - rewrite str_lines_acc_nolf, lines_nolf by auto. destruct l; [congruence|reflexivity].
  - rewrite str_lines_acc_cons, lines_cons by auto. simpl. auto.
Qed.
Lemma strip_cr_id l : ~ In 13 l -> strip_cr l = l.
Proof.
  intro H. unfold strip_cr. destruct (rev l) as [|x r] eqn:E; auto.
  assert (x <> 13). { intros ->. apply H. apply in_rev. rewrite E. now left. }
  do 13 (destruct x as [|x]; auto). destruct x; auto. lia.
Qed.
Lemma str_lines_nocr s : ~ In 13 s -> str_lines s = lines_of s.
Proof.
  unfold str_lines. revert s. apply (lines_ind (fun s => ~ In 13 s -> str_lines_acc [] s = lines_of s)).
  - reflexivity.
  - intros l Hn Hl _. rewrite str_lines_acc_nolf, lines_nolf by auto. destruct l; [congruence|reflexivity].
  - intros l r Hl IH H. rewrite str_lines_acc_cons, lines_cons by auto. simpl.
    rewrite strip_cr_id, IH; auto; intro X; apply H; apply in_or_app; simpl; auto.
Qed.

(** ** longest line *)
Definition best_of (t : pt) (lens : nat -> nat) (ks : list nat) (b : nat * nat) : nat * nat :=
  fold_left (fun best i => if snd best <? lens i then (i, lens i) else best) ks b.

Lemma foldM_ok {A B} (f : B -> A -> res B) (g : B -> A -> B) l b :
  (forall b x, In x l -> f b x = Ok (g b x)) -> foldM f l b = Ok (fold_left g l b).
Proof.
  revert b. induction l as [|x r IH]; simpl; intros b H; auto. rewrite H by auto. cbn [bind]. apply IH. auto.
Qed.

Lemma best_spec (lens : nat -> nat) ks : forall b,
  let r := fold_left (fun best i => if snd best <? lens i then (i, lens i) else best) ks b in
  snd b <= snd r /\ (forall i, In i ks -> lens i <= snd r) /\
  (r = b \/ (In (fst r) ks /\ snd r = lens (fst r) /\ snd b < snd r)).
Proof.
  induction ks as [|k ks IH]; intros b; cbv zeta; simpl; [split; [lia|split; [tauto|now left]]|].
  specialize (IH (if snd b <? lens k then (k, lens k) else b)). cbv zeta in IH.
  set (r := fold_left _ ks _) in *. clearbody r. destruct IH as (I1 & I2 & I3).
  destruct (snd b <? lens k) eqn:E; [apply Nat.ltb_lt in E|apply Nat.ltb_ge in E]; simpl in *.
  - repeat split; try lia.
    + intros i [<-|H]; auto.
    + right. destruct I3 as [->|(H1 & H2 & H3)]; simpl; auto. repeat split; auto; lia.
  - repeat split; auto.
    + intros i [<-|H]; auto. lia.
    + destruct I3 as [->|(H1 & H2 & H3)]; auto.
Qed.

Lemma line_length_first t : acc t -> newline_positions (txt t) = [] -> forall n, pt_line_length t n = Ok (length (txt t)).
Proof. intros [W N] H n. unfold pt_line_length. rewrite N, H. now rewrite pt_len_txt. Qed.

Lemma nl_nil_nolf s : newline_positions s = [] -> nolf s.
Proof.
  intro H. unfold nolf. rewrite Forall_forall. intros x Hx E. subst x. apply In_nth_error in Hx. destruct Hx as [i Hi].
  apply newline_positions_In in Hi. rewrite H in Hi. destruct Hi.
Qed.

Lemma longest_line_spec t : acc t -> txt t <> [] ->
  exists i m, pt_longest_line t = Ok (i, m) /\ (forall l, In l (lines_of (txt t)) -> length l <= m) /\
    ((i = 0 /\ m = 0) \/ (0 < i /\ 0 < m /\ exists l, nth_error (lines_of (txt t)) (i - 1) = Some l /\ length l = m)).
Proof.
  intros A Hs. set (s := txt t) in *.
  set (lens := fun n => match nth_error (lines_of s) (n - 1) with Some l => length l | None => 0 end).
  assert (forall n, In n (seq 1 (length (newline_positions s) + 1)) -> pt_line_length t n = Ok (lens n)) as H.
  { intros n Hn. apply in_seq in Hn. unfold lens. destruct (newline_positions s) as [|v vs] eqn:E.
    - simpl in Hn. assert (n = 1) as -> by lia. rewrite line_length_first by auto. fold s.
      rewrite lines_nolf by (auto using nl_nil_nolf). reflexivity.
    - rewrite line_length_spec; auto; try lia. fold s. congruence. }
  unfold pt_longest_line. rewrite (proj2 A). fold s.
  rewrite (foldM_ok _ (fun best i => if snd best <? lens i then (i, lens i) else best)).
  2:{ intros b n Hn. rewrite H by auto. reflexivity. }
  destruct (best_spec lens (seq 1 (length (newline_positions s) + 1)) (0, 0)) as (B1 & B2 & B3).
  set (r := fold_left _ _ _) in *. clearbody r. exists (fst r), (snd r). split; [now destruct r|].
  split.
  - intros l Hl. apply In_nth_error in Hl. destruct Hl as [k Hk].
    assert (k < length (lines_of s)) as Hkk by (apply nth_error_Some; congruence).
    assert (length (lines_of s) <= S (length (newline_positions s))) as LC.
    { rewrite lines_count, nl_len. destruct (terminated s); [lia|]. destruct s; lia. }
    specialize (B2 (S k)). unfold lens in B2. simpl Nat.sub in B2. rewrite Nat.sub_0_r, Hk in B2.
    apply B2. apply in_seq. lia.
  - destruct B3 as [->|(H1 & H2 & H3)]; [left; auto|right]. simpl in H3. apply in_seq in H1.
    split; [lia|]. split; [lia|]. unfold lens in H2.
    destruct (nth_error (lines_of s) (fst r - 1)) as [l|]; [eauto|lia].
Qed.

(** ** coordinates of graphemes *)
Lemma grapheme_offset_to_coord G t i l k b : acc t -> nth_error (lines_of (txt t)) i = Some l ->
  nth_error (gstarts G l) k = Some b -> 0 < i \/ k = b ->
  pt_offset_to_coord G t (loff (txt t) i + b) = Ok (Some (mkC (i + 1) (k + 1))) /\
  pt_coord_to_offset G t (mkC (i + 1) (k + 1)) = Ok (Some (loff (txt t) i + b)).
Proof.
  intros A El Eb Hi. pose proof (gstarts_lt G l b (nth_error_In _ _ Eb)) as Hb.
  destruct (lines_facts _ _ _ El) as (F1 & F2 & F3 & F4).
  split.
  - destruct (offset_to_coord_spec G t (loff (txt t) i + b) A) as (i' & l' & El' & Hr & Ei & Es & En & E); [lia|].
    assert (i' = i) as ->.
    { (* the line containing the offset is i *)
      assert (forall j lj, nth_error (lines_of (txt t)) j = Some lj -> loff (txt t) (S j) = loff (txt t) j + length lj + 1) as LS
        by (intros; now apply loff_S).
      assert (forall a c, a <= c -> loff (txt t) a <= loff (txt t) c) as Mono.
      { clear. intros a c H. induction H; auto. etransitivity; [exact IHle|].
        destruct (nth_error (lines_of (txt t)) m) as [lm|] eqn:E.
        - rewrite (loff_S _ _ _ E). lia.
        - apply nth_error_None in E. unfold loff. rewrite !firstn_all2 by lia. lia. }
      destruct (Nat.lt_trichotomy i' i) as [X|[X|X]]; auto; exfalso.
      - specialize (Mono (S i') i X). rewrite (LS i' l' El') in Mono. lia.
      - specialize (Mono (S i) i' X). rewrite (LS i l El) in Mono. lia. }
    rewrite El in El'. inversion El'; subst l'. rewrite E. f_equal. f_equal. f_equal. unfold col_on_line.
    replace (loff (txt t) i + b - loff (txt t) i) with b by lia.
    replace (b =? length l) with false by (symmetry; apply Nat.eqb_neq; lia).
    destruct (i =? 0) eqn:E0.
    + apply Nat.eqb_eq in E0. lia.
    + rewrite (filter_lt_nth _ b (gstarts_sset G l) k) by auto. lia.
  - rewrite (coord_to_offset_spec G t _ l); simpl; auto; try lia.
    2:{ now replace (i + 1 - 1) with i by lia. }
    replace (i + 1 - 1) with i by lia. replace (k + 1 - 1) with k by lia.
    assert (k < gcount G l). { rewrite <- gstarts_length. apply nth_error_Some. congruence. }
    replace (k + 1 =? gcount G l + 1) with false by (symmetry; apply Nat.eqb_neq; lia).
    replace (k + 1 =? 0) with false by (symmetry; apply Nat.eqb_neq; lia). now rewrite Eb.
Qed.

(** the character at the coordinates of the k-th grapheme of line i *)
Lemma char_at_grapheme G t i l k g : acc t -> nth_error (lines_of (txt t)) i = Some l ->
  nth_error (graphemes G l) k = Some g ->
  pt_char_at G t (mkC (i + 1) (k + 1)) = Ok (Some g).
Proof.
  intros A El Eg. rewrite graphemes_nth in Eg. destruct (nth_error (gstarts G l) k) as [b|] eqn:Eb; [|discriminate].
  pose proof (gstarts_lt G l b (nth_error_In _ _ Eb)) as Hb.
  destruct (lines_facts _ _ _ El) as (F1 & F2 & F3 & F4).
  unfold pt_char_at. rewrite (coord_to_offset_spec G t _ l); simpl; auto; try lia.
  2:{ now replace (i + 1 - 1) with i by lia. }
  replace (i + 1 - 1) with i by lia. replace (k + 1 - 1) with k by lia.
  assert (k < gcount G l). { rewrite <- gstarts_length. apply nth_error_Some. congruence. }
  replace (k + 1 =? gcount G l + 1) with false by (symmetry; apply Nat.eqb_neq; lia).
  replace (k + 1 =? 0) with false by (symmetry; apply Nat.eqb_neq; lia). rewrite Eb. cbn [bind].
  destruct (char_at_offset_spec G t (loff (txt t) i + b) A) as (i' & l' & El' & Hr & Ei & En & E); [lia|].
  assert (i' = i) as ->.
  { assert (forall a c, a <= c -> loff (txt t) a <= loff (txt t) c) as Mono.
    { clear. intros a c H. induction H; auto. etransitivity; [exact IHle|].
      destruct (nth_error (lines_of (txt t)) m) as [lm|] eqn:E.
      - rewrite (loff_S _ _ _ E). lia.
      - apply nth_error_None in E. unfold loff. rewrite !firstn_all2 by lia. lia. }
    destruct (Nat.lt_trichotomy i' i) as [X|[X|X]]; auto; exfalso.
    - specialize (Mono (S i') i X). rewrite (loff_S _ i' l' El') in Mono. lia.
    - specialize (Mono (S i) i' X). rewrite (loff_S _ i l El) in Mono. lia. }
  rewrite El in El'. inversion El'; subst l'. rewrite E. cbn [bind].
  replace (loff (txt t) i + b =? loff (txt t) i + length l) with false by (symmetry; apply Nat.eqb_neq; lia).
  replace (loff (txt t) i + b - loff (txt t) i) with b by lia. rewrite Eg. reflexivity.
Qed.

(** the newline of a terminated line *)
Lemma char_at_newline G t i l : acc t -> nth_error (lines_of (txt t)) i = Some l ->
  loff (txt t) i + length l < length (txt t) ->
  pt_char_at G t (mkC (i + 1) (gcount G l + 1)) = Ok (Some [LF]).
Proof.
  intros A El Hlt. destruct (lines_facts _ _ _ El) as (F1 & F2 & F3 & F4).
  unfold pt_char_at. rewrite (coord_to_offset_spec G t _ l); simpl; auto; try lia.
  2:{ now replace (i + 1 - 1) with i by lia. }
  replace (i + 1 - 1) with i by lia. rewrite Nat.eqb_refl. cbn [bind].
  destruct F4 as [F4|(F4 & F5 & _)]; [|lia].
  destruct (char_at_offset_spec G t (loff (txt t) i + length l) A) as (i' & l' & El' & Hr & Ei & En & E); [lia|].
  assert (nth_error (txt t) (loff (txt t) i + length l) = Some LF) as X.
  { apply newline_positions_In. eapply nth_error_In; eauto. }
  apply En in X. rewrite E. rewrite <- X, Nat.eqb_refl. cbn [bind]. rewrite first_grapheme_lf. reflexivity.
Qed.
