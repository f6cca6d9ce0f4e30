(** C16-C20: cursor motions and selections in every edited ASCII document ending with a newline; C21, C22 for one
    buffer.  [edited_doc t x]: the piece table [t] was built from a non-empty text by public edits, whose effect on
    the plain string is [x].  [settled x s]: the cursor is on a byte, at its remembered column or on the newline of a
    line too short for it; it holds of a fresh selection and motions keep it (C19). *)
From Coq Require Import String List Arith Lia Bool.
From Verif Require Import Base ListFacts PieceTable PieceTableSpec PieceTableFacts PieceTableEdits PieceTableDelete
  History HistoryFacts Coords LineSpec LineFacts CoordsFacts CoordsMore GraphemeInst Utf8 DiffApply PropCoords
  Selection NavSpec NavFacts.
Import ListNotations.

Ltac nav D As T := let A := fresh "A" in let N := fresh "N" in destruct (edited_doc_acc _ _ D) as [A ?]; subst;
  pose proof (proj1 (term_nonempty _ T)) as N.

Lemma settled_placed x s : settled x s -> placed x s.
Proof. intros (A & B & _). split; auto. Qed.
Lemma move_step_any G t x s d ext : edited_doc t x -> ascii x -> terminated x = true -> placed x s -> (d = MLeft -> s_cursor s = 0 -> settled x s) ->
  (d = MRight -> s_cursor s = length x - 1 -> settled x s) -> motion_ok x d (s_cursor s) ->
  let r := motion_spec x d (s_cursor s) (s_target s) in
  exists s', sel_move G t d ext s = Ok s' /\ settled x s' /\ s_cursor s' = fst r /\ s_target s' = snd r /\
    s_anchor s' = if ext then s_anchor s else s_cursor s'.
Proof.
  intros D As T P El Er M r. nav D As T. destruct (move_ok G t A As N T d ext s P) as [E S']; [intros [[X Y]|[X Y]]; auto|exact M|].
  eexists. split; [exact E|]. split; [exact S'|]. cbn [s_cursor s_target s_anchor]. auto.
Qed.
Lemma move_step G t x s d ext : edited_doc t x -> ascii x -> terminated x = true -> settled x s ->
  motion_ok x d (s_cursor s) ->
  let r := motion_spec x d (s_cursor s) (s_target s) in
  exists s', sel_move G t d ext s = Ok s' /\ settled x s' /\ s_cursor s' = fst r /\ s_target s' = snd r /\
    s_anchor s' = if ext then s_anchor s else s_cursor s'.
Proof.
  intros D As T S M r. apply move_step_any; auto using settled_placed.
Qed.

Lemma settled_new x : terminated x = true -> settled x sel_new.
Proof.
  intro T. destruct (term_nonempty x T) as [N L]. unfold settled, sel_new. cbn [s_cursor s_target].
  split; [lia|]. split; [lia|]. unfold clamp_col. simpl. lia.
Qed.

(** ** C16 *)
(** every cursor on a byte; at the very end the remembered column must be that of the cursor *)
Theorem C16_right_partial : forall G t x s ext, edited_doc t x -> ascii x -> terminated x = true -> placed x s -> (s_cursor s = length x - 1 -> settled x s) ->
  exists s', sel_move G t MRight ext s = Ok s' /\ s_cursor s' = min (s_cursor s + 1) (length x - 1) /\
    s_anchor s' = if ext then s_anchor s else s_cursor s'.
Proof.
  intros G t x s ext D As T S Ed. destruct (move_step_any G t x s MRight ext D As T S) as (s' & E & _ & Ec & _ & Ea); [discriminate|auto|discriminate|].
  exists s'. split; [exact E|]. split; [|exact Ea]. rewrite Ec. simpl. destruct S as (L & _).
  destruct (s_cursor s =? length x - 1) eqn:Q; simpl; [apply Nat.eqb_eq in Q|apply Nat.eqb_neq in Q]; lia.
Qed.
Print Assumptions C16_right_partial.

Theorem C16_left_partial : forall G t x s ext, edited_doc t x -> ascii x -> terminated x = true -> placed x s -> (s_cursor s = 0 -> settled x s) ->
  exists s', sel_move G t MLeft ext s = Ok s' /\ s_cursor s' = s_cursor s - 1 /\
    s_anchor s' = if ext then s_anchor s else s_cursor s'.
Proof.
  intros G t x s ext D As T S Ed. destruct (move_step_any G t x s MLeft ext D As T S) as (s' & E & _ & Ec & _ & Ea); [auto|discriminate|discriminate|].
  exists s'. split; [exact E|]. split; [|exact Ea]. rewrite Ec. simpl.
  destruct (s_cursor s =? 0) eqn:Q; simpl; [apply Nat.eqb_eq in Q|apply Nat.eqb_neq in Q]; lia.
Qed.
Print Assumptions C16_left_partial.

(** k moves to the right from offset o *)
Theorem C16_rights_partial : forall G t x s ext k, edited_doc t x -> ascii x -> terminated x = true -> settled x s ->
  exists s', sel_moves G t (repeat (MRight, ext) k) s = Ok s' /\ s_cursor s' = min (s_cursor s + k) (length x - 1).
Proof.
  intros G t x s ext k D As T. revert s. induction k as [|k IH]; intros s S.
  - exists s. split; auto. destruct S as (L & _). lia.
  - destruct (move_step G t x s MRight ext D As T S) as (s1 & E & S1 & Ec & _ & Ea); [discriminate|].
    destruct (IH s1 S1) as (s' & E' & Ec'). exists s'. unfold sel_moves in *. simpl. rewrite E. cbn [bind]. rewrite E'. split; auto.
    rewrite Ec', Ec. simpl. destruct S as (L & _).
    destruct (s_cursor s =? length x - 1) eqn:Q; simpl; [apply Nat.eqb_eq in Q|apply Nat.eqb_neq in Q]; lia.
Qed.
Print Assumptions C16_rights_partial.

(** with a remembered column that does not match the cursor, as delete-selection leaves it, moving right from
    the last byte goes left: "ab\ncd\nef\n", selection 0..4, deleted, then right *)
Theorem C16_after_delete_refuted : exists x s t' s',
  ascii x /\ settled x s /\ sel_inside x s /\
  buffer_delete utf8_graphemes pol_wrap (pt_with_text x) [s] = Ok ([selected x s], t', [s']) /\
  pt_len t' = 4 /\ s_cursor s' = 3 /\
  (s'' <- sel_move utf8_graphemes t' MRight false s' ;; Ok (s_cursor s'')) = Ok 2.
Proof.
  exists [97;98;10;99;100;10;101;102;10], (mkSel 0 4 2). eexists. eexists.
  split; [repeat constructor; lia|]. split; [repeat split; vm_compute; auto; lia|]. split; [split; simpl; lia|].
  split; [vm_compute; reflexivity|]. repeat split; vm_compute; reflexivity.
Qed.
Print Assumptions C16_after_delete_refuted.

(** ** C17 *)
Definition vertical (m : motion * bool) : Prop := fst m = MUp \/ fst m = MDown.
(** the line reached by vertical moves *)
Definition v_step (x : text) (n : nat) (m : motion * bool) : nat :=
  match fst m with MUp => line_up n | MDown => line_down x n | _ => n end.

Lemma line_of_clamp x n c : terminated x = true -> 0 < n <= length (lines_of x) -> line_of_offset x (clamp_col x n c) = n.
Proof.
  intros T H. destruct (lines_nth_ex x (n - 1)) as (l & El); [lia|]. pose proof (term_line x _ l T El) as [TL _].
  assert (on_line x (clamp_col x n c) (n - 1) l) as Hl.
  { unfold clamp_col, nth_line. rewrite line_offset_loff, (nth_error_nth _ _ [] El). repeat split; auto; lia. }
  destruct (on_line_coords _ _ _ _ Hl) as (C1 & _). lia.
Qed.
Lemma line_in x o : o < length x -> 0 < line_of_offset x o <= length (lines_of x).
Proof.
  intro H. destruct (on_line_ex x o H) as (i & l & Hl). destruct (on_line_coords _ _ _ _ Hl) as (C1 & _).
  destruct Hl as (El & _). assert (i < length (lines_of x)) by (apply nth_error_Some; congruence). lia.
Qed.

(** from any cursor on a byte; without any move the cursor stays, which is its place if it is settled *)
Theorem C17_vertical : forall G t x s ms, edited_doc t x -> ascii x -> terminated x = true -> placed x s ->
  Forall vertical ms -> ms <> [] \/ settled x s ->
  let n := fold_left (v_step x) ms (line_of_offset x (s_cursor s)) in
  exists s', sel_moves G t ms s = Ok s' /\ s_target s' = s_target s /\
    line_of_offset x (s_cursor s') = n /\ s_cursor s' = clamp_col x n (s_target s).
Proof.
  intros G t x s ms D As T S F. revert s S. induction F as [|m ms V F IH]; intros s S Ne n.
  - exists s. subst n. simpl. destruct Ne as [Ne|(L & P & E)]; [congruence|]. repeat split; auto.
  - destruct (move_step_any G t x s (fst m) (snd m) D As T S) as (s1 & E & S1 & Ec & Et & _); try (intro X; destruct V; congruence).
    destruct (IH s1 (settled_placed _ _ S1) (or_intror S1)) as (s' & E' & Et' & El' & Ec').
    exists s'. unfold sel_moves in *. cbn [foldM]. rewrite E. cbn [bind].
    assert (s_target s1 = s_target s) as Tg. { rewrite Et. destruct V as [-> | ->]; reflexivity. }
    assert (line_of_offset x (s_cursor s1) = v_step x (line_of_offset x (s_cursor s)) m) as Ln.
    { rewrite Ec. destruct S as (L & _). pose proof (line_in x _ L) as B.
      destruct m as [d e]; unfold vertical, v_step in *; simpl in *; destruct V as [-> | ->]; simpl; apply line_of_clamp; auto;
        unfold line_up, line_down; lia. }
    split; [exact E'|]. rewrite Tg in *. subst n. simpl. rewrite <- Ln. auto.
Qed.
Print Assumptions C17_vertical.

(** down k lines and back up returns to the same offset *)
Theorem C17_down_and_back : forall G t x s k, edited_doc t x -> ascii x -> terminated x = true -> settled x s ->
  line_of_offset x (s_cursor s) + k <= length (lines_of x) ->
  exists s', sel_moves G t (repeat (MDown, false) k ++ repeat (MUp, false) k) s = Ok s' /\ s_cursor s' = s_cursor s.
Proof.
  intros G t x s k D As T S Hk.
  destruct (C17_vertical G t x s (repeat (MDown, false) k ++ repeat (MUp, false) k) D As T (settled_placed _ _ S)) as (s' & E & Et & El & Ec); [|now right|].
  { apply Forall_app. split; apply Forall_forall; intros m Hm; apply repeat_spec in Hm; subst; unfold vertical; auto. }
  exists s'. split; auto. rewrite Ec. destruct S as (L & P & Es). rewrite Es at 2. f_equal.
  pose proof (line_in x _ L) as B.
  rewrite fold_left_app. set (n := line_of_offset x (s_cursor s)) in *. clearbody n.
  assert (forall k n, 0 < n -> n + k <= length (lines_of x) -> fold_left (v_step x) (repeat (MDown, false) k) n = n + k) as Dn.
  { clear. induction k as [|k IH]; intros n P H; simpl; [lia|]. rewrite IH; unfold v_step, line_down; simpl; lia. }
  assert (forall k n, 0 < n -> fold_left (v_step x) (repeat (MUp, false) k) (n + k) = n) as Up.
  { clear. induction k as [|k IH]; intros n P; simpl; [lia|].
    replace (v_step x (n + S k) (MUp, false)) with (n + k); [auto|]. change (n + k = Nat.max 1 (n + S k - 1)). lia. }
  rewrite Dn by lia. apply Up. lia.
Qed.
Print Assumptions C17_down_and_back.

(** "abc\n\nabc\n": column 3, through an empty line and back *)
Example C17_met : edited_doc (pt_with_text [97;98;99;10;10;97;98;99;10]) [97;98;99;10;10;97;98;99;10] /\
  ascii [97;98;99;10;10;97;98;99;10] /\ terminated [97;98;99;10;10;97;98;99;10] = true /\
  settled [97;98;99;10;10;97;98;99;10] (mkSel 2 2 3) /\
  clamp_col [97;98;99;10;10;97;98;99;10] 2 3 = 4 /\ clamp_col [97;98;99;10;10;97;98;99;10] 3 3 = 7.
Proof.
  split; [apply edited_doc_init; discriminate|]. split; [repeat constructor; lia|]. split; [reflexivity|].
  split; [repeat split; vm_compute; auto; lia|]. split; reflexivity.
Qed.

(** ** C18 *)
Theorem C18_begin : forall G t x s ext, edited_doc t x -> ascii x -> terminated x = true -> placed x s ->
  exists s', sel_move G t MBegin ext s = Ok s' /\ s_cursor s' = 0.
Proof.
  intros G t x s ext D As T S. destruct (move_step_any G t x s MBegin ext D As T S) as (s' & E & _ & Ec & _); try discriminate.
  exists s'. split; auto.
Qed.
Print Assumptions C18_begin.
Theorem C18_end : forall G t x s ext, edited_doc t x -> ascii x -> terminated x = true -> placed x s ->
  exists s', sel_move G t MEnd ext s = Ok s' /\ s_cursor s' = length x - 1.
Proof.
  intros G t x s ext D As T S. destruct (move_step_any G t x s MEnd ext D As T S) as (s' & E & _ & Ec & _); try discriminate.
  exists s'. split; auto.
Qed.
Print Assumptions C18_end.
Theorem C18_line_begin : forall G t x s ext, edited_doc t x -> ascii x -> terminated x = true -> placed x s ->
  exists s', sel_move G t MLineBegin ext s = Ok s' /\ s_cursor s' = line_start x (s_cursor s).
Proof.
  intros G t x s ext D As T S. destruct (move_step_any G t x s MLineBegin ext D As T S) as (s' & E & _ & Ec & _); try discriminate.
  exists s'. split; auto.
Qed.
Print Assumptions C18_line_begin.
(** line-end: the last byte before the newline of the current line, when there is one.  Missing: empty lines. *)
Theorem C18_line_end_partial : forall G t x s ext, edited_doc t x -> ascii x -> terminated x = true -> placed x s ->
  nth_line x (line_of_offset x (s_cursor s)) <> [] ->
  exists s', sel_move G t MLineEnd ext s = Ok s' /\
    line_of_offset x (s_cursor s') = line_of_offset x (s_cursor s) /\
    nth_error x (s_cursor s' + 1) = Some LF /\ nth_error x (s_cursor s') <> Some LF.
Proof.
  intros G t x s ext D As T S L. destruct (move_step_any G t x s MLineEnd ext D As T S) as (s' & E & _ & Ec & _); [discriminate|discriminate|intros _; exact L|].
  exists s'. split; auto. destruct S as (Ls & _).
  destruct (on_line_ex x _ Ls) as (i & l & Hl). pose proof (on_line_coords _ _ _ _ Hl) as (C1 & _). destruct Hl as (El & Hr & _).
  rewrite C1 in *. unfold nth_line, motion_spec in *. rewrite C1 in Ec. cbn [fst] in Ec. unfold nth_line in Ec.
  replace (i + 1 - 1) with i in * by lia. rewrite (nth_error_nth _ _ [] El) in *.
  rewrite line_offset_loff in Ec. replace (i + 1 - 1) with i in * by lia.
  assert (0 < length l) by (destruct l; [congruence|simpl; lia]). pose proof (term_line x i l T El) as [TL TN].
  assert (on_line x (s_cursor s') i l) as Hl' by (repeat split; auto; lia).
  destruct (on_line_coords _ _ _ _ Hl') as (D1 & _ & _ & D4).
  split; [exact D1|]. split.
  - rewrite Ec. replace (loff x i + (length l - 1) + 1) with (loff x i + length l) by lia. exact TN.
  - rewrite D4. lia.
Qed.
Print Assumptions C18_line_end_partial.

(** line-end on an empty line underflows *)
Theorem C18_line_end_refuted : exists x s, ascii x /\ terminated x = true /\ settled x s /\
  sel_move utf8_graphemes (pt_with_text x) MLineEnd false s = Panic "attempt to subtract with overflow".
Proof.
  exists [97;10;10;98;10], (mkSel 2 2 1). split; [repeat constructor; lia|]. split; [reflexivity|].
  split; [repeat split; vm_compute; auto; lia|]. vm_compute. reflexivity.
Qed.
Print Assumptions C18_line_end_refuted.

(** ** C19 *)
(** Missing: line-end on empty lines, documents with wide characters or without final newline (refuted below) *)
Theorem C19_moves_partial : forall G t x s ms, edited_doc t x -> ascii x -> terminated x = true -> settled x s ->
  (In MLineEnd (map fst ms) -> ~ In [] (lines_of x)) ->
  exists s', sel_moves G t ms s = Ok s' /\ s_cursor s' < length x /\ settled x s' /\
    (sel_inside x s -> sel_inside x s').
Proof.
  intros G t x s ms D As T. revert s. induction ms as [|m ms IH]; intros s S HE.
  - exists s. repeat split; auto; try apply S; apply H.
  - destruct (move_step G t x s (fst m) (snd m) D As T S) as (s1 & E & S1 & Ec & Et & Ea).
    { intros X Y. apply HE; [simpl; auto|]. destruct S as (L & _). pose proof (line_in x _ L) as B.
      destruct (lines_nth_ex x (line_of_offset x (s_cursor s) - 1)) as (l & El); [lia|].
      unfold nth_line in Y. rewrite (nth_error_nth _ _ [] El) in Y. subst l. eapply nth_error_In; eauto. }
    destruct (IH s1 S1) as (s' & E' & L' & S' & I'). { intro X. apply HE. simpl; auto. }
    exists s'. unfold sel_moves in *. cbn [foldM]. rewrite E. cbn [bind]. repeat split; auto; try apply S'.
    + apply I'. split; [|apply S1]. rewrite Ea. destruct (snd m); [apply H|apply S1].
Qed.
Print Assumptions C19_moves_partial.

(** from a freshly opened document *)
Theorem C19_from_start_partial : forall G t x ms, edited_doc t x -> ascii x -> terminated x = true ->
  (In MLineEnd (map fst ms) -> ~ In [] (lines_of x)) ->
  exists s', sel_moves G t ms sel_new = Ok s' /\ sel_inside x s'.
Proof.
  intros G t x ms D As T HE. destruct (C19_moves_partial G t x sel_new ms D As T (settled_new x T) HE) as (s' & E & _ & _ & I).
  exists s'. split; auto. apply I. destruct (term_nonempty x T). split; simpl; lia.
Qed.
Print Assumptions C19_from_start_partial.

(** a document of one byte: nothing moves (core.rs:532-535) *)
Theorem C19_single_byte : forall G t x d ext ss, edited_doc t x -> length x = 1 -> buffer_move G t d ext ss = Ok ss.
Proof.
  intros G t x d ext ss D L. destruct (edited_doc_acc _ _ D) as [[W _] E]. unfold buffer_move.
  rewrite pt_len_txt by auto. rewrite E, L. reflexivity.
Qed.
Print Assumptions C19_single_byte.

Theorem C19_line_end_refuted : exists x ms, ascii x /\ terminated x = true /\
  sel_moves utf8_graphemes (pt_with_text x) ms sel_new = Panic "attempt to subtract with overflow".
Proof. exists [97;10;10], [(MDown, false); (MLineEnd, false)]. split; [repeat constructor; lia|]. split; vm_compute; reflexivity. Qed.
Print Assumptions C19_line_end_refuted.
(** "abc\nd" without final newline: moving down from column 3 looks up a character that does not exist *)
Theorem C19_unterminated_refuted : exists x ms, ascii x /\
  sel_moves utf8_graphemes (pt_with_text x) ms sel_new = Panic "called Option::unwrap on None".
Proof. exists [97;98;99;10;100], [(MRight, false); (MRight, false); (MDown, false)]. split; [repeat constructor; lia|]. vm_compute. reflexivity. Qed.
Print Assumptions C19_unterminated_refuted.
(** with wide characters the cursor is sent to the middle of a character or nowhere *)
Theorem C19_unicode_refuted : exists x ms, terminated x = true /\
  sel_moves utf8_graphemes (pt_with_text x) ms sel_new = Panic "called Option::unwrap on None".
Proof.
  exists [97;10;195;169;10], [(MEnd, false); (MLeft, false); (MRight, false)]. split; [reflexivity|]. vm_compute. reflexivity.
Qed.
Print Assumptions C19_unicode_refuted.

(** ** C20 (any edited ASCII document, with or without final newline) *)
Theorem C20_range : forall G t x s, edited_doc t x -> ascii x -> sel_inside x s ->
  selection_range G t s = Ok (min (s_anchor s) (s_cursor s), max (s_anchor s) (s_cursor s) + 1).
Proof.
  intros G t x s D As [Ha Hc]. destruct (edited_doc_acc _ _ D) as [A E]. subst.
  apply selection_range_ok; auto. destruct (txt t); [simpl in Ha; lia|discriminate].
Qed.
Print Assumptions C20_range.

(** the direction of the selection does not matter *)
Theorem C20_direction : forall G t x a c g, edited_doc t x -> ascii x -> a < length x -> c < length x ->
  selection_range G t (mkSel a c g) = selection_range G t (mkSel c a g).
Proof.
  intros G t x a c g D As Ha Hc. rewrite !(C20_range G t x) by (auto; split; auto). cbn [s_anchor s_cursor].
  f_equal. f_equal; lia.
Qed.
Print Assumptions C20_direction.

Theorem C20_text : forall G t x s, edited_doc t x -> ascii x -> sel_inside x s ->
  exists b e, selection_range G t s = Ok (b, e) /\ pt_text_range t b (e - b) = Ok (Some (selected x s)).
Proof.
  intros G t x s D As I. exists (min (s_anchor s) (s_cursor s)), (max (s_anchor s) (s_cursor s) + 1).
  split; [now apply (C20_range G t x)|]. destruct (edited_doc_acc _ _ D) as [A E]. subst. destruct I as [Ha Hc].
  unfold pt_text_range. rewrite range_spec by apply A. cbn [bind].
  replace (min (s_anchor s) (s_cursor s) <? length (txt t)) with true by (symmetry; apply Nat.ltb_lt; lia).
  fold (selected (txt t) s). rewrite lossy_ascii; auto. unfold selected, slice. apply Forall_forall. intros b Hb.
  unfold ascii in As. rewrite Forall_forall in As. apply As.
  eapply slice_In. exact Hb.
Qed.
Print Assumptions C20_text.

(** an offset past the end of the buffer (see C22) is read as the start of the document *)
Theorem C20_outside_refuted : exists x s, ascii x /\ s_anchor s = length x /\
  selection_range utf8_graphemes (pt_with_text x) s = Ok (3, 1).
Proof. exists [97;98;99;100], (mkSel 4 3 1). repeat split; try (repeat constructor; lia). Qed.
Print Assumptions C20_outside_refuted.

(** ** C21, one buffer (see PropCore.v for the editor) *)

Lemma unselected_delete x s : unselected x s =
  s_delete (min (s_anchor s) (s_cursor s)) (max (s_anchor s) (s_cursor s) + 1 - min (s_anchor s) (s_cursor s)) x.
Proof. unfold unselected, s_delete. do 2 f_equal. lia. Qed.
Lemma unselected_length x s : sel_inside x s ->
  length (unselected x s) = length x - (max (s_anchor s) (s_cursor s) + 1 - min (s_anchor s) (s_cursor s)).
Proof. intros [Ha Hc]. unfold unselected. rewrite app_length, firstn_length, skipn_length. lia. Qed.

(** one deletion on the piece table, with the invariants later deletions need *)
Lemma delete_sel_step G pol t x s : acc t -> txt t = x -> ascii x -> sel_inside x s ->
  policy_wrap pol \/ (policy_succ pol /\ inner_or_all x s) ->
  exists t', delete_sels G pol [s] t = Ok ([selected x s], t') /\ txt t' = unselected x s /\ acc t'.
Proof.
  intros A E As I P. subst x. destruct I as [Ha Hc].
  assert (txt t <> []) as NE by (destruct (txt t); [simpl in Ha; lia|discriminate]).
  cbn [delete_sels]. rewrite selection_range_ok by auto. cbn [bind].
  set (b := min (s_anchor s) (s_cursor s)) in *. set (e := max (s_anchor s) (s_cursor s) + 1) in *.
  pose proof A as [W N]. pose proof W as ((C & _) & _).
  destruct (get_node_in 0 (t_pieces t) b C) as (pre & p & post & Gn).
  { rewrite <- txt_length by apply W. lia. }
  rewrite Gn. rewrite sub_ok by lia. cbn [bind]. unfold pt_text_range. rewrite range_spec by auto. cbn [bind].
  replace (b <? length (txt t)) with true by (symmetry; apply Nat.ltb_lt; lia).
  destruct (delete_ok pol b (e - b) t W) as (t' & Ed & W' & T' & N' & _); [lia| |].
  { destruct P as [P|[P [H|[H1 H2]]]].
    - right. now apply delete_fine_wrap.
    - right. apply delete_fine_inside; auto; [lia|]. left. fold e in H. lia.
    - left. fold b e in H1, H2. lia. }
  rewrite Ed. cbn [bind]. exists t'. split.
  - rewrite lossy_ascii; [reflexivity|]. apply Forall_forall. intros y Hy. unfold ascii in As. rewrite Forall_forall in As.
    apply As. eapply slice_In. exact Hy.
  - split; [|split; auto]. rewrite T', unselected_delete. reflexivity.
Qed.

Lemma txt_nil_empty t : wf t -> pt_is_empty t = match txt t with [] => true | _ => false end.
Proof.
  intro W. pose proof (txt_length t W) as L. destruct W as ((C & B) & W2). unfold pt_is_empty.
  destruct (t_pieces t) as [|p r] eqn:Ep.
  - unfold txt. rewrite Ep. reflexivity.
  - destruct (txt t); auto. simpl in L, C. rewrite total_cons in L. lia.
Qed.

Lemma buffer_delete_one G pol t x s : acc t -> txt t = x -> ascii x -> sel_inside x s ->
  policy_wrap pol \/ (policy_succ pol /\ inner_or_all x s) ->
  exists t' ss', buffer_delete G pol t [s] = Ok ([selected x s], t', ss') /\
    txt t' = match unselected x s with [] => [LF] | y => y end /\ acc t' /\
    ss' = [sel_clamp (length (txt t') - 1) s].
Proof.
  intros A E As I P. destruct (delete_sel_step G pol t x s A E As I P) as (t1 & E1 & T1 & A1).
  unfold buffer_delete. rewrite E1. cbn [bind]. rewrite txt_nil_empty by apply A1. rewrite T1.
  destruct (unselected x s) as [|y ys] eqn:Q.
  - destruct (append_spec [LF] t1 (proj1 A1)) as (t' & Ea & W' & T' & N' & _); [discriminate|].
    rewrite Ea. cbn [bind]. rewrite max_offset_spec by auto. cbn [bind]. exists t'. eexists. split; [reflexivity|].
    rewrite T', T1. unfold s_append. cbn [app]. split; auto. split; auto. split; auto. apply N', A1.
  - cbn [bind]. rewrite max_offset_spec by apply A1. cbn [bind]. exists t1. eexists. split; [reflexivity|]. split; [congruence|]. split; auto.
Qed.

Theorem C21_buffer : forall G pol t x s, edited_doc t x -> ascii x -> sel_inside x s ->
  policy_wrap pol \/ (policy_succ pol /\ inner_or_all x s) ->
  exists t' ss', buffer_delete G pol t [s] = Ok ([selected x s], t', ss') /\
    pt_text t' = Ok (match unselected x s with [] => [LF] | y => y end).
Proof.
  intros G pol t x s D As I P. destruct (edited_doc_acc _ _ D) as [A E].
  destruct (buffer_delete_one G pol t x s A E As I P) as (t' & ss' & Ed & T' & A' & _).
  exists t', ss'. split; auto. rewrite pt_text_txt by apply A'. now rewrite T'.
Qed.
Print Assumptions C21_buffer.

(** what is removed and what is kept make up the old text *)
Theorem C21_nothing_lost : forall x s, sel_inside x s ->
  exists before after, x = before ++ selected x s ++ after /\ unselected x s = before ++ after /\
    length before = min (s_anchor s) (s_cursor s) /\ selected x s <> [].
Proof.
  intros x s [Ha Hc]. exists (firstn (min (s_anchor s) (s_cursor s)) x), (skipn (max (s_anchor s) (s_cursor s) + 1) x).
  split; [|split; [reflexivity|split]].
  - rewrite <- (firstn_skipn (min (s_anchor s) (s_cursor s)) x) at 1. f_equal.
    rewrite <- (firstn_skipn (max (s_anchor s) (s_cursor s) + 1 - min (s_anchor s) (s_cursor s))
                  (skipn (min (s_anchor s) (s_cursor s)) x)) at 1. unfold selected, slice. f_equal.
    rewrite skipn_skipn. f_equal. lia.
  - rewrite firstn_length. lia.
  - intro X. apply (f_equal (@length nat)) in X. unfold selected, slice in X.
    rewrite firstn_length, skipn_length in X. simpl in X. lia.
Qed.
Print Assumptions C21_nothing_lost.

(** ** C22, one buffer *)
(** Missing: deletions that reach the end of the buffer, and the selections of other clients *)
Theorem C22_buffer_partial : forall G pol t x s, edited_doc t x -> ascii x -> sel_inside x s -> policy_succ pol ->
  inner_or_all x s ->
  exists xs t' s' x', buffer_delete G pol t [s] = Ok (xs, t', [s']) /\ pt_text t' = Ok x' /\ sel_inside x' s'.
Proof.
  intros G pol t x s D As I P H. destruct (edited_doc_acc _ _ D) as [A E].
  destruct (buffer_delete_one G pol t x s A E As I (or_intror (conj P H))) as (t' & ss' & Ed & T' & A' & ->).
  exists [selected x s], t', (sel_clamp (length (txt t') - 1) s), (txt t'). split; auto.
  split; [now apply pt_text_txt, A'|].
  pose proof (unselected_length x s I) as L. destruct I as [Ha Hc].
  assert (length (txt t') = match unselected x s with [] => 1 | y => length y end) as Lt by (rewrite T'; destruct (unselected x s); auto).
  unfold sel_inside, sel_clamp, sel_end, inner_or_all in *.
  destruct (Nat.ltb_spec (s_anchor s) (s_cursor s)); destruct (unselected x s) as [|y ys];
    match goal with |- context [?a <=? ?b] => destruct (Nat.leb_spec a b) end; cbn [s_anchor s_cursor length] in *; lia.
Qed.
Print Assumptions C22_buffer_partial.

(** every deletion that reaches the end of the buffer (but not all of it) leaves an end of the selection past the
    end *)
Theorem C22_suffix_refuted : forall G pol t x s, edited_doc t x -> ascii x -> sel_inside x s -> policy_wrap pol ->
  0 < min (s_anchor s) (s_cursor s) -> max (s_anchor s) (s_cursor s) + 1 = length x ->
  exists xs t' s' x', buffer_delete G pol t [s] = Ok (xs, t', [s']) /\ pt_text t' = Ok x' /\
    max (s_anchor s') (s_cursor s') = length x'.
Proof.
  intros G pol t x s D As I P H0 H1. destruct (edited_doc_acc _ _ D) as [A E].
  destruct (buffer_delete_one G pol t x s A E As I (or_introl P)) as (t' & ss' & Ed & T' & A' & ->).
  exists [selected x s], t', (sel_clamp (length (txt t') - 1) s), (txt t'). split; auto.
  split; [now apply pt_text_txt, A'|].
  pose proof (unselected_length x s I) as L. destruct I as [Ha Hc].
  assert (length (txt t') = match unselected x s with [] => 1 | y => length y end) as Lt by (rewrite T'; destruct (unselected x s); auto).
  unfold sel_inside, sel_clamp, sel_end in *.
  destruct (Nat.ltb_spec (s_anchor s) (s_cursor s)); destruct (unselected x s) as [|y ys];
    match goal with |- context [?a <=? ?b] => destruct (Nat.leb_spec a b) end; cbn [s_anchor s_cursor length] in *; lia.
Qed.
Print Assumptions C22_suffix_refuted.

(** ... and the next deletion then fails: "abcd\n", delete the last byte twice *)
Theorem C22_delete_twice_refuted : exists x s t' s', ascii x /\ terminated x = true /\ settled x s /\ sel_inside x s /\
  buffer_delete utf8_graphemes pol_wrap (pt_with_text x) [s] = Ok ([[LF]], t', [s']) /\
  buffer_delete utf8_graphemes pol_wrap t' [s'] = Panic "attempt to subtract with overflow".
Proof.
  exists [97;98;99;100;10], (mkSel 4 4 5). eexists. eexists. split; [repeat constructor; lia|]. split; [reflexivity|].
  split; [repeat split; vm_compute; auto; lia|]. split; [split; simpl; lia|]. split; vm_compute; reflexivity.
Qed.
Print Assumptions C22_delete_twice_refuted.
