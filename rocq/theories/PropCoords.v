(** C08-C12: lines, coordinates, characters, line lengths of every edited document.
    [edited_doc t x]: the piece table [t] was built from a non-empty text by public edits, whose effect on
    the plain string is [x].  [G] is any grapheme segmentation (Coords.v). *)
From Coq Require Import String List Arith Lia Bool.
From Verif Require Import Base ListFacts PieceTable PieceTableSpec PieceTableFacts PieceTableEdits PieceTableDelete
  History HistoryFacts Coords LineSpec LineFacts CoordsFacts CoordsMore GraphemeInst.
Import ListNotations.

Ltac doc D := let A := fresh "A" in let T := fresh "T" in destruct (edited_doc_acc _ _ D) as [A T]; subst.

(** ** C08 *)
Theorem C08_line_count : forall t x, edited_doc t x -> x <> [] -> pt_line_count t = Ok (length (lines_of x)).
Proof. intros t x D H. doc D. now apply line_count_spec. Qed.
Print Assumptions C08_line_count.

(** and the lines counted are the newline-terminated ones plus one for an unterminated tail *)
Theorem C08_lines_counted : forall x, x <> [] ->
  length (lines_of x) = count_lf x + if terminated x then 0 else 1.
Proof. intros x H. rewrite lines_count. destruct (terminated x), x; auto; congruence. Qed.
Print Assumptions C08_lines_counted.

(** [lines_of] is the way to write the text as newline-free lines, all terminated except perhaps the last *)
Theorem C08_lines_join : forall x,
  concat (map (fun l => l ++ [LF]) (lines_of x)) = (if terminated x then x else match x with [] => [] | _ => x ++ [LF] end) /\
  Forall (fun l => ~ In LF l) (lines_of x).
Proof.
  intro x. split.
  - induction x as [|l Hn Hl|l r Hl IH] using lines_ind; auto.
    + rewrite lines_nolf, terminated_nolf by auto. simpl. rewrite app_nil_r. destruct l; congruence.
    + rewrite lines_cons by auto. simpl. rewrite IH. rewrite <- app_assoc. simpl.
      destruct r as [|y r'].
      * simpl. rewrite terminated_app by discriminate. simpl. reflexivity.
      * rewrite (terminated_app l (LF :: y :: r')) by discriminate.
        change (terminated (LF :: y :: r')) with (terminated ([LF] ++ y :: r')). rewrite (terminated_app [LF] (y :: r')) by discriminate. simpl app.
        destruct (terminated (y :: r')); auto.
        destruct (l ++ LF :: y :: r') eqn:E; [destruct l; discriminate|]. rewrite <- E. rewrite <- app_assoc. reflexivity.
  - rewrite Forall_forall. intros l Hl. apply In_nth_error in Hl. destruct Hl as [i Hi].
    destruct (lines_facts x i l Hi) as (_ & _ & F & _). unfold nolf in F. rewrite Forall_forall in F.
    intro X. apply F in X. congruence.
Qed.
Print Assumptions C08_lines_join.

Theorem C08_line : forall t x n, edited_doc t x -> x <> [] ->
  pt_line_bytes t n = Ok (match n with 0 => None | S k => nth_error (lines_of x) k end).
Proof.
  intros t x n D H. doc D. rewrite line_bytes_spec by auto. destruct n; simpl; auto. now rewrite Nat.sub_0_r.
Qed.
Print Assumptions C08_line.

Theorem C08_line_outside : forall t x n, edited_doc t x -> x <> [] -> n = 0 \/ length (lines_of x) < n ->
  pt_line_bytes t n = Ok None.
Proof.
  intros t x n D H Hn. rewrite (C08_line t x n D H). destruct n; auto. f_equal. apply nth_error_None. lia.
Qed.
Print Assumptions C08_line_outside.

Theorem C08_all_lines : forall t x, edited_doc t x ->
  exists ls, pt_lines t = Ok ls /\ length ls = length (lines_of x) /\ (~ In 13 x -> ls = lines_of x).
Proof.
  intros t x D. doc D. exists (str_lines (txt t)). unfold pt_lines. rewrite pt_text_txt by apply A.
  split; auto. split; [apply str_lines_length|apply str_lines_nocr].
Qed.
Print Assumptions C08_all_lines.

(** with CR LF line ends [lines] and [line_bytes] disagree on the text of a line *)
Theorem C08_crlf_refuted : exists x, x <> [] /\
  pt_lines (pt_with_text x) = Ok [[97]] /\ pt_line_bytes (pt_with_text x) 1 = Ok (Some [97; 13]).
Proof. exists [97;13;10]. repeat split; try discriminate; vm_compute; reflexivity. Qed.
Print Assumptions C08_crlf_refuted.

(** ** C09 *)
Theorem C09_ascii_offset_to_coord : forall G t x o, edited_doc t x -> ascii x -> o < length x ->
  pt_offset_to_coord G t o = Ok (Some (mkC (line_of_offset x o) (byte_col x o))).
Proof. intros G t x o D Ha Ho. doc D. now apply ascii_offset_to_coord. Qed.
Print Assumptions C09_ascii_offset_to_coord.

Theorem C09_offset_outside : forall G t x o, edited_doc t x -> x <> [] -> length x <= o ->
  pt_offset_to_coord G t o = Ok None.
Proof.
  intros G t x o D Hx Ho. doc D. apply offset_to_coord_out; auto. destruct (txt t); [congruence|simpl in Ho; lia].
Qed.
Print Assumptions C09_offset_outside.

Theorem C09_ascii_coord_to_offset : forall G t x n c l, edited_doc t x -> ascii x ->
  nth_error (lines_of x) n = Some l -> 0 < c ->
  pt_coord_to_offset G t (mkC (n + 1) c) =
    Ok (if c <=? length l + 1 then Some (line_offset x (n + 1) + (c - 1)) else None).
Proof.
  intros G t x n c l D Ha El Hc. doc D. apply (ascii_coord_to_offset G t (mkC (n + 1) c) l); auto; simpl; try lia.
  now replace (n + 1 - 1) with n by lia.
Qed.
Print Assumptions C09_ascii_coord_to_offset.

Theorem C09_coord_past_end : forall G t x n c, edited_doc t x -> x <> [] -> length (lines_of x) < n ->
  pt_coord_to_offset G t (mkC n c) = Ok None.
Proof. intros G t x n c D Hx Hn. doc D. now apply coord_to_offset_past. Qed.
Print Assumptions C09_coord_past_end.

(** any text: the k-th user-perceived character of line n>=2 is at column k, wherever it starts.
    Missing: line 1 (columns are byte columns there) and the newline of a line (see the refutations). *)
Lemma gstarts_concat G l k : k < gcount G l ->
  nth_error (gstarts G l) k = Some (length (concat (firstn k (graphemes G l)))).
Proof.
  assert (forall k s b, k < length (glens G s) ->
    nth_error (starts_from b (glens G s)) k = Some (b + length (concat (firstn k (cut (glens G s) s))))) as H.
  { clear. induction k as [|k IH]; intros s b H; destruct (glens G s) as [|n r] eqn:E; simpl in *; try lia.
    - f_equal. lia.
    - pose proof (g_step G s n r E) as X. pose proof (g_sum G s) as Su. rewrite E in Su. simpl in Su.
      subst r. rewrite (IH (skipn n s) (b + n)) by lia.
      rewrite app_length, firstn_length. f_equal. rewrite min_l by lia. lia. }
  intro Hk. unfold gstarts, graphemes. now rewrite (H k l 0 Hk).
Qed.
Theorem C09_graphemes_partial : forall G t x n l k, edited_doc t x ->
  nth_error (lines_of x) n = Some l -> k < length (graphemes G l) ->
  let o := line_offset x (n + 1) + length (concat (firstn k (graphemes G l))) in
  0 < n \/ length (concat (firstn k (graphemes G l))) = k ->
  pt_offset_to_coord G t o = Ok (Some (mkC (n + 1) (k + 1))) /\
  pt_coord_to_offset G t (mkC (n + 1) (k + 1)) = Ok (Some o).
Proof.
  intros G t x n l k D El Hk o Hn. doc D. subst o. rewrite graphemes_length in Hk.
  rewrite line_offset_loff. replace (n + 1 - 1) with n by lia.
  apply (grapheme_offset_to_coord G t n l k); auto; [now apply gstarts_concat|]. destruct Hn; [left|right]; auto.
Qed.
Print Assumptions C09_graphemes_partial.

(** "é b": 'b' is the second character of line 1 but is reported in column 3; the newline of "é" too *)
Theorem C09_first_line_refuted :
  pt_offset_to_coord utf8_graphemes (pt_with_text [195;169;98;10]) 2 = Ok (Some (mkC 1 3)) /\
  graphemes utf8_graphemes [195;169;98] = [[195;169];[98]] /\
  pt_coord_to_offset utf8_graphemes (pt_with_text [195;169;98;10]) (mkC 1 2) = Ok (Some 2).
Proof. repeat split; vm_compute; reflexivity. Qed.
Print Assumptions C09_first_line_refuted.

Example C09_met : edited_doc (pt_with_text [97;10;195;169;98;10]) [97;10;195;169;98;10] /\
  nth_error (lines_of [97;10;195;169;98;10]) 1 = Some [195;169;98] /\ 1 < length (graphemes utf8_graphemes [195;169;98]).
Proof. split; [apply edited_doc_init; discriminate|]. split; vm_compute; auto. Qed.
Example edited_doc_met : exists t, edited_doc t [97;98;10;99] /\ length (t_pieces t) = 4.
Proof.
  eexists. split.
  - exists pol_debug, [97;10], [EInsert 1 [98]; EAppend [99]]. split; [discriminate|].
    split; [vm_compute; reflexivity|]. split; [reflexivity|]. right. split; [apply pol_debug_ok|].
    simpl. repeat split; discriminate.
  - vm_compute. reflexivity.
Qed.

(** ** C10 *)
Theorem C10_ascii_offset_round_trip : forall G t x o, edited_doc t x -> ascii x -> o < length x ->
  exists c, pt_offset_to_coord G t o = Ok (Some c) /\ pt_coord_to_offset G t c = Ok (Some o).
Proof.
  intros G t x o D Ha Ho. doc D. eexists. split; [now apply ascii_offset_to_coord|].
  destruct (offset_line (txt t) o Ho) as (i & l & El & Hr & Ei & Es & En).
  unfold line_of_offset, byte_col. rewrite Es, <- Ei.
  rewrite (ascii_coord_to_offset G t _ l); simpl; auto; try lia; rewrite ?Nat.sub_0_r; auto.
  rewrite line_offset_loff. simpl. rewrite Nat.sub_0_r.
  assert (o - loff (txt t) i <=? length l + 1 = true) as X by (apply Nat.leb_le; lia).
  destruct (length l + 1) eqn:E; [lia|]. assert (o - loff (txt t) i <=? n = true) as -> by (apply Nat.leb_le; lia).
  f_equal. f_equal. lia.
Qed.
Print Assumptions C10_ascii_offset_round_trip.

(** (l,c) denotes a character: a byte of line l, or its newline *)
Theorem C10_ascii_coord_round_trip : forall G t x n c l, edited_doc t x -> ascii x ->
  nth_error (lines_of x) n = Some l -> 0 < c <= length l + 1 -> line_offset x (n + 1) + c <= length x ->
  exists o, pt_coord_to_offset G t (mkC (n + 1) c) = Ok (Some o) /\
            pt_offset_to_coord G t o = Ok (Some (mkC (n + 1) c)).
Proof.
  intros G t x n c l D Ha El Hc Hx. doc D. set (s := txt t) in *.
  exists (line_offset s (n + 1) + (c - 1)). split.
  - rewrite (ascii_coord_to_offset G t _ l); simpl; auto; try lia.
    + assert (c <=? length l + 1 = true) as -> by (apply Nat.leb_le; lia). reflexivity.
    + now replace (n + 1 - 1) with n by lia.
  - destruct (lines_facts s n l El) as (F1 & F2 & F3 & F4). rewrite line_offset_loff in *.
    replace (n + 1 - 1) with n in * by lia.
    set (o := loff s n + (c - 1)). assert (o < length s) as Ho by (unfold o; lia).
    rewrite ascii_offset_to_coord by auto. fold s.
    destruct (offset_line s o Ho) as (i & l' & El' & Hr & Ei & Es & En).
    assert (i = n) as ->.
    { assert (forall a b, a <= b -> loff s a <= loff s b) as Mono.
      { clear. intros a c H. induction H; auto. etransitivity; [exact IHle|].
        destruct (nth_error (lines_of s) m) as [lm|] eqn:E.
        - rewrite (loff_S _ _ _ E). lia.
        - apply nth_error_None in E. unfold loff. rewrite !firstn_all2 by lia. lia. }
      unfold o in Hr. destruct (Nat.lt_trichotomy i n) as [X|[X|X]]; auto; exfalso.
      - specialize (Mono (S i) n X). rewrite (loff_S _ i l' El') in Mono. lia.
      - specialize (Mono (S n) i X). rewrite (loff_S _ n l El) in Mono. lia. }
    unfold line_of_offset, byte_col. rewrite Es, <- Ei. f_equal. f_equal. f_equal; unfold o; lia.
Qed.
Print Assumptions C10_ascii_coord_round_trip.

(** any text, characters of lines n>=2 (or preceded by single-byte characters only on line 1).
    Missing: the rest of line 1, and newlines of lines with wide characters. *)
Theorem C10_graphemes_partial : forall G t x n l k, edited_doc t x ->
  nth_error (lines_of x) n = Some l -> k < length (graphemes G l) ->
  0 < n \/ length (concat (firstn k (graphemes G l))) = k ->
  exists o, pt_coord_to_offset G t (mkC (n + 1) (k + 1)) = Ok (Some o) /\
            pt_offset_to_coord G t o = Ok (Some (mkC (n + 1) (k + 1))).
Proof.
  intros G t x n l k D El Hk Hn. destruct (C09_graphemes_partial G t x n l k D El Hk Hn) as [H1 H2]. eauto.
Qed.
Print Assumptions C10_graphemes_partial.

Theorem C10_unicode_refuted :
  let t := pt_with_text [195;169;98;99;10] in
  (* the character 'b' starts at offset 2; its coordinates lead back to 'c' *)
  pt_offset_to_coord utf8_graphemes t 2 = Ok (Some (mkC 1 3)) /\
  pt_coord_to_offset utf8_graphemes t (mkC 1 3) = Ok (Some 3).
Proof. split; vm_compute; reflexivity. Qed.
Print Assumptions C10_unicode_refuted.

Theorem C10_unicode_newline_refuted :
  let t := pt_with_text [97;10;195;169;10] in
  (* the newline of line 2 is at offset 4, column 3 is reported, and column 3 of a one-character line does not exist *)
  pt_offset_to_coord utf8_graphemes t 4 = Ok (Some (mkC 2 3)) /\
  pt_coord_to_offset utf8_graphemes t (mkC 2 3) = Ok None.
Proof. split; vm_compute; reflexivity. Qed.
Print Assumptions C10_unicode_newline_refuted.

(** ** C11 *)
Theorem C11_ascii_char_at_offset : forall G t x o, edited_doc t x -> ascii x -> o < length x ->
  pt_char_at_offset G t o = Ok (Some [nth o x 0]).
Proof. intros G t x o D Ha Ho. doc D. now apply ascii_char_at_offset. Qed.
Print Assumptions C11_ascii_char_at_offset.

Theorem C11_char_at : forall G t x n l k g, edited_doc t x ->
  nth_error (lines_of x) n = Some l -> nth_error (graphemes G l) k = Some g ->
  pt_char_at G t (mkC (n + 1) (k + 1)) = Ok (Some g).
Proof. intros G t x n l k g D El Eg. doc D. eapply char_at_grapheme; eauto. Qed.
Print Assumptions C11_char_at.

Theorem C11_char_at_newline : forall G t x n l, edited_doc t x ->
  nth_error (lines_of x) n = Some l -> n + 1 < length (lines_of x) \/ terminated x = true ->
  pt_char_at G t (mkC (n + 1) (length (graphemes G l) + 1)) = Ok (Some [LF]).
Proof.
  intros G t x n l D El Hn. doc D. rewrite graphemes_length. apply char_at_newline; auto.
  destruct (lines_facts _ _ _ El) as (F1 & F2 & F3 & F4).
  destruct F4 as [F4|(F4 & F5 & F6 & F7)].
  - apply nth_error_In in F4. apply newline_positions_In in F4.
    assert (nth_error (txt t) (loff (txt t) n + length l) <> None) as X by congruence.
    apply nth_error_Some in X. exact X.
  - exfalso. apply nth_error_None in F4. rewrite nl_len in F4. pose proof (lines_count (txt t)) as LC.
    assert (n < length (lines_of (txt t))) by (apply nth_error_Some; congruence).
    destruct (terminated (txt t)); [lia|]. destruct (txt t); [destruct n; discriminate|]. destruct Hn; [lia|discriminate].
Qed.
Print Assumptions C11_char_at_newline.

Theorem C11_outside : forall G t x n c, edited_doc t x -> x <> [] -> length (lines_of x) < n ->
  pt_char_at G t (mkC n c) = Ok None.
Proof. intros G t x n c D Hx Hn. unfold pt_char_at. now rewrite (C09_coord_past_end G t x n c D Hx Hn). Qed.
Print Assumptions C11_outside.
(** columns beyond the line *)
Theorem C11_outside_column : forall G t x n l c, edited_doc t x -> nth_error (lines_of x) n = Some l ->
  length (graphemes G l) + 1 < c -> pt_char_at G t (mkC (n + 1) c) = Ok None.
Proof.
  intros G t x n l c D El Hc. doc D. rewrite graphemes_length in Hc. unfold pt_char_at.
  rewrite (coord_to_offset_spec G t _ l); simpl; auto; try lia.
  2:{ now replace (n + 1 - 1) with n by lia. }
  replace (c =? gcount G l + 1) with false by (symmetry; apply Nat.eqb_neq; lia).
  replace (c =? 0) with false by (symmetry; apply Nat.eqb_neq; lia).
  rewrite (proj2 (nth_error_None _ _)) by (rewrite gstarts_length; lia). reflexivity.
Qed.
Print Assumptions C11_outside_column.

(** the position after an unterminated last line exists as a coordinate but looking it up panics *)
Theorem C11_unterminated_refuted : forall G,
  pt_coord_to_offset G (pt_with_text [97]) (mkC 1 2) = Ok (Some 1) /\
  pt_char_at G (pt_with_text [97]) (mkC 1 2) = Panic "called Option::unwrap on None".
Proof.
  intro G. assert (ascii [97]) as Ha by (repeat constructor; lia).
  pose proof (C09_ascii_coord_to_offset G _ _ 0 2 [97] (edited_doc_init [97] ltac:(discriminate)) Ha eq_refl ltac:(lia)) as E.
  simpl in E. split; [exact E|]. unfold pt_char_at. rewrite E. cbn [bind].
  pose proof (char_at_offset_end G (pt_with_text [97])) as X.
  destruct (edited_doc_acc _ _ (edited_doc_init [97] ltac:(discriminate))) as [A T].
  specialize (X A). rewrite T in X. simpl in X. rewrite X. reflexivity.
Qed.
Print Assumptions C11_unterminated_refuted.

(** column 0 of an existing line panics instead of yielding nothing *)
Theorem C11_column_zero_refuted : forall G t x n l, edited_doc t x -> nth_error (lines_of x) n = Some l ->
  pt_char_at G t (mkC (n + 1) 0) = Panic "attempt to subtract with overflow".
Proof.
  intros G t x n l D El. doc D. unfold pt_char_at. rewrite (coord_to_offset_spec G t _ l); simpl; auto; try lia.
  - now rewrite Nat.add_1_r.
  - now replace (n + 1 - 1) with n by lia.
Qed.
Print Assumptions C11_column_zero_refuted.

(** an offset past the end of the document underflows *)
Theorem C11_past_end_refuted : forall G t x o, edited_doc t x -> length x < o ->
  pt_char_at_offset G t o = Panic "attempt to subtract with overflow".
Proof.
  intros G t x o D Ho. doc D. destruct A as [W N]. unfold pt_char_at_offset. rewrite N, pt_len_txt by auto.
  assert (filter (fun i => o <=? i) (newline_positions (txt t)) = []) as ->.
  { rewrite (filter_split_lt _ _ (newline_positions_sset (txt t))), nl_before. rewrite firstn_all2 by lia.
    rewrite <- nl_len. apply skipn_all. }
  unfold sub. assert (o <=? length (txt t) = false) as X by (apply Nat.leb_gt; lia).
  assert (length (txt t) <? o = true) as Y by (apply Nat.ltb_lt; lia). rewrite ?X, ?Y. reflexivity.
Qed.
Print Assumptions C11_past_end_refuted.

(** ** C12 *)
Theorem C12_line_length_partial : forall t x n, edited_doc t x -> In LF x -> 0 < n ->
  pt_line_length t n = Ok (match nth_error (lines_of x) (n - 1) with Some l => length l | None => 0 end).
Proof.
  intros t x n D Hnl Hn. doc D. apply line_length_spec; auto.
  apply In_nth_error in Hnl. destruct Hnl as [i Hi]. apply newline_positions_In in Hi. intro X. rewrite X in Hi. destruct Hi.
Qed.
Print Assumptions C12_line_length_partial.

Theorem C12_first_line : forall t x l, edited_doc t x -> nth_error (lines_of x) 0 = Some l ->
  pt_line_length t 1 = Ok (length l).
Proof.
  intros t x l D El. doc D. destruct (newline_positions (txt t)) as [|v vs] eqn:E.
  - rewrite line_length_first by auto. f_equal. apply nl_nil_nolf in E.
    destruct (txt t) as [|y r] eqn:X; [discriminate|]. rewrite lines_nolf in El by (auto; discriminate).
    inversion El; subst. reflexivity.
  - rewrite line_length_spec; auto; try lia; [|congruence]. change (1 - 1) with 0. now rewrite El.
Qed.
Print Assumptions C12_first_line.

Theorem C12_longest : forall t x, edited_doc t x -> x <> [] ->
  exists i m, pt_longest_line t = Ok (i, m) /\ (forall l, In l (lines_of x) -> length l <= m) /\
    ((i = 0 /\ m = 0) \/ (0 < i /\ 0 < m /\ exists l, nth_error (lines_of x) (i - 1) = Some l /\ length l = m)).
Proof. intros t x D Hx. doc D. now apply longest_line_spec. Qed.
Print Assumptions C12_longest.

(** a document without newline reports its length for every line number *)
Theorem C12_no_newline_refuted : pt_line_length (pt_with_text [97;98;99]) 2 = Ok 3 /\ nth_error (lines_of [97;98;99]) 1 = None.
Proof. split; reflexivity. Qed.
Print Assumptions C12_no_newline_refuted.
(** line number 0 panics *)
Theorem C12_line_zero_refuted : exists x, pt_line_length (pt_with_text x) 0 = Panic "attempt to subtract with overflow".
Proof. exists [97;10]. reflexivity. Qed.
Print Assumptions C12_line_zero_refuted.
