(** Proofs about the piece table: every edit refines the plain string edit. *)
From Coq Require Import List Arith Lia Bool.
From Verif Require Import Base ListFacts PieceTable PieceTableSpec PieceTableFacts.
Import ListNotations.

(** ** newline positions *)
Lemma newline_positions_In s i : In i (newline_positions s) <-> nth_error s i = Some LF.
Proof.
  unfold newline_positions. rewrite filter_In, in_seq, Nat.eqb_eq. split.
  - intros [H E]. rewrite (nth_error_nth' s 0) by lia. now rewrite E.
  - intro H. assert (i < length s) by (apply nth_error_Some; congruence).
    split; [lia|]. now apply nth_error_nth.
Qed.
Lemma newline_positions_sset s : sset (newline_positions s).
Proof. apply sset_filter, sset_seq. Qed.

Lemma nl_from_In b s i : In i (nl_from b s) <-> b <= i /\ nth_error s (i - b) = Some LF.
Proof.
  revert b. induction s as [|x r IH]; simpl; intro b.
  - split; [tauto|]. intros [_ H]. destruct (i - b); discriminate.
  - assert ((In i (nl_from (S b) r)) <-> b < i /\ nth_error (x :: r) (i - b) = Some LF) as E.
    { rewrite IH. split; intros [H1 H2]; (split; [lia|]).
      - replace (i - b) with (S (i - S b)) by lia. exact H2.
      - replace (i - b) with (S (i - S b)) in H2 by lia. exact H2. }
    destruct (x =? LF) eqn:X; simpl; rewrite E.
    + apply Nat.eqb_eq in X. subst x. split.
      * intros [->|H]; [|intuition lia]. rewrite Nat.sub_diag. auto.
      * intros [H1 H2]. destruct (Nat.eq_dec b i); auto. right. split; auto. lia.
    + apply Nat.eqb_neq in X. split; [intuition lia|]. intros [H1 H2]. split; auto.
      destruct (Nat.eq_dec b i); [|lia]. subst. rewrite Nat.sub_diag in H2. simpl in H2. congruence.
Qed.

Lemma nth_error_s_insert o (x s : text) i : o < length s ->
  nth_error (firstn o s ++ x ++ skipn o s) i =
  if i <? o then nth_error s i else if i <? o + length x then nth_error x (i - o)
  else nth_error s (i - length x).
Proof.
  intro H. assert (length (firstn o s) = o) as L by (rewrite firstn_length; lia).
  destruct (i <? o) eqn:E1.
  - apply Nat.ltb_lt in E1. rewrite nth_error_app1 by lia.
    rewrite <- (firstn_skipn o s) at 2. now rewrite nth_error_app1 by lia.
  - apply Nat.ltb_ge in E1. rewrite nth_error_app2 by lia. rewrite L.
    destruct (i <? o + length x) eqn:E2.
    + apply Nat.ltb_lt in E2. now rewrite nth_error_app1 by lia.
    + apply Nat.ltb_ge in E2. rewrite nth_error_app2 by lia.
      rewrite <- (firstn_skipn o s) at 2. rewrite nth_error_app2 by lia. rewrite L. f_equal. lia.
Qed.

Lemma nth_error_s_delete o n (s : text) i : o <= length s ->
  nth_error (s_delete o n s) i = if i <? o then nth_error s i else nth_error s (i + n).
Proof.
  intro H. unfold s_delete. assert (length (firstn o s) = o) as L by (rewrite firstn_length; lia).
  destruct (i <? o) eqn:E1.
  - apply Nat.ltb_lt in E1. rewrite nth_error_app1 by lia.
    rewrite <- (firstn_skipn o s) at 2. now rewrite nth_error_app1 by lia.
  - apply Nat.ltb_ge in E1. rewrite nth_error_app2 by lia. rewrite L.
    destruct (le_lt_dec (length s) (o + n)).
    + rewrite skipn_all2 by lia. transitivity (@None nat); [destruct (i - o); auto|].
      symmetry. apply nth_error_None. lia.
    + rewrite <- (firstn_skipn (o + n) s) at 2.
      assert (length (firstn (o + n) s) = o + n) as L2 by (rewrite firstn_length; lia).
      rewrite nth_error_app2 by lia. rewrite L2. f_equal. lia.
Qed.

Definition nl_ok (t : pt) : Prop := t_nl t = newline_positions (txt t).

Lemma nl_insert_ok o (x s : text) : o < length s ->
  set_extend (set_of (map (fun i => if o <=? i then i + length x else i) (newline_positions s))) (nl_from o x)
  = newline_positions (firstn o s ++ x ++ skipn o s).
Proof.
  intro H. apply sset_ext.
  - apply set_extend_sset, set_of_sset.
  - apply newline_positions_sset.
  - intro i. rewrite set_extend_In, set_of_In, nl_from_In, in_map_iff, newline_positions_In,
      nth_error_s_insert by auto. split.
    + intros [(j & Ej & Hj)|[H1 H2]].
      * apply newline_positions_In in Hj. destruct (o <=? j) eqn:E; subst.
        -- apply Nat.leb_le in E. assert (j + length x <? o = false) as -> by (apply Nat.ltb_ge; lia).
           assert (j + length x <? o + length x = false) as -> by (apply Nat.ltb_ge; lia).
           now rewrite Nat.add_sub.
        -- apply Nat.leb_gt in E. apply Nat.ltb_lt in E. now rewrite E.
      * assert (i <? o = false) as -> by (apply Nat.ltb_ge; lia).
        assert (i - o < length x) by (apply nth_error_Some; congruence).
        assert (i <? o + length x = true) as -> by (apply Nat.ltb_lt; lia). auto.
    + destruct (i <? o) eqn:E1; [|destruct (i <? o + length x) eqn:E2].
      * intro Hi. left. exists i. apply Nat.ltb_lt in E1. apply newline_positions_In in Hi.
        assert (o <=? i = false) as -> by (apply Nat.leb_gt; lia). auto.
      * apply Nat.ltb_ge in E1. auto.
      * intro Hi. left. exists (i - length x). apply newline_positions_In in Hi.
        apply Nat.ltb_ge in E2. assert (o <=? i - length x = true) as -> by (apply Nat.leb_le; lia).
        split; auto. lia.
Qed.

Lemma nl_append_ok (x s : text) : set_extend (newline_positions s) (nl_from (length s) x) = newline_positions (s ++ x).
Proof.
  apply sset_ext.
  - apply set_extend_sset, newline_positions_sset.
  - apply newline_positions_sset.
  - intro i. rewrite set_extend_In, nl_from_In, !newline_positions_In. split.
    + intros [H|[H1 H2]].
      * rewrite nth_error_app1; auto. apply nth_error_Some. congruence.
      * now rewrite nth_error_app2.
    + intro H. destruct (le_lt_dec (length s) i).
      * rewrite nth_error_app2 in H by auto. auto.
      * rewrite nth_error_app1 in H by auto. auto.
Qed.

Lemma nl_delete_ok o n l : exists r, nl_delete o n l = Ok r /\
  forall i, In i r <-> (i < o /\ In i l) \/ (o <= i /\ In (i + n) l).
Proof.
  induction l as [|j l (r & E & IH)]; simpl.
  - exists []. split; auto. simpl. intuition.
  - rewrite E. simpl. destruct ((o <=? j) && (j <? o + n)) eqn:E1.
    + rewrite andb_true_iff, Nat.leb_le, Nat.ltb_lt in E1. exists r. split; auto.
      intro i. rewrite IH. intuition lia.
    + destruct (o + n <=? j) eqn:E2.
      * apply Nat.leb_le in E2. rewrite sub_ok by lia. simpl. eexists. split; [reflexivity|].
        intro i. simpl. rewrite IH. split; [intros [<-|[|]]|intros [[H1 [H2|H2]]|[H1 [H2|H2]]]]; intuition lia.
      * apply Nat.leb_gt in E2. apply andb_false_iff in E1. rewrite Nat.leb_gt, Nat.ltb_ge in E1.
        eexists. split; [reflexivity|]. intro i. simpl. rewrite IH. intuition lia.
Qed.

Lemma nl_delete_spec o n (s : text) : o <= length s ->
  exists r, nl_delete o n (newline_positions s) = Ok r /\ set_of r = newline_positions (s_delete o n s).
Proof.
  intro H. destruct (nl_delete_ok o n (newline_positions s)) as (r & E & HI). exists r. split; auto.
  apply sset_ext; [apply set_of_sset|apply newline_positions_sset|].
  intro i. rewrite set_of_In, HI, !newline_positions_In, nth_error_s_delete by auto.
  destruct (i <? o) eqn:E1; [apply Nat.ltb_lt in E1|apply Nat.ltb_ge in E1]; intuition lia.
Qed.

(** ** history view *)
Definition utxts (t : pt) : list text := map (ptext (t_orig t) (t_added t)) (t_undos t).
Definition rtxts (t : pt) : list text := map (ptext (t_orig t) (t_added t)) (t_redos t).

Lemma map_ptext_ext O A x ls : Forall (seqok O A) ls -> map (ptext O (A ++ x)) ls = map (ptext O A) ls.
Proof. induction 1 as [|l r [H1 H2] Hr IH]; simpl; auto. now rewrite IH, ptext_ext. Qed.

(** what an edit of kind [a] producing text [s] must do *)
Definition edited (a : action) (t t' : pt) (s : text) : Prop :=
  wf t' /\ txt t' = s /\ (nl_ok t -> nl_ok t') /\
  utxts t' = utxts (pt_action a t) /\ rtxts t' = rtxts (pt_action a t) /\
  t_last t' = t_last (pt_action a t).

Lemma contig_last_end l : contig 0 l ->
  match rev l with p :: _ => p_off p + p_len p | [] => 0 end = total l.
Proof.
  intro C. destruct l as [|p0 l0] using rev_ind; auto. rewrite rev_unit.
  apply contig_app in C. destruct C as [_ (E & L & _)]. rewrite total_app. simpl in *.
  unfold total at 2. simpl. lia.
Qed.

Lemma append_spec x t : wf t -> x <> [] ->
  exists t', pt_append x t = Ok t' /\ edited AInsert t t' (s_append x (txt t)).
Proof.
  intros W Hx. destruct (wf_action AInsert t W) as (Wa & Ta & Na).
  unfold pt_append, edited. rewrite <- Ta. unfold nl_ok at 1. rewrite <- Na, <- Ta.
  set (u := pt_action AInsert t) in *. clearbody u. clear t Ta Na W.
  pose proof Wa as ((C & B) & HU & HR).
  rewrite contig_last_end by auto. rewrite <- (txt_length u) by auto.
  assert (0 < length x) as Lx by (destruct x; [congruence|simpl; lia]).
  assert (tree_insert (mkPiece (length (txt u)) (length (t_added u)) (length x) false) (t_pieces u ++ [])
    = Ok (t_pieces u ++ [mkPiece (length (txt u)) (length (t_added u)) (length x) false])) as E.
  { apply tree_insert_gap; simpl; auto; [|tauto]. intros q Hq.
    destruct (contig_bounds _ _ _ C Hq). rewrite txt_length by auto. lia. }
  rewrite app_nil_r in E. rewrite E. simpl. eexists. split; [reflexivity|].
  unfold wf, nl_ok, txt, utxts, rtxts, set_nl, set_pieces, add_bytes; simpl. fold (txt u).
  repeat split; auto using Forall_seqok_ext.
  - apply contig_app. split; auto. simpl. rewrite txt_length; auto.
  - apply Forall_app. split.
    + eapply Forall_impl; [|exact B]. intro. apply inb_ext.
    + constructor; auto. unfold inb, pbuf, p_end; simpl. rewrite app_length. lia.
  - rewrite ptext_app, ptext_ext by auto. unfold s_append, txt. f_equal.
    unfold ptext, pbytes, pbuf; simpl. rewrite app_nil_r. unfold slice.
    rewrite skipn_app, skipn_all, Nat.sub_diag. simpl. now apply firstn_all2.
  - intro H. rewrite H, nl_append_ok. f_equal.
    rewrite ptext_app, ptext_ext by auto. fold (txt u). f_equal.
    unfold ptext, pbytes, pbuf; simpl. rewrite app_nil_r. unfold slice.
    rewrite skipn_app, skipn_all, Nat.sub_diag. simpl. symmetry. now apply firstn_all2.
  - now apply map_ptext_ext.
  - now apply map_ptext_ext.
Qed.

Lemma action_idem a t : pt_action a (pt_action a t) = pt_action a t.
Proof.
  destruct (action_cases a t) as [[-> H]|[-> H]].
  - destruct (action_cases a t) as [[-> ?]|[? ?]]; auto; intuition.
  - unfold pt_action at 1; simpl. destruct a; reflexivity.
Qed.

Lemma insert_pieces O A pre p post o x : seqok O A (pre ++ p :: post) -> x <> [] ->
  p_off p <= o < p_off p + p_len p ->
  exists p1 p2 l1 l2 l3, p_split p o (length x) = Ok (p1, p2) /\
   tree_insert_opt p1 (pre ++ map (shift_up (length x)) post) = Ok l1 /\
   tree_insert (mkPiece o (length A) (length x) false) l1 = Ok l2 /\
   tree_insert p2 l2 = Ok l3 /\ seqok O (A ++ x) l3 /\
   ptext O (A ++ x) l3 =
     firstn o (ptext O A (pre ++ p :: post)) ++ x ++ skipn o (ptext O A (pre ++ p :: post)).
Proof.
  intros SK Hx Ho. pose proof SK as [C B].
  assert (0 < length x) as Lx by (destruct x; [congruence|simpl; lia]).
  destruct (ptext_split _ _ _ _ _ SK) as (L1 & L2 & B1 & B2 & B3).
  apply contig_app in C. destruct C as [C1 C2]. simpl in C2. destruct C2 as (C2 & C3 & C4).
  pose proof (contig_shift _ (length x) _ C4) as C5.
  set (post' := map (shift_up (length x)) post) in *.
  assert (forall q, In q pre -> 0 < p_len q /\ p_off q + p_len q <= p_off p) as Hpre.
  { intros q Hq. destruct (contig_bounds _ _ _ C1 Hq). lia. }
  assert (forall q, In q post' -> 0 < p_len q /\ p_off p + p_len p + length x <= p_off q) as Hpost.
  { intros q Hq. destruct (contig_bounds _ _ _ C5 Hq). lia. }
  set (new := mkPiece o (length A) (length x) false) in *.
  assert (pbytes O (A ++ x) new = x) as Enew.
  { unfold pbytes, pbuf, slice; simpl. rewrite skipn_app, skipn_all, Nat.sub_diag. simpl. now apply firstn_all2. }
  assert (inb O (A ++ x) new) as Bnew.
  { unfold inb, pbuf, p_end; simpl. rewrite app_length. lia. }
  assert (Forall (inb O (A ++ x)) post') as Bpost.
  { apply inb_shift. eapply Forall_impl; [|exact B3]. intro. apply inb_ext. }
  assert (Forall (inb O (A ++ x)) pre) as Bpre.
  { eapply Forall_impl; [|exact B1]. intro. apply inb_ext. }
  assert (ptext O (A ++ x) post' = ptext O A post) as Epost.
  { unfold post'. rewrite ptext_shift. now apply ptext_ext. }
  assert (ptext O (A ++ x) pre = ptext O A pre) as Epre by now apply ptext_ext.
  pose proof (inb_ext O A x p B2) as B2'. pose proof (pbytes_ext O A x p B2) as E2'.
  rewrite !ptext_app, !ptext_cons. rewrite firstn_app_ge, skipn_app_ge by lia. rewrite L1.
  rewrite firstn_app_le, skipn_app_le by lia.
  unfold p_split. destruct (o =? p_off p) eqn:Eo.
  - apply Nat.eqb_eq in Eo. subst o.
    set (p2 := mkPiece (p_off p + length x) (p_start p) (p_len p) (p_orig p)).
    exists None, p2, (pre ++ post'), (pre ++ new :: post'), (pre ++ new :: p2 :: post').
    simpl tree_insert_opt. rewrite Nat.sub_diag. simpl. split; auto. split; auto. split; [|split; [|split]].
    + apply tree_insert_gap; simpl; auto. intros q Hq. apply Hpost in Hq. lia.
    + change (pre ++ new :: post') with (pre ++ [new] ++ post').
      rewrite app_assoc. rewrite tree_insert_gap; simpl; auto.
      * now rewrite <- app_assoc.
      * intros q Hq. apply in_app_or in Hq. destruct Hq as [Hq|[<-|[]]]; simpl; [apply Hpre in Hq|]; lia.
      * intros q Hq. apply Hpost in Hq. lia.
    + split.
      * apply contig_app. split; auto. simpl. repeat split; auto; try lia.
        rewrite <- C2. rewrite <- C2 in C5. replace (p_off p + length x + p_len p) with (p_off p + p_len p + length x) by lia. auto.
      * apply Forall_app. split; auto.
    + rewrite ptext_app, !ptext_cons, Epre, Epost, Enew.
      rewrite app_nil_r. unfold p2. f_equal. f_equal. f_equal. exact E2'.
  - apply Nat.eqb_neq in Eo. rewrite sub_ok by lia. simpl. rewrite sub_ok by lia. simpl.
    set (p1 := mkPiece (p_off p) (p_start p) (o - p_off p) (p_orig p)).
    set (p2 := mkPiece (o + length x) (p_end p1) (p_len p - (o - p_off p)) (p_orig p)).
    exists (Some p1), p2, (pre ++ p1 :: post'), (pre ++ p1 :: new :: post'), (pre ++ p1 :: new :: p2 :: post').
    split; auto. split; [|split; [|split; [|split]]].
    + apply tree_insert_gap; simpl; auto; [lia|]. intros q Hq. apply Hpost in Hq. lia.
    + change (pre ++ p1 :: post') with (pre ++ [p1] ++ post').
      rewrite app_assoc. rewrite tree_insert_gap; simpl; auto.
      * now rewrite <- app_assoc.
      * intros q Hq. apply in_app_or in Hq. destruct Hq as [Hq|[<-|[]]]; simpl; [apply Hpre in Hq|]; lia.
      * intros q Hq. apply Hpost in Hq. lia.
    + change (pre ++ p1 :: new :: post') with (pre ++ [p1; new] ++ post').
      rewrite app_assoc. rewrite tree_insert_gap; simpl; auto.
      * now rewrite <- app_assoc.
      * lia.
      * intros q Hq. apply in_app_or in Hq. destruct Hq as [Hq|[<-|[<-|[]]]]; simpl; [apply Hpre in Hq| |]; lia.
      * intros q Hq. apply Hpost in Hq. lia.
    + split.
      * apply contig_app. split; auto. simpl. repeat split; auto; try lia.
        replace (total pre + (o - p_off p) + length x + (p_len p - (o - p_off p)))
          with (total pre + p_len p + length x) by lia. exact C5.
      * apply Forall_app. split; auto. constructor; [|constructor; auto; constructor; auto].
        -- unfold inb, pbuf, p_end in *; simpl. destruct (p_orig p); lia.
        -- unfold inb, pbuf, p_end in *; simpl. destruct (p_orig p); lia.
    + rewrite ptext_app, !ptext_cons, Epre, Epost, Enew. rewrite <- !app_assoc. f_equal.
      assert (pbytes O (A ++ x) p1 = firstn (o - p_off p) (pbytes O A p)) as ->.
      { rewrite <- E2'. unfold pbytes. rewrite slice_firstn by lia. reflexivity. }
      assert (pbytes O (A ++ x) p2 = skipn (o - p_off p) (pbytes O A p)) as ->.
      { rewrite <- E2'. unfold pbytes. rewrite slice_skipn. reflexivity. }
      reflexivity.
Qed.

Lemma insert_spec o x t : wf t -> x <> [] ->
  exists t', pt_insert o x t = Ok t' /\ edited AInsert t t' (s_insert o x (txt t)).
Proof.
  intros W Hx. destruct (wf_action AInsert t W) as (Wa & Ta & Na).
  unfold pt_insert, s_insert.
  destruct (o <? length (txt t)) eqn:Eo.
  - apply Nat.ltb_lt in Eo.
    unfold edited. rewrite <- Ta in *. unfold nl_ok at 1. rewrite <- Na, <- Ta.
    set (u := pt_action AInsert t) in *. clearbody u. clear t Ta Na W.
    pose proof Wa as ((C & B) & HU & HR). rewrite txt_length in Eo by auto.
    destruct (get_node_in 0 (t_pieces u) o C) as (pre & p & post & G); [lia|].
    rewrite G. destruct (get_node_some _ _ _ _ _ _ G C) as [El Hp].
    assert (SK : seqok (t_orig u) (t_added u) (pre ++ p :: post)). { rewrite <- El. split; auto. }
    destruct (insert_pieces _ _ _ _ _ o x SK Hx Hp) as (p1 & p2 & l1 & l2 & l3 & H1 & H2 & H3 & H4 & H5 & H6).
    rewrite H1. simpl. rewrite H2. simpl. rewrite H3. simpl. rewrite H4. simpl.
    rewrite <- El in H6. fold (txt u) in H6.
    eexists. split; [reflexivity|].
    unfold wf, nl_ok, txt, utxts, rtxts, set_nl, set_pieces, add_bytes; simpl. fold (txt u).
    repeat split; auto using Forall_seqok_ext; try apply H5.
    + intro H. rewrite H, nl_insert_ok, H6; auto. rewrite txt_length; auto.
    + now apply map_ptext_ext.
    + now apply map_ptext_ext.
  - apply Nat.ltb_ge in Eo. rewrite <- Ta in Eo.
    rewrite txt_length in Eo by auto.
    rewrite (get_node_none 0) by (try apply Wa; lia).
    destruct (append_spec x (pt_action AInsert t) Wa Hx) as (t' & E & H1 & H2 & H3 & H4 & H5 & H6).
    exists t'. split; auto. unfold edited, s_append in *. rewrite action_idem in *. rewrite Ta in *.
    repeat split; auto; try apply H1. intro H. apply H3. unfold nl_ok. now rewrite Na, Ta.
Qed.
