(** C06 (diff application), C13-C15: edit scripts. *)
From Coq Require Import String List Arith Lia Bool.
From Verif Require Import Base ListFacts PieceTable PieceTableSpec PieceTableFacts PieceTableEdits PieceTableDelete
  History HistoryFacts Utf8 Diff DiffSpec DiffFacts DiffApply LineSpec.
Import ListNotations.

(** ** C13 *)
(** A script that accounts for both texts transforms one into the other.  Missing w.r.t. C13: scripts that do
    not (see the refutations). *)
Theorem C13_covering_partial : forall l r ds, diff l r = Ok ds -> covers ds l r -> apply_script ds l r = r.
Proof.
  intros l r ds H [Cl Cr]. destruct (diff_shape l r ds H) as [(p & a & b & -> & -> & Hp & ->)|(p & a1 & a2 & b1 & b2 & q & ds1 & -> & -> & La & Lb & S & ->)].
  - simpl in Cl, Cr. rewrite app_length in Cl, Cr. assert (a = []) as -> by (apply length_zero_iff_nil; lia).
    assert (b = []) as -> by (apply length_zero_iff_nil; lia). simpl. now rewrite firstn_skipn.
  - destruct (script_lens _ _ _ S) as [L1 L2].
    assert (left_len (push (length q) (CBoth (length q)) ds1) = left_len ds1 + length q /\
            right_len (push (length q) (CBoth (length q)) ds1) = right_len ds1 + length q) as [E1 E2].
    { unfold push. destruct q; simpl; [lia|]. rewrite left_len_app, right_len_app. simpl. lia. }
    rewrite E1, L1 in Cl. rewrite E2, L2 in Cr. rewrite !app_length in *.
    assert (a2 = []) as -> by (apply length_zero_iff_nil; lia).
    assert (b2 = []) as -> by (apply length_zero_iff_nil; lia).
    rewrite !app_nil_r, !app_assoc. 
    assert (script (push (length q) (CBoth (length q)) ds1) ((p ++ a1) ++ q) ((p ++ b1) ++ q)) as S'.
    { now apply script_push_b. }
    pose proof (script_apply _ _ _ [] [] S') as X. rewrite !app_nil_r in X. exact X.
Qed.
Print Assumptions C13_covering_partial.

(** When it neither starts with a common prefix that hides the rest nor panics, the script misses at most one
    byte: with [p], [q] the common prefix and suffix, the result is [p ++ b1 ++ a2 ++ q] where the right text is
    [p ++ b1 ++ b2 ++ q] and [a2], [b2] have at most one byte. *)
Theorem C13_error_bound_partial : forall l r ds, diff l r = Ok ds ->
  (forall n, ds <> [CBoth n]) ->
  exists p b1 b2 a2 q, r = p ++ b1 ++ b2 ++ q /\ apply_script ds l r = p ++ b1 ++ a2 ++ q /\
    length a2 <= 1 /\ length b2 <= 1 /\ (exists a1, l = p ++ a1 ++ a2 ++ q).
Proof.
  intros l r ds H Hb. destruct (diff_shape l r ds H) as [(p & a & b & -> & -> & Hp & ->)|(p & a1 & a2 & b1 & b2 & q & ds1 & -> & -> & La & Lb & S & ->)].
  - exfalso. eapply Hb. reflexivity.
  - exists p, b1, b2, a2, q. rewrite <- !app_assoc. repeat split; auto.
    + unfold push. destruct (0 <? length q) eqn:E.
      * replace (p ++ a1 ++ a2 ++ q) with ((p ++ a1) ++ a2 ++ q) by now rewrite <- app_assoc.
        replace (p ++ b1 ++ b2 ++ q) with ((p ++ b1) ++ b2 ++ q) by now rewrite <- app_assoc.
        rewrite (script_apply_more _ _ _ _ _ _ S). simpl. rewrite firstn_skipn. now rewrite <- app_assoc.
      * apply Nat.ltb_ge in E. assert (q = []) as -> by (apply length_zero_iff_nil; lia). rewrite !app_nil_r.
        replace (p ++ a1 ++ a2) with ((p ++ a1) ++ a2) by now rewrite <- app_assoc.
        replace (p ++ b1 ++ b2) with ((p ++ b1) ++ b2) by now rewrite <- app_assoc.
        rewrite (script_apply _ _ _ _ _ S). now rewrite <- app_assoc.
    + eauto.
Qed.
Print Assumptions C13_error_bound_partial.

(** equal texts *)
Theorem C13_same_text : forall l, l <> [] -> diff l l = Ok [CBoth (length l)] /\ apply_script [CBoth (length l)] l l = l.
Proof.
  intros l H. assert (0 < length l) by (destruct l; [congruence|simpl; lia]). split.
  - unfold diff, precompute. rewrite agree_same, skipn_all. simpl.
    assert ((length l =? 0) || true = true) as -> by (now rewrite orb_true_r). unfold push.
    assert (0 <? length l = true) as -> by (now apply Nat.ltb_lt). reflexivity.
  - simpl. rewrite firstn_all, skipn_all. apply app_nil_r.
Qed.
Print Assumptions C13_same_text.

(** no panic when both texts are non-empty, begin differently and end differently *)
Theorem C13_no_panic_partial : forall x l y m x' r y' m',
  l = x :: m -> r = x' :: m' -> x <> x' -> last l x = y -> last r x' = y' -> y <> y' ->
  exists ds, diff l r = Ok ds.
Proof.
  intros x l y m x' r y' m' -> -> Hx Hy Hy' Hne. apply diff_ok.
  - intros s _. right. split; discriminate.
  - intros s e E. exfalso. unfold precompute in E.
    assert (agree (x :: m) (x' :: m') = 0) as X0 by (simpl; apply Nat.eqb_neq in Hx; now rewrite Hx). rewrite X0 in E.
    cbn [skipn] in E.
    assert (agree (rev (x :: m)) (rev (x' :: m')) = 0) as X.
    { assert (forall (z : nat) l, l <> [] -> exists r, rev l = last l z :: r) as R.
      { clear. intros z l H. destruct l as [|a l] using rev_ind; [congruence|]. rewrite rev_unit, last_last. eauto. }
      destruct (R x (x :: m)) as (u & ->); [discriminate|]. destruct (R x' (x' :: m')) as (v & ->); [discriminate|].
      rewrite Hy, Hy'. simpl. apply Nat.eqb_neq in Hne. now rewrite Hne. }
    rewrite X in E. simpl in E. discriminate.
Qed.
Print Assumptions C13_no_panic_partial.
Example C13_met : exists ds, diff [97;98;99;120;121] [98;100;99;122;123] = Ok ds /\ covers ds [97;98;99;120;121] [98;100;99;122;123]
  /\ ds = [CLeft 1; CBoth 1; CLeft 3; CRight 4].
Proof. eexists. split; [vm_compute; reflexivity|]. split; vm_compute; auto. Qed.

(** "ab" -> "ac": only the common prefix is kept, the change is lost *)
Theorem C13_prefix_refuted : exists l r ds, diff l r = Ok ds /\ apply_script ds l r <> r.
Proof. exists [97;98], [97;99]. eexists. split; [vm_compute; reflexivity|]. vm_compute. discriminate. Qed.
Print Assumptions C13_prefix_refuted.
(** in general: a common prefix and no common suffix, any texts that differ *)
Theorem C13_prefix_general_refuted : forall p a b, p <> [] -> a <> b -> agree a b = 0 -> agree (rev a) (rev b) = 0 ->
  diff (p ++ a) (p ++ b) = Ok [CBoth (length p)] /\
  apply_script [CBoth (length p)] (p ++ a) (p ++ b) <> p ++ b.
Proof.
  intros p a b Hp Hab E1 E2. split.
  - unfold diff, precompute. rewrite agree_app, E1, Nat.add_0_r, !skipn_app, !skipn_all, Nat.sub_diag. simpl.
    rewrite E2. simpl. rewrite orb_true_r. unfold push.
    assert (0 <? length p = true) as -> by (apply Nat.ltb_lt; destruct p; [congruence|simpl; lia]). reflexivity.
  - simpl. rewrite firstn_skipn. intro X. apply app_inv_head in X. congruence.
Qed.
Print Assumptions C13_prefix_general_refuted.
(** single differing trailing byte; insertion between a longer prefix and a suffix; empty side *)
Theorem C13_single_byte_refuted : exists l r ds, diff l r = Ok ds /\ apply_script ds l r = l /\ l <> r.
Proof. exists [97], [98]. eexists. split; [vm_compute; reflexivity|]. split; [reflexivity|discriminate]. Qed.
Print Assumptions C13_single_byte_refuted.
Theorem C13_pure_insertion_refuted : diff [97;97;98] [97;97;120;98] = Panic "attempt to subtract with overflow".
Proof. vm_compute. reflexivity. Qed.
Print Assumptions C13_pure_insertion_refuted.
Theorem C13_empty_side_refuted : forall s, diff [] s = Panic "attempt to subtract with overflow".
Proof. intro s. unfold diff. replace (precompute [] s) with (0, @None nat) by reflexivity. cbn [Nat.ltb Nat.leb]. now rewrite find_lcs_empty_l. Qed.
Print Assumptions C13_empty_side_refuted.

(** ** C15 *)
(** common to both; longest is false in general (below), true for equal texts *)
Theorem C15_common_partial : forall l r, l <> [] -> r <> [] ->
  exists c, find_lcs l r = Ok c /\ subseq c l /\ subseq c r.
Proof. exact find_lcs_ok. Qed.
Print Assumptions C15_common_partial.
Theorem C15_equal_texts : forall l, l <> [] -> find_lcs l l = Ok l.
Proof. exact find_lcs_same. Qed.
Print Assumptions C15_equal_texts.
Theorem C15_longest_refuted : exists l r c d, find_lcs l r = Ok c /\ subseq d l /\ subseq d r /\ length c < length d.
Proof.
  exists [97;90;113;98;90], [97;98;90], [98;90], [97;98;90]. split; [vm_compute; reflexivity|].
  split; [|split; [apply subseq_refl|simpl; lia]].
  apply sub_take, sub_skip, sub_skip, sub_take, sub_take. constructor.
Qed.
Print Assumptions C15_longest_refuted.

(** ** C14, C06: applying a diff to a document *)
(** Hypotheses: [t] is any document reached by edits, undos and redos; its decoded text is its bytes [x]
    (true of every ASCII text); the computed script covers both texts. *)
Theorem C14_apply_diff_partial : forall pol init os bs t x s ds,
  policy_wrap pol -> init <> [] -> Forall op_ok os -> pt_ops pol os (pt_with_text init) = Ok (bs, t) ->
  pt_text t = Ok x -> ascii x -> ascii s -> diff x s = Ok ds -> covers ds x s ->
  exists t', pt_apply_diff pol s t = Ok t' /\ pt_text t' = Ok s /\
    exists t0, pt_undo t' = (true, t0) /\ pt_text t0 = Ok x.
Proof.
  intros pol init os bs t x s ds P Hi Ho E T Ax As Ed C.
  destruct (ops_wrap pol init os P Hi Ho) as (t1 & E1 & S). rewrite E in E1. inversion E1; subst t1 bs. clear E1.
  set (d := snd (d_ops os (d_init init))) in *. clearbody d.
  assert (d_text d = x) as Dx. { rewrite pt_text_txt in T by apply S. destruct S as (_ & _ & S & _). congruence. }
  assert (pt_string t = Ok x) as Ts by (apply pt_string_ascii; auto; apply S).
  destruct (diff_fits _ _ _ Ed) as (_ & F1 & F2).
  destruct (apply_diff_ok pol s t d x ds P S Ts Ed) as (t' & Ea & S' & _).
  { apply ascii_on_chars; auto. }
  exists t'. split; auto.
  assert (s_changes s ds 0 0 (d_text d) = s) as Es.
  { rewrite Dx. pose proof (s_changes_script s ds 0 0 [] x eq_refl F1 F2) as X. simpl in X. rewrite X.
    now apply C13_covering_partial. }
  rewrite Es in S'. split.
  - rewrite pt_text_txt by apply S'. f_equal. apply S'.
  - destruct (undo_sim _ _ S') as [U1 U2]. simpl in U1, U2. exists (snd (pt_undo t')).
    split; [rewrite <- U1; now destruct (pt_undo t')|]. rewrite pt_text_txt by apply U2. f_equal. rewrite <- Dx. apply U2.
Qed.
Print Assumptions C14_apply_diff_partial.

(** whatever the script, a successful diff application is undone by one undo *)
Theorem C06_diff_one_step : forall pol init os bs t x s t',
  policy_wrap pol -> init <> [] -> Forall op_ok os -> pt_ops pol os (pt_with_text init) = Ok (bs, t) ->
  pt_text t = Ok x -> pt_apply_diff pol s t = Ok t' ->
  exists t0, pt_undo t' = (true, t0) /\ pt_text t0 = Ok x.
Proof.
  intros pol init os bs t x s t' P Hi Ho E T Ea.
  destruct (ops_wrap pol init os P Hi Ho) as (t1 & E1 & S). rewrite E in E1. inversion E1; subst t1 bs. clear E1.
  set (d := snd (d_ops os (d_init init))) in *. clearbody d.
  assert (d_text d = x) as Dx. { rewrite pt_text_txt in T by apply S. destruct S as (_ & _ & S & _). congruence. }
  pose proof Ea as Ea'. unfold pt_apply_diff in Ea'.
  destruct (pt_string t) as [o| |] eqn:Eo; simpl in Ea'; try discriminate.
  destruct (diff o s) as [ds| |] eqn:Ed; simpl in Ea'; try discriminate.
  destruct (foldM (apply_change pol s) ds (0, 0, pt_start_bulk t)) as [r| |] eqn:Ef; simpl in Ea'; try discriminate.
  pose proof (changes_on_chars _ _ _ _ _ _ _ Ef) as C.
  destruct (apply_diff_ok pol s t d o ds P S Eo Ed C) as (t2 & E2 & S' & _). rewrite Ea in E2. inversion E2; subst t2.
  destruct (undo_sim _ _ S') as [U1 U2]. simpl in U1, U2. exists (snd (pt_undo t')).
  split; [rewrite <- U1; now destruct (pt_undo t')|]. rewrite pt_text_txt by apply U2. f_equal. rewrite <- Dx. apply U2.
Qed.
Print Assumptions C06_diff_one_step.
(** Beyond ASCII: for a document that reads as its bytes do (its pieces do not split characters), whenever the script does not split a character of the
    new text (then the call panics, C14_char_boundary_refuted) and covers both texts. *)
Lemma apply_diff_chars pol s t x ds t' : pt_string t = Ok x -> diff x s = Ok ds -> pt_apply_diff pol s t = Ok t' -> on_chars s ds 0.
Proof.
  intros Ts Ed Ea. unfold pt_apply_diff in Ea. rewrite Ts in Ea. cbn [bind] in Ea. rewrite Ed in Ea. cbn [bind] in Ea.
  destruct (foldM (apply_change pol s) ds (0, 0, pt_start_bulk t)) as [r| |] eqn:Ef; simpl in Ea; try discriminate. exact (changes_on_chars _ _ _ _ _ _ _ Ef).
Qed.
Theorem C14_any_text_partial : forall pol init os bs t x s ds t',
  policy_wrap pol -> init <> [] -> Forall op_ok os -> pt_ops pol os (pt_with_text init) = Ok (bs, t) ->
  pt_text t = Ok x -> pt_string t = Ok x -> diff x s = Ok ds -> covers ds x s -> pt_apply_diff pol s t = Ok t' ->
  pt_text t' = Ok s /\ exists t0, pt_undo t' = (true, t0) /\ pt_text t0 = Ok x.
Proof.
  intros pol init os bs t x s ds t' P Hi Ho E T Ts Ed C Ea. split; [|exact (C06_diff_one_step pol init os bs t x s t' P Hi Ho E T Ea)].
  destruct (ops_wrap pol init os P Hi Ho) as (t1 & E1 & S). rewrite E in E1. inversion E1; subst t1 bs. clear E1.
  set (d := snd (d_ops os (d_init init))) in *. clearbody d.
  assert (d_text d = x) as Dx. { rewrite pt_text_txt in T by apply S. destruct S as (_ & _ & S & _). congruence. }
  destruct (diff_fits _ _ _ Ed) as (_ & F1 & F2). pose proof (apply_diff_chars _ _ _ _ _ _ Ts Ed Ea) as Oc.
  destruct (apply_diff_ok pol s t d x ds P S Ts Ed Oc) as (t2 & E2 & S' & _). rewrite Ea in E2. injection E2 as <-.
  rewrite pt_text_txt by apply S'. f_equal. destruct S' as (_ & _ & -> & _). cbn [d_text]. rewrite Dx.
  pose proof (s_changes_script s ds 0 0 [] x eq_refl F1 F2) as X. simpl in X. rewrite X. now apply C13_covering_partial.
Qed.
Print Assumptions C14_any_text_partial.
(** "éab" becomes "écd" *)
Example C14_any_text_met : exists ds t', let x := [195;169;97;98;10] in let s := [195;169;99;100;10] in
  diff x s = Ok ds /\ pt_text (pt_with_text x) = Ok x /\ pt_string (pt_with_text x) = Ok x /\ pt_apply_diff pol_wrap s (pt_with_text x) = Ok t' /\ covers ds x s.
Proof. eexists _, _. cbv zeta. split; [vm_compute; reflexivity|]. split; [vm_compute; reflexivity|]. split; [vm_compute; reflexivity|]. split; [vm_compute; reflexivity|vm_compute; auto]. Qed.

Example C14_met : exists ds t', diff [97;98;10] [99;100;10] = Ok ds /\ covers ds [97;98;10] [99;100;10] /\
  pt_apply_diff pol_wrap [99;100;10] (pt_with_text [97;98;10]) = Ok t' /\ pt_text t' = Ok [99;100;10].
Proof. eexists _, _. split; [vm_compute; reflexivity|]. split; [vm_compute; auto|]. split; vm_compute; reflexivity. Qed.

(** "a\n" on disk becomes "b\n": the buffer keeps "a\n" *)
Theorem C14_reload_refuted : exists x s t', x <> s /\ pt_apply_diff pol_wrap s (pt_with_text x) = Ok t' /\ pt_text t' = Ok x.
Proof. exists [97;10], [98;10]. eexists. split; [discriminate|]. split; vm_compute; reflexivity. Qed.
Print Assumptions C14_reload_refuted.
(** a file whose new content is one character that does not occur in the old one: the buffer is emptied *)
Theorem C14_emptied_refuted : exists x s t', x <> [] /\ s <> [] /\ pt_apply_diff pol_wrap s (pt_with_text x) = Ok t' /\ pt_is_empty t' = true.
Proof. exists [97;98;10], [99]. eexists. split; [discriminate|]. split; [discriminate|]. split; vm_compute; reflexivity. Qed.
Print Assumptions C14_emptied_refuted.
(** the inserted run can start in the middle of a character: "xé1z\n" -> "yè2wv\n" *)
Theorem C14_char_boundary_refuted :
  pt_apply_diff pol_wrap [121;195;168;50;119;118;10] (pt_with_text [120;195;169;49;122;10]) = Panic "byte index is not a char boundary".
Proof. vm_compute. reflexivity. Qed.
Print Assumptions C14_char_boundary_refuted.
