(** C01-C07: documents as plain strings, range reads, lengths, newline cache, history. *)
From Coq Require Import String List Arith Lia Bool.
From Verif Require Import Base ListFacts PieceTable PieceTableSpec PieceTableFacts PieceTableEdits PieceTableDelete History HistoryFacts.
Import ListNotations.

(** ** C01 *)
(** Release arithmetic and a tree whose handles follow the successor: every sequence of edits on every
    non-empty document succeeds and computes the plain string edits. *)
Theorem C01_edits_match_string : forall pol s es,
  policy_wrap pol -> s <> [] -> Forall edit_ok es ->
  exists t, pt_edits pol es (pt_with_text s) = Ok t /\ pt_text t = Ok (s_edits es s).
Proof.
  intros pol s es P Hs He. destruct (sim_init s Hs) as [S _].
  destruct (edits_sim pol any_edit es (pt_with_text s) (d_init s)) as (t & E & St & T & _); auto.
  - now apply edits_ok_any.
  - intros. now apply edit_fine_wrap.
  - exists t. split; auto. rewrite pt_text_txt by apply St. now rewrite T.
Qed.
Print Assumptions C01_edits_match_string.

Theorem C01_edits_from_empty : forall pol es,
  policy_wrap pol -> Forall edit_ok es ->
  exists t, pt_edits pol es pt_new = Ok t /\ pt_text t = Ok (s_edits es []).
Proof.
  intros pol es P He. destruct sim_new as [S _].
  destruct (edits_sim pol any_edit es pt_new (d_init [])) as (t & E & St & T & _); auto.
  - now apply edits_ok_any.
  - intros. now apply edit_fine_wrap.
  - exists t. split; auto. rewrite pt_text_txt by apply St. now rewrite T.
Qed.
Print Assumptions C01_edits_from_empty.

(** Debug arithmetic: the same as long as no deletion reaches exactly the end of the document from a
    later offset than 0.  Missing w.r.t. C01: suffix deletions (see the refutation below). *)
Theorem C01_edits_debug_partial : forall pol s es,
  policy_succ pol -> s <> [] -> edits_ok delete_inside es s ->
  exists t, pt_edits pol es (pt_with_text s) = Ok t /\ pt_text t = Ok (s_edits es s).
Proof.
  intros pol s es P Hs He. destruct (sim_init s Hs) as [S _].
  destruct (edits_sim pol delete_inside es (pt_with_text s) (d_init s)) as (t & E & St & T & _); auto.
  - intros. now apply edit_fine_inside.
  - exists t. split; auto. rewrite pt_text_txt by apply St. now rewrite T.
Qed.
Print Assumptions C01_edits_debug_partial.

Example C01_hyp_met :
  edits_ok delete_inside [EInsert 1 [7;8]; EAppend [9]; EDelete 1 2; EReplace 0 1 [5;5]; EDelete 0 4] [1;2].
Proof. simpl. repeat split; try discriminate; simpl; lia. Qed.
Example C01_run : pt_edits pol_debug [EInsert 1 [7;8]; EAppend [9]; EDelete 1 2; EReplace 0 1 [5;5]] (pt_with_text [1;2])
  <> Unspec /\ s_edits [EInsert 1 [7;8]; EAppend [9]; EDelete 1 2; EReplace 0 1 [5;5]] [1;2] = [5;5;2;9].
Proof. split; [vm_compute; discriminate|reflexivity]. Qed.

(** deleting what was just appended underflows in the debug profile *)
Theorem C01_suffix_delete_refuted :
  exists s es, s <> [] /\ Forall edit_ok es /\
    pt_edits pol_debug es (pt_with_text s) = Panic "attempt to subtract with overflow".
Proof.
  exists [1;2], [EAppend [3;4;5]; EDelete 2 3]. split; [discriminate|]. split; [|reflexivity].
  repeat constructor. discriminate.
Qed.
Print Assumptions C01_suffix_delete_refuted.

(** deleting nothing at a piece boundary panics *)
Theorem C01_empty_delete_refuted : forall pol,
  exists s o, o < length s /\ pt_edits pol [EDelete o 0] (pt_with_text s) = Panic "index out of bounds: pieces[0]".
Proof. intro pol. exists [1;2], 0. split; [simpl; lia|reflexivity]. Qed.
Print Assumptions C01_empty_delete_refuted.

(** if the tree does not keep the handle on the successor, deleting an inserted fragment corrupts the document *)
Theorem C01_stale_handle_refuted :
  exists s es t, Forall edit_ok es /\ pt_edits pol_detached es (pt_with_text s) = Ok t /\
    pt_range t 3 1 = Ok None /\ 3 < length (s_edits es s).
Proof.
  exists [1;2;3;4;5], [EInsert 3 [9;9]; EDelete 3 2].
  eexists. split; [repeat constructor; discriminate|]. split; [vm_compute; reflexivity|].
  split; [vm_compute; reflexivity|vm_compute; lia].
Qed.
Print Assumptions C01_stale_handle_refuted.

(** ** C02, C03: in every state reachable by edits, undo and redo *)
Theorem C02_range_is_slice : forall pol s os,
  policy_wrap pol -> s <> [] -> Forall op_ok os ->
  exists bs t x, pt_ops pol os (pt_with_text s) = Ok (bs, t) /\ pt_text t = Ok x /\
    forall a n, pt_range t a n = Ok (if a <? length x then Some (firstn n (skipn a x)) else None).
Proof.
  intros pol s os P Hs Ho. destruct (ops_wrap pol s os P Hs Ho) as (t & E & S).
  eexists _, t, (txt t). split; [exact E|]. split; [apply pt_text_txt, S|].
  intros a n. apply range_spec. apply S.
Qed.
Print Assumptions C02_range_is_slice.

Theorem C03_length_empty_max : forall pol s os,
  policy_wrap pol -> s <> [] -> Forall op_ok os ->
  exists bs t x, pt_ops pol os (pt_with_text s) = Ok (bs, t) /\ pt_text t = Ok x /\
    pt_len t = length x /\ (pt_is_empty t = true <-> x = []) /\ pt_max_offset t = Ok (length x - 1).
Proof.
  intros pol s os P Hs Ho. destruct (ops_wrap pol s os P Hs Ho) as (t & E & S).
  pose proof S as (W & _).
  eexists _, t, (txt t). split; [exact E|]. split; [apply pt_text_txt, W|].
  split; [now apply pt_len_txt|].
  pose proof (txt_length t W) as L. destruct W as ((C & B) & W2).
  assert (pt_is_empty t = true <-> txt t = []) as Em.
  { unfold pt_is_empty. destruct (t_pieces t) as [|p r] eqn:Ep.
    - split; auto. intros _. unfold txt. rewrite Ep. reflexivity.
    - split; [discriminate|]. intro X. rewrite X in L. simpl in L, C. rewrite total_cons in L. lia. }
  split; auto. unfold pt_max_offset. destruct (pt_is_empty t) eqn:Ee.
  - destruct Em as [Em _]. rewrite Em by auto. reflexivity.
  - rewrite pt_len_txt by (split; auto; split; auto). apply sub_ok.
    destruct (txt t) eqn:X; [|simpl; lia]. destruct Em as [_ Em]. discriminate Em. reflexivity.
Qed.
Print Assumptions C03_length_empty_max.

Example C02_hyp_met : Forall op_ok [OEdit (EInsert 1 [10;8]); OEdit (EDelete 0 2); OUndo; OEdit (EReplace 1 2 [4]); OUndo; ORedo].
Proof. repeat constructor; discriminate. Qed.

(** ** C04 *)
Theorem C04_newlines_after_edits_partial : forall pol s es,
  policy_wrap pol -> s <> [] -> Forall edit_ok es ->
  exists t, pt_edits pol es (pt_with_text s) = Ok t /\ t_nl t = newline_positions (s_edits es s).
Proof.
  intros pol s es P Hs He. destruct (sim_init s Hs) as [S N].
  destruct (edits_sim pol any_edit es (pt_with_text s) (d_init s)) as (t & E & St & T & Nt); auto.
  - now apply edits_ok_any.
  - intros. now apply edit_fine_wrap.
  - exists t. split; auto. rewrite (Nt N). now rewrite T.
Qed.
Print Assumptions C04_newlines_after_edits_partial.

Theorem C04_newlines_debug_partial : forall pol s es,
  policy_succ pol -> s <> [] -> edits_ok delete_inside es s ->
  exists t, pt_edits pol es (pt_with_text s) = Ok t /\ t_nl t = newline_positions (s_edits es s).
Proof.
  intros pol s es P Hs He. destruct (sim_init s Hs) as [S N].
  destruct (edits_sim pol delete_inside es (pt_with_text s) (d_init s)) as (t & E & St & T & Nt); auto.
  - intros. now apply edit_fine_inside.
  - exists t. split; auto. rewrite (Nt N). now rewrite T.
Qed.
Print Assumptions C04_newlines_debug_partial.

(** after an undo the cache still describes the undone text *)
Theorem C04_undo_refuted : forall pol,
  exists s os bs t x, Forall op_ok os /\ pt_ops pol os (pt_with_text s) = Ok (bs, t) /\ pt_text t = Ok x /\
    t_nl t <> newline_positions x.
Proof.
  intro pol. exists [97;10], [OEdit (EAppend [98;10]); OUndo].
  eexists _, _, _. split; [repeat constructor; discriminate|].
  split; [vm_compute; reflexivity|]. split; [vm_compute; reflexivity|]. vm_compute. discriminate.
Qed.
Print Assumptions C04_undo_refuted.

(** ** C05 *)
(** answers of undo/redo and text after any sequence of edits, undos and redos are those of the plain
    history of texts of History.v *)
Theorem C05_history : forall pol s os,
  policy_wrap pol -> s <> [] -> Forall op_ok os ->
  exists t, pt_ops pol os (pt_with_text s) = Ok (fst (d_ops os (d_init s)), t) /\
            pt_text t = Ok (d_text (snd (d_ops os (d_init s)))).
Proof.
  intros pol s os P Hs Ho. destruct (ops_wrap pol s os P Hs Ho) as (t & E & S).
  exists t. split; auto. rewrite pt_text_txt by apply S. f_equal. apply S.
Qed.
Print Assumptions C05_history.

(** undo brings back the text before the latest run of same-kind edits *)
Theorem C05_undo_run : forall pol s os bs t1 x k e es,
  policy_wrap pol -> s <> [] -> Forall op_ok os -> Forall edit_ok (e :: es) ->
  k <> None -> Forall (fun e => edit_kind e = k) (e :: es) ->
  pt_ops pol os (pt_with_text s) = Ok (bs, t1) -> pt_text t1 = Ok x -> fresh_for k os bs ->
  exists t2, pt_ops pol (os ++ map OEdit (e :: es) ++ [OUndo]) (pt_with_text s)
               = Ok (bs ++ map (fun _ => true) (e :: es) ++ [true], t2) /\ pt_text t2 = Ok x.
Proof.
  intros pol s os bs t1 x k e es P Hs Ho He Hk Hkind E1 T1 Hf.
  destruct (ops_wrap pol s os P Hs Ho) as (t & E & S). rewrite E1 in E. inversion E; subst bs t. clear E.
  assert (x = d_text (snd (d_ops os (d_init s)))) as Ex.
  { rewrite pt_text_txt in T1 by apply S. destruct S as (_ & _ & S & _). congruence. }
  destruct (ops_wrap pol s (os ++ map OEdit (e :: es) ++ [OUndo]) P Hs) as (t2 & E2 & S2).
  { apply Forall_app. split; auto. apply Forall_app. split; [|repeat constructor].
    rewrite Forall_map. eapply Forall_impl; [|exact He]. auto. }
  exists t2. rewrite E2. rewrite pt_text_txt by apply S2.
  destruct S2 as (_ & _ & S2 & _). rewrite S2.
  rewrite !d_ops_app in *. cbn [fst snd] in *. rewrite run_edits_true.
  assert (d_past (snd (d_ops (map OEdit (e :: es)) (snd (d_ops os (d_init s))))) =
          x :: d_past (snd (d_ops os (d_init s)))) as Hpast.
  { inversion Hkind; subst. apply (run_step (edit_kind e)); auto. apply fresh_run; auto. }
  set (d2 := snd (d_ops (map OEdit (e :: es)) (snd (d_ops os (d_init s))))) in *.
  unfold d_ops, d_op, d_undo. rewrite Hpast. cbn. auto.
Qed.
Print Assumptions C05_undo_run.

(** n successful undos followed by n redos: all redos succeed and the text is restored *)
Theorem C05_undo_redo_n : forall pol s os n bs t0 x us t1,
  policy_wrap pol -> s <> [] -> Forall op_ok os ->
  pt_ops pol os (pt_with_text s) = Ok (bs, t0) -> pt_text t0 = Ok x ->
  pt_ops pol (os ++ iter_op n OUndo) (pt_with_text s) = Ok (bs ++ us, t1) -> Forall (fun b => b = true) us ->
  exists rs t2, pt_ops pol (os ++ iter_op n OUndo ++ iter_op n ORedo) (pt_with_text s) = Ok (bs ++ us ++ rs, t2) /\
    Forall (fun b => b = true) rs /\ pt_text t2 = Ok x.
Proof.
  intros pol s os n bs t0 x us t1 P Hs Ho E0 T0 E1 Hus.
  assert (Forall op_ok (iter_op n OUndo)) as O1 by (clear; induction n; simpl; auto; constructor; simpl; auto).
  assert (Forall op_ok (iter_op n ORedo)) as O2 by (clear; induction n; simpl; auto; constructor; simpl; auto).
  destruct (ops_wrap pol s os P Hs Ho) as (t & E & S). rewrite E0 in E. inversion E; subst bs t. clear E.
  destruct (ops_wrap pol s (os ++ iter_op n OUndo) P Hs) as (t & E & S1); [now apply Forall_app|].
  rewrite E1 in E. rewrite d_ops_app in E. cbn [fst snd] in E. inversion E as [[Eb Et]]. clear E.
  apply app_inv_head in Eb. subst us.
  set (d := snd (d_ops os (d_init s))) in *.
  destruct (undos_redos n d Hus) as (H1 & H2 & H3 & H4).
  destruct (ops_wrap pol s (os ++ iter_op n OUndo ++ iter_op n ORedo) P Hs) as (t2 & E2 & S2).
  { apply Forall_app; split; auto. apply Forall_app; auto. }
  rewrite E2. rewrite !d_ops_app. cbn [fst snd]. fold d.
  eexists _, t2. split; [reflexivity|]. rewrite d_ops_app in H4. cbn [fst] in H4.
  apply Forall_app in H4. split; [tauto|].
  rewrite pt_text_txt by apply S2. destruct S2 as (_ & _ & S2 & _). rewrite S2.
  rewrite d_ops_app. cbn [snd]. fold d. rewrite H1. rewrite pt_text_txt in T0 by apply S. 
  destruct S as (_ & _ & S & _). congruence.
Qed.
Print Assumptions C05_undo_redo_n.

(** redo after an edit is refused and changes nothing; undo on a fresh document too *)
Theorem C05_edit_discards_redo : forall pol s os e,
  policy_wrap pol -> s <> [] -> Forall op_ok os -> edit_ok e ->
  exists bs t, pt_ops pol (os ++ [OEdit e]) (pt_with_text s) = Ok (bs, t) /\ pt_redo t = (false, t).
Proof.
  intros pol s os e P Hs Ho He.
  destruct (ops_wrap pol s (os ++ [OEdit e]) P Hs) as (t & E & S); [apply Forall_app; auto|].
  eexists _, t. split; [exact E|]. rewrite d_ops_app in S. simpl in S.
  assert (d_future (d_edit e (snd (d_ops os (d_init s)))) = []) as F.
  { apply edit_no_future, run_inv_ops, run_inv_init. }
  destruct S as (_ & _ & _ & _ & _ & S). rewrite F in S. unfold pt_redo. unfold rtxts in S.
  destruct (t_redos t); [reflexivity|discriminate].
Qed.
Print Assumptions C05_edit_discards_redo.

Theorem C05_nothing_to_undo : forall s, pt_undo (pt_with_text s) = (false, pt_with_text s) /\
  pt_redo (pt_with_text s) = (false, pt_with_text s).
Proof. intro s. split; reflexivity. Qed.

Example C05_run_met : exists bs t1, pt_ops pol_wrap [OEdit (EInsert 0 [5]); OEdit (EDelete 1 1)] (pt_with_text [1;2]) = Ok (bs, t1)
  /\ fresh_for (Some KIns) [OEdit (EInsert 0 [5]); OEdit (EDelete 1 1)] bs.
Proof. eexists _, _. split; [vm_compute; reflexivity|]. unfold fresh_for; simpl. left. discriminate. Qed.
Example C05_undo_n_met : exists t, pt_ops pol_wrap ([OEdit (EInsert 0 [5]); OEdit (EDelete 1 1)] ++ iter_op 2 OUndo) (pt_with_text [1;2])
  = Ok ([true;true] ++ [true;true], t).
Proof. eexists. vm_compute; reflexivity. Qed.

(** ** C06: replace is one undo step, whatever came before *)
Theorem C06_replace_one_step : forall pol s os o n r bs t x,
  policy_wrap pol -> s <> [] -> Forall op_ok os -> 0 < n -> r <> [] ->
  pt_ops pol os (pt_with_text s) = Ok (bs, t) -> pt_text t = Ok x ->
  exists t2, pt_ops pol (os ++ [OEdit (EReplace o n r); OUndo]) (pt_with_text s) = Ok (bs ++ [true; true], t2) /\
    pt_text t2 = Ok x.
Proof.
  intros pol s os o n r bs t1 x P Hs Ho Hn Hr E1 T1.
  destruct (ops_wrap pol s os P Hs Ho) as (t & E & S). rewrite E1 in E. inversion E; subst bs t. clear E.
  destruct (ops_wrap pol s (os ++ [OEdit (EReplace o n r); OUndo]) P Hs) as (t2 & E2 & S2).
  { apply Forall_app. split; auto. repeat constructor; auto. }
  exists t2. rewrite E2, d_ops_app. split; [reflexivity|].
  rewrite pt_text_txt by apply S2. rewrite pt_text_txt in T1 by apply S.
  destruct S2 as (_ & _ & S2 & _). destruct S as (_ & _ & S & _). rewrite S2, d_ops_app. simpl. congruence.
Qed.
Print Assumptions C06_replace_one_step.

(** ** C07 *)
Theorem C07_compaction_invisible : forall pol s os,
  policy_wrap pol -> s <> [] -> Forall op_ok os ->
  exists bs t, pt_ops pol os (pt_with_text s) = Ok (bs, t) /\
    pt_text (pt_commit t) = pt_text t /\ pt_len (pt_commit t) = pt_len t /\
    (forall a n, pt_range (pt_commit t) a n = pt_range t a n) /\
    no_mergeable (t_pieces (pt_commit t)).
Proof.
  intros pol s os P Hs Ho. destruct (ops_wrap pol s os P Hs Ho) as (t & E & (W & _)).
  eexists _, t. split; [exact E|]. destruct (wf_commit t W) as [Wc Tc].
  rewrite !pt_text_txt, !pt_len_txt by auto. rewrite Tc. repeat split; auto.
  - intros a n. rewrite !range_spec by auto. now rewrite Tc.
  - apply repack_no_mergeable.
Qed.
Print Assumptions C07_compaction_invisible.
