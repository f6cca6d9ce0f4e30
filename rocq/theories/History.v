(** Edit sequences and undo/redo: simulation of the piece table by a plain history of texts.
    First half: specification (no pieces); second half: proofs. *)
From Coq Require Import List Arith Lia Bool.
From Verif Require Import Base ListFacts PieceTable PieceTableSpec PieceTableFacts PieceTableEdits PieceTableDelete.
Import ListNotations.

(** ** Operations on a document *)
Inductive op := OEdit (e : edit) | OUndo | ORedo.

(** model side: undo/redo mod.rs:244-264, edits as in [pt_edit]; the boolean is the answer of undo/redo *)
Definition pt_op (pol : policy) (o : op) (t : pt) : res (bool * pt) :=
  match o with
  | OEdit e => t' <- pt_edit pol e t ;; Ok (true, t')
  | OUndo => Ok (pt_undo t)
  | ORedo => Ok (pt_redo t)
  end.
Fixpoint pt_ops (pol : policy) (os : list op) (t : pt) : res (list bool * pt) :=
  match os with
  | [] => Ok ([], t)
  | o :: r => '(b, t1) <- pt_op pol o t ;; '(bs, t2) <- pt_ops pol r t1 ;; Ok (b :: bs, t2)
  end.

(** ** Specification: a current text, texts to go back to, texts to go forward to, and the kind of
    the run of edits in progress (if any) *)
Inductive kind := KIns | KDel.
Definition kind_eqb a b := match a, b with KIns, KIns | KDel, KDel => true | _, _ => false end.
Record doc := mkDoc { d_text : text; d_run : option kind; d_past : list text; d_future : list text }.

(** a new step is recorded unless the edit continues a run of the same kind *)
Definition d_begin (k : option kind) (d : doc) : doc :=
  match k, d_run d with
  | Some a, Some b => if kind_eqb a b then d else mkDoc (d_text d) k (d_text d :: d_past d) []
  | _, _ => mkDoc (d_text d) k (d_text d :: d_past d) []
  end.
Definition edit_kind (e : edit) : option kind :=
  match e with EAppend _ | EInsert _ _ => Some KIns | EDelete _ _ => Some KDel | EReplace _ _ _ => None end.
Definition d_edit (e : edit) (d : doc) : doc :=
  let d1 := d_begin (edit_kind e) d in
  mkDoc (s_edit e (d_text d)) (edit_kind e) (d_past d1) (d_future d1).
Definition d_undo (d : doc) : bool * doc :=
  match d_past d with
  | s :: p => (true, mkDoc s None p (d_text d :: d_future d))
  | [] => (false, d)
  end.
Definition d_redo (d : doc) : bool * doc :=
  match d_future d with
  | s :: f => (true, mkDoc s None (d_text d :: d_past d) f)
  | [] => (false, d)
  end.
Definition d_op (o : op) (d : doc) : bool * doc :=
  match o with OEdit e => (true, d_edit e d) | OUndo => d_undo d | ORedo => d_redo d end.
Fixpoint d_ops (os : list op) (d : doc) : list bool * doc :=
  match os with
  | [] => ([], d)
  | o :: r => let '(b, d1) := d_op o d in let '(bs, d2) := d_ops r d1 in (b :: bs, d2)
  end.
Definition d_init (s : text) : doc := mkDoc s None [] [].

(** deletions whose end is not the end of the document (or that delete nothing / everything) *)
Definition delete_inside (e : edit) (s : text) : Prop :=
  match e with
  | EDelete o n | EReplace o n _ => o + n < length s \/ length s <= o \/ (o = 0 /\ n = length s)
  | _ => True
  end.

(** Contract expected from the tree (see [stale]): if pieces remain after the removed ones the handle
    denotes the next one. *)
Definition policy_succ (pol : policy) : Prop :=
  forall pre hit rest, rest <> [] -> pol pre hit rest = StaleSucc.
(** ... and otherwise updating the removed node is harmless (wrapping arithmetic). *)
Definition policy_wrap (pol : policy) : Prop :=
  policy_succ pol /\ forall pre hit, pol pre hit [] = StaleWrap.

(** ** Proofs *)
Definition run_of (a : option action) : option kind :=
  match a with Some AInsert => Some KIns | Some ADelete => Some KDel | _ => None end.
Definition sim (t : pt) (d : doc) : Prop :=
  wf t /\ t_last t <> Some ABulk /\
  txt t = d_text d /\ run_of (t_last t) = d_run d /\ utxts t = d_past d /\ rtxts t = d_future d.

Lemma wf_set_last t a : wf t -> wf (set_last t a).
Proof. auto. Qed.

Lemma commit_hist t : wf t -> utxts (pt_commit t) = txt t :: utxts t /\ rtxts (pt_commit t) = [].
Proof.
  intros (H & _). unfold utxts, rtxts, pt_commit; simpl. split; auto. f_equal.
  now destruct (repack_spec _ _ _ H) as (_ & _ & ?).
Qed.

Lemma action_hist a k t d : sim t d -> a <> ABulk -> run_of (Some a) = Some k ->
  utxts (pt_action a t) = d_past (d_begin (Some k) d) /\
  rtxts (pt_action a t) = d_future (d_begin (Some k) d) /\
  t_last (pt_action a t) = Some a.
Proof.
  intros (W & NB & T & R & U & F) Ha Hk. destruct (commit_hist t W) as [CU CR].
  destruct d as [dt dr dp df]; simpl in T, R, U, F. subst dt dr dp df. unfold d_begin; simpl.
  destruct (t_last t) as [[]|] eqn:L; [congruence| | |];
  destruct a; try congruence; simpl in Hk; inversion Hk; subst;
  unfold pt_action; rewrite L; simpl; auto.
Qed.

Lemma bulk_start t d : sim t d ->
  let u := pt_start_bulk t in
  wf u /\ txt u = txt t /\ t_nl u = t_nl t /\ t_last u = Some ABulk /\
  utxts u = d_text d :: d_past d /\ rtxts u = [].
Proof.
  intros (W & NB & T & R & U & F). unfold pt_start_bulk.
  destruct (wf_action ABulk t W) as (H1 & H2 & H3). destruct (commit_hist t W) as [CU CR].
  rewrite <- T, <- U.
  unfold pt_action in *. destruct (t_last t) as [[]|] eqn:L; [congruence| | |]; simpl in *; auto 10.
Qed.

Lemma action_bulk a t : t_last t = Some ABulk -> pt_action a t = t.
Proof. intro H. unfold pt_action. now rewrite H. Qed.

(** Does the tree behave well for this deletion? *)
Definition delete_fine (pol : policy) (o n : nat) (t : pt) : Prop :=
  forall pre hit rest, t_pieces (pt_action ADelete t) = pre ++ hit ++ rest ->
     total pre = o -> hit <> [] -> total pre + total hit <= o + n ->
     stale_fine n (pol pre hit rest) rest.

Lemma contig_total_zero l b : contig b l -> total l = 0 -> l = [].
Proof. destruct l as [|p r]; auto. simpl. unfold total. simpl. intros (_ & L & _) E. lia. Qed.

Lemma delete_fine_inside pol o n t : wf t -> 0 < n -> policy_succ pol ->
  (o + n < length (txt t) \/ length (txt t) <= o) -> delete_fine pol o n t.
Proof.
  intros W Hn P H pre hit rest E Hp Hh Ht.
  destruct (wf_action ADelete t W) as (Wa & Ta & _). rewrite <- Ta in H. rewrite txt_length in H by auto.
  destruct Wa as ((C & _) & _). rewrite E in *. rewrite !total_app in H.
  destruct rest as [|r rs].
  - exfalso. destruct H as [H|H]; unfold total at 3 in H; simpl in H; [lia|].
    apply contig_app in C. destruct C as [_ C]. apply contig_app in C. destruct C as [C _].
    apply Hh. apply (contig_total_zero _ _ C). lia.
  - rewrite P by congruence. simpl. congruence.
Qed.

Lemma delete_fine_wrap pol o n t : policy_wrap pol -> delete_fine pol o n t.
Proof.
  intros [P1 P2] pre hit rest _ _ _ _. destruct rest; [rewrite P2|rewrite P1]; simpl; congruence.
Qed.

(** whole deletion never reaches the tree *)
Lemma delete_whole pol n t : wf t -> n = length (txt t) ->
  exists t', pt_delete pol 0 n t = Ok t' /\ edited ADelete t t' (s_delete 0 n (txt t)).
Proof.
  intros W ->. destruct (wf_action ADelete t W) as (Wa & Ta & Na).
  unfold pt_delete. rewrite (pt_len_txt _ Wa), Ta. rewrite !Nat.eqb_refl. simpl.
  eexists. split; [reflexivity|]. unfold edited, wf, nl_ok, txt, utxts, rtxts, set_nl, set_pieces; simpl.
  destruct Wa as (_ & HU & HR).
  assert (E : s_delete 0 (length (txt t)) (txt t) = []). { unfold s_delete. simpl. apply skipn_all. }
  fold (txt t). rewrite E. repeat split; auto.
Qed.

(** the deletion inside an edit is fine for the tree, in the state where it is performed *)
Definition edit_fine (pol : policy) (e : edit) (t : pt) : Prop :=
  match e with
  | EDelete o n => (o = 0 /\ n = length (txt t)) \/ delete_fine pol o n t
  | EReplace o n _ => (o = 0 /\ n = length (txt t)) \/ delete_fine pol o n (pt_start_bulk t)
  | _ => True
  end.

Lemma delete_ok pol o n t : wf t -> 0 < n ->
  (o = 0 /\ n = length (txt t)) \/ delete_fine pol o n t ->
  exists t', pt_delete pol o n t = Ok t' /\ edited ADelete t t' (s_delete o n (txt t)).
Proof.
  intros W Hn [[-> E]|H]; [now apply delete_whole|]. now apply delete_spec.
Qed.

Lemma edit_sim pol e t d : sim t d -> edit_ok e -> edit_fine pol e t ->
  exists t', pt_edit pol e t = Ok t' /\ sim t' (d_edit e d) /\ (nl_ok t -> nl_ok t').
Proof.
  intros S He Hf. pose proof S as (W & NB & T & R & U & F).
  destruct e as [x|o x|o n|o n x]; simpl in He, Hf; simpl pt_edit.
  - destruct (append_spec x t W He) as (t' & E & H1 & H2 & H3 & H4 & H5 & H6).
    destruct (action_hist AInsert KIns t d S) as (A1 & A2 & A3); try congruence; auto.
    exists t'. split; auto. split; auto. unfold sim, d_edit; simpl. rewrite H6, H4, H5, A3.
    repeat split; auto; try congruence; try apply H1.
  - destruct (insert_spec o x t W He) as (t' & E & H1 & H2 & H3 & H4 & H5 & H6).
    destruct (action_hist AInsert KIns t d S) as (A1 & A2 & A3); try congruence; auto.
    exists t'. split; auto. split; auto. unfold sim, d_edit; simpl. rewrite H6, H4, H5, A3.
    repeat split; auto; try congruence; try apply H1.
  - destruct (delete_ok pol o n t W He Hf) as (t' & E & H1 & H2 & H3 & H4 & H5 & H6).
    destruct (action_hist ADelete KDel t d S) as (A1 & A2 & A3); try congruence; auto.
    exists t'. split; auto. split; auto. unfold sim, d_edit; simpl. rewrite H6, H4, H5, A3.
    repeat split; auto; try congruence; try apply H1.
  - destruct (bulk_start t d S) as (B1 & B2 & B3 & B4 & B5 & B6). set (u := pt_start_bulk t) in *.
    destruct He as [Hn Hx].
    destruct (delete_ok pol o n u B1 Hn) as (t1 & E1 & P1 & P2 & P3 & P4 & P5 & P6).
    { rewrite B2. exact Hf. }
    rewrite action_bulk in P4, P5, P6 by auto.
    destruct (insert_spec o x t1 P1 Hx) as (t2 & E2 & Q1 & Q2 & Q3 & Q4 & Q5 & Q6).
    rewrite action_bulk in Q4, Q5, Q6 by congruence.
    unfold pt_replace. fold u. rewrite E1. cbn [bind]. rewrite E2. cbn [bind].
    eexists. split; [reflexivity|]. split.
    + unfold sim, d_edit, pt_end_bulk, d_begin, utxts, rtxts, txt in *; simpl.
      split; [exact Q1|]. split; [congruence|]. split; [|split; [auto|split]].
      * rewrite Q2, P2, B2, T. reflexivity.
      * rewrite Q4, P4. auto.
      * rewrite Q5, P5. auto.
    + intro N. unfold nl_ok in *. simpl. unfold pt_end_bulk, txt in *; simpl. apply Q3, P3. rewrite B3, B2. auto.
Qed.

Lemma undo_sim t d : sim t d -> fst (pt_undo t) = fst (d_undo d) /\ sim (snd (pt_undo t)) (snd (d_undo d)).
Proof.
  intros (W & NB & T & R & U & F). unfold pt_undo, d_undo. unfold utxts in U.
  destruct (t_undos t) as [|l ls] eqn:E; rewrite <- U; simpl.
  - split; auto. unfold sim, utxts. rewrite E, <- U. repeat split; auto; apply W.
  - split; auto. destruct W as (W1 & W2 & W3). rewrite E in W2. inversion W2; subst.
    unfold sim, wf, txt, utxts, rtxts; simpl. repeat split; auto; try congruence; try apply W1; try apply H1.
    f_equal; auto.
Qed.
Lemma redo_sim t d : sim t d -> fst (pt_redo t) = fst (d_redo d) /\ sim (snd (pt_redo t)) (snd (d_redo d)).
Proof.
  intros (W & NB & T & R & U & F). unfold pt_redo, d_redo. unfold rtxts in F.
  destruct (t_redos t) as [|l ls] eqn:E; rewrite <- F; simpl.
  - split; auto. unfold sim, rtxts. rewrite E, <- F. repeat split; auto; apply W.
  - split; auto. destruct W as (W1 & W2 & W3). rewrite E in W3. inversion W3; subst.
    unfold sim, wf, txt, utxts, rtxts; simpl. repeat split; auto; try congruence; try apply W1; try apply H1.
    f_equal; auto.
Qed.

(** admissible operation sequences, in terms of the texts they go through *)
Fixpoint ops_ok (good : edit -> text -> Prop) (os : list op) (d : doc) : Prop :=
  match os with
  | [] => True
  | o :: r => (match o with OEdit e => edit_ok e /\ good e (d_text d) | _ => True end) /\ ops_ok good r (snd (d_op o d))
  end.

Lemma edit_fine_wrap pol e t : policy_wrap pol -> edit_fine pol e t.
Proof. intro P. destruct e; simpl; auto using delete_fine_wrap. Qed.

Lemma edit_fine_inside pol e t : policy_succ pol -> wf t -> edit_ok e -> delete_inside e (txt t) -> edit_fine pol e t.
Proof.
  intros P W He Hd. destruct e as [x|o x|o n|o n x]; simpl in *; auto.
  - destruct Hd as [H|[H|H]]; [right|right|auto]; apply delete_fine_inside; auto.
  - destruct (wf_action ABulk t W) as (Wa & Ta & _).
    destruct Hd as [H|[H|H]]; [right|right|auto]; apply delete_fine_inside; auto; try tauto;
      unfold pt_start_bulk; rewrite Ta; auto.
Qed.

Lemma ops_sim pol good os t d : sim t d -> ops_ok good os d ->
  (forall e u, wf u -> edit_ok e -> good e (txt u) -> edit_fine pol e u) ->
  exists t', pt_ops pol os t = Ok (fst (d_ops os d), t') /\ sim t' (snd (d_ops os d)).
Proof.
  intros S H G. revert t d S H. induction os as [|o r IH]; simpl; intros t d S H; [eauto|].
  destruct H as [H1 H2].
  assert (exists t1, pt_op pol o t = Ok (fst (d_op o d), t1) /\ sim t1 (snd (d_op o d))) as (t1 & E1 & S1).
  { destruct o as [e| |]; simpl.
    - destruct H1 as [He Hg]. destruct (edit_sim pol e t d) as (t' & E & S' & _); auto.
      + apply G; auto; try apply S. destruct S as (_ & _ & T & _). now rewrite T.
      + rewrite E. simpl. eauto.
    - destruct (undo_sim t d S) as [A B]. exists (snd (pt_undo t)). split; auto.
      destruct (pt_undo t); simpl in *; congruence.
    - destruct (redo_sim t d S) as [A B]. exists (snd (pt_redo t)). split; auto.
      destruct (pt_redo t); simpl in *; congruence. }
  rewrite E1. cbn [bind]. destruct (d_op o d) as [b d1]. simpl in *.
  destruct (IH t1 d1 S1 H2) as (t2 & E2 & S2). rewrite E2. cbn [bind].
  destruct (d_ops r d1) as [bs d2]. simpl in *. eauto.
Qed.

Lemma sim_init s : s <> [] -> sim (pt_with_text s) (d_init s) /\ nl_ok (pt_with_text s).
Proof.
  intro H. assert (0 < length s) as L by (destruct s; [congruence|simpl; lia]).
  assert (ptext s [] [mkPiece 0 0 (length s) true] = s) as E.
  { unfold ptext, pbytes, pbuf; simpl. rewrite app_nil_r. apply slice_all. auto. }
  unfold sim, wf, seqok, nl_ok, txt; simpl. rewrite E. repeat split; auto; try congruence;
    [repeat constructor; unfold inb, p_end, pbuf; simpl; lia|].
  apply sset_ext; [apply set_of_sset|apply newline_positions_sset|].
  intro i. rewrite set_of_In, nl_from_In, newline_positions_In, Nat.sub_0_r. intuition lia.
Qed.
Lemma sim_new : sim pt_new (d_init []) /\ nl_ok pt_new.
Proof. unfold sim, wf, seqok, nl_ok, txt; simpl. repeat split; auto; congruence. Qed.

(** newline cache along edits only *)
Fixpoint edits_ok (good : edit -> text -> Prop) (es : list edit) (s : text) : Prop :=
  match es with
  | [] => True
  | e :: r => edit_ok e /\ good e s /\ edits_ok good r (s_edit e s)
  end.

Lemma edits_sim pol good es t d : sim t d -> edits_ok good es (d_text d) ->
  (forall e u, wf u -> edit_ok e -> good e (txt u) -> edit_fine pol e u) ->
  exists t', pt_edits pol es t = Ok t' /\ sim t' (fold_left (fun d e => d_edit e d) es d) /\
    txt t' = s_edits es (d_text d) /\ (nl_ok t -> nl_ok t').
Proof.
  intros S H G. revert t d S H. induction es as [|e r IH]; simpl; intros t d S H.
  - exists t. split; auto. split; auto. split; auto. apply S.
  - destruct H as (He & Hg & H2).
    destruct (edit_sim pol e t d) as (t1 & E1 & S1 & N1); auto.
    + apply G; auto; try apply S. destruct S as (_ & _ & T & _). now rewrite T.
    + destruct (IH t1 (d_edit e d) S1 H2) as (t2 & E2 & S2 & T2 & N2).
      exists t2. rewrite E1. cbn [bind]. split; [exact E2|]. split; [exact S2|]. split; [exact T2|auto].
Qed.

Lemma pt_text_txt t : wf t -> pt_text t = Ok (txt t).
Proof.
  intros ((C & B) & _). unfold pt_text, pt_chunks.
  rewrite (mapM_ok _ (pbytes (t_orig t) (t_added t))); auto.
  intros p Hp. rewrite Forall_forall in B. specialize (B p Hp). unfold inb, p_end in B.
  unfold piece_slice, p_end, pbytes. unfold buf_of. fold (pbuf (t_orig t) (t_added t) p).
  rewrite slice_res_ok by lia. f_equal. f_equal. lia.
Qed.
