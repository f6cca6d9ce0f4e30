(** User-level consequences of the history simulation. *)
From Coq Require Import String List Arith Lia Bool.
From Verif Require Import Base ListFacts PieceTable PieceTableSpec PieceTableFacts PieceTableEdits PieceTableDelete History.
Import ListNotations.

Definition op_ok (o : op) : Prop := match o with OEdit e => edit_ok e | _ => True end.
Definition any_edit (e : edit) (s : text) : Prop := True.

Lemma ops_ok_any os d : Forall op_ok os -> ops_ok any_edit os d.
Proof.
  intro H. revert d. induction H as [|o r Ho Hr IH]; simpl; auto. intro d. split; auto.
  destruct o; simpl in *; auto. split; auto. exact I.
Qed.
Lemma edits_ok_any es s : Forall edit_ok es -> edits_ok any_edit es s.
Proof. intro H. revert s. induction H; simpl; auto. intro s. repeat split; auto. Qed.

Lemma ops_wrap pol s os : policy_wrap pol -> s <> [] -> Forall op_ok os ->
  exists t, pt_ops pol os (pt_with_text s) = Ok (fst (d_ops os (d_init s)), t) /\ sim t (snd (d_ops os (d_init s))).
Proof.
  intros P Hs Ho. destruct (sim_init s Hs) as [S _].
  apply (ops_sim pol any_edit); auto using ops_ok_any. intros. now apply edit_fine_wrap.
Qed.

Lemma d_ops_app a b d : d_ops (a ++ b) d =
  (fst (d_ops a d) ++ fst (d_ops b (snd (d_ops a d))), snd (d_ops b (snd (d_ops a d)))).
Proof.
  revert d. induction a as [|o r IH]; simpl; intro d.
  - now destruct (d_ops b d).
  - destruct (d_op o d) as [x d1]. rewrite IH. destruct (d_ops r d1) as [xs d2]. simpl. reflexivity.
Qed.

(** a run in progress leaves nothing to redo *)
Definition run_inv (d : doc) : Prop := d_run d <> None -> d_future d = [].
Lemma run_inv_op o d : run_inv d -> run_inv (snd (d_op o d)).
Proof.
  unfold run_inv. intro H. destruct o as [e| |]; simpl.
  - intros _. unfold d_begin. destruct (edit_kind e) as [k|]; auto. destruct (d_run d) as [k'|] eqn:E; auto.
    destruct (kind_eqb k k'); auto. apply H. congruence.
  - unfold d_undo. destruct (d_past d); simpl; auto. intro X. congruence.
  - unfold d_redo. destruct (d_future d) eqn:E; simpl; auto. intro X. congruence.
Qed.
Lemma run_inv_ops os d : run_inv d -> run_inv (snd (d_ops os d)).
Proof.
  revert d. induction os as [|o r IH]; simpl; auto. intros d H.
  pose proof (run_inv_op o d H). destruct (d_op o d) as [b d1]. simpl in H0.
  specialize (IH d1 H0). destruct (d_ops r d1). auto.
Qed.

(** The operations [os], answered by [bs], leave no run of kind [k] in progress: nothing was done,
    or the last operation was an edit of another kind, or an undo/redo that succeeded. *)
Definition fresh_for (k : option kind) (os : list op) (bs : list bool) : Prop :=
  match rev os, rev bs with
  | [], _ => True
  | OEdit e :: _, _ => edit_kind e <> k \/ k = None
  | _ :: _, b :: _ => b = true
  | _, _ => False
  end.

Lemma fresh_run k os s : fresh_for k os (fst (d_ops os (d_init s))) -> k <> None ->
  d_run (snd (d_ops os (d_init s))) <> k.
Proof.
  unfold fresh_for. destruct os as [|o r _] using rev_ind; simpl; [congruence|].
  rewrite d_ops_app. simpl. rewrite !rev_unit. destruct o as [e| |]; simpl.
  - intros [H|H] Hk; congruence.
  - unfold d_undo. destruct (d_past (snd (d_ops r (d_init s)))); simpl; rewrite rev_unit; [discriminate|auto].
  - unfold d_redo. destruct (d_future (snd (d_ops r (d_init s)))); simpl; rewrite rev_unit; [discriminate|auto].
Qed.

Lemma run_past k es d : k <> None -> Forall (fun e => edit_kind e = k) es ->
  d_run d = k ->
  d_past (snd (d_ops (map OEdit es) d)) = d_past d.
Proof.
  intros Hk H. revert d. induction H as [|e r He Hr IH]; intros d R; auto.
  simpl. specialize (IH (d_edit e d)). destruct (d_ops (map OEdit r) (d_edit e d)) as [bs d2]. simpl in *.
  rewrite IH; auto. unfold d_edit, d_begin. simpl. rewrite He, R. destruct k as [[]|]; try congruence; reflexivity.
Qed.
Lemma run_step k es e d : k <> None -> edit_kind e = k -> Forall (fun e => edit_kind e = k) es ->
  d_run d <> k ->
  d_past (snd (d_ops (map OEdit (e :: es)) d)) = d_text d :: d_past d.
Proof.
  intros Hk He H R. simpl. pose proof (run_past k es (d_edit e d) Hk H) as P.
  destruct (d_ops (map OEdit es) (d_edit e d)) as [bs d2]. simpl in *. rewrite P by auto.
  unfold d_begin. rewrite He. destruct k as [[]|]; destruct (d_run d) as [[]|]; try congruence; reflexivity.
Qed.
Lemma run_edits_true es d : fst (d_ops (map OEdit es) d) = map (fun _ => true) es.
Proof.
  revert d. induction es as [|e r IH]; simpl; auto. intro d. specialize (IH (d_edit e d)).
  destruct (d_ops (map OEdit r) (d_edit e d)). simpl in *. congruence.
Qed.

(** n undos then n redos *)
Lemma undo_redo d s p r : d_past d = s :: p -> d_redo (snd (d_undo d)) = r -> r = (true, mkDoc (d_text d) None (d_past d) (d_future d)).
Proof. unfold d_undo. intros ->. simpl. unfold d_redo. simpl. auto. Qed.

Fixpoint iter_op (n : nat) (o : op) : list op := match n with 0 => [] | S m => o :: iter_op m o end.
Lemma iter_op_snoc n o : iter_op (S n) o = iter_op n o ++ [o].
Proof.
  induction n as [|n IH]; auto. change (iter_op (S (S n)) o) with (o :: iter_op (S n) o).
  rewrite IH at 1. reflexivity.
Qed.

Lemma undos_redos n d : Forall (fun b => b = true) (fst (d_ops (iter_op n OUndo) d)) ->
  let d' := snd (d_ops (iter_op n OUndo ++ iter_op n ORedo) d) in
  d_text d' = d_text d /\ d_past d' = d_past d /\ d_future d' = d_future d /\
  Forall (fun b => b = true) (fst (d_ops (iter_op n OUndo ++ iter_op n ORedo) d)).
Proof.
  revert d. induction n as [|n IH]; simpl; intros d H; auto.
  unfold d_undo in *. destruct (d_past d) as [|s p] eqn:P.
  { destruct (d_ops (iter_op n OUndo) d). simpl in H. inversion H. discriminate. }
  set (d1 := mkDoc s None p (d_text d :: d_future d)) in *.
  assert (Forall (fun b => b = true) (fst (d_ops (iter_op n OUndo) d1))) as H1.
  { destruct (d_ops (iter_op n OUndo) d1). simpl in *. now inversion H. }
  specialize (IH d1 H1). 
  change (iter_op n OUndo ++ ORedo :: iter_op n ORedo) with (iter_op n OUndo ++ iter_op (S n) ORedo).
  rewrite iter_op_snoc, app_assoc. rewrite d_ops_app. simpl in IH.
  destruct (d_ops (iter_op n OUndo ++ iter_op n ORedo) d1) as [bs d2] eqn:E. simpl in IH.
  destruct IH as (I1 & I2 & I3 & I4). simpl. unfold d_redo. rewrite I3. simpl.
  rewrite I1, I2. repeat split; auto.
  constructor; auto. apply Forall_app. auto.
Qed.

(** an edit leaves nothing to redo *)
Lemma edit_no_future e d : run_inv d -> d_future (d_edit e d) = [].
Proof.
  intro H. unfold d_edit, d_begin; simpl. destruct (edit_kind e) as [k|]; auto.
  destruct (d_run d) as [k'|] eqn:R; auto. destruct (kind_eqb k k'); auto. apply H. congruence.
Qed.
Lemma run_inv_init s : run_inv (d_init s).
Proof. unfold run_inv. simpl. auto. Qed.

(** concrete trees *)
Definition pol_wrap : policy := fun _ _ rest => match rest with [] => StaleWrap | _ => StaleSucc end.
(** the removed node keeps the offset of the first removed piece; checked arithmetic *)
Definition pol_debug : policy := fun _ hit rest =>
  match rest with [] => StaleDetached (match hit with p :: _ => p_off p | [] => 0 end) | _ => StaleSucc end.
(** the handle always denotes the unlinked node *)
Definition pol_detached : policy := fun _ hit _ => StaleDetached (match hit with p :: _ => p_off p | [] => 0 end).
Lemma pol_wrap_ok : policy_wrap pol_wrap.
Proof. split; [|reflexivity]. intros pre hit [|]; simpl; congruence. Qed.
Lemma pol_debug_ok : policy_succ pol_debug.
Proof. intros pre hit [|]; simpl; congruence. Qed.
