(** What succeeds with checked arithmetic (debug profile) gives the same result with wrapping arithmetic (release profile), as long
    as the tree keeps its handles on the successor. *)
From Coq Require Import String List Arith Lia Bool.
From Verif Require Import Base ListFacts PieceTable PieceTableSpec PieceTableFacts PieceTableEdits PieceTableDelete History HistoryFacts Coords Utf8 Diff Selection Maps StackMap Fmt Buffer View Core CoreSpec.
Import ListNotations.

(** whenever [a] succeeds, [b] succeeds with the same result *)
Definition le_ok {A} (a b : res A) : Prop := forall x, a = Ok x -> b = Ok x.
Lemma le_refl {A} (a : res A) : le_ok a a.
Proof. now intros x E. Qed.
Lemma le_bind {A B} (a b : res A) (f g : A -> res B) : le_ok a b -> (forall x, le_ok (f x) (g x)) -> le_ok (bind a f) (bind b g).
Proof. intros H K y E. destruct a as [x| |]; cbn [bind] in E; try discriminate. rewrite (H x eq_refl). cbn [bind]. now apply K. Qed.
Lemma le_foldM {A B} (f g : B -> A -> res B) l : (forall b a, le_ok (f b a) (g b a)) -> forall b, le_ok (foldM f l b) (foldM g l b).
Proof. intro H. induction l as [|a l IH]; intro b; cbn [foldM]; [apply le_refl|]. apply le_bind; auto. Qed.

Section Profile.
Variable pol : policy.
Hypothesis P : policy_succ pol.
Lemma le_delete o n t : le_ok (pt_delete pol o n t) (pt_delete pol_wrap o n t).
Proof.
  unfold pt_delete. destruct ((o =? 0) && (n =? pt_len (pt_action ADelete t))); [apply le_refl|]. destruct (get_node (t_pieces (pt_action ADelete t)) o) as [[[pre p] post]|]; [|apply le_refl].
  destruct (take_while (fun q => p_off q <? o + n) (p :: post)) as [|f hit]; [apply le_refl|]. apply le_bind; [apply le_refl|]. intros [h x]. apply le_bind; [apply le_refl|]. intros [y tl].
  apply le_bind; [apply le_refl|]. intro l. apply le_bind; [apply le_refl|]. intro l1. apply le_bind; [apply le_refl|]. intro l2. apply le_bind; [|intro; apply le_refl].
  destruct tl; [apply le_refl|]. destruct h; [apply le_refl|]. unfold pol_wrap. destruct (drop_while (fun q => p_off q <? o + n) (p :: post)) as [|q rest] eqn:R.
  - intros z E. destruct (pol pre (f :: hit) []) as [|off|]; [discriminate| |exact E]. destruct (sub off n); [exact E|discriminate|discriminate].
  - rewrite P by discriminate. apply le_refl.
Qed.
Lemma le_replace o n s t : le_ok (pt_replace pol o n s t) (pt_replace pol_wrap o n s t).
Proof. unfold pt_replace. apply le_bind; [apply le_delete|]. intro. apply le_refl. Qed.
Lemma le_edit e t : le_ok (pt_edit pol e t) (pt_edit pol_wrap e t).
Proof. destruct e; cbn [pt_edit]; auto using le_refl, le_delete, le_replace. Qed.
Lemma le_edits es : forall t, le_ok (pt_edits pol es t) (pt_edits pol_wrap es t).
Proof. induction es as [|e es IH]; intro t; cbn [pt_edits]; [apply le_refl|]. apply le_bind; [apply le_edit|auto]. Qed.
Lemma le_ops os : forall t, le_ok (pt_ops pol os t) (pt_ops pol_wrap os t).
Proof.
  induction os as [|o os IH]; intro t; cbn [pt_ops]; [apply le_refl|]. apply le_bind.
  - destruct o; cbn [pt_op]; [|apply le_refl|apply le_refl]. apply le_bind; [apply le_edit|intro; apply le_refl].
  - intros [b t1]. apply le_bind; [apply IH|]. intros [bs t2]. apply le_refl.
Qed.
Lemma le_diff s t : le_ok (pt_apply_diff pol s t) (pt_apply_diff pol_wrap s t).
Proof.
  unfold pt_apply_diff. apply le_bind; [apply le_refl|]. intro o. apply le_bind; [apply le_refl|]. intro ds. apply le_bind; [|intros [[a b] c]; apply le_refl].
  apply le_foldM. intros [[lo ro] u] c. unfold apply_change. destruct c; [|apply le_refl|apply le_refl]. apply le_bind; [apply le_delete|intro; apply le_refl].
Qed.
Section Graphemes.
Variable G : Graphemes.
Lemma le_sels ss : forall t, le_ok (delete_sels G pol ss t) (delete_sels G pol_wrap ss t).
Proof.
  induction ss as [|s ss IH]; intro t; cbn [delete_sels]; [apply le_refl|]. apply le_bind; [apply le_refl|]. intros [b e]. apply le_bind; [apply le_refl|]. intro len. apply le_bind; [apply le_refl|].
  intros [x|]; [|apply IH]. apply le_bind; [apply le_delete|]. intro t'. apply le_bind; [apply IH|]. intros [xs t2]. apply le_refl.
Qed.
Lemma le_in_buffers m : forall bufs, le_ok (delete_in_buffers G pol m bufs) (delete_in_buffers G pol_wrap m bufs).
Proof.
  induction m as [|[b ss] m IH]; intro bufs; cbn [delete_in_buffers]; [apply le_refl|]. apply le_bind; [apply le_refl|]. intro u. apply le_bind; [apply le_sels|]. intros [xs t].
  apply le_bind; [apply le_refl|]. intro t'. apply le_bind; [apply IH|]. intros [[a c] d]. apply le_refl.
Qed.
Lemma le_load d b : le_ok (load_from_disk pol d b) (load_from_disk pol_wrap d b).
Proof. unfold load_from_disk. destruct (b_source b); [apply le_refl|]. destruct (is_synced d b); [apply le_refl|]. apply le_bind; [apply le_refl|]. intro x. apply le_bind; [apply le_diff|intro; apply le_refl]. Qed.
Lemma le_edit_cmd d id name scratch k : le_ok (edit_cmd G pol d id name scratch k) (edit_cmd G pol_wrap d id name scratch k).
Proof.
  unfold edit_cmd. apply le_bind; [|intros [n k1]; apply le_refl]. destruct scratch; [apply le_refl|]. destruct (buffer_exists k name); [|apply le_refl]. apply le_bind; [apply le_refl|]. intro b.
  apply le_bind; [apply le_load|]. intros [r b']. apply le_refl.
Qed.
Lemma le_call d c k : le_ok (run_call G pol d c k) (run_call G pol_wrap d c k).
Proof.
  destruct c; try apply le_refl; cbn [run_call]; (apply le_bind; [|intro; apply le_refl]); try apply le_edit_cmd. unfold delete_selection.
  apply le_bind; [apply le_refl|]. intro c. apply le_bind; [apply le_refl|]. intro m. apply le_bind; [apply le_in_buffers|]. intros [[xs ms] bs]. apply le_refl.
Qed.
(** a state reached in the debug profile is reached in the release profile *)
Lemma reach_release k : reach G pol k -> reach G pol_wrap k.
Proof. induction 1 as [cwd args k E|d c k r k' _ IH E|k k' _ IH S]; [now apply (reach_init _ _ cwd args)|eapply reach_call; [exact IH|apply le_call; exact E]|eapply reach_shuffle; eauto]. Qed.
End Graphemes.
End Profile.
