(** Concrete segmentations: one grapheme per byte, and one grapheme per UTF-8 code point
    (lead byte followed by its continuation bytes). *)
From Coq Require Import List Arith Lia Bool.
From Verif Require Import Base ListFacts Coords.
Import ListNotations.

Definition bytewise_lens (s : text) : list nat := map (fun _ => 1) s.
Lemma bytewise_sum s : list_sum (bytewise_lens s) = length s.
Proof. induction s; simpl; auto. Qed.
Lemma bytewise_pos s n : In n (bytewise_lens s) -> 0 < n.
Proof. unfold bytewise_lens. rewrite in_map_iff. intros (x & <- & _). lia. Qed.
Lemma bytewise_step s n r : bytewise_lens s = n :: r -> r = bytewise_lens (skipn n s).
Proof. destruct s; simpl; [discriminate|]. intro H. inversion H. reflexivity. Qed.
Definition bytewise : Graphemes :=
  mkG bytewise_lens bytewise_sum bytewise_pos bytewise_step (fun s _ => eq_refl).

(** number of continuation bytes (128..191) at the front *)
Definition is_cont (b : byte) : bool := (128 <=? b) && (b <? 192).
Definition take_cont (s : text) : nat := length (take_while is_cont s).
Fixpoint cp_lens (fuel : nat) (s : text) : list nat :=
  match fuel, s with
  | S f, x :: r => S (take_cont r) :: cp_lens f (skipn (take_cont r) r)
  | _, _ => []
  end.
Definition codepoint_lens (s : text) : list nat := cp_lens (length s) s.

Lemma take_cont_le s : take_cont s <= length s.
Proof. unfold take_cont. induction s as [|x r IH]; simpl; auto. destruct (is_cont x); simpl; lia. Qed.
Lemma cp_fuel f g s : length s <= f -> length s <= g -> cp_lens f s = cp_lens g s.
Proof.
  revert g s. induction f as [|f IH]; intros g s Hf Hg; destruct s as [|x r]; simpl in *; try lia.
  - destruct g; auto.
  - destruct g; auto.
  - destruct g as [|g]; [lia|]. simpl. f_equal. apply IH; rewrite skipn_length; lia.
Qed.
Lemma codepoint_cons x r : codepoint_lens (x :: r) = S (take_cont r) :: codepoint_lens (skipn (take_cont r) r).
Proof. unfold codepoint_lens. simpl. f_equal. apply cp_fuel; rewrite skipn_length; lia. Qed.
Lemma codepoint_sum s : list_sum (codepoint_lens s) = length s.
Proof.
  remember (length s) as n eqn:E. revert s E. induction n as [n IH] using lt_wf_ind. intros s E.
  destruct s as [|x r]; [simpl in *; auto|]. rewrite codepoint_cons. simpl. simpl in E.
  pose proof (take_cont_le r). rewrite (IH (length (skipn (take_cont r) r))); auto; rewrite skipn_length; lia.
Qed.
Lemma codepoint_pos s n : In n (codepoint_lens s) -> 0 < n.
Proof.
  remember (length s) as k eqn:E. revert s E. induction k as [k IH] using lt_wf_ind. intros s E.
  destruct s as [|x r]; [simpl; tauto|]. rewrite codepoint_cons. simpl. simpl in E.
  intros [<-|H]; [lia|]. apply (IH (length (skipn (take_cont r) r))) in H; auto; rewrite skipn_length; lia.
Qed.
Lemma codepoint_step s n r : codepoint_lens s = n :: r -> r = codepoint_lens (skipn n s).
Proof. destruct s as [|x t]; [discriminate|]. rewrite codepoint_cons. intro H. inversion H. reflexivity. Qed.
Lemma codepoint_ascii s : ascii_plain s \/ s = [LF] -> codepoint_lens s = map (fun _ => 1) s.
Proof.
  intros [H| ->]; [|reflexivity]. unfold ascii_plain in H. induction s as [|x r IH]; [reflexivity|].
  rewrite codepoint_cons. inversion H as [|? ? _ Hr]; subst.
  assert (take_cont r = 0) as ->.
  { unfold take_cont. destruct r as [|y r']; auto. simpl. inversion Hr as [|? ? [Hy _] _]; subst.
    unfold is_cont. assert (128 <=? y = false) as -> by (apply Nat.leb_gt; lia). reflexivity. }
  simpl. f_equal. auto.
Qed.
Definition utf8_graphemes : Graphemes :=
  mkG codepoint_lens codepoint_sum codepoint_pos codepoint_step codepoint_ascii.
