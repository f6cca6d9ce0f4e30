(** Facts about the line specification. *)
From Coq Require Import List Arith Lia Bool.
From Verif Require Import Base ListFacts PieceTable PieceTableSpec PieceTableFacts PieceTableEdits LineSpec.
Import ListNotations.

Definition nolf (l : text) : Prop := Forall (fun b => b <> LF) l.

Lemma split_first_lf s : nolf s \/ exists l r, s = l ++ LF :: r /\ nolf l.
Proof.
  induction s as [|x s [H|(l & r & -> & H)]].
  - left. constructor.
  - destruct (Nat.eq_dec x LF) as [->|N].
    + right. exists [], s. split; auto. constructor.
    + left. constructor; auto.
  - destruct (Nat.eq_dec x LF) as [->|N].
    + right. exists [], (l ++ LF :: r). split; auto. constructor.
    + right. exists (x :: l), r. split; auto. constructor; auto.
Qed.

Lemma lines_ind (P : text -> Prop) : P [] -> (forall l, l <> [] -> nolf l -> P l) ->
  (forall l r, nolf l -> P r -> P (l ++ LF :: r)) -> forall s, P s.
Proof.
  intros H0 H1 H2 s. remember (length s) as n eqn:E. revert s E.
  induction n as [n IH] using lt_wf_ind. intros s E.
  destruct (split_first_lf s) as [H|(l & r & -> & H)].
  - destruct s; auto. apply H1; auto. discriminate.
  - apply H2; auto. apply (IH (length r)); auto. rewrite E, app_length. simpl. lia.
Qed.

Lemma lines_nolf l : nolf l -> l <> [] -> lines_of l = [l].
Proof.
  induction 1 as [|x l Hx Hl IH]; [congruence|]. intros _. simpl.
  apply Nat.eqb_neq in Hx. rewrite Hx. destruct l as [|y l]; auto. rewrite IH by discriminate. reflexivity.
Qed.
Lemma lines_cons l r : nolf l -> lines_of (l ++ LF :: r) = l :: lines_of r.
Proof.
  induction 1 as [|x l Hx Hl IH]; simpl; auto.
  apply Nat.eqb_neq in Hx. rewrite Hx. rewrite IH. reflexivity.
Qed.

Lemma newline_positions_nl_from s : newline_positions s = nl_from 0 s.
Proof.
  apply sset_ext; [apply newline_positions_sset| |].
  - assert (forall b s, sset (nl_from b s)) as H; auto.
    clear. intros b s. revert b. induction s as [|x r IH]; simpl; intro b; [constructor|].
    destruct (x =? LF); auto. constructor; [apply IH|]. rewrite Forall_forall. intros y Hy.
    apply nl_from_In in Hy. lia.
  - intro i. rewrite newline_positions_In, nl_from_In, Nat.sub_0_r. intuition lia.
Qed.
Lemma nl_from_nolf b l : nolf l -> nl_from b l = [].
Proof.
  intro H. revert b. induction H as [|x l Hx Hl IH]; simpl; auto. apply Nat.eqb_neq in Hx. rewrite Hx. auto.
Qed.
Lemma nl_from_cons b l r : nolf l -> nl_from b (l ++ LF :: r) = (b + length l) :: nl_from (b + length l + 1) r.
Proof.
  intro H. revert b. induction H as [|x l Hx Hl IH]; simpl; intro b.
  - rewrite Nat.add_0_r. f_equal. f_equal. lia.
  - apply Nat.eqb_neq in Hx. rewrite Hx, IH. f_equal; [lia|]. f_equal. lia.
Qed.

Lemma terminated_app a b : b <> [] -> terminated (a ++ b) = terminated b.
Proof.
  intro H. unfold terminated. rewrite rev_app_distr. destruct (rev b) eqn:E; auto.
  apply (f_equal (@rev nat)) in E. rewrite rev_involutive in E. simpl in E. congruence.
Qed.
Lemma terminated_nolf l : nolf l -> terminated l = false.
Proof.
  intro H. unfold terminated. destruct (rev l) as [|x r] eqn:E; auto. apply Nat.eqb_neq.
  unfold nolf in H. rewrite Forall_forall in H. apply H. apply in_rev. rewrite E. now left.
Qed.

(** the 0-based line [i] starts here *)
Definition loff (s : text) (i : nat) : nat := list_sum (map (fun l => length l + 1) (firstn i (lines_of s))).
Lemma line_offset_loff s n : line_offset s n = loff s (n - 1).
Proof. reflexivity. Qed.

Lemma loff_S s i l : nth_error (lines_of s) i = Some l -> loff s (S i) = loff s i + length l + 1.
Proof.
  intro H. unfold loff. destruct (nth_error_split _ _ H) as (a & b & E & L). rewrite E. subst i.
  replace (a ++ l :: b) with ((a ++ [l]) ++ b) by now rewrite <- app_assoc.
  rewrite firstn_app_le by (rewrite app_length; simpl; lia).
  rewrite firstn_all2 by (rewrite app_length; simpl; lia).
  rewrite <- app_assoc. rewrite firstn_app_le by lia. rewrite firstn_all.
  rewrite map_app, list_sum_app. simpl. lia.
Qed.

Lemma loff_cons l r i : nolf l -> loff (l ++ LF :: r) (S i) = length l + 1 + loff r i.
Proof. intro H. unfold loff. rewrite lines_cons by auto. simpl. lia. Qed.

(** number of line feeds and of lines *)
Lemma nl_count b s : length (nl_from b s) = count_lf s.
Proof.
  revert b. induction s as [|x r IH]; intro b; simpl; auto. unfold count_lf in *. simpl.
  destruct (x =? LF); simpl; auto.
Qed.
Lemma count_lf_app a b : count_lf (a ++ b) = count_lf a + count_lf b.
Proof. unfold count_lf. now rewrite filter_app, app_length. Qed.
Lemma count_lf_nolf l : nolf l -> count_lf l = 0.
Proof.
  unfold count_lf. induction 1 as [|x l Hx Hl IH]; simpl; auto. apply Nat.eqb_neq in Hx. now rewrite Hx.
Qed.
Lemma lines_count s : length (lines_of s) = count_lf s + if terminated s then 0 else match s with [] => 0 | _ => 1 end.
Proof.
  induction s as [|l Hn Hl|l r Hl IH] using lines_ind; auto.
  - rewrite lines_nolf, terminated_nolf, count_lf_nolf by auto. destruct l; [congruence|reflexivity].
  - rewrite lines_cons by auto. rewrite terminated_app by discriminate.
    change (LF :: r) with ([LF] ++ r). rewrite !count_lf_app, count_lf_nolf by auto. simpl. rewrite IH.
    destruct r as [|x r]; [reflexivity|].
    replace (terminated (LF :: x :: r)) with (terminated (x :: r)).
    + destruct (terminated (x :: r)); destruct l; unfold count_lf; simpl; lia.
    + symmetry. change (LF :: x :: r) with ([LF] ++ x :: r). apply terminated_app. discriminate.
Qed.

(** main description of the lines *)
Lemma lines_facts s i l : nth_error (lines_of s) i = Some l ->
  slice s (loff s i) (length l) = l /\ loff s i + length l <= length s /\ nolf l /\
  (nth_error (newline_positions s) i = Some (loff s i + length l)
   \/ (nth_error (newline_positions s) i = None /\ loff s i + length l = length s /\ l <> [] /\
       S i = length (lines_of s) /\ i = length (newline_positions s) /\ terminated s = false)).
Proof.
  rewrite newline_positions_nl_from.
  assert (forall b, nth_error (lines_of s) i = Some l ->
    slice s (loff s i) (length l) = l /\ loff s i + length l <= length s /\ nolf l /\
    (nth_error (nl_from b s) i = Some (b + loff s i + length l)
     \/ (nth_error (nl_from b s) i = None /\ loff s i + length l = length s /\ l <> [] /\
         S i = length (lines_of s) /\ i = length (nl_from b s) /\ terminated s = false))) as H.
  2:{ intro E. specialize (H 0 E). exact H. }
  revert i. induction s as [|l0 Hn Hl|l0 r Hl IH] using lines_ind; intros i b H.
  - destruct i; discriminate.
  - rewrite lines_nolf in * by auto. destruct i as [|i]; [|destruct i; discriminate].
    simpl in H. inversion H; subst l0. clear H. rewrite nl_from_nolf by auto.
    assert (loff l 0 = 0) as -> by reflexivity.
    repeat split; auto; try (simpl; lia).
    + now apply slice_all.
    + right. repeat split; auto. now apply terminated_nolf.
  - rewrite lines_cons in * by auto. rewrite nl_from_cons by auto.
    rewrite terminated_app by discriminate.
    destruct i as [|i].
    + simpl in H. inversion H; subst l0. clear H. change (loff (l ++ LF :: r) 0) with 0.
      split; [|split; [|split]]; auto.
      * unfold slice. simpl. rewrite firstn_app_le by lia. apply firstn_all.
      * rewrite app_length. lia.
      * left. simpl. f_equal. lia.
    + simpl in H. rewrite loff_cons by auto. destruct (IH i (b + length l0 + 1) H) as (I1 & I2 & I3 & I4).
      split; [|split; [|split]]; auto.
      * unfold slice in *. rewrite skipn_app_ge by lia.
        replace (length l0 + 1 + loff r i - length l0) with (S (loff r i)) by lia. exact I1.
      * rewrite app_length. simpl. lia.
      * simpl. destruct I4 as [I4|(I4 & I5 & I6 & I7 & I8 & I9)].
        -- left. rewrite I4. f_equal. lia.
        -- right. split; [auto|]. split; [rewrite app_length; simpl; lia|]. split; [auto|].
           split; [lia|]. split; [lia|].
           destruct r as [|x r]; [destruct i; discriminate|].
              change (LF :: x :: r) with ([LF] ++ x :: r). rewrite terminated_app by discriminate. auto.
Qed.

Lemma lines_nth_ex s i : i < length (lines_of s) -> exists l, nth_error (lines_of s) i = Some l.
Proof. intro H. apply nth_error_Some in H. destruct (nth_error (lines_of s) i); [eauto|congruence]. Qed.

(** every offset is on a line *)
Lemma offset_line s o : o < length s ->
  exists i l, nth_error (lines_of s) i = Some l /\ loff s i <= o <= loff s i + length l /\
    i = count_lf (firstn o s) /\ line_start s o = loff s i /\
    (nth_error s o = Some LF <-> o = loff s i + length l).
Proof.
  revert o. induction s as [|l0 Hn Hl|l0 r Hl IH] using lines_ind; intros o H.
  - simpl in H. lia.
  - exists 0, l0. rewrite lines_nolf by auto. change (loff l0 0) with 0. split; auto.
    assert (nolf (firstn o l0)) as Hf.
    { unfold nolf in *. rewrite <- (firstn_skipn o l0) in Hl. apply Forall_app in Hl. tauto. }
    split; [lia|]. split; [now rewrite count_lf_nolf|]. split.
    + unfold line_start. assert (forall x, nolf x -> take_while (fun b => negb (b =? LF)) x = x) as T.
      { clear. induction 1 as [|y x Hy Hx IH]; simpl; auto. apply Nat.eqb_neq in Hy. rewrite Hy. simpl. now rewrite IH. }
      rewrite T. { rewrite rev_length, firstn_length. lia. }
      unfold nolf. now apply Forall_rev.
    + split; [|lia]. intro E. exfalso. apply nth_error_In in E. unfold nolf in Hl. rewrite Forall_forall in Hl.
      now apply Hl in E.
  - rewrite app_length in H. simpl in H.
    destruct (Nat.le_gt_cases o (length l0)) as [Ho|Ho].
    + exists 0, l0. rewrite lines_cons by auto. change (loff (l0 ++ LF :: r) 0) with 0. split; auto.
      rewrite firstn_app_le by auto.
      assert (nolf (firstn o l0)) as Hf.
      { unfold nolf in *. rewrite <- (firstn_skipn o l0) in Hl. apply Forall_app in Hl. tauto. }
      split; [lia|]. split; [now rewrite count_lf_nolf|]. split.
      * unfold line_start. rewrite firstn_app_le by auto.
        assert (forall x, nolf x -> take_while (fun b => negb (b =? LF)) x = x) as T.
        { clear. induction 1 as [|y x Hy Hx IH]; simpl; auto. apply Nat.eqb_neq in Hy. rewrite Hy. simpl. now rewrite IH. }
        rewrite T. { rewrite rev_length, firstn_length. lia. }
        unfold nolf. now apply Forall_rev.
      * destruct (Nat.eq_dec o (length l0)) as [->|N].
        -- rewrite nth_error_app2, Nat.sub_diag by lia. simpl. tauto.
        -- rewrite nth_error_app1 by lia. split; [|lia]. intro E. exfalso. apply nth_error_In in E.
           unfold nolf in Hl. rewrite Forall_forall in Hl. now apply Hl in E.
    + destruct (IH (o - length l0 - 1)) as (i & l & E1 & E2 & E3 & E4 & E5); [lia|].
      exists (S i), l. rewrite lines_cons, loff_cons by auto. split; [exact E1|]. split; [lia|].
      assert (firstn o (l0 ++ LF :: r) = l0 ++ LF :: firstn (o - length l0 - 1) r) as Ef.
      { rewrite firstn_app_ge by lia. f_equal. remember (o - length l0 - 1) as m eqn:Em.
        replace (o - length l0) with (S m) by lia. reflexivity. }
      split; [|split].
      * rewrite Ef. change (LF :: firstn (o - length l0 - 1) r) with ([LF] ++ firstn (o - length l0 - 1) r).
        rewrite !count_lf_app, count_lf_nolf by auto. rewrite E3. reflexivity.
      * unfold line_start in *. rewrite Ef, rev_app_distr. simpl. rewrite <- app_assoc. simpl.
        assert (forall x y, take_while (fun b => negb (b =? LF)) (x ++ LF :: y) =
                            take_while (fun b => negb (b =? LF)) x) as T.
        { clear. induction x as [|z x IH]; simpl; auto. intro y. destruct (z =? LF); simpl; auto. now rewrite IH. }
        rewrite T.
        assert (forall (f : nat -> bool) x, length (take_while f x) <= length x) as LT.
        { clear. induction x as [|z x IH]; simpl; auto. destruct (f z); simpl; lia. }
        specialize (LT (fun b => negb (b =? LF)) (rev (firstn (o - length l0 - 1) r))).
        rewrite rev_length, firstn_length in LT. lia.
      * rewrite nth_error_app2 by lia. replace (o - length l0) with (S (o - length l0 - 1)) by lia. simpl.
        rewrite E5. lia.
Qed.

(** newline positions before an offset *)
Lemma nl_before s o : length (filter (fun i => i <? o) (newline_positions s)) = count_lf (firstn o s).
Proof.
  rewrite newline_positions_nl_from.
  assert (forall b, length (filter (fun i => i <? b + o) (nl_from b s)) = count_lf (firstn o s)) as H.
  { revert o. induction s as [|x r IH]; intros o b; simpl; [now rewrite firstn_nil|].
    destruct o as [|o].
    - assert (forall l, (forall y, In y l -> b <= y) -> filter (fun i => i <? b + 0) l = []) as F.
      { clear. induction l as [|y l IH]; simpl; auto. intro H. assert (y <? b + 0 = false) as ->.
        { apply Nat.ltb_ge. specialize (H y (or_introl eq_refl)). lia. } apply IH. intros. apply H. now right. }
      simpl. rewrite F; auto. intros y Hy.
      destruct (x =? LF); [destruct Hy as [->|Hy]; auto|]; apply nl_from_In in Hy; lia.
    - unfold count_lf in *. simpl. specialize (IH o (S b)). replace (S b + o) with (b + S o) in IH by lia.
      destruct (x =? LF); simpl; auto. assert (b <? b + S o = true) as -> by (apply Nat.ltb_lt; lia).
      simpl. now rewrite IH. }
  apply (H 0).
Qed.
