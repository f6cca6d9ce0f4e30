(** List lemmas used throughout. *)
From Coq Require Import List Arith Lia Bool Sorted.
From Verif Require Import Base.
Import ListNotations.

Lemma sub_ok a b : b <= a -> sub a b = Ok (a - b).
Proof. intro H. unfold sub. apply Nat.leb_le in H. now rewrite H. Qed.

Lemma bind_ok {A B} (m : res A) (k : A -> res B) b :
  bind m k = Ok b -> exists a, m = Ok a /\ k a = Ok b.
Proof. destruct m; simpl; intro; try discriminate; eauto. Qed.

Lemma skipn_skipn {A} (n m : nat) (l : list A) : skipn n (skipn m l) = skipn (m + n) l.
Proof. revert l; induction m as [|m IH]; intro l; simpl; auto. destruct l; auto. now rewrite skipn_nil. Qed.

Lemma firstn_firstn_le {A} n m (l : list A) : n <= m -> firstn n (firstn m l) = firstn n l.
Proof. intro H. rewrite firstn_firstn. now rewrite Nat.min_l. Qed.

Lemma firstn_app_le {A} n (a b : list A) : n <= length a -> firstn n (a ++ b) = firstn n a.
Proof. intro H. rewrite firstn_app. replace (n - length a) with 0 by lia. now rewrite firstn_O, app_nil_r. Qed.
Lemma firstn_app_ge {A} n (a b : list A) : length a <= n -> firstn n (a ++ b) = a ++ firstn (n - length a) b.
Proof. intro H. rewrite firstn_app. now rewrite firstn_all2 by lia. Qed.
Lemma skipn_app_le {A} n (a b : list A) : n <= length a -> skipn n (a ++ b) = skipn n a ++ b.
Proof. intro H. rewrite skipn_app. replace (n - length a) with 0 by lia. reflexivity. Qed.
Lemma skipn_app_ge {A} n (a b : list A) : length a <= n -> skipn n (a ++ b) = skipn (n - length a) b.
Proof. intro H. rewrite skipn_app. now rewrite skipn_all2 by lia. Qed.

Lemma slice_length {A} (b : list A) s n : s + n <= length b -> length (slice b s n) = n.
Proof. intro. unfold slice. rewrite firstn_length, skipn_length. lia. Qed.

Lemma slice_app_l {A} (a b : list A) s n : s + n <= length a -> slice (a ++ b) s n = slice a s n.
Proof.
  intro. unfold slice. rewrite skipn_app_le by lia. apply firstn_app_le.
  rewrite skipn_length. lia.
Qed.

Lemma slice_firstn {A} (b : list A) s n k : k <= n -> firstn k (slice b s n) = slice b s k.
Proof. intro. unfold slice. now apply firstn_firstn_le. Qed.

Lemma slice_skipn {A} (b : list A) s n k : skipn k (slice b s n) = slice b (s + k) (n - k).
Proof. unfold slice. rewrite skipn_firstn_comm, skipn_skipn. reflexivity. Qed.

Lemma slice_slice {A} (b : list A) s n k m : k + m <= n -> slice (slice b s n) k m = slice b (s + k) m.
Proof.
  intro. unfold slice at 1. rewrite slice_skipn. apply slice_firstn. lia.
Qed.

Lemma slice_slice_any {A} (b : list A) s n k : slice (slice b s n) 0 k = slice b s (min k n).
Proof. unfold slice. simpl. apply firstn_firstn. Qed.

Lemma slice_split {A} (b : list A) s n k : k <= n -> slice b s n = slice b s k ++ slice b (s + k) (n - k).
Proof.
  intro. rewrite <- (firstn_skipn k (slice b s n)) at 1.
  now rewrite slice_firstn, slice_skipn.
Qed.

Lemma slice_0 {A} (b : list A) s : slice b s 0 = [].
Proof. reflexivity. Qed.

Lemma slice_all {A} (b : list A) n : length b <= n -> slice b 0 n = b.
Proof. intro. unfold slice. simpl. now apply firstn_all2. Qed.

Lemma slice_res_ok {A} (b : list A) lo hi : lo <= hi -> hi <= length b ->
  slice_res b lo hi = Ok (slice b lo (hi - lo)).
Proof.
  intros. unfold slice_res, slice. apply Nat.leb_le in H. apply Nat.leb_le in H0.
  now rewrite H, H0.
Qed.

Lemma take_drop_while {A} (f : A -> bool) l : take_while f l ++ drop_while f l = l.
Proof. induction l as [|x r IH]; simpl; auto. destruct (f x); simpl; congruence. Qed.

Lemma take_while_forall {A} (f : A -> bool) l x : In x (take_while f l) -> f x = true.
Proof.
  induction l as [|y r IH]; simpl; [tauto|]. destruct (f y) eqn:E; simpl; [|tauto].
  intros [->|H]; auto.
Qed.
Lemma drop_while_head {A} (f : A -> bool) l x r : drop_while f l = x :: r -> f x = false.
Proof. induction l as [|y s IH]; simpl; [discriminate|]. destruct (f y) eqn:E; auto. now intros [= -> ->]. Qed.

Lemma mapM_ok {A B} (f : A -> res B) (g : A -> B) l :
  (forall x, In x l -> f x = Ok (g x)) -> mapM f l = Ok (map g l).
Proof.
  induction l as [|x r IH]; simpl; intro H; auto.
  rewrite H by auto. simpl. rewrite IH by auto. reflexivity.
Qed.

Lemma mapM_app {A B} (f : A -> res B) l1 l2 :
  mapM f (l1 ++ l2) = (a <- mapM f l1 ;; b <- mapM f l2 ;; Ok (a ++ b)).
Proof.
  induction l1 as [|x r IH]; simpl.
  - destruct (mapM f l2); reflexivity.
  - destruct (f x); simpl; auto. rewrite IH. destruct (mapM f r); simpl; auto.
    destruct (mapM f l2); reflexivity.
Qed.

(** ** strictly increasing lists as sets *)
Definition sset (l : list nat) : Prop := StronglySorted lt l.

Lemma sset_nil : sset []. Proof. constructor. Qed.

Lemma set_insert_In x s y : In y (set_insert x s) <-> y = x \/ In y s.
Proof.
  induction s as [|z r IH]; simpl; [intuition|].
  destruct (x <? z) eqn:E1; simpl; [intuition|].
  destruct (x =? z) eqn:E2; simpl.
  - apply Nat.eqb_eq in E2. subst. intuition.
  - rewrite IH. intuition.
Qed.

Lemma set_insert_sset x s : sset s -> sset (set_insert x s).
Proof.
  unfold sset. induction s as [|z r IH]; simpl; intro H; [repeat constructor|].
  inversion H as [|? ? Hr Hz]; subst.
  destruct (x <? z) eqn:E1.
  - apply Nat.ltb_lt in E1. constructor; auto. constructor; auto.
    eapply Forall_impl; [|exact Hz]. simpl. lia.
  - destruct (x =? z) eqn:E2; auto.
    apply Nat.ltb_ge in E1. apply Nat.eqb_neq in E2.
    constructor; auto. rewrite Forall_forall in *. intros y Hy.
    apply set_insert_In in Hy. destruct Hy as [->|Hy]; auto. lia.
Qed.

Lemma set_extend_In xs s y : In y (set_extend s xs) <-> In y s \/ In y xs.
Proof.
  revert s. induction xs as [|x r IH]; simpl; intro s; [intuition|].
  unfold set_extend in *. simpl. rewrite IH, set_insert_In. intuition.
Qed.
Lemma set_extend_sset xs s : sset s -> sset (set_extend s xs).
Proof.
  revert s. induction xs as [|x r IH]; simpl; intros s H; auto.
  apply IH. now apply set_insert_sset.
Qed.
Lemma set_of_In xs y : In y (set_of xs) <-> In y xs.
Proof. unfold set_of. rewrite set_extend_In. simpl. tauto. Qed.
Lemma set_of_sset xs : sset (set_of xs).
Proof. apply set_extend_sset, sset_nil. Qed.

Lemma sset_ext a b : sset a -> sset b -> (forall x, In x a <-> In x b) -> a = b.
Proof.
  unfold sset. intro Ha. revert b. induction Ha as [|x r Hr IH Hx]; intros b Hb H.
  - destruct b as [|y b]; auto. destruct (proj2 (H y)). left; auto.
  - destruct b as [|y b]; [destruct (proj1 (H x)); left; auto|].
    inversion Hb as [|? ? Hb' Hy]; subst. rewrite Forall_forall in *.
    assert (x = y).
    { destruct (proj1 (H x)) as [E|E]; [left; auto|congruence|].
      destruct (proj2 (H y)) as [E'|E']; [left; auto|congruence|].
      apply Hy in E. apply Hx in E'. lia. }
    subst y. f_equal. apply IH; auto. intro z. split; intro Hz.
    + destruct (proj1 (H z)) as [E|E]; [right; auto| |auto]. subst. apply Hx in Hz. lia.
    + destruct (proj2 (H z)) as [E|E]; [right; auto| |auto]. subst. apply Hy in Hz. lia.
Qed.

Lemma sset_filter f l : sset l -> sset (filter f l).
Proof.
  unfold sset. induction 1 as [|x r Hr IH Hx]; simpl; [constructor|].
  destruct (f x); auto. constructor; auto. rewrite Forall_forall in *.
  intros y Hy. apply filter_In in Hy. apply Hx. tauto.
Qed.
Lemma sset_seq a n : sset (seq a n).
Proof.
  revert a. induction n as [|n IH]; intro a; simpl; [constructor|]. constructor; [apply IH|].
  rewrite Forall_forall. intros y Hy. apply in_seq in Hy. lia.
Qed.
Lemma sset_NoDup l : sset l -> NoDup l.
Proof.
  induction 1 as [|x r Hr IH Hx]; constructor; auto. rewrite Forall_forall in Hx.
  intro H. apply Hx in H. lia.
Qed.

Lemma nth_skipn {A} (l : list A) s k d : nth k (skipn s l) d = nth (s + k) l d.
Proof. revert l. induction s as [|s IH]; intro l; simpl; auto. destruct l; simpl; auto. destruct k; auto. Qed.
Lemma nth_firstn {A} (l : list A) n k d : k < n -> nth k (firstn n l) d = nth k l d.
Proof.
  revert l k. induction n as [|n IH]; intros l k H; [lia|]. destruct l; auto. destruct k; simpl; auto. apply IH. lia.
Qed.
Lemma nth_slice {A} (l : list A) s n k d : k < n -> nth k (slice l s n) d = nth (s + k) l d.
Proof. intro. unfold slice. rewrite nth_firstn by auto. apply nth_skipn. Qed.
Lemma nth_error_skipn {A} (l : list A) s k : nth_error (skipn s l) k = nth_error l (s + k).
Proof. revert l. induction s as [|s IH]; intro l; simpl; auto. destruct l; simpl; auto. destruct k; auto. Qed.
Lemma nth_error_firstn {A} (l : list A) n k : nth_error (firstn n l) k = if k <? n then nth_error l k else None.
Proof.
  revert l k. induction n as [|n IH]; intros l k; [destruct k; auto|]. destruct l as [|x l].
  - simpl. destruct k; simpl; auto. destruct (S k <? S n); auto.
  - destruct k as [|k]; simpl; auto. rewrite IH. reflexivity.
Qed.
