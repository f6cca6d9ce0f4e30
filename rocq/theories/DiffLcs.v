(** C15: how far the common subsequence found is from a longest one. *)
From Coq Require Import String List Arith Lia Bool.
From Verif Require Import Base ListFacts Diff DiffSpec DiffFacts Utf8Facts.
Import ListNotations.

(** length of a longest common subsequence of the first [i] bytes of [l] and the first [j] bytes of [r] *)
Fixpoint LL (l r : text) (i j : nat) {struct i} : nat :=
  match i with
  | 0 => 0
  | S i' => (fix g (j : nat) : nat :=
      match j with
      | 0 => 0
      | S j' => if nth i' l 0 =? nth j' r 0 then S (LL l r i' j') else max (LL l r i' (S j')) (g j')
      end) j
  end.
Lemma LL_S l r i j : LL l r (S i) (S j) = if nth i l 0 =? nth j r 0 then S (LL l r i j) else max (LL l r i (S j)) (LL l r (S i) j).
Proof. reflexivity. Qed.
Lemma LL_0r l r i : LL l r i 0 = 0.
Proof. destruct i; reflexivity. Qed.

Lemma subseq_snoc (d a : text) x : subseq d (a ++ [x]) -> subseq d a \/ exists d', d = d' ++ [x] /\ subseq d' a.
Proof.
  revert d. induction a as [|y a IH]; simpl; intros d H.
  - inversion H; subst; auto.
    + right. exists []. split; [|constructor]. match goal with H : subseq _ [] |- _ => inversion H; subst end. reflexivity.
  - inversion H; subst.
    + match goal with H : subseq _ (a ++ [x]) |- _ => destruct (IH _ H) as [X|(d' & -> & X)] end.
      * left. now apply sub_skip.
      * right. exists d'. split; auto. now apply sub_skip.
    + match goal with H : subseq _ (a ++ [x]) |- _ => destruct (IH _ H) as [X|(d' & -> & X)] end.
      * left. now apply sub_take.
      * right. exists (y :: d'). split; auto. now apply sub_take.
Qed.
Lemma subseq_init (d a : text) x : subseq (d ++ [x]) a -> subseq d a.
Proof.
  revert d. induction a as [|y a IH]; intros d H.
  - inversion H. destruct d; discriminate.
  - destruct d as [|z d]; simpl in H.
    + clear. induction (y :: a); constructor; auto.
    + inversion H; subst; [apply sub_skip; now apply (IH (z :: d))|apply sub_take; auto].
Qed.
Lemma firstn_S (l : text) i : i < length l -> firstn (S i) l = firstn i l ++ [nth i l 0].
Proof. revert i. induction l as [|x l IH]; simpl; intros i H; [lia|]. destruct i; simpl; auto. rewrite <- IH by lia. reflexivity. Qed.

Lemma LL_bound l r : forall i j d, i <= length l -> j <= length r -> subseq d (firstn i l) -> subseq d (firstn j r) -> length d <= LL l r i j.
Proof.
  induction i as [|i IHi].
  - intros j d _ _ H _. simpl in H. inversion H; subst. simpl. lia.
  - induction j as [|j IHj].
    + intros d _ _ _ H. simpl in H. inversion H; subst. simpl. lia.
    + intros d Hi Hj Ha Hb. rewrite LL_S. rewrite firstn_S in Ha, Hb by lia.
      destruct (subseq_snoc _ _ _ Ha) as [Xa|(da & -> & Xa)]; destruct (subseq_snoc _ _ _ Hb) as [Xb|(db & Eb & Xb)].
      * pose proof (IHi j d ltac:(lia) ltac:(lia) Xa Xb). pose proof (IHi (S j) d ltac:(lia) Hj Xa ltac:(now rewrite firstn_S by lia)).
        destruct (_ =? _); lia.
      * pose proof (IHi (S j) d ltac:(lia) Hj Xa ltac:(now rewrite firstn_S by lia)).
        destruct (_ =? _); [|lia]. subst d. rewrite app_length. simpl. pose proof (IHi j db ltac:(lia) ltac:(lia) (subseq_init _ _ _ Xa) Xb). lia.
      * destruct (_ =? _).
        -- rewrite app_length. simpl. pose proof (IHi j da ltac:(lia) ltac:(lia) Xa (subseq_init _ _ _ Xb)). lia.
        -- pose proof (IHj (da ++ [nth i l 0]) Hi ltac:(lia) ltac:(now rewrite firstn_S by lia) Xb). lia.
      * apply app_inj_tail in Eb. destruct Eb as [-> Eb]. rewrite Eb, Nat.eqb_refl. rewrite app_length. simpl.
        pose proof (IHi j db ltac:(lia) ltac:(lia) Xa Xb). lia.
Qed.
Lemma LL_le l r i j : LL l r i j <= j.
Proof.
  revert j. induction i as [|i IHi]; [simpl; lia|]. induction j as [|j IHj]; [simpl; lia|]. rewrite LL_S.
  pose proof (IHi j). pose proof (IHi (S j)). destruct (_ =? _); lia.
Qed.

(** the table *)
Lemma upd_nth k v (l : list nat) n : k < length l -> nth n (upd k v l) 0 = if n =? k then v else nth n l 0.
Proof.
  intro H. unfold upd. assert (length (firstn k l) = k) as L by (rewrite firstn_length; lia).
  destruct (Nat.eqb_spec n k) as [->|N].
  - rewrite app_nth2 by lia. now rewrite L, Nat.sub_diag.
  - destruct (Nat.lt_ge_cases n k).
    + rewrite app_nth1 by lia. rewrite <- (firstn_skipn k l) at 2. now rewrite app_nth1 by lia.
    + rewrite app_nth2 by lia. rewrite L. replace (n - k) with (S (n - S k)) by lia. cbn [nth].
      rewrite <- (firstn_skipn (S k) l) at 2. rewrite app_nth2; rewrite firstn_length; [f_equal; lia|lia].
Qed.
Lemma upd_length k v (l : list nat) : k < length l -> length (upd k v l) = length l.
Proof. intro H. unfold upd. rewrite app_length. cbn [length]. rewrite firstn_length, skipn_length. lia. Qed.
Lemma index_nth (l : list nat) n : n < length l -> index l n = Ok (nth n l 0).
Proof. intro H. unfold index. destruct (nth_error l n) eqn:E; [|apply nth_error_None in E; lia]. simpl. f_equal. symmetry. now apply nth_error_nth. Qed.
Lemma foldM_seq {B} (f : B -> nat -> res B) (P : nat -> B -> Prop) n : forall s b, P s b ->
  (forall i b, s <= i < s + n -> P i b -> exists b', f b i = Ok b' /\ P (S i) b') -> exists b', foldM f (seq s n) b = Ok b' /\ P (s + n) b'.
Proof.
  induction n as [|n IH]; intros s b H F; simpl.
  - exists b. rewrite Nat.add_0_r. auto.
  - destruct (F s b) as (b' & -> & H'); [lia|auto|]. cbn [bind]. destruct (IH (S s) b' H') as (b2 & E & H2).
    + intros i b0 Hi. apply F. lia.
    + exists b2. split; auto. now replace (s + S n) with (S s + n) by lia.
Qed.

Definition row_ok (l r mt : list nat) (i n : nat) : Prop := forall j, j < n -> nth (i * length r + j) mt 0 = LL l r (S i) (S j).
Lemma idx_lt i j el er : i < el -> j < er -> i * er + j < el * er.
Proof. intros. nia. Qed.
Lemma idx_inj i j i' j' er : j < er -> j' < er -> i * er + j = i' * er + j' -> i = i' /\ j = j'.
Proof. intros. assert (i = i') by nia. subst. split; auto. lia. Qed.
Lemma cell_right l r i j mt : i < length l -> j < length r -> length mt = length l * length r ->
  (forall i', i' < i -> row_ok l r mt i' (length r)) -> row_ok l r mt i j ->
  lcs_cell l r (length r) i j mt = Ok (upd (i * length r + j) (LL l r (S i) (S j)) mt).
Proof.
  intros Hi Hj Hm Hr Hj'. unfold lcs_cell. rewrite !index_nth by auto. cbn [bind]. rewrite LL_S.
  assert (forall a b, a <= i -> b < length r -> a * length r + b < length mt) as Hidx by (intros; rewrite Hm; apply idx_lt; lia).
  destruct (nth i l 0 =? nth j r 0).
  - destruct (Nat.eqb_spec i 0) as [->|Ni]; [reflexivity|]. cbn [orb]. destruct (Nat.eqb_spec j 0) as [->|Nj].
    + cbn [bind]. now rewrite LL_0r.
    + destruct i as [|i]; [lia|]. destruct j as [|j]; [lia|]. replace (S i - 1) with i by lia. replace (i * length r + S j - 1) with (i * length r + j) by lia.
      rewrite index_nth by (apply Hidx; lia). cbn [bind]. rewrite (Hr i) by lia. do 2 f_equal. lia.
  - destruct (Nat.eqb_spec i 0) as [->|Ni].
    + destruct (Nat.eqb_spec j 0) as [->|Nj]; [reflexivity|]. destruct j as [|j]; [lia|].
      replace (0 * length r + S j - 1) with (0 * length r + j) by lia. rewrite index_nth by (apply Hidx; lia). cbn [bind].
      rewrite (Hj' j) by lia. reflexivity.
    + destruct i as [|i]; [lia|]. replace (S i - 1) with i by lia. destruct (Nat.eqb_spec j 0) as [->|Nj].
      * rewrite index_nth by (apply Hidx; lia). cbn [bind]. rewrite (Hr i) by lia. rewrite LL_0r. now rewrite Nat.max_0_r.
      * destruct j as [|j]; [lia|]. replace (S i * length r + S j - 1) with (S i * length r + j) by lia.
        rewrite !index_nth by (apply Hidx; lia). cbn [bind]. rewrite (Hr i) by lia. rewrite (Hj' j) by lia. now rewrite Nat.max_comm.
Qed.
Lemma table_right l r : exists mt, lcs_table l r = Ok mt /\ length mt = length l * length r /\ forall i, i < length l -> row_ok l r mt i (length r).
Proof.
  unfold lcs_table.
  destruct (foldM_seq (fun mt i => foldM (fun mt j => lcs_cell l r (length r) i j mt) (seq 0 (length r)) mt)
    (fun i mt => length mt = length l * length r /\ forall i', i' < i -> row_ok l r mt i' (length r)) (length l) 0 (repeat 0 (length l * length r))) as (mt & E & Hl & Hr).
  - split; [apply repeat_length|]. intros; lia.
  - intros i mt Hi [Hl Hr].
    destruct (foldM_seq (fun mt j => lcs_cell l r (length r) i j mt)
      (fun j mt => length mt = length l * length r /\ (forall i', i' < i -> row_ok l r mt i' (length r)) /\ row_ok l r mt i j) (length r) 0 mt) as (mt' & E & Hl' & Hr' & Hj').
    + split; [auto|split; auto]. intros j Hj; lia.
    + intros j mt1 Hj (Hl1 & Hr1 & Hj1). rewrite cell_right by (auto; lia). eexists. split; [reflexivity|].
      assert (i * length r + j < length mt1) as Hx by (rewrite Hl1; apply idx_lt; lia).
      split; [now rewrite upd_length|]. split.
      * intros i' Hi' j' Hj'. rewrite upd_nth by auto. destruct (Nat.eqb_spec (i' * length r + j') (i * length r + j)) as [X|X]; [|now apply Hr1].
        apply idx_inj in X; lia.
      * intros j' Hj'. rewrite upd_nth by auto. destruct (Nat.eqb_spec (i * length r + j') (i * length r + j)) as [X|X].
        -- apply idx_inj in X; [|lia|lia]. destruct X as [_ ->]. reflexivity.
        -- apply Hj1. assert (j' <> j) by congruence. lia.
    + exists mt'. split; auto. split; auto. intros i' Hi'. destruct (Nat.eq_dec i' i) as [->|N]; [exact Hj'|]. apply Hr'. lia.
  - exists mt. auto.
Qed.

Lemma walk_length l r mt : length mt = length l * length r -> (forall i, i < length l -> row_ok l r mt i (length r)) ->
  forall fuel i1 j1 c c', i1 <= length l -> j1 <= length r -> i1 + j1 <= fuel ->
  lcs_walk fuel l r mt i1 j1 c = Ok c' -> LL l r i1 j1 + length c <= length c' + 1.
Proof.
  intros Hm Hr. induction fuel as [|f IH]; intros i1 j1 c c' Hi Hj Hf E.
  - simpl in E. inversion E; subst. replace i1 with 0 by lia. simpl. lia.
  - cbn [lcs_walk] in E. destruct i1 as [|i]; [inversion E; subst; simpl; lia|]. destruct j1 as [|j]; [inversion E; subst; rewrite LL_0r; lia|].
    rewrite !index_nth in E by lia. cbn [bind] in E. rewrite LL_S. destruct (nth i l 0 =? nth j r 0).
    + apply IH in E; try lia. simpl in E. lia.
    + destruct (Nat.eqb_spec j 0) as [->|Nj].
      * destruct (Nat.eqb_spec i 0) as [->|Ni]; cbn [andb] in E.
        { inversion E; subst. simpl. lia. }
        destruct i as [|i]; [lia|]. bnd E. destruct v.
        -- assert (c' = c) as -> by (destruct f; cbn [lcs_walk] in E; congruence). pose proof (LL_le l r (S i) 1). rewrite LL_0r in *. lia.
        -- apply IH in E; try lia. rewrite LL_0r. lia.
      * cbn [andb] in E. destruct (Nat.eqb_spec i 0) as [->|Ni].
        { cbn [bind] in E. apply IH in E; try lia. simpl (LL l r 0 (S j)). lia. }
        destruct i as [|i]; [lia|]. destruct j as [|j]; [lia|].
        replace (S i * length r + S j - 1) with (S i * length r + j) in E by lia. replace (S i - 1) with i in E by lia.
        rewrite !index_nth in E by (rewrite Hm; apply idx_lt; lia). cbn [bind] in E.
        rewrite (Hr (S i)), (Hr i) in E by lia. destruct (Nat.ltb_spec (LL l r (S i) (S (S j))) (LL l r (S (S i)) (S j))).
        -- apply IH in E; lia.
        -- apply IH in E; lia.
Qed.

(** Missing w.r.t. C15: the result may be one byte shorter than a longest common subsequence *)
Theorem C15_almost_longest_partial : forall l r c d, find_lcs l r = Ok c -> subseq d l -> subseq d r -> length d <= length c + 1.
Proof.
  intros l r c d E Hl Hr. unfold find_lcs in E. destruct (table_right l r) as (mt & Et & Hm & Ht). rewrite Et in E. cbn [bind] in E. bnd E. bnd E.
  apply (walk_length l r mt Hm Ht) in E; try lia. simpl in E.
  pose proof (LL_bound l r (length l) (length r) d (le_n _) (le_n _)) as B. rewrite !firstn_all in B. specialize (B Hl Hr). lia.
Qed.
Print Assumptions C15_almost_longest_partial.
