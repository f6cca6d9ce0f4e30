(** Proofs about Diff.v. *)
From Coq Require Import String List Arith Lia Bool.
From Verif Require Import Base ListFacts PieceTable PieceTableSpec PieceTableFacts PieceTableEdits PieceTableDelete
  History HistoryFacts Utf8 Diff DiffSpec.
Import ListNotations.

(** ** subsequences *)
Lemma subseq_nil b : subseq [] b.
Proof. induction b; constructor; auto. Qed.
Lemma subseq_tail x a b : subseq (x :: a) b -> subseq a b.
Proof.
  intro H. remember (x :: a) as l eqn:E. revert x a E. induction H; intros; [discriminate| |].
  - constructor. eauto.
  - inversion E; subst. now constructor.
Qed.
Lemma subseq_app_r a b c : subseq a b -> subseq a (c ++ b).
Proof. intro H. induction c; simpl; auto. now constructor. Qed.
Lemma subseq_refl a : subseq a a.
Proof. induction a; [constructor|now apply sub_take]. Qed.
(** skipping to the first element of the subsequence *)
Lemma subseq_skip c a b : subseq (c :: a) b ->
  exists r, drop_while (fun x => negb (x =? c)) b = c :: r /\ subseq a r.
Proof.
  intro H. remember (c :: a) as l eqn:E. revert c a E. induction H as [|x a b H IH|x a b H IH]; intros c a' E.
  - discriminate.
  - subst. simpl. destruct (x =? c) eqn:X; simpl.
    + apply Nat.eqb_eq in X. subst x. exists b. split; auto. now apply subseq_tail in H.
    + apply IH. reflexivity.
  - inversion E; subst. simpl. rewrite Nat.eqb_refl. simpl. eauto.
Qed.
Lemma subseq_length a b : subseq a b -> length a <= length b.
Proof. induction 1; simpl; lia. Qed.

Lemma take_drop {A} (p : A -> bool) l : take_while p l ++ drop_while p l = l.
Proof. induction l as [|x l IH]; simpl; auto. destruct (p x); simpl; congruence. Qed.
Lemma drop_skipn {A} (p : A -> bool) l : drop_while p l = skipn (length (take_while p l)) l.
Proof. induction l as [|x l IH]; simpl; auto. destruct (p x); simpl; auto. Qed.

(** ** the table: every access is in bounds *)
Lemma index_ok {A} (l : list A) i : i < length l -> exists x, index l i = Ok x /\ nth_error l i = Some x.
Proof.
  intro H. unfold index. destruct (nth_error l i) eqn:E; [simpl; eauto|]. apply nth_error_None in E. lia.
Qed.
Lemma upd_length k v l : k < length l -> length (upd k v l) = length l.
Proof. intro H. unfold upd. rewrite app_length, firstn_length. cbn [length]. rewrite skipn_length. lia. Qed.

Lemma cell_bound er el i j : i < el -> j < er -> i * er + j < el * er.
Proof. intros. nia. Qed.
Lemma lcs_cell_ok l r i j mt : i < length l -> j < length r -> length mt = length l * length r ->
  exists mt', lcs_cell l r (length r) i j mt = Ok mt' /\ length mt' = length l * length r.
Proof.
  intros Hi Hj Hm. unfold lcs_cell.
  destruct (index_ok l i Hi) as (x & -> & _). destruct (index_ok r j Hj) as (y & -> & _). cbn [bind].
  pose proof (cell_bound (length r) (length l) i j Hi Hj) as Hb.
  assert (forall k, k <= i * length r + j -> exists v, index mt k = Ok v) as R.
  { intros k Hk. destruct (index_ok mt k) as (v & ? & _); [lia|eauto]. }
  assert ((i - 1) * length r + j <= i * length r + j) as Hle by nia.
  destruct (R (i * length r + j - 1)) as (a & Ea); [lia|].
  destruct (R ((i - 1) * length r + j)) as (b & Eb); [lia|].
  destruct (R ((i - 1) * length r + j - 1)) as (d & Ed); [lia|].
  assert (forall v, length (upd (i * length r + j) v mt) = length l * length r) as U.
  { intro v. rewrite upd_length; lia. }
  destruct (x =? y); [destruct ((i =? 0) || (j =? 0)) | destruct (i =? 0) eqn:E0; [destruct (j =? 0)|destruct (j =? 0)]];
    rewrite ?Ea, ?Eb, ?Ed; cbn [bind]; eauto.
Qed.
Lemma foldM_inv {A B} (I : B -> Prop) (f : B -> A -> res B) l b : I b ->
  (forall b x, I b -> In x l -> exists b', f b x = Ok b' /\ I b') -> exists b', foldM f l b = Ok b' /\ I b'.
Proof.
  revert b. induction l as [|x r IH]; simpl; intros b Hb H; [eauto|].
  destruct (H b x Hb (or_introl eq_refl)) as (b' & -> & Hb'). cbn [bind]. apply IH; auto.
Qed.
Lemma lcs_table_ok l r : exists mt, lcs_table l r = Ok mt /\ length mt = length l * length r.
Proof.
  unfold lcs_table. apply foldM_inv; [apply repeat_length|]. intros mt i Hm Hi. apply in_seq in Hi.
  apply foldM_inv; auto. intros mt' j Hm' Hj. apply in_seq in Hj. apply lcs_cell_ok; auto; lia.
Qed.

(** ** walking back *)
Lemma subseq_firstn_more c l i x : subseq c (skipn (S i) l) -> nth_error l i = Some x -> subseq (x :: c) (skipn i l).
Proof.
  revert i. induction l as [|y l IH]; intros [|i] H Hx; simpl in *; try discriminate.
  - inversion Hx; subst. now apply sub_take.
  - auto.
Qed.
Lemma skipn_S_sub c l i : subseq c (skipn (S i) l) -> subseq c (skipn i l).
Proof.
  revert i. induction l as [|y l IH]; intros [|i] H; simpl in *; auto. now constructor.
Qed.
Lemma lcs_walk_ok l r mt : length mt = length l * length r -> forall fuel i1 j1 c,
  i1 <= length l -> j1 <= length r -> i1 + j1 <= fuel ->
  subseq c (skipn i1 l) -> subseq c (skipn j1 r) ->
  exists c', lcs_walk fuel l r mt i1 j1 c = Ok c' /\ subseq c' l /\ subseq c' r.
Proof.
  intro Hm. 
  assert (forall c i s, subseq c (skipn i s) -> subseq c s) as Full.
  { intros c i s H. rewrite <- (firstn_skipn i s). now apply subseq_app_r. }
  induction fuel as [|f IH]; intros i1 j1 c Hi Hj Hf Sl Sr; simpl.
  - exists c. split; auto. split; eapply Full; eauto.
  - destruct i1 as [|i], j1 as [|j]; try (exists c; split; [reflexivity|split; eapply Full; eauto]).
    destruct (index_ok l i) as (x & Ex & Nx); [lia|]. destruct (index_ok r j) as (y & Ey & Ny); [lia|].
    rewrite Ex, Ey. cbn [bind]. destruct (x =? y) eqn:Exy.
    + apply Nat.eqb_eq in Exy. subst y. apply IH; try lia; now apply subseq_firstn_more.
    + destruct ((j =? 0) && (i =? 0)) eqn:E0.
      { exists c. split; auto. split; eapply Full; eauto. }
      assert (exists g, (if i =? 0 then Ok true else a <- index mt (i * length r + j - 1);; b <- index mt ((i - 1) * length r + j);; Ok (b <? a)) = Ok g) as (g & ->).
      { destruct (i =? 0) eqn:Ei; [eauto|]. apply Nat.eqb_neq in Ei.
        pose proof (cell_bound (length r) (length l) i j Hi Hj).
        assert ((i - 1) * length r + j <= i * length r + j) by nia.
        destruct (index_ok mt (i * length r + j - 1)) as (a & -> & _); [lia|].
        destruct (index_ok mt ((i - 1) * length r + j)) as (b & -> & _); [lia|]. cbn [bind]. eauto. }
      cbn [bind]. destruct g; apply IH; try lia; auto using skipn_S_sub.
Qed.

Lemma find_lcs_ok l r : l <> [] -> r <> [] -> exists c, find_lcs l r = Ok c /\ subseq c l /\ subseq c r.
Proof.
  intros Hl Hr. unfold find_lcs. destruct (lcs_table_ok l r) as (mt & -> & Hm). cbn [bind].
  assert (0 < length l) by (destruct l; [congruence|simpl; lia]).
  assert (0 < length r) by (destruct r; [congruence|simpl; lia]).
  rewrite !sub_ok by lia. cbn [bind].
  apply lcs_walk_ok; auto; rewrite ?skipn_all; constructor.
Qed.
Lemma find_lcs_empty_l r : find_lcs [] r = Panic "attempt to subtract with overflow".
Proof. unfold find_lcs. destruct (lcs_table_ok [] r) as (mt & -> & Hm). reflexivity. Qed.
Lemma find_lcs_empty_r l : find_lcs l [] = Panic "attempt to subtract with overflow".
Proof.
  unfold find_lcs. destruct (lcs_table_ok l []) as (mt & -> & Hm). cbn [bind].
  unfold sub at 1. destruct (1 <=? length l); reflexivity.
Qed.

(** equal texts: the whole text *)
Lemma lcs_walk_diag l mt : forall fuel i, i <= length l -> i + i <= fuel ->
  lcs_walk fuel l l mt i i (skipn i l) = Ok l.
Proof.
  induction fuel as [|f IH]; intros i Hi Hf.
  - assert (i = 0) as -> by lia. reflexivity.
  - destruct i as [|i]; [reflexivity|]. cbn [lcs_walk].
    destruct (index_ok l i) as (x & -> & Nx); [lia|]. cbn [bind]. rewrite Nat.eqb_refl.
    assert (x :: skipn (S i) l = skipn i l) as ->.
    { clear - Nx. revert i Nx. induction l as [|y l IHl]; intros [|i] Nx; simpl in *; try discriminate; auto. congruence. }
    apply IH; lia.
Qed.
Lemma find_lcs_same l : l <> [] -> find_lcs l l = Ok l.
Proof.
  intro Hl. unfold find_lcs. destruct (lcs_table_ok l l) as (mt & -> & Hm). cbn [bind].
  assert (0 < length l) by (destruct l; [congruence|simpl; lia]).
  rewrite !sub_ok by lia. cbn [bind]. rewrite <- (lcs_walk_diag l mt (length l + length l) (length l)) by lia.
  now rewrite skipn_all.
Qed.

(** ** scripts *)
(** [script ds a b]: [ds] consumes exactly [a] and produces exactly [b], with no empty run *)
Inductive script : list change -> text -> text -> Prop :=
| sc_nil : script [] [] []
| sc_left ds x a b : x <> [] -> script ds a b -> script (CLeft (length x) :: ds) (x ++ a) b
| sc_right ds x a b : x <> [] -> script ds a b -> script (CRight (length x) :: ds) a (x ++ b)
| sc_both ds x a b : x <> [] -> script ds a b -> script (CBoth (length x) :: ds) (x ++ a) (x ++ b).

Lemma script_app d1 a1 b1 d2 a2 b2 : script d1 a1 b1 -> script d2 a2 b2 -> script (d1 ++ d2) (a1 ++ a2) (b1 ++ b2).
Proof. induction 1; intro S2; simpl; rewrite <- ?app_assoc; auto; constructor; auto. Qed.
Lemma script_1l x : x <> [] -> script [CLeft (length x)] x [].
Proof. intro H. rewrite <- (app_nil_r x) at 2. constructor; auto. constructor. Qed.
Lemma script_1r x : x <> [] -> script [CRight (length x)] [] x.
Proof. intro H. rewrite <- (app_nil_r x) at 2. constructor; auto. constructor. Qed.
Lemma script_1b x : x <> [] -> script [CBoth (length x)] x x.
Proof. intro H. rewrite <- (app_nil_r x) at 2 3. constructor; auto. constructor. Qed.
Lemma script_push_l ds a b x : script ds a b -> script (push (length x) (CLeft (length x)) ds) (a ++ x) b.
Proof.
  intro S. unfold push. destruct x as [|y x]; [simpl; now rewrite app_nil_r|].
  simpl Nat.ltb. rewrite <- (app_nil_r b). apply script_app; auto. apply script_1l. discriminate.
Qed.
Lemma script_push_r ds a b x : script ds a b -> script (push (length x) (CRight (length x)) ds) a (b ++ x).
Proof.
  intro S. unfold push. destruct x as [|y x]; [simpl; now rewrite app_nil_r|].
  simpl Nat.ltb. rewrite <- (app_nil_r a). apply script_app; auto. apply script_1r. discriminate.
Qed.
Lemma script_push_b ds a b x : script ds a b -> script (push (length x) (CBoth (length x)) ds) (a ++ x) (b ++ x).
Proof.
  intro S. unfold push. destruct x as [|y x]; [simpl; now rewrite !app_nil_r|].
  simpl Nat.ltb. apply script_app; auto. apply script_1b. discriminate.
Qed.
Lemma script_lens ds a b : script ds a b -> left_len ds = length a /\ right_len ds = length b.
Proof. induction 1; simpl; rewrite ?app_length; lia. Qed.
Lemma script_apply ds a b x y : script ds a b -> apply_script ds (a ++ x) (b ++ y) = b ++ x.
Proof.
  induction 1 as [|ds z a b Hz S IH|ds z a b Hz S IH|ds z a b Hz S IH]; simpl; auto; rewrite <- ?app_assoc.
  - rewrite skipn_app, skipn_all, Nat.sub_diag. simpl. auto.
  - rewrite firstn_app, firstn_all, Nat.sub_diag, skipn_app, skipn_all, Nat.sub_diag. simpl. rewrite app_nil_r, IH. reflexivity.
  - rewrite !firstn_app, firstn_all, Nat.sub_diag, !skipn_app, skipn_all, Nat.sub_diag. simpl. rewrite app_nil_r, IH. reflexivity.
Qed.
Lemma script_apply_more ds a b ds' x y : script ds a b -> apply_script (ds ++ ds') (a ++ x) (b ++ y) = b ++ apply_script ds' x y.
Proof.
  induction 1 as [|ds z a b Hz S IH|ds z a b Hz S IH|ds z a b Hz S IH]; simpl; auto; rewrite <- ?app_assoc.
  - rewrite skipn_app, skipn_all, Nat.sub_diag. simpl. auto.
  - rewrite firstn_app, firstn_all, Nat.sub_diag, skipn_app, skipn_all, Nat.sub_diag. simpl. rewrite app_nil_r, IH. reflexivity.
  - rewrite !firstn_app, firstn_all, Nat.sub_diag, !skipn_app, skipn_all, Nat.sub_diag. simpl. rewrite app_nil_r, IH. reflexivity.
Qed.

(** ** the main loop *)
Lemma skipn_nth_cons (l : text) i x : nth_error l i = Some x -> skipn i l = x :: skipn (S i) l.
Proof. revert i. induction l as [|y l IH]; intros [|i] H; simpl in *; try discriminate; auto. congruence. Qed.
Lemma skipn_cons_nth (l : text) i x r : skipn i l = x :: r -> nth_error l i = Some x /\ r = skipn (S i) l.
Proof. revert i. induction l as [|y l IH]; intros [|i] H; simpl in *; try discriminate; auto. inversion H; auto. Qed.

Lemma common_run_ok l r : forall lcs i j c, subseq (c :: lcs) (skipn i l) -> subseq (c :: lcs) (skipn j r) ->
  exists x i' j' rest, common_run l r i j c lcs = Ok (i', j', length x, rest) /\
    i' = i + length x /\ j' = j + length x /\ firstn (length x) (skipn i l) = x /\ firstn (length x) (skipn j r) = x /\
    length rest <= length lcs /\ subseq rest (skipn i' l) /\ subseq rest (skipn j' r).
Proof.
  induction lcs as [|v lcs IH]; intros i j c Sl Sr; simpl common_run.
  - pose proof (subseq_length _ _ Sl) as Ll. pose proof (subseq_length _ _ Sr) as Lr. rewrite skipn_length in *.
    simpl in Ll, Lr.
    destruct (index_ok l i) as (a & -> & Na); [lia|]. cbn [bind].
    destruct (a =? c) eqn:Ea.
    2:{ exists [], i, j, []. simpl. rewrite !Nat.add_0_r. repeat split; auto; try lia; apply subseq_nil. }
    apply Nat.eqb_eq in Ea. subst a.
    destruct (index_ok r j) as (b & -> & Nb); [lia|]. cbn [bind].
    destruct (b =? c) eqn:Eb.
    2:{ exists [], i, j, []. simpl. rewrite !Nat.add_0_r. repeat split; auto; try lia; apply subseq_nil. }
    apply Nat.eqb_eq in Eb. subst b.
    exists [c], (S i), (S j), []. rewrite (skipn_nth_cons _ _ _ Na), (skipn_nth_cons _ _ _ Nb). simpl.
    repeat split; auto; try lia; apply subseq_nil.
  - pose proof (subseq_length _ _ Sl) as Ll. pose proof (subseq_length _ _ Sr) as Lr. rewrite skipn_length in *.
    simpl in Ll, Lr.
    destruct (index_ok l i) as (a & -> & Na); [lia|]. cbn [bind].
    assert (exists x i' j' rest, Ok (i, j, 0, v :: lcs) = Ok (i', j', length x, rest) /\
      i' = i + length x /\ j' = j + length x /\ firstn (length x) (skipn i l) = x /\ firstn (length x) (skipn j r) = x /\
      length rest <= length (v :: lcs) /\ subseq rest (skipn i' l) /\ subseq rest (skipn j' r)) as Stop.
    { exists [], i, j, (v :: lcs). simpl. rewrite !Nat.add_0_r. repeat split; auto; eapply subseq_tail; eauto. }
    destruct (a =? c) eqn:Ea; [|exact Stop]. apply Nat.eqb_eq in Ea. subst a.
    destruct (index_ok r j) as (b & -> & Nb); [lia|]. cbn [bind].
    destruct (b =? c) eqn:Eb; [|exact Stop]. apply Nat.eqb_eq in Eb. subst b. clear Stop.
    rewrite (skipn_nth_cons _ _ _ Na) in *. rewrite (skipn_nth_cons _ _ _ Nb) in *.
    assert (subseq (v :: lcs) (skipn (S i) l)) as Sl'.
    { apply subseq_skip in Sl. destruct Sl as (q & Eq & H). cbn [drop_while] in Eq. rewrite Nat.eqb_refl in Eq. cbn [negb] in Eq. congruence. }
    assert (subseq (v :: lcs) (skipn (S j) r)) as Sr'.
    { apply subseq_skip in Sr. destruct Sr as (q & Eq & H). cbn [drop_while] in Eq. rewrite Nat.eqb_refl in Eq. cbn [negb] in Eq. congruence. }
    destruct (IH (S i) (S j) v Sl' Sr') as (x & i' & j' & rest & E & H1 & H2 & H3 & H4 & H5 & H6 & H7).
    rewrite E. cbn [bind]. exists (c :: x), i', j', rest. cbn [length firstn].
    repeat split; auto; try lia; try (f_equal; now auto); simpl in *; lia.
Qed.

Lemma firstn_add {A} (l : list A) i k : firstn (i + k) l = firstn i l ++ firstn k (skipn i l).
Proof.
  revert i. induction l as [|x l IH]; intros i.
  - rewrite firstn_nil, skipn_nil, !firstn_nil. reflexivity.
  - destruct i as [|i]; simpl; auto. f_equal. apply IH.
Qed.

Lemma skip_to_ok s i c lcs : subseq (c :: lcs) (skipn i s) ->
  exists x, length x = skip_to s i c /\ firstn (i + skip_to s i c) s = firstn i s ++ x /\
    subseq (c :: lcs) (skipn (i + skip_to s i c) s).
Proof.
  intro H. pose proof (subseq_skip _ _ _ H) as (r & Er & Hr).
  exists (take_while (fun b => negb (b =? c)) (skipn i s)). split; auto. split.
  - rewrite firstn_add. f_equal. unfold skip_to. rewrite <- (take_drop (fun b => negb (b =? c)) (skipn i s)) at 2.
    rewrite firstn_app, firstn_all, Nat.sub_diag. simpl. now rewrite app_nil_r.
  - rewrite drop_skipn in Er. unfold skip_to. rewrite <- skipn_skipn, Er. now apply sub_take.
Qed.

Lemma diff_loop_ok l r : forall fuel lcs i j ds pa pb, length lcs <= fuel ->
  subseq lcs (skipn i l) -> subseq lcs (skipn j r) -> i <= length l -> j <= length r ->
  script ds (pa ++ firstn i l) (pb ++ firstn j r) ->
  exists i' j' ds', diff_loop fuel l r i j lcs ds = Ok (i', j', ds') /\ i' <= length l /\ j' <= length r /\
    script ds' (pa ++ firstn i' l) (pb ++ firstn j' r).
Proof.
  induction fuel as [|f IH]; intros lcs i j ds pa pb Hf Sl Sr Hi Hj S.
  - destruct lcs; [|simpl in Hf; lia]. simpl. eauto 10.
  - destruct lcs as [|c rest]; [simpl; eauto 10|]. simpl diff_loop.
    destruct (skip_to_ok l i c rest Sl) as (x & Lx & Fx & Sx).
    destruct (skip_to_ok r j c rest Sr) as (y & Ly & Fy & Sy).
    destruct (common_run_ok l r rest (i + skip_to l i c) (j + skip_to r j c) c Sx Sy)
      as (z & i' & j' & rest' & E & H1 & H2 & H3 & H4 & H5 & H6 & H7).
    rewrite E. cbn [bind].
    assert (length z <= length l - (i + skip_to l i c)) as Zl.
    { rewrite <- H3 at 1. rewrite firstn_length, skipn_length. lia. }
    assert (length z <= length r - (j + skip_to r j c)) as Zr.
    { rewrite <- H4 at 1. rewrite firstn_length, skipn_length. lia. }
    pose proof (subseq_length _ _ Sx) as Bx. pose proof (subseq_length _ _ Sy) as By.
    rewrite skipn_length in Bx, By. simpl in Bx, By.
    apply IH; auto; try (simpl in Hf; lia).
    subst i' j'. rewrite (firstn_add l (i + skip_to l i c)), (firstn_add r (j + skip_to r j c)), H3, H4, Fx, Fy, !app_assoc.
    apply script_push_b. rewrite <- Lx, <- Ly. apply script_push_r. apply script_push_l. exact S.
Qed.

(** leftovers: at most one byte of each middle is not accounted for *)
Lemma diff_tail_ok l r i j ds pa pb : l <> [] -> r <> [] -> i <= length l -> j <= length r ->
  script ds (pa ++ firstn i l) (pb ++ firstn j r) ->
  exists ds' l1 l2 r1 r2, diff_tail l r i j ds = Ok ds' /\ l = l1 ++ l2 /\ r = r1 ++ r2 /\
    length l2 <= 1 /\ length r2 <= 1 /\ script ds' (pa ++ l1) (pb ++ r1).
Proof.
  intros Hl Hr Hi Hj S. unfold diff_tail.
  assert (0 < length l) by (destruct l; [congruence|simpl; lia]).
  assert (0 < length r) by (destruct r; [congruence|simpl; lia]).
  rewrite !sub_ok by lia. cbn [bind].
  assert (exists ds1 l1 l2, (if i <? length l - 1 then ds ++ [CLeft (length l - i)] else ds) = ds1 /\
    l = l1 ++ l2 /\ length l2 <= 1 /\ script ds1 (pa ++ l1) (pb ++ firstn j r)) as (ds1 & l1 & l2 & -> & El & L2 & S1).
  { destruct (i <? length l - 1) eqn:E.
    - apply Nat.ltb_lt in E. eexists _, l, []. rewrite app_nil_r. repeat split; auto.
      replace (pa ++ l) with ((pa ++ firstn i l) ++ skipn i l) by (now rewrite <- app_assoc, firstn_skipn). rewrite <- (app_nil_r (pb ++ _)). apply script_app; auto.
      rewrite <- skipn_length. apply script_1l. intro X. apply (f_equal (@length nat)) in X. rewrite skipn_length in X. simpl in X. lia.
    - apply Nat.ltb_ge in E. eexists _, (firstn i l), (skipn i l). rewrite firstn_skipn, skipn_length. repeat split; auto. lia. }
  destruct (j <? length r - 1) eqn:E.
  - apply Nat.ltb_lt in E. eexists _, l1, l2, r, []. rewrite app_nil_r. repeat split; auto.
    replace (pb ++ r) with ((pb ++ firstn j r) ++ skipn j r) by (now rewrite <- app_assoc, firstn_skipn). rewrite <- (app_nil_r (pa ++ _)). apply script_app; auto.
    rewrite <- skipn_length. apply script_1r. intro X. apply (f_equal (@length nat)) in X. rewrite skipn_length in X. simpl in X. lia.
  - apply Nat.ltb_ge in E. eexists _, l1, l2, (firstn j r), (skipn j r). rewrite firstn_skipn, skipn_length. repeat split; auto. lia.
Qed.

(** ** precompute *)
Lemma agree_le a b : agree a b <= length a /\ agree a b <= length b.
Proof. revert b. induction a as [|x a IH]; intros [|y b]; simpl; try lia. destruct (x =? y); simpl; [|lia]. specialize (IH b). lia. Qed.
Lemma agree_prefix a b : firstn (agree a b) a = firstn (agree a b) b.
Proof. revert b. induction a as [|x a IH]; intros [|y b]; simpl; auto. destruct (x =? y) eqn:E; simpl; auto. apply Nat.eqb_eq in E. subst. f_equal. auto. Qed.
Lemma agree_same a : agree a a = length a.
Proof. induction a; simpl; auto. now rewrite Nat.eqb_refl, IHa. Qed.
Lemma agree_app p a b : agree (p ++ a) (p ++ b) = length p + agree a b.
Proof. induction p; simpl; auto. now rewrite Nat.eqb_refl, IHp. Qed.

Lemma skipn_split {A} (l : list A) k : k <= length l -> exists a b, l = a ++ b /\ length a = k /\ skipn k l = b /\ firstn k l = a.
Proof. intro H. exists (firstn k l), (skipn k l). rewrite firstn_skipn, firstn_length. repeat split; lia. Qed.

(** the two texts as common prefix, middles, common suffix *)
Lemma precompute_split l r s e : precompute l r = (s, Some e) ->
  exists p a b q, l = p ++ a ++ q /\ r = p ++ b ++ q /\ length p = s /\ length q = e /\ 0 < e /\ s <> e.
Proof.
  unfold precompute. set (st := agree l r). set (en := agree _ _).
  destruct ((st =? en) || (en =? 0)) eqn:E; [discriminate|]. intro X. inversion X; subst s e. clear X.
  apply orb_false_iff in E. destruct E as [E1 E2]. apply Nat.eqb_neq in E1. apply Nat.eqb_neq in E2.
  pose proof (agree_le l r) as [A1 A2]. fold st in A1, A2. pose proof (agree_prefix l r) as AP. fold st in AP.
  pose proof (agree_le (rev (skipn st l)) (rev (skipn st r))) as [B1 B2]. fold en in B1, B2.
  pose proof (agree_prefix (rev (skipn st l)) (rev (skipn st r))) as BP. fold en in BP.
  rewrite rev_length in B1, B2.
  exists (firstn st l), (rev (skipn en (rev (skipn st l)))), (rev (skipn en (rev (skipn st r)))), (rev (firstn en (rev (skipn st l)))).
  rewrite <- rev_app_distr, firstn_skipn, rev_involutive, firstn_skipn.
  rewrite BP at 1. rewrite <- rev_app_distr, firstn_skipn, rev_involutive. rewrite AP at 1. rewrite firstn_skipn.
  rewrite firstn_length, rev_length, firstn_length, rev_length. repeat split; auto; lia.
Qed.

(** every successful computation *)
Lemma diff_shape l r ds : diff l r = Ok ds ->
  (exists p a b, l = p ++ a /\ r = p ++ b /\ p <> [] /\ ds = [CBoth (length p)]) \/
  (exists p a1 a2 b1 b2 q ds1, l = p ++ (a1 ++ a2) ++ q /\ r = p ++ (b1 ++ b2) ++ q /\
     length a2 <= 1 /\ length b2 <= 1 /\ script ds1 (p ++ a1) (p ++ b1) /\ ds = push (length q) (CBoth (length q)) ds1).
Proof.
  unfold diff. destruct (precompute l r) as [s [e|]] eqn:P.
  - destruct (precompute_split l r s e P) as (p & a & b & q & -> & -> & Lp & Lq & He & Hse).
    assert (slice (p ++ a ++ q) s (length (p ++ a ++ q) - e - s) = a) as ->.
    { unfold slice. rewrite !app_length, <- Lp, skipn_app, skipn_all, Nat.sub_diag. cbn [skipn app].
      replace (length p + (length a + length q) - e - length p) with (length a) by lia.
      rewrite firstn_app, firstn_all, Nat.sub_diag. simpl. apply app_nil_r. }
    assert (slice (p ++ b ++ q) s (length (p ++ b ++ q) - e - s) = b) as ->.
    { unfold slice. rewrite !app_length, <- Lp, skipn_app, skipn_all, Nat.sub_diag. cbn [skipn app].
      replace (length p + (length b + length q) - e - length p) with (length b) by lia.
      rewrite firstn_app, firstn_all, Nat.sub_diag. simpl. apply app_nil_r. }
    destruct a as [|a0 a'].
    { rewrite find_lcs_empty_l. discriminate. }
    destruct b as [|b0 b'].
    { rewrite find_lcs_empty_r. discriminate. }
    set (a := a0 :: a') in *. set (b := b0 :: b') in *.
    assert (a <> []) as Ha by discriminate. assert (b <> []) as Hb by discriminate. clearbody a b.
    destruct (find_lcs_ok a b Ha Hb) as (c & -> & Sl & Sr). cbn [bind].
    destruct (diff_loop_ok a b (length c) c 0 0 (push s (CBoth s) []) p p) as (i & j & ds1 & -> & Hi & Hj & S1);
      try (simpl; lia); auto.
    { simpl. rewrite !app_nil_r. rewrite <- Lp. apply (script_push_b [] [] [] p). constructor. }
    cbn [bind]. destruct (diff_tail_ok a b i j ds1 p p Ha Hb Hi Hj S1) as (ds2 & a1 & a2 & b1 & b2 & -> & Ea & Eb & La & Lb & S2).
    cbn [bind]. intro X. inversion X; subst ds. right. subst a b. exists p, a1, a2, b1, b2, q, ds2. rewrite <- Lq. auto 10.
  - destruct (0 <? s) eqn:Es.
    + intro X. inversion X; subst ds. left. unfold precompute in P.
      destruct ((agree l r =? agree (rev (skipn (agree l r) l)) (rev (skipn (agree l r) r))) ||
          (agree (rev (skipn (agree l r) l)) (rev (skipn (agree l r) r)) =? 0)); inversion P; subst s. clear P.
      apply Nat.ltb_lt in Es. pose proof (agree_le l r) as [A1 A2]. pose proof (agree_prefix l r) as AP.
      exists (firstn (agree l r) l), (skipn (agree l r) l), (skipn (agree l r) r).
      rewrite firstn_skipn. rewrite AP at 1. rewrite firstn_skipn. rewrite firstn_length.
      replace (min (agree l r) (length l)) with (agree l r) by lia. repeat split; auto.
      * intro X'. apply (f_equal (@length nat)) in X'. rewrite firstn_length in X'. simpl in X'. lia.
      * unfold push. apply Nat.ltb_lt in Es. now rewrite Es.
    + destruct l as [|l0 l']; [rewrite find_lcs_empty_l; discriminate|].
      destruct r as [|r0 r']; [rewrite find_lcs_empty_r; discriminate|].
      set (a := l0 :: l') in *. set (b := r0 :: r') in *.
      assert (a <> []) as Ha by discriminate. assert (b <> []) as Hb by discriminate. clearbody a b.
      destruct (find_lcs_ok a b Ha Hb) as (c & -> & Sl & Sr). cbn [bind].
      destruct (diff_loop_ok a b (length c) c 0 0 (push s (CBoth s) []) [] []) as (i & j & ds1 & -> & Hi & Hj & S1);
        try (simpl; lia); auto.
      { unfold push. rewrite Es. simpl. constructor. }
      cbn [bind]. destruct (diff_tail_ok a b i j ds1 [] [] Ha Hb Hi Hj S1) as (ds2 & a1 & a2 & b1 & b2 & -> & Ea & Eb & La & Lb & S2).
      intro X. inversion X; subst ds. right. exists [], a1, a2, b1, b2, [], ds2. rewrite !app_nil_r. simpl. auto 10.
Qed.

(** the computation succeeds when the middles are not empty *)
Lemma diff_ok l r : (forall s, precompute l r = (s, None) -> 0 < s \/ (l <> [] /\ r <> [])) ->
  (forall s e, precompute l r = (s, Some e) -> s + e < length l /\ s + e < length r) ->
  exists ds, diff l r = Ok ds.
Proof.
  intros HN HS. unfold diff. destruct (precompute l r) as [s [e|]] eqn:P.
  - destruct (HS s e eq_refl) as [H1 H2]. 
    set (a := slice l s _). set (b := slice r s _).
    assert (a <> []) as Ha. { intro X. apply (f_equal (@length nat)) in X. unfold a, slice in X. rewrite firstn_length, skipn_length in X. simpl in X. lia. }
    assert (b <> []) as Hb. { intro X. apply (f_equal (@length nat)) in X. unfold b, slice in X. rewrite firstn_length, skipn_length in X. simpl in X. lia. }
    clearbody a b. destruct (find_lcs_ok a b Ha Hb) as (c & -> & Sl & Sr). cbn [bind].
    assert (exists p, length p = s) as (p & Lp) by (exists (repeat 0 s); apply repeat_length).
    destruct (diff_loop_ok a b (length c) c 0 0 (push s (CBoth s) []) p p) as (i & j & ds1 & -> & Hi & Hj & S1);
      try (simpl; lia); auto.
    { simpl. rewrite !app_nil_r. rewrite <- Lp. apply (script_push_b [] [] [] p). constructor. }
    cbn [bind]. destruct (diff_tail_ok a b i j ds1 p p Ha Hb Hi Hj S1) as (ds2 & a1 & a2 & b1 & b2 & -> & _).
    cbn [bind]. eauto.
  - destruct (0 <? s) eqn:Es; [eauto|]. apply Nat.ltb_ge in Es. destruct (HN s eq_refl) as [H|[Ha Hb]]; [lia|].
    destruct (find_lcs_ok l r Ha Hb) as (c & -> & Sl & Sr). cbn [bind].
    destruct (diff_loop_ok l r (length c) c 0 0 (push s (CBoth s) []) [] []) as (i & j & ds1 & -> & Hi & Hj & S1);
      try (simpl; lia); auto.
    { unfold push. assert (s = 0) as -> by lia. simpl. constructor. }
    cbn [bind]. destruct (diff_tail_ok l r i j ds1 [] [] Ha Hb Hi Hj S1) as (ds2 & a1 & a2 & b1 & b2 & -> & _). eauto.
Qed.
