(** Proofs about the piece table: deletion, range reads, replace. *)
From Coq Require Import List Arith Lia Bool.
From Verif Require Import Base ListFacts PieceTable PieceTableSpec PieceTableFacts PieceTableEdits.
Import ListNotations.

(** the stale handle behaves as [delete] expects *)
Definition stale_fine (n : nat) (st : stale) (rest : list piece) : Prop :=
  match st with
  | StaleSucc => rest <> []
  | StaleDetached off => rest = [] /\ n <= off
  | StaleWrap => rest = []
  end.

Lemma truncate_head p o n : p_off p <= o < p_off p + p_len p ->
  exists h x, p_truncate p o n = Ok (h, x) /\
    h = (if o =? p_off p then None else Some (mkPiece (p_off p) (p_start p) (o - p_off p) (p_orig p))).
Proof.
  intro H. unfold p_truncate. pose proof (proj2 (p_contains_iff p o) H) as Hc. rewrite Hc.
  rewrite (Nat.eqb_sym o).
  assert (exists x, (if p_contains p (o + n)
    then s <- sub (p_start p + (o + n)) (p_off p) ;; d <- sub (o + n) (p_off p) ;; l <- sub (p_len p) d ;;
         Ok (Some (mkPiece o s l (p_orig p))) else Ok None) = Ok x) as [x Ex].
  { destruct (p_contains p (o + n)) eqn:Q; [|eexists; reflexivity].
    apply p_contains_iff in Q. rewrite sub_ok by lia. simpl. rewrite sub_ok by lia. simpl. rewrite sub_ok by lia. simpl.
    eexists; reflexivity. }
  destruct (p_off p =? o) eqn:E; cbn [andb negb].
  - simpl bind. rewrite Ex. simpl. do 2 eexists. split; reflexivity.
  - rewrite sub_ok by lia. simpl bind. rewrite Ex. simpl. do 2 eexists. split; reflexivity.
Qed.

Lemma truncate_tail p o n : p_off p < o + n ->
  exists x t, p_truncate p o n = Ok (x, t) /\
    t = (if o + n <? p_off p + p_len p
         then Some (mkPiece o (p_start p + (o + n - p_off p)) (p_len p - (o + n - p_off p)) (p_orig p)) else None).
Proof.
  intro H. unfold p_truncate.
  assert (exists x, (if p_contains p o && negb (p_off p =? o)
    then l <- sub o (p_off p);; Ok (Some {| p_off := p_off p; p_start := p_start p; p_len := l; p_orig := p_orig p |})
    else Ok None) = Ok x) as [x ->].
  { destruct (p_contains p o) eqn:Q; simpl; [|eauto]. apply p_contains_iff in Q.
    destruct (p_off p =? o); simpl; [eauto|]. rewrite sub_ok by lia. simpl. eauto. }
  simpl bind. unfold p_contains. assert (p_off p <=? o + n = true) as -> by (apply Nat.leb_le; lia). cbn [andb].
  destruct (o + n <? p_off p + p_len p) eqn:Q.
  - apply Nat.ltb_lt in Q. rewrite sub_ok by lia. simpl bind. rewrite sub_ok by lia. simpl bind. rewrite sub_ok by lia.
    simpl bind. replace (p_start p + (o + n) - p_off p) with (p_start p + (o + n - p_off p)) by lia.
    do 2 eexists. split; reflexivity.
  - do 2 eexists. split; reflexivity.
Qed.

Lemma shift_down_after_spec n a p b : (forall q, In q a -> p_off q <> p_off p) -> (forall q, In q b -> n <= p_off q) ->
  shift_down_after (p_off p) n (a ++ p :: b) = Ok (a ++ p :: map (pdown n) b).
Proof.
  intros Ha Hb. induction a as [|q r IH]; simpl.
  - rewrite Nat.eqb_refl. rewrite (mapM_ok _ (pdown n)); auto. intros q Hq. apply shift_down_ok. auto.
  - assert (p_off q =? p_off p = false) as ->.
    { apply Nat.eqb_neq. apply Ha. now left. }
    rewrite IH; auto. intros. apply Ha. now right.
Qed.

Lemma last_app_single {A} (l : list A) x d : last (l ++ [x]) d = x.
Proof. induction l as [|y r IH]; simpl; auto. destruct (r ++ [x]) eqn:E; auto. destruct r; discriminate. Qed.

(** the pieces hit by a deletion and what remains *)
Ltac offs Hst := intros q Hq; try rewrite Hst in Hq; rewrite ?in_app_iff in Hq; simpl in Hq;
  repeat match type of Hq with _ \/ _ => destruct Hq as [Hq|Hq] end;
  first [tauto | rewrite <- Hq; simpl; tauto | rewrite <- Hq; simpl; right; left; split; [reflexivity|lia]].
Lemma delete_pieces pol O A l o n pre p post :
  seqok O A l -> get_node l o = Some (pre, p, post) -> (0 < n \/ p_off p < o) ->
  let hit := take_while (fun q => p_off q <? o + n) (p :: post) in
  let rest := drop_while (fun q => p_off q <? o + n) (p :: post) in
  (p_off p = o -> total pre + total hit <= o + n -> stale_fine n (pol pre hit rest) rest) ->
  exists first hits head x y tail l1 l2 l3 l4,
   hit = first :: hits /\
   p_truncate first o n = Ok (head, x) /\
   p_truncate (last hit first) o n = Ok (y, tail) /\
   foldM tree_remove hit l = Ok l1 /\
   tree_insert_opt head l1 = Ok l2 /\ tree_insert_opt tail l2 = Ok l3 /\
   (match tail, head with
    | Some q, _ => shift_down_after (p_off q) n l3
    | None, Some q => shift_down_after (p_off q) n l3
    | None, None =>
        match pol pre hit rest with
        | StaleDetached off => _ <- sub off n ;; Ok l3
        | StaleWrap => Ok l3
        | StaleSucc =>
            match rest with
            | [] => Unspec
            | q :: _ => _ <- sub (p_off q) n ;; l' <- mapM (shift_down n) rest ;; Ok (pre ++ l')
            end
        end
    end) = Ok l4 /\
   seqok O A l4 /\ ptext O A l4 = s_delete o n (ptext O A l) /\
   (forall q, In q l4 -> p_off q = o \/ exists r, In r l /\
      ((p_off q = p_off r /\ p_off r < o) \/ (p_off q = p_off r - n /\ o + n <= p_off r))).
Proof.
  intros SK G Hn hit rest Hst. pose proof SK as [C B].
  destruct (get_node_some _ _ _ _ _ _ G C) as [El Hp].
  rewrite El in C. apply contig_app in C. destruct C as [Cpre Cp].
  destruct (take_while_contig _ _ (o + n) Cp) as (E1 & Chit & Crest & Hhit & Hrest).
  fold hit rest in E1, Chit, Crest, Hhit, Hrest. simpl in Chit, Crest, Hrest.
  rewrite E1 in El.
  assert (exists hits, hit = p :: hits) as [hits Ehit].
  { unfold hit. simpl. assert (p_off p <? o + n = true) as -> by (apply Nat.ltb_lt; lia). eauto. }
  assert (exists ms z, hit = ms ++ [z]) as (ms & z & Ez).
  { destruct hit as [|a b] using rev_ind; [discriminate|eauto]. }
  assert (last hit p = z) as Elast. { rewrite Ez. apply last_app_single. }
  assert (In z hit) as Hz by (rewrite Ez; apply in_or_app; right; left; auto).
  rewrite El in SK.
  assert (Forall (inb O A) pre /\ Forall (inb O A) hit /\ Forall (inb O A) rest) as (Bpre & Bhit & Brest).
  { destruct SK as [_ B']. apply Forall_app in B'. destruct B' as [B1 B2]. apply Forall_app in B2. tauto. }
  assert (p_off p = total pre) as Ep. { simpl in Cp. tauto. }
  assert (p_off z + p_len z = total pre + total hit) as Eze.
  { rewrite Ez in Chit. apply contig_app in Chit. destruct Chit as [_ (X & _)].
    rewrite Ez, total_app. unfold total at 3. simpl. lia. }
  destruct (truncate_head p o n) as (head & x & T1 & Ehead); [exact Hp|].
  destruct (truncate_tail z o n) as (y & tail & T2 & Etail); [auto|].
  exists p, hits, head, x, y, tail.
  (* text decomposition *)
  assert (length (ptext O A pre) = total pre) as Lpre by now apply ptext_length.
  assert (ptext O A (pre ++ hit ++ rest) = ptext O A pre ++ ptext O A hit ++ ptext O A rest) as Et
    by (rewrite !ptext_app; auto).
  assert (length (ptext O A hit) = total hit) as Lhit by now apply ptext_length.
  assert (length (ptext O A rest) = total rest) as Lrest by now apply ptext_length.
  assert (inb O A p) as Bp. { rewrite Ehit in Bhit. now inversion Bhit. }
  assert (inb O A z) as Bz by (rewrite Forall_forall in Bhit; auto).
  (* what the head keeps *)
  assert (firstn o (ptext O A (pre ++ hit ++ rest)) =
          ptext O A (pre ++ match head with Some h => [h] | None => [] end)) as Fst.
  { rewrite Et, ptext_app, firstn_app_ge by lia. f_equal. rewrite Lpre.
    rewrite Ehit, ptext_cons, <- app_assoc. rewrite firstn_app_le by (rewrite pbytes_length; auto; lia).
    rewrite Ehead. destruct (o =? p_off p) eqn:Q.
    - apply Nat.eqb_eq in Q. replace (o - total pre) with 0 by lia. reflexivity.
    - rewrite ptext_cons, ptext_nil, app_nil_r. unfold pbytes. rewrite slice_firstn by lia.
      unfold pbuf; simpl. f_equal. lia. }
  (* what the tail keeps *)
  assert (skipn (o + n) (ptext O A (pre ++ hit ++ rest)) =
          ptext O A (match tail with Some h => [h] | None => [] end ++ rest)) as Snd.
  { rewrite Et, ptext_app, skipn_app_ge by lia. rewrite Lpre.
    rewrite Etail. destruct (o + n <? p_off z + p_len z) eqn:Q.
    - apply Nat.ltb_lt in Q. rewrite skipn_app_le by lia. f_equal.
      assert (total hit = total ms + p_len z) as Th by (rewrite Ez, total_app; unfold total; simpl; lia).
      rewrite Ez, ptext_app, ptext_cons, ptext_nil, app_nil_r.
      assert (Forall (inb O A) ms) as Bms by (rewrite Ez in Bhit; apply Forall_app in Bhit; tauto).
      assert (p_off z < o + n) by auto.
      rewrite skipn_app_ge by (rewrite ptext_length; auto; lia).
      rewrite ptext_length by auto.
      rewrite ptext_cons, ptext_nil, app_nil_r. unfold pbytes. rewrite slice_skipn. unfold pbuf; simpl.
      f_equal; lia.
    - apply Nat.ltb_ge in Q. rewrite ptext_nil, app_nil_l. rewrite skipn_app_ge by lia.
      destruct Hrest as [->|Hr]; [now rewrite ptext_nil, skipn_nil|].
      replace (o + n - total pre - length (ptext O A hit)) with 0 by lia. reflexivity. }
  unfold s_delete. rewrite El, Fst, Snd. clear Fst Snd.
  assert (foldM tree_remove hit (pre ++ hit ++ rest) = Ok (pre ++ rest)) as FR.
  { eapply foldM_remove. apply SK. }
  rewrite FR.
  assert (forall q, In q pre -> 0 < p_len q /\ p_off q + p_len q <= p_off p) as Hpre.
  { intros q Hq. destruct (contig_bounds _ _ _ Cpre Hq). lia. }
  assert (forall q, In q rest -> 0 < p_len q /\ p_off z + p_len z <= p_off q) as Hrest'.
  { intros q Hq. destruct (contig_bounds _ _ _ Crest Hq). lia. }
  assert (rest <> [] -> o + n <= p_off z + p_len z) as Hre.
  { intro X. destruct Hrest as [|Hr]; [contradiction|lia]. }
  assert (Hdown : forall q, In q rest -> n <= p_off q).
  { intros q Hq. specialize (Hrest' q Hq). assert (rest <> []) as X by (intros ->; destruct Hq). apply Hre in X. lia. }
  assert (p_off p < o + n /\ p_off p + p_len p <= p_off z + p_len z) as [Hpo Hpz].
  { split; [lia|]. rewrite Eze. assert (In p hit) as Hph by (rewrite Ehit; left; auto).
    destruct (contig_bounds _ _ _ Chit Hph) as (_ & X & _). lia. }
  (* contiguity of the shifted rest, starting at [b] *)
  assert (Cdown : forall b, (rest <> [] -> b = total pre + total hit - n) -> contig b (map (pdown n) rest)).
  { intros b Hb. destruct (Nat.le_gt_cases n (total pre + total hit)).
    - destruct rest as [|r0 rs]; [exact I|]. rewrite Hb by congruence. apply contig_down; auto.
    - destruct rest as [|r0 rs]; [exact I|]. specialize (Hdown r0 (or_introl eq_refl)). simpl in Crest. lia. }
  assert (Bdown : Forall (inb O A) (map (pdown n) rest)) by now apply inb_down.
  rewrite Elast.
  assert (Hoffs : forall l4, (forall q, In q l4 -> In q pre \/ (p_off q = p_off p /\ p_off p < o) \/ p_off q = o \/ In q (map (pdown n) rest)) ->
    forall q, In q l4 -> p_off q = o \/ exists r, In r (pre ++ hit ++ rest) /\
      ((p_off q = p_off r /\ p_off r < o) \/ (p_off q = p_off r - n /\ o + n <= p_off r))).
  { intros l4 H q Hq. apply H in Hq. destruct Hq as [Hq|[[Hq Hq']|[Hq|Hq]]]; [right|right|auto|right].
    - exists q. split; [apply in_or_app; auto|]. left. split; auto. apply Hpre in Hq. lia.
    - exists p. split; [apply in_or_app; right; rewrite Ehit; now left|]. left. auto.
    - apply in_map_iff in Hq. destruct Hq as (r & <- & Hr). exists r. split; [apply in_or_app; right; apply in_or_app; auto|].
      right. split; [reflexivity|]. specialize (Hrest' r Hr). assert (rest <> []) as X by (intros ->; destruct Hr). apply Hre in X. lia. }
  destruct (o =? p_off p) eqn:Qh; rewrite Ehead in *; destruct (o + n <? p_off z + p_len z) eqn:Qt; rewrite Etail in *;
    [apply Nat.eqb_eq in Qh; apply Nat.ltb_lt in Qt
    |apply Nat.eqb_eq in Qh; apply Nat.ltb_ge in Qt
    |apply Nat.eqb_neq in Qh; apply Nat.ltb_lt in Qt
    |apply Nat.eqb_neq in Qh; apply Nat.ltb_ge in Qt]; unfold tree_insert_opt.
  - (* tail only *)
    set (tl := mkPiece o (p_start z + (o + n - p_off z)) (p_len z - (o + n - p_off z)) (p_orig z)) in *.
    assert (p_off z < o + n) by auto.
    exists (pre ++ rest), (pre ++ rest), (pre ++ tl :: rest), (pre ++ tl :: map (pdown n) rest).
    split; [auto|]. split; [auto|]. split; [auto|]. split; [auto|]. split; [auto|]. split; [|split; [|split]].
    + apply tree_insert_gap; simpl.
      * lia.
      * intros q Hq. apply Hpre in Hq. lia.
      * intros q Hq. apply Hrest' in Hq. lia.
    + apply shift_down_after_spec; auto. intros q Hq. apply Hpre in Hq. simpl. lia.
    + split.
      * apply contig_app. split; auto. simpl. split; [lia|]. split; [lia|]. apply Cdown. intro X. lia.
      * apply Forall_app. split; auto. constructor; auto. unfold inb, pbuf, p_end in *; simpl.
        destruct (p_orig z); lia.
    + split; [rewrite app_nil_r, ptext_app; f_equal; rewrite ptext_cons; simpl; rewrite ptext_cons; f_equal; apply ptext_down|apply Hoffs; offs Crest].
  - (* neither: both ends on piece boundaries *)
    specialize (Hst (eq_sym Qh)). rewrite <- Eze in Hst. specialize (Hst Qt).
    destruct (pol pre hit rest) as [|off|] eqn:P; simpl in Hst.
    + destruct rest as [|r0 rs] eqn:R; [contradiction|]. rewrite <- R in *.
      exists (pre ++ rest), (pre ++ rest), (pre ++ rest), (pre ++ map (pdown n) rest).
      split; [auto|]. split; [auto|]. split; [auto|]. split; [auto|]. split; [auto|]. split; [auto|]. split; [|split].
      * assert (In r0 rest) as Hr0 by (rewrite R; left; auto).
        rewrite sub_ok by auto. simpl. rewrite (mapM_ok _ (pdown n)); auto.
        intros q Hq. apply shift_down_ok. auto.
      * split; [|apply Forall_app; auto]. apply contig_app. split; auto. simpl. apply Cdown. intro X.
        apply Hre in X. lia.
      * split; [rewrite app_nil_r, ptext_app; f_equal; apply ptext_down|apply Hoffs; offs Hst].
    + destruct Hst as [Hr Ho].
      exists (pre ++ rest), (pre ++ rest), (pre ++ rest), (pre ++ rest).
      split; [auto|]. split; [auto|]. split; [auto|]. split; [auto|]. split; [auto|]. split; [auto|]. split; [|split].
      * rewrite sub_ok by auto. reflexivity.
      * rewrite Hr, app_nil_r. split; auto.
      * split; [now rewrite app_nil_r, ptext_app|apply Hoffs; offs Hr].
    + exists (pre ++ rest), (pre ++ rest), (pre ++ rest), (pre ++ rest).
      split; [auto|]. split; [auto|]. split; [auto|]. split; [auto|]. split; [auto|]. split; [auto|]. split; [|split].
      * reflexivity.
      * rewrite Hst, app_nil_r. split; auto.
      * split; [now rewrite app_nil_r, ptext_app|apply Hoffs; offs Hst].
  - (* both *)
    set (hd := mkPiece (p_off p) (p_start p) (o - p_off p) (p_orig p)) in *.
    set (tl := mkPiece o (p_start z + (o + n - p_off z)) (p_len z - (o + n - p_off z)) (p_orig z)) in *.
    assert (p_off z < o + n) by auto.
    exists (pre ++ rest), (pre ++ hd :: rest), (pre ++ hd :: tl :: rest), (pre ++ hd :: tl :: map (pdown n) rest).
    split; [auto|]. split; [auto|]. split; [auto|]. split; [auto|]. split; [|split; [|split; [|split]]].
    + apply tree_insert_gap; simpl.
      * lia.
      * intros q Hq. apply Hpre in Hq. lia.
      * intros q Hq. apply Hrest' in Hq. lia.
    + change (pre ++ hd :: rest) with (pre ++ [hd] ++ rest). rewrite app_assoc.
      rewrite tree_insert_gap; simpl.
      * now rewrite <- app_assoc.
      * lia.
      * intros q Hq. apply in_app_or in Hq. destruct Hq as [Hq|[<-|[]]]; simpl; [apply Hpre in Hq|]; lia.
      * intros q Hq. apply Hrest' in Hq. lia.
    + change (pre ++ hd :: tl :: rest) with (pre ++ [hd] ++ tl :: rest). rewrite app_assoc.
      rewrite shift_down_after_spec; auto.
      * now rewrite <- app_assoc.
      * intros q Hq. apply in_app_or in Hq. destruct Hq as [Hq|[<-|[]]]; simpl; [apply Hpre in Hq|]; lia.
    + split.
      * apply contig_app. split; auto. simpl. split; [lia|]. split; [lia|]. split; [lia|]. split; [lia|].
        apply Cdown. intro X. lia.
      * apply Forall_app. split; auto. constructor; [|constructor; auto].
        -- unfold inb, pbuf, p_end in *; simpl. destruct (p_orig p); lia.
        -- unfold inb, pbuf, p_end in *; simpl. destruct (p_orig z); lia.
    + split; [cbn [app]; repeat rewrite ?ptext_app, ?ptext_cons, ?ptext_nil, ?ptext_down, ?app_nil_r, <- ?app_assoc; reflexivity|apply Hoffs; offs Crest].
  - (* head only *)
    set (hd := mkPiece (p_off p) (p_start p) (o - p_off p) (p_orig p)) in *.
    exists (pre ++ rest), (pre ++ hd :: rest), (pre ++ hd :: rest), (pre ++ hd :: map (pdown n) rest).
    split; [auto|]. split; [auto|]. split; [auto|]. split; [auto|]. split; [|split; [auto|split; [|split]]].
    + apply tree_insert_gap; simpl.
      * lia.
      * intros q Hq. apply Hpre in Hq. lia.
      * intros q Hq. apply Hrest' in Hq. lia.
    + apply shift_down_after_spec; auto. intros q Hq. apply Hpre in Hq. simpl. lia.
    + split.
      * apply contig_app. split; auto. simpl. split; [lia|]. split; [lia|].
        apply Cdown. intro X. apply Hre in X. lia.
      * apply Forall_app. split; auto. constructor; auto. unfold inb, pbuf, p_end in *; simpl.
        destruct (p_orig p); lia.
    + split; [cbn [app]; repeat rewrite ?ptext_app, ?ptext_cons, ?ptext_nil, ?ptext_down, ?app_nil_r, <- ?app_assoc; reflexivity|apply Hoffs; offs Crest].
Qed.

Lemma delete_spec pol o n t : wf t -> 0 < n ->
  (forall pre hit rest, t_pieces (pt_action ADelete t) = pre ++ hit ++ rest ->
     total pre = o -> hit <> [] -> total pre + total hit <= o + n ->
     stale_fine n (pol pre hit rest) rest) ->
  exists t', pt_delete pol o n t = Ok t' /\ edited ADelete t t' (s_delete o n (txt t)).
Proof.
  intros W Hn Hst. destruct (wf_action ADelete t W) as (Wa & Ta & Na).
  unfold pt_delete, edited. rewrite <- Ta. unfold nl_ok at 1. rewrite <- Na, <- Ta.
  set (u := pt_action ADelete t) in *. clearbody u. clear t Ta Na W.
  pose proof Wa as ((C & B) & HU & HR).
  destruct ((o =? 0) && (n =? pt_len u)) eqn:Q.
  - rewrite andb_true_iff, !Nat.eqb_eq in Q. destruct Q as [-> ->].
    eexists. split; [reflexivity|].
    assert (s_delete 0 (pt_len u) (txt u) = []) as E.
    { unfold s_delete. simpl. apply skipn_all2. rewrite pt_len_txt; auto. }
    unfold wf, nl_ok, txt, utxts, rtxts, set_nl, set_pieces; simpl. fold (txt u). rewrite E.
    repeat split; auto.
  - destruct (get_node (t_pieces u) o) as [[[pre p] post]|] eqn:G.
    + destruct (get_node_some _ _ _ _ _ _ G C) as [El Hp].
      destruct (delete_pieces pol (t_orig u) (t_added u) (t_pieces u) o n pre p post)
        as (first & hits & head & x & y & tail & l1 & l2 & l3 & l4 & E1 & E2 & E3 & E4 & E5 & E6 & E7 & E8 & E9 & E10); auto.
      * split; auto.
      * intros X1 X2. apply Hst; auto.
        -- now rewrite take_drop_while.
        -- rewrite El in C. apply contig_app in C. simpl in C. lia.
        -- simpl. assert (p_off p <? o + n = true) as -> by (apply Nat.ltb_lt; lia). congruence.
      * set (hit := take_while (fun q => p_off q <? o + n) (p :: post)) in *.
        set (rest := drop_while (fun q => p_off q <? o + n) (p :: post)) in *.
        clearbody hit rest. subst hit. cbv zeta.
        rewrite E2. cbn [bind]. rewrite E3. cbn [bind]. rewrite E4. cbn [bind]. rewrite E5. cbn [bind].
        rewrite E6. cbn [bind]. rewrite E7. cbn [bind].
        assert (o <= length (txt u)) as Ho.
        { rewrite txt_length by auto. rewrite El in C. apply contig_app in C. destruct C as [C1 C2].
          simpl in C2. rewrite El, total_app, total_cons. lia. }
        fold (txt u) in E9.
        destruct (nl_delete_ok o n (t_nl u)) as (r & Er & _). rewrite Er. cbn [bind].
        eexists. split; [reflexivity|].
        unfold wf, nl_ok, txt, utxts, rtxts, set_nl, set_pieces; simpl. fold (txt u). rewrite E9.
        repeat split; auto; try apply E8.
        intro H. destruct (nl_delete_spec o n (txt u) Ho) as (r' & Er' & Es). rewrite H in Er. congruence.
    + assert (length (txt u) <= o) as Ho.
      { rewrite txt_length by auto. destruct (Nat.le_gt_cases (total (t_pieces u)) o); auto.
        destruct (get_node_in 0 (t_pieces u) o) as (a & b & c & X); auto; [lia|congruence]. }
      eexists. split; [reflexivity|]. 
      assert (s_delete o n (txt u) = txt u) as E.
      { unfold s_delete. rewrite firstn_all2, skipn_all2 by lia. apply app_nil_r. }
      rewrite E. repeat split; auto; apply Wa.
Qed.

(** an empty deletion panics at the start of a piece and changes no text elsewhere *)
Lemma nl_delete_zero o l : nl_delete o 0 l = Ok l.
Proof.
  induction l as [|i r IH]; simpl; auto. rewrite IH. cbn [bind].
  assert ((o <=? i) && (i <? o + 0) = false) as ->.
  { rewrite Nat.add_0_r. destruct (Nat.leb_spec o i); simpl; auto. apply Nat.ltb_ge. lia. }
  destruct (o + 0 <=? i); auto. change (bind (sub i 0) (fun j => Ok (j :: r)) = Ok (i :: r)). rewrite sub_ok by lia.
  cbn [bind]. do 2 f_equal. lia.
Qed.
Lemma delete_zero pol o t t' : wf t -> pt_delete pol o 0 t = Ok t' ->
  wf t' /\ txt t' = txt t /\ (nl_ok t -> nl_ok t').
Proof.
  intros W. destruct (wf_action ADelete t W) as (Wa & Ta & Na). unfold pt_delete. rewrite <- Ta.
  unfold nl_ok at 1. rewrite <- Na, <- Ta.
  set (u := pt_action ADelete t) in *. clearbody u. clear t Ta Na W.
  pose proof Wa as ((C & B) & HU & HR).
  destruct ((o =? 0) && (0 =? pt_len u)) eqn:Q.
  - rewrite andb_true_iff, !Nat.eqb_eq in Q. destruct Q as [-> Q]. intro E. inversion E; subst t'; clear E.
    rewrite pt_len_txt in Q by auto. destruct (txt u) eqn:X; [|discriminate].
    unfold wf, nl_ok, txt, set_nl, set_pieces; simpl. repeat split; auto.
  - destruct (get_node (t_pieces u) o) as [[[pre p] post]|] eqn:G.
    2:{ intro E. inversion E; subst. auto. }
    destruct (get_node_some _ _ _ _ _ _ G C) as [El Hp].
    destruct (Nat.eq_dec (p_off p) o) as [E|N].
    { cbv zeta. simpl take_while. rewrite (proj2 (Nat.ltb_ge (p_off p) (o + 0))) by lia. discriminate. }
    destruct (delete_pieces pol (t_orig u) (t_added u) (t_pieces u) o 0 pre p post)
      as (first & hits & head & x & y & tail & l1 & l2 & l3 & l4 & E1 & E2 & E3 & E4 & E5 & E6 & E7 & E8 & E9 & E10); auto.
    { split; auto. } { right. lia. } { intro; contradiction. }
    set (hit := take_while (fun q => p_off q <? o + 0) (p :: post)) in *.
    set (rest := drop_while (fun q => p_off q <? o + 0) (p :: post)) in *.
    clearbody hit rest. subst hit. cbv zeta.
    rewrite E2. cbn [bind]. rewrite E3. cbn [bind]. rewrite E4. cbn [bind]. rewrite E5. cbn [bind].
    rewrite E6. cbn [bind]. rewrite E7. cbn [bind]. rewrite nl_delete_zero. cbn [bind].
    intro E. inversion E; subst t'; clear E.
    fold (txt u) in E9. unfold s_delete in E9. rewrite Nat.add_0_r, firstn_skipn in E9.
    unfold wf, nl_ok, txt, set_nl, set_pieces; simpl. fold (txt u). rewrite E9.
    split; [split; auto|]. split; auto. intros ->.
    apply sset_ext; [apply set_of_sset|apply newline_positions_sset|]. intro. apply set_of_In.
Qed.

(** ** range reads *)
Lemma range_spec t o n : wf t ->
  pt_range t o n = Ok (if o <? length (txt t) then Some (slice (txt t) o n) else None).
Proof.
  intro W. pose proof W as ((C & B) & _). unfold pt_range.
  destruct (o <? length (txt t)) eqn:Q.
  - apply Nat.ltb_lt in Q. rewrite txt_length in Q by auto.
    destruct (get_node_in 0 _ o C) as (pre & p & post & G); [lia|]. rewrite G.
    destruct (get_node_some _ _ _ _ _ _ G C) as [El Hp].
    rewrite El in C, B. apply contig_app in C. destruct C as [Cpre Cp]. apply Forall_app in B. destruct B as [Bpre Bp].
    destruct (take_while_contig _ _ (o + n) Cp) as (E1 & Chit & Crest & Hhit & Hrest).
    set (hit := take_while (fun q => p_off q <? o + n) (p :: post)) in *.
    set (rest := drop_while (fun q => p_off q <? o + n) (p :: post)) in *.
    simpl Nat.add in Chit, Crest, Hrest.
    assert (p_off p = total pre) as Ep by (simpl in Cp; tauto).
    rewrite E1 in Bp. apply Forall_app in Bp. destruct Bp as [Bhit Brest].
    set (O := t_orig t) in *. set (A := t_added t) in *.
    (* bytes of each hit piece *)
    set (g := fun q => slice (pbytes O A q) (o - p_off q) (o + n - p_off q - (o - p_off q))).
    assert (mapM (fun q => q' <- p_ranged q o n;; piece_slice t q') hit = Ok (map g hit)) as M.
    { apply mapM_ok. intros q Hq. assert (p_off q < o + n) as Hlt by auto.
      assert (p_off p <= p_off q) as Hge. { destruct (contig_bounds _ _ _ Chit Hq). lia. }
      assert (inb O A q) as Bq by (rewrite Forall_forall in Bhit; auto).
      assert (buf_of t q = pbuf O A q) as Eb by reflexivity.
      (* every hit piece other than the first starts after o *)
      assert (p_off q <= o < p_off q + p_len q \/ o < p_off q) as Hpos.
      { destruct (Nat.le_gt_cases (p_off q) o); auto. left. split; auto.
        unfold hit in Hq. simpl in Hq. destruct (p_off p <? o + n); [|destruct Hq].
        destruct Hq as [<-|Hq]; [lia|]. exfalso.
        assert (In q post). { rewrite <- (take_drop_while (fun q => p_off q <? o + n) post). apply in_or_app; auto. }
        simpl in Cp. destruct Cp as (_ & _ & Cp). destruct (contig_bounds _ _ _ Cp H0). lia. }
      unfold g, p_ranged, inb, p_end in *.
      destruct (p_contains q o) eqn:K1; destruct (p_contains q (o + n)) eqn:K2; simpl andb; cbv iota.
      - apply p_contains_iff in K1. apply p_contains_iff in K2. rewrite sub_ok by lia. simpl bind.
        unfold piece_slice, p_end. simpl. rewrite <- Eb in *. unfold buf_of, pbytes; simpl. fold (buf_of t q). rewrite <- Eb.
        rewrite slice_res_ok by lia. f_equal. rewrite slice_slice by lia. f_equal; lia.
      - apply p_contains_iff in K1. apply p_contains_false in K2. rewrite sub_ok by lia. simpl bind.
        rewrite sub_ok by lia. simpl bind. rewrite sub_ok by lia. simpl bind.
        unfold piece_slice, p_end. simpl. unfold buf_of, pbytes; simpl. fold (buf_of t q). rewrite <- Eb in *.
        rewrite slice_res_ok by lia. f_equal. unfold slice at 2. rewrite slice_skipn.
        rewrite firstn_all2. { f_equal; lia. }
        unfold slice. rewrite firstn_length. lia.
      - apply p_contains_iff in K2. apply p_contains_false in K1. rewrite sub_ok by lia. simpl bind.
        unfold piece_slice, p_end. simpl. unfold buf_of, pbytes; simpl. fold (buf_of t q). rewrite <- Eb in *.
        rewrite slice_res_ok by lia. f_equal. rewrite slice_slice by lia. f_equal; lia.
      - apply p_contains_false in K2. apply p_contains_false in K1. simpl bind.
        unfold piece_slice, p_end, pbytes. rewrite <- Eb in *.
        rewrite slice_res_ok by lia. f_equal. replace (o - p_off q) with 0 by lia.
        rewrite slice_slice_any. f_equal; lia. }
    rewrite M. simpl bind. f_equal. f_equal.
    unfold txt. fold O A. rewrite El, E1, !ptext_app.
    assert (length (ptext O A pre) = total pre) as Lpre by now apply ptext_length.
    unfold slice. rewrite skipn_app_ge by lia. rewrite Lpre, <- Ep.
    assert (length (ptext O A hit) = total hit) as Lhit by now apply ptext_length.
    (* the bytes after the hit pieces are beyond the range *)
    assert (firstn n (skipn (o - p_off p) (ptext O A hit ++ ptext O A rest)) =
            firstn n (skipn (o - p_off p) (ptext O A hit))) as ->.
    { destruct Hrest as [->|Hr]; [now rewrite ptext_nil, app_nil_r|].
      destruct (Nat.le_gt_cases (o - p_off p) (total hit)).
      - rewrite skipn_app_le by lia. apply firstn_app_le. rewrite skipn_length. lia.
      - lia. }
    (* induction over the hit pieces *)
    assert (forall b l, contig b l -> Forall (inb O A) l ->
       concat (map g l) = firstn (o + n - b - (o - b)) (skipn (o - b) (ptext O A l))) as Ind.
    { clear. intros b l. revert b. induction l as [|q r IH]; intros b C B.
      - simpl. now rewrite ptext_nil, skipn_nil, firstn_nil.
      - simpl in C. destruct C as (C1 & C2 & C3). inversion B as [|? ? Bq Br]; subst.
        simpl map. simpl concat. rewrite ptext_cons, (IH _ C3 Br). unfold g, slice.
        pose proof (pbytes_length _ _ _ Bq) as Lq.
        destruct (Nat.le_gt_cases (p_off q + p_len q) o).
        + rewrite (skipn_all2 (n := o - p_off q) (pbytes O A q)) by lia. rewrite firstn_nil. simpl.
          rewrite skipn_app_ge by lia. rewrite Lq. f_equal; [lia|]. f_equal. lia.
        + rewrite skipn_app_le by lia. rewrite firstn_app. f_equal. rewrite skipn_length, Lq.
          replace (o - (p_off q + p_len q)) with 0 by lia. simpl. f_equal. lia. }
    rewrite (Ind _ _ Chit Bhit). rewrite Ep. f_equal. lia.
  - apply Nat.ltb_ge in Q. rewrite txt_length in Q by auto. rewrite (get_node_none 0); auto.
Qed.
