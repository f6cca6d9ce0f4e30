(** Valid UTF-8 is decoded to itself, piece by piece, if all piece boundaries are character boundaries. *)
From Coq Require Import String List Arith Lia Bool.
From Verif Require Import Base ListFacts PieceTable PieceTableSpec PieceTableFacts PieceTableEdits PieceTableDelete
  History HistoryFacts Utf8 Utf8Spec.
Import ListNotations.

Ltac dchar c := destruct c as [|?a [|?b [|?d [|?e [|?f ?r]]]]]; simpl in *; try tauto.

Lemma char_nonempty c : is_char c -> c <> [].
Proof. intros H ->. exact H. Qed.
(** the first byte of a character determines its length *)
Lemma char_prefix c d r r' : is_char c -> is_char d -> c ++ r = d ++ r' -> c = d.
Proof.
  intros Hc Hd E. assert (length c = length d) as L.
  { dchar c; dchar d; auto; exfalso; inversion E; subst; unfold trail in *; lia. }
  apply (f_equal (firstn (length c))) in E. rewrite firstn_app_le, firstn_all in E by auto.
  rewrite L in E. rewrite firstn_app_le, firstn_all in E by auto. exact E.
Qed.
Lemma valid_nil : valid [].
Proof. exists []. auto. Qed.
Lemma valid_app a b : valid a -> valid b -> valid (a ++ b).
Proof. intros (cs & F & ->) (ds & H & ->). exists (cs ++ ds). split; [now apply Forall_app|]. symmetry. apply concat_app. Qed.
Lemma valid_cancel a b : valid (a ++ b) -> valid a -> valid b.
Proof.
  intros V (cs & F & ->). revert b V. induction F as [|c cs Hc F IH]; simpl; intros b V; auto.
  apply IH. destruct V as (ds & G & E). destruct ds as [|d ds]; simpl in E.
  - exfalso. apply (char_nonempty c Hc). apply (f_equal (@length nat)) in E. rewrite <- app_assoc, app_length in E. destruct c; auto. discriminate.
  - inversion G; subst. rewrite <- app_assoc in E. pose proof (char_prefix _ _ _ _ Hc H1 E) as ->. apply app_inv_head in E. exists ds. auto.
Qed.

(** ** decoding *)
Lemma step_char c r : is_char c -> utf8_step (c ++ r) = (length c, true).
Proof.
  intro H. unfold utf8_step. dchar c; unfold second3, second4, cont, between, trail in *.
  - now rewrite (proj2 (Nat.ltb_lt _ _)) by lia.
  - repeat first [rewrite (proj2 (Nat.ltb_ge _ _)) by lia | rewrite (proj2 (Nat.leb_le _ _)) by lia]. reflexivity.
  - destruct H as [H1 H2].
    assert (a <? 128 = false) as -> by (apply Nat.ltb_ge; lia).
    assert ((194 <=? a) && (a <=? 223) = false) as -> by (apply andb_false_iff; right; apply Nat.leb_gt; lia).
    assert ((224 <=? a) && (a <=? 239) = true) as -> by (apply andb_true_iff; rewrite !Nat.leb_le; lia).
    assert ((a =? 224) && ((160 <=? b) && (b <=? 191)) || (225 <=? a) && (a <=? 236) && ((128 <=? b) && (b <=? 191))
      || (a =? 237) && ((128 <=? b) && (b <=? 159)) || (238 <=? a) && (a <=? 239) && ((128 <=? b) && (b <=? 191)) = true) as ->.
    { rewrite !orb_true_iff, !andb_true_iff, !Nat.leb_le, !Nat.eqb_eq. lia. }
    assert ((128 <=? d) && (d <=? 191) = true) as -> by (apply andb_true_iff; rewrite !Nat.leb_le; lia). reflexivity.
  - destruct H as (H1 & H2 & H3).
    assert (a <? 128 = false) as -> by (apply Nat.ltb_ge; lia).
    assert ((194 <=? a) && (a <=? 223) = false) as -> by (apply andb_false_iff; right; apply Nat.leb_gt; lia).
    assert ((224 <=? a) && (a <=? 239) = false) as -> by (apply andb_false_iff; right; apply Nat.leb_gt; lia).
    assert ((240 <=? a) && (a <=? 244) = true) as -> by (apply andb_true_iff; rewrite !Nat.leb_le; lia).
    assert ((a =? 240) && ((144 <=? b) && (b <=? 191)) || (241 <=? a) && (a <=? 243) && ((128 <=? b) && (b <=? 191))
      || (a =? 244) && ((128 <=? b) && (b <=? 143)) = true) as ->.
    { rewrite !orb_true_iff, !andb_true_iff, !Nat.leb_le, !Nat.eqb_eq. lia. }
    assert ((128 <=? d) && (d <=? 191) = true) as -> by (apply andb_true_iff; rewrite !Nat.leb_le; lia).
    assert ((128 <=? e) && (e <=? 191) = true) as -> by (apply andb_true_iff; rewrite !Nat.leb_le; lia). reflexivity.
Qed.
Lemma lossy_fuel_valid cs : Forall is_char cs -> forall f, length (concat cs) <= f -> lossy_fuel f (concat cs) = concat cs.
Proof.
  induction 1 as [|c cs Hc F IH]; simpl; intros f L; [destruct f; reflexivity|].
  pose proof (char_nonempty c Hc) as N. rewrite app_length in L. assert (0 < length c) by (destruct c; [congruence|simpl; lia]).
  destruct f as [|f]; [lia|]. cbn [lossy_fuel]. destruct (c ++ concat cs) as [|y ys] eqn:E.
  { destruct c; [congruence|discriminate]. }
  rewrite <- E, step_char by auto. rewrite firstn_app_le, firstn_all, skipn_app_ge, Nat.sub_diag by auto. simpl.
  rewrite IH by lia. reflexivity.
Qed.
Lemma lossy_valid s : valid s -> from_utf8_lossy s = s.
Proof. intros (cs & F & ->). unfold from_utf8_lossy. now apply lossy_fuel_valid. Qed.

(** ** boundaries *)
Lemma bound_0 s : valid s -> bound s 0.
Proof. exists [], s. auto using valid_nil. Qed.
Lemma bound_end s : valid s -> bound s (length s).
Proof. exists s, []. rewrite app_nil_r. auto using valid_nil. Qed.
Lemma bound_valid s o : bound s o -> valid s.
Proof. intros (a & b & -> & _ & V & W). now apply valid_app. Qed.
Lemma bound_parts s o : bound s o -> valid (firstn o s) /\ valid (skipn o s).
Proof. intros (a & b & -> & <- & V & W). rewrite firstn_app_le, firstn_all, skipn_app_ge, Nat.sub_diag by auto. auto. Qed.
Lemma bound_intro a b : valid a -> valid b -> bound (a ++ b) (length a).
Proof. intros. exists a, b. auto. Qed.
Lemma bound_le s o k : bound s k -> k <= o -> valid (firstn o s) -> bound (firstn o s) k.
Proof.
  intros (a & b & -> & <- & V & W) H V'. rewrite firstn_app_ge in * by auto. apply bound_intro; auto.
  exact (valid_cancel _ _ V' ltac:(assumption)).
Qed.
Lemma bound_ge s o k : bound s k -> o <= k -> bound s o -> bound (skipn o s) (k - o).
Proof.
  intros (a & b & -> & <- & V & W) H B. apply bound_parts in B. destruct B as [B1 B2].
  rewrite firstn_app_le in B1 by auto. rewrite skipn_app_le by auto. rewrite <- skipn_length. apply bound_intro; auto.
  rewrite <- (firstn_skipn o a) in V. exact (valid_cancel _ _ V ltac:(assumption)).
Qed.
Lemma bound_app_l a b k : bound a k -> valid b -> bound (a ++ b) k.
Proof. intros (x & y & -> & <- & V & W) Vb. rewrite <- app_assoc. apply bound_intro; auto using valid_app. Qed.
Lemma bound_app_r a b k : valid a -> bound b k -> bound (a ++ b) (length a + k).
Proof. intros Va (x & y & -> & <- & V & W). rewrite app_assoc, <- app_length. apply bound_intro; auto using valid_app. Qed.

(** ** pieces *)
Definition goodseq (O A : text) (l : list piece) : Prop :=
  valid (ptext O A l) /\ Forall (fun p => bound (ptext O A l) (p_off p)) l.
Lemma good_chunks_aux O A a l : contig (length a) l -> Forall (inb O A) l -> valid (a ++ ptext O A l) -> valid a ->
  Forall (fun p => bound (a ++ ptext O A l) (p_off p)) l -> Forall (fun p => valid (pbytes O A p)) l.
Proof.
  revert a. induction l as [|p r IH]; intros a C B V Va F; [constructor|].
  simpl in C. destruct C as (C1 & C2 & C3). inversion B; subst. inversion F; subst.
  rewrite ptext_cons in *.
  assert (valid (a ++ pbytes O A p)) as Vp.
  { destruct r as [|q r]; [now rewrite ptext_nil, app_nil_r in V|].
    simpl in C3. destruct C3 as [C3 _]. inversion H4; subst. rewrite C3 in H5. apply bound_parts in H5. destruct H5 as [H5 _].
    rewrite app_assoc in H5. rewrite firstn_app_le in H5 by (rewrite app_length, pbytes_length; auto).
    rewrite firstn_all2 in H5 by (rewrite app_length, pbytes_length; auto). exact H5. }
  constructor; [exact (valid_cancel _ _ Vp ltac:(assumption))|].
  apply (IH (a ++ pbytes O A p)); auto.
  - now rewrite app_length, pbytes_length.
  - now rewrite <- app_assoc.
  - eapply Forall_impl; [|exact H4]. intros q Hq. now rewrite <- app_assoc.
Qed.
Lemma good_chunks O A l : seqok O A l -> goodseq O A l -> Forall (fun p => valid (pbytes O A p)) l.
Proof. intros [C B] [V F]. apply (good_chunks_aux O A []); simpl; auto using valid_nil. Qed.

Definition utf8_ok (t : pt) : Prop :=
  goodseq (t_orig t) (t_added t) (t_pieces t) /\
  Forall (goodseq (t_orig t) (t_added t)) (t_undos t) /\ Forall (goodseq (t_orig t) (t_added t)) (t_redos t).
Lemma string_utf8 t : wf t -> utf8_ok t -> pt_string t = Ok (txt t).
Proof.
  intros ((C & B) & _) (Gd & _). pose proof (good_chunks _ _ _ (conj C B) Gd) as F.
  unfold pt_string, pt_chunks. rewrite (mapM_ok _ (pbytes (t_orig t) (t_added t))).
  - cbn [bind]. unfold txt, ptext. do 2 f_equal. rewrite map_map. apply map_ext_in. intros p Hp.
    rewrite Forall_forall in F. apply lossy_valid. auto.
  - intros p Hp. rewrite Forall_forall in B. specialize (B p Hp). unfold inb, p_end in B.
    unfold piece_slice, p_end, pbytes. unfold buf_of. fold (pbuf (t_orig t) (t_added t) p).
    rewrite slice_res_ok by lia. f_equal. f_equal. lia.
Qed.

Lemma good_ext O A x l : seqok O A l -> goodseq O A l -> goodseq O (A ++ x) l.
Proof. intros [_ B] H. unfold goodseq. rewrite ptext_ext by auto. exact H. Qed.
Lemma goods_ext O A x ls : Forall (seqok O A) ls -> Forall (goodseq O A) ls -> Forall (goodseq O (A ++ x)) ls.
Proof. rewrite !Forall_forall. intros H1 H2 l Hl. apply good_ext; auto. Qed.

Lemma repack_from_offs p l q : In q (repack_from p l) -> p_off q = p_off p \/ exists r, In r l /\ p_off q = p_off r.
Proof.
  revert p. induction l as [|r l IH]; simpl; intros p H; [destruct H as [->|[]]; auto|].
  destruct (p_consecutive p r).
  - apply IH in H. destruct H as [H|(s & Hs & E)]; [left; exact H|right; exists s; auto].
  - destruct H as [->|H]; auto. apply IH in H. destruct H as [H|(s & Hs & E)]; right; [exists r; auto|exists s; auto].
Qed.
Lemma good_repack O A l : seqok O A l -> goodseq O A l -> goodseq O A (repack l).
Proof.
  intros SK [V F]. destruct (repack_spec _ _ _ SK) as (_ & _ & E). unfold goodseq. rewrite E. split; auto.
  rewrite Forall_forall in *. intros q Hq. destruct l as [|p l]; [destruct Hq|]. apply repack_from_offs in Hq.
  destruct Hq as [->|(r & Hr & ->)]; apply F; [now left|now right].
Qed.
Lemma utf8_action a t : wf t -> utf8_ok t -> utf8_ok (pt_action a t).
Proof.
  intros W U. destruct (action_cases a t) as [[-> _]|[-> _]]; auto.
  destruct W as (W1 & W2 & W3). destruct U as (U1 & U2 & U3). unfold utf8_ok, set_last, pt_commit; simpl.
  pose proof (good_repack _ _ _ W1 U1). auto.
Qed.

Lemma tree_insert_In p l l' q : tree_insert p l = Ok l' -> In q l' -> q = p \/ In q l.
Proof.
  unfold tree_insert. destruct (existsb _ _); [discriminate|]. intro E. inversion E; subst. clear E.
  induction l as [|r l IH]; simpl; [intros [->|[]]; auto|]. destruct (p_off p <? p_off r); simpl; [intuition|].
  intros [->|H]; auto. apply IH in H. tauto.
Qed.
Ltac bnd H := match type of H with bind ?m _ = Ok _ => destruct m as [?v| |] eqn:?E; cbn [bind] in H; try discriminate H end.

(** where the pieces start after an append and an insertion *)
Lemma append_offs x t t' q : pt_append x t = Ok t' -> wf t -> In q (t_pieces t') ->
  p_off q = length (txt t) \/ exists p, In p (t_pieces (pt_action AInsert t)) /\ p_off q = p_off p.
Proof.
  intros E W Hq. destruct (wf_action AInsert t W) as (Wa & Ta & _). unfold pt_append in E.
  rewrite contig_last_end in E by apply Wa. rewrite <- (txt_length _ Wa), Ta in E. bnd E. inversion E; subst t'. simpl in Hq.
  apply (tree_insert_In _ _ _ _ E0) in Hq. destruct Hq as [->|Hq]; simpl; eauto.
Qed.
Lemma insert_offs o x t t' q : pt_insert o x t = Ok t' -> wf t -> o < length (txt t) -> In q (t_pieces t') ->
  p_off q = o \/ p_off q = o + length x \/
  exists p, In p (t_pieces (pt_action AInsert t)) /\ ((p_off q = p_off p /\ p_off p < o) \/ (p_off q = p_off p + length x /\ o < p_off p)).
Proof.
  intros E W L Hq. destruct (wf_action AInsert t W) as (Wa & Ta & _). unfold pt_insert in E. rewrite <- Ta in L.
  set (u := pt_action AInsert t) in *. pose proof Wa as ((C & B) & _). rewrite txt_length in L by auto.
  destruct (get_node_in 0 (t_pieces u) o C) as (pre & p & post & G); [lia|]. rewrite G in E.
  destruct (get_node_some _ _ _ _ _ _ G C) as [El Hp]. rewrite El in C. apply contig_app in C. destruct C as [C1 (C2 & C3 & C4)].
  bnd E. destruct v as [p1 p2]. bnd E. bnd E. bnd E. inversion E; subst t'. simpl in Hq. clear E.
  apply (tree_insert_In _ _ _ _ E3) in Hq. destruct Hq as [->|Hq].
  { unfold p_split in E0. destruct (o =? p_off p); [inversion E0; subst; simpl; auto|]. bnd E0. bnd E0. inversion E0; subst. simpl. auto. }
  apply (tree_insert_In _ _ _ _ E2) in Hq. destruct Hq as [->|Hq]; [simpl; auto|].
  assert ((exists p', p1 = Some p' /\ q = p') \/ In q (pre ++ map (shift_up (length x)) post)) as [(p' & -> & ->)|Hq'].
  { destruct p1 as [p'|]; simpl in E1; [|inversion E1; subst; auto]. apply (tree_insert_In _ _ _ _ E1) in Hq. destruct Hq; eauto. }
  - unfold p_split in E0. destruct (Nat.eqb_spec o (p_off p)) as [|N]; [discriminate|]. bnd E0. bnd E0. inversion E0; subst. simpl.
    right. right. exists p. split; [rewrite El; apply in_or_app; right; now left|]. left. lia.
  - right. right. apply in_app_or in Hq'. destruct Hq' as [Hq'|Hq'].
    + exists q. split; [rewrite El; apply in_or_app; auto|]. left. split; auto. destruct (contig_bounds _ _ _ C1 Hq'). lia.
    + apply in_map_iff in Hq'. destruct Hq' as (r & <- & Hr). exists r. split; [rewrite El; apply in_or_app; right; now right|].
      right. simpl. split; auto. destruct (contig_bounds _ _ _ C4 Hr). lia.
Qed.
(** ... and after a deletion *)
Lemma delete_offs pol o n t t' q : pt_delete pol o n t = Ok t' -> wf t -> 0 < n ->
  (o = 0 /\ n = length (txt t)) \/ delete_fine pol o n t -> In q (t_pieces t') ->
  (length (txt t) <= o /\ t_pieces t' = t_pieces (pt_action ADelete t)) \/
  (o < length (txt t) /\
   (p_off q = o \/ exists p, In p (t_pieces (pt_action ADelete t)) /\
     ((p_off q = p_off p /\ p_off p < o) \/ (p_off q = p_off p - n /\ o + n <= p_off p)))).
Proof.
  intros E W Hn Hf Hq. destruct (wf_action ADelete t W) as (Wa & Ta & _). unfold pt_delete in E. unfold delete_fine in Hf. rewrite <- Ta in *.
  set (u := pt_action ADelete t) in *. pose proof Wa as ((C & B) & _).
  destruct ((o =? 0) && (n =? pt_len u)) eqn:Q; [inversion E; subst; destruct Hq|].
  destruct Hf as [[-> Hf]|Hst].
  { rewrite pt_len_txt, Hf, !Nat.eqb_refl in Q by auto. discriminate. }
  destruct (get_node (t_pieces u) o) as [[[pre p] post]|] eqn:G.
  - right. destruct (get_node_some _ _ _ _ _ _ G C) as [El Hp].
    assert (o < length (txt u)) as Lo.
    { rewrite txt_length by auto. pose proof C as C'. rewrite El in C'. apply contig_app in C'. destruct C' as [C1 C2].
      simpl in C2. rewrite El, total_app, total_cons. lia. }
    split; auto.
    destruct (delete_pieces pol (t_orig u) (t_added u) (t_pieces u) o n pre p post)
        as (first & hits & head & x & y & tail & l1 & l2 & l3 & l4 & E1 & E2 & E3 & E4 & E5 & E6 & E7 & E8 & E9 & E10); auto.
    + split; auto.
    + intros X1 X2. apply Hst; auto.
      * now rewrite take_drop_while.
      * rewrite El in C. apply contig_app in C. simpl in C. lia.
      * simpl. assert (p_off p <? o + n = true) as -> by (apply Nat.ltb_lt; lia). congruence.
    + set (hit := take_while (fun q => p_off q <? o + n) (p :: post)) in *.
      set (rest := drop_while (fun q => p_off q <? o + n) (p :: post)) in *.
      clearbody hit rest. subst hit. cbv zeta in E.
      rewrite E2 in E. cbn [bind] in E. rewrite E3 in E. cbn [bind] in E. rewrite E4 in E. cbn [bind] in E. rewrite E5 in E. cbn [bind] in E.
      rewrite E6 in E. cbn [bind] in E. rewrite E7 in E. cbn [bind] in E. bnd E. inversion E; subst t'. simpl in Hq. auto.
  - left. inversion E; subst t'. split; auto. rewrite txt_length by auto.
    destruct (Nat.le_gt_cases (total (t_pieces u)) o); auto.
    destruct (get_node_in 0 (t_pieces u) o) as (a & b & c & X); auto; [lia|congruence].
Qed.

(** ** one edit *)
Lemma goods_utf8 t t' a : wf t -> utf8_ok t -> t_orig t' = t_orig t -> (exists x, t_added t' = t_added t ++ x) ->
  t_undos t' = t_undos (pt_action a t) -> t_redos t' = t_redos (pt_action a t) ->
  valid (txt t') -> (forall q, In q (t_pieces t') -> bound (txt t') (p_off q)) -> utf8_ok t'.
Proof.
  intros W U O (x & A) Hu Hr V B. pose proof (utf8_action a t W U) as (_ & U2 & U3).
  destruct (wf_action a t W) as ((_ & W2 & W3) & _).
  assert (t_orig (pt_action a t) = t_orig t /\ t_added (pt_action a t) = t_added t) as [Oa Aa].
  { destruct (action_cases a t) as [[-> _]|[-> _]]; auto. }
  unfold utf8_ok. rewrite Hu, Hr, O, A. rewrite Oa, Aa in *. split; [|split; apply goods_ext; auto].
  unfold goodseq. rewrite <- O, <- A. fold (txt t'). split; auto. now apply Forall_forall.
Qed.
Lemma base_good a t : wf t -> utf8_ok t -> forall p, In p (t_pieces (pt_action a t)) -> bound (txt t) (p_off p).
Proof.
  intros W U p Hp. destruct (utf8_action a t W U) as ((_ & F) & _). destruct (wf_action a t W) as (_ & T & _).
  fold (txt (pt_action a t)) in F. rewrite T in F. rewrite Forall_forall in F. auto.
Qed.
Lemma txt_valid t : utf8_ok t -> valid (txt t).
Proof. intros ((V & _) & _). exact V. Qed.

Lemma append_utf8 x t t' : wf t -> utf8_ok t -> x <> [] -> valid x -> pt_append x t = Ok t' -> utf8_ok t'.
Proof.
  intros W U Hx Vx E. destruct (append_spec x t W Hx) as (t1 & E1 & H1 & H2 & _). assert (t1 = t') by congruence. subst t1.
  pose proof (append_offs x t t') as OF. pose proof (txt_valid t U) as Vt.
  assert (exists l, t' = add_bytes (set_nl (set_pieces (pt_action AInsert t) l) (t_nl t')) x) as (l & X).
  { unfold pt_append in E. bnd E. inversion E. eexists. reflexivity. }
  assert (t_orig (pt_action AInsert t) = t_orig t /\ t_added (pt_action AInsert t) = t_added t) as [Oa Aa].
  { destruct (action_cases AInsert t) as [[-> _]|[-> _]]; auto. }
  apply (goods_utf8 t t' AInsert); auto; try (rewrite X; simpl; auto).
  - exists x. now rewrite Aa.
  - rewrite <- X, H2. now apply valid_app.
  - intros q Hq. rewrite <- X, H2. unfold s_append.
    assert (In q (t_pieces t')) as Hq' by (rewrite X; exact Hq).
    destruct (OF q E W Hq') as [->|(p & Hp & ->)]; [now apply bound_intro|].
    apply bound_app_l; auto. eapply base_good; eauto.
Qed.
Lemma insert_utf8 o x t t' : wf t -> utf8_ok t -> x <> [] -> valid x -> (o < length (txt t) -> bound (txt t) o) ->
  pt_insert o x t = Ok t' -> utf8_ok t'.
Proof.
  intros W U Hx Vx Bo E. destruct (insert_spec o x t W Hx) as (t1 & E1 & H1 & H2 & _). assert (t1 = t') by congruence. subst t1.
  destruct (wf_action AInsert t W) as (Wa & Ta & _).
  destruct (Nat.ltb_spec o (length (txt t))) as [L|L].
  2:{ unfold pt_insert in E. rewrite <- Ta, txt_length in L by auto. rewrite (get_node_none 0) in E by (try apply Wa; lia).
      eapply append_utf8; [exact Wa|now apply utf8_action|exact Hx|exact Vx|exact E]. }
  specialize (Bo L). pose proof (insert_offs o x t t') as OF. destruct (bound_parts _ _ Bo) as [Va Vb].
  unfold s_insert in H2. rewrite (proj2 (Nat.ltb_lt _ _) L) in H2.
  assert (exists l, t' = add_bytes (set_nl (set_pieces (pt_action AInsert t) l) (t_nl t')) x) as (l & X).
  { unfold pt_insert in E. destruct (get_node (t_pieces (pt_action AInsert t)) o) as [[[pre p] post]|].
    - bnd E. destruct v. bnd E. bnd E. bnd E. inversion E. eexists. reflexivity.
    - unfold pt_append in E. bnd E. inversion E. rewrite action_idem. eexists. reflexivity. }
  assert (t_orig (pt_action AInsert t) = t_orig t /\ t_added (pt_action AInsert t) = t_added t) as [Oa Aa].
  { destruct (action_cases AInsert t) as [[-> _]|[-> _]]; auto. }
  assert (length (firstn o (txt t)) = o) as Lf by (rewrite firstn_length; lia).
  apply (goods_utf8 t t' AInsert); auto; try (rewrite X; simpl; auto).
  - exists x. now rewrite Aa.
  - rewrite <- X, H2. auto using valid_app.
  - intros q Hq. rewrite <- X, H2.
    assert (In q (t_pieces t')) as Hq' by (rewrite X; exact Hq).
    destruct (OF q E W L Hq') as [->|[->|(p & Hp & [[-> Hlt]|[-> Hgt]])]].
    + rewrite <- Lf at 3. apply bound_intro; auto using valid_app.
    + rewrite app_assoc. replace (o + length x) with (length (firstn o (txt t) ++ x)) by (rewrite app_length; lia).
      apply bound_intro; auto using valid_app.
    + apply bound_app_l; auto using valid_app. apply bound_le; auto; [|lia]. eapply base_good; eauto.
    + rewrite app_assoc. replace (p_off p + length x) with (length (firstn o (txt t) ++ x) + (p_off p - o)) by (rewrite app_length; lia).
      apply bound_app_r; auto using valid_app. apply bound_ge; auto; [|lia]. eapply base_good; eauto.
Qed.
Lemma delete_utf8 pol o n t t' : wf t -> utf8_ok t -> 0 < n -> (o = 0 /\ n = length (txt t)) \/ delete_fine pol o n t ->
  (o < length (txt t) -> bound (txt t) o) -> (o + n < length (txt t) -> bound (txt t) (o + n)) ->
  pt_delete pol o n t = Ok t' -> utf8_ok t'.
Proof.
  intros W U Hn Hf Bo Be E. destruct (delete_ok pol o n t W Hn Hf) as (t1 & E1 & H1 & H2 & _). assert (t1 = t') by congruence. subst t1.
  pose proof (txt_valid t U) as Vt.
  assert (exists l k, t' = set_nl (set_pieces (pt_action ADelete t) l) k) as (l & k & X).
  { unfold pt_delete in E. destruct (_ && _); [inversion E; eauto|].
    destruct (get_node (t_pieces (pt_action ADelete t)) o) as [[[pre p] post]|].
    - cbv zeta in E. destruct (take_while _ _); [discriminate|]. bnd E. destruct v. bnd E. destruct v. bnd E. bnd E. bnd E. bnd E. bnd E.
      inversion E. eauto.
    - inversion E; subst. destruct (pt_action ADelete t). eexists _, _. reflexivity. }
  assert (t_orig (pt_action ADelete t) = t_orig t /\ t_added (pt_action ADelete t) = t_added t) as [Oa Aa].
  { destruct (action_cases ADelete t) as [[-> _]|[-> _]]; auto. }
  assert (valid (skipn (o + n) (txt t))) as Vs.
  { destruct (Nat.ltb_spec (o + n) (length (txt t))) as [L|L]; [apply bound_parts; auto|]. rewrite skipn_all2 by lia. apply valid_nil. }
  assert (valid (firstn o (txt t))) as Vf.
  { destruct (Nat.ltb_spec o (length (txt t))) as [L|L]; [apply bound_parts; auto|]. now rewrite firstn_all2 by lia. }
  apply (goods_utf8 t t' ADelete); auto.
  - rewrite X. simpl. auto.
  - exists []. rewrite X. simpl. now rewrite app_nil_r.
  - rewrite X. reflexivity.
  - rewrite X. reflexivity.
  - rewrite H2. now apply valid_app.
  - intros q Hq. destruct (delete_offs pol o n t t' q E W Hn Hf Hq) as [[L Ep]|[L OF]].
    + rewrite H2. unfold s_delete. rewrite firstn_all2, skipn_all2, app_nil_r by lia. rewrite Ep in Hq. eapply base_good; eauto.
    + rewrite H2. unfold s_delete. assert (length (firstn o (txt t)) = o) as Lf by (rewrite firstn_length; lia).
      destruct OF as [->|(p & Hp & [[-> Hlt]|[-> Hgt]])].
      * rewrite <- Lf at 3. now apply bound_intro.
      * apply bound_app_l; auto. apply bound_le; auto; [|lia]. eapply base_good; eauto.
      * pose proof (base_good _ t W U p Hp) as Bp.
        assert (p_off p <= length (txt t)) as Lp.
        { destruct Bp as (a & b & -> & <- & _). rewrite app_length. lia. }
        replace (p_off p - n) with (length (firstn o (txt t)) + (p_off p - (o + n))) by lia. apply bound_app_r; auto.
        apply bound_ge; auto. destruct (Nat.ltb_spec (o + n) (length (txt t))) as [L2|L2]; auto.
        replace (o + n) with (length (txt t)) by lia. now apply bound_end.
Qed.

Lemma utf8_bulk t : utf8_ok t -> utf8_ok (pt_end_bulk t).
Proof. auto. Qed.
Lemma edit_utf8 pol e t d t' : sim t d -> utf8_ok t -> edit_ok e -> edit_fine pol e t -> on_chars e (txt t) ->
  pt_edit pol e t = Ok t' -> utf8_ok t'.
Proof.
  intros S U He Hf Hc E. pose proof S as (W & _). destruct e as [x|o x|o n|o n x]; simpl in *.
  - eapply append_utf8; eauto.
  - destruct Hc. eapply insert_utf8; eauto.
  - destruct Hc. eapply delete_utf8; eauto.
  - destruct Hc as (Vx & B1 & B2). destruct He as [Hn Hx]. unfold pt_replace in E.
    destruct (wf_action ABulk t W) as (Wb & Tb & _). fold (pt_start_bulk t) in Wb, Tb.
    pose proof (utf8_action ABulk t W U) as Ub. fold (pt_start_bulk t) in Ub.
    bnd E. bnd E. inversion E; subst t'. apply utf8_bulk.
    rewrite <- Tb in Hf, B1, B2.
    assert (utf8_ok v) as Uv by (eapply delete_utf8; eauto).
    destruct (delete_ok pol o n (pt_start_bulk t) Wb Hn Hf) as (t1 & Ed & H1 & H2 & _). assert (t1 = v) by congruence. subst t1.
    eapply insert_utf8; [exact H1|exact Uv|exact Hx|exact Vx| |exact E1].
    intro L. rewrite H2 in *. unfold s_delete in *. rewrite app_length, firstn_length, skipn_length in L.
    assert (o < length (txt (pt_start_bulk t))) as Lo by lia.
    assert (length (firstn o (txt (pt_start_bulk t))) = o) as Lf by (rewrite firstn_length; lia).
    rewrite <- Lf at 3. apply bound_intro; [apply bound_parts; auto|].
    destruct (Nat.ltb_spec (o + n) (length (txt (pt_start_bulk t)))) as [L2|L2]; [apply bound_parts; auto|].
    rewrite skipn_all2 by lia. apply valid_nil.
Qed.
Lemma undo_utf8 t : utf8_ok t -> utf8_ok (snd (pt_undo t)).
Proof.
  intros (U1 & U2 & U3). unfold pt_undo. destruct (t_undos t) as [|l ls] eqn:E; simpl.
  - unfold utf8_ok. rewrite E. auto.
  - inversion U2; subst. unfold utf8_ok; simpl. auto.
Qed.
Lemma redo_utf8 t : utf8_ok t -> utf8_ok (snd (pt_redo t)).
Proof.
  intros (U1 & U2 & U3). unfold pt_redo. destruct (t_redos t) as [|l ls] eqn:E; simpl.
  - unfold utf8_ok. rewrite E. auto.
  - inversion U3; subst. unfold utf8_ok; simpl. auto.
Qed.
Lemma ops_utf8 pol good os t d : sim t d -> utf8_ok t -> ops_ok good os d ->
  (forall e u, wf u -> edit_ok e -> good e (txt u) -> edit_fine pol e u) -> (forall e s, good e s -> on_chars e s) ->
  exists t', pt_ops pol os t = Ok (fst (d_ops os d), t') /\ sim t' (snd (d_ops os d)) /\ utf8_ok t'.
Proof.
  intros S U H Gf Gc. revert t d S U H. induction os as [|o r IH]; simpl; intros t d S U H; [eauto|].
  destruct H as [H1 H2]. pose proof S as (W & _ & T & _).
  assert (exists t1, pt_op pol o t = Ok (fst (d_op o d), t1) /\ sim t1 (snd (d_op o d)) /\ utf8_ok t1) as (t1 & E1 & S1 & U1).
  { destruct o as [e| |]; simpl.
    - destruct H1 as [He Hg]. rewrite <- T in Hg. assert (edit_fine pol e t) by (apply Gf; auto). destruct (edit_sim pol e t d) as (t' & E & S' & _); auto.
      rewrite E. cbn [bind]. exists t'. split; auto. split; auto. apply (edit_utf8 pol e t d t'); auto.
    - destruct (undo_sim t d S) as [A B]. exists (snd (pt_undo t)). split; [|split; auto using undo_utf8].
      destruct (pt_undo t); simpl in *; congruence.
    - destruct (redo_sim t d S) as [A B]. exists (snd (pt_redo t)). split; [|split; auto using redo_utf8].
      destruct (pt_redo t); simpl in *; congruence. }
  rewrite E1. cbn [bind]. destruct (d_op o d) as [b d1]. simpl in *.
  destruct (IH t1 d1 S1 U1 H2) as (t2 & E2 & S2 & U2). rewrite E2. cbn [bind].
  destruct (d_ops r d1) as [bs d2]. simpl in *. eauto.
Qed.
Lemma utf8_init s : s <> [] -> valid s -> utf8_ok (pt_with_text s).
Proof.
  intros H V. destruct (sim_init s H) as ((_ & _ & T & _) & _). unfold utf8_ok, goodseq. fold (txt (pt_with_text s)). rewrite T. simpl.
  repeat split; auto. constructor; auto. simpl. now apply bound_0.
Qed.
