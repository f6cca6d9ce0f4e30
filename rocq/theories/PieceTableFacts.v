(** Proofs about the piece table: refinement to plain byte strings. *)
From Coq Require Import List Arith Lia Bool.
From Verif Require Import Base ListFacts PieceTable PieceTableSpec.
Import ListNotations.

(** ** Well-formed piece sequences *)
Fixpoint contig (o : nat) (l : list piece) : Prop :=
  match l with
  | [] => True
  | p :: r => p_off p = o /\ 0 < p_len p /\ contig (o + p_len p) r
  end.

Definition total (l : list piece) : nat := list_sum (map p_len l).

Definition pbuf (O A : text) (p : piece) : text := if p_orig p then O else A.
Definition pbytes (O A : text) (p : piece) : text := slice (pbuf O A p) (p_start p) (p_len p).
Definition inb (O A : text) (p : piece) : Prop := p_end p <= length (pbuf O A p).
Definition ptext (O A : text) (l : list piece) : text := concat (map (pbytes O A) l).
Definition seqok (O A : text) (l : list piece) : Prop := contig 0 l /\ Forall (inb O A) l.

Definition txt (t : pt) : text := ptext (t_orig t) (t_added t) (t_pieces t).
Definition wf (t : pt) : Prop :=
  seqok (t_orig t) (t_added t) (t_pieces t) /\
  Forall (seqok (t_orig t) (t_added t)) (t_undos t) /\
  Forall (seqok (t_orig t) (t_added t)) (t_redos t).

Lemma total_app a b : total (a ++ b) = total a + total b.
Proof. unfold total. now rewrite map_app, list_sum_app. Qed.
Lemma total_cons p l : total (p :: l) = p_len p + total l.
Proof. reflexivity. Qed.

Lemma contig_app o a b : contig o (a ++ b) <-> contig o a /\ contig (o + total a) b.
Proof.
  revert o. induction a as [|p r IH]; intro o; simpl.
  - rewrite Nat.add_0_r. tauto.
  - rewrite IH. rewrite total_cons, Nat.add_assoc. tauto.
Qed.

Lemma contig_bounds o l p : contig o l -> In p l -> o <= p_off p /\ p_off p + p_len p <= o + total l /\ 0 < p_len p.
Proof.
  revert o. induction l as [|q r IH]; simpl; [tauto|]. intros o (E & L & C) [->|H].
  - rewrite total_cons. lia.
  - apply IH in C; auto. rewrite total_cons. lia.
Qed.

Lemma contig_shift o n l : contig o l -> contig (o + n) (map (shift_up n) l).
Proof.
  revert o. induction l as [|p r IH]; simpl; auto. intros o (E & L & C).
  repeat split; auto; try lia. replace (o + n + p_len p) with (o + p_len p + n) by lia. auto.
Qed.
Lemma total_shift n l : total (map (shift_up n) l) = total l.
Proof. unfold total. rewrite map_map. reflexivity. Qed.

Definition pdown (n : nat) (p : piece) : piece := mkPiece (p_off p - n) (p_start p) (p_len p) (p_orig p).
Lemma shift_down_ok n p : n <= p_off p -> shift_down n p = Ok (pdown n p).
Proof. intro H. unfold shift_down. apply Nat.leb_le in H. now rewrite H. Qed.
Lemma contig_down o n l : n <= o -> contig o l ->
  mapM (shift_down n) l = Ok (map (pdown n) l) /\ contig (o - n) (map (pdown n) l).
Proof.
  intros Hn C. split.
  - apply mapM_ok. intros p Hp. apply shift_down_ok.
    destruct (contig_bounds _ _ _ C Hp). lia.
  - clear - Hn C. revert o Hn C. induction l as [|p r IH]; simpl; auto. intros o Hn (E & L & C).
    repeat split; auto; try lia. replace (o - n + p_len p) with (o + p_len p - n) by lia.
    apply IH; auto. lia.
Qed.
Lemma total_down n l : total (map (pdown n) l) = total l.
Proof. unfold total. rewrite map_map. reflexivity. Qed.

Lemma pieces_len_total l : pieces_len l = total l.
Proof.
  unfold pieces_len, total.
  assert (forall a, fold_left (fun acc p => acc + p_len p) l a = a + list_sum (map p_len l)).
  { induction l as [|p r IH]; simpl; intro a; [lia|]. rewrite IH. lia. }
  apply H.
Qed.

(** ** text of a sequence *)
Lemma ptext_app O A a b : ptext O A (a ++ b) = ptext O A a ++ ptext O A b.
Proof. unfold ptext. now rewrite map_app, concat_app. Qed.
Lemma ptext_cons O A p l : ptext O A (p :: l) = pbytes O A p ++ ptext O A l.
Proof. reflexivity. Qed.
Lemma ptext_nil O A : ptext O A [] = [].
Proof. reflexivity. Qed.

Lemma pbytes_length O A p : inb O A p -> length (pbytes O A p) = p_len p.
Proof. intro. unfold pbytes. apply slice_length. exact H. Qed.
Lemma ptext_length O A l : Forall (inb O A) l -> length (ptext O A l) = total l.
Proof.
  induction 1 as [|p r Hp Hr IH]; auto. rewrite ptext_cons, app_length, IH, pbytes_length by auto. reflexivity.
Qed.

Lemma ptext_shift O A n l : ptext O A (map (shift_up n) l) = ptext O A l.
Proof. unfold ptext. rewrite map_map. reflexivity. Qed.
Lemma ptext_down O A n l : ptext O A (map (pdown n) l) = ptext O A l.
Proof. unfold ptext. rewrite map_map. reflexivity. Qed.
Lemma inb_shift O A n l : Forall (inb O A) l -> Forall (inb O A) (map (shift_up n) l).
Proof. intro H. apply Forall_map. eapply Forall_impl; [|exact H]. auto. Qed.
Lemma inb_down O A n l : Forall (inb O A) l -> Forall (inb O A) (map (pdown n) l).
Proof. intro H. apply Forall_map. eapply Forall_impl; [|exact H]. auto. Qed.

(** extending the added buffer changes nothing *)
Lemma inb_ext O A x p : inb O A p -> inb O (A ++ x) p.
Proof. unfold inb, pbuf. destruct (p_orig p); auto. rewrite app_length. lia. Qed.
Lemma pbytes_ext O A x p : inb O A p -> pbytes O (A ++ x) p = pbytes O A p.
Proof.
  unfold inb, pbytes, pbuf, p_end. destruct (p_orig p); auto. intro H. now apply slice_app_l.
Qed.
Lemma ptext_ext O A x l : Forall (inb O A) l -> ptext O (A ++ x) l = ptext O A l.
Proof.
  induction 1 as [|p r Hp Hr IH]; auto. rewrite !ptext_cons, IH, pbytes_ext; auto.
Qed.
Lemma seqok_ext O A x l : seqok O A l -> seqok O (A ++ x) l.
Proof.
  intros [H1 H2]. split; auto. eapply Forall_impl; [|exact H2]. intro. apply inb_ext.
Qed.
Lemma Forall_seqok_ext O A x ls : Forall (seqok O A) ls -> Forall (seqok O (A ++ x)) ls.
Proof. intro H. eapply Forall_impl; [|exact H]. intro. apply seqok_ext. Qed.

(** ** tree operations on contiguous sequences *)
Lemma p_contains_iff p o : p_contains p o = true <-> p_off p <= o < p_off p + p_len p.
Proof. unfold p_contains. rewrite andb_true_iff, Nat.leb_le, Nat.ltb_lt. tauto. Qed.
Lemma p_contains_false p o : p_contains p o = false <-> ~ (p_off p <= o < p_off p + p_len p).
Proof. rewrite <- p_contains_iff. destruct (p_contains p o); intuition congruence. Qed.

Lemma get_node_some b l o pre p post : get_node l o = Some (pre, p, post) -> contig b l ->
  l = pre ++ p :: post /\ p_off p <= o < p_off p + p_len p.
Proof.
  revert b pre. induction l as [|q r IH]; simpl; intros b pre H C; [discriminate|].
  destruct C as (E & L & C). destruct (p_contains q o) eqn:Q.
  - inversion H; subst. apply p_contains_iff in Q. auto.
  - destruct (get_node r o) as [[[a q'] c]|] eqn:G; [|discriminate].
    inversion H; subst. destruct (IH _ _ eq_refl C) as [-> ?]. auto.
Qed.

Lemma get_node_in b l o : contig b l -> b <= o < b + total l ->
  exists pre p post, get_node l o = Some (pre, p, post).
Proof.
  revert b. induction l as [|q r IH]; simpl; intros b C H; [unfold total in H; simpl in H; lia|].
  destruct C as (E & L & C). rewrite total_cons in H. destruct (p_contains q o) eqn:Q; eauto.
  apply p_contains_false in Q. destruct (IH _ C) as (a & p & c & G); [lia|]. rewrite G. eauto.
Qed.

Lemma get_node_none b l o : contig b l -> b + total l <= o -> get_node l o = None.
Proof.
  revert b. induction l as [|q r IH]; simpl; intros b C H; auto.
  destruct C as (E & L & C). rewrite total_cons in H.
  destruct (p_contains q o) eqn:Q. { apply p_contains_iff in Q. lia. }
  rewrite (IH _ C) by lia. reflexivity.
Qed.

Lemma get_node_contig b pre p post o : contig b (pre ++ p :: post) ->
  p_off p <= o < p_off p + p_len p -> get_node (pre ++ p :: post) o = Some (pre, p, post).
Proof.
  revert b. induction pre as [|q r IH]; simpl; intros b (E & L & C) H.
  - apply p_contains_iff in H. now rewrite H.
  - destruct (p_contains q o) eqn:Q.
    + apply p_contains_iff in Q. apply contig_app in C. destruct C as [_ C].
      simpl in C. destruct C as [C _]. lia.
    + rewrite (IH _ C H). reflexivity.
Qed.

(** inserting a piece in a gap *)
Lemma insert_sorted_gap p a b :
  (forall q, In q a -> p_off q < p_off p) -> (forall q, In q b -> p_off p < p_off q) ->
  insert_sorted p (a ++ b) = a ++ p :: b.
Proof.
  intros Ha Hb. induction a as [|q r IH]; simpl.
  - destruct b as [|q r]; auto. simpl. specialize (Hb q (or_introl eq_refl)).
    apply Nat.ltb_lt in Hb. now rewrite Hb.
  - assert (p_off p <? p_off q = false) as ->. { apply Nat.ltb_ge. specialize (Ha q (or_introl eq_refl)). lia. }
    f_equal. apply IH. intros. apply Ha. now right.
Qed.

Lemma tree_insert_gap p a b : 0 < p_len p ->
  (forall q, In q a -> 0 < p_len q /\ p_off q + p_len q <= p_off p) ->
  (forall q, In q b -> 0 < p_len q /\ p_off p + p_len p <= p_off q) ->
  tree_insert p (a ++ b) = Ok (a ++ p :: b).
Proof.
  intros L Ha Hb. unfold tree_insert.
  assert (existsb (p_clash p) (a ++ b) = false) as ->.
  { apply not_true_is_false. rewrite existsb_exists. intros (q & Hq & Hc).
    unfold p_clash in Hc. rewrite !orb_true_iff, Nat.eqb_eq, !p_contains_iff in Hc.
    apply in_app_or in Hq. destruct Hq as [Hq|Hq]; [apply Ha in Hq|apply Hb in Hq]; lia. }
  f_equal. apply insert_sorted_gap; intros q Hq; [apply Ha in Hq|apply Hb in Hq]; lia.
Qed.

Lemma foldM_remove b pre hit rest : contig b (pre ++ hit ++ rest) ->
  foldM tree_remove hit (pre ++ hit ++ rest) = Ok (pre ++ rest).
Proof.
  intro C.
  (* the intermediate trees are not contiguous: generalise to "ordered and disjoint" *)
  assert (forall q, In q pre -> forall r, In r (hit ++ rest) -> p_off q + p_len q <= p_off r) as D.
  { intros q Hq r Hr. apply contig_app in C. destruct C as [C1 C2].
    destruct (contig_bounds _ _ _ C1 Hq). destruct (contig_bounds _ _ _ C2 Hr). lia. }
  assert (forall r, In r (hit ++ rest) -> 0 < p_len r) as L.
  { intros r Hr. apply contig_app in C. destruct C as [_ C]. now destruct (contig_bounds _ _ _ C Hr) as (?&?&?). }
  clear C. induction hit as [|h hit IH]; simpl; auto.
  assert (tree_remove (pre ++ h :: hit ++ rest) h = Ok (pre ++ hit ++ rest)) as ->.
  { unfold tree_remove.
    assert (forall X, (forall q, In q X -> p_off q + p_len q <= p_off h) ->
      get_node (X ++ h :: hit ++ rest) (p_off h) = Some (X, h, hit ++ rest)) as G.
    { clear - L. induction X as [|x X IX]; simpl; intro H.
      - assert (p_contains h (p_off h) = true) as ->; auto.
        apply p_contains_iff. specialize (L h (or_introl eq_refl)). lia.
      - assert (p_contains x (p_off h) = false) as ->.
        { apply p_contains_false. specialize (H x (or_introl eq_refl)). lia. }
        rewrite IX; auto. }
    rewrite G; auto. intros q Hq. apply D; auto. left; auto. }
  simpl. apply IH; intros; [apply D|apply L]; auto; right; auto.
Qed.

(** the pieces starting before [e] form a prefix *)
Lemma take_while_contig b l e : contig b l ->
  let hit := take_while (fun q => p_off q <? e) l in
  let rest := drop_while (fun q => p_off q <? e) l in
  l = hit ++ rest /\ contig b hit /\ contig (b + total hit) rest /\
  (forall q, In q hit -> p_off q < e) /\ (rest = [] \/ e <= b + total hit).
Proof.
  intros C hit rest. pose proof (take_drop_while (fun q => p_off q <? e) l) as E. fold hit rest in E.
  rewrite <- E in C. apply contig_app in C. destruct C as [C1 C2].
  repeat split; auto.
  - intros q Hq. apply take_while_forall in Hq. now apply Nat.ltb_lt in Hq.
  - destruct rest as [|r rr] eqn:R; auto. right.
    apply (drop_while_head (fun q => p_off q <? e) l) in R. apply Nat.ltb_ge in R. simpl in C2. lia.
Qed.

(** ** repack *)
Lemma repack_from_spec O A o p l : contig o (p :: l) -> Forall (inb O A) (p :: l) ->
  contig o (repack_from p l) /\ Forall (inb O A) (repack_from p l) /\
  total (repack_from p l) = total (p :: l) /\
  ptext O A (repack_from p l) = ptext O A (p :: l).
Proof.
  revert o p. induction l as [|q r IH]; intros o p C B; [simpl; auto|].
  cbn [repack_from]. destruct (p_consecutive p q) eqn:E.
  - unfold p_consecutive in E. rewrite !andb_true_iff, !Nat.eqb_eq in E. destruct E as [[E1 E2] E3].
    apply Bool.eqb_prop in E2.
    inversion B as [|? ? Bp B']; subst. inversion B' as [|? ? Bq Br]; subst.
    destruct C as (C1 & C2 & C3 & C4 & C5).
    destruct (IH o (p_merged p q)) as (H1 & H2 & H3 & H4).
    + simpl. split; [exact C1|]. split; [lia|]. now rewrite Nat.add_assoc.
    + constructor; auto. unfold inb, pbuf, p_merged, p_end in *; simpl. rewrite E2 in *.
      destruct (p_orig q); lia.
    + repeat split; auto.
      * rewrite H3. rewrite !total_cons. simpl. lia.
      * rewrite H4. rewrite !ptext_cons, app_assoc. f_equal.
        unfold pbytes, p_merged, pbuf; simpl. unfold p_end in E3. rewrite E2.
        rewrite (slice_split _ _ (p_len p + p_len q) (p_len p)) by lia. f_equal.
        rewrite E3. f_equal. lia.
  - inversion B as [|? ? Bp B']; subst. destruct C as (C1 & C2 & C3).
    destruct (IH (o + p_len p) q C3 B') as (H1 & H2 & H3 & H4).
    repeat split; auto. + rewrite !total_cons, H3. now rewrite total_cons. + now rewrite ptext_cons, H4.
Qed.

Lemma repack_spec O A l : seqok O A l ->
  seqok O A (repack l) /\ total (repack l) = total l /\ ptext O A (repack l) = ptext O A l.
Proof.
  intros [C B]. destruct l as [|p r]; simpl repack; [repeat split; simpl; auto|].
  destruct (repack_from_spec O A 0 p r C B) as (?&?&?&?). repeat split; auto.
Qed.

(** no mergeable neighbours remain *)
Fixpoint no_mergeable (l : list piece) : Prop :=
  match l with
  | p :: ((q :: _) as r) => p_consecutive p q = false /\ no_mergeable r
  | _ => True
  end.
Lemma repack_from_head p l : exists q r, repack_from p l = q :: r /\ p_off q = p_off p /\ p_start q = p_start p
    /\ p_orig q = p_orig p.
Proof.
  revert p. induction l as [|q r IH]; intro p; simpl; eauto 6.
  destruct (p_consecutive p q); eauto 6. destruct (IH (p_merged p q)) as (x & y & E & ? & ? & ?). eauto 6.
Qed.
Lemma repack_no_mergeable l : no_mergeable (repack l).
Proof.
  destruct l as [|p l]; simpl; auto. revert p. induction l as [|q r IH]; intro p; simpl; auto.
  destruct (p_consecutive p q) eqn:E; auto.
  specialize (IH q). destruct (repack_from_head q r) as (x & y & R & E1 & E2 & E3). rewrite R in *.
  split; auto. unfold p_consecutive in *. now rewrite E1, E2, E3.
Qed.

(** ** actions *)
Lemma wf_commit t : wf t -> wf (pt_commit t) /\ txt (pt_commit t) = txt t.
Proof.
  intros (H1 & H2 & H3). destruct (repack_spec _ _ _ H1) as (R1 & R2 & R3).
  unfold wf, txt, pt_commit; simpl. repeat split; auto; try apply R1.
Qed.
Lemma action_cases a t : (pt_action a t = t /\ (t_last t = Some ABulk \/ t_last t = Some a)) \/
   (pt_action a t = set_last (pt_commit t) (Some a) /\ t_last t <> Some ABulk /\ t_last t <> Some a).
Proof.
  unfold pt_action. destruct (t_last t) as [[]|] eqn:E; destruct a; simpl; auto;
  right; repeat split; auto; congruence.
Qed.
Lemma wf_action a t : wf t -> wf (pt_action a t) /\ txt (pt_action a t) = txt t /\
  t_nl (pt_action a t) = t_nl t.
Proof.
  intro H. destruct (action_cases a t) as [[-> _]|[-> _]]; auto.
  destruct (wf_commit t H) as [W E]. auto.
Qed.

Lemma txt_length t : wf t -> length (txt t) = total (t_pieces t).
Proof. intros ((_ & H) & _). now apply ptext_length. Qed.
Lemma pt_len_txt t : wf t -> pt_len t = length (txt t).
Proof. intro H. unfold pt_len. now rewrite pieces_len_total, txt_length. Qed.

(** position of a piece in the text *)
Lemma ptext_split O A pre p post : seqok O A (pre ++ p :: post) ->
  length (ptext O A pre) = p_off p /\ length (pbytes O A p) = p_len p /\
  Forall (inb O A) pre /\ inb O A p /\ Forall (inb O A) post.
Proof.
  intros [C B]. apply Forall_app in B. destruct B as [B1 B2]. inversion B2; subst.
  apply contig_app in C. destruct C as [C1 C2]. simpl in C2.
  rewrite ptext_length by auto. rewrite pbytes_length by auto. repeat split; auto. lia.
Qed.
