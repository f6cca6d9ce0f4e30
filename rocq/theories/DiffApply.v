(** Proofs: applying a computed diff to a piece table. *)
From Coq Require Import String List Arith Lia Bool.
From Verif Require Import Base ListFacts PieceTable PieceTableSpec PieceTableFacts PieceTableEdits PieceTableDelete
  History HistoryFacts Utf8 Diff DiffSpec DiffFacts LineSpec.
Import ListNotations.

(** the inserted runs can be sliced out of the new text *)
Fixpoint on_chars (s : text) (ds : list change) (ro : nat) : Prop :=
  match ds with
  | [] => True
  | CLeft _ :: r => on_chars s r ro
  | CRight n :: r => char_boundary s ro = true /\ char_boundary s (ro + n) = true /\ on_chars s r (ro + n)
  | CBoth n :: r => on_chars s r (ro + n)
  end.
Definition c_size (c : change) : nat := match c with CLeft n | CRight n | CBoth n => n end.
Definition pos_runs (ds : list change) : Prop := Forall (fun c => 0 < c_size c) ds.

(** the same changes on a plain string *)
Fixpoint s_changes (s : text) (ds : list change) (lo ro : nat) (cur : text) : text :=
  match ds with
  | [] => cur
  | CLeft n :: r => s_changes s r lo ro (s_delete lo n cur)
  | CRight n :: r => s_changes s r (lo + n) (ro + n) (s_insert lo (slice s ro n) cur)
  | CBoth n :: r => s_changes s r (lo + n) (ro + n) cur
  end.

Definition inbulk (u : pt) (cur : text) (us : list text) : Prop :=
  wf u /\ txt u = cur /\ t_last u = Some ABulk /\ utxts u = us /\ rtxts u = [].

Lemma char_boundary_le s o : char_boundary s o = true -> o <= length s.
Proof.
  unfold char_boundary. destruct (nth_error s o) eqn:E; intro H.
  - assert (o < length s) by (apply nth_error_Some; congruence). lia.
  - apply Nat.eqb_eq in H. lia.
Qed.
Lemma str_slice_inv s a b x : str_slice s a b = Ok x ->
  a <= b /\ char_boundary s a = true /\ char_boundary s b = true /\ x = slice s a (b - a).
Proof.
  unfold str_slice. destruct (a <=? b) eqn:E1; simpl; [|discriminate].
  destruct (char_boundary s a); simpl; [|discriminate]. destruct (char_boundary s b); simpl; [|discriminate].
  intro H. inversion H. apply Nat.leb_le in E1. auto.
Qed.

Lemma slice_nonnil {A} (s : list A) a n : 0 < n -> a + n <= length s -> slice s a n <> [].
Proof.
  intros Hn Hl X. apply (f_equal (@length A)) in X. unfold slice in X. rewrite firstn_length, skipn_length in X. simpl in X. lia.
Qed.

Lemma changes_ok pol s ds : policy_wrap pol -> pos_runs ds -> forall lo ro u cur us,
  inbulk u cur us -> on_chars s ds ro ->
  exists lo' ro' u', foldM (apply_change pol s) ds (lo, ro, u) = Ok (lo', ro', u') /\
    inbulk u' (s_changes s ds lo ro cur) us /\ (nl_ok u -> nl_ok u').
Proof.
  intros P. induction ds as [|c ds IH]; intros Hp lo ro u cur us B C; simpl; [eauto 10|].
  inversion Hp as [|? ? Hn Hp']; subst. pose proof B as (W & T & L & U & F).
  destruct c as [n|n|n]; simpl in *.
  - destruct (delete_ok pol lo n u W Hn) as (u' & E & H1 & H2 & H3 & H4 & H5 & H6).
    { right. now apply delete_fine_wrap. }
    rewrite action_bulk in H4, H5, H6 by auto.
    rewrite E. cbn [bind]. destruct (IH Hp' lo ro u' (s_delete lo n cur) us) as (lo' & ro' & u2 & E2 & B2 & N2); auto.
    + unfold inbulk. rewrite H2, T. repeat split; auto; try congruence; apply H1.
    + eauto 10.
  - destruct (IH Hp' (lo + n) (ro + n) u cur us) as (lo' & ro' & u2 & E2 & B2 & N2); eauto 10.
  - destruct C as (C1 & C2 & C3). unfold str_slice. rewrite C1, C2.
    assert (ro <=? ro + n = true) as -> by (apply Nat.leb_le; lia). simpl andb. cbv iota. cbn [bind].
    replace (ro + n - ro) with n by lia. apply char_boundary_le in C2.
    destruct (insert_spec lo (slice s ro n) u W) as (u' & E & H1 & H2 & H3 & H4 & H5 & H6).
    { apply slice_nonnil; lia. }
    rewrite action_bulk in H4, H5, H6 by auto. rewrite E. cbn [bind].
    destruct (IH Hp' (lo + n) (ro + n) u' (s_insert lo (slice s ro n) cur) us) as (lo' & ro' & u2 & E2 & B2 & N2); auto.
    + unfold inbulk. rewrite H2, T. repeat split; auto; try congruence; apply H1.
    + eauto 10.
Qed.

Lemma changes_on_chars pol s ds : forall lo ro u r, foldM (apply_change pol s) ds (lo, ro, u) = Ok r -> on_chars s ds ro.
Proof.
  induction ds as [|c ds IH]; intros lo ro u r H; simpl in *; auto.
  destruct c as [n|n|n]; simpl in H.
  - destruct (pt_delete pol lo n u); simpl in H; try discriminate. eauto.
  - eauto.
  - destruct (str_slice s ro (ro + n)) as [x| |] eqn:E; simpl in H; try discriminate.
    apply str_slice_inv in E. destruct (pt_insert lo x u); simpl in H; try discriminate.
    repeat split; try tauto. eauto.
Qed.

(** string level: positions against consumed runs *)
Lemma s_changes_script s ds : forall lo ro dn rest, lo = length dn ->
  left_len ds <= length rest -> ro + right_len ds <= length s ->
  s_changes s ds lo ro (dn ++ rest) = dn ++ apply_script ds rest (skipn ro s).
Proof.
  induction ds as [|c ds IH]; intros lo ro dn rest -> Hl Hr; simpl; auto.
  destruct c as [n|n|n]; simpl in *.
  - assert (s_delete (length dn) n (dn ++ rest) = dn ++ skipn n rest) as ->.
    { unfold s_delete. rewrite firstn_app, firstn_all, Nat.sub_diag. simpl. rewrite app_nil_r. f_equal.
      rewrite skipn_app, skipn_all2 by lia. simpl. f_equal. lia. }
    apply IH; auto. rewrite skipn_length. lia.
  - rewrite <- (firstn_skipn n rest) at 1. rewrite app_assoc. rewrite IH.
    + now rewrite <- app_assoc, skipn_skipn.
    + rewrite app_length, firstn_length. lia.
    + rewrite skipn_length. lia.
    + lia.
  - assert (s_insert (length dn) (slice s ro n) (dn ++ rest) = (dn ++ slice s ro n) ++ rest) as ->.
    { unfold s_insert. destruct (length dn <? length (dn ++ rest)) eqn:E.
      - rewrite firstn_app, firstn_all, Nat.sub_diag, skipn_app, skipn_all, Nat.sub_diag. simpl.
        now rewrite app_nil_r, app_assoc.
      - apply Nat.ltb_ge in E. rewrite app_length in E. assert (rest = []) as -> by (apply length_zero_iff_nil; lia).
        now rewrite !app_nil_r. }
    rewrite IH.
    + rewrite <- app_assoc. unfold slice. now rewrite skipn_skipn.
    + rewrite app_length. unfold slice. rewrite firstn_length, skipn_length. lia.
    + auto.
    + lia.
Qed.

Lemma script_pos ds a b : script ds a b -> pos_runs ds.
Proof.
  induction 1 as [|ds x a b Hx _ IH|ds x a b Hx _ IH|ds x a b Hx _ IH]; constructor; auto; simpl;
    destruct x; try congruence; simpl; lia.
Qed.
Lemma left_len_app a b : left_len (a ++ b) = left_len a + left_len b.
Proof. induction a as [|[]]; simpl; lia. Qed.
Lemma right_len_app a b : right_len (a ++ b) = right_len a + right_len b.
Proof. induction a as [|[]]; simpl; lia. Qed.
Lemma diff_fits l r ds : diff l r = Ok ds -> pos_runs ds /\ left_len ds <= length l /\ right_len ds <= length r.
Proof.
  intro H. destruct (diff_shape l r ds H) as [(p & a & b & -> & -> & Hp & ->)|(p & a1 & a2 & b1 & b2 & q & ds1 & -> & -> & La & Lb & S & ->)].
  - simpl. rewrite !app_length. split; [|lia]. repeat constructor. simpl. destruct p; [congruence|simpl; lia].
  - pose proof (script_pos _ _ _ S) as P. destruct (script_lens _ _ _ S) as [L1 L2]. rewrite !app_length in *.
    unfold push. destruct (0 <? length q) eqn:E.
    + rewrite left_len_app, right_len_app, L1, L2. simpl. split; [|lia].
      apply Forall_app. split; auto. repeat constructor. simpl. apply Nat.ltb_lt in E. lia.
    + rewrite L1, L2. split; auto. lia.
Qed.

Lemma ascii_not_cont b : b < 128 -> cont b = false.
Proof. intro H. unfold cont, between. assert (128 <=? b = false) as -> by (apply Nat.leb_gt; lia). reflexivity. Qed.
Lemma ascii_boundary s o : ascii s -> o <= length s -> char_boundary s o = true.
Proof.
  intros A H. unfold char_boundary. destruct (nth_error s o) as [b|] eqn:E.
  - apply nth_error_In in E. unfold ascii in A. rewrite Forall_forall in A. now rewrite ascii_not_cont by auto.
  - apply nth_error_None in E. apply Nat.eqb_eq. lia.
Qed.
Lemma ascii_on_chars s ds : ascii s -> forall ro, ro + right_len ds <= length s -> on_chars s ds ro.
Proof.
  intro A. induction ds as [|[n|n|n] ds IH]; intros ro H; simpl in *; auto.
  - apply IH. lia.
  - repeat split; try apply ascii_boundary; auto; try lia. apply IH. lia.
Qed.

(** decoding ASCII *)
Lemma lossy_ascii s : ascii s -> from_utf8_lossy s = s.
Proof.
  intro A. unfold from_utf8_lossy. induction A as [|b s Hb A IH]; auto. cbn [length lossy_fuel]. unfold utf8_step. cbn [nth].
  assert (b <? 128 = true) as -> by (apply Nat.ltb_lt; auto). simpl. now rewrite IH.
Qed.
Lemma pt_string_ascii t x : wf t -> pt_text t = Ok x -> ascii x -> pt_string t = Ok x.
Proof.
  intros W H A. unfold pt_text, pt_string in *. destruct (pt_chunks t) as [bs| |]; simpl in *; try discriminate.
  inversion H; subst x. f_equal. clear H. induction bs as [|b bs IH]; auto. simpl in *. unfold ascii in A.
  apply Forall_app in A. destruct A as [A1 A2]. rewrite lossy_ascii, IH; auto.
Qed.

(** the whole of apply_diff *)
Lemma apply_diff_ok pol s t d o ds : policy_wrap pol -> sim t d -> pt_string t = Ok o -> diff o s = Ok ds ->
  on_chars s ds 0 ->
  exists t', pt_apply_diff pol s t = Ok t' /\
    sim t' (mkDoc (s_changes s ds 0 0 (d_text d)) None (d_text d :: d_past d) []) /\ (nl_ok t -> nl_ok t').
Proof.
  intros P S Eo Ed C. destruct (diff_fits _ _ _ Ed) as (Hp & _).
  destruct (bulk_start t d S) as (B1 & B2 & B3 & B4 & B5 & B6).
  destruct (changes_ok pol s ds P Hp 0 0 (pt_start_bulk t) (d_text d) (d_text d :: d_past d)) as (lo & ro & u & E & (I1 & I2 & I3 & I4 & I5) & N); auto.
  { unfold inbulk. repeat split; auto; try apply B1. rewrite B2. apply S. }
  unfold pt_apply_diff. rewrite Eo. cbn [bind]. rewrite Ed. cbn [bind]. rewrite E. cbn [bind].
  eexists. split; [reflexivity|]. unfold sim, pt_end_bulk, utxts, rtxts, txt, nl_ok in *; simpl.
  split; [|intro X; apply N; rewrite B3; unfold txt in *; rewrite B2; auto].
  repeat split; auto; try congruence; apply I1.
Qed.
