(** Facts about drawing, for C56. *)
From Coq Require Import String List Arith Lia ZArith Bool.
From Verif Require Import Base ListFacts Maps Utf8 Utf8Spec Fmt Chars LineSpec DiffApply Json Proto Payload Conn PropSession Tui TuiSpec.
Import ListNotations.

(** ** visible text *)
(** neither escape nor carriage return *)
Definition soft (t : text) : Prop := Forall (fun b => b <> 13 /\ b <> 27) t.
Lemma soft_app a b : soft (a ++ b) <-> soft a /\ soft b.
Proof. unfold soft. apply Forall_app. Qed.
Lemma printable_soft t : printable t -> soft t.
Proof. apply Forall_impl. intros. lia. Qed.
Lemma legible_soft t : legible t -> soft t.
Proof.
  intros (cs & F & ->). induction F as [|c cs [C L] F IH]; [constructor|]. cbn [concat]. apply soft_app. split; [|exact IH]. clear - C L. unfold soft.
  destruct c as [|a [|b [|d [|e [|x r]]]]]; cbn [is_char] in C; try contradiction; unfold trail in C; apply Forall_forall; intros y Hy; cbn [In] in Hy; lia.
Qed.
Lemma printable_legible t : printable t -> legible t.
Proof.
  intro P. exists (map (fun b => [b]) t). split.
  - apply Forall_map. revert P. apply Forall_impl. intros b B. split; [cbn; lia|exact B].
  - clear P. induction t as [|b t IH]; [reflexivity|]. cbn [map concat app]. now rewrite <- IH.
Qed.
Lemma legible_app a b : legible a -> legible b -> legible (a ++ b).
Proof. intros (x & X & ->) (y & Y & ->). exists (x ++ y). split; [now apply Forall_app|]. now rewrite concat_app. Qed.
Lemma displayable_soft w t : displayable w t -> soft t.
Proof. intros [P|[V _]]; [now apply printable_soft|now apply legible_soft]. Qed.
Lemma visible_soft t r : soft t -> visible (t ++ r) = t ++ visible r.
Proof.
  unfold visible. induction 1 as [|b t B _ IH]; [reflexivity|]. cbn [app visible_from]. destruct (Nat.eqb_spec b 27); [lia|]. now rewrite IH.
Qed.
Lemma visible_print t r : printable t -> visible (t ++ r) = t ++ visible r.
Proof. intro P. now apply visible_soft, printable_soft. Qed.
Lemma visible_all t : printable t -> visible t = t.
Proof. intro P. rewrite <- (app_nil_r t) at 1. rewrite visible_print by auto. apply app_nil_r. Qed.
Lemma visible_length t : forall st, length (visible_from st t) <= length t.
Proof.
  induction t as [|b t IH]; intro st; cbn [visible_from length]; [lia|]. destruct st as [|[|st]].
  - destruct (b =? 27); [specialize (IH 1)|specialize (IH 0); cbn [length]]; lia.
  - destruct (b =? 91); [specialize (IH 2)|specialize (IH 0)]; lia.
  - destruct ((64 <=? b) && (b <=? 126)); [specialize (IH 0)|specialize (IH 2)]; lia.
Qed.
Lemma visible_cut t : forall st n, exists k, visible_from st (firstn n t) = firstn k (visible_from st t).
Proof.
  induction t as [|b t IH]; intros st n; [exists 0; now rewrite firstn_nil|]. destruct n as [|n]; [exists 0; reflexivity|]. cbn [firstn visible_from]. destruct st as [|[|st]].
  - destruct (b =? 27); [apply IH|]. destruct (IH 0 n) as [k K]. exists (S k). cbn [firstn]. now rewrite K.
  - destruct (b =? 91); apply IH.
  - destruct ((64 <=? b) && (b <=? 126)); apply IH.
Qed.
Lemma chars_length t : length (chars t) <= length t.
Proof.
  unfold chars. assert (forall f s, length (chars_fuel f s) <= f) as H; [|apply H]. induction f as [|f IH]; intro s; cbn [chars_fuel]; [cbn; lia|]. destruct s; cbn [length]; [lia|]. specialize (IH (skipn (fst (utf8_step (n :: s))) (n :: s))). lia.
Qed.
Lemma columns_length t : columns t <= length t.
Proof. unfold columns. pose proof (chars_length (visible t)). pose proof (visible_length t 0). unfold visible in *. lia. Qed.
Lemma visible_still t : soft t -> visible t = t.
Proof. intro P. rewrite <- (app_nil_r t) at 1. rewrite visible_soft by auto. apply app_nil_r. Qed.
Lemma columns_soft t : soft t -> columns t = length (chars t).
Proof. intro P. unfold columns. now rewrite visible_still. Qed.
Lemma printable_ascii t : printable t -> Forall (fun b => b < 128) t.
Proof. apply Forall_impl. intros. lia. Qed.
Lemma columns_print t : printable t -> columns t = length t.
Proof. intro P. unfold columns. rewrite visible_all by auto. rewrite chars_ascii by now apply printable_ascii. apply map_length. Qed.
Lemma printable_app a b : printable (a ++ b) <-> printable a /\ printable b.
Proof. unfold printable. apply Forall_app. Qed.
Lemma printable_b t : forallb (fun b => (32 <=? b) && (b <? 127)) t = true -> printable t.
Proof. intro H. rewrite forallb_forall in H. apply Forall_forall. intros b Hb. apply H in Hb. apply andb_prop in Hb. rewrite Nat.leb_le, Nat.ltb_lt in Hb. exact Hb. Qed.
Lemma printable_dec n : printable (dec n).
Proof.
  pose proof (dec_digits n) as D. revert D. apply Forall_impl. intros b B. unfold digit in B. apply andb_prop in B. rewrite !Nat.leb_le in B. lia.
Qed.
Lemma printable_repeat b n : 32 <= b < 127 -> printable (repeat b n).
Proof. intro H. apply Forall_forall. intros x X. apply repeat_spec in X. lia. Qed.
Lemma printable_firstn n t : printable t -> printable (firstn n t).
Proof. intro P. rewrite <- (firstn_skipn n t) in P. now apply printable_app in P. Qed.
Lemma dec_length_pos n : 1 <= length (dec n).
Proof. pose proof (dec_nonempty n). destruct (dec n); [congruence|cbn; lia]. Qed.

(** ** rendering *)
Definition no_cr (t : text) : Prop := Forall (fun b => b <> 13) t.
Section Render.
Variable sy : styles.
Hypothesis Sane : sane sy.
Lemma format_visible f r : soft (fr_text f) -> visible (format_text sy f ++ r) = fr_text f ++ visible r.
Proof.
  intro P. destruct Sane as [E _]. unfold format_text, wrapped.
  destruct (fr_face f); try now apply visible_soft.
  - destruct (E (sy_error sy)) as [[_ A] [_ B]]; [cbn; tauto|]. rewrite <- app_assoc, A, <- app_assoc, visible_soft, B; auto.
  - destruct (E (sy_selection sy)) as [[_ A] [_ B]]; [cbn; tauto|]. rewrite <- app_assoc, A, <- app_assoc, visible_soft, B; auto.
Qed.
Lemma match_visible f r : soft (fr_text f) -> visible (format_match sy f ++ r) = fr_text f ++ visible r.
Proof.
  intro P. destruct Sane as [E _]. unfold format_match, wrapped.
  destruct (fr_face f); try now apply visible_soft.
  destruct (E (sy_match sy)) as [[_ A] [_ B]]; [cbn; tauto|]. rewrite <- app_assoc, A, <- app_assoc, visible_soft, B; auto.
Qed.
Lemma plain_cons f l : plain_text (f :: l) = fr_text f ++ plain_text l.
Proof. reflexivity. Qed.
Lemma render_soft l r : soft (plain_text l) -> visible (render (format_text sy) l ++ r) = plain_text l ++ visible r.
Proof.
  unfold render. induction l as [|f l IH]; intro P; [reflexivity|]. rewrite plain_cons in *. apply soft_app in P. destruct P as [P1 P2]. cbn [map concat]. rewrite <- app_assoc, format_visible, IH by auto. now rewrite app_assoc.
Qed.
Lemma render_visible l r : printable (plain_text l) -> visible (render (format_text sy) l ++ r) = plain_text l ++ visible r.
Proof. intro P. now apply render_soft, printable_soft. Qed.
Lemma render_match_visible l r : soft (plain_text l) -> visible (render (format_match sy) l ++ r) = plain_text l ++ visible r.
Proof.
  unfold render. induction l as [|f l IH]; intro P; [reflexivity|]. rewrite plain_cons in *. apply soft_app in P. destruct P as [P1 P2]. cbn [map concat]. rewrite <- app_assoc, match_visible, IH by auto. now rewrite app_assoc.
Qed.
Lemma printable_clean t : printable t -> Forall (fun b => b < 128 /\ b <> 13) t.
Proof. apply Forall_impl. intros. lia. Qed.
Lemma wrapped_clean p t : In p [sy_error sy; sy_selection sy; sy_match sy] -> printable t -> Forall (fun b => b < 128 /\ b <> 13) (wrapped p t).
Proof. intros I P. destruct Sane as [E _]. destruct (E p I) as [[A _] [B _]]. unfold wrapped. apply Forall_app. split; auto. apply Forall_app. split; auto. now apply printable_clean. Qed.
Lemma render_clean l : printable (plain_text l) -> Forall (fun b => b < 128 /\ b <> 13) (render (format_text sy) l).
Proof.
  unfold render. induction l as [|f l IH]; intro P; [constructor|]. rewrite plain_cons in *. apply printable_app in P. destruct P as [P1 P2]. cbn [map concat]. apply Forall_app. split; auto.
  unfold format_text. destruct (fr_face f); try (apply printable_clean; exact P1); (apply wrapped_clean; [cbn; tauto|exact P1]).
Qed.
Lemma render_no_cr l : soft (plain_text l) -> no_cr (render (format_text sy) l).
Proof.
  unfold render. induction l as [|f l IH]; intro P; [constructor|]. rewrite plain_cons in *. apply soft_app in P. destruct P as [P1 P2]. cbn [map concat]. apply Forall_app. split; [|exact (IH P2)].
  assert (no_cr (fr_text f)) as N by (eapply Forall_impl; [|exact P1]; cbv beta; tauto).
  assert (forall p, In p [sy_error sy; sy_selection sy; sy_match sy] -> no_cr (wrapped p (fr_text f))) as Wr.
  { intros p I. destruct Sane as [E _]. destruct (E p I) as [[A _] [B _]]. unfold wrapped, no_cr. apply Forall_app. split; [eapply Forall_impl; [|exact A]; cbv beta; tauto|]. apply Forall_app. split; [exact N|eapply Forall_impl; [|exact B]; cbv beta; tauto]. }
  unfold format_text. destruct (fr_face f); try exact N; apply Wr; cbn; tauto.
Qed.
Lemma render_match_no_cr l : soft (plain_text l) -> no_cr (render (format_match sy) l).
Proof.
  unfold render. induction l as [|f l IH]; intro P; [constructor|]. rewrite plain_cons in *. apply soft_app in P. destruct P as [P1 P2]. cbn [map concat]. apply Forall_app. split; [|exact (IH P2)].
  assert (no_cr (fr_text f)) as N by (eapply Forall_impl; [|exact P1]; cbv beta; tauto).
  unfold format_match. destruct (fr_face f); try exact N. destruct Sane as [E _]. destruct (E (sy_match sy)) as [[A _] [B _]]; [cbn; tauto|]. unfold wrapped, no_cr.
  apply Forall_app. split; [eapply Forall_impl; [|exact A]; cbv beta; tauto|]. apply Forall_app. split; [exact N|eapply Forall_impl; [|exact B]; cbv beta; tauto].
Qed.
Lemma render_match_clean l : printable (plain_text l) -> Forall (fun b => b < 128 /\ b <> 13) (render (format_match sy) l).
Proof.
  unfold render. induction l as [|f l IH]; intro P; [constructor|]. rewrite plain_cons in *. apply printable_app in P. destruct P as [P1 P2]. cbn [map concat]. apply Forall_app. split; auto.
  unfold format_match. destruct (fr_face f); try (apply printable_clean; exact P1). apply wrapped_clean; [cbn; tauto|exact P1].
Qed.
Lemma clean_no_cr t : Forall (fun b => b < 128 /\ b <> 13) t -> no_cr t.
Proof. apply Forall_impl. intros. lia. Qed.
Lemma clean_ascii t : Forall (fun b => b < 128 /\ b <> 13) t -> ascii t.
Proof. apply Forall_impl. intros. lia. Qed.
Lemma render_unstyled l : unstyled l -> render (format_text sy) l = plain_text l.
Proof.
  unfold render, plain_text. induction 1 as [|f l U _ IH]; [reflexivity|]. cbn [map concat]. rewrite IH. f_equal. unfold format_text. destruct (fr_face f); try reflexivity; destruct U; congruence.
Qed.
Lemma render_long l : printable (plain_text l) -> length (plain_text l) <= length (render (format_text sy) l).
Proof. intro P. pose proof (visible_length (render (format_text sy) l) 0) as H. change (visible_from 0 (render (format_text sy) l)) with (visible (render (format_text sy) l)) in H. rewrite <- (app_nil_r (render _ l)) in H at 1. rewrite render_visible in H by auto. rewrite app_length in H. lia. Qed.
End Render.
Lemma no_cr_app a b : no_cr (a ++ b) <-> no_cr a /\ no_cr b.
Proof. unfold no_cr. apply Forall_app. Qed.
Lemma no_cr_print t : printable t -> no_cr t.
Proof. apply Forall_impl. intros. lia. Qed.

Lemma no_cr_soft t : soft t -> no_cr t.
Proof. apply Forall_impl. tauto. Qed.

(** ** slices *)
Lemma prefix_ascii s n : ascii s -> (0 <= n <= Z.of_nat (length s))%Z -> str_prefix s n = Ok (firstn (Z.to_nat n) s).
Proof.
  intros A H. unfold str_prefix. rewrite (proj2 (Z.leb_le _ _)) by lia. unfold str_slice. rewrite (ascii_boundary s 0), (ascii_boundary s (Z.to_nat n)) by (auto; lia). cbn [andb Nat.leb]. unfold slice. rewrite Nat.sub_0_r. reflexivity.
Qed.

(** ** rows *)
Lemma split_no_cr t : no_cr t -> split_rows t = [t].
Proof.
  induction 1 as [|b t B _ IH]; [reflexivity|]. cbn [split_rows]. do 13 (destruct b as [|b]; [rewrite IH; reflexivity|]). destruct b as [|b]; [congruence|]. rewrite IH. reflexivity.
Qed.
Lemma split_cons x r : no_cr x -> split_rows (x ++ 13 :: 10 :: r) = x :: split_rows r.
Proof.
  induction 1 as [|b t B _ IH]; [reflexivity|]. cbn [app split_rows]. do 13 (destruct b as [|b]; [rewrite IH; reflexivity|]). destruct b as [|b]; [congruence|]. rewrite IH. reflexivity.
Qed.
Lemma split_joined l : l <> [] -> Forall no_cr l -> split_rows (joined [13; 10] l) = l.
Proof.
  intros N F. induction F as [|x l X F IH]; [congruence|]. destruct l as [|y l]; [cbn [joined]; now apply split_no_cr|]. change (joined [13; 10] (x :: y :: l)) with (x ++ 13 :: 10 :: joined [13; 10] (y :: l)). rewrite split_cons by auto. f_equal. apply IH. discriminate.
Qed.
Lemma no_cr_joined l : Forall printable l -> no_cr (joined [194; 183] l).
Proof.
  induction 1 as [|x l X F IH]; [constructor|]. destruct l as [|y l]; [now apply no_cr_print|]. change (joined [194; 183] (x :: y :: l)) with (x ++ [194; 183] ++ joined [194; 183] (y :: l)). apply no_cr_app. split; [now apply no_cr_print|]. apply no_cr_app. split; auto. repeat constructor; lia.
Qed.
(** [n] rows from the cursor down *)
Fixpoint numbered (x y : Z) (rev : bool) (l : list text) : list (Z * Z * bool * text) :=
  match l with [] => [] | t :: r => (x, y, rev, t) :: numbered 0 (y + 1) rev r end.
Lemma rows_shown h rev rest : forall s, (sc_y s + Z.of_nat (length rest) < h)%Z ->
  exists x, fold_left (fun s t => paint rev t (newline h s)) rest s =
  mkScr x (sc_y s + Z.of_nat (length rest)) (sc_painted s ++ numbered 0 (sc_y s + 1) rev rest) (sc_scrolls s).
Proof.
  induction rest as [|t rest IH]; intros s H; cbn [fold_left length numbered].
  - exists (sc_x s). rewrite app_nil_r. destruct s; cbn. f_equal; lia.
  - cbn [length] in H. assert (newline h s = mkScr 0 (sc_y s + 1) (sc_painted s) (sc_scrolls s)) as E. { unfold newline. rewrite (proj2 (Z.ltb_lt _ _)) by lia. reflexivity. }
    rewrite E. unfold paint at 2. cbn [sc_x sc_y sc_painted sc_scrolls]. set (s' := mkScr _ _ _ _). destruct (IH s') as [x Hx]; [cbn; lia|]. exists x. rewrite Hx. unfold s'. cbn [sc_y sc_painted sc_scrolls]. rewrite <- app_assoc. f_equal. lia.
Qed.
(** once on the last row, every new row scrolls *)
Lemma rows_scroll h rev rest : forall s, (sc_y s <= h - 1)%Z ->
  (Z.of_nat (sc_scrolls (fold_left (fun s t => paint rev t (newline h s)) rest s)) >= Z.of_nat (sc_scrolls s) + (sc_y s + Z.of_nat (length rest) - (h - 1)))%Z.
Proof.
  induction rest as [|t rest IH]; intros s H; cbn [fold_left length]; [lia|].
  specialize (IH (paint rev t (newline h s))). unfold newline in *. destruct (Z.ltb_spec (sc_y s + 1) h); cbn [paint sc_y sc_scrolls] in *; specialize (IH ltac:(lia)); lia.
Qed.
Lemma rows_more h rev rest : forall s, sc_scrolls s <= sc_scrolls (fold_left (fun s t => paint rev t (newline h s)) rest s).
Proof.
  induction rest as [|t rest IH]; intros s; cbn [fold_left]; [lia|]. specialize (IH (paint rev t (newline h s))). unfold newline in *. destruct (Z.ltb_spec (sc_y s + 1) h); cbn [paint sc_y sc_scrolls] in *; lia.
Qed.
Lemma show_more h c s : sc_scrolls s <= sc_scrolls (show h s c).
Proof. destruct c; cbn [show sc_scrolls]; try lia. destruct (split_rows t) as [|f r]; [lia|]. pose proof (rows_more h reversed r (paint reversed f s)). cbn [paint sc_scrolls] in *. lia. Qed.
Lemma shown_more h cs : forall s, sc_scrolls s <= sc_scrolls (fold_left (show h) cs s).
Proof. induction cs as [|c cs IH]; intro s; cbn [fold_left]; [lia|]. pose proof (show_more h c s). specialize (IH (show h s c)). lia. Qed.
