(** Facts about the model of the menus: scores, sorting, tokens. *)
From Coq Require Import String List Arith Lia ZArith Bool Permutation Sorted.
From Verif Require Import Base ListFacts Maps Utf8 Utf8Spec Utf8Facts Fmt DiffApply Chars View ViewSpec ViewFacts Json Proto Payload Menu MenuSpec.
Import ListNotations.

(** ** scores *)
Open Scope Z_scope.
Lemma half_even_bounds a b : 0 < b -> 2 * a - b <= 2 * b * half_even a b <= 2 * a + b.
Proof.
  intro B. unfold half_even. pose proof (Z.div_mod a b ltac:(lia)) as D. pose proof (Z.mod_pos_bound a b B) as M. set (q := a / b) in *. set (r := a mod b) in *.
  destruct ((b <? 2 * r) || ((2 * r =? b) && Z.odd q)) eqn:E.
  - assert (b <= 2 * r). { apply orb_prop in E. destruct E as [E|E]; [apply Z.ltb_lt in E; lia|]. apply andb_prop in E. destruct E as [E _]. apply Z.eqb_eq in E. lia. } nia.
  - apply orb_false_elim in E. destruct E as [E _]. apply Z.ltb_ge in E. nia.
Qed.
(** the least power of two above a bound *)
Definition expo (n : Z) : Z := Z.log2_up ((2 ^ 23 * n + 99) / 100).
Lemma expo_spec n : 0 < n -> 0 <= expo n /\ 2 ^ 23 * n <= 100 * 2 ^ expo n.
Proof.
  intro N. unfold expo. change (2 ^ 23) with 8388608. set (c := (8388608 * n + 99) / 100).
  assert (1 < c) as C. { unfold c. enough (2 <= (8388608 * n + 99) / 100) by lia. apply Z.div_le_lower_bound; lia. }
  split; [apply Z.log2_up_nonneg|]. pose proof (Z.log2_up_spec c C) as [_ L].
  assert (8388608 * n <= 100 * c). { unfold c. pose proof (Z.div_mod (8388608 * n + 99) 100 ltac:(lia)). pose proof (Z.mod_pos_bound (8388608 * n + 99) 100 ltac:(lia)). lia. }
  lia.
Qed.
Lemma score_bound (P A B n m x y : Z) : 0 < n -> n < m -> m <= P -> 0 < A -> 0 < B -> P * n <= 100 * A -> P * m <= 100 * B ->
  2 * (100 * A) - n <= 2 * n * x -> 2 * m * y <= 2 * (100 * B) + m -> y * A < x * B.
Proof.
  intros N NM MP HA HB HnA HmB Hx Hy.
  assert ((2 * m * y) * (n * A) <= (2 * (100 * B) + m) * (n * A)) as E2 by (apply Z.mul_le_mono_nonneg_r; nia).
  assert ((2 * (100 * A) - n) * (m * B) <= (2 * n * x) * (m * B)) as E1 by (apply Z.mul_le_mono_nonneg_r; nia).
  assert (0 < n * m) by nia.
  assert (200 * B * n * A + m * n * A < 200 * A * m * B - n * m * B) as K.
  { assert (m * n * A + n * m * B < 200 * A * B * (m - n)) as K; [|nia].
    assert (200 * A * B <= 200 * A * B * (m - n)) by (assert (0 < A * B) by nia; nia).
    assert (P * n * B <= 100 * A * B) by nia. assert (P * m * A <= 100 * B * A) by nia.
    assert (n * m * B <= P * n * B) by (assert (0 < n * B) by nia; nia).
    assert (m * n * A < P * m * A) by (assert (0 < m * A) by nia; nia). nia. }
  assert (2 * (n * m) * (y * A) < 2 * (n * m) * (x * B)) by nia. nia.
Qed.
Lemma score_less n m : 0 < n -> n < m -> m <= 2 ^ 23 -> score_compare (score_div n) (score_div m) = Gt.
Proof.
  intros N NM M. unfold score_compare, score_div. cbn [mantissa exponent]. fold (expo n) (expo m). apply Z.compare_gt_iff.
  pose proof (expo_spec n N) as [En An]. pose proof (expo_spec m ltac:(lia)) as [Em Am].
  apply (score_bound (2 ^ 23) (2 ^ expo n) (2 ^ expo m) n m); auto.
  - apply Z.pow_pos_nonneg; lia.
  - apply Z.pow_pos_nonneg; lia.
  - apply half_even_bounds. lia.
  - apply half_even_bounds. lia.
Qed.
Lemma as_f32_small n : 0 < n -> n <= 2 ^ 23 -> as_f32 n = n.
Proof.
  intros N M. unfold as_f32. assert (Z.log2 n <= 23) as L. { change 23 with (Z.log2 (2 ^ 23)). now apply Z.log2_le_mono. }
  replace (Z.log2 n - 23 <=? 0) with true; auto. symmetry. apply Z.leb_le. lia.
Qed.
Lemma score_eq n : score_compare (score_div n) (score_div n) = Eq.
Proof. unfold score_compare. apply Z.compare_refl. Qed.
Close Scope Z_scope.

(** ** stable sort *)
Section Sort.
Context {A : Type} (cmp : A -> A -> comparison) (P : A -> Prop) (R : A -> A -> Prop).
Hypothesis less_R : forall a b, P a -> P b -> less cmp a b = true -> R a b.
Hypothesis geq_R : forall a b, P a -> P b -> less cmp a b = false -> R b a.
Hypothesis trans_R : forall a b c, P a -> P b -> P c -> R a b -> R b c -> R a c.
Lemma ins_sorted_on x l : P x -> Forall P l -> StronglySorted R l -> StronglySorted R (ins_by cmp x l).
Proof.
  intros Px F S. induction S as [|y l S IH H]; cbn [ins_by]; [repeat constructor|]. inversion F as [|? ? Py Fl]; subst. destruct (less cmp x y) eqn:E.
  - constructor; [now constructor|]. constructor; [now apply less_R|]. rewrite Forall_forall in *. intros z Hz. eapply trans_R with y; auto.
  - constructor; [now apply IH|]. rewrite Forall_forall in *. intros z Hz. apply (Permutation_in _ (ins_perm cmp x l)) in Hz. destruct Hz as [<-|Hz]; [now apply geq_R|auto].
Qed.
Lemma sort_sorted_on l : Forall P l -> StronglySorted R (sort_by cmp l).
Proof.
  unfold sort_by. assert (Forall P []) as F0 by constructor. assert (StronglySorted R []) as S0 by constructor. revert F0 S0. generalize (@nil A) as s.
  induction l as [|x l IH]; intros s Fs Ss F; cbn [fold_left]; auto. inversion F; subst. apply IH; auto.
  - apply Forall_forall. intros z Hz. apply (Permutation_in _ (ins_perm cmp x s)) in Hz. rewrite Forall_forall in *. destruct Hz as [<-|Hz]; auto.
  - now apply ins_sorted_on.
Qed.
End Sort.

(** ** slices *)
Lemma boundary_valid a b : valid a -> valid b -> char_boundary (a ++ b) (length a) = true.
Proof.
  intros Va Vb. unfold char_boundary. rewrite nth_error_app2, Nat.sub_diag by lia. destruct Vb as (cs & F & ->). destruct cs as [|c cs]; cbn [concat].
  - cbn [nth_error]. rewrite app_nil_r. apply Nat.eqb_refl.
  - inversion F as [|? ? C]; subst. destruct c as [|x c]; [destruct C|]. cbn [app nth_error]. unfold cont, between. unfold is_char, trail in C.
    destruct c as [|y [|z [|w [|]]]]; cbn in C; try contradiction; apply negb_true_iff, andb_false_iff; rewrite !Nat.leb_gt; try lia.
Qed.
Lemma str_slice_mid a b c : valid a -> valid b -> valid c -> str_slice (a ++ b ++ c) (length a) (length (a ++ b)) = Ok b.
Proof.
  intros Va Vb Vc. unfold str_slice. rewrite boundary_valid by (auto; now apply valid_app). rewrite app_assoc. rewrite boundary_valid by (auto; now apply valid_app).
  rewrite app_length. replace (length a <=? length a + length b) with true by (symmetry; apply Nat.leb_le; lia). cbn [andb]. f_equal. unfold slice. rewrite <- app_assoc, skipn_app, skipn_all, Nat.sub_diag, skipn_O. cbn [app].
  replace (length a + length b - length a) with (length b) by lia. rewrite firstn_app, firstn_all, Nat.sub_diag, firstn_O. apply app_nil_r.
Qed.
Lemma tokens_concat s l : forall o ts, o <= length s -> tokens_from s l o = Ok ts -> concat (map tk_text ts) = skipn o s.
Proof.
  induction l as [|[[a b]|] l IH]; intros o ts L H; cbn [tokens_from] in H.
  - destruct (Nat.ltb_spec o (length s)).
    + destruct (str_slice s o (length s)) as [x| |] eqn:E; try discriminate. injection H as <-. apply str_slice_inv in E. destruct E as (_ & _ & _ & ->). cbn. rewrite app_nil_r. unfold slice. rewrite firstn_all2; auto. rewrite skipn_length. lia.
    + injection H as <-. symmetry. apply skipn_all2. lia.
  - destruct (str_slice s o a) as [x| |] eqn:E1; try discriminate. cbn [bind] in H. destruct (str_slice s a b) as [y| |] eqn:E2; try discriminate. cbn [bind] in H.
    destruct (tokens_from s l b) as [z| |] eqn:E3; try discriminate. injection H as <-. apply str_slice_inv in E1. destruct E1 as (L1 & _ & _ & ->). apply str_slice_inv in E2. destruct E2 as (L2 & _ & B & ->).
    apply char_boundary_le in B. cbn [map tk_text concat]. rewrite (IH b z) by auto. unfold slice.
    replace (skipn b s) with (skipn (b - a) (skipn a s)) by (rewrite skipn_skipn; f_equal; lia). rewrite firstn_skipn. replace (skipn a s) with (skipn (a - o) (skipn o s)) by (rewrite skipn_skipn; f_equal; lia). apply firstn_skipn.
  - eauto.
Qed.
