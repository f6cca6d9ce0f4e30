(** C50: error messages are flattened to one line. *)
From Coq Require Import String List Arith Lia Bool.
From Verif Require Import Base ListFacts Maps PieceTable PieceTableFacts Utf8 Utf8Spec Utf8Facts Chars Normalize.
Import ListNotations.

(** ** specification *)
(** a newline is shown as a backslash and an n, a tabulation as a blank *)
Definition shown (c : text) : list text :=
  match c with [10] => [[92]; [110]] | [9] => [[32]] | _ => [c] end.
(** no whitespace character is followed by itself *)
Definition no_repeat (cs : list text) : Prop := forall i c, nth_error cs i = Some c -> nth_error cs (S i) = Some c -> is_whitespace c = false.
Definition visible (cs : list text) : list text := filter (fun c => negb (is_whitespace c)) cs.
(** the same text up to the number of times a whitespace character is repeated *)
Inductive same_text : list text -> list text -> Prop :=
| same_nil : same_text [] []
| same_char c a b : same_text a b -> same_text (c :: a) (c :: b)
| same_again c a b : is_whitespace c = true -> same_text (c :: a) b -> same_text (c :: c :: a) b.

(** ** proofs *)
Lemma replace_nolf s : ~ In 10 (replace_char 10 [92; 110] s).
Proof.
  unfold replace_char. intro H. apply in_flat_map in H. destruct H as (b & _ & H). destruct (b =? 10) eqn:E; [|apply Nat.eqb_neq in E]; cbn in H; intuition; try lia; subst; try discriminate; congruence.
Qed.
Lemma replace_notab s : ~ In 9 (replace_char 9 [32] s).
Proof.
  unfold replace_char. intro H. apply in_flat_map in H. destruct H as (b & _ & H). destruct (b =? 9) eqn:E; [|apply Nat.eqb_neq in E]; cbn in H; intuition; try lia.
Qed.
Lemma replace_keeps c by_ s x : x <> c -> ~ In x by_ -> ~ In x s -> ~ In x (replace_char c by_ s).
Proof.
  intros N B H X. unfold replace_char in X. apply in_flat_map in X. destruct X as (b & Hb & X). destruct (b =? c); [auto|]. destruct X as [<-|[]]. auto.
Qed.
Lemma replace_id c by_ s : ~ In c s -> replace_char c by_ s = s.
Proof.
  unfold replace_char. induction s as [|b s IH]; cbn [flat_map]; auto. intro H. replace (b =? c) with false by (symmetry; apply Nat.eqb_neq; intros ->; apply H; now left).
  cbn [app]. f_equal. apply IH. intro X. apply H. now right.
Qed.
(** a character other than an ASCII one contains no ASCII byte *)
Lemma char_ascii c b : is_char c -> In b c -> b < 128 -> c = [b].
Proof.
  destruct c as [|x [|y [|z [|w [|v r]]]]]; cbn [is_char In]; unfold trail; intuition; subst; auto; lia.
Qed.
Lemma replace_char_chars c by_ cs : c < 128 -> Forall is_char cs -> Forall is_char by_ ->
  replace_char c (concat by_) (concat cs) = concat (flat_map (fun x => if eqb x [c] then by_ else [x]) cs) /\ Forall is_char (flat_map (fun x => if eqb x [c] then by_ else [x]) cs).
Proof.
  intros C F B. induction F as [|x cs Hx F IH]; [split; auto; constructor|]. destruct IH as [IH1 IH2]. cbn [concat flat_map]. unfold replace_char in *. rewrite flat_map_app, concat_app, IH1.
  destruct (eqb x [c]) eqn:E.
  - apply eqb_ok in E. subst x. cbn [flat_map]. rewrite Nat.eqb_refl, app_nil_r. split; auto. now apply Forall_app.
  - assert (flat_map (fun b => if b =? c then concat by_ else [b]) x = x) as ->.
    { apply (replace_id c (concat by_) x). intro X. rewrite (char_ascii x c Hx X C) in E. now rewrite eqb_refl in E. }
    cbn [concat]. rewrite app_nil_r. split; auto. apply Forall_app. split; auto.
Qed.
Lemma shown_chars cs : flat_map (fun x => if eqb x [9] then [[32]] else [x]) (flat_map (fun x => if eqb x [10] then [[92]; [110]] else [x]) cs) = flat_map shown cs.
Proof.
  induction cs as [|x cs IH]; auto. cbn [flat_map]. rewrite flat_map_app, IH. f_equal. clear IH. destruct (eqb x [10]) eqn:E.
  - apply eqb_ok in E. subst. reflexivity.
  - cbn [flat_map]. destruct (eqb x [9]) eqn:E'.
    + apply eqb_ok in E'. subst. reflexivity.
    + rewrite app_nil_r. assert (x <> [10]) as N1 by (intros ->; now rewrite eqb_refl in E). assert (x <> [9]) as N2 by (intros ->; now rewrite eqb_refl in E').
      unfold shown. destruct x as [|b [|]]; auto; do 11 (destruct b as [|b]; [congruence|]); reflexivity.
Qed.
Lemma squeeze_in cs : forall o x, In x (squeeze o cs) -> In x cs.
Proof.
  induction cs as [|y cs IH]; intros o x; cbn [squeeze]; auto. destruct (match o with Some z => eqb y z | None => false end); [intro H; right; eauto|].
  intros [->|H]; [now left|right; eauto].
Qed.
(** the output does not start with what is skipped *)
Lemma squeeze_head cs : forall y x r, squeeze (Some y) cs = x :: r -> x <> y.
Proof.
  induction cs as [|z cs IH]; intros y x r; cbn [squeeze]; [discriminate|]. destruct (eqb z y) eqn:E; [apply IH|]. intro H. injection H as -> _. intros ->. now rewrite eqb_refl in E.
Qed.
Lemma squeeze_no_repeat cs : forall o, no_repeat (squeeze o cs).
Proof.
  induction cs as [|y cs IH]; intros o; cbn [squeeze]; [intros [|i] c H; discriminate|]. destruct (match o with Some z => eqb y z | None => false end); [apply IH|].
  intros [|i] c H1 H2; cbn [nth_error] in *; [|eapply IH; eauto]. injection H1 as ->. destruct (is_whitespace c) eqn:W; auto.
  destruct (squeeze (Some c) cs) as [|x r] eqn:E; [discriminate|]. cbn [nth_error] in H2. injection H2 as ->. now apply squeeze_head in E.
Qed.
Lemma squeeze_same cs : forall o, same_text (match o with Some y => if is_whitespace y then [y] else [] | None => [] end ++ cs) (match o with Some y => if is_whitespace y then [y] else [] | None => [] end ++ squeeze (match o with Some y => if is_whitespace y then Some y else None | None => None end) cs).
Proof.
  induction cs as [|y cs IH]; intros o; cbn [squeeze].
  - rewrite !app_nil_r. destruct o as [y|]; [destruct (is_whitespace y)|]; repeat constructor.
  - assert (same_text (y :: cs) (y :: squeeze (if is_whitespace y then Some y else None) cs)) as S.
    { specialize (IH (Some y)). cbn iota beta in IH. destruct (is_whitespace y); [exact IH|]. apply same_char. exact IH. }
    destruct o as [z|]; cbn [app]; auto. destruct (is_whitespace z) eqn:W; cbn [app]; auto.
    destruct (eqb y z) eqn:E; [|now apply same_char]. apply eqb_ok in E. subst z. apply same_again; auto. specialize (IH (Some y)). cbn iota beta in IH. rewrite W in IH. exact IH.
Qed.
Lemma squeeze_id cs : no_repeat cs -> squeeze None cs = cs.
Proof.
  assert (forall cs o, no_repeat cs -> match o, cs with Some y, x :: _ => x <> y | _, _ => True end -> squeeze o cs = cs) as H; [|intro N; now apply H].
  clear. induction cs as [|x cs IH]; intros o N Ho; cbn [squeeze]; auto. assert ((match o with Some z => eqb x z | None => false end) = false) as ->.
  { destruct o as [y|]; auto. destruct (eqb x y) eqn:E; auto. apply eqb_ok in E. congruence. }
  f_equal. apply IH; [intros i c A B; apply (N (S i) c A B)|]. destruct (is_whitespace x) eqn:W; auto. destruct cs as [|z cs]; auto. intros ->.
  specialize (N 0 x eq_refl eq_refl). congruence.
Qed.
Lemma same_visible a b : same_text a b -> visible a = visible b.
Proof.
  induction 1 as [|c a b S IH|c a b W S IH]; auto; unfold visible in *; cbn [filter] in *.
  - now rewrite IH.
  - rewrite <- IH, W. reflexivity.
Qed.
Lemma shown_not_nl cs : Forall is_char cs -> forall x, In x (flat_map shown cs) -> x <> [10] /\ x <> [9].
Proof.
  intros F x H. apply in_flat_map in H. destruct H as (c & _ & H).
  assert (c = [10] \/ c = [9] \/ shown c = [c] /\ c <> [10] /\ c <> [9]) as [->|[->|(E & N1 & N2)]].
  - unfold shown. destruct c as [|b [|d r]]; [right; right; repeat split; discriminate| |right; right; repeat split; [do 11 (destruct b as [|b]; [reflexivity|]); reflexivity|discriminate|discriminate]].
    do 11 (destruct b as [|b]; [first [left; reflexivity|right; left; reflexivity|right; right; repeat split; discriminate]|]). right; right; repeat split; intro X; injection X; lia.
  - cbn in H. destruct H as [<-|[<-|[]]]; split; discriminate.
  - cbn in H. destruct H as [<-|[]]; split; discriminate.
  - rewrite E in H. destruct H as [<-|[]]. auto.
Qed.

Theorem C50 : forall m cs, Forall is_char cs -> m = concat cs ->
  let out := normalize_error_message m in
  ~ In LF out /\ ~ In 9 out /\
  exists os, Forall is_char os /\ out = concat os /\
    no_repeat os /\ same_text (flat_map shown cs) os /\ visible os = visible (flat_map shown cs) /\
    normalize_error_message out = out.
Proof.
  intros m cs F -> out. unfold normalize_error_message in out.
  destruct (replace_char_chars 10 [[92]; [110]] cs) as [E1 F1]; [lia|auto|repeat constructor; cbn; lia|].
  destruct (replace_char_chars 9 [[32]] _ ltac:(lia) F1) as [E2 F2]; [repeat constructor; cbn; lia|]. rewrite <- E1 in E2. rewrite shown_chars in E2, F2.
  change (concat [[92]; [110]]) with [92; 110] in *. change (concat [[32]]) with [32] in *. change LF with 10 in *. unfold out. rewrite E2, (chars_concat _ F2).
  set (os := squeeze None (flat_map shown cs)) in *. assert (Forall is_char os) as Fo.
  { apply Forall_forall. intros x Hx. apply squeeze_in in Hx. rewrite Forall_forall in F2. auto. }
  assert (forall b, b = 10 \/ b = 9 -> ~ In b (concat os)) as NI.
  { intros b Hb H. apply in_concat in H. destruct H as (x & Hx & H). rewrite Forall_forall in Fo. assert (x = [b]) as -> by (apply char_ascii; auto; lia).
    apply squeeze_in in Hx. destruct (shown_not_nl cs F _ Hx). destruct Hb; subst; congruence. }
  assert (same_text (flat_map shown cs) os) as S by exact (squeeze_same (flat_map shown cs) None).
  assert (no_repeat os) as NR by apply squeeze_no_repeat.
  split; [apply NI; auto|]. split; [apply NI; auto|]. exists os. split; auto. split; auto. split; auto. split; auto. split; [symmetry; now apply same_visible|].
  unfold normalize_error_message. change LF with 10. rewrite !replace_id by (try rewrite replace_id; apply NI; auto). rewrite chars_concat by exact Fo. now rewrite squeeze_id.
Qed.
Print Assumptions C50.
Example C50_demo : normalize_error_message [97; 10; 32; 9; 32; 98; 226; 128; 168; 226; 128; 168; 13; 13; 32] = [97; 92; 110; 32; 98; 226; 128; 168; 13; 32].
Proof. reflexivity. Qed.
