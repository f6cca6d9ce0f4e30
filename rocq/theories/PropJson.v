(** C84: how a message is spelled does not matter. *)
From Coq Require Import String List Arith ZArith Lia Bool Permutation.
From Verif Require Import Base ListFacts Maps Fmt View ViewSpec ViewFacts Utf8 Utf8Spec Utf8Facts Json JsonFacts JsonSpec JsonSpelling Proto ProtoFacts Core Editor.
Import ListNotations.
Local Notation length := List.length (only parsing).

(** ** the reader, on whole lines *)
Lemma reads_line line j d f : line_spells line j -> levels j < d -> 2 * length line + 2 <= f ->
  exists r, read f d line = Some (j, r) /\ skip_ws r = [].
Proof.
  intros (w & s & w' & -> & W & S & W') D L. exists w'. split.
  - apply (proj1 reads_spelling); [exact S|exact D|exact W| |rewrite !app_length in L; lia]. rewrite <- (app_nil_r w'). apply stop_white; [exact W'|exact Logic.I].
  - rewrite <- (app_nil_r w'). now rewrite skip_white.
Qed.
(** A line is read as the value it spells, whatever the spelling; a line that spells nothing is refused, and so is one that
    nests more than 127 levels. *)
Theorem C84_exact : forall line j, parse line = Some j <-> line_spells line j /\ nested 127 j.
Proof.
  intros line j. rewrite levels_nested. unfold parse. split.
  - destruct (read (2 * length line + 2) 128 line) as [[x r]|] eqn:R; [|discriminate]. destruct (skip_ws r) eqn:K; [|discriminate]. intro H. injection H as <-.
    apply (proj1 (read_spells _)) in R. destruct R as (w & t & -> & W & T & D). destruct (skip_inv r) as (w' & W' & E). rewrite K, app_nil_r in E. subst w'.
    split; [exists w, t, r; auto|]. cbn [pred] in D. lia.
  - intros [S D]. destruct (reads_line line j 128 (2 * length line + 2) S) as (r & -> & ->); [lia|lia|reflexivity].
Qed.
(** no line has two meanings *)
Theorem C84_meaning : forall line j j', line_spells line j -> line_spells line j' -> j = j'.
Proof.
  intros line j j' S S'. set (d := 1 + (levels j + levels j')). destruct (reads_line line j d (2 * length line + 2) S) as (r & R & _); [unfold d; lia|lia|].
  destruct (reads_line line j' d (2 * length line + 2) S') as (r' & R' & _); [unfold d; lia|lia|]. rewrite R in R'. now injection R'.
Qed.

(** ** the order of members *)
Lemma same_levels : forall j j' n, same_value j j' -> nested n j -> nested n j'.
Proof.
  intro j. induction j as [| | | | |l F|l F] using json_ind'; intros j' n S N; inversion S as [? A B|? l' R|? m l' ND P R]; subst; try exact N; try (now case (A l)); try (now case (B l)).
  - inversion N as [? ? A _|k ? A|]; subst; [now case (A l)|]. apply ne_arr. clear -F R A. induction R as [|x y l l' Rx R IH]; [intros ? []|]. inversion F as [|? ? Fx Fl]; subst.
    intros j [<-|H]; [apply (Fx y k Rx), A; now left|]. apply IH; auto. intros i Hi. apply A. now right.
  - inversion N as [? ? _ A| |k ? A]; subst; [now case (A l)|]. apply ne_obj. apply (Permutation_Forall P) in F. assert (forall x y, In (x, y) m -> nested k y) as A' by (intros x y H; apply (A x); now apply (Permutation_in (x, y) (Permutation_sym P))).
    clear -F R A'. induction R as [|[a x] [b y] m l' [_ Rx] R IH]; [intros ? ? []|]. inversion F as [|? ? Fx Fl]; subst. cbn [fst snd] in *.
    intros c j [H|H]; [injection H as <- <-; apply (Fx y k Rx), (A' a); now left|]. apply (IH Fl (fun u v Hu => A' u v (or_intror Hu)) c j H).
Qed.
Lemma text_cmp_cases a b : {text_lt a b} + {a = b} + {text_lt b a}.
Proof. destruct (text_cmp a b) eqn:E; [left; right; now apply text_cmp_eq|left; left; now apply text_cmp_lt|right; now apply text_cmp_gt]. Qed.
Lemma put_lt k v k' v' m : text_lt k k' -> put k v (put k' v' m) = put k' v' (put k v m).
Proof.
  intro L. induction m as [|[h x] m IH]; cbn [put].
  - rewrite (proj2 (text_cmp_lt k k') L), (proj2 (text_cmp_gt k' k) L). reflexivity.
  - destruct (text_cmp_cases k h) as [[K|K]|K].
    + rewrite (proj2 (text_cmp_lt k h) K). cbn [put]. rewrite (proj2 (text_cmp_gt k' k) L). destruct (text_cmp k' h) eqn:E; cbn [put].
      * rewrite (proj2 (text_cmp_lt k k') L). reflexivity.
      * rewrite (proj2 (text_cmp_lt k k') L). reflexivity.
      * rewrite (proj2 (text_cmp_lt k h) K). reflexivity.
    + subst h. rewrite (proj2 (text_cmp_eq k k) eq_refl). cbn [put]. rewrite (proj2 (text_cmp_gt k' k) L). cbn [put]. rewrite (proj2 (text_cmp_eq k k) eq_refl). reflexivity.
    + rewrite (proj2 (text_cmp_gt k h) K). pose proof (text_lt_trans _ _ _ K L) as K'. rewrite (proj2 (text_cmp_gt k' h) K'). cbn [put]. rewrite (proj2 (text_cmp_gt k h) K), (proj2 (text_cmp_gt k' h) K'). now rewrite IH.
Qed.
Lemma put_comm k v k' v' m : k <> k' -> put k v (put k' v' m) = put k' v' (put k v m).
Proof. intro N. destruct (text_cmp_cases k k') as [[L|L]|L]; [now apply put_lt|congruence|symmetry; now apply put_lt]. Qed.
Lemma puts_perm l l' : Permutation l l' -> NoDup (map fst l) -> forall m : list (text * json), fold_left (fun m e => put (fst e) (snd e) m) l m = fold_left (fun m e => put (fst e) (snd e) m) l' m.
Proof.
  induction 1 as [|x l l' P IH|x y l|l l1 l2 P1 IH1 P2 IH2]; intros N m; cbn [fold_left map] in *.
  - reflexivity.
  - inversion N; subst. now apply IH.
  - inversion N as [|? ? A B]; subst. rewrite put_comm; [reflexivity|]. intro E. apply A. rewrite E. now left.
  - rewrite IH1 by exact N. apply IH2. apply (Permutation_NoDup (Permutation_map fst P1) N).
Qed.
Lemma same_norm : forall j j', same_value j j' -> norm j = norm j'.
Proof.
  intro j. induction j as [| | | | |l F|l F] using json_ind'; intros j' S; inversion S as [? A B|? l' R|? m l' ND P R]; subst; try reflexivity.
  - cbn [norm]. f_equal. clear -F R. induction R as [|x y l l' Rx R IH]; [reflexivity|]. inversion F; subst. cbn [map]. f_equal; auto.
  - cbn [norm]. f_equal. rewrite (puts_perm _ (map (fun e => (fst e, norm (snd e))) m)).
    + f_equal. apply (Permutation_Forall P) in F. clear -F R. induction R as [|[a x] [b y] m l' [E Rx] R IH]; [reflexivity|]. inversion F as [|? ? Fx Fl]; subst. cbn [map fst snd] in *. rewrite E, (Fx _ Rx). f_equal. now apply IH.
    + now apply Permutation_map.
    + rewrite map_map. cbn [fst]. exact ND.
Qed.
Lemma same_str j j' : same_value j j' -> dec_str j = dec_str j'.
Proof. now intros []. Qed.
Lemma same_i32 j j' : same_value j j' -> dec_i32 j = dec_i32 j'.
Proof. now intros []. Qed.
Lemma same_id j j' : same_value j j' -> dec_id j = dec_id j'.
Proof. now intros []. Qed.
(** ** the fields of a structure *)
Definition opt_same (a b : option json) : Prop := match a, b with Some a, Some b => same_value a b | None, None => True | _, _ => False end.
Lemma filter_perm {A} (p : A -> bool) l l' : Permutation l l' -> Permutation (filter p l) (filter p l').
Proof.
  induction 1 as [|x l l' P IH|x y l|l l1 l2 P1 IH1 P2 IH2]; cbn [filter]; auto.
  - destruct (p x); [now constructor|exact IH].
  - destruct (p x), (p y); try apply Permutation_refl. apply perm_swap.
  - now apply Permutation_trans with (filter p l1).
Qed.
Lemma field_perm l l' n : Permutation l l' -> the_field l n = the_field l' n.
Proof.
  intro P. unfold the_field. apply (filter_perm (fun e => eqb n (fst e))) in P. destruct (filter (fun e => eqb n (fst e)) l) as [|x [|y q]].
  - apply Permutation_nil in P. now rewrite P.
  - apply Permutation_length_1_inv in P. now rewrite P.
  - apply Permutation_length in P. destruct (filter (fun e => eqb n (fst e)) l') as [|u [|v t]]; cbn [length] in P; try lia. reflexivity.
Qed.
Lemma field_same m l' n : Forall2 (fun a b => fst a = fst b /\ same_value (snd a) (snd b)) m l' ->
  match the_field m n, the_field l' n with Some a, Some b => opt_same a b | None, None => True | _, _ => False end.
Proof.
  intro R. unfold the_field. assert (Forall2 (fun a b => fst a = fst b /\ same_value (snd a) (snd b)) (filter (fun e => eqb n (fst e)) m) (filter (fun e => eqb n (fst e)) l')) as Q.
  { induction R as [|x y m l' [E Rx] R IH]; cbn [filter]; [constructor|]. rewrite E. destruct (eqb n (fst y)); [constructor; auto|exact IH]. }
  destruct Q as [|x y q q' [_ Rx] [|? ? ? ? ? ?]]; exact Logic.I || exact Rx.
Qed.
Lemma fields_same names j j' : same_value j j' ->
  match fields names j, fields names j' with Some a, Some b => Forall2 opt_same a b | None, None => True | _, _ => False end.
Proof.
  intro S. destruct S as [j A B|l l' R|l m l' ND P R].
  - destruct j; try exact Logic.I; [now case (A l)|now case (B l)].
  - cbn [fields]. assert (List.length l = List.length l') as -> by (clear -R; induction R; cbn; congruence). destruct (_ =? _); [|exact Logic.I]. induction R; cbn [map]; constructor; auto.
  - cbn [fields]. induction names as [|n r IH]; cbn [all_fields]; [constructor|]. rewrite (field_perm _ _ n P). pose proof (field_same m l' n R) as H.
    destruct (the_field m n) as [a|], (the_field l' n) as [b|]; try contradiction; [|exact Logic.I].
    destruct (all_fields l r) as [x|], (all_fields l' r) as [y|]; try contradiction; [now constructor|exact Logic.I].
Qed.
Lemma opt_value_same a b : opt_same a b -> opt_value a = opt_value b.
Proof.
  destruct a as [a|], b as [b|]; cbn [opt_same]; try contradiction; [|reflexivity]. intro S. cbn [opt_value]. pose proof (same_norm _ _ S) as N. destruct S as [j A B|l l' R|l m l' ND P R]; [reflexivity|now f_equal|now f_equal].
Qed.
Lemma same_request j j' : same_value j j' -> dec_request j = dec_request j'.
Proof.
  intro S. unfold dec_request. pose proof (fields_same [str "jsonrpc"; str "id"; str "method"; str "params"] j j' S) as H.
  destruct (fields _ j) as [a|], (fields _ j') as [b|]; try contradiction; [|reflexivity].
  destruct H as [|[v|] [v'|] ? ? R1 H]; try contradiction; try reflexivity.
  destruct H as [|[i|] [i'|] ? ? R2 H]; try contradiction; try reflexivity.
  destruct H as [|[m|] [m'|] ? ? R3 H]; try contradiction; try reflexivity.
  destruct H as [|p p' ? ? R4 H]; try reflexivity. destruct H as [|? ? ? ? ? ?]; [|reflexivity].
  cbn [opt_same] in R1, R2, R3. rewrite (same_str _ _ R1), (same_id _ _ R2), (same_str _ _ R3), (opt_value_same _ _ R4). reflexivity.
Qed.
Lemma same_notification j j' : same_value j j' -> dec_notification j = dec_notification j'.
Proof.
  intro S. unfold dec_notification. pose proof (fields_same [str "jsonrpc"; str "method"; str "params"] j j' S) as H.
  destruct (fields _ j) as [a|], (fields _ j') as [b|]; try contradiction; [|reflexivity].
  destruct H as [|[v|] [v'|] ? ? R1 H]; try contradiction; try reflexivity.
  destruct H as [|[m|] [m'|] ? ? R3 H]; try contradiction; try reflexivity.
  destruct H as [|p p' ? ? R4 H]; try reflexivity. destruct H as [|? ? ? ? ? ?]; [|reflexivity].
  cbn [opt_same] in R1, R3. rewrite (same_str _ _ R1), (same_str _ _ R3), (opt_value_same _ _ R4). reflexivity.
Qed.
Lemma same_error j j' : same_value j j' -> dec_error j = dec_error j'.
Proof.
  intro S. unfold dec_error. pose proof (fields_same [str "code"; str "message"; str "data"] j j' S) as H.
  destruct (fields _ j) as [a|], (fields _ j') as [b|]; try contradiction; [|reflexivity].
  destruct H as [|[v|] [v'|] ? ? R1 H]; try contradiction; try reflexivity.
  destruct H as [|[m|] [m'|] ? ? R3 H]; try contradiction; try reflexivity.
  destruct H as [|p p' ? ? R4 H]; try reflexivity. destruct H as [|? ? ? ? ? ?]; [|reflexivity].
  cbn [opt_same] in R1, R3. rewrite (same_i32 _ _ R1), (same_str _ _ R3), (opt_value_same _ _ R4). reflexivity.
Qed.
Lemma same_opt_error a b : opt_same a b -> opt_error a = opt_error b.
Proof.
  destruct a as [a|], b as [b|]; cbn [opt_same]; try contradiction; [|reflexivity]. intro S. unfold opt_error. pose proof (same_error _ _ S) as N. destruct S as [j A B|l l' R|l m l' ND P R]; [reflexivity|now rewrite N|now rewrite N].
Qed.
Lemma same_response j j' : same_value j j' -> dec_response j = dec_response j'.
Proof.
  intro S. unfold dec_response. pose proof (fields_same [str "jsonrpc"; str "id"; str "result"; str "error"] j j' S) as H.
  destruct (fields _ j) as [a|], (fields _ j') as [b|]; try contradiction; [|reflexivity].
  destruct H as [|[v|] [v'|] ? ? R1 H]; try contradiction; try reflexivity.
  destruct H as [|[i|] [i'|] ? ? R2 H]; try contradiction; try reflexivity.
  destruct H as [|r r' ? ? R3 H]; try contradiction; try reflexivity.
  destruct H as [|p p' ? ? R4 H]; try reflexivity. destruct H as [|? ? ? ? ? ?]; [|reflexivity].
  cbn [opt_same] in R1, R2. rewrite (same_str _ _ R1), (same_id _ _ R2), (opt_value_same _ _ R3), (same_opt_error _ _ R4). reflexivity.
Qed.
Lemma same_event j j' : same_value j j' -> dec_event j = dec_event j'.
Proof. intro S. unfold dec_event. now rewrite (same_notification _ _ S), (same_response _ _ S). Qed.

(** ** C84 *)
Lemma same_line line line' j j' : parse line = Some j -> line_spells line' j' -> same_value j j' -> parse line' = Some j'.
Proof. intros P S V. apply C84_exact. split; [exact S|]. apply C84_exact in P. now apply (same_levels _ _ _ V). Qed.
Lemma same_requests line line' j j' q : line_spells line j -> line_spells line' j' -> same_value j j' -> parse_request line = Some q -> parse_request line' = Some q.
Proof.
  intros S S' V. unfold parse_request. destruct (parse line) as [x|] eqn:P; [|discriminate].
  assert (x = j) as -> by (apply C84_exact in P; exact (C84_meaning _ _ _ (proj1 P) S)). rewrite (same_line _ _ _ _ P S' V). now rewrite (same_request _ _ V).
Qed.
(** A request is handled, answered and has the effects it has, however it is spelled: with any white space between its parts, any
    characters of its strings escaped or not, its members, and those of its parameters, in any order. *)
Theorem C84_handled : forall G pol u se L w c e line line' j j' q, parse_request line = Some q ->
  line_spells line j -> line_spells line' j' -> same_value j j' -> handle G pol u se L w c line' e = handle G pol u se L w c line e.
Proof.
  intros G pol u se L w c e line line' j j' q P S S' V. unfold handle. rewrite P, (same_requests _ _ _ _ _ S S' V P). reflexivity.
Qed.
(** and a client takes a message for what it is, however it is spelled *)
Theorem C84_received : forall line line' j j' v, parse_event line = Some v ->
  line_spells line j -> line_spells line' j' -> same_value j j' -> parse_event line' = Some v.
Proof.
  intros line line' j j' v P S S' V. unfold parse_event in *. destruct (parse line) as [x|] eqn:Q; [|discriminate].
  assert (x = j) as -> by (apply C84_exact in Q; exact (C84_meaning _ _ _ (proj1 Q) S)). rewrite (same_line _ _ _ _ Q S' V). now rewrite <- (same_event _ _ V).
Qed.
(** members the protocol does not know are ignored *)
Lemma field_extra l x n : ~ In n (map fst x) -> the_field (l ++ x) n = the_field l n.
Proof.
  intro N. unfold the_field. rewrite filter_app. replace (filter (fun e => eqb n (fst e)) x) with (@nil (text * json)); [now rewrite app_nil_r|].
  symmetry. induction x as [|[k v] x IH]; cbn [filter map fst In] in *; [reflexivity|]. rewrite (proj2 (eqb_neq n k)); [apply IH; tauto|]. intro E. apply N. now left.
Qed.
Theorem C84_extra : forall G pol u se L w c e line line' l x q, parse_request line = Some q ->
  line_spells line (JObj l) -> line_spells line' (JObj (l ++ x)) -> nested 127 (JObj (l ++ x)) ->
  (forall n, In n [str "jsonrpc"; str "id"; str "method"; str "params"] -> ~ In n (map fst x)) ->
  handle G pol u se L w c line' e = handle G pol u se L w c line e.
Proof.
  intros G pol u se L w c e line line' l x q P S S' D N. unfold handle. assert (parse_request line' = Some q) as ->; [|now rewrite P].
  unfold parse_request in *. rewrite (proj2 (C84_exact line' _) (conj S' D)). destruct (parse line) as [y|] eqn:Q; [|discriminate].
  assert (y = JObj l) as -> by (apply C84_exact in Q; exact (C84_meaning _ _ _ (proj1 Q) S)). rewrite <- P. unfold dec_request, fields. cbn [all_fields].
  rewrite !field_extra; [reflexivity| | | |]; apply N; cbn [In]; tauto.
Qed.

(** a request that has a member of the protocol twice is refused, like any line that is no request: nothing but an error is answered *)
Lemma field_twice a b c n x y : the_field (a ++ (n, x) :: b ++ (n, y) :: c) n = None.
Proof.
  unfold the_field. rewrite filter_app. cbn [filter fst]. rewrite eqb_refl, filter_app. cbn [filter fst]. rewrite eqb_refl.
  destruct (filter _ a) as [|u [|v q]]; [|reflexivity|reflexivity]. cbn [app]. destruct (filter _ b); reflexivity.
Qed.
Theorem C84_twice : forall line a b c n x y, line_spells line (JObj (a ++ (n, x) :: b ++ (n, y) :: c)) ->
  In n [str "jsonrpc"; str "id"; str "method"; str "params"] -> parse_request line = None.
Proof.
  intros line a b c n x y S I. unfold parse_request. destruct (parse line) as [j|] eqn:P; [|reflexivity].
  assert (j = JObj (a ++ (n, x) :: b ++ (n, y) :: c)) as -> by (apply C84_exact in P; exact (C84_meaning _ _ _ (proj1 P) S)).
  pose proof (field_twice a b c n x y) as T. set (l := a ++ (n, x) :: b ++ (n, y) :: c) in *. clearbody l. unfold dec_request, fields. cbn [all_fields].
  cbn [In] in I. destruct I as [<-|[<-|[<-|[<-|[]]]]]; rewrite T; repeat match goal with |- context [the_field l ?m] => destruct (the_field l m) end; reflexivity.
Qed.

(** ** UTF-8 *)
Lemma char_long c : is_char c -> (exists a, c = [a] /\ a <= 127) \/ Forall (fun b => 128 <= b) c /\ c <> [].
Proof.
  unfold is_char, trail. destruct c as [|a [|b [|d [|e [|? ?]]]]]; try contradiction; [left; exists a; auto| | |];
    (right; split; [repeat constructor; lia|discriminate]).
Qed.
Lemma valid_split cs : forall a b r, Forall is_char cs -> concat cs = a ++ b :: r -> b < 128 -> valid a /\ valid r.
Proof.
  induction cs as [|c cs IH]; intros a b r F E B; cbn [concat] in E; [destruct a; discriminate|]. inversion F as [|? ? C F']; subst.
  assert (forall a', concat cs = a' ++ b :: r -> a = c ++ a' -> valid a /\ valid r) as Go.
  { intros a' E' ->. destruct (IH a' b r F' E' B) as [V1 V2]. split; [|exact V2]. apply valid_app; [exists [c]; split; [now constructor|cbn [concat]; now rewrite app_nil_r]|exact V1]. }
  destruct (char_long c C) as [(x & -> & X)|[H N]].
  - cbn [app] in E. destruct a as [|y a]; cbn [app] in E.
    + injection E as <- <-. split; [apply valid_nil|]. exists cs. auto.
    + injection E as <- E. apply (Go a E). reflexivity.
  - destruct (le_lt_dec (length c) (length a)) as [L|L].
    + apply (Go (skipn (length c) a)).
      * assert (skipn (length c) (c ++ concat cs) = skipn (length c) (a ++ b :: r)) as X by (now rewrite E). rewrite skipn_app, skipn_all, Nat.sub_diag in X. cbn [app skipn] in X.
        rewrite skipn_app in X. replace (length c - length a) with 0 in X by lia. exact X.
      * assert (firstn (length c) (c ++ concat cs) = firstn (length c) (a ++ b :: r)) as X by (now rewrite E). rewrite firstn_app, firstn_all, Nat.sub_diag in X. cbn [firstn] in X. rewrite app_nil_r in X.
        rewrite firstn_app in X. replace (length c - length a) with 0 in X by lia. cbn [firstn] in X. rewrite app_nil_r in X. rewrite X at 1. symmetry. apply firstn_skipn.
    + exfalso. assert (nth_error (c ++ concat cs) (length a) = nth_error (a ++ b :: r) (length a)) as X by (now rewrite E).
      rewrite nth_error_app1 in X by exact L. rewrite nth_error_app2, Nat.sub_diag in X by lia. cbn [nth_error] in X. apply nth_error_In in X. rewrite Forall_forall in H. apply H in X. lia.
Qed.
Lemma valid_at a b r : valid (a ++ b :: r) -> b < 128 -> valid a /\ valid r.
Proof. intros (cs & F & E) B. exact (valid_split cs a b r F (eq_sym E) B). Qed.
Lemma valid_after b r : valid (b :: r) -> b < 128 -> valid r.
Proof. intros V B. now apply (valid_at [] b r V). Qed.
Lemma valid_trim a w : valid (a ++ w) -> Forall (fun b => b < 128) w -> valid a.
Proof. intros V F. revert a V. induction F as [|b w B F IH]; intros a V; [now rewrite app_nil_r in V|]. now apply (valid_at a b w V). Qed.
Lemma valid_skip w a : valid (w ++ a) -> Forall (fun b => b < 128) w -> valid a.
Proof. intros V F. induction F as [|b w B F IH]; [exact V|]. apply IH. now apply (valid_after b). Qed.
Lemma white_ascii w : white w -> Forall (fun b => b < 128) w.
Proof. apply Forall_impl. intros b H. lia. Qed.
Lemma hex4_ascii h n : hex4 h n -> Forall (fun b => b < 128) h.
Proof. intros [a b c d x y z t A B C D]. assert (forall b n, hex b n -> b < 128) as X by (intros ? ? []; lia). apply X in A, B, C, D. repeat (constructor; [assumption|]). constructor. Qed.
Lemma utf8_char n c : utf8_of n c -> n < 17 * 16 * 4096 -> (forall k, ~ leading n k) -> (forall k, ~ trailing n k) -> is_char c.
Proof.
  intros U B L T. assert (~ (54 * 1024 <= n < 56 * 1024)) as NS.
  { intro H. destruct (le_lt_dec (55 * 1024) n) as [H1|H1]; [apply (T (n - 55 * 1024))|apply (L (n - 54 * 1024))]; unfold leading, trailing; lia. }
  clear L T. destruct U as [n H|x y X Y H|x y z X Y Z H|x y z t X Y Z T H]; unfold is_char, trail.
  - lia.
  - lia.
  - split; [lia|]. destruct (Nat.eq_dec x 0) as [->|]; [left; lia|]. destruct (Nat.eq_dec x 13) as [->|]; [right; right; left; lia|]. destruct (le_lt_dec x 12); [right; left; lia|right; right; right; lia].
  - split; [lia|]. split; [lia|]. destruct (Nat.eq_dec x 0) as [->|]; [left; lia|]. destruct (Nat.eq_dec x 4) as [->|]; [right; right; lia|right; left; lia].
Qed.
Lemma body_valid n : forall t x, length t <= n -> str_body t x -> valid t -> valid x.
Proof.
  induction n as [|n IH]; intros t x L B V; [destruct t; [inversion B; subst; apply valid_nil|cbn [length] in L; lia]|].
  assert (forall c x, is_char c -> valid x -> valid (c ++ x)) as Vc by (intros c y C Vy; apply valid_app; [exists [c]; split; [now constructor|cbn [concat]; now rewrite app_nil_r]|exact Vy]).
  destruct V as ([|c cs] & F & E); [cbn [concat] in E; subst t; inversion B; subst; apply valid_nil|]. cbn [concat] in E. inversion F as [|? ? C F']; subst.
  assert (valid (concat cs)) as Vr by (exists cs; auto).
  destruct (char_long c C) as [(a & -> & A)|[H N]].
  - cbn [app length] in *. inversion B as [|b s y B1 B2 B3 By|k b s y K By|h m k s y H1 H2 H3 H4 By|h m i h' m' l k s y H1 H2 H3 H4 H5 By]; subst.
    + apply (Vc [a]); [exact C|]. apply (IH (concat cs)); [lia|exact By|exact Vr].
    + assert (forall u v, short_escape u v -> u < 128 /\ v < 128) as Sh by (intros u v K'; unfold short_escape in K'; cbn [In] in K'; repeat (destruct K' as [K'|K']; [injection K' as <- <-; lia|]); destruct K').
      destruct (Sh _ _ K) as [K1 K2]. apply (Vc [b]); [cbn [is_char]; lia|]. match goal with E : _ = concat cs |- _ => rewrite <- E in *; cbn [length] in L end. apply (IH s); [lia|exact By|]. now apply (valid_after k).
    + match goal with E : _ = concat cs |- _ => rewrite <- E in *; cbn [length] in L; rewrite app_length in L end. apply Vc; [apply (utf8_char m); auto; apply hex4_bound in H1; lia|]. apply (IH s); [lia|exact By|]. apply (valid_skip h); [apply (valid_after 117); [exact Vr|lia]|now apply (hex4_ascii h m)].
    + match goal with E : _ = concat cs |- _ => rewrite <- E in *; cbn [length] in L; rewrite app_length in L; cbn [length] in L; rewrite app_length in L end. apply Vc.
      * apply (utf8_char _ _ H5); [destruct H2, H4; lia|intros u [U U']; destruct H2, H4; lia|intros u [U U']; destruct H2, H4; lia].
      * apply (IH s); [lia|exact By|]. apply (valid_skip h'); [|now apply (hex4_ascii h' m')]. apply (valid_after 117); [|lia]. apply (valid_after 92); [|lia]. apply (valid_skip h); [apply (valid_after 117); [exact Vr|lia]|now apply (hex4_ascii h m)].
  - assert (forall c s x, Forall (fun b => 128 <= b) c -> str_body (c ++ s) x -> exists y, x = c ++ y /\ str_body s y) as P.
    { clear. induction c as [|b c IH]; intros s x H B; [exists x; auto|]. inversion H; subst. cbn [app] in B. inversion B; subst; try lia. destruct (IH s x0) as (y & -> & Y); auto. exists y. auto. }
    destruct (P c _ _ H B) as (y & -> & Y). apply Vc; [exact C|]. apply (IH (concat cs)); [|exact Y|exact Vr]. rewrite app_length in L. destruct c; [congruence|cbn [length] in L; lia].
Qed.
Lemma quoted_valid q x : spells_str q x -> valid q -> valid x.
Proof.
  intros (t & -> & T) V. apply (valid_after 34) in V; [|lia]. apply (valid_trim t [34]) in V; [|repeat constructor; lia]. exact (body_valid _ t x (Nat.le_refl _) T V).
Qed.
Lemma spells_valid : (forall s j, spells s j -> valid s -> forall x, string_of x j -> valid x) /\
  (forall s l, items s l -> valid s -> forall j, In j l -> forall x, string_of x j -> valid x) /\
  (forall s l, members s l -> valid s -> forall k j, In (k, j) l -> valid k /\ forall x, string_of x j -> valid x).
Proof.
  assert (forall s, valid (91 :: s ++ [93]) -> valid s) as Va by (intros s V; apply (valid_after 91) in V; [|lia]; now apply (valid_at s 93 []); [|lia]).
  assert (forall s, valid (123 :: s ++ [125]) -> valid s) as Vo by (intros s V; apply (valid_after 123) in V; [|lia]; now apply (valid_at s 125 []); [|lia]).
  apply spells_all.
  - intros _ x X; inversion X.
  - intros _ x X; inversion X.
  - intros _ x X; inversion X.
  - intros m ds v _ _ _ x X; inversion X.
  - intros m ds fr ex _ _ _ _ _ x X; inversion X.
  - intros s x Sx V y Y. inversion Y; subst. now apply (quoted_valid s).
  - intros w _ _ x X. inversion X; subst. contradiction.
  - intros s l _ IH V x X. inversion X as [|? j ? Hj Hx| |]; subst. exact (IH (Va _ V) j Hj x Hx).
  - intros w _ _ x X. inversion X; subst; contradiction.
  - intros s l _ IH V x X. inversion X as [| |? j ? Hj|? k j ? Hj Hx]; subst; [exact (proj1 (IH (Vo _ V) x j Hj))|exact (proj2 (IH (Vo _ V) k j Hj) x Hx)].
  - intros w s j w' W Sj IH W' V i [<-|[]]. apply IH. apply (valid_trim s w'); [|now apply white_ascii]. apply (valid_skip w); [exact V|now apply white_ascii].
  - intros w s j w' t l W Sj IH W' _ IHl V. apply (valid_skip w) in V; [|now apply white_ascii]. rewrite app_assoc in V. apply valid_at in V; [|lia]. destruct V as [V1 V2].
    intros i [<-|Hi]; [apply IH; now apply (valid_trim s w'); [|apply white_ascii]|now apply IHl].
  - intros w q k w1 w2 s j w' W Q W1 W2 Sj IH W' V k' i [H|[]]. injection H as <- <-. apply (valid_skip w) in V; [|now apply white_ascii]. rewrite app_assoc in V. apply valid_at in V; [|lia]. destruct V as [V1 V2].
    split; [apply (quoted_valid q _ Q); now apply (valid_trim q w1); [|apply white_ascii]|]. apply IH. apply (valid_trim s w'); [|now apply white_ascii]. apply (valid_skip w2); [exact V2|now apply white_ascii].
  - intros w q k w1 w2 s j w' t l W Q W1 W2 Sj IH W' _ IHl V. apply (valid_skip w) in V; [|now apply white_ascii]. rewrite app_assoc in V. apply valid_at in V; [|lia]. destruct V as [V1 V2].
    apply (valid_skip w2) in V2; [|now apply white_ascii]. rewrite app_assoc in V2. apply valid_at in V2; [|lia]. destruct V2 as [V2 V3].
    intros k' i [H|H]; [|exact (IHl V3 k' i H)]. injection H as <- <-. split; [apply (quoted_valid q _ Q); now apply (valid_trim q w1); [|apply white_ascii]|]. apply IH. now apply (valid_trim s w'); [|apply white_ascii].
Qed.
(** what a line in UTF-8 says is in UTF-8, escapes included: every name and every string *)
Theorem C84_utf8 : forall line j x, valid line -> parse line = Some j -> string_of x j -> valid x.
Proof.
  intros line j x V P X. apply C84_exact in P. destruct P as [(w & s & w' & -> & W & S & W') _]. apply (valid_skip w) in V; [|now apply white_ascii]. apply (valid_trim s w') in V; [|now apply white_ascii].
  exact (proj1 spells_valid s j S V x X).
Qed.

(** ** examples *)
Definition plain_line : text := str "{""jsonrpc"":""2.0"",""id"":1,""method"":""edit"",""params"":{""name"":""a/b"",""scratch"":true}}".
Definition odd_line : text := str " { ""params"" :{""scratch"": true , ""n\u0061me"":""a\/\u0062""}, ""id"":1,""method"":""\u0065dit"",""jsonrpc"":""2.0""}  ".
Definition plain_members : list (text * json) :=
  [(str "jsonrpc", JStr (str "2.0")); (str "id", JInt 1); (str "method", JStr (str "edit"));
   (str "params", JObj [(str "name", JStr (str "a/b")); (str "scratch", JBool true)])].
Definition odd_members : list (text * json) :=
  [(str "params", JObj [(str "scratch", JBool true); (str "name", JStr (str "a/b"))]); (str "id", JInt 1); (str "method", JStr (str "edit"));
   (str "jsonrpc", JStr (str "2.0"))].
Lemma keys_nodup (l : list text) : (fix nd l := match l with [] => true | x :: r => negb (existsb (eqb x) r) && nd r end) l = true -> NoDup l.
Proof.
  induction l as [|x l IH]; intro H; constructor; apply andb_prop in H; destruct H as [H1 H2]; [|now apply IH]. intro I. apply negb_true_iff in H1.
  assert (existsb (eqb x) l = true) as E by (apply existsb_exists; exists x; split; [exact I|apply eqb_refl]). congruence.
Qed.
Example C84_demo : (exists q, parse_request plain_line = Some q /\ rq_method q = str "edit") /\ line_spells plain_line (JObj plain_members) /\
  line_spells odd_line (JObj odd_members) /\ same_value (JObj plain_members) (JObj odd_members) /\ plain_line <> odd_line.
Proof.
  split; [eexists; split; vm_compute; reflexivity|]. split; [apply (C84_exact plain_line (JObj plain_members)); vm_compute; reflexivity|].
  split; [apply (C84_exact odd_line (JObj odd_members)); vm_compute; reflexivity|]. split; [|intro H; vm_compute in H; discriminate].
  assert (forall j, match j with JArr _ | JObj _ => False | _ => True end -> same_value j j) as Leaf by (intros j H; apply sv_leaf; intros l ->; exact H).
  apply sv_obj with [(str "params", JObj [(str "name", JStr (str "a/b")); (str "scratch", JBool true)]); (str "id", JInt 1); (str "method", JStr (str "edit")); (str "jsonrpc", JStr (str "2.0"))].
  - apply keys_nodup. vm_compute. reflexivity.
  - unfold plain_members. generalize (str "jsonrpc", JStr (str "2.0")) (str "id", JInt 1) (str "method", JStr (str "edit")). generalize (str "params", JObj [(str "name", JStr (str "a/b")); (str "scratch", JBool true)]).
    intros a b c d. apply (Permutation_trans (l' := [a; b; c; d])); [apply Permutation_sym; apply (Permutation_app_comm [a] [b; c; d])|]. apply perm_skip. apply (Permutation_app_comm [b] [c; d]).
  - repeat (apply Forall2_cons; [split; [reflexivity|cbn [snd]]|]); [|apply Leaf; exact Logic.I|apply Leaf; exact Logic.I|apply Leaf; exact Logic.I|apply Forall2_nil].
    apply sv_obj with [(str "scratch", JBool true); (str "name", JStr (str "a/b"))]; [apply keys_nodup; vm_compute; reflexivity|apply perm_swap|].
    repeat (apply Forall2_cons; [split; [reflexivity|cbn [snd]; apply Leaf; exact Logic.I]|]). apply Forall2_nil.
Qed.
(** escapes beyond ASCII: U+00E9, U+0800, U+1F600 by a surrogate pair; half a pair is no string; 01 and a bare word are no values *)
Example C84_escapes :
  map parse [str """\u00e9"""; str """\u0800"""; str """\ud83d\uDE00"""; str """\ud83d"""; str "01"; str "nul"; str "-0"; str "[1,]"] =
  [Some (JStr [195; 169]); Some (JStr [224; 160; 128]); Some (JStr [240; 159; 152; 128]); None; None; None; Some (JFloat (str "-0")); None].
Proof. vm_compute. reflexivity. Qed.
Example C84_twice_demo : exists line a b c x y, line_spells line (JObj (a ++ (str "id", x) :: b ++ (str "id", y) :: c)).
Proof.
  exists (str "{""id"":1,""method"":""quit"",""id"":2,""jsonrpc"":""2.0""}"), [], [(str "method", JStr (str "quit"))], [(str "jsonrpc", JStr (str "2.0"))], (JInt 1), (JInt 2).
  match goal with |- line_spells ?l ?j => assert (parse l = Some j) as P by (vm_compute; reflexivity); apply C84_exact in P; exact (proj1 P) end.
Qed.
(** a line with a member the protocol does not know *)
Example C84_extra_demo : exists line, line_spells line (JObj (plain_members ++ [(str "trace", JNull)])) /\ nested 127 (JObj (plain_members ++ [(str "trace", JNull)])) /\
  (forall n, In n [str "jsonrpc"; str "id"; str "method"; str "params"] -> ~ In n (map fst [(str "trace", JNull)])).
Proof.
  exists (str "{""jsonrpc"":""2.0"",""id"":1,""method"":""edit"",""params"":{""name"":""a/b"",""scratch"":true},""trace"":null}").
  match goal with |- line_spells ?l ?j /\ _ => assert (parse l = Some j) as P by (vm_compute; reflexivity); apply C84_exact in P; destruct P as [P D] end.
  split; [exact P|]. split; [exact D|]. intros n H [I|[]]. cbn [fst] in I. subst n. repeat (destruct H as [H|H]; [vm_compute in H; discriminate|]). destruct H.
Qed.
Print Assumptions C84_handled.
Print Assumptions C84_utf8.
