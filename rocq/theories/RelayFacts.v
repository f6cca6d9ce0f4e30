(** What is read can be printed and read again. *)
From Coq Require Import String List Arith ZArith Lia Bool.
From Verif Require Import Base ListFacts Maps Fmt View ViewSpec ViewFacts Utf8 Json JsonFacts Proto ProtoFacts PropProto.
Import ListNotations.

(** no floating-point number *)
Fixpoint no_floats (j : json) : Prop :=
  match j with
  | JFloat _ => False
  | JArr l => fold_right (fun j p => no_floats j /\ p) True l
  | JObj l => fold_right (fun e p => no_floats (snd e) /\ p) True l
  | _ => True
  end.
(** integers of 64 bits *)
Fixpoint ranged (j : json) : Prop :=
  match j with
  | JInt z => (i64_min <= z <= u64_max)%Z
  | JArr l => fold_right (fun j p => ranged j /\ p) True l
  | JObj l => fold_right (fun e p => ranged (snd e) /\ p) True l
  | _ => True
  end.
Lemma ranged_plain j : ranged j -> no_floats j -> plain_json j.
Proof.
  induction j as [| | | | |l F|l F] using json_ind'; cbn [ranged no_floats plain_json]; auto; intros H N.
  - apply folded_forall in H, N. apply folded_forall. rewrite Forall_forall in *. auto.
  - apply (folded_forall (fun e : text * json => ranged (snd e))) in H. apply (folded_forall (fun e : text * json => no_floats (snd e))) in N. apply (folded_forall (fun e : text * json => plain_json (snd e))). rewrite Forall_forall in *. auto.
Qed.
Lemma norm_ranged j : ranged j -> ranged (norm j).
Proof.
  induction j as [| | | | |l F|l F] using json_ind'; cbn [ranged norm]; auto; intro H.
  - apply folded_forall in H. apply folded_forall. apply Forall_map. rewrite Forall_forall in *. auto.
  - apply (folded_forall (fun e : text * json => ranged (snd e))) in H. apply (folded_forall (fun e : text * json => ranged (snd e))). apply puts_forall; auto. apply Forall_map. rewrite Forall_forall in *. intros x Hx. cbn [snd]. auto.
Qed.

(** ** what is read is not too deep, and its integers have 64 bits *)
Definition fine (d : nat) (j : json) : Prop := levels j < d /\ ranged j.
Lemma fine_arr d l : Forall (fine (S d)) l -> fine (S (S d)) (JArr l).
Proof.
  intro F. split.
  - cbn [levels]. apply -> Nat.succ_lt_mono. apply Nat.lt_succ_r. apply list_max_map_le. eapply Forall_impl; [|exact F]. intros j [H _]. lia.
  - cbn [ranged]. apply folded_forall. eapply Forall_impl; [|exact F]. now intros j [_ H].
Qed.
Lemma fine_obj d l : Forall (fun e => fine (S d) (snd e)) l -> fine (S (S d)) (JObj l).
Proof.
  intro F. split.
  - cbn [levels]. apply -> Nat.succ_lt_mono. apply Nat.lt_succ_r. apply (list_max_map_le (fun e : text * json => levels (snd e))). eapply Forall_impl; [|exact F]. intros j [H _]. lia.
  - cbn [ranged]. apply (folded_forall (fun e : text * json => ranged (snd e))). eapply Forall_impl; [|exact F]. now intros j [_ H].
Qed.
Lemma read_num_fine neg s j r : read_num neg s = Some (j, r) -> levels j = 0 /\ ranged j.
Proof.
  unfold read_num. destruct (take_while digit s) as [|b l]; [discriminate|]. destruct (_ && _); [discriminate|]. destruct (read_frac _) as [[fr r1]|]; [|discriminate]. destruct (read_exp r1) as [[ex r2]|]; [|discriminate]. intro H. injection H as <- _.
  set (c := _ && negb _). destruct c eqn:C; [|split; cbn; auto]. split; [reflexivity|]. subst c. cbn [ranged]. rewrite !andb_true_iff, !Z.leb_le in C. tauto.
Qed.
Lemma read_fine f :
  (forall d s j r, 0 < d -> read f d s = Some (j, r) -> fine d j) /\
  (forall d s l r, 0 < d -> read_list f d s = Some (l, r) -> Forall (fine d) l) /\
  (forall d s l r, 0 < d -> read_members f d s = Some (l, r) -> Forall (fun e => fine d (snd e)) l).
Proof.
  induction f as [|f (IH1 & IH2 & IH3)]; [repeat split; discriminate|]. assert (forall d l x s j r, 0 < d -> levels x = 0 -> ranged x -> literal l x s = Some (j, r) -> fine d j) as Lit.
  { intros d l x s j r D Lx Rx H. unfold literal in H. destruct (after_all l s); [|discriminate]. injection H as <- _. split; [lia|exact Rx]. }
  refine (conj _ (conj _ _)); intros d s l r D H.
  - cbn [read] in H. destruct (skip_ws s) as [|b q]; [discriminate|]. destruct (b =? 110); [refine (Lit d _ _ _ _ _ D _ _ H); [reflexivity|exact Logic.I]|]. destruct (b =? 116); [refine (Lit d _ _ _ _ _ D _ _ H); [reflexivity|exact Logic.I]|]. destruct (b =? 102); [refine (Lit d _ _ _ _ _ D _ _ H); [reflexivity|exact Logic.I]|].
    destruct (b =? 34). { destruct (read_str _ q) as [[x q']|]; [|discriminate]. injection H as <- _. split; [exact D|exact Logic.I]. }
    destruct (b =? 91). { destruct d as [|[|d]]; try discriminate. destruct (after 93 _); [injection H as <- _; apply fine_arr; constructor|]. destruct (read_list f (S d) q) as [[l' q']|] eqn:E; [|discriminate]. injection H as <- _. apply fine_arr. eapply IH2; [|exact E]. lia. }
    destruct (b =? 123). { destruct d as [|[|d]]; try discriminate. destruct (after 125 _); [injection H as <- _; apply fine_obj; constructor|]. destruct (read_members f (S d) q) as [[l' q']|] eqn:E; [|discriminate]. injection H as <- _. apply fine_obj. eapply IH3; [|exact E]. lia. }
    destruct (b =? 45); apply read_num_fine in H; destruct H as [L R]; split; auto; lia.
  - cbn [read_list] in H. destruct (read f d s) as [[x q]|] eqn:E; [|discriminate]. apply IH1 in E; [|exact D]. destruct (after 93 _); [injection H as <- _; auto|]. destruct (after 44 _) as [q0|]; [|discriminate]. destruct (read_list f d q0) as [[l' q']|] eqn:E2; [|discriminate]. injection H as <- _. constructor; [exact E|]. eapply IH2; eauto.
  - cbn [read_members] in H. destruct (after 34 _) as [q0|]; [|discriminate]. destruct (read_str _ q0) as [[k q]|]; [|discriminate]. destruct (after 58 _) as [q1|]; [|discriminate]. destruct (read f d q1) as [[x q2]|] eqn:E; [|discriminate]. apply IH1 in E; [|exact D]. destruct (after 125 _); [injection H as <- _; auto|]. destruct (after 44 _) as [q3|]; [|discriminate]. destruct (read_members f d q3) as [[l' q']|] eqn:E2; [|discriminate]. injection H as <- _. constructor; [exact E|]. eapply IH3; eauto.
Qed.
Lemma parse_fine line j : parse line = Some j -> fine 128 j.
Proof. unfold parse. destruct (read _ 128 line) as [[j' r]|] eqn:E; [|discriminate]. destruct (skip_ws r); [|discriminate]. intro H. injection H as <-. eapply (proj1 (read_fine _)); [|exact E]. lia. Qed.
(** the fields of a structure *)
Lemma fine_member d l n j : fine (S d) (JObj l) -> the_field l n = Some (Some j) -> fine d j.
Proof.
  intros [L R] H. unfold the_field in H. destruct (filter _ l) as [|e [|? ?]] eqn:F; try discriminate. injection H as <-. assert (In e l) as I. { assert (In e (filter (fun e => eqb n (fst e)) l)) as I by (rewrite F; now left). apply filter_In in I. apply I. }
  split.
  - cbn [levels] in L. assert (list_max (map (fun e => levels (snd e)) l) < d) as M by lia. assert (levels (snd e) <= list_max (map (fun e => levels (snd e)) l)); [|lia]. pose proof (proj1 (list_max_map_le (fun e : text * json => levels (snd e)) l _) (le_n _)) as G. rewrite Forall_forall in G. now apply G.
  - cbn [ranged] in R. apply (folded_forall (fun e : text * json => ranged (snd e))) in R. rewrite Forall_forall in R. now apply R.
Qed.
Lemma fine_elements d l : fine (S d) (JArr l) -> Forall (fine d) l.
Proof.
  intros [L R]. cbn [levels ranged] in *. apply folded_forall in R. pose proof (proj1 (list_max_map_le levels l _) (le_n _)) as G. rewrite Forall_forall in *. intros j I. split; [specialize (G _ I); cbn beta in G; lia|auto].
Qed.
Lemma fields_fine d names j os : fine (S d) j -> fields names j = Some os -> Forall (fun o => match o with Some x => fine d x | None => True end) os.
Proof.
  intros F H. destruct j as [| | | | |l|l]; try discriminate; cbn [fields] in H.
  - destruct (_ =? _); [|discriminate]. injection H as <-. apply Forall_map. now apply fine_elements.
  - revert os H. induction names as [|n names IH]; intros os H; cbn [all_fields] in H; [injection H as <-; constructor|]. destruct (the_field l n) as [x|] eqn:T; [|discriminate]. destruct (all_fields l names) as [y|]; [|discriminate]. injection H as <-. constructor; [|now apply IH]. destruct x; [|exact Logic.I]. eapply fine_member; eauto.
Qed.

(** ** requests and events *)
Definition no_floats_opt (o : option json) : Prop := match o with Some j => no_floats j | None => True end.
Lemma opt_value_fine d o : match o with Some x => fine d x | None => True end -> no_floats_opt (opt_value o) ->
  match opt_value o with Some j => value_ok j /\ plain_json j /\ levels j < d | None => True end.
Proof.
  intros F N. destruct o as [j|]; [|exact Logic.I]. destruct F as [L R]. destruct j; try exact Logic.I; cbn [opt_value no_floats_opt] in *;
    (split; [apply norm_ok|]; split; [apply ranged_plain; [now apply norm_ranged|exact N]|]; eapply Nat.le_lt_trans; [apply norm_levels|exact L]).
Qed.
Lemma opt_value_no_null o : no_null (opt_value o) = opt_value o.
Proof. destruct o as [[]|]; try reflexivity. Qed.
Lemma dec_id_wire j i : dec_id j = Some i -> wire_id i.
Proof. unfold dec_id, dec_i32. destruct j; try discriminate; try (intro H; injection H as <-; exact Logic.I). destruct (i32_ok z) eqn:E; [|discriminate]. intro H. injection H as <-. exact E. Qed.
Lemma parsed_request line q : parse_request line = Some q -> no_floats_opt (rq_params q) -> wire_request q /\ no_null (rq_params q) = rq_params q.
Proof.
  unfold parse_request. destruct (parse line) as [j|] eqn:P; [|discriminate]. apply parse_fine in P. unfold dec_request. destruct (fields _ j) as [os|] eqn:F; [|discriminate]. apply (fields_fine 127 _ _ _ P) in F.
  destruct os as [|[v|] [|[i|] [|[m|] [|p [|]]]]]; try discriminate. destruct (dec_str v); [|discriminate]. destruct (dec_id i) as [i'|] eqn:I; [|discriminate]. destruct (dec_str m); [|discriminate]. intros H N. injection H as <-. cbn [rq_params rq_id] in *.
  inversion F as [|? ? _ F1]; subst. inversion F1 as [|? ? _ F2]; subst. inversion F2 as [|? ? _ F3]; subst. inversion F3 as [|? ? F4 _]; subst. split; [split; [eapply dec_id_wire; eauto|]|apply opt_value_no_null].
  apply (opt_value_fine 127 _ F4 N).
Qed.
Lemma parsed_request_eta q : no_null (rq_params q) = rq_params q -> mkReq (rq_version q) (rq_id q) (rq_method q) (no_null (rq_params q)) = q.
Proof. intros ->. now destruct q. Qed.
Definition event_floats (e : event) : Prop :=
  match e with
  | EvNotification n => no_floats_opt (nt_params n)
  | EvResponse r => no_floats_opt (rp_result r) /\ match rp_error r with Some e => no_floats_opt (er_data e) | None => True end
  end.
Lemma dec_error_fine j e : fine 127 j -> dec_error j = Some e -> no_floats_opt (er_data e) -> wire_error e /\ no_null_error e = e.
Proof.
  intros P D N. unfold dec_error in D. destruct (fields _ j) as [os|] eqn:F; [|discriminate]. apply (fields_fine 126 _ _ _ P) in F. destruct os as [|[c|] [|[m|] [|d [|]]]]; try discriminate.
  destruct (dec_i32 c) as [c'|] eqn:C; [|discriminate]. destruct (dec_str m); [|discriminate]. injection D as <-. cbn [er_data] in N. inversion F as [|? ? _ F1]; subst. inversion F1 as [|? ? _ F2]; subst. inversion F2 as [|? ? F3 _]; subst. split; [split|].
  - unfold dec_i32 in C. destruct c; try discriminate. destruct (i32_ok z) eqn:E; [|discriminate]. injection C as <-. exact E.
  - apply (opt_value_fine 126 _ F3 N).
  - unfold no_null_error. cbn [er_code er_message er_data]. now rewrite opt_value_no_null.
Qed.
Lemma parsed_event line e : parse_event line = Some e -> event_floats e -> parse_event (print_event e) = Some e.
Proof.
  unfold parse_event at 1. destruct (parse line) as [j|] eqn:P; [|discriminate]. apply parse_fine in P. unfold dec_event. destruct (dec_notification j) as [n|] eqn:D.
  - intros H N. injection H as <-. cbn [event_floats] in N. unfold dec_notification in D. destruct (fields _ j) as [os|] eqn:F; [|discriminate]. apply (fields_fine 127 _ _ _ P) in F.
    destruct os as [|[v|] [|[m|] [|p [|]]]]; try discriminate. destruct (dec_str v); [|discriminate]. destruct (dec_str m); [|discriminate]. injection D as <-. cbn [nt_params] in N.
    inversion F as [|? ? _ F1]; subst. inversion F1 as [|? ? _ F2]; subst. inversion F2 as [|? ? F3 _]; subst. pose proof (opt_value_fine 127 _ F3 N) as W.
    rewrite C38_notification by exact W. cbn [nt_version nt_method nt_params]. now rewrite opt_value_no_null.
  - clear D. destruct (dec_response j) as [r|] eqn:D; [|discriminate]. intros H N. injection H as <-. cbn [event_floats] in N. unfold dec_response in D. destruct (fields _ j) as [os|] eqn:F; [|discriminate]. apply (fields_fine 127 _ _ _ P) in F.
    destruct os as [|[v|] [|[i|] [|p [|x [|]]]]]; try discriminate. destruct (dec_str v); [|discriminate]. destruct (dec_id i) as [i'|] eqn:I; [|discriminate]. destruct (opt_error x) as [x'|] eqn:X; [|discriminate]. injection D as <-. cbn [rp_result rp_error] in N.
    inversion F as [|? ? _ F1]; subst. inversion F1 as [|? ? _ F2]; subst. inversion F2 as [|? ? F3 F4]; subst. inversion F4 as [|? ? F5 _]; subst. destruct N as [N1 N2]. pose proof (opt_value_fine 127 _ F3 N1) as W.
    assert (match x' with Some e => wire_error e /\ no_null_error e = e | None => True end) as We.
    { destruct x as [j'|]; [|injection X as <-; exact Logic.I]. unfold opt_error in X. destruct (dec_error j') as [e|] eqn:De; [|destruct j'; try discriminate; injection X as <-; exact Logic.I].
      assert (x' = None \/ x' = Some e) as [->| ->] by (destruct j'; injection X as <-; auto); [exact Logic.I|]. eapply dec_error_fine; eauto. }
    rewrite response_event.
    + cbn [rp_version rp_id rp_result rp_error]. rewrite opt_value_no_null. destruct x' as [e|]; [|reflexivity]. cbn [option_map]. destruct We as [_ ->]. reflexivity.
    + split; [eapply dec_id_wire; eauto|]. split; [exact W|]. cbn [rp_error]. destruct x'; [apply We|exact Logic.I].
Qed.
