(** Decoding what was encoded. *)
From Coq Require Import String List Arith ZArith Lia Bool Sorting.Sorted.
From Verif Require Import Base ListFacts Maps Fmt View ViewSpec ViewFacts Utf8 Utf8Spec Utf8Facts Json JsonFacts Proto.
Import ListNotations.

(** ** values *)
(** the members of the objects are sorted by name *)
Fixpoint value_ok (j : json) : Prop :=
  match j with
  | JArr l => fold_right (fun j p => value_ok j /\ p) True l
  | JObj l => StronglySorted text_lt (map fst l) /\ fold_right (fun e p => value_ok (snd e) /\ p) True l
  | _ => True
  end.
Lemma text_lt_trans_cmp a b c : text_lt a b -> text_lt b c -> text_lt a c.
Proof. apply text_lt_trans. Qed.
Lemma put_last k v l : Forall (fun e => text_lt (fst e) k) l -> put k v l = l ++ [(k, v)].
Proof.
  induction 1 as [|[n x] l H F IH]; cbn [put app]; auto. cbn [fst] in H. apply text_cmp_gt in H. now rewrite H, IH.
Qed.
Lemma put_all l : forall m, StronglySorted text_lt (map fst (m ++ l)) -> fold_left (fun m e => put (fst e) (snd e) m) l m = m ++ l.
Proof.
  induction l as [|[k v] l IH]; intros m S; cbn [fold_left fst snd]; [now rewrite app_nil_r|]. rewrite put_last.
  - rewrite IH; rewrite <- app_assoc; auto.
  - clear IH. induction m as [|[n x] m IHm]; constructor.
    + cbn [app map fst] in S. inversion S as [|? ? S' F]; subst. rewrite map_app in F. apply Forall_app in F. destruct F as [_ F]. now inversion F.
    + apply IHm. cbn [app map fst] in S. now inversion S.
Qed.
Lemma norm_value j : value_ok j -> norm j = j.
Proof.
  induction j as [| | | | |l F|l F] using json_ind'; cbn [value_ok norm]; auto; intro H.
  - f_equal. induction F as [|x l Hx F IH]; cbn [map fold_right] in *; auto. destruct H. f_equal; auto.
  - destruct H as [S H]. f_equal. replace (map (fun e => (fst e, norm (snd e))) l) with l; [now rewrite (put_all l [])|].
    clear S. induction F as [|[k x] l Hx F IH]; cbn [map fold_right fst snd] in *; auto. destruct H. f_equal; auto. rewrite Hx; auto.
Qed.

(** [norm] makes a value *)
Lemma put_keys k v l n : In n (map fst (put k v l)) -> n = k \/ In n (map fst l).
Proof.
  induction l as [|[m x] l IH]; cbn [put map fst In]; [intuition|]. destruct (text_cmp k m) eqn:E; cbn [map fst In]; try apply text_cmp_eq in E; subst; intuition.
Qed.
Lemma put_sorted k v l : StronglySorted text_lt (map fst l) -> StronglySorted text_lt (map fst (put k v l)).
Proof.
  induction l as [|[m x] l IH]; intro S; cbn [put map fst] in *; [repeat constructor|]. inversion S as [|? ? S' F]; subst. rewrite Forall_forall in F.
  destruct (text_cmp k m) eqn:E; cbn [map fst].
  - apply text_cmp_eq in E. subst. constructor; auto. now apply Forall_forall.
  - apply text_cmp_lt in E. constructor; auto. constructor; auto. apply Forall_forall. intros n Hn. eapply text_lt_trans; eauto.
  - apply text_cmp_gt in E. constructor; auto. apply Forall_forall. intros n Hn. apply put_keys in Hn. destruct Hn as [->|Hn]; auto.
Qed.
Lemma put_forall (P : json -> Prop) k v l : P v -> Forall (fun e => P (snd e)) l -> Forall (fun e => P (snd e)) (put k v l).
Proof.
  intros Pv. induction 1 as [|[m x] l H F IH]; cbn [put]; [constructor; auto|]. destruct (text_cmp k m); constructor; auto.
Qed.
Lemma puts_forall (P : json -> Prop) l : Forall (fun e => P (snd e)) l -> forall m, Forall (fun e => P (snd e)) m ->
  Forall (fun e => P (snd e)) (fold_left (fun m e => put (fst e) (snd e) m) l m).
Proof. induction 1 as [|[k v] l H F IH]; intros m M; cbn [fold_left]; auto. apply IH. now apply put_forall. Qed.
Lemma puts_sorted l : forall m, StronglySorted text_lt (map fst m) -> StronglySorted text_lt (map fst (fold_left (fun m e => put (fst e) (snd e) m) l m)).
Proof. induction l as [|[k v] l IH]; intros m M; cbn [fold_left]; auto. apply IH. now apply put_sorted. Qed.
Lemma folded_forall {A} (P : A -> Prop) l : fold_right (fun x p => P x /\ p) True l <-> Forall P l.
Proof. induction l as [|x l IH]; cbn [fold_right]; split; intro H; auto; [destruct H; constructor; tauto|inversion H; subst; tauto]. Qed.
Lemma norm_ok j : value_ok (norm j).
Proof.
  induction j as [| | | | |l F|l F] using json_ind'; cbn [value_ok norm]; auto.
  - apply folded_forall. apply Forall_map. exact F.
  - split; [apply puts_sorted; constructor|]. apply (folded_forall (fun e : text * json => value_ok (snd e))). apply puts_forall; auto. apply Forall_map. exact F.
Qed.
Lemma norm_plain j : plain_json j -> plain_json (norm j).
Proof.
  induction j as [| | | | |l F|l F] using json_ind'; cbn [plain_json norm]; auto; intro H.
  - apply folded_forall in H. apply folded_forall. apply Forall_map. rewrite Forall_forall in *. auto.
  - apply (folded_forall (fun e : text * json => plain_json (snd e))) in H. apply (folded_forall (fun e : text * json => plain_json (snd e))). apply puts_forall; auto. apply Forall_map. rewrite Forall_forall in *. intros x Hx. cbn [snd]. auto.
Qed.
Lemma list_max_map_le {A} (f : A -> nat) l n : list_max (map f l) <= n <-> Forall (fun x => f x <= n) l.
Proof. rewrite list_max_le. rewrite Forall_map. reflexivity. Qed.
Lemma norm_levels j : levels (norm j) <= levels j.
Proof.
  induction j as [| | | | |l F|l F] using json_ind'; cbn [levels norm]; auto.
  - apply le_n_S. apply list_max_map_le. apply Forall_map. pose proof (proj1 (list_max_map_le levels l _) (le_n _)) as M. rewrite Forall_forall in *. intros x Hx. specialize (F _ Hx). specialize (M _ Hx). cbn beta in *. lia.
  - apply le_n_S. apply list_max_map_le. apply (puts_forall (fun j => levels j <= _)); auto. apply Forall_map. pose proof (proj1 (list_max_map_le (fun e : text * json => levels (snd e)) l _) (le_n _)) as M.
    rewrite Forall_forall in *. intros x Hx. specialize (F _ Hx). specialize (M _ Hx). cbn [snd] in *. lia.
Qed.

(** what a [serde_json::Value] can be, without floats, and less than 127 levels deep *)
Definition wire_value (j : json) : Prop := value_ok j /\ plain_json j /\ levels j < 127.
Definition wire_params (p : option json) : Prop := match p with Some j => wire_value j | None => True end.
(** null and absent are the same *)
Definition no_null (p : option json) : option json := match p with Some JNull => None | _ => p end.
Lemma opt_value_wire p : wire_params p -> opt_value p = no_null p.
Proof. destruct p as [j|]; auto. intros (V & _). unfold opt_value, no_null. rewrite (norm_value _ V). now destruct j. Qed.

Definition wire_id (i : id) : Prop := match i with IdNum z => i32_ok z = true | _ => True end.
Lemma dec_enc_id i : wire_id i -> dec_id (enc_id i) = Some i.
Proof. destruct i as [z|s|]; cbn [wire_id enc_id]; auto. intro H. unfold dec_id, dec_i32. now rewrite H. Qed.
Lemma i32_plain z : i32_ok z = true -> (i64_min <= z <= u64_max)%Z.
Proof. unfold i32_ok, i64_min, u64_max. rewrite andb_true_iff, !Z.leb_le. lia. Qed.
Lemma enc_id_plain i : wire_id i -> plain_json (enc_id i) /\ levels (enc_id i) = 0.
Proof. destruct i; cbn; auto using i32_plain. Qed.

Definition wire_request (r : request) : Prop := wire_id (rq_id r) /\ wire_params (rq_params r).
Definition wire_notification (n : notification) : Prop := wire_params (nt_params n).
Definition wire_error (e : error) : Prop := i32_ok (er_code e) = true /\
  match er_data e with Some j => value_ok j /\ plain_json j /\ levels j < 126 | None => True end.
Definition wire_response (r : response) : Prop := wire_id (rp_id r) /\ wire_params (rp_result r) /\ match rp_error r with Some e => wire_error e | None => True end.

Lemma dec_enc_request r : wire_request r -> dec_request (enc_request r) = Some (mkReq (rq_version r) (rq_id r) (rq_method r) (no_null (rq_params r))).
Proof.
  destruct r as [v i m p]. intros [I P]. cbn [rq_id rq_params rq_version rq_method] in *. rewrite <- (opt_value_wire p P). pose proof (dec_enc_id i I) as D. unfold enc_request, dec_request. cbn [rq_id rq_params rq_version rq_method].
  set (e := enc_id i) in *. replace (fields _ _) with (Some [Some (JStr v); Some e; Some (JStr m); p]) by (destruct p; reflexivity). cbn [dec_str]. now rewrite D.
Qed.
Lemma dec_enc_notification n : wire_notification n -> dec_notification (enc_notification n) = Some (mkNot (nt_version n) (nt_method n) (no_null (nt_params n))).
Proof.
  destruct n as [v m p]. intros P. unfold wire_notification in P. cbn [nt_params nt_version nt_method] in *. rewrite <- (opt_value_wire p P). unfold enc_notification, dec_notification. cbn [nt_params nt_version nt_method].
  replace (fields _ _) with (Some [Some (JStr v); Some (JStr m); p]) by (destruct p; reflexivity). reflexivity.
Qed.
Lemma dec_enc_error e : wire_error e -> dec_error (enc_error e) = Some (mkErr (er_code e) (er_message e) (no_null (er_data e))).
Proof.
  destruct e as [c m d]. intros [C D]. cbn [er_code er_message er_data] in *. unfold enc_error, dec_error. cbn [er_code er_message er_data]. 
  replace (fields _ _) with (Some [Some (JInt c); Some (JStr m); Some (match d with Some j => j | None => JNull end)]) by reflexivity. unfold dec_i32. rewrite C. cbn [dec_str]. do 2 f_equal.
  destruct d as [j|]; auto. destruct D as (V & _). unfold opt_value, no_null. rewrite (norm_value _ V). now destruct j.
Qed.
Lemma enc_error_obj e : exists l, enc_error e = JObj l.
Proof. unfold enc_error. eauto. Qed.
Definition no_null_error (e : error) : error := mkErr (er_code e) (er_message e) (no_null (er_data e)).
Lemma dec_enc_response r : wire_response r ->
  dec_response (enc_response r) = Some (mkResp (rp_version r) (rp_id r) (no_null (rp_result r)) (option_map no_null_error (rp_error r))).
Proof.
  destruct r as [v i p e]. intros (I & P & E). cbn [rp_version rp_id rp_result rp_error] in *. rewrite <- (opt_value_wire p P). pose proof (dec_enc_id i I) as D.
  unfold enc_response, dec_response. cbn [rp_version rp_id rp_result rp_error].
  assert (opt_error (option_map enc_error e) = Some (option_map no_null_error e)) as Ee.
  { destruct e as [e|]; cbn [option_map]; auto. destruct (enc_error_obj e) as (l & El). rewrite El. unfold opt_error. rewrite <- El, dec_enc_error by exact E. reflexivity. }
  set (ei := enc_id i) in *. set (ee := option_map enc_error e) in *. replace (fields _ _) with (Some [Some (JStr v); Some ei; p; ee]) by (destruct p, ee; reflexivity).
  cbn [dec_str]. now rewrite D, Ee.
Qed.
(** a response is not a notification *)
Lemma response_not_notification r : dec_notification (enc_response r) = None.
Proof.
  destruct r as [v i p e]. unfold enc_response, dec_notification. cbn [rp_version rp_id rp_result rp_error]. destruct p as [j|], e as [e|]; cbn [opt_member app option_map]; reflexivity.
Qed.

(** ** on the wire *)
Lemma plain_cons k v l : plain_json v -> plain_json (JObj l) -> plain_json (JObj ((k, v) :: l)).
Proof. cbn [plain_json fold_right snd]. auto. Qed.
Lemma levels_cons k v l : levels (JObj ((k, v) :: l)) = S (Nat.max (levels v) (pred (levels (JObj l)))).
Proof. cbn [levels map list_max snd pred]. reflexivity. Qed.
Lemma opt_member_plain n p : wire_params p -> plain_json (JObj (opt_member n p)) /\ levels (JObj (opt_member n p)) < 128.
Proof. destruct p as [j|]; cbn [opt_member]; [intros (_ & P & L)|]; split; cbn; auto; try lia. Qed.
Lemma request_wire r : wire_request r -> plain_json (enc_request r) /\ levels (enc_request r) < 128.
Proof.
  intros [I P]. destruct (enc_id_plain _ I) as [A B]. destruct (opt_member_plain (str "params") _ P) as [C D]. unfold enc_request. cbn [app]. split.
  - repeat apply plain_cons; auto; try exact Logic.I.
  - rewrite !levels_cons, B. cbn [levels] in *. lia.
Qed.
Lemma notification_wire n : wire_notification n -> plain_json (enc_notification n) /\ levels (enc_notification n) < 128.
Proof.
  intros P. destruct (opt_member_plain (str "params") _ P) as [C D]. unfold enc_notification. cbn [app]. split.
  - repeat apply plain_cons; auto; try exact Logic.I.
  - rewrite !levels_cons. cbn [levels] in *. lia.
Qed.
Lemma error_wire e : wire_error e -> plain_json (enc_error e) /\ levels (enc_error e) < 127.
Proof.
  intros [C D]. unfold enc_error. destruct (er_data e) as [j|]; split.
  - repeat apply plain_cons; try exact Logic.I; [now apply i32_plain|apply D].
  - destruct D as (_ & _ & D). rewrite !levels_cons. cbn [levels map list_max fold_right pred] in *. lia.
  - repeat apply plain_cons; try exact Logic.I. now apply i32_plain.
  - rewrite !levels_cons. cbn [levels map list_max fold_right pred]. lia.
Qed.
Lemma response_wire r : wire_response r -> plain_json (enc_response r) /\ levels (enc_response r) < 128.
Proof.
  intros (I & P & E). destruct (enc_id_plain _ I) as [A B]. unfold enc_response. cbn [app].
  assert (plain_json (JObj (opt_member (str "error") (option_map enc_error (rp_error r)))) /\ levels (JObj (opt_member (str "error") (option_map enc_error (rp_error r)))) < 128) as [C D].
  { destruct (rp_error r) as [e|]; cbn [option_map opt_member]; [|split; [exact Logic.I|cbn; lia]]. destruct (error_wire _ E). split; [apply plain_cons; auto; try exact Logic.I|rewrite levels_cons; cbn [levels map list_max fold_right pred] in *; lia]. }
  destruct (rp_result r) as [j|] eqn:Ej; cbn [opt_member app].
  - destruct P as (_ & P1 & P2). split; [repeat apply plain_cons; auto; try exact Logic.I|]. rewrite !levels_cons, B. cbn [levels] in *. lia.
  - split; [repeat apply plain_cons; auto; try exact Logic.I|]. rewrite !levels_cons, B. cbn [levels] in *. lia.
Qed.

(** ** no control characters *)
Lemma escape_visible b c : In c (escape b) -> 32 <= c.
Proof.
  destruct (escape_cases b) as [(-> & H & _)|(e & E & _)].
  - intros [<-|[]]. exact H.
  - clear e E. unfold escape, hex_digit. repeat match goal with |- In _ (if ?x then _ else _) -> _ => destruct x eqn:? end; intro X; repeat (destruct X as [<-|X]; [try lia|]); try contradiction.
    all: repeat match goal with |- context [if ?x then _ else _] => destruct x end; try lia. match goal with H : (b <? 32) = false |- _ => now apply Nat.ltb_ge in H end.
Qed.
Lemma print_str_visible s c : In c (print_str s) -> 32 <= c.
Proof.
  unfold print_str. intros [<-|H]; [lia|]. apply in_app_or in H. destruct H as [H|[<-|[]]]; [|lia]. apply in_flat_map in H. destruct H as (b & _ & H). eapply escape_visible; eauto.
Qed.
Lemma commas_in l c : In c (commas l) -> c = 44 \/ exists x, In x l /\ In c x.
Proof.
  induction l as [|x [|y l] IH]; cbn [commas]; [intros []|eauto using in_eq|]. intro H. apply in_app_or in H. destruct H as [H|[<-|H]]; eauto using in_eq.
  destruct (IH H) as [->|(z & Hz & Hc)]; auto. right. exists z. split; auto. now right.
Qed.
Lemma print_visible j : plain_json j -> forall c, In c (print j) -> 32 <= c.
Proof.
  induction j as [|[|]|z|x|s|l F|l F] using json_ind'; cbn [print]; intros P c H.
  - repeat (destruct H as [<-|H]; [lia|]). destruct H.
  - repeat (destruct H as [<-|H]; [lia|]). destruct H.
  - repeat (destruct H as [<-|H]; [lia|]). destruct H.
  - unfold print_int in H. assert (forall n, In c (dec n) -> 32 <= c) as D.
    { intros n Hn. pose proof (dec_digits n) as Dn. rewrite Forall_forall in Dn. apply Dn in Hn. unfold digit in Hn. apply andb_prop in Hn. rewrite !Nat.leb_le in Hn. lia. }
    destruct (z <? 0)%Z; [destruct H as [<-|H]; [lia|]|]; eauto.
  - contradiction.
  - now apply print_str_visible in H.
  - destruct H as [<-|H]; [lia|]. apply in_app_or in H. destruct H as [H|[<-|[]]]; [|lia]. apply commas_in in H. destruct H as [->|(x & Hx & Hc)]; [lia|].
    apply in_map_iff in Hx. destruct Hx as (y & <- & Hy). rewrite Forall_forall in F. eapply F; eauto. now apply (plain_arr _ P).
  - destruct H as [<-|H]; [lia|]. apply in_app_or in H. destruct H as [H|[<-|[]]]; [|lia]. apply commas_in in H. destruct H as [->|(x & Hx & Hc)]; [lia|].
    apply in_map_iff in Hx. destruct Hx as (y & <- & Hy). apply in_app_or in Hc. destruct Hc as [Hc|[<-|Hc]]; [now apply print_str_visible in Hc|lia|].
    rewrite Forall_forall in F. eapply F; eauto. now apply (plain_obj _ P).
Qed.
