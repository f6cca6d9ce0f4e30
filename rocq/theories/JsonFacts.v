(** Reading what was printed. *)
From Coq Require Import List Arith ZArith Lia Bool.
From Verif Require Import Base ListFacts Fmt View ViewSpec ViewFacts Json.
Import ListNotations.

(** ** what the project prints: no floats, 64-bit integers, at most 127 levels *)
Fixpoint levels (j : json) : nat :=
  match j with
  | JArr l => S (list_max (map levels l))
  | JObj l => S (list_max (map (fun e => levels (snd e)) l))
  | _ => 0
  end.
Fixpoint plain_json (j : json) : Prop :=
  match j with
  | JInt z => (i64_min <= z <= u64_max)%Z
  | JFloat _ => False
  | JArr l => fold_right (fun j p => plain_json j /\ p) True l
  | JObj l => fold_right (fun e p => plain_json (snd e) /\ p) True l
  | _ => True
  end.
Lemma json_ind' (P : json -> Prop) :
  P JNull -> (forall b, P (JBool b)) -> (forall z, P (JInt z)) -> (forall x, P (JFloat x)) -> (forall s, P (JStr s)) ->
  (forall l, Forall P l -> P (JArr l)) -> (forall l, Forall (fun e => P (snd e)) l -> P (JObj l)) -> forall j, P j.
Proof.
  intros H1 H2 H3 H4 H5 H6 H7. fix IH 1. intros [|b|z|x|s|l|l]; [exact H1|apply H2|apply H3|apply H4|apply H5| |].
  - apply H6. induction l as [|j l F]; constructor; [apply IH|exact F].
  - apply H7. induction l as [|e l F]; constructor; [apply IH|exact F].
Qed.

(** ** strings *)
Lemma escape_nonempty b : 1 <= length (escape b).
Proof. unfold escape. repeat (match goal with |- context [if ?c then _ else _] => destruct c end; cbn [length]; try lia). Qed.
Lemma read_escape_low : forallb (fun b => match escape b with
    | 92 :: r => match read_escape (r ++ [1;2;3]) with Some ([c], [1;2;3]) => c =? b | _ => false end
    | _ => negb (b <? 32) && negb (b =? 34) && negb (b =? 92) end) (seq 0 128) = true.
Proof. vm_compute. reflexivity. Qed.
Lemma unhex4_app s n r q : unhex4 s = Some (n, r) -> unhex4 (s ++ q) = Some (n, r ++ q).
Proof.
  destruct s as [|a [|b [|c [|d s]]]]; cbn [unhex4 app]; try discriminate. destruct (unhex a), (unhex b), (unhex c), (unhex d); try discriminate.
  intro H. injection H as <- <-. reflexivity.
Qed.
Lemma escape_cases b : (escape b = [b] /\ 32 <= b /\ b <> 34 /\ b <> 92) \/
  exists e, escape b = 92 :: e /\ 1 <= length e /\ forall r, read_escape (e ++ r) = Some ([b], r).
Proof.
  destruct (le_lt_dec 128 b) as [H|H].
  - left. unfold escape. repeat match goal with |- context [b =? ?n] => replace (b =? n) with false by (symmetry; apply Nat.eqb_neq; lia) end.
    replace (b <? 32) with false by (symmetry; apply Nat.ltb_ge; lia). repeat split; lia.
  - assert (forall P : nat -> Prop, (forall n, n < 128 -> P n) -> P b) as HP by auto.
    do 128 (destruct b as [|b]; [first [left; repeat split; lia|right; eexists; split; [reflexivity|split; [cbn; lia|reflexivity]]]|]). lia.
Qed.
Lemma read_str_print s : forall fuel r, length s < fuel -> read_str fuel (flat_map escape s ++ 34 :: r) = Some (s, r).
Proof.
  induction s as [|b s IH]; intros [|f] r L; cbn [length] in L; try lia; cbn [flat_map app].
  - reflexivity.
  - rewrite <- app_assoc. destruct (escape_cases b) as [(-> & H1 & H2 & H3)|(e & -> & L1 & He)].
    + cbn [app read_str]. apply Nat.eqb_neq in H2, H3. rewrite H2, H3. replace (b <? 32) with false by (symmetry; apply Nat.ltb_ge; lia).
      rewrite IH by lia. reflexivity.
    + cbn [app read_str]. change (92 =? 34) with false. change (92 =? 92) with true. cbn iota. rewrite He, IH by lia. reflexivity.
Qed.
Lemma escape_total s : length s <= length (flat_map escape s).
Proof. induction s as [|b s IH]; cbn [flat_map length]; auto. rewrite app_length. pose proof (escape_nonempty b). lia. Qed.

(** ** numbers *)
Definition stop (r : text) : Prop := match r with [] => True | b :: _ => digit b = false /\ b <> 46 /\ b <> 101 /\ b <> 69 end.
Lemma take_digits ds r : Forall (fun b => digit b = true) ds -> stop r -> take_while digit (ds ++ r) = ds /\ drop_while digit (ds ++ r) = r.
Proof.
  intros F S. induction F as [|b ds Hb F [IH1 IH2]]; cbn [app].
  - destruct r as [|b r]; [split; reflexivity|]. destruct S as [S _]. cbn [take_while drop_while]. rewrite S. auto.
  - cbn [take_while drop_while]. rewrite Hb, IH1, IH2. auto.
Qed.
Lemma stop_frac r : stop r -> read_frac r = Some ([], r).
Proof.
  destruct r as [|b r]; auto. intros (_ & S & _). unfold read_frac. apply Nat.eqb_neq in S. now rewrite S.
Qed.
Lemma stop_exp r : stop r -> read_exp r = Some ([], r).
Proof.
  destruct r as [|b r]; auto. intros (_ & _ & S & S'). unfold read_exp. apply Nat.eqb_neq in S, S'. now rewrite S, S'.
Qed.
Lemma dec_lead n : match dec n with b :: _ :: _ => b <> 48 | _ => True end.
Proof.
  unfold dec. enough (forall f n, n < f -> match dec_fuel f n with b :: _ :: _ => b <> 48 | _ => True end /\ (0 < n -> match dec_fuel f n with b :: _ => b <> 48 | _ => True end)) as H by (apply H; lia).
  clear n. induction f as [|f IH]; intros n L; [lia|]. cbn [dec_fuel]. destruct (Nat.ltb_spec n 10).
  - split; auto. lia.
  - assert (0 < n / 10) as P by (apply Nat.div_str_pos; lia). assert (n / 10 < f) as Q by (pose proof (Nat.div_lt n 10); lia). destruct (IH _ Q) as [_ I]. specialize (I P).
    assert (dec_fuel f (n / 10) <> []) as Ne. { destruct f; [lia|]. cbn [dec_fuel]. destruct (n / 10 <? 10); [discriminate|]. intro X. apply app_eq_nil in X. destruct X. discriminate. }
    destruct (dec_fuel f (n / 10)) as [|b l]; [congruence|]. cbn [app]. split; [|auto]. destruct l; auto.
Qed.
Lemma read_num_dec (neg : bool) n r : stop r -> let v := if neg then (- Z.of_nat n)%Z else Z.of_nat n in
  (i64_min <= v <= u64_max)%Z -> (neg = true -> 0 < n) -> read_num neg (dec n ++ r) = Some (JInt v, r).
Proof.
  intros S v R P. unfold read_num. destruct (take_digits (dec n) r (dec_digits n) S) as [-> ->]. pose proof (dec_lead n) as L. pose proof (dec_nonempty n) as N.
  rewrite stop_frac, stop_exp by auto. unfold zvalue. rewrite dec_value. fold v. cbn [app].
  replace ((i64_min <=? v)%Z) with true by (symmetry; apply Z.leb_le; lia). replace ((v <=? u64_max)%Z) with true by (symmetry; apply Z.leb_le; lia).
  replace (neg && (v =? 0)%Z) with false. 2:{ symmetry. destruct neg; auto. cbn [andb]. apply Z.eqb_neq. specialize (P eq_refl). unfold v. lia. }
  cbn [andb negb]. destruct (dec n) as [|b [|c l]]; [congruence| |].
  - cbn [negb]. now rewrite andb_false_r.
  - apply Nat.eqb_neq in L. now rewrite L.
Qed.

(** ** values *)
Lemma levels_arr l d : levels (JArr l) < d -> exists d', d = S (S d') /\ forall j, In j l -> levels j < S d'.
Proof.
  cbn [levels]. intro H. destruct d as [|[|d]]; try lia. exists d. split; auto. intros j Hj. assert (list_max (map levels l) <= d) as M by lia.
  apply list_max_le in M. rewrite Forall_forall in M. assert (In (levels j) (map levels l)) as X by (now apply in_map). apply M in X. lia.
Qed.
Lemma levels_obj l d : levels (JObj l) < d -> exists d', d = S (S d') /\ forall e, In e l -> levels (snd e) < S d'.
Proof.
  cbn [levels]. intro H. destruct d as [|[|d]]; try lia. exists d. split; auto. intros e He. assert (list_max (map (fun e => levels (snd e)) l) <= d) as M by lia.
  apply list_max_le in M. rewrite Forall_forall in M. assert (In (levels (snd e)) (map (fun e => levels (snd e)) l)) as X by (apply in_map_iff; eauto). apply M in X. lia.
Qed.
Lemma plain_arr l : plain_json (JArr l) -> forall j, In j l -> plain_json j.
Proof. cbn [plain_json]. induction l as [|x l IH]; cbn [fold_right]; intros H j []; [subst; tauto|apply IH; tauto]. Qed.
Lemma plain_obj l : plain_json (JObj l) -> forall e, In e l -> plain_json (snd e).
Proof. cbn [plain_json]. induction l as [|x l IH]; cbn [fold_right]; intros H j []; [subst; tauto|apply IH; tauto]. Qed.

Definition starts (s : text) : Prop := exists b r, s = b :: r /\ is_ws b = false /\ b <> 93 /\ b <> 125.
Lemma print_int_starts z : starts (print_int z).
Proof.
  unfold print_int. destruct (z <? 0)%Z; [exists 45; eexists; split; [reflexivity|]; split; [reflexivity|lia]|].
  pose proof (dec_digits (Z.to_nat z)) as D. pose proof (dec_nonempty (Z.to_nat z)) as N. destruct (dec (Z.to_nat z)) as [|b l]; [congruence|]. inversion D; subst.
  unfold digit in H1. apply andb_prop in H1. rewrite !Nat.leb_le in H1. exists b, l. split; auto. split; [|lia].
  unfold is_ws. repeat match goal with |- context [b =? ?n] => replace (b =? n) with false by (symmetry; apply Nat.eqb_neq; lia) end. reflexivity.
Qed.
Lemma print_starts j : plain_json j -> starts (print j).
Proof.
  destruct j as [|[|]|z|x|s|l|l]; cbn [plain_json print]; intro H; try contradiction; try apply print_int_starts; try (unfold print_str); cbn [app]; do 2 eexists; (split; [reflexivity|split; [reflexivity|lia]]).
Qed.
Lemma starts_app s r : starts s -> starts (s ++ r).
Proof. intros (b & t & -> & H). exists b, (t ++ r). auto. Qed.
Lemma starts_skip s : starts s -> skip_ws s = s.
Proof. intros (b & t & -> & H & _). unfold skip_ws. cbn [drop_while]. now rewrite H. Qed.
Lemma starts_not s : starts s -> after 93 s = None /\ after 125 s = None.
Proof. intros (b & t & -> & _ & H1 & H2). unfold after. apply Nat.eqb_neq in H1, H2. now rewrite H1, H2. Qed.
Lemma skip_byte b s : is_ws b = false -> skip_ws (b :: s) = b :: s.
Proof. unfold skip_ws. cbn [drop_while]. now intros ->. Qed.
Lemma after_same b s : after b (b :: s) = Some s.
Proof. unfold after. now rewrite Nat.eqb_refl. Qed.
Lemma stop_93 r : stop (93 :: r). Proof. repeat split; try reflexivity; lia. Qed.
Lemma stop_125 r : stop (125 :: r). Proof. repeat split; try reflexivity; lia. Qed.
Lemma stop_44 r : stop (44 :: r). Proof. repeat split; try reflexivity; lia. Qed.

Definition reads (j : json) : Prop := plain_json j -> forall f d r, levels j < d -> stop r -> 2 * length (print j) <= f -> read f d (print j ++ r) = Some (j, r).
Lemma read_int z : reads (JInt z).
Proof.
  intros P f d r _ S L. cbn [plain_json] in P. pose proof (print_int_starts z) as St. cbn [print] in *. destruct f as [|f]; [destruct St as (? & ? & X & _); rewrite X in L; cbn [length] in L; lia|].
  cbn [read]. rewrite starts_skip by now apply starts_app. unfold print_int in *. destruct (Z.ltb_spec z 0) as [Hz|Hz].
  - cbn [app]. rewrite read_num_dec; auto; try lia. rewrite Z2Nat.id by lia. now rewrite Z.opp_involutive.
  - pose proof (read_num_dec false (Z.to_nat z) r S) as H. cbn zeta in H. rewrite Z2Nat.id in H by lia. specialize (H P ltac:(discriminate)).
    pose proof (dec_digits (Z.to_nat z)) as D. pose proof (dec_nonempty (Z.to_nat z)) as N. destruct (dec (Z.to_nat z)) as [|b l]; [congruence|]. inversion D as [|? ? D1 D2]; subst.
    unfold digit in D1. apply andb_prop in D1. rewrite !Nat.leb_le in D1. cbn [app] in *.
    repeat match goal with |- context [b =? ?n] => replace (b =? n) with false by (symmetry; apply Nat.eqb_neq; lia) end. exact H.
Qed.
Lemma read_list_print l : l <> [] -> Forall reads l -> (forall j, In j l -> plain_json j) -> forall f d r, (forall j, In j l -> levels j < d) ->
  2 * length (commas (map print l)) + 1 <= f -> read_list f d (commas (map print l) ++ 93 :: r) = Some (l, r).
Proof.
  induction l as [|x l IH]; intros N F P f d r D L; [congruence|]. inversion F as [|? ? Fx Fl]; subst. destruct f as [|f]; [lia|].
  destruct l as [|y l].
  - cbn [map commas read_list] in *. rewrite Fx; [|apply P; now left|apply D; now left|apply stop_93|lia]. reflexivity.
  - cbn [map] in *. set (q := print y :: map print l) in *. change (commas (print x :: q)) with (print x ++ 44 :: commas q) in *. rewrite app_length in L. cbn [length] in L.
    cbn [read_list]. rewrite <- app_assoc. cbn [app]. rewrite Fx; [|apply P; now left|apply D; now left|apply stop_44|lia]. rewrite skip_byte by reflexivity. rewrite after_same. change (after 93 (44 :: ?s)) with (@None text). cbn iota. rewrite IH; auto; [discriminate| | |lia]; intros j Hj; [apply P|apply D]; now right.
Qed.
Definition member (e : text * json) : text := print_str (fst e) ++ 58 :: print (snd e).
Lemma read_members_print l : l <> [] -> Forall (fun e => reads (snd e)) l -> (forall e, In e l -> plain_json (snd e)) -> forall f d r, (forall e, In e l -> levels (snd e) < d) ->
  2 * length (commas (map member l)) + 1 <= f -> read_members f d (commas (map member l) ++ 125 :: r) = Some (l, r).
Proof.
  induction l as [|[k x] l IH]; intros N F P f d r D L; [congruence|]. inversion F as [|? ? Fx Fl]; subst. destruct f as [|f]; [lia|].
  assert (forall q, stop q -> read_members (S f) d (member (k, x) ++ q) =
     match after 125 (skip_ws q) with Some r => Some ([(k, x)], r) | None => match after 44 (skip_ws q) with Some r => match read_members f d r with Some (l, r) => Some ((k, x) :: l, r) | None => None end | None => None end end) as H.
  { intros q Sq. unfold member, print_str. cbn [fst snd app]. cbn [read_members]. rewrite skip_byte, after_same by reflexivity. rewrite <- !app_assoc. cbn [app].
    rewrite read_str_print by (rewrite app_length; pose proof (escape_total k); lia). rewrite skip_byte, after_same by reflexivity.
    rewrite Fx; [reflexivity|apply (P (k, x)); now left|apply (D (k, x)); now left|exact Sq|].
    assert (length (print x) <= length (member (k, x))) as X by (unfold member; rewrite app_length; cbn [length snd]; lia).
    cbn [snd]. destruct l; cbn [map commas] in L; [lia|]. rewrite app_length in L. lia. }
  destruct l as [|y l].
  - cbn [map commas] in *. rewrite H by apply stop_125. reflexivity.
  - cbn [map] in *. set (q := member y :: map member l) in *. change (commas (member (k, x) :: q)) with (member (k, x) ++ 44 :: commas q) in *. rewrite app_length in L. cbn [length] in L.
    rewrite <- app_assoc. cbn [app]. rewrite H by apply stop_44. rewrite skip_byte by reflexivity. rewrite after_same. change (after 125 (44 :: ?s)) with (@None text). cbn iota. rewrite IH; auto; [discriminate| | |lia]; intros j Hj; [apply P|apply D]; now right.
Qed.
Lemma commas_starts x l : starts x -> starts (commas (x :: l)).
Proof. destruct l; cbn [commas]; auto. apply starts_app. Qed.
Lemma read_print j : reads j.
Proof.
  induction j using json_ind'.
  - intros _ [|f] d r _ _ L; cbn [print length] in L; [lia|]. reflexivity.
  - intros _ [|f] d r _ _ L; [destruct b; cbn [print length] in L; lia|]. destruct b; reflexivity.
  - apply read_int.
  - intros [].
  - intros _ [|f] d r _ _ L; [cbn [print print_str length] in L; lia|]. cbn [print]. unfold print_str. cbn [app]. cbn [read]. rewrite skip_byte by reflexivity. cbn [Nat.eqb].
    rewrite <- app_assoc. cbn [app]. rewrite read_str_print; auto. rewrite app_length. pose proof (escape_total s). lia.
  - intros P [|f] d r D S L; cbn [print length app] in L; [lia|]. apply levels_arr in D. destruct D as (d' & -> & D). pose proof (plain_arr _ P) as P'. cbn [print app]. cbn [read].
    rewrite skip_byte by reflexivity. cbn [Nat.eqb]. destruct l as [|x l]; [reflexivity|]. rewrite <- app_assoc. cbn [app].
    assert (starts (commas (map print (x :: l)) ++ 93 :: r)) as St by (apply starts_app, commas_starts, print_starts, P'; now left).
    rewrite (starts_skip _ St), (proj1 (starts_not _ St)). rewrite read_list_print; auto; [discriminate|]. rewrite app_length in L. cbn [length] in L. lia.
  - intros P [|f] d r D S L; cbn [print length app] in L; [lia|]. apply levels_obj in D. destruct D as (d' & -> & D). pose proof (plain_obj _ P) as P'. cbn [print app]. cbn [read].
    rewrite skip_byte by reflexivity. cbn [Nat.eqb]. change (fun e : text * json => print_str (fst e) ++ 58 :: print (snd e)) with member in *. destruct l as [|x l]; [reflexivity|].
    rewrite <- app_assoc. cbn [app].
    assert (starts (commas (map member (x :: l)) ++ 125 :: r)) as St. { apply starts_app, commas_starts. unfold member, print_str. cbn [app]. do 2 eexists. split; [reflexivity|]. split; [reflexivity|lia]. }
    rewrite (starts_skip _ St), (proj2 (starts_not _ St)). rewrite read_members_print; auto; [discriminate|]. rewrite app_length in L. cbn [length] in L. lia.
Qed.
Theorem parse_print j : plain_json j -> levels j < 128 -> parse (print j) = Some j.
Proof.
  intros P L. unfold parse. pose proof (read_print j P (2 * length (print j) + 2) 128 [] L Logic.I ltac:(lia)) as H. rewrite app_nil_r in H. rewrite H. reflexivity.
Qed.
