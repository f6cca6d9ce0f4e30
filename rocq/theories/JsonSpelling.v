(** The reader of Json.v accepts exactly the texts JsonSpec.v describes, with their meaning. *)
From Coq Require Import List Arith ZArith Lia Bool ZifyNat.
From Verif Require Import Base ListFacts Fmt View Json JsonFacts JsonSpec.
Import ListNotations.
Ltac Zify.zify_post_hook ::= Z.div_mod_to_equations.

(** ** characters *)
Lemma unhex_hex b n : unhex b = Some n <-> hex b n.
Proof.
  unfold unhex, digit. split.
  - destruct (48 <=? b) eqn:A, (b <=? 57) eqn:B; cbn [andb];
      [apply Nat.leb_le in A, B; intro H; injection H as <-; replace b with (48 + (b - 48)) at 1 by lia; constructor; lia| | |];
      (destruct (97 <=? b) eqn:C, (b <=? 102) eqn:D; cbn [andb];
        [apply Nat.leb_le in C, D; intro H; injection H as <-; replace b with (87 + (b - 87)) at 1 by lia; apply hex_low; lia| | |]);
      (destruct (65 <=? b) eqn:E, (b <=? 70) eqn:F; cbn [andb]; try discriminate;
        apply Nat.leb_le in E, F; intro H; injection H as <-; replace b with (55 + (b - 55)) at 1 by lia; apply hex_up; lia).
  - intros [k H|k H|k H].
    + replace (48 <=? 48 + k) with true by (symmetry; apply Nat.leb_le; lia). replace (48 + k <=? 57) with true by (symmetry; apply Nat.leb_le; lia). cbn [andb]. f_equal. lia.
    + replace (87 + k <=? 57) with false by (symmetry; apply Nat.leb_gt; lia). rewrite andb_false_r.
      replace (97 <=? 87 + k) with true by (symmetry; apply Nat.leb_le; lia). replace (87 + k <=? 102) with true by (symmetry; apply Nat.leb_le; lia). cbn [andb]. f_equal. lia.
    + replace (55 + k <=? 57) with false by (symmetry; apply Nat.leb_gt; lia). rewrite andb_false_r.
      replace (97 <=? 55 + k) with false by (symmetry; apply Nat.leb_gt; lia). cbn [andb].
      replace (65 <=? 55 + k) with true by (symmetry; apply Nat.leb_le; lia). replace (55 + k <=? 70) with true by (symmetry; apply Nat.leb_le; lia). cbn [andb]. f_equal. lia.
Qed.
Lemma unhex4_ok h n r : hex4 h n -> unhex4 (h ++ r) = Some (n, r).
Proof.
  intros [a b c d x y z t A B C D]. apply unhex_hex in A, B, C, D. cbn [app unhex4]. rewrite A, B, C, D. f_equal. f_equal. lia.
Qed.
Lemma unhex4_inv s n r : unhex4 s = Some (n, r) -> exists h, s = h ++ r /\ hex4 h n.
Proof.
  destruct s as [|a [|b [|c [|d q]]]]; cbn [unhex4]; try discriminate.
  destruct (unhex a) as [x|] eqn:A, (unhex b) as [y|] eqn:B, (unhex c) as [z|] eqn:C, (unhex d) as [t|] eqn:D; try discriminate.
  intro H. injection H as <- <-. apply unhex_hex in A, B, C, D. exists [a; b; c; d]. split; [reflexivity|].
  replace (((x * 16 + y) * 16 + z) * 16 + t) with (x * 4096 + y * 256 + z * 16 + t) by lia. constructor; assumption.
Qed.
Lemma hex4_bound h n : hex4 h n -> n < 16 * 4096.
Proof. intros [a b c d x y z t A B C D]. assert (forall b n, hex b n -> n < 16) as X by (intros ? ? []; lia). apply X in A, B, C, D. lia. Qed.
Lemma hex4_length h n : hex4 h n -> length h = 4.
Proof. intros []. reflexivity. Qed.
Lemma encode_ok n : n < 512 * 4096 -> utf8_of n (encode_char n).
Proof.
  intro B. unfold encode_char. destruct (n <? 128) eqn:A; [apply Nat.ltb_lt in A; now constructor|]. apply Nat.ltb_ge in A.
  destruct (n <? 2048) eqn:C; [apply Nat.ltb_lt in C|apply Nat.ltb_ge in C].
  - replace n with (n / 64 * 64 + n mod 64) at 1 by lia. constructor; lia.
  - destruct (n <? 16 * 4096) eqn:D; [apply Nat.ltb_lt in D|apply Nat.ltb_ge in D].
    + replace n with ((n / 4096 * 64 + n / 64 mod 64) * 64 + n mod 64) at 1 by lia. constructor; lia.
    + replace n with (((n / 64 / 4096 * 64 + n / 4096 mod 64) * 64 + n / 64 mod 64) * 64 + n mod 64) at 1 by lia. constructor; lia.
Qed.
Lemma encode_only n c : utf8_of n c -> c = encode_char n.
Proof.
  intros [k A|x y A B C|x y z A B C D|x y z t A B C D F]; unfold encode_char.
  - apply Nat.ltb_lt in A. rewrite A. reflexivity.
  - replace (x * 64 + y <? 128) with false by (symmetry; apply Nat.ltb_ge; lia). replace (x * 64 + y <? 2048) with true by (symmetry; apply Nat.ltb_lt; lia).
    repeat f_equal; lia.
  - set (m := (x * 64 + y) * 64 + z) in *. assert (m = (x * 64 + y) * 64 + z) as Hn by reflexivity. clearbody m.
    replace (m <? 128) with false by (symmetry; apply Nat.ltb_ge; lia). replace (m <? 2048) with false by (symmetry; apply Nat.ltb_ge; lia).
    replace (m <? 16 * 4096) with true by (symmetry; apply Nat.ltb_lt; lia). repeat f_equal; lia.
  - set (m := ((x * 64 + y) * 64 + z) * 64 + t) in *. assert (m = ((x * 64 + y) * 64 + z) * 64 + t) as Hn by reflexivity. clearbody m.
    replace (m <? 128) with false by (symmetry; apply Nat.ltb_ge; lia). replace (m <? 2048) with false by (symmetry; apply Nat.ltb_ge; lia).
    replace (m <? 16 * 4096) with false by (symmetry; apply Nat.ltb_ge; lia). repeat f_equal; lia.
Qed.
Lemma lead_eq n : (n / 1024 =? 54) = true <-> exists k, leading n k.
Proof. rewrite Nat.eqb_eq. unfold leading. split; [intro H; exists (n mod 1024); lia|intros (k & H); lia]. Qed.
Lemma trail_eq n : (n / 1024 =? 55) = true <-> exists k, trailing n k.
Proof. rewrite Nat.eqb_eq. unfold trailing. split; [intro H; exists (n mod 1024); lia|intros (k & H); lia]. Qed.

Lemma lead_mod n i : leading n i -> n / 1024 = 54 /\ n mod 1024 = i.
Proof. intros [-> H]. split; [symmetry; apply Nat.div_unique with i; lia|symmetry; apply Nat.mod_unique with 54; lia]. Qed.
Lemma trail_mod n i : trailing n i -> n / 1024 = 55 /\ n mod 1024 = i.
Proof. intros [-> H]. split; [symmetry; apply Nat.div_unique with i; lia|symmetry; apply Nat.mod_unique with 55; lia]. Qed.

(** ** strings *)
Lemma escape_reads_code h n c r : hex4 h n -> (forall k, ~ leading n k) -> (forall k, ~ trailing n k) -> utf8_of n c ->
  read_escape (117 :: h ++ r) = Some (c, r).
Proof.
  intros H L T U. cbn [read_escape]. rewrite (unhex4_ok _ _ _ H). destruct (n / 1024 =? 55) eqn:A; [apply trail_eq in A; destruct A as [k A]; case (T k A)|].
  destruct (n / 1024 =? 54) eqn:B; [apply lead_eq in B; destruct B as [k B]; case (L k B)|]. now rewrite (encode_only _ _ U).
Qed.
Lemma escape_reads_pair h n i h' n' l c r : hex4 h n -> leading n i -> hex4 h' n' -> trailing n' l -> utf8_of (64 * 1024 + i * 1024 + l) c ->
  read_escape (117 :: h ++ 92 :: 117 :: h' ++ r) = Some (c, r).
Proof.
  intros H L H' T U. cbn [read_escape]. rewrite (unhex4_ok _ _ _ H). destruct (n / 1024 =? 55) eqn:A; [apply Nat.eqb_eq in A; rewrite (proj1 (lead_mod _ _ L)) in A; discriminate|].
  rewrite (proj2 (lead_eq n) (ex_intro _ i L)). rewrite (unhex4_ok _ _ _ H'). rewrite (proj2 (trail_eq n') (ex_intro _ l T)).
  rewrite (encode_only _ _ U). rewrite (proj2 (lead_mod _ _ L)), (proj2 (trail_mod _ _ T)). do 3 f_equal. lia.
Qed.
Lemma short_reads c b r : short_escape c b -> read_escape (c :: r) = Some ([b], r).
Proof. intro H. cbn [In] in H. unfold short_escape in H. cbn [In] in H. repeat (destruct H as [H|H]; [injection H as <- <-; reflexivity|]). destruct H. Qed.
Lemma read_str_ok t x : str_body t x -> forall f r, length t < f -> read_str f (t ++ 34 :: r) = Some (x, r).
Proof.
  intro H. induction H; intros [|f] r L; cbn [length] in L; try lia; cbn [app read_str].
  - reflexivity.
  - apply Nat.eqb_neq in H0, H1. rewrite H0, H1. replace (b <? 32) with false by (symmetry; apply Nat.ltb_ge; lia). rewrite IHstr_body by lia. reflexivity.
  - change (92 =? 34) with false. change (92 =? 92) with true. cbv iota. rewrite (short_reads _ _ _ H). rewrite IHstr_body by lia. reflexivity.
  - change (92 =? 34) with false. change (92 =? 92) with true. cbv iota. rewrite <- app_assoc. rewrite (escape_reads_code _ _ _ _ H H0 H1 H2).
    rewrite app_length in L. rewrite IHstr_body by lia. reflexivity.
  - change (92 =? 34) with false. change (92 =? 92) with true. cbv iota. rewrite <- app_assoc. cbn [app]. rewrite <- app_assoc. rewrite (escape_reads_pair _ _ _ _ _ _ _ _ H H0 H1 H2 H3).
    rewrite app_length in L. cbn [length] in L. rewrite app_length in L. rewrite IHstr_body by lia. reflexivity.
Qed.
Lemma some_pair {A B} (a a' : A) (b b' : B) : Some (a, b) = Some (a', b') -> a = a' /\ b = b'.
Proof. intro H. injection H as -> ->. auto. Qed.
Lemma backslash_u {T} (F : text -> option T) q y : match q with 92 :: 117 :: r => F r | _ => None end = Some y -> exists r, q = 92 :: 117 :: r /\ F r = Some y.
Proof.
  intro X. destruct q as [|b q]; [discriminate X|]. do 92 (destruct b as [|b]; [discriminate X|]). destruct b as [|b]; [|discriminate X].
  destruct q as [|b q]; [discriminate X|]. do 117 (destruct b as [|b]; [discriminate X|]). destruct b as [|b]; [|discriminate X]. exists q. auto.
Qed.
Lemma escape_inv s x r : read_escape s = Some (x, r) ->
  (exists c b, s = c :: r /\ x = [b] /\ short_escape c b) \/
  (exists h n, s = 117 :: h ++ r /\ hex4 h n /\ (forall k, ~ leading n k) /\ (forall k, ~ trailing n k) /\ utf8_of n x) \/
  (exists h n i h' n' l, s = 117 :: h ++ 92 :: 117 :: h' ++ r /\ hex4 h n /\ leading n i /\ hex4 h' n' /\ trailing n' l /\ utf8_of (64 * 1024 + i * 1024 + l) x).
Proof.
  destruct s as [|c s]; [discriminate|]. unfold read_escape. intro X.
  destruct (Nat.eq_dec c 117) as [->|N].
  - right. destruct (unhex4 s) as [[n q]|] eqn:U; [|discriminate X]. apply unhex4_inv in U. destruct U as (h & -> & HX).
    destruct (n / 1024 =? 55) eqn:A; [discriminate X|]. destruct (n / 1024 =? 54) eqn:B.
    + right. apply lead_eq in B. destruct B as [i B].
      apply backslash_u in X. destruct X as (q0 & -> & X).
      destruct (unhex4 q0) as [[m q']|] eqn:U; [|discriminate X]. apply unhex4_inv in U. destruct U as (h' & -> & H').
      destruct (m / 1024 =? 55) eqn:C; [|discriminate X]. apply trail_eq in C. destruct C as [l C]. apply some_pair in X. destruct X as [<- <-].
      exists h, n, i, h', m, l. split; [reflexivity|]. split; [exact HX|]. split; [exact B|]. split; [exact H'|]. split; [exact C|].
      rewrite (proj2 (lead_mod _ _ B)), (proj2 (trail_mod _ _ C)). replace ((i + 64) * 1024 + l) with (64 * 1024 + i * 1024 + l) by lia. apply encode_ok. destruct B as [_ B], C as [_ C]. clear - B C. lia.
    + left. apply some_pair in X. destruct X as [<- <-]. exists h, n. split; [reflexivity|]. split; [exact HX|].
      split; [intros k K; rewrite (proj2 (lead_eq n) (ex_intro _ k K)) in B; discriminate|].
      split; [intros k K; rewrite (proj2 (trail_eq n) (ex_intro _ k K)) in A; discriminate|]. apply encode_ok. apply hex4_bound in HX. lia.
  - left. exists c.
    do 117 (destruct c as [|c]; [first [discriminate X|injection X as <- <-; eexists; split; [reflexivity|split; [reflexivity|unfold short_escape; cbn [In]; tauto]]]|]).
    destruct c; [congruence|discriminate X].
Qed.
Lemma read_str_inv f : forall s x r, read_str f s = Some (x, r) -> exists t, s = t ++ 34 :: r /\ str_body t x.
Proof.
  induction f as [|f IH]; intros s x r; cbn [read_str]; [discriminate|]. destruct s as [|b s]; [discriminate|].
  destruct (b =? 34) eqn:A; [apply Nat.eqb_eq in A; subst b; intro H; injection H as <- <-; exists []; split; [reflexivity|constructor]|]. apply Nat.eqb_neq in A.
  destruct (b =? 92) eqn:B; [apply Nat.eqb_eq in B; subst b|apply Nat.eqb_neq in B].
  - destruct (read_escape s) as [[c q]|] eqn:Q; [|discriminate]. destruct (read_str f q) as [[y q']|] eqn:R; [|discriminate]. intro H. injection H as <- <-.
    apply IH in R. destruct R as (t & -> & T). apply escape_inv in Q. destruct Q as [(e & v & -> & -> & Q)|[(h & n & -> & Q1 & Q2 & Q3 & Q4)|(h & n & i & h' & n' & l & -> & Q1 & Q2 & Q3 & Q4 & Q5)]].
    + exists (92 :: e :: t). split; [reflexivity|]. now apply sb_short.
    + exists (92 :: 117 :: h ++ t). split; [cbn [app]; now rewrite <- app_assoc|]. now apply sb_code with n.
    + exists (92 :: 117 :: h ++ 92 :: 117 :: h' ++ t). split; [cbn [app]; rewrite <- app_assoc; cbn [app]; now rewrite <- app_assoc|]. now apply sb_pair with n i n' l.
  - destruct (b <? 32) eqn:C; [discriminate|]. apply Nat.ltb_ge in C. destruct (read_str f s) as [[y q']|] eqn:R; [|discriminate]. intro H. injection H as <- <-.
    apply IH in R. destruct R as (t & -> & T). exists (b :: t). split; [reflexivity|]. now constructor.
Qed.

(** ** white space *)
Lemma ws_is b : is_ws b = true <-> (b = 32 \/ b = 9 \/ b = 10 \/ b = 13).
Proof. unfold is_ws. rewrite !orb_true_iff, !Nat.eqb_eq. tauto. Qed.
Lemma skip_white w s : white w -> skip_ws (w ++ s) = skip_ws s.
Proof. unfold skip_ws. induction 1 as [|b w B W IH]; cbn [app drop_while]; [reflexivity|]. apply ws_is in B. now rewrite B. Qed.
Lemma skip_inv s : exists w, white w /\ s = w ++ skip_ws s.
Proof.
  unfold skip_ws. induction s as [|b s (w & W & IH)]; cbn [drop_while]; [exists []; split; [constructor|reflexivity]|].
  destruct (is_ws b) eqn:B; [|exists []; split; [constructor|reflexivity]]. exists (b :: w). split; [constructor; [now apply ws_is|exact W]|]. cbn [app]. now rewrite <- IH.
Qed.
Lemma stop_white w r : white w -> stop r -> stop (w ++ r).
Proof. intros W S. destruct W as [|b w B W]; [exact S|]. cbn [app stop]. unfold digit. destruct B as [->|[->|[->| ->]]]; repeat split; discriminate. Qed.

(** ** numbers *)
Lemma digit_is b : digit b = true <-> a_digit b.
Proof. unfold digit, a_digit. rewrite andb_true_iff, !Nat.leb_le. tauto. Qed.
Lemma digits_forall s : Forall a_digit s <-> Forall (fun b => digit b = true) s.
Proof. split; apply Forall_impl; intros a H; now apply digit_is. Qed.
Lemma magnitude_ok ds : magnitude ds = zvalue ds.
Proof.
  unfold zvalue, magnitude, value. change 0%Z with (Z.of_nat 0). cut (forall a, fold_left (fun a d => (10 * a + Z.of_nat (d - 48))%Z) ds (Z.of_nat a) = Z.of_nat (fold_left (fun a d => 10 * a + (d - 48)) ds a)); [auto|].
  induction ds as [|d ds IH]; intro a; cbn [fold_left]; [reflexivity|]. rewrite <- IH. f_equal. lia.
Qed.
Lemma take_ds ds r : Forall a_digit ds -> match r with [] => True | b :: _ => digit b = false end -> take_while digit (ds ++ r) = ds /\ drop_while digit (ds ++ r) = r.
Proof.
  intros F N. induction F as [|b ds Hb F [IH1 IH2]]; cbn [app].
  - destruct r as [|b r]; [split; reflexivity|]. cbn [take_while drop_while]. rewrite N. auto.
  - apply digit_is in Hb. cbn [take_while drop_while]. rewrite Hb, IH1, IH2. auto.
Qed.
Lemma take_inv s : s = take_while digit s ++ drop_while digit s /\ Forall a_digit (take_while digit s).
Proof.
  induction s as [|b s [IH1 IH2]]; cbn [take_while drop_while]; [split; [reflexivity|constructor]|]. destruct (digit b) eqn:D; [|split; [reflexivity|constructor]].
  cbn [app]. rewrite <- IH1. split; [reflexivity|]. constructor; [now apply digit_is|exact IH2].
Qed.
Lemma stop_digit r : stop r -> match r with [] => True | b :: _ => digit b = false end.
Proof. destruct r; [auto|]. intros (H & _). exact H. Qed.
Lemma exp_reads ex r : exp_part ex -> stop r -> read_exp (ex ++ r) = Some (ex, r).
Proof.
  intros [->|(e & sg & ds & -> & E & G & N & F)] S; [now apply stop_exp|]. cbn [app]. unfold read_exp.
  replace ((e =? 101) || (e =? 69)) with true by (destruct E as [-> | ->]; reflexivity). cbv iota. rewrite <- app_assoc.
  destruct (take_ds ds r F (stop_digit _ S)) as [T D].
  destruct G as [->|[->| ->]].
  - cbn [app]. assert (match ds ++ r with 43 :: q => ([43], q) | 45 :: q => ([45], q) | _ => ([], ds ++ r) end = ([], ds ++ r)) as ->.
    { destruct ds as [|b ds]; [now case N|]. inversion F; subst. unfold a_digit in *. cbn [app]. do 48 (destruct b as [|b]; [lia|]). reflexivity. }
    rewrite T, D. clear - N. destruct ds; [now case N|reflexivity].
  - cbn [app]. rewrite T, D. clear - N. destruct ds; [now case N|reflexivity].
  - cbn [app]. rewrite T, D. clear - N. destruct ds; [now case N|reflexivity].
Qed.
Lemma exp_stops ex r : exp_part ex -> stop r -> match ex ++ r with [] => True | b :: _ => digit b = false /\ b <> 46 end.
Proof.
  intros [->|(e & sg & ds & -> & E & _)] S; [cbn [app]; destruct r; [auto|]; destruct S as (? & ? & _); auto|].
  cbn [app]. destruct E as [-> | ->]; split; [reflexivity|discriminate|reflexivity|discriminate].
Qed.
Lemma frac_reads fr r : frac_part fr -> match r with [] => True | b :: _ => digit b = false /\ b <> 46 end -> read_frac (fr ++ r) = Some (fr, r).
Proof.
  intros [->|(ds & -> & N & F)] S; unfold read_frac; cbn [app].
  - destruct r as [|b r]; [reflexivity|]. destruct S as [_ S]. apply Nat.eqb_neq in S. now rewrite S.
  - rewrite Nat.eqb_refl. destruct (take_ds ds r F) as [T D]; [destruct r; [auto|apply S]|]. rewrite T, D. destruct ds; [now case N|reflexivity].
Qed.
Lemma frac_stops fr r : frac_part fr -> match r with [] => True | b :: _ => digit b = false /\ b <> 46 end -> match fr ++ r with [] => True | b :: _ => digit b = false end.
Proof. intros [->|(ds & -> & _)] S; cbn [app]; [destruct r; [auto|apply S]|reflexivity]. Qed.
(** what the integer test of the reader says *)
Lemma held_test (m : bool) ds (e : bool) : (e && (i64_min <=? (if m then - zvalue ds else zvalue ds))%Z && ((if m then - zvalue ds else zvalue ds) <=? u64_max)%Z
    && negb (m && ((if m then - zvalue ds else zvalue ds) =? 0)%Z)) = true <->
  (e = true /\ held m ds (if m then - zvalue ds else zvalue ds)%Z).
Proof.
  unfold held. rewrite magnitude_ok. set (v := (if m then - zvalue ds else zvalue ds)%Z). rewrite !andb_true_iff, negb_true_iff, andb_false_iff, !Z.leb_le, Z.eqb_neq.
  split; [intros (((A & B) & C) & D)|intros (A & _ & (B & C) & D)]; split; auto.
  - split; [reflexivity|]. split; [now split|]. intros ->. destruct D; [discriminate|assumption].
  - destruct m; [right; now apply D|now left].
Qed.
Lemma num_reads m ds fr ex r : int_part ds -> frac_part fr -> exp_part ex -> stop r ->
  read_num m (ds ++ fr ++ ex ++ r) = Some (if (match fr ++ ex with [] => true | _ => false end) && (i64_min <=? (if m then - zvalue ds else zvalue ds))%Z && ((if m then - zvalue ds else zvalue ds) <=? u64_max)%Z
    && negb (m && ((if m then - zvalue ds else zvalue ds) =? 0)%Z) then JInt (if m then - zvalue ds else zvalue ds) else JFloat (sign m ++ ds ++ fr ++ ex), r).
Proof.
  intros [[N F] L] Fr Ex S. pose proof (exp_stops _ _ Ex S) as S1. pose proof (frac_stops _ _ Fr S1) as S2. destruct (take_ds ds (fr ++ ex ++ r) F S2) as [T D].
  unfold read_num. rewrite T, D. destruct ds as [|b l]; [now case N|].
  assert ((b =? 48) && negb (match l with [] => true | _ => false end) = false) as -> by (destruct L as [L|L]; [injection L as -> ->; reflexivity|cbn [hd] in L; apply Nat.eqb_neq in L; now rewrite L]).
  rewrite (frac_reads _ _ Fr S1), (exp_reads _ _ Ex S). destruct m; reflexivity.
Qed.
Lemma frac_inv s fr r : read_frac s = Some (fr, r) -> s = fr ++ r /\ frac_part fr.
Proof.
  unfold read_frac. destruct s as [|b s]; [intro H; injection H as <- <-; split; [reflexivity|now left]|].
  destruct (b =? 46) eqn:B; [apply Nat.eqb_eq in B; subst b|intro H; injection H as <- <-; split; [reflexivity|now left]].
  destruct (take_inv s) as [E F]. destruct (take_while digit s) as [|d ds] eqn:T; [discriminate|]. intro H. injection H as <- <-.
  split; [cbn [app]; f_equal; exact E|]. right. exists (d :: ds). split; [reflexivity|]. split; [discriminate|exact F].
Qed.
Lemma exp_inv s ex r : read_exp s = Some (ex, r) -> s = ex ++ r /\ exp_part ex.
Proof.
  unfold read_exp. destruct s as [|e s]; [intro H; injection H as <- <-; split; [reflexivity|now left]|].
  destruct ((e =? 101) || (e =? 69)) eqn:B; [|intro H; injection H as <- <-; split; [reflexivity|now left]].
  apply orb_true_iff in B. rewrite !Nat.eqb_eq in B.
  assert (exists sg q, match s with 43 :: q => ([43], q) | 45 :: q => ([45], q) | _ => ([], s) end = (sg, q) /\ s = sg ++ q /\ (sg = [] \/ sg = [43] \/ sg = [45])) as (sg & q & -> & -> & G).
  { destruct s as [|c s]; [exists [], []; auto|]. assert (c = 43 \/ c = 45 \/ (c <> 43 /\ c <> 45)) as [->|[->|[N1 N2]]] by lia; [exists [43], s; auto|exists [45], s; auto|].
    exists [], (c :: s). split; [|auto]. do 46 (destruct c as [|c]; [congruence|]). reflexivity. }
  destruct (take_inv q) as [E F]. destruct (take_while digit q) as [|d ds] eqn:T; [discriminate|]. intro H. injection H as <- <-.
  split; [cbn [app]; f_equal; rewrite <- app_assoc; f_equal; exact E|]. right. exists e, sg, (d :: ds). split; [reflexivity|]. split; [exact B|]. split; [exact G|]. split; [discriminate|exact F].
Qed.
Lemma num_inv m s j r : read_num m s = Some (j, r) -> exists t, s = t ++ r /\ spells (sign m ++ t) j.
Proof.
  unfold read_num. destruct (take_inv s) as [E F]. destruct (take_while digit s) as [|b l] eqn:T; [discriminate|].
  destruct ((b =? 48) && negb (match l with [] => true | _ => false end)) eqn:Z; [discriminate|].
  destruct (read_frac (drop_while digit s)) as [[fr q]|] eqn:Q; [|discriminate]. apply frac_inv in Q. destruct Q as [Q Fr].
  destruct (read_exp q) as [[ex q']|] eqn:P; [|discriminate]. apply exp_inv in P. destruct P as [-> Ex].
  assert (int_part (b :: l)) as I. { split; [split; [discriminate|exact F]|]. destruct (b =? 48) eqn:B; [apply Nat.eqb_eq in B; subst b; left; destruct l; [reflexivity|discriminate]|right; cbn [hd]; now apply Nat.eqb_neq]. }
  intro H. injection H as <- <-. exists ((b :: l) ++ fr ++ ex). split; [rewrite E, Q, <- !app_assoc; reflexivity|].
  match goal with |- spells _ (if ?c then _ else _) => destruct c eqn:C end.
  - apply held_test in C. destruct C as [C H]. destruct (fr ++ ex) eqn:X; [|discriminate]. rewrite app_nil_r. now constructor.
  - replace ((if m then [45] else []) ++ (b :: l) ++ fr ++ ex) with (sign m ++ (b :: l) ++ fr ++ ex) by reflexivity. constructor; auto.
    intros -> -> v K. assert (v = if m then - zvalue (b :: l) else zvalue (b :: l))%Z as -> by (destruct K as [K _]; now rewrite magnitude_ok in K).
    pose proof (proj2 (held_test m (b :: l) true) (conj eq_refl K)) as C'. assert (true = false) as X by exact (eq_trans (eq_sym C') C). discriminate X.
Qed.

(** ** values *)
Scheme spells_mut := Minimality for spells Sort Prop with items_mut := Minimality for items Sort Prop with members_mut := Minimality for members Sort Prop.
Combined Scheme spells_all from spells_mut, items_mut, members_mut.
Lemma spells_starts s j : spells s j -> starts s.
Proof.
  assert (forall m ds q, int_part ds -> starts (sign m ++ ds ++ q)) as N.
  { intros m ds q [[N F] _]. destruct m; [exists 45, (ds ++ q); repeat split; discriminate|]. destruct ds as [|b ds]; [now case N|]. inversion F; subst. unfold a_digit in *.
    exists b, (ds ++ q). split; [reflexivity|]. split; [|lia]. destruct (is_ws b) eqn:W; [apply ws_is in W; lia|reflexivity]. }
  intros []; try (do 2 eexists; split; [reflexivity|]; split; [reflexivity|lia]).
  - replace (sign m ++ ds) with (sign m ++ ds ++ []) by (now rewrite app_nil_r). now apply N.
  - now apply N.
  - destruct H as (t & -> & _). do 2 eexists; split; [reflexivity|]; split; [reflexivity|lia].
Qed.
Lemma starts_after w s q : white w -> starts s -> after 93 (skip_ws (w ++ s ++ q)) = None /\ after 125 (skip_ws (w ++ s ++ q)) = None.
Proof. intros W S. rewrite skip_white by exact W. pose proof (starts_app _ q S) as S'. rewrite (starts_skip _ S'). apply starts_not, S'. Qed.
Lemma spells_long s j : spells s j -> 1 <= length s.
Proof. intro H. apply spells_starts in H. destruct H as (b & r & -> & _). cbn [length]. lia. Qed.

Ltac ax := repeat (rewrite <- app_assoc; cbn [app]).
Theorem reads_spelling :
  (forall s j, spells s j -> forall f d w r, levels j < d -> white w -> stop r -> 2 * length s <= f -> read f d (w ++ s ++ r) = Some (j, r)) /\
  (forall s l, items s l -> (forall f d r, (forall j, In j l -> levels j < d) -> 2 * length s + 1 <= f -> read_list f d (s ++ 93 :: r) = Some (l, r)) /\
     (forall r, after 93 (skip_ws (s ++ r)) = None)) /\
  (forall s l, members s l -> (forall f d r, (forall k j, In (k, j) l -> levels j < d) -> 2 * length s + 1 <= f -> read_members f d (s ++ 125 :: r) = Some (l, r)) /\
     (forall r, after 125 (skip_ws (s ++ r)) = None)).
Proof.
  apply spells_all.
  - intros [|f] d w r _ W _ L; [cbn [length] in L; lia|]. cbn [read]. rewrite skip_white by exact W. reflexivity.
  - intros [|f] d w r _ W _ L; [cbn [length] in L; lia|]. cbn [read]. rewrite skip_white by exact W. reflexivity.
  - intros [|f] d w r _ W _ L; [cbn [length] in L; lia|]. cbn [read]. rewrite skip_white by exact W. reflexivity.
  - intros m ds v I H f d w r _ W S L. pose proof (spells_starts _ _ (sp_int m ds v I H)) as St.
    pose proof (num_reads m ds [] [] r I (or_introl eq_refl) (or_introl eq_refl) S) as R. cbn [app] in R.
    assert (v = if m then - zvalue ds else zvalue ds)%Z as E by (destruct H as [H _]; now rewrite magnitude_ok in H). rewrite E in H. rewrite (proj2 (held_test m ds true) (conj eq_refl H)) in R.
    rewrite <- E in R. clear E. destruct f as [|f]; [apply spells_long in L||idtac; destruct St as (b & q & E & _); rewrite E in L; cbn [length] in L; lia|].
    cbn [read]. rewrite skip_white by exact W. rewrite (starts_skip _ (starts_app _ r St)). destruct m; cbn [sign app] in *.
    + cbn [Nat.eqb]. exact R.
    + destruct ds as [|b ds]; [destruct I as [[I _] _]; now case I|]. destruct I as [[_ F] _]. inversion F; subst. unfold a_digit in *. cbn [app] in *.
      repeat match goal with |- context [b =? ?n] => replace (b =? n) with false by (symmetry; apply Nat.eqb_neq; lia) end. exact R.
  - intros m ds fr ex I Fr Ex NH f d w r _ W S L. pose proof (spells_starts _ _ (sp_float m ds fr ex I Fr Ex NH)) as St.
    pose proof (num_reads m ds fr ex r I Fr Ex S) as R.
    match type of R with _ = Some (if ?c then _ else _, _) => destruct c eqn:C end.
    { exfalso. apply held_test in C. destruct C as [C H]. destruct fr; [|discriminate]. destruct ex; [|discriminate]. exact (NH eq_refl eq_refl _ H). }
    destruct f as [|f]; [destruct St as (b & q & E & _); rewrite E in L; cbn [length] in L; lia|].
    cbn [read]. rewrite skip_white by exact W. rewrite (starts_skip _ (starts_app _ r St)). rewrite <- !app_assoc. destruct m; cbn [sign app] in *.
    + cbn [Nat.eqb]. exact R.
    + destruct ds as [|b ds]; [destruct I as [[I _] _]; now case I|]. destruct I as [[_ F] _]. inversion F; subst. unfold a_digit in *. cbn [app] in *.
      repeat match goal with |- context [b =? ?n] => replace (b =? n) with false by (symmetry; apply Nat.eqb_neq; lia) end. exact R.
  - intros s x (t & -> & T) [|f] d w r _ W _ L; [cbn [length] in L; lia|]. cbn [read]. rewrite skip_white by exact W. cbn [app]. rewrite skip_byte by reflexivity. cbn [Nat.eqb].
    rewrite <- app_assoc. cbn [app]. rewrite (read_str_ok _ _ T) by (rewrite app_length; lia). reflexivity.
  - intros w0 W0 [|f] d w r D W _ L; [cbn [length] in L; lia|]. apply levels_arr in D. destruct D as (d' & -> & _). cbn [read]. rewrite skip_white by exact W. cbn [app]. rewrite skip_byte by reflexivity. cbn [Nat.eqb].
    rewrite <- app_assoc. rewrite skip_white by exact W0. reflexivity.
  - intros s l _ [IH A] [|f] d w r D W _ L; [cbn [length] in L; lia|]. apply levels_arr in D. destruct D as (d' & -> & D). cbn [read]. rewrite skip_white by exact W. cbn [app]. rewrite skip_byte by reflexivity. cbn [Nat.eqb].
    rewrite <- app_assoc. rewrite A. cbn [app]. rewrite IH; [reflexivity|exact D|]. cbn [length] in L. rewrite app_length in L. cbn [length] in L. lia.
  - intros w0 W0 [|f] d w r D W _ L; [cbn [length] in L; lia|]. apply levels_obj in D. destruct D as (d' & -> & _). cbn [read]. rewrite skip_white by exact W. cbn [app]. rewrite skip_byte by reflexivity. cbn [Nat.eqb].
    rewrite <- app_assoc. rewrite skip_white by exact W0. reflexivity.
  - intros s l _ [IH A] [|f] d w r D W _ L; [cbn [length] in L; lia|]. apply levels_obj in D. destruct D as (d' & -> & D). cbn [read]. rewrite skip_white by exact W. cbn [app]. rewrite skip_byte by reflexivity. cbn [Nat.eqb].
    rewrite <- app_assoc. rewrite A. cbn [app]. rewrite IH; [reflexivity|intros k j Hj; exact (D (k, j) Hj)|]. cbn [length] in L. rewrite app_length in L. cbn [length] in L. lia.
  - intros w s j w' W Sp IH W'. split.
    + intros [|f] d r D L; [lia|]. cbn [read_list]. rewrite <- !app_assoc. rewrite IH; [|apply D; now left|exact W|apply stop_white; [exact W'|apply stop_93]|rewrite !app_length in L; lia].
      rewrite skip_white by exact W'. reflexivity.
    + intro r. rewrite <- !app_assoc. apply starts_after; [exact W|now apply spells_starts in Sp].
  - intros w s j w' t l W Sp IH W' _ [IHl _]. split.
    + intros [|f] d r D L; [lia|]. cbn [read_list]. rewrite <- !app_assoc. cbn [app]. rewrite !app_length in L. cbn [length] in L.
      rewrite IH; [|apply D; now left|exact W|apply stop_white; [exact W'|apply stop_44]|lia].
      rewrite skip_white by exact W'. rewrite skip_byte by reflexivity. rewrite after_same. change (after 93 (44 :: ?s)) with (@None text). cbv iota.
      rewrite IHl; [reflexivity|intros x Hx; apply D; now right|lia].
    + intro r. rewrite <- !app_assoc. apply starts_after; [exact W|now apply spells_starts in Sp].
  - intros w q k w1 w2 s j w' W (t & -> & T) W1 W2 Sp IH W'. split.
    + intros [|f] d r D L; [lia|]. cbn [read_members]. ax. rewrite skip_white by exact W. cbn [app]. rewrite skip_byte by reflexivity. rewrite after_same.
      ax. rewrite (read_str_ok _ _ T) by (rewrite app_length; lia). ax. rewrite skip_white by exact W1. rewrite skip_byte by reflexivity. rewrite after_same.
      ax. rewrite IH; [|apply (D k); now left|exact W2|apply stop_white; [exact W'|apply stop_125]|repeat (rewrite app_length in L; cbn [length] in L); lia].
      rewrite skip_white by exact W'. reflexivity.
    + intro r. ax. rewrite skip_white by exact W. cbn [app]. rewrite skip_byte by reflexivity. reflexivity.
  - intros w q k w1 w2 s j w' t' l W (t & -> & T) W1 W2 Sp IH W' _ [IHl _]. split.
    + intros [|f] d r D L; [lia|]. cbn [read_members]. ax. rewrite skip_white by exact W. cbn [app]. rewrite skip_byte by reflexivity. rewrite after_same.
      ax. rewrite (read_str_ok _ _ T) by (rewrite app_length; lia). ax. rewrite skip_white by exact W1. rewrite skip_byte by reflexivity. rewrite after_same.
      ax. repeat (rewrite app_length in L; cbn [length] in L). rewrite IH; [|apply (D k); now left|exact W2|apply stop_white; [exact W'|apply stop_44]|lia].
      rewrite skip_white by exact W'. rewrite skip_byte by reflexivity. rewrite after_same. change (after 125 (44 :: ?s)) with (@None text). cbv iota.
      rewrite IHl; [reflexivity|intros x y Hx; apply (D x); now right|lia].
    + intro r. ax. rewrite skip_white by exact W. cbn [app]. rewrite skip_byte by reflexivity. reflexivity.
Qed.

(** ** conversely *)
Lemma after_inv c s r : after c s = Some r -> s = c :: r.
Proof. unfold after. destruct s as [|b s]; [discriminate|]. destruct (b =? c) eqn:B; [|discriminate]. apply Nat.eqb_eq in B. intro H. injection H as <-. now subst. Qed.
Lemma literal_inv l j s x r : literal l j s = Some (x, r) -> x = j /\ s = l ++ r.
Proof.
  unfold literal. destruct (after_all l s) as [q|] eqn:A; [|discriminate]. intro H. injection H as <- <-. split; [reflexivity|].
  revert s A. induction l as [|c l IH]; intros s A; cbn [after_all app] in *; [now injection A|]. destruct (after c s) as [s'|] eqn:B; [|discriminate].
  apply after_inv in B. rewrite B. f_equal. now apply IH.
Qed.
Lemma levels_nested n : forall j, nested n j <-> levels j <= n.
Proof.
  intro j. revert n. induction j using json_ind'; intro n; try (split; [cbn [levels]; lia|intros _; apply ne_leaf; discriminate]).
  - cbn [levels]. rewrite Forall_forall in H. split.
    + intro N. inversion N as [? ? N1 _|m ? N1|]; subst; [now case (N1 l)|]. apply le_n_S. apply list_max_le. rewrite Forall_map, Forall_forall. intros x Hx. apply H; auto.
    + destruct n as [|n]; [lia|]. intro L. apply le_S_n in L. rewrite list_max_le, Forall_map, Forall_forall in L. apply ne_arr. intros x Hx. apply H; auto.
  - cbn [levels]. rewrite Forall_forall in H. split.
    + intro N. inversion N as [? ? _ N1| |m ? N1]; subst; [now case (N1 l)|]. apply le_n_S. apply list_max_le. rewrite Forall_map, Forall_forall. intros [k x] Hx. apply (H (k, x)); eauto.
    + destruct n as [|n]; [lia|]. intro L. apply le_S_n in L. rewrite list_max_le, Forall_map, Forall_forall in L. apply ne_obj. intros k x Hx. apply (H (k, x)); [exact Hx|exact (L (k, x) Hx)].
Qed.
Theorem read_spells f :
  (forall d s j r, read f d s = Some (j, r) -> exists w t, s = w ++ t ++ r /\ white w /\ spells t j /\ levels j < S (pred d)) /\
  (forall d s l r, read_list f d s = Some (l, r) -> exists t, s = t ++ 93 :: r /\ items t l /\ forall j, In j l -> levels j < S (pred d)) /\
  (forall d s l r, read_members f d s = Some (l, r) -> exists t, s = t ++ 125 :: r /\ members t l /\ forall k j, In (k, j) l -> levels j < S (pred d)).
Proof.
  induction f as [|f (IH1 & IH2 & IH3)]; [repeat split; discriminate|]. split; [|split].
  - intros d s j r. cbn [read]. destruct (skip_inv s) as (w & W & E). destruct (skip_ws s) as [|b q]; [discriminate|]. rewrite E. clear E. intro H. exists w.
    assert (forall t, b :: q = t ++ r -> spells t j -> levels j < S (pred d) -> exists t, w ++ b :: q = w ++ t ++ r /\ white w /\ spells t j /\ levels j < S (pred d)) as X by (intros t -> ? ?; exists t; auto).
    destruct (b =? 110) eqn:B1; [apply Nat.eqb_eq in B1; subst b; apply literal_inv in H; destruct H as [-> ->]; apply (X [110; 117; 108; 108]); [reflexivity|constructor|cbn [levels]; lia]|].
    destruct (b =? 116) eqn:B2; [apply Nat.eqb_eq in B2; subst b; apply literal_inv in H; destruct H as [-> ->]; apply (X [116; 114; 117; 101]); [reflexivity|constructor|cbn [levels]; lia]|].
    destruct (b =? 102) eqn:B3; [apply Nat.eqb_eq in B3; subst b; apply literal_inv in H; destruct H as [-> ->]; apply (X [102; 97; 108; 115; 101]); [reflexivity|constructor|cbn [levels]; lia]|].
    destruct (b =? 34) eqn:B4; [apply Nat.eqb_eq in B4; subst b|].
    { destruct (read_str (S (length q)) q) as [[x q']|] eqn:R; [|discriminate]. injection H as <- <-. apply read_str_inv in R. destruct R as (t & -> & T).
      apply (X (34 :: t ++ [34])); [cbn [app]; now rewrite <- app_assoc|constructor; exists t; split; auto|cbn [levels]; lia]. }
    destruct (b =? 91) eqn:B5; [apply Nat.eqb_eq in B5; subst b|].
    { destruct d as [|[|d]]; try discriminate. destruct (after 93 (skip_ws q)) as [q'|] eqn:A.
      - injection H as <- <-. destruct (skip_inv q) as (w' & W' & E). apply after_inv in A. rewrite A in E. subst q.
        apply (X (91 :: w' ++ [93])); [cbn [app]; now rewrite <- app_assoc|now constructor|cbn; lia].
      - destruct (read_list f (S d) q) as [[l q']|] eqn:R; [|discriminate]. injection H as <- <-. apply IH2 in R. destruct R as (t & -> & T & D).
        apply (X (91 :: t ++ [93])); [cbn [app]; now rewrite <- app_assoc|now constructor|]. cbn [levels pred]. cut (list_max (map levels l) <= d); [lia|]. apply list_max_le. rewrite Forall_map, Forall_forall. intros x Hx. pose proof (D x Hx) as Dx. cbn [pred] in Dx. lia. }
    destruct (b =? 123) eqn:B6; [apply Nat.eqb_eq in B6; subst b|].
    { destruct d as [|[|d]]; try discriminate. destruct (after 125 (skip_ws q)) as [q'|] eqn:A.
      - injection H as <- <-. destruct (skip_inv q) as (w' & W' & E). apply after_inv in A. rewrite A in E. subst q.
        apply (X (123 :: w' ++ [125])); [cbn [app]; now rewrite <- app_assoc|now constructor|cbn; lia].
      - destruct (read_members f (S d) q) as [[l q']|] eqn:R; [|discriminate]. injection H as <- <-. apply IH3 in R. destruct R as (t & -> & T & D).
        apply (X (123 :: t ++ [125])); [cbn [app]; now rewrite <- app_assoc|now constructor|]. cbn [levels pred]. cut (list_max (map (fun e => levels (snd e)) l) <= d); [lia|]. apply list_max_le. rewrite Forall_map, Forall_forall. intros [k x] Hx. pose proof (D k x Hx) as Dx. cbn [pred snd] in *. lia. }
    assert (forall m s j r, read_num m s = Some (j, r) -> levels j = 0) as Z.
    { clear. intros m s j r. unfold read_num. destruct (take_while digit s) as [|b l]; [discriminate|]. destruct (_ && _); [discriminate|]. destruct (read_frac _) as [[? ?]|]; [|discriminate]. destruct (read_exp _) as [[? ?]|]; [|discriminate].
      intro H. injection H as <- <-. match goal with |- levels (if ?c then _ else _) = 0 => destruct c end; reflexivity. }
    destruct (b =? 45) eqn:B7.
    + apply Nat.eqb_eq in B7. subst b. rewrite (Z _ _ _ _ H) in *. apply num_inv in H. destruct H as (t & -> & T). apply (X (45 :: t)); [reflexivity|exact T|lia].
    + rewrite (Z _ _ _ _ H) in *. apply num_inv in H. destruct H as (t & Et & T). apply (X t); [exact Et|exact T|lia].
  - intros d s l r. cbn [read_list]. destruct (read f d s) as [[x q]|] eqn:R; [|discriminate]. apply IH1 in R. destruct R as (w & t & -> & W & T & D). destruct (skip_inv q) as (w' & W' & E).
    destruct (after 93 (skip_ws q)) as [q'|] eqn:A.
    + intro H. injection H as <- <-. apply after_inv in A. rewrite A in E. subst q. exists (w ++ t ++ w'). split; [rewrite <- !app_assoc; reflexivity|]. split; [now constructor|]. intros j [<-|[]]. exact D.
    + destruct (after 44 (skip_ws q)) as [q'|] eqn:C; [|discriminate]. destruct (read_list f d q') as [[l' q2]|] eqn:R; [|discriminate]. intro H. injection H as <- <-. apply IH2 in R. destruct R as (t' & -> & T' & D').
      apply after_inv in C. rewrite C in E. rewrite E. exists (w ++ t ++ w' ++ 44 :: t'). split; [rewrite <- !app_assoc; reflexivity|]. split; [now constructor|]. intros j [<-|Hj]; [exact D|now apply D'].
  - intros d s l r. cbn [read_members]. destruct (skip_inv s) as (w & W & E). destruct (after 34 (skip_ws s)) as [q|] eqn:A; [|discriminate]. apply after_inv in A. rewrite A in E. rewrite E. clear A E s.
    destruct (read_str (S (length q)) q) as [[k q1]|] eqn:R; [|discriminate]. apply read_str_inv in R. destruct R as (tk & -> & K).
    destruct (skip_inv q1) as (w1 & W1 & E1). destruct (after 58 (skip_ws q1)) as [q2|] eqn:A; [|discriminate]. apply after_inv in A. rewrite A in E1. rewrite E1. clear A E1 q1.
    destruct (read f d q2) as [[x q]|] eqn:R; [|discriminate]. apply IH1 in R. destruct R as (w2 & t & -> & W2 & T & D). destruct (skip_inv q) as (w' & W' & E).
    assert (spells_str (34 :: tk ++ [34]) k) as SK by (exists tk; split; auto).
    destruct (after 125 (skip_ws q)) as [q'|] eqn:A.
    + intro H. injection H as <- <-. apply after_inv in A. rewrite A in E. subst q. exists (w ++ (34 :: tk ++ [34]) ++ w1 ++ 58 :: w2 ++ t ++ w').
      split; [ax; reflexivity|]. split; [now constructor|]. intros ? j [X|[]]. injection X as <- <-. exact D.
    + destruct (after 44 (skip_ws q)) as [q'|] eqn:C; [|discriminate]. destruct (read_members f d q') as [[l' q3]|] eqn:R; [|discriminate]. intro H. injection H as <- <-. apply IH3 in R. destruct R as (t' & -> & T' & D').
      apply after_inv in C. rewrite C in E. rewrite E. exists (w ++ (34 :: tk ++ [34]) ++ w1 ++ 58 :: w2 ++ t ++ w' ++ 44 :: t').
      split; [ax; reflexivity|]. split; [now constructor|]. intros ? j [X|Hj]; [injection X as <- <-; exact D|now apply D' in Hj].
Qed.
