(** C48: the client and the daemon agree on the session address. *)
From Coq Require Import String List Arith Lia Bool.
From Verif Require Import Base ListFacts Maps Fmt Keys Chars Utf8Spec Utf8Facts PropNormalize Session.
Import ListNotations.

(** ** specification *)
(** an ordinary file name that does not begin with an equal sign *)
Definition file_name_ok (n : text) : Prop := n <> [] /\ ~ In 47 n /\ n <> [46] /\ n <> [46; 46] /\ (forall r, n <> 61 :: r).

(** ** proofs *)
Lemma split_nonempty c s : split_on c s <> [].
Proof. destruct s as [|x r]; cbn [split_on]; [discriminate|]. destruct (x =? c); [discriminate|]. destruct (split_on c r); discriminate. Qed.
Lemma split_none c s : ~ In c s -> split_on c s = [s].
Proof.
  induction s as [|x r IH]; intro H; cbn [split_on]; auto. replace (x =? c) with false by (symmetry; apply Nat.eqb_neq; intros ->; apply H; now left).
  rewrite IH; auto. intro X. apply H. now right.
Qed.
Lemma split_cut c a r : ~ In c a -> split_on c (a ++ c :: r) = a :: split_on c r.
Proof.
  induction a as [|x a IH]; intro H; cbn [app split_on]; [now rewrite Nat.eqb_refl|].
  replace (x =? c) with false by (symmetry; apply Nat.eqb_neq; intros ->; apply H; now left). rewrite IH; auto. intro X. apply H. now right.
Qed.
Lemma split_app c a n : ~ In c n -> exists gs, split_on c (a ++ c :: n) = gs ++ [n].
Proof.
  intro H. induction a as [|x a (gs & IH)]; cbn [app split_on].
  - rewrite Nat.eqb_refl, split_none by auto. now exists [[]].
  - rewrite IH. destruct (x =? c); [exists ([] :: gs); reflexivity|]. destruct gs as [|g gs]; cbn [app]; [|exists ((x :: g) :: gs); reflexivity].
    exfalso. assert (length (split_on c (a ++ c :: n)) > 1) as L; [|rewrite IH in L; cbn in L; lia]. clear.
    induction a as [|x a IH]; cbn [app split_on]; [rewrite Nat.eqb_refl; cbn [length]; pose proof (split_nonempty c n); destruct (split_on c n); [congruence|cbn [length]; lia]|].
    destruct (x =? c); [cbn [length]; lia|]. destruct (split_on c (a ++ c :: n)); cbn [length] in *; lia.
Qed.
Lemma split_single c g : ~ In c g -> split_on c g = [g].
Proof. apply split_none. Qed.
Lemma split_join c gs : gs <> [] -> Forall (fun g => ~ In c g) gs -> split_on c (join [c] gs) = gs.
Proof.
  induction gs as [|g gs IH]; intros N F; [congruence|]. inversion F as [|? ? H F']; subst. destruct gs as [|h gs]; cbn [join]; [now apply split_none|].
  cbn [app]. rewrite split_cut by auto. f_equal. apply IH; [discriminate|auto].
Qed.
Lemma split_parts c s : Forall (fun g => ~ In c g) (split_on c s) /\ join [c] (split_on c s) = s.
Proof.
  induction s as [|x r [F J]]; cbn [split_on]; [split; [repeat constructor; auto|reflexivity]|]. destruct (Nat.eqb_spec x c) as [->|E].
  - split; [constructor; auto|]. pose proof (split_nonempty c r). destruct (split_on c r) as [|g gs]; [congruence|]. cbn [join app]. now rewrite <- J at 1.
  - pose proof (split_nonempty c r). destruct (split_on c r) as [|g gs]; [congruence|]. inversion F as [|? ? H1 F']; subst. split; [constructor; auto; intros [->|X]; auto|].
    destruct gs; cbn [join app]; reflexivity.
Qed.
Lemma push_file root n : root <> [] -> file_name_ok n -> exists pre, push root n = pre ++ 47 :: n.
Proof.
  intros R0 (N & S & _ & _ & _). unfold push. replace (absolute n) with false by (destruct n as [|x n]; [reflexivity|]; cbn [absolute]; do 48 (destruct x as [|x]; try reflexivity); exfalso; apply S; now left).
  destruct (rev root) as [|x r] eqn:E; [exfalso; apply R0; rewrite <- (rev_involutive root), E; reflexivity|]. assert (forall y, x = y -> root = rev r ++ [y]) as R by (intros y <-; rewrite <- (rev_involutive root), E; reflexivity).
  do 47 (destruct x as [|x]; [exists root; reflexivity|]). destruct x as [|x]; [|exists root; reflexivity].
  exists (rev r). rewrite (R 47 eq_refl), <- app_assoc. reflexivity.
Qed.
Lemma file_name_push root n : root <> [] -> file_name_ok n -> path_file_name (push root n) = Some n.
Proof.
  intros R0 F. assert (exists gs, split_on 47 (push root n) = gs ++ [n]) as (gs & E).
  { destruct (push_file root n R0 F) as (pre & ->). apply split_app. apply F. }
  unfold path_file_name, components. rewrite E, filter_app, rev_app_distr. destruct F as (N & S & D1 & D2 & _). cbn [filter].
  replace (eqb n []) with false by (symmetry; now apply eqb_neq). replace (eqb n [46]) with false by (symmetry; now apply eqb_neq). cbn [orb negb rev app].
  now replace (eqb n [46; 46]) with false by (symmetry; now apply eqb_neq).
Qed.
(** a path is never taken for an address *)
Lemma captures_parts u s a p : captures u s = Some (a, p) -> exists b, s = 64 :: b ++ [58] ++ p /\ re_digits u p = true /\ ~ In 58 b /\
  (a = None /\ b = [] \/ a = Some b /\ b <> [] /\ (re_words u b = true \/ re_dotted u b = true)).
Proof.
  unfold captures. destruct s as [|x r]; [discriminate|]. do 64 (destruct x as [|x]; [discriminate|]). destruct x as [|x]; [|discriminate].
  pose proof (split_parts 58 r) as [F J]. destruct (split_on 58 r) as [|b [|q [|? ?]]]; try discriminate. destruct (re_digits u q) eqn:Ed; [|discriminate].
  cbn [join] in J. inversion F as [|? ? Fb _]; subst. destruct (eqb b []) eqn:E0.
  - intro X. injection X as <- <-. apply eqb_ok in E0. subst b. exists []. repeat split; auto.
  - destruct (re_words u b || re_dotted u b) eqn:E; [|discriminate]. intro X. injection X as <- <-. exists b. split; auto. split; auto. split; auto. right. split; auto. split; [now apply eqb_neq|]. now apply orb_true_iff.
Qed.

Lemma word_slash u : re_word u [47] = false. Proof. reflexivity. Qed.
Lemma chars_slash (f : text -> bool) s : valid s -> In 47 s -> f [47] = false -> forallb f (chars s) = false.
Proof.
  intros V I H. destruct (chars_valid s V) as [F E]. rewrite <- E in I. apply in_concat in I. destruct I as (c & Ic & I7). rewrite Forall_forall in F.
  pose proof (char_ascii c 47 (F c Ic) I7 ltac:(lia)) as ->. destruct (forallb f (chars s)) eqn:X; auto. rewrite forallb_forall in X. rewrite (X _ Ic) in H. discriminate.
Qed.

Lemma valid_cut a c r : c < 128 -> valid (a ++ c :: r) -> valid a /\ valid r.
Proof.
  intros C (cs & F & E). revert a E. induction F as [|x cs Hx F IH]; intros a E; cbn [concat] in E.
  - exfalso. destruct a; discriminate.
  - destruct (le_lt_dec (length x) (length a)) as [L|L].
    + assert (exists a', a = x ++ a') as (a' & ->).
      { exists (skipn (length x) a). apply (f_equal (firstn (length x))) in E. rewrite !firstn_app, firstn_all, Nat.sub_diag, firstn_O, app_nil_r in E.
        replace (length x - length a) with 0 in E by lia. rewrite firstn_O, app_nil_r in E. rewrite <- E at 1. symmetry. apply firstn_skipn. }
      rewrite <- app_assoc in E. apply app_inv_head in E. destruct (IH a' E) as [Va Vr]. split; auto. apply valid_app; auto. exists [x]. split; [now constructor|]. cbn [concat]. now rewrite app_nil_r.
    + assert (In c x) as I. { rewrite <- (firstn_skipn (length a) x). apply in_or_app. right. assert (skipn (length a) (a ++ c :: r) = skipn (length a) (x ++ concat cs)) as S by now rewrite E.
        rewrite !skipn_app, skipn_all, Nat.sub_diag, skipn_O in S. cbn [app] in S. replace (length a - length x) with 0 in S by lia. rewrite skipn_O in S.
        destruct (skipn (length a) x) as [|y q] eqn:K; [|cbn [app] in S; injection S as ->; now left]. apply (f_equal (@length nat)) in K. rewrite skipn_length in K. cbn in K. lia. }
      pose proof (char_ascii x c Hx I C) as ->. cbn [length] in L. destruct a; [|cbn in L; lia]. cbn [app] in E. injection E as E. split; [apply valid_nil|]. rewrite E. now exists cs.
Qed.
Lemma split_valid c s : c < 128 -> valid s -> Forall valid (split_on c s).
Proof.
  intros C V. destruct (split_parts c s) as [F J]. rewrite <- J in V. clear J. induction (split_on c s) as [|g gs IH]; [constructor|]. inversion F as [|? ? Fg Fgs]; subst.
  destruct gs as [|h gs]; [now constructor|]. cbn [join] in V. change (g ++ [c] ++ join [c] (h :: gs)) with (g ++ c :: join [c] (h :: gs)) in V. apply valid_cut in V; auto. destruct V. constructor; auto.
Qed.
Lemma valid_tail c r : c < 128 -> valid (c :: r) -> valid r.
Proof. intros C V. change (c :: r) with ([] ++ c :: r) in V. now apply valid_cut in V. Qed.
Lemma join_in sep gs x : In x (join [sep] gs) -> x = sep \/ exists g, In g gs /\ In x g.
Proof.
  induction gs as [|g gs IH]; cbn [join]; [intros []|]. destruct gs as [|h gs]; [eauto using in_eq|]. intro H. apply in_app_or in H. destruct H as [H|H]; [eauto using in_eq|].
  apply in_app_or in H. destruct H as [[->|[]]|H]; auto. destruct (IH H) as [->|(g' & A & B)]; eauto using in_cons.
Qed.
Lemma digits_noslash u s : valid s -> re_digits u s = true -> ~ In 47 s.
Proof. intros V H I. unfold re_digits in H. rewrite (chars_slash _ _ V I) in H by reflexivity. rewrite andb_false_r in H. discriminate. Qed.
Lemma path_no_addr u s : valid s -> In 47 s -> captures u s = None.
Proof.
  intros V I. destruct (captures u s) as [[a p]|] eqn:E; auto. exfalso. apply captures_parts in E. destruct E as (b & -> & D & Nb & H).
  apply valid_tail in V; [|lia]. apply valid_cut in V; [|lia]. destruct V as [Vb Vp]. destruct I as [I|I]; [discriminate|]. apply in_app_or in I. destruct I as [I|[I|I]]; [|discriminate|eapply digits_noslash; eauto].
  destruct H as [[_ ->]|(_ & _ & [W|W])]; [destruct I|unfold re_words in W; rewrite (chars_slash _ _ Vb I) in W by reflexivity; rewrite andb_false_r in W; discriminate|].
  unfold re_dotted in W. pose proof (split_valid 46 b ltac:(lia) Vb) as FV. destruct (split_parts 46 b) as [_ J]. destruct (split_on 46 b) as [|w [|x [|y [|z [|? ?]]]]]; try discriminate.
  rewrite <- J in I. apply join_in in I. destruct I as [I|(g & Ig & I)]; [discriminate|]. rewrite !andb_true_iff in W. destruct W as [[[W1 [W2 _]] W3] W4].
  rewrite Forall_forall in FV. pose proof (FV g Ig) as Vg. destruct Ig as [<-|[<-|[<-|[<-|[]]]]]; eapply digits_noslash; eauto.
Qed.
Lemma is_tcp_none u s : captures u s = None -> is_tcp u s = false.
Proof. unfold is_tcp. now intros ->. Qed.
Lemma from_file u root n : root <> [] -> valid root -> valid n -> file_name_ok n -> is_tcp u n = false -> from_name u root n = Ok (Socket (push root n)).
Proof.
  intros R VR VN F T. unfold from_name. rewrite T. unfold parse_mode. rewrite path_no_addr; auto.
  - unfold push. destruct (absolute n); auto. destruct (rev root) as [|x r]; auto.
    assert (valid (root ++ [47] ++ n)) as A. { apply valid_app; auto. apply valid_app; auto. exists [[47]]. split; [constructor; [|constructor]|reflexivity]. unfold is_char; cbn; lia. }
    do 47 (destruct x as [|x]; auto). destruct x; auto. now apply valid_app.
  - destruct (push_file root n R F) as (pre & ->). apply in_or_app. right. now left.
Qed.

Lemma chars_ascii s : Forall (fun b => b < 128) s -> chars s = map (fun b => [b]) s.
Proof.
  intro F. rewrite <- (chars_concat (map (fun b => [b]) s)).
  - f_equal. induction s as [|b s IH]; cbn [map concat app]; auto. f_equal. apply IH. now inversion F.
  - apply Forall_forall. intros c Hc. apply in_map_iff in Hc. destruct Hc as (b & <- & Hb). rewrite Forall_forall in F. specialize (F b Hb). unfold is_char. cbn. lia.
Qed.
Lemma digit_range b : digit b = true <-> 48 <= b <= 57.
Proof. unfold digit. rewrite andb_true_iff, !Nat.leb_le. reflexivity. Qed.
Lemma re_digits_ascii u s : s <> [] -> Forall (fun b => digit b = true) s -> re_digits u s = true.
Proof.
  intros N F. unfold re_digits. apply andb_true_iff. split; [apply negb_true_iff; now apply eqb_neq|]. rewrite chars_ascii.
  - apply forallb_forall. intros c Hc. apply in_map_iff in Hc. destruct Hc as (b & <- & Hb). rewrite Forall_forall in F. now apply F.
  - eapply Forall_impl; [|exact F]. intros b Hb. apply digit_range in Hb. lia.
Qed.
Lemma digits_no c s : Forall (fun b => digit b = true) s -> ~ (48 <= c <= 57) -> ~ In c s.
Proof. intros F N I. rewrite Forall_forall in F. apply N. apply digit_range. auto. Qed.
Lemma dec_octet n : n < 256 -> octet (dec n) = Some n.
Proof.
  intro H. assert (forallb (fun n => match octet (dec n) with Some m => m =? n | None => false end) (seq 0 256) = true) as A by (vm_compute; reflexivity).
  rewrite forallb_forall in A. specialize (A n ltac:(apply in_seq; lia)). destruct (octet (dec n)); [|discriminate]. apply Nat.eqb_eq in A. now subst.
Qed.
Lemma dec_one n : n < 10 -> dec n = [48 + n].
Proof. intro H. unfold dec. cbn [dec_fuel]. now replace (n <? 10) with true by (symmetry; now apply Nat.ltb_lt). Qed.
Lemma dec_port n : n < ports -> parse_port (dec n) = Some n.
Proof.
  intro H. unfold parse_port. rewrite dec_value. replace (n <? ports) with true by (symmetry; now apply Nat.ltb_lt).
  replace (negb (eqb (dec n) [])) with true by (symmetry; apply negb_true_iff; apply eqb_neq; apply dec_nonempty).
  replace (forallb digit (dec n)) with true; [reflexivity|]. symmetry. apply forallb_forall. pose proof (dec_digits n) as F. now rewrite Forall_forall in F.
Qed.
Definition canonical (a : addr) : Prop := exists w x y z, octets a = [w; x; y; z] /\ w < 256 /\ x < 10 /\ y < 256 /\ z < 256 /\ port a < ports.
Lemma canonical_groups a : canonical a -> split_on 46 (join [46] (map dec (octets a))) = map dec (octets a) /\ ~ In 58 (join [46] (map dec (octets a))).
Proof.
  intros (w & x & y & z & E & _). rewrite E. split.
  - apply split_join; [discriminate|]. apply Forall_forall. intros g Hg. apply in_map_iff in Hg. destruct Hg as (n & <- & _). apply digits_no; [apply dec_digits|lia].
  - intro I. apply join_in in I. destruct I as [I|(g & Hg & I)]; [discriminate|]. apply in_map_iff in Hg. destruct Hg as (n & <- & _). revert I. apply digits_no; [apply dec_digits|lia].
Qed.
Lemma captures_canonical u a : canonical a -> captures u (64 :: show_addr a) = Some (Some (join [46] (map dec (octets a))), dec (port a)).
Proof.
  intro C. destruct (canonical_groups a C) as [G N]. unfold captures, show_addr. cbn [app]. rewrite split_cut by auto. rewrite split_none by (apply digits_no; [apply dec_digits|lia]).
  rewrite re_digits_ascii by (apply dec_nonempty || apply dec_digits).
  replace (re_dotted u (join [46] (map dec (octets a)))) with true.
  - rewrite orb_true_r. replace (eqb (join [46] (map dec (octets a))) []) with false; auto. symmetry. apply eqb_neq. destruct C as (w & x & y & z & E & _). rewrite E.
    cbn [map join]. intro X. apply app_eq_nil in X. destruct X as [X _]. now apply dec_nonempty in X.
  - unfold re_dotted. rewrite G. destruct C as (w & x & y & z & E & _ & X & _). rewrite E. cbn [map]. rewrite !re_digits_ascii by (apply dec_nonempty || apply dec_digits).
    rewrite (dec_one x X). rewrite chars_ascii by (apply Forall_cons; [lia|apply Forall_nil]). reflexivity.
Qed.
Lemma parse_canonical a : canonical a -> parse_addr (join [46] (map dec (octets a)) ++ [58] ++ dec (port a)) = Some a.
Proof.
  intro C. destruct (canonical_groups a C) as [G N]. unfold parse_addr. cbn [app]. rewrite split_cut by auto. rewrite split_none by (apply digits_no; [apply dec_digits|lia]).
  rewrite G. destruct C as (w & x & y & z & E & W & X & Y & Z & P). rewrite E. cbn [map]. rewrite dec_port by exact P; clear P; rewrite !dec_octet by lia. destruct a. cbn in *. now subst.
Qed.
Lemma octet_value g n : octet g = Some n -> n < 256 /\ n = value g /\ Forall (fun b => digit b = true) g.
Proof.
  unfold octet. destruct (_ && _) eqn:E; [|discriminate]. intro X. injection X as <-. rewrite !andb_true_iff in E. destruct E as [[[[_ D] _] _] V]. apply Nat.ltb_lt in V. split; auto. split; auto.
  apply Forall_forall. now apply forallb_forall.
Qed.
Lemma words_dot u s : valid s -> re_words u s = true -> ~ In 46 s.
Proof.
  intros V H I. unfold re_words in H. apply andb_true_iff in H. destruct H as [_ H]. destruct (chars_valid s V) as [F E]. rewrite <- E in I. apply in_concat in I. destruct I as (c & Ic & I4).
  rewrite Forall_forall in F. pose proof (char_ascii c 46 (F c Ic) I4 ltac:(lia)) as ->. rewrite forallb_forall in H. specialize (H _ Ic). discriminate.
Qed.
Lemma parse_addr_parts a' p r : ~ In 58 a' -> parse_addr (a' ++ [58] ++ p) = Some r ->
  exists w x y z, split_on 46 a' = [w; x; y; z] /\ map octet [w; x; y; z] = map Some (octets r) /\ parse_port p = Some (port r).
Proof.
  intros N H. unfold parse_addr in H. cbn [app] in H. rewrite split_cut in H by auto. destruct (split_on 58 p) as [|q [|? ?]] eqn:Eq; try discriminate.
  pose proof (split_parts 58 p) as [_ J]. rewrite Eq in J. cbn [join] in J. subst q.
  destruct (split_on 46 a') as [|w [|x [|y [|z [|v l]]]]]; cbn [map] in H; repeat (match type of H with context [match ?o with _ => _ end] => destruct o eqn:?; try discriminate end); try discriminate.
  injection H as <-. exists w, x, y, z. split; auto. split; auto. cbn [map octets]. congruence.
Qed.
Lemma from_tcp u root n a : valid n -> from_name u root n = Ok (Tcp a) -> canonical a /\ is_tcp u n = true \/ captures u (push root n) <> None.
Proof.
  intros V H. unfold from_name in H. destruct (is_tcp u n) eqn:T.
  - left. split; auto. unfold parse_mode in H. destruct (captures u n) as [[ao p]|] eqn:E; [|discriminate]. pose proof (captures_parts _ _ _ _ E) as (b & -> & D & Nb & Hb).
    apply valid_tail in V; [|lia]. apply valid_cut in V; [|lia]. destruct V as [Vb Vp]. destruct (parse_addr _) as [r|] eqn:Ep; [|discriminate]. cbn [unwrap bind] in H. injection H as ->.
    destruct Hb as [[-> ->]|(-> & Nn & Hb)].
    + apply parse_addr_parts in Ep; [|cbn; lia]. destruct Ep as (w & x & y & z & S & O & P). change (split_on 46 (str "127.0.0.1")) with [str "127"; str "0"; str "0"; str "1"] in S. injection S as <- <- <- <-.
      change (map octet _) with [Some 127; Some 0; Some 0; Some 1] in O. destruct a as [o q]. cbn [octets port] in *. exists 127, 0, 0, 1. repeat split; try lia.
      * destruct o as [|o1 [|o2 [|o3 [|o4 [|o5 o]]]]]; try discriminate. cbn [map] in O. now injection O as <- <- <- <-.
      * cbn [port]. unfold parse_port in P. destruct (_ && _) eqn:X; [|discriminate]. injection P as <-. rewrite !andb_true_iff in X. destruct X as [_ X]. now apply Nat.ltb_lt in X.
    + apply parse_addr_parts in Ep; auto. destruct Ep as (w & x & y & z & S & O & P). destruct Hb as [W|W].
      { exfalso. pose proof (words_dot u b Vb W) as ND. rewrite split_none in S by auto. discriminate. }
      unfold re_dotted in W. rewrite S in W. pose proof (split_valid 46 b ltac:(lia) Vb) as FV. rewrite S in FV. rewrite !andb_true_iff in W. destruct W as [[[_ [_ L]] _] _]. apply Nat.eqb_eq in L.
      destruct a as [o q]. cbn [octets port] in *. destruct o as [|o1 [|o2 [|o3 [|o4 [|o5 o]]]]]; try discriminate. cbn [map] in O. injection O as O1 O2 O3 O4.
      apply octet_value in O1, O2, O3, O4. destruct O1 as [L1 _], O3 as [L3 _], O4 as [L4 _], O2 as (_ & -> & Fx). exists o1, (value x), o3, o4. repeat split; auto.
      * rewrite chars_ascii in L by (eapply Forall_impl; [|exact Fx]; intros ? X; apply digit_range in X; lia). rewrite map_length in L. destruct x as [|d [|? ?]]; try discriminate.
        inversion Fx as [|? ? Hd _]; subst. apply digit_range in Hd. unfold value. cbn [fold_left]. lia.
      * cbn [port]. unfold parse_port in P. destruct (_ && _) eqn:X; [|discriminate]. injection P as <-. rewrite !andb_true_iff in X. destruct X as [_ X]. now apply Nat.ltb_lt in X.
  - right. intro X. unfold parse_mode in H. rewrite X in H. discriminate.
Qed.
Lemma push_valid root n : valid root -> valid n -> valid (push root n).
Proof.
  intros VR VN. unfold push. destruct (absolute n); auto. destruct (rev root) as [|x r]; auto.
  assert (valid (root ++ [47] ++ n)) as A. { apply valid_app; auto. apply valid_app; auto. exists [[47]]. split; [constructor; [|constructor]|reflexivity]. unfold is_char; cbn; lia. }
  do 47 (destruct x as [|x]; auto). destruct x; auto. now apply valid_app.
Qed.
Lemma push_slash root n : root <> [] -> In 47 (push root n).
Proof.
  intros R. unfold push. destruct (absolute n) eqn:A.
  - destruct n as [|x n]; [discriminate|]. left. unfold absolute in A. do 47 (destruct x as [|x]; [discriminate|]). destruct x; [reflexivity|discriminate].
  - destruct (rev root) as [|x r] eqn:E; [exfalso; apply R; rewrite <- (rev_involutive root), E; reflexivity|].
    assert (In 47 (root ++ [47] ++ n)) as I by (apply in_or_app; right; now left).
    assert (x = 47 -> In 47 (root ++ n)) as I'. { intros ->. apply in_or_app. left. rewrite <- (rev_involutive root), E. cbn [rev]. apply in_or_app. right. now left. }
    do 47 (destruct x as [|x]; auto). destruct x; auto.
Qed.

(** For a session given by an address, or by an ordinary file name, the daemon listens where the client connects. *)
Theorem C48_partial : forall u root n m, root <> [] -> valid root -> valid n -> from_name u root n = Ok m ->
  (exists a, m = Tcp a) \/ file_name_ok n -> daemon u root m = Ok m.
Proof.
  intros u root n m R VR VN E H. assert (captures u (push root n) = None) as K by (apply path_no_addr; [now apply push_valid|now apply push_slash]).
  destruct m as [p|a].
  - destruct H as [(a & X)|F]; [discriminate|]. destruct (is_tcp u n) eqn:T.
    { exfalso. unfold from_name in E. rewrite T in E. unfold is_tcp in T. unfold parse_mode in E. destruct (captures u n) as [[ao q]|]; [|discriminate]. destruct (parse_addr _); discriminate. }
    rewrite (from_file u root n) in E by auto. injection E as <-. unfold daemon, session_arg. cbn [show_mode]. rewrite file_name_push by auto. cbn [unwrap bind].
    unfold clap_value. rewrite skipn_app. change (skipn (length (str "--session")) (str "--session=")) with [61]. change (length (str "--session") - length (str "--session=")) with 0. rewrite skipn_O.
    cbn [app drop_while]. replace (61 =? 61) with true by reflexivity. replace (drop_while (fun b => b =? 61) n) with n.
    + destruct n as [|x n]; [destruct F; congruence|]. now apply from_file.
    + destruct F as (_ & _ & _ & _ & F). destruct n as [|x n]; auto. cbn [drop_while]. destruct (Nat.eqb_spec x 61) as [->|]; auto. exfalso. now apply (F n).
  - clear H. destruct (from_tcp u root n a VN E) as [[C T]|X]; [|congruence]. unfold daemon, session_arg. cbn [show_mode bind app].
    unfold clap_value. change (str "--session=" ++ 64 :: show_addr a) with (str "--session" ++ 61 :: 64 :: show_addr a). rewrite skipn_app, skipn_all, Nat.sub_diag, skipn_O. cbn [app drop_while].
    replace (61 =? 61) with true by reflexivity. replace (64 =? 61) with false by reflexivity. unfold from_name, is_tcp. rewrite captures_canonical by auto. unfold parse_mode. rewrite captures_canonical by auto.
    rewrite parse_canonical by auto. reflexivity.
Qed.
Print Assumptions C48_partial.
(** ordinary names that do not look like an address are accepted *)
Theorem C48_accepted : forall u root n, root <> [] -> valid root -> valid n -> file_name_ok n -> (forall r, n <> 64 :: r) ->
  from_name u root n = Ok (Socket (push root n)).
Proof.
  intros u root n R VR VN F N. apply from_file; auto. apply is_tcp_none. unfold captures. destruct n as [|x r]; auto. do 64 (destruct x as [|x]; auto). destruct x; auto. exfalso. now apply (N r).
Qed.
Print Assumptions C48_accepted.
(** A name with a directory in it: the daemon never listens where the client connects. *)
Theorem C48_refuted : forall u root d n, root <> [] -> valid root -> valid d -> valid n -> file_name_ok d -> file_name_ok n ->
  exists m, from_name u root (d ++ 47 :: n) = Ok m /\ daemon u root m <> Ok m.
Proof.
  intros u root d n R VR Vd Vn Fd Fn. set (name := d ++ 47 :: n).
  assert (valid name) as V. { apply valid_app; auto. change (47 :: n) with ([47] ++ n). apply valid_app; auto. exists [[47]]. split; [constructor; [|constructor]|reflexivity]. unfold is_char; cbn; lia. }
  exists (Socket (push root name)). unfold from_name. rewrite is_tcp_none by (apply path_no_addr; auto; unfold name; apply in_or_app; right; now left). unfold parse_mode. rewrite path_no_addr by (apply push_valid || apply push_slash; auto). split; auto.
  unfold daemon, session_arg. cbn [show_mode]. assert (path_file_name (push root name) = Some n) as ->.
  { assert (exists gs, split_on 47 (push root name) = gs ++ [n]) as (gs & E).
    { unfold push. destruct (absolute name); [apply split_app; apply Fn|]. destruct (rev root) as [|x r]; [apply split_app; apply Fn|].
      assert (exists gs, split_on 47 (root ++ name) = gs ++ [n]) as A by (unfold name; rewrite app_assoc; apply split_app; apply Fn).
      assert (exists gs, split_on 47 (root ++ [47] ++ name) = gs ++ [n]) as B by (unfold name; rewrite !app_assoc; apply split_app; apply Fn).
      do 47 (destruct x as [|x]; [exact B|]). destruct x; [exact A|exact B]. }
    unfold path_file_name, components. rewrite E, filter_app, rev_app_distr. destruct Fn as (N & S & D1 & D2 & _). cbn [filter].
    replace (eqb n []) with false by (symmetry; now apply eqb_neq). replace (eqb n [46]) with false by (symmetry; now apply eqb_neq). cbn [orb negb rev app].
    now replace (eqb n [46; 46]) with false by (symmetry; now apply eqb_neq). }
  cbn [unwrap bind]. unfold clap_value. rewrite skipn_app. change (skipn (length (str "--session")) (str "--session=")) with [61]. change (length (str "--session") - length (str "--session=")) with 0. rewrite skipn_O.
  cbn [app drop_while]. replace (61 =? 61) with true by reflexivity. replace (drop_while (fun b => b =? 61) n) with n.
  2:{ destruct Fn as (_ & _ & _ & _ & F). destruct n as [|x n]; auto. cbn [drop_while]. destruct (Nat.eqb_spec x 61) as [->|]; auto. exfalso. now apply (F n). }
  destruct n as [|x n']; [destruct Fn; congruence|]. set (n := x :: n') in *. unfold from_name. intro E.
  assert (captures u (push root n) = None) as K by (apply path_no_addr; [now apply push_valid|now apply push_slash]). destruct (is_tcp u n) eqn:T.
  - unfold is_tcp in T. unfold parse_mode in E. destruct (captures u n) as [[ao q]|]; [|discriminate]. destruct (parse_addr _); discriminate.
  - unfold parse_mode in E. rewrite K in E. injection E as E. apply (f_equal (@length nat)) in E. revert E.
    assert (length n < length name) as L by (unfold name; rewrite app_length; cbn [length]; lia). clearbody n.
    assert (absolute n = false) as An. { destruct Fn as (_ & S & _). destruct n as [|y q]; [reflexivity|]. unfold absolute. do 47 (destruct y as [|y]; auto). destruct y; auto. exfalso. apply S. now left. }
    assert (absolute name = false) as Ad. { unfold name. destruct Fd as (N & S & _). destruct d as [|y q]; [congruence|]. cbn [app]. unfold absolute. do 47 (destruct y as [|y]; auto). destruct y; auto. exfalso. apply S. now left. }
    unfold push. rewrite An, Ad. destruct (rev root) as [|y r]; [lia|].
    assert (length (root ++ n) <> length (root ++ name)) as A by (rewrite !app_length; lia). assert (length (root ++ [47] ++ n) <> length (root ++ [47] ++ name)) as B by (rewrite !app_length; lia).
    do 47 (destruct y as [|y]; [exact B|]). destruct y; [exact A|exact B].
Qed.
Print Assumptions C48_refuted.
(** A host name or anything else that is one word crashes the client. *)
Theorem C48_refuted_host : forall u root w p, w <> [] -> Forall (fun b => 65 <= b <= 90 \/ 97 <= b <= 122) w -> p <> [] -> Forall (fun b => digit b = true) p ->
  from_name u root (64 :: w ++ [58] ++ p) = Panic "invalid address".
Proof.
  intros u root w p N F Np Fp. assert (forall c, c < 65 -> ~ In c w) as Nw by (intros c C I; rewrite Forall_forall in F; specialize (F c I); lia).
  assert (captures u (64 :: w ++ [58] ++ p) = Some (Some w, p)) as C.
  { unfold captures. cbn [app]. rewrite split_cut by (apply Nw; lia). rewrite split_none by (apply digits_no; auto; lia). rewrite re_digits_ascii by auto.
    replace (eqb w []) with false by (symmetry; now apply eqb_neq). replace (re_words u w) with true; [reflexivity|]. symmetry. unfold re_words. replace (eqb w []) with false by (symmetry; now apply eqb_neq).
    rewrite chars_ascii by (eapply Forall_impl; [|exact F]; cbn; lia). cbn [negb andb]. apply forallb_forall. intros c Hc. apply in_map_iff in Hc. destruct Hc as (b & <- & Hb). rewrite Forall_forall in F. specialize (F b Hb).
    cbn [re_word]. destruct F as [[A B]|[A B]]; [apply Nat.leb_le in A, B; rewrite A, B; cbn [andb]; now rewrite orb_true_r|].
    apply Nat.leb_le in A, B. rewrite A, B. cbn [andb]. now rewrite !orb_true_r. }
  unfold from_name, is_tcp. rewrite C. unfold parse_mode. rewrite C. destruct (parse_addr (w ++ [58] ++ p)) as [r|] eqn:E; auto. exfalso.
  apply parse_addr_parts in E; [|apply Nw; lia]. destruct E as (a & b & c & d & S & _). rewrite split_none in S by (apply Nw; lia). discriminate.
Qed.
Print Assumptions C48_refuted_host.

(** The name [..] is accepted by the client, and makes starting the daemon panic. *)
Theorem C48_refuted_dots : forall u root, root <> [] -> valid root ->
  from_name u root [46; 46] = Ok (Socket (push root [46; 46])) /\ daemon u root (Socket (push root [46; 46])) = Panic "called Option::unwrap on None".
Proof.
  intros u root R VR. assert (valid [46; 46]) as V by (exists [[46]; [46]]; split; [repeat (constructor; [unfold is_char; cbn; lia|]); constructor|reflexivity]). split.
  - unfold from_name. rewrite is_tcp_none by reflexivity. unfold parse_mode. rewrite path_no_addr by (apply push_valid || apply push_slash; auto). reflexivity.
  - assert (exists pre, push root [46; 46] = pre ++ 47 :: [46; 46]) as (pre & ->).
    { unfold push. cbn [absolute]. destruct (rev root) as [|x r] eqn:E; [exfalso; apply R; rewrite <- (rev_involutive root), E; reflexivity|]. assert (forall y, x = y -> root = rev r ++ [y]) as Q by (intros y <-; rewrite <- (rev_involutive root), E; reflexivity).
      do 47 (destruct x as [|x]; [exists root; reflexivity|]). destruct x as [|x]; [|exists root; reflexivity]. exists (rev r). rewrite (Q 47 eq_refl), <- app_assoc. reflexivity. }
    unfold daemon, session_arg. cbn [show_mode]. unfold path_file_name, components. destruct (split_app 47 pre [46; 46]) as (gs & E); [cbn; lia|]. rewrite E, filter_app, rev_app_distr. reflexivity.
Qed.
Print Assumptions C48_refuted_dots.

Definition ascii_only : classes := {| u_word := fun _ => false; u_digit := fun _ => false |}.
Definition root := str "/tmp/ced-u".
Example C48_demo :
  from_name ascii_only root (str "work") = Ok (Socket (str "/tmp/ced-u/work")) /\ daemon ascii_only root (Socket (str "/tmp/ced-u/work")) = Ok (Socket (str "/tmp/ced-u/work")) /\
  from_name ascii_only root (str "@:88") = Ok (Tcp {| octets := [127; 0; 0; 1]; port := 88 |}) /\ from_name ascii_only root (str "@10.2.30.4:88") = Ok (Tcp {| octets := [10; 2; 30; 4]; port := 88 |}) /\
  daemon ascii_only root (Tcp {| octets := [10; 2; 30; 4]; port := 88 |}) = Ok (Tcp {| octets := [10; 2; 30; 4]; port := 88 |}) /\
  from_name ascii_only root (str "@10.20.30.4:88") = Ok (Socket (str "/tmp/ced-u/@10.20.30.4:88")) /\
  daemon ascii_only root (Socket (str "/tmp/ced-u/a/b")) = Ok (Socket (str "/tmp/ced-u/b")) /\ daemon ascii_only root (Socket (str "/tmp/ced-u/")) = Ok (Socket (str "/tmp/ced-u/ced-u")) /\
  daemon ascii_only root (Socket (str "/tmp/ced-u/..")) = Panic "called Option::unwrap on None" /\ file_name_ok (str "work").
Proof. repeat (split; [vm_compute; reflexivity|]). repeat split; try discriminate. vm_compute. lia. Qed.
