(** C89: the command line. *)
From Coq Require Import String List Arith Lia Bool.
From Verif Require Import Base Maps Cli CliSpec Fmt Chars Keys Session PropSession.
Import ListNotations.

(** ** what was found, wish by wish *)
Definition add (s : found) (w : wish) : found :=
  match w with
  | WList => flag_l s
  | WSession x => once_more OSession (value_too OSession x s)
  | WMode m => once_more OMode (value_too OMode (mode_name m) s)
  | WFile f => files_too [f] s
  end.
Definition adds (ws : list wish) (s : found) : found := fold_left add ws s.
Lemma adds_app a b s : adds (a ++ b) s = adds b (adds a s).
Proof. apply fold_left_app. Qed.
Lemma swap o x s : value_too o x (once_more o s) = once_more o (value_too o x s).
Proof. destruct o; reflexivity. Qed.
Lemma files_too_app a b s : files_too b (files_too a s) = files_too (a ++ b) s.
Proof. unfold files_too. cbn. now rewrite app_assoc. Qed.
Lemma files_none s : files_too [] s = s.
Proof. destruct s. unfold files_too. cbn. now rewrite app_nil_r. Qed.
Lemma adds_files l : forall s, adds (map WFile l) s = files_too l s.
Proof. unfold adds. induction l as [|f l IH]; intro s; cbn [map fold_left]; [now rewrite files_none|]. rewrite IH. cbn [add]. now rewrite files_too_app. Qed.

(** ** arguments *)
Lemma eqb_false (a b : text) : a <> b -> eqb a b = false.
Proof. intro N. destruct (eqb a b) eqn:E; auto. apply eqb_ok in E. contradiction. Qed.
Lemma eqb_same (a : text) : eqb a a = true.
Proof. now apply eqb_ok. Qed.
Lemma alone_arg x : alone x -> eqb x (str "--") = false /\ new_arg x = false.
Proof.
  intros [H| ->]; [|split; reflexivity]. split.
  - apply eqb_false. intros ->. now apply (H [45]).
  - destruct x as [|b r]; auto. assert (b <> 45) as N by (intros ->; now apply (H r)). unfold new_arg. do 45 (destruct b as [|b]; auto). destruct b; auto. lia.
Qed.
Lemma alone_dec x : new_arg x = false -> alone x.
Proof.
  intro H. destruct x as [|b r]; [left; discriminate|]. destruct (Nat.eq_dec b 45) as [->|N]; [|left; intros q E; injection E; auto].
  destruct r; [now right|discriminate].
Qed.
Lemma new_arg_dash x : new_arg x = true -> exists b r, x = 45 :: b :: r.
Proof.
  destruct x as [|b x]; [discriminate|]. unfold new_arg. do 45 (destruct b as [|b]; [discriminate|]). destruct b as [|b]; [|discriminate]. destruct x as [|c x]; [discriminate|]. eauto.
Qed.
Definition undashed (n : text) : Prop := exists b r, n = b :: r /\ b <> 45.
Lemma drop_dashes k n : undashed n -> drop_while (fun b => b =? 45) (repeat 45 k ++ n) = n.
Proof. intros (b & r & -> & N). induction k as [|k IH]; cbn [repeat app drop_while]; [apply Nat.eqb_neq in N; now rewrite N|exact IH]. Qed.
Lemma drop_eqs k x : no_eq x -> drop_while (fun b => b =? 61) (repeat 61 k ++ x) = x.
Proof.
  intro N. induction k as [|k IH]; cbn [repeat app drop_while]; [|exact IH]. destruct x as [|b r]; auto. cbn [drop_while]. destruct (Nat.eqb_spec b 61) as [->|]; auto. now destruct (N r).
Qed.
Lemma split_name n e : ~ In 61 n -> (e = [] \/ exists y, e = 61 :: y) -> split_eq (n ++ e) = (n, match e with [] => None | _ :: y => Some y end).
Proof.
  intros N H. induction n as [|b n IH]; cbn [app split_eq].
  - destruct H as [->|(y & ->)]; reflexivity.
  - destruct (Nat.eqb_spec b 61) as [->|]; [exfalso; apply N; now left|]. rewrite IH by (intro I; apply N; now right). reflexivity.
Qed.
Lemma long_dashed d n : undashed n -> let a := repeat 45 (2 + d) ++ n in
  eqb a (str "--") = false /\ new_arg a = true /\ eqb (firstn 2 a) (str "--") = true /\ drop_while (fun b => b =? 45) a = n.
Proof.
  intros U a. destruct (U) as (b & r & -> & N). unfold a. split; [|split; [reflexivity|split; [reflexivity|]]].
  - apply eqb_false. intro E. apply (f_equal (@length nat)) in E. rewrite app_length, repeat_length in E. cbn in E. lia.
  - now apply (drop_dashes (2 + d)).
Qed.
Lemma short_dashed r b : b <> 45 -> let a := 45 :: b :: r in eqb a (str "--") = false /\ new_arg a = true /\ eqb (firstn 2 a) (str "--") = false.
Proof. intros N a. split; [|split; [reflexivity|]]; apply eqb_false; unfold a; cbn; congruence. Qed.
Fixpoint lists (j : nat) (s : found) : found := match j with 0 => s | S j => lists j (flag_l s) end.
Lemma adds_lists j : forall s, adds (repeat WList j) s = lists j s.
Proof. induction j as [|j IH]; intro s; [reflexivity|]. cbn [repeat lists]. rewrite <- IH. reflexivity. Qed.
Lemma short_lists j r : forall s, parse_short (repeat 108 j ++ r) s = parse_short r (lists j s).
Proof. induction j as [|j IH]; intro s; [reflexivity|]. cbn [repeat app lists]. rewrite <- IH. reflexivity. Qed.

Definition the_opt (w : wish) (o : opt) (x : text) : Prop := option_of w = Some (long_of o, letter_of o, x) /\ forall s, add s w = once_more o (value_too o x s).
Lemma the_opt_of w n c x : option_of w = Some (n, c, x) -> exists o, n = long_of o /\ c = letter_of o /\ forall s, add s w = once_more o (value_too o x s).
Proof. destruct w; try discriminate; intro E; injection E as <- <- <-; [exists OSession|exists OMode]; repeat split. Qed.
Lemma undashed_opt o e : undashed (long_of o ++ e).
Proof. destruct o; [exists 115, (str "ession" ++ e)|exists 109, (str "ode" ++ e)]; split; try reflexivity; discriminate. Qed.
Lemma undashed_opt0 o : undashed (long_of o).
Proof. rewrite <- (app_nil_r (long_of o)). apply undashed_opt. Qed.
Lemma undashed_list e : undashed (str "list" ++ e).
Proof. exists 108, (str "ist" ++ e). split; [reflexivity|discriminate]. Qed.
Lemma long_parse d o e s : (e = [] \/ exists y, e = 61 :: y) ->
  parse_long (repeat 45 (2 + d) ++ long_of o ++ e) s = inl (parse_opt o (match e with [] => None | _ :: y => Some y end) s).
Proof.
  intro H. unfold parse_long. pose proof (undashed_opt o e) as U.
  rewrite drop_dashes by auto. rewrite split_name; auto; [|destruct o; cbn; lia]. destruct o; reflexivity.
Qed.
Lemma short_parse o r s : parse_short (letter_of o :: r) s = inl (parse_opt o (rest_of r) s).
Proof. destruct o; reflexivity. Qed.
Lemma letter_short o : letter_of o <> 45.
Proof. destruct o; cbn; lia. Qed.

(** reading one spelling *)
Lemma read_long a r s p : eqb a (str "--") = false -> new_arg a = true -> eqb (firstn 2 a) (str "--") = true ->
  parse_args (a :: r) s p = match parse_long a s with inl (s, p) => parse_args r s p | inr e => inr e end.
Proof. intros A B C. cbn [parse_args]. now rewrite A, B, C. Qed.
Lemma read_short a r s p : eqb a (str "--") = false -> new_arg a = true -> eqb (firstn 2 a) (str "--") = false ->
  parse_args (a :: r) s p = match parse_short (skipn 1 a) s with inl (s, p) => parse_args r s p | inr e => inr e end.
Proof. intros A B C. cbn [parse_args]. now rewrite A, B, C. Qed.
Lemma read_value x r s o : alone x -> parse_args (x :: r) s (Some o) = parse_args r (value_too o x s) None.
Proof. intro A. destruct (alone_arg x A) as [B C]. cbn [parse_args]. now rewrite B, C. Qed.
Lemma repeat_next j c r : c <> 45 -> exists b q, repeat 108 j ++ c :: r = b :: q /\ b <> 45.
Proof. intro N. destruct j; cbn [repeat app]; do 2 eexists; split; try reflexivity; auto. lia. Qed.
Lemma spelt_read ws args : spelt ws args -> forall r s, parse_args (args ++ r) s None = parse_args r (adds ws s) None.
Proof.
  intros Sp r s. destruct Sp as [f A|j|d e He|d w n c x O A|d k w n c x O N|j w n c x O A|j k w n c x O N K].
  - destruct (alone_arg f A) as [B C]. cbn [app parse_args]. now rewrite B, C.
  - cbn [app]. destruct (short_dashed (repeat 108 j) 108 ltac:(lia)) as (B & C & D). change (45 :: repeat 108 (S j)) with (45 :: 108 :: repeat 108 j).
    rewrite read_short by auto. cbn [skipn]. change (108 :: repeat 108 j) with (repeat 108 (S j)). rewrite <- (app_nil_r (repeat 108 (S j))), short_lists. cbn [parse_short]. now rewrite adds_lists.
  - cbn [app]. pose proof (undashed_list e) as U. destruct (long_dashed d _ U) as (B & C & D & E). rewrite read_long by auto.
    unfold parse_long. rewrite E. rewrite split_name by (auto; cbn; lia). reflexivity.
  - destruct (the_opt_of _ _ _ _ O) as (o & -> & -> & Ad). cbn [app]. pose proof (undashed_opt0 o) as U.
    destruct (long_dashed d _ U) as (B & C & D & _). rewrite read_long by auto. pose proof (long_parse d o [] s (or_introl eq_refl)) as L. rewrite app_nil_r in L. rewrite L. cbn [parse_opt].
    rewrite read_value by auto. unfold adds. cbn [fold_left]. now rewrite Ad, swap.
  - destruct (the_opt_of _ _ _ _ O) as (o & -> & -> & Ad). cbn [app]. pose proof (undashed_opt o (repeat 61 (1 + k) ++ x)) as U.
    destruct (long_dashed d _ U) as (B & C & D & _). rewrite read_long by auto. rewrite long_parse by (right; cbn [repeat Nat.add app]; eauto). cbn [repeat Nat.add app parse_opt].
    rewrite drop_eqs by auto. unfold adds. cbn [fold_left]. now rewrite Ad.
  - destruct (the_opt_of _ _ _ _ O) as (o & -> & -> & Ad). cbn [app]. destruct (repeat_next j (letter_of o) [] (letter_short o)) as (b & q & E & Nb). rewrite E.
    destruct (short_dashed q b Nb) as (B & C & D). rewrite read_short by auto. cbn [skipn]. rewrite <- E, short_lists, short_parse. cbn [rest_of parse_opt]. rewrite read_value by auto.
    rewrite adds_app, adds_lists. unfold adds. cbn [fold_left]. now rewrite Ad, swap.
  - destruct (the_opt_of _ _ _ _ O) as (o & -> & -> & Ad). cbn [app]. destruct (repeat_next j (letter_of o) (repeat 61 k ++ x) (letter_short o)) as (b & q & E & Nb). rewrite E.
    destruct (short_dashed q b Nb) as (B & C & D). rewrite read_short by auto. cbn [skipn]. rewrite <- E, short_lists, short_parse.
    assert (rest_of (repeat 61 k ++ x) = Some (repeat 61 k ++ x)) as ->. { destruct k; [|reflexivity]. cbn [repeat app]. destruct x; [now destruct (K eq_refl)|reflexivity]. }
    cbn [parse_opt]. rewrite drop_eqs by auto. rewrite adds_app, adds_lists. unfold adds. cbn [fold_left]. now rewrite Ad.
Qed.
Lemma line_read ws args : line ws args -> forall s, parse_args args s None = inl (adds ws s, None).
Proof.
  induction 1 as [|l|ws args ws' args' Sp _ IH]; intro s; [reflexivity| |].
  - cbn [parse_args]. rewrite eqb_same. now rewrite adds_files.
  - rewrite (spelt_read _ _ Sp), IH. now rewrite adds_app.
Qed.
(** what all wishes amount to *)
Lemma adds_all ws : forall s, adds ws s = mkFound (f_lists s + length (filter is_list ws))
  (fst (f_session s) + length (sessions_of ws), snd (f_session s) ++ sessions_of ws)
  (fst (f_mode s) + length (modes_of ws), snd (f_mode s) ++ map mode_name (modes_of ws)) (f_files s ++ files_of ws).
Proof.
  unfold sessions_of, modes_of, files_of, adds. induction ws as [|w ws IH]; intro s.
  - cbn [fold_left filter length map concat]. rewrite !app_nil_r, !Nat.add_0_r. destruct s as [n [a b] [c d] f]. reflexivity.
  - cbn [fold_left]. rewrite IH. destruct s as [n [a b] [c d] f], w; cbn; rewrite <- ?app_assoc, ?Nat.add_succ_r; reflexivity.
Qed.

Section Main.
Variable term : bool.
Lemma mode_found m : (term = false -> m <> CTerm) -> mode_of term (mode_name m) = Some m.
Proof. unfold mode_of, variants. destruct m, term; intro H; try reflexivity. now destruct (H eq_refl). Qed.
Lemma lists_some ws : existsb is_list ws = negb (length (filter is_list ws) =? 0).
Proof. induction ws as [|w ws IH]; [reflexivity|]. cbn [existsb filter]. destruct w; cbn [is_list orb length]; auto. Qed.
(** Every spelling of sensible wishes is understood: exactly what was asked for runs. *)
Theorem C89_understood : forall ws args, line ws args -> sensible term ws -> ced term args = asked term ws.
Proof.
  intros ws args L (S1 & S2 & S3 & S4). unfold ced. rewrite (line_read _ _ L). rewrite adds_all. cbn [found0 f_lists f_session f_mode f_files fst snd app Nat.add].
  unfold run_found, asked. cbn [f_lists f_session f_mode f_files]. rewrite lists_some. unfold run_mode.
  destruct (sessions_of ws) as [|x [|]], (modes_of ws) as [|m [|]]; cbn [length map hd hd_error given_once] in *; try lia;
    try rewrite mode_found by (intro T; specialize (S4 T); intros ->; apply S4; now left);
    destruct (length (filter is_list ws)) as [|[|]]; cbn [Nat.eqb negb]; try reflexivity; lia.
Qed.

(** ** the converse *)
Definition awaits (o : opt) (p : option opt) : nat := match p, o with Some OSession, OSession | Some OMode, OMode => 1 | _, _ => 0 end.
Definition vals (o : opt) (s : found) : list text := snd (of_opt s o).
Definition occ (o : opt) (s : found) : nat := fst (of_opt s o).
Definition grows (s s' : found) : Prop := forall o, exists l, vals o s' = vals o s ++ l.
Lemma grows_refl s : grows s s.
Proof. intro o. exists []. now rewrite app_nil_r. Qed.
Lemma grows_trans a b c : grows a b -> grows b c -> grows a c.
Proof. intros H K o. destruct (H o) as [l E], (K o) as [m F]. exists (l ++ m). rewrite F, E. now rewrite app_assoc. Qed.
Lemma grows_flag s : grows s (flag_l s).
Proof. intro o. exists []. destruct o; cbn; now rewrite app_nil_r. Qed.
(** [k] values are missing at least *)
Definition lacks (k : nat) (o : opt) (s : found) (p : option opt) : Prop := length (vals o s) + awaits o p + k <= occ o s.
Lemma opt_step o v s s' p' : parse_opt o v s = (s', p') -> grows s s' /\ forall k q p, lacks k q s p -> lacks k q s' p'.
Proof.
  unfold parse_opt, lacks, grows, vals, occ. intro E. destruct v as [v|]; injection E as <- <-; split.
  - intro q. destruct o, q; cbn; first [now eexists|exists []; now rewrite app_nil_r].
  - intros k q p. destruct o, q, p as [[]|]; cbn; rewrite ?app_length; cbn; lia.
  - intro q. destruct o, q; cbn; exists []; now rewrite app_nil_r.
  - intros k q p. destruct o, q, p as [[]|]; cbn; lia.
Qed.
Lemma short_step cs : forall s s' p', parse_short cs s = inl (s', p') -> grows s s' /\ forall k q p, lacks k q s p -> lacks k q s' p'.
Proof.
  induction cs as [|c cs IH]; intros s s' p' E; cbn [parse_short] in E.
  - injection E as <- <-. split; [apply grows_refl|]. unfold lacks. intros k q p. destruct q, p as [[]|]; cbn; lia.
  - destruct (c =? letter_of OSession); [injection E as E; now apply opt_step in E|]. destruct (c =? letter_of OMode); [injection E as E; now apply opt_step in E|].
    destruct (c =? 108); [|destruct (c =? 104); [|destruct (c =? 86)]; discriminate]. destruct (IH _ _ _ E) as [G L]. split; [eapply grows_trans; [apply grows_flag|exact G]|]. intros k q p H. apply (L k q p). revert H. unfold lacks, vals, occ. destruct q; cbn; lia.
Qed.
Lemma long_step a s s' p' : parse_long a s = inl (s', p') -> grows s s' /\ forall k q p, lacks k q s p -> lacks k q s' p'.
Proof.
  unfold parse_long. destruct (split_eq _) as [n v]. intro E.
  destruct (eqb n (long_of OSession)); [injection E as E; now apply opt_step in E|]. destruct (eqb n (long_of OMode)); [injection E as E; now apply opt_step in E|].
  destruct (eqb n (str "list")); [|destruct (eqb n (str "help")); [|destruct (eqb n (str "version"))]; discriminate].
  injection E as <- <-. split; [apply grows_flag|]. unfold lacks, vals, occ. intros k q p. destruct q, p as [[]|]; cbn; lia.
Qed.
Lemma args_step args : forall s p s' p', parse_args args s p = inl (s', p') -> grows s s' /\ forall k q, lacks k q s p -> lacks k q s' p'.
Proof.
  induction args as [|a r IH]; intros s p s' p' E; cbn [parse_args] in E; [injection E as <- <-; split; [apply grows_refl|auto]|].
  destruct (eqb a (str "--")).
  { injection E as <- <-. split; [intro o; exists []; destruct o; cbn; now rewrite app_nil_r|]. intros k q H. destruct q; exact H. }
  destruct (new_arg a).
  - assert (exists s1 p1, (if eqb (firstn 2 a) (str "--") then parse_long a s else parse_short (skipn 1 a) s) = inl (s1, p1) /\ parse_args r s1 p1 = inl (s', p')) as (s1 & p1 & E1 & E2).
    { destruct (if eqb (firstn 2 a) (str "--") then parse_long a s else parse_short (skipn 1 a) s) as [[s1 p1]|]; [eauto|discriminate]. }
    destruct (IH _ _ _ _ E2) as [G2 L2]. assert (grows s s1 /\ forall k q p, lacks k q s p -> lacks k q s1 p1) as [G1 L1]. { destruct (eqb (firstn 2 a) (str "--")); [now apply long_step in E1|now apply short_step in E1]. }
    split; [eapply grows_trans; eauto|]. intros k q H. apply L2, (L1 k q p H).
  - destruct p as [o|]; destruct (IH _ _ _ _ E) as [G2 L2].
    + split. { eapply grows_trans; [|exact G2]. intro q. destruct o, q; cbn; first [now eexists|exists []; now rewrite app_nil_r]. }
      intros k q H. apply L2. revert H. unfold lacks, vals, occ. destruct o, q; cbn; rewrite ?app_length; cbn; lia.
    + split. { eapply grows_trans; [|exact G2]. intro q. destruct q; exists []; cbn; now rewrite app_nil_r. }
      intros k q H. apply L2. revert H. unfold lacks, vals, occ. destruct q; cbn; lia.
Qed.
(** nothing is missing at the end, and the modes are modes *)
Definition complete (s : found) : Prop := (forall o, occ o s <= length (vals o s)) /\ forall x, In x (vals OMode s) -> exists m, x = mode_name m.
Lemma the_wish s' o x : complete s' -> In x (vals o s') -> exists w, option_of w = Some (long_of o, letter_of o, x) /\ forall s, add s w = once_more o (value_too o x s).
Proof.
  intros [_ M] I. destruct o; [exists (WSession x); now split|]. destruct (M x I) as (m & ->). exists (WMode m). now split.
Qed.
Lemma split_eq_spec t : forall n v, split_eq t = (n, v) -> ~ In 61 n /\ t = n ++ match v with None => [] | Some y => 61 :: y end.
Proof.
  induction t as [|b t IH]; intros n v E; cbn [split_eq] in E; [injection E as <- <-; split; auto|]. destruct (Nat.eqb_spec b 61) as [->|Nb]; [injection E as <- <-; split; auto|].
  destruct (split_eq t) as [n1 v1]. injection E as <- <-. destruct (IH _ _ eq_refl) as [A B]. split; [intros [->|I]; auto|]. cbn [app]. now rewrite <- B.
Qed.
Lemma dashes_spec t : exists k, t = repeat 45 k ++ drop_while (fun b => b =? 45) t.
Proof. induction t as [|b t [k IH]]; [exists 0; reflexivity|]. cbn [drop_while]. destruct (Nat.eqb_spec b 45) as [->|N]; [exists (S k); cbn [repeat app]; now rewrite <- IH|exists 0; reflexivity]. Qed.
Lemma eqs_spec t : exists k, t = repeat 61 k ++ drop_while (fun b => b =? 61) t.
Proof. induction t as [|b t [k IH]]; [exists 0; reflexivity|]. cbn [drop_while]. destruct (Nat.eqb_spec b 61) as [->|N]; [exists (S k); cbn [repeat app]; now rewrite <- IH|exists 0; reflexivity]. Qed.
Lemma dropped_no_eq t : no_eq (drop_while (fun b => b =? 61) t).
Proof. induction t as [|b t IH]; [discriminate|]. cbn [drop_while]. destruct (Nat.eqb_spec b 61) as [->|N]; auto. intros r E. injection E. auto. Qed.
Lemma dashes_two a k n : a = repeat 45 k ++ n -> firstn 2 a = str "--" -> undashed n -> exists d, k = 2 + d.
Proof.
  intros -> F (b & r & -> & N). destruct k as [|[|d]]; [exfalso; apply N; change (b :: firstn 1 r = [45; 45]) in F; congruence|exfalso; apply N; change (45 :: b :: [] = [45; 45]) in F; congruence|now exists d].
Qed.
(** one argument that is not a value *)
Inductive piece : text -> found -> found -> option opt -> Prop :=
| pc_lists ws a s : spelt ws [a] -> piece a s (adds ws s) None
| pc_whole ws a o x s : (forall w, option_of w = Some (long_of o, letter_of o, x) -> spelt (ws ++ [w]) [a]) -> piece a s (once_more o (value_too o x (adds ws s))) None
| pc_half ws a o s : (forall w x, option_of w = Some (long_of o, letter_of o, x) -> alone x -> spelt (ws ++ [w]) [a; x]) -> piece a s (once_more o (adds ws s)) (Some o).
Lemma long_piece a s s' p' : firstn 2 a = str "--" -> parse_long a s = inl (s', p') -> piece a s s' p'.
Proof.
  intros F E. unfold parse_long in E. destruct (dashes_spec a) as (k & A). set (t := drop_while _ a) in *. destruct (split_eq t) as [n v] eqn:Sp.
  destruct (split_eq_spec _ _ _ Sp) as [N T]. assert (forall o, n = long_of o -> exists d, k = 2 + d) as K.
  { intros o ->. apply (dashes_two a k t A F). rewrite T. apply undashed_opt. }
  assert (forall o, n = long_of o -> parse_opt o v s = (s', p') -> piece a s s' p') as P.
  { intros o En Eo. destruct (K o En) as (d & ->). subst n. destruct v as [v|]; cbn [parse_opt] in Eo; injection Eo as <- <-.
    - apply (pc_whole []). intros w Ow. cbn [app]. destruct (eqs_spec v) as (j & Ev). set (x := drop_while _ v) in *.
      assert (a = repeat 45 (2 + d) ++ long_of o ++ repeat 61 (1 + j) ++ x) as ->. { rewrite A, T. do 2 f_equal. cbn [repeat Nat.add app]. f_equal. exact Ev. }
      eapply sp_long_eq; [exact Ow|apply dropped_no_eq].
    - apply (pc_half []). intros w x Ow Ax. cbn [app]. rewrite A, T, app_nil_r. eapply sp_long; eauto. }
  destruct (eqb n (long_of OSession)) eqn:E1; [apply eqb_ok in E1; injection E as E; eapply P; eauto|]. destruct (eqb n (long_of OMode)) eqn:E2; [apply eqb_ok in E2; injection E as E; eapply P; eauto|].
  destruct (eqb n (str "list")) eqn:E3; [|destruct (eqb n (str "help")); [|destruct (eqb n (str "version"))]; discriminate]. apply eqb_ok in E3. subst n. injection E as <- <-.
  change (flag_l s) with (adds [WList] s). apply pc_lists. assert (undashed t) as U by (rewrite T; apply undashed_list). destruct (dashes_two a k t A F U) as (d & ->).
  rewrite A, T. apply sp_list. destruct v as [v|]; [right; eauto|left; reflexivity].
Qed.
Lemma short_piece r : forall j s s' p', parse_short r (lists j s) = inl (s', p') -> j + length r > 0 -> piece (45 :: repeat 108 j ++ r) s s' p'.
Proof.
  induction r as [|c r IH]; intros j s s' p' E J; cbn [parse_short] in E.
  - injection E as <- <-. cbn [length] in J. destruct j as [|j]; [lia|]. rewrite app_nil_r, <- adds_lists. apply pc_lists, sp_l.
  - assert (forall o, c = letter_of o -> parse_opt o (rest_of r) (lists j s) = (s', p') -> piece (45 :: repeat 108 j ++ c :: r) s s' p') as P.
    { intros o -> Eo. rewrite <- adds_lists in Eo. destruct r as [|b r]; cbn [rest_of parse_opt] in Eo; injection Eo as <- <-.
      - apply pc_half. intros w x Ow Ax. eapply sp_short; eauto.
      - apply pc_whole. intros w Ow. destruct (eqs_spec (b :: r)) as (k & Ev). set (x := drop_while _ (b :: r)) in *. rewrite Ev. eapply sp_short_eq; [exact Ow|apply dropped_no_eq|].
        intros -> X. cbn [repeat app] in Ev. rewrite X in Ev. discriminate. }
    destruct (Nat.eqb_spec c (letter_of OSession)); [injection E as E; eapply P; eauto|]. destruct (Nat.eqb_spec c (letter_of OMode)); [injection E as E; eapply P; eauto|].
    destruct (Nat.eqb_spec c 108) as [->|]; [|destruct (c =? 104); [|destruct (c =? 86)]; discriminate].
    assert (repeat 108 j ++ 108 :: r = repeat 108 (S j) ++ r) as ->. { clear. induction j as [|j IH]; [reflexivity|]. cbn [repeat app]. now rewrite IH. }
    apply (IH (S j)); [|lia]. rewrite <- E. f_equal. clear. revert s. induction j as [|j IH]; intro s; [reflexivity|]. cbn [lists]. apply IH.
Qed.
Lemma args_line n : forall args s p s', length args <= n -> parse_args args s p = inl (s', None) -> complete s' -> (forall q, lacks 0 q s p) ->
  match p with
  | None => exists ws, line ws args /\ s' = adds ws s
  | Some o => exists x r ws, args = x :: r /\ alone x /\ line ws r /\ s' = adds ws (value_too o x s) /\ In x (vals o s')
  end.
Proof.
  induction n as [|n IH]; intros args s p s' Ln E Co L.
  { destruct args; [|cbn in Ln; lia]. cbn [parse_args] in E. injection E as <- ->. exists []. split; [constructor|reflexivity]. }
  destruct args as [|a r]; [cbn [parse_args] in E; injection E as <- ->; exists []; split; [constructor|reflexivity]|]. cbn [length] in Ln.
  destruct (eqb a (str "--")) eqn:Da.
  { cbn [parse_args] in E. rewrite Da in E. injection E as <- ->. apply eqb_ok in Da. subst a. exists (map WFile r). split; [constructor|]. now rewrite adds_files. }
  destruct (new_arg a) eqn:Na.
  - (* an option that waits for its value is left without *)
    destruct p as [o|].
    { exfalso. assert (parse_args (a :: r) s None = inl (s', None)) as E' by (cbn [parse_args] in E |- *; rewrite Da, Na in *; exact E). destruct (args_step _ _ _ _ _ E') as [_ Lk].
      specialize (Lk 1 o). unfold lacks in Lk. specialize (L o). unfold lacks in L. destruct Co as [Co _]. specialize (Co o). destruct o; cbn [awaits] in *; lia. }
    cbn [parse_args] in E. rewrite Da, Na in E.
    assert (exists s1 p1, (if eqb (firstn 2 a) (str "--") then parse_long a s else parse_short (skipn 1 a) s) = inl (s1, p1) /\ parse_args r s1 p1 = inl (s', None)) as (s1 & p1 & E1 & E2).
    { destruct (if eqb (firstn 2 a) (str "--") then parse_long a s else parse_short (skipn 1 a) s) as [[s1 p1]|]; [eauto|discriminate]. }
    assert (forall q, lacks 0 q s1 p1) as L1. { intro q. destruct (eqb (firstn 2 a) (str "--")); [destruct (long_step _ _ _ _ E1) as [_ K]|destruct (short_step _ _ _ _ E1) as [_ K]]; apply (K 0 q None), L. }
    assert (piece a s s1 p1) as P. { destruct (eqb (firstn 2 a) (str "--")) eqn:F2; [apply long_piece; auto; now apply eqb_ok|]. destruct (new_arg_dash _ Na) as (b & q & ->). cbn [skipn] in E1. apply (short_piece (b :: q) 0); [exact E1|cbn; lia]. }
    specialize (IH r s1 p1 s' ltac:(lia) E2 Co L1). destruct P as [ws a s Sp|ws a o x s Sp|ws a o s Sp].
    + destruct IH as (ws' & Li & ->). exists (ws ++ ws'). split; [now apply (line_more ws [a])|]. now rewrite adds_app.
    + destruct IH as (ws' & Li & Es). assert (In x (vals o s')) as Ix. { destruct (args_step _ _ _ _ _ E2) as [G _]. destruct (G o) as (l & ->). apply in_or_app. left. destruct o; cbn; apply in_or_app; right; now left. }
      destruct (the_wish s' o x Co Ix) as (w & Ow & Aw). exists ((ws ++ [w]) ++ ws'). split; [apply (line_more (ws ++ [w]) [a]); auto|]. rewrite !adds_app. unfold adds at 2. cbn [fold_left]. rewrite Aw. exact Es.
    + destruct IH as (x & r' & ws' & -> & Ax & Li & Es & Ix). destruct (the_wish s' o x Co Ix) as (w & Ow & Aw). exists ((ws ++ [w]) ++ ws'). split; [apply (line_more (ws ++ [w]) [a; x]); auto|].
      rewrite !adds_app. unfold adds at 2. cbn [fold_left]. rewrite Aw, <- swap. exact Es.
  - pose proof (alone_dec a Na) as Al. cbn [parse_args] in E. rewrite Da, Na in E. destruct p as [o|].
    + assert (forall q, lacks 0 q (value_too o a s) None) as L1. { intro q. specialize (L q). revert L. unfold lacks, vals, occ. destruct o, q; cbn; rewrite ?app_length; cbn; lia. }
      destruct (IH r _ None s' ltac:(lia) E Co L1) as (ws & Li & Es). exists a, r, ws. repeat (split; [auto|]). destruct (args_step _ _ _ _ _ E) as [G _]. destruct (G o) as (l & ->). apply in_or_app. left. destruct o; cbn; apply in_or_app; right; now left.
    + assert (forall q, lacks 0 q (files_too [a] s) None) as L1. { intro q. specialize (L q). revert L. unfold lacks, vals, occ. destruct q; cbn; lia. }
      destruct (IH r _ None s' ltac:(lia) E Co L1) as (ws & Li & Es). exists (WFile a :: ws). split; [apply (line_more [WFile a] [a]); [now constructor|exact Li]|exact Es].
Qed.
Lemma once_given v : given_once v <> None -> length (snd v) <= fst v -> fst v = length (snd v) /\ length (snd v) <= 1.
Proof. destruct v as [[|[|k]] [|x l]]; cbn [given_once fst snd length]; intros H L; try congruence; lia. Qed.
Lemma mode_of_name x m : mode_of term x = Some m -> x = mode_name m /\ (term = false -> m <> CTerm).
Proof.
  unfold mode_of. intro E. apply find_some in E. destruct E as [I E]. apply eqb_ok in E. split; auto. intros T ->. unfold variants in I. rewrite T in I. cbn in I. intuition discriminate.
Qed.
Lemma found_lists s p : (forall e, run_found term s p <> RunStop e) -> f_lists s <= 1.
Proof.
  unfold run_found. destruct (given_once (f_session s)) as [a|]; [|intro R; now destruct (R Refused)]. destruct (given_once (f_mode s)) as [b|]; [|intro R; now destruct (R Refused)].
  destruct p as [o|]; [intro R; now destruct (R Refused)|]. destruct b as [x|]; [destruct (mode_of term x); [|intro R; now destruct (R Refused)]|];
    (destruct (f_lists s) as [|[|k]]; cbn [Nat.eqb]; intro R; [lia|lia|now destruct (R Refused)]).
Qed.
(** Only spellings of sensible wishes are: whatever else is refused, or asks for help or the version. *)
Theorem C89_only : forall args, (forall e, ced term args <> RunStop e) -> exists ws, line ws args /\ sensible term ws /\ ced term args = asked term ws.
Proof.
  intros args R. unfold ced in R. destruct (parse_args args found0 None) as [[s p]|e] eqn:E; [|now destruct (R e)].
  assert (given_once (f_session s) <> None /\ given_once (f_mode s) <> None /\ p = None /\ (forall x, given_once (f_mode s) = Some (Some x) -> exists m, mode_of term x = Some m)) as (A & B & -> & M).
  { unfold run_found in R. destruct (given_once (f_session s)) as [a|]; [|now destruct (R Refused)]. destruct (given_once (f_mode s)) as [b|]; [|now destruct (R Refused)].
    destruct p as [o|]; [now destruct (R Refused)|]. repeat (split; [congruence|]). intros x X. injection X as ->. destruct (mode_of term x) as [m|]; [eauto|now destruct (R Refused)]. }
  destruct (args_step _ _ _ _ _ E) as [_ L]. assert (forall q, lacks 0 q found0 None) as L0 by (intros []; cbn; unfold lacks; cbn; lia).
  assert (forall o, fst (of_opt s o) = length (snd (of_opt s o)) /\ length (snd (of_opt s o)) <= 1) as O.
  { intro o. specialize (L 0 o (L0 o)). unfold lacks, vals, occ in L. cbn [awaits] in L. apply once_given; [destruct o; assumption|lia]. }
  assert (forall x, In x (vals OMode s) -> exists m, mode_of term x = Some m) as Ms.
  { intros x I. apply M. destruct (O OMode) as [O1 O2]. unfold vals in I. cbn [of_opt] in *. destruct (f_mode s) as [k [|y [|]]]; cbn [fst snd length] in *; [destruct I| |lia]. destruct I as [->|[]]. subst k. reflexivity. }
  assert (complete s) as Co. { split; [intro o; destruct (O o) as [O1 _]; unfold occ, vals; lia|]. intros x I. destruct (Ms x I) as (m & Em). exists m. now apply mode_of_name in Em. }
  destruct (args_line (length args) args found0 None s (le_n _) E Co L0) as (ws & Li & Es).
  assert (sensible term ws) as Se.
  { rewrite adds_all in Es. subst s. cbn [found0 f_lists f_session f_mode f_files fst snd app Nat.add] in *. destruct (O OSession) as [_ O1], (O OMode) as [_ O2]. cbn [of_opt f_session f_mode fst snd] in *. rewrite map_length in O2.
    split; [|split; [exact O1|split; [exact O2|]]].
    - exact (found_lists _ _ R).
    - intros T I. destruct (Ms (mode_name CTerm)) as (m & Em); [unfold vals; cbn; now apply (in_map mode_name) in I|]. apply mode_of_name in Em. destruct Em as [E1 E2]. apply (E2 T). destruct m; try discriminate. reflexivity. }
  exists ws. split; [exact Li|]. split; [exact Se|]. now apply C89_understood.
Qed.

(** ** the server that a client starts *)
Lemma server_args s : ced term [str "--mode=server"; str "--session=" ++ s] = RunServer (Some (drop_while (fun b => b =? 61) s)).
Proof.
  unfold ced. rewrite read_long by reflexivity. change (parse_long (str "--mode=server") found0) with (inl (once_more OMode (value_too OMode (str "server") found0), @None opt) : reading).
  destruct (long_dashed 0 (str "session" ++ 61 :: s) (undashed_opt OSession (61 :: s))) as (B & C & D & _). change (str "--session=" ++ s) with (repeat 45 (2 + 0) ++ str "session" ++ 61 :: s).
  rewrite read_long by auto. rewrite (long_parse 0 OSession (61 :: s)) by eauto. cbn [parse_opt]. destruct term; reflexivity.
Qed.
(** The command that a client runs to start the server of its session is understood as just that, with the session of C48. *)
Theorem C89_daemon : forall m arg, session_arg m = Ok arg -> ced term [str "--mode=server"; arg] = RunServer (Some (clap_value arg)) /\
  (forall s, show_mode m = Ok s -> no_eq s -> clap_value arg = s).
Proof.
  intros m arg E. unfold session_arg in E. destruct (show_mode m) as [s| |]; try discriminate. cbn [bind] in E. assert (arg = str "--session=" ++ s) as -> by congruence.
  assert (clap_value (str "--session=" ++ s) = drop_while (fun b => b =? 61) s) as V by reflexivity. rewrite V. split; [apply server_args|].
  intros s' S N. injection S as <-. apply (drop_eqs 0 s N).
Qed.
(** A session whose name begins with an equal sign is asked for by a client, but not by the command it starts the server with. *)
Theorem C89_equals_refuted : forall x, file_name_ok x ->
  ced term [str "-m"; str "json"; str "-s"; 61 :: x] = RunJson (Some (61 :: x)) /\ ced term [str "--mode=server"; str "--session=" ++ 61 :: x] = RunServer (Some x).
Proof.
  intros x F. split.
  - apply (C89_understood [WMode CJson; WSession (61 :: x)]).
    + apply (line_more [WMode CJson] [str "-m"; str "json"] [_] [_; _]); [apply (sp_short 0 (WMode CJson) (str "mode") 109 (str "json")); [reflexivity|left; intros r E; vm_compute in E; congruence]|].
      apply (line_more [WSession (61 :: x)] [str "-s"; 61 :: x] [] []); [apply (sp_short 0 (WSession (61 :: x)) (str "session") 115 (61 :: x)); [reflexivity|left; intros r E; congruence]|constructor].
    + repeat split; cbn; try lia. intros _ [E|[]]. discriminate.
  - rewrite server_args. change (drop_while (fun b => b =? 61) (61 :: x)) with (drop_while (fun b => b =? 61) x). f_equal. f_equal.
    apply (drop_eqs 0 x). destruct F as (_ & _ & _ & _ & F). exact F.
Qed.
End Main.
Print Assumptions C89_understood.
Print Assumptions C89_only.
Print Assumptions C89_daemon.
Print Assumptions C89_equals_refuted.

(** ced -lsx=y, ced --mode standalone a -s=n -- -b c, ced -s -x, ced -l -l, ced -m term (without the terminal) *)
Definition words (l : list String.string) : list text := map str l.
Arguments words l%list_scope.
Local Open Scope string_scope.
Example C89_demo : forall t,
  ced t (words ["-lsx=y"]) = RunList /\
  ced t (words ["--mode"; "standalone"; "a"; "-s=n"; "--"; "-b"; "c"]) = RunStandalone (words ["a"; "-b"; "c"]) /\
  ced t (words ["-s"; "-x"]) = RunStop Refused /\ ced t (words ["-l"; "-l"]) = RunStop Refused /\ ced t (words ["-b"]) = RunStop Refused /\
  ced t (words ["a"; "--session"; "n"; "b"]) = (if t then RunTerm (Some (str "n")) (words ["a"; "b"]) else RunJson (Some (str "n"))) /\
  ced false (words ["-m"; "term"]) = RunStop Refused /\ ced true (words ["-hx"]) = RunStop Help.
Proof. intros []; vm_compute; repeat split. Qed.
Example C89_spelt : exists ws, line ws (words ["--mode"; "standalone"; "a"; "-s=n"; "--"; "-b"; "c"]) /\ sensible false ws /\ asked false ws = RunStandalone (words ["a"; "-b"; "c"]).
Proof.
  destruct (C89_only false (words ["--mode"; "standalone"; "a"; "-s=n"; "--"; "-b"; "c"])) as (ws & L & S & E).
  - intros e. vm_compute. discriminate.
  - exists ws. repeat (split; [assumption|]). rewrite <- E. vm_compute. reflexivity.
Qed.
