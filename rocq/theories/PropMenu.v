(** C51, C52: what a menu displays. *)
From Coq Require Import String List Arith Lia ZArith Bool Permutation Sorted.
From Verif Require Import Base ListFacts Maps Utf8 Utf8Spec Utf8Facts Fmt Chars View ViewSpec ViewFacts Json Proto Payload Menu MenuSpec MenuFacts MenuMatch.
Import ListNotations.

Lemma Forall_firstn {A} (P : A -> Prop) n l : Forall P l -> Forall P (firstn n l).
Proof. intro F. rewrite <- (firstn_skipn n l) in F. apply Forall_app in F. apply F. Qed.
Lemma Forall_skipn {A} (P : A -> Prop) n l : Forall P l -> Forall P (skipn n l).
Proof. intro F. rewrite <- (firstn_skipn n l) in F. apply Forall_app in F. apply F. Qed.
(** ** the words of a search *)
Lemma words_spec cs : Forall is_char cs -> forall pre, Forall is_char pre ->
  Forall (fun w => exists ds, w = concat ds /\ ds <> [] /\ Forall (fun c => is_char c /\ (In c cs \/ In c pre)) ds) (words_from cs (concat pre)).
Proof.
  induction 1 as [|c cs C F IH]; intros pre P; cbn [words_from].
  - destruct (concat pre) eqn:E; constructor; [|constructor]. exists pre. split; auto. split; [destruct pre; [discriminate|congruence]|]. apply Forall_forall. intros d D. rewrite Forall_forall in P. auto.
  - assert (forall l w, (exists ds, w = concat ds /\ ds <> [] /\ Forall (fun c0 => is_char c0 /\ (In c0 cs \/ In c0 l)) ds) -> (forall d, In d l -> In d (c :: cs) \/ In d pre) ->
      exists ds, w = concat ds /\ ds <> [] /\ Forall (fun c0 => is_char c0 /\ (In c0 (c :: cs) \/ In c0 pre)) ds) as W.
    { intros l w (ds & E & N & G) H. exists ds. split; auto. split; auto. eapply Forall_impl; [|exact G]. intros d (D & [D'|D']); split; auto. left. now right. }
    destruct (is_whitespace c).
    + assert (Forall (fun w => exists ds, w = concat ds /\ ds <> [] /\ Forall (fun c0 => is_char c0 /\ (In c0 (c :: cs) \/ In c0 pre)) ds) (words_from cs [])) as R.
      { eapply Forall_impl; [|apply (IH []); constructor]. intros w Hw. apply (W [] w Hw). intros d []. }
      destruct (concat pre) eqn:E; auto. constructor; auto. exists pre. split; auto. split; [destruct pre; [discriminate|congruence]|]. apply Forall_forall. intros d D. rewrite Forall_forall in P. auto.
    + replace (concat pre ++ c) with (concat (pre ++ [c])) by (rewrite concat_app; cbn; now rewrite app_nil_r).
      eapply Forall_impl; [|apply (IH (pre ++ [c])); apply Forall_app; auto]. intros w Hw. apply (W _ w Hw). intros d D. apply in_app_or in D. destruct D as [D|[<-|[]]]; auto. left. now left.
Qed.
Definition plain_char (c : text) : Prop := special c = false /\ c <> [40] /\ c <> [41].
Lemma plain_words search : plain_search search ->
  Forall (fun w => valid w /\ Forall plain_char (chars w) /\ chars w <> []) (split_whitespace search).
Proof.
  intros (V & P). unfold split_whitespace. pose proof (chars_valid search V) as [F _]. eapply Forall_impl; [|apply (words_spec _ F []); constructor].
  intros w (ds & -> & N & G). assert (Forall is_char ds) as D by (eapply Forall_impl; [|exact G]; now intros ? []).
  split; [exists ds; auto|]. rewrite chars_concat by auto. split; auto. rewrite Forall_forall in *. intros c C. destruct (G c C) as (_ & [I|[]]). now apply P.
Qed.
Lemma parse_lits w k r : Forall plain_char w -> parse_items k = Some r -> parse_items (w ++ k) = Some (map ILit w ++ r).
Proof.
  intros F H. induction F as [|c w (S & N1 & N2) F IH]; cbn [app map]; auto. cbn [parse_items]. replace (eqb c [40]) with false by (symmetry; now apply eqb_neq). replace (eqb c [41]) with false by (symmetry; now apply eqb_neq).
  replace (eqb c [46]) with false. 2:{ symmetry. apply eqb_neq. intros ->. discriminate. } rewrite S, IH. reflexivity.
Qed.
Lemma chars_one b : b < 128 -> chars [b] = [[b]].
Proof. intro B. change [b] with (concat [[b]]). apply chars_concat. constructor; [cbn; lia|constructor]. Qed.
Lemma valid_one b : b < 128 -> valid [b].
Proof. intro B. exists [[b]]. split; [constructor; [cbn; lia|constructor]|reflexivity]. Qed.
Lemma pattern_spec ws : Forall (fun w => valid w /\ Forall plain_char (chars w) /\ chars w <> []) ws ->
  valid (join (str ".*") (map (fun w => str "(" ++ w ++ str ")") ws)) /\
  parse_items (chars (join (str ".*") (map (fun w => str "(" ++ w ++ str ")") ws))) = Some (elems (map chars ws)).
Proof.
  assert (forall w, valid w -> valid (str "(" ++ w ++ str ")")) as VW. { intros w V. apply valid_app; [apply (valid_one 40); lia|]. apply valid_app; auto. apply (valid_one 41); lia. }
  assert (forall w, valid w -> chars (str "(" ++ w ++ str ")") = [40] :: chars w ++ [[41]]) as CW.
  { intros w V. assert (valid (str "(")) as V1 by (apply (valid_one 40); lia). assert (valid (str ")")) as V2 by (apply (valid_one 41); lia). pose proof (valid_app _ _ V V2) as V3. rewrite (chars_app _ _ V1 V3), (chars_app _ _ V V2). reflexivity. }
  induction 1 as [|w ws (V & P & N) F IH]; [split; [apply valid_nil|reflexivity]|]. destruct IH as [IV IP]. destruct ws as [|v ws].
  - cbn [map join]. split; auto. rewrite CW by auto. cbn [elems]. change (parse_items ([40] :: chars w ++ [[41]])) with (option_map (cons IOpen) (parse_items (chars w ++ [[41]]))).
    rewrite (parse_lits (chars w) [[41]] [IClose]); auto.
  - cbn [map]. change (join (str ".*") ((str "(" ++ w ++ str ")") :: (str "(" ++ v ++ str ")") :: map (fun w0 => str "(" ++ w0 ++ str ")") ws)) with ((str "(" ++ w ++ str ")") ++ str ".*" ++ join (str ".*") (map (fun w => str "(" ++ w ++ str ")") (v :: ws))).
    assert (valid (str ".*")) as VG by (apply (valid_app [46] [42]); [apply (valid_one 46)|apply (valid_one 42)]; lia).
    split; [apply valid_app; auto; now apply valid_app|]. rewrite chars_app by (auto; now apply valid_app). rewrite (chars_app (str ".*")) by auto. rewrite CW by auto.
    change (chars (str ".*")) with [[46]; [42]]. cbn [app]. rewrite <- app_assoc. cbn [app].
    change (parse_items ([40] :: chars w ++ [41] :: [46] :: [42] :: chars (join (str ".*") (map (fun w0 => str "(" ++ w0 ++ str ")") (v :: ws))))) with (option_map (cons IOpen) (parse_items (chars w ++ [41] :: [46] :: [42] :: chars (join (str ".*") (map (fun w0 => str "(" ++ w0 ++ str ")") (v :: ws)))))).
    rewrite (parse_lits (chars w) _ (IClose :: IGap :: elems (map chars (v :: ws)))); auto. change (parse_items ([41] :: [46] :: [42] :: chars (join (str ".*") (map (fun w0 => str "(" ++ w0 ++ str ")") (v :: ws))))) with (option_map (cons IClose) (option_map (cons IGap) (parse_items (chars (join (str ".*") (map (fun w0 => str "(" ++ w0 ++ str ")") (v :: ws))))))).
    now rewrite IP.
Qed.
Lemma balanced_elems ws : balanced (elems ws) 0 = true.
Proof.
  assert (forall w k d, balanced (map ILit w ++ k) d = balanced k d) as L by (induction w as [|c w IH]; intros; auto; cbn; auto).
  induction ws as [|w [|v ws] IH]; auto. - cbn [elems balanced]. now rewrite L. - change (elems (w :: v :: ws)) with (IOpen :: map ILit w ++ IClose :: IGap :: elems (v :: ws)). cbn [balanced]. rewrite L. cbn [balanced]. exact IH.
Qed.
Lemma regex_plain u search : plain_search search -> rx_fits u (raw_regex search) = true ->
  regex_new u (raw_regex search) = Some (fun s => search_from u (elems (map chars (split_whitespace search))) (chars s) 0).
Proof.
  intros P F. unfold regex_new. rewrite F. cbn [negb]. unfold raw_regex. change (str "(?i)") with [40; 63; 105; 41] at 1 3. cbn [app firstn skipn].
  replace (eqb [40; 63; 105; 41] (str "(?i)")) with true by reflexivity. destruct (pattern_spec _ (plain_words _ P)) as [_ ->]. now rewrite balanced_elems.
Qed.

(** ** one label *)
Section Label.
Variable u : regex_crate.
Variable search label : text.
Hypothesis PS : plain_search search.
Hypothesis VL : valid label.
Let cs := chars label.
Let ws := map chars (split_whitespace search).
Lemma ws_nonempty : Forall (fun w => w <> []) ws.
Proof. unfold ws. apply Forall_map. eapply Forall_impl; [|apply plain_words; exact PS]. now intros w (_ & _ & N). Qed.
Lemma cs_chars : Forall is_char cs /\ concat cs = label.
Proof. now apply chars_valid. Qed.
Lemma occurs_chain p x : ws <> [] -> occurs u search label p x -> exists gs, chain u cs ws (length p) (length p + length x) gs.
Proof. intros N (post & E & T). apply (threads_chain u cs ws x T N p post E). Qed.
Lemma chain_occurs p e gs : chain u cs ws p e gs -> occurs u search label (firstn p cs) (sub_chars cs p e).
Proof.
  intro C. pose proof (chain_le _ _ _ _ _ _ C ws_nonempty) as L. exists (skipn e cs). split; [|apply (chain_threads _ _ _ _ _ _ C ws_nonempty)].
  fold cs. unfold sub_chars. rewrite <- (firstn_skipn p cs) at 1. f_equal. rewrite <- (firstn_skipn (e - p) (skipn p cs)) at 1. f_equal. rewrite skipn_skipn. f_equal. lia.
Qed.
Lemma sub_len p e : p <= e -> e <= length cs -> length (sub_chars cs p e) = e - p.
Proof. intros. unfold sub_chars. rewrite firstn_length, skipn_length. lia. Qed.
Lemma bpos_sub p e : p <= e -> e <= length cs -> bpos cs e = bpos cs p + length (concat (sub_chars cs p e)).
Proof.
  intros P E. unfold bpos, sub_chars. rewrite <- app_length, <- concat_app. do 2 f_equal. rewrite <- (firstn_skipn p (firstn e cs)). rewrite firstn_firstn, Nat.min_l by lia. f_equal. now rewrite skipn_firstn_comm.
Qed.
Lemma slice_chars a b : a <= b -> b <= length cs -> str_slice label (bpos cs a) (bpos cs b) = Ok (concat (sub_chars cs a b)).
Proof.
  intros A B. destruct cs_chars as [F E]. rewrite <- E. assert (cs = firstn a cs ++ sub_chars cs a b ++ skipn b cs) as D.
  { unfold sub_chars. rewrite <- (firstn_skipn a cs) at 1. f_equal. rewrite <- (firstn_skipn (b - a) (skipn a cs)) at 1. f_equal. rewrite skipn_skipn. f_equal. lia. }
  assert (bpos cs b = length (concat (firstn a cs) ++ concat (sub_chars cs a b))) as -> by (rewrite app_length; now apply bpos_sub).
  unfold bpos. rewrite D at 1. rewrite !concat_app. apply str_slice_mid.
  - exists (firstn a cs). split; auto. now apply Forall_firstn.
  - exists (sub_chars cs a b). split; auto. unfold sub_chars. now apply Forall_firstn, Forall_skipn.
  - exists (skipn b cs). split; auto. now apply Forall_skipn.
Qed.
Lemma bpos_end : bpos cs (length cs) = length label.
Proof. unfold bpos. rewrite firstn_all. now destruct cs_chars as [_ ->]. Qed.
Lemma tail_tokens e : e <= length cs -> exists ts, tokens_from label [] (bpos cs e) = Ok ts /\ (ts = [] \/ exists t, ts = [mkTok t false]).
Proof.
  intro E. cbn [tokens_from]. destruct (bpos cs e <? length label); [|eauto]. rewrite <- bpos_end, slice_chars by lia. cbn [bind]. eauto.
Qed.
Definition frag (t : token) : fragment := mkFrag (tk_text t) (if tk_match t then FMatch else FDefault).
Lemma chain_tokens w p e gs : chain u cs w p e gs -> Forall (fun w => w <> []) w -> forall o, o <= p ->
  exists mid ts, tokens_from label (bgroups cs gs) (bpos cs o) = Ok (mkTok (concat (sub_chars cs o p)) false :: mid ++ ts) /\
    marked u w (map frag mid) /\ concat (map tk_text mid) = concat (sub_chars cs p e) /\ (ts = [] \/ exists t, ts = [mkTok t false]).
Proof.
  assert (forall a b, sub_chars cs a b = chars (concat (sub_chars cs a b))) as CC. { intros a b. symmetry. apply chars_concat. unfold sub_chars. apply Forall_firstn, Forall_skipn. apply cs_chars. }
  induction 1 as [w p H|w p q v w' e gs H L O C IH]; intros F o K; inversion F as [|? ? N F']; subst.
  - pose proof (chain_le _ _ _ _ _ _ (ch_one _ _ _ _ H) F) as B. cbn [bgroups map fst snd tokens_from]. rewrite slice_chars by lia. cbn [bind]. rewrite slice_chars by lia. cbn [bind].
    destruct (tail_tokens (p + length w)) as (ts & E & T); [lia|]. cbn [tokens_from] in E. rewrite E. cbn [bind]. exists [mkTok (concat (sub_chars cs p (p + length w))) true], ts. split; auto. split.
    + cbn [map]. unfold frag. cbn [tk_text tk_match]. constructor. rewrite <- CC. unfold sub_chars. replace (p + length w - p) with (length w) by lia. symmetry. exact H.
    + cbn [map tk_text concat]. rewrite app_nil_r. auto.
  - pose proof (chain_le _ _ _ _ _ _ C F') as B. destruct (IH F' (p + length w) L) as (mid & ts & E & M & X & T). cbn [bgroups map fst snd tokens_from]. rewrite slice_chars by lia. cbn [bind]. rewrite slice_chars by lia. cbn [bind].
    fold (bgroups cs gs). rewrite E. cbn [bind].
    exists (mkTok (concat (sub_chars cs p (p + length w))) true :: mkTok (concat (sub_chars cs (p + length w) q)) false :: mid), ts. split; auto. split; [|split; auto].
    + cbn [map]. unfold frag at 1 2. cbn [tk_text tk_match]. apply mk_cons; auto.
      * rewrite <- CC. unfold sub_chars. replace (p + length w - p) with (length w) by lia. symmetry. exact H.
      * intro I. apply (one_line_sub cs (p + length w) q) in O; [|lia]. apply O. apply in_concat in I. destruct I as (c & I1 & I2). assert (is_char c) as Cc. { destruct cs_chars as [Fc _]. unfold sub_chars in I1. assert (Forall is_char (firstn (q - (p + length w)) (skipn (p + length w) cs))) as G by now apply Forall_firstn, Forall_skipn. rewrite Forall_forall in G. auto. }
        replace [LF] with c; auto. unfold LF in *. destruct c as [|c1 [|c2 [|c3 [|c4 [|]]]]]; cbn in Cc, I2; unfold trail in Cc; try contradiction; [|exfalso; intuition lia..]. destruct I2 as [->|[]]. reflexivity.
    + cbn [map tk_text concat]. rewrite X. rewrite (sub_split cs p (p + length w) e), (sub_split cs (p + length w) q e), !concat_app by lia. reflexivity.
Qed.
Lemma chain_last w p e gs : chain u cs w p e gs -> exists a, last gs (0, 0) = (a, e) /\ gs <> [].
Proof.
  induction 1 as [w p H|w p q v w' e gs H L O C IH]; [eexists; split; [reflexivity|congruence]|]. destruct IH as (a & E & N). exists a. split; [|congruence]. destruct gs; [congruence|exact E].
Qed.
Lemma last_map {A B} (f : A -> B) l d d' : l <> [] -> last (map f l) d' = f (last l d).
Proof. induction l as [|x [|y l] IH]; intro N; [congruence|reflexivity|]. change (last (map f (x :: y :: l)) d') with (last (map f (y :: l)) d'). change (last (x :: y :: l) d) with (last (y :: l) d). apply IH. congruence. Qed.

Definition good_candidate (i : item) (c : candidate) : Prop :=
  ca_item c = i /\
  ((ca_score c = None /\ ~ matches u search label) \/
   exists n ts, span u search label n /\ ca_score c = Some (score_div (as_f32 (Z.of_nat (S n)))) /\ tokenize c = Ok ts /\ displayed u search label (map frag ts)).
Lemma candidate_spec i : it_label i = label -> exists c, candidate_new (fun s => search_from u (elems ws) (chars s) 0) i = Ok c /\ good_candidate i c.
Proof.
  intro EL. unfold candidate_new. rewrite EL. fold cs. assert (ws = [] \/ ws <> []) as [W|W] by (destruct ws; [now left|right; congruence]).
  - rewrite W. assert (search_from u (elems []) cs 0 = Some [Some (0, 0)]) as -> by (destruct cs; reflexivity).
    cbn [compute_candidate_score unwrap bind last sub Nat.leb Nat.sub Nat.add]. eexists. split; [reflexivity|]. split; [reflexivity|]. right.
    unfold tokenize. cbn [ca_item ca_locs tl tokens_from]. rewrite EL.
    assert (best u search label [] []) as B.
    { split; [exists cs; split; [reflexivity|]; fold ws; rewrite W; constructor|]. split; [cbn; intros; lia|]. intros x' (post & _ & T). fold ws in T. rewrite W in T. inversion T. cbn. lia. }
    destruct (tail_tokens 0) as (ts & E & T); [lia|]. cbn [tokens_from] in E. change (bpos cs 0) with 0 in E. rewrite E. exists 0, ts. split; [exists [], []; split; auto|]. split; [reflexivity|]. split; auto. split.
    + rewrite map_map. apply (tokens_concat label [] 0 ts); [lia|]. exact E.
    + fold ws. rewrite W. apply Forall_map. destruct T as [->|(t & ->)]; repeat constructor.
  - pose proof (search_spec u cs ws W ws_nonempty _ 0 eq_refl ltac:(lia)) as S. rewrite skipn_O in S. change (bpos cs 0) with 0 in S.
    destruct (search_from u (elems ws) cs 0) as [locs|].
    + destruct S as (p & e & gs & _ & C & X & Y & ->). pose proof (chain_le _ _ _ _ _ _ C ws_nonempty) as L. destruct (chain_last _ _ _ _ C) as (a & La & Ng).
      assert (last (Some (bpos cs p, bpos cs e) :: bgroups cs gs) None = Some (bpos cs a, bpos cs e)) as LL.
      { destruct gs as [|g gs]; [congruence|]. change (last (Some (bpos cs p, bpos cs e) :: bgroups cs (g :: gs)) None) with (last (bgroups cs (g :: gs)) None). unfold bgroups. rewrite (last_map _ _ (0, 0)) by congruence. now rewrite La. }
      unfold compute_candidate_score. rewrite LL. cbn [unwrap bind]. pose proof (bpos_sub p e ltac:(lia) ltac:(lia)) as BS.
      assert (sub (1 + bpos cs e) (bpos cs p) = Ok (Datatypes.S (length (concat (sub_chars cs p e))))) as ->. { unfold sub. replace (bpos cs p <=? 1 + bpos cs e) with true by (symmetry; apply Nat.leb_le; lia). f_equal. lia. }
      cbn [bind]. eexists. split; [reflexivity|]. split; [reflexivity|]. right.
      assert (best u search label (firstn p cs) (sub_chars cs p e)) as B.
      { split; [eapply chain_occurs; eauto|]. rewrite firstn_length, Nat.min_l, sub_len by lia. split.
        - intros pre' x' H. destruct (occurs_chain _ _ W H) as [g G]. destruct (le_lt_dec p (length pre')) as [|K]; auto. exfalso. apply (Y (length pre') _ _ ltac:(lia) G).
        - intros x' H. destruct (occurs_chain _ _ W H) as [g G]. rewrite firstn_length, Nat.min_l in G by lia. apply X in G. lia. }
      destruct (chain_tokens ws p e gs C ws_nonempty 0 ltac:(lia)) as (mid & ts & E & M & XM & T). change (bpos cs 0) with 0 in E.
      eexists (length (concat (sub_chars cs p e))), _. split; [eexists _, _; split; [exact B|reflexivity]|]. split; [reflexivity|]. unfold tokenize. cbn [ca_item ca_locs tl]. rewrite EL. split; [exact E|]. split.
      * rewrite map_map. rewrite (map_ext _ tk_text) by reflexivity. apply (tokens_concat _ _ 0 _ ltac:(lia) E).
      * fold ws. destruct ws as [|w w'] eqn:Ew; [congruence|]. rewrite <- Ew in *. exists (firstn p cs), (sub_chars cs p e), (map frag mid), (map frag ts). split; auto. split.
        -- cbn [map]. rewrite map_app. unfold frag at 1. cbn [tk_text tk_match]. unfold sub_chars. now rewrite Nat.sub_0_r, skipn_O.
        -- split; auto. split; [rewrite map_map; exact XM|]. destruct T as [->|(t & ->)]; [now left|right; now exists t].
    + eexists. split; [reflexivity|]. split; [reflexivity|]. left. split; auto. intros (pre & x & H). destruct (occurs_chain _ _ W H) as [g G]. now apply S in G; [|lia].
Qed.
Lemma span_unique n m : span u search label n -> span u search label m -> n = m.
Proof.
  intros (p & x & (O & M & X) & ->) (p' & x' & (O' & M' & X') & ->). assert (length p = length p') as Lp by (apply Nat.le_antisymm; eauto).
  assert (p = p') as ->. { destruct O as (q & E & _). destruct O' as (q' & E' & _). rewrite E in E'. apply (f_equal (firstn (length p))) in E'. rewrite Lp in E' at 2. now rewrite !firstn_app, !firstn_all, !Nat.sub_diag, !firstn_O, !app_nil_r in E'. }
  assert (length x = length x') as Lx by (apply Nat.le_antisymm; eauto). destruct O as (q & E & _). destruct O' as (q' & E' & _). rewrite E in E'. apply app_inv_head in E'. apply (f_equal (firstn (length x))) in E'.
  rewrite Lx in E' at 2. rewrite !firstn_app, !firstn_all, !Nat.sub_diag, !firstn_O, !app_nil_r in E'. now rewrite E'.
Qed.
Lemma span_bound n : span u search label n -> n <= length label.
Proof. intros (p & x & ((q & E & _) & _) & ->). destruct cs_chars as [_ K]. fold cs in E. rewrite <- K, E, !concat_app, !app_length. lia. Qed.
Lemma span_matches n : span u search label n -> matches u search label.
Proof. intros (p & x & (O & _) & _). now exists p, x. Qed.
End Label.

(** ** all the labels *)
Definition small (i : item) : Prop := valid (it_label i) /\ (Z.of_nat (length (it_label i)) < 2 ^ 23)%Z.
Lemma str_len_small n m : (Z.of_nat n < 2 ^ 23)%Z -> m <= n -> (Z.of_nat (S m) <= 2 ^ 23)%Z.
Proof. intros. lia. Qed.
Section Sorting.
Variable u : regex_crate.
Variable search : text.
Hypothesis PS : plain_search search.
Definition ranked (c : candidate) : Prop := small (ca_item c) /\ good_candidate u search (it_label (ca_item c)) (ca_item c) c.
(** non-matching entries last; the others as specified *)
Definition le_cand (a b : candidate) : Prop :=
  match ca_score a, ca_score b with
  | None, Some _ => False
  | Some _, Some _ => before u search (ca_item a) (ca_item b)
  | _, _ => True
  end.
Definition label_le (a b : item) : Prop := text_lt (it_label a) (it_label b) \/ it_label a = it_label b.
Lemma score_rank c s : ranked c -> ca_score c = Some s -> exists n, span u search (it_label (ca_item c)) n /\ s = score_div (Z.of_nat (S n)) /\ (0 < Z.of_nat (S n) <= 2 ^ 23)%Z.
Proof.
  intros ((V & L) & _ & [(N & _)|(n & ts & S & E & _)]) H; [congruence|]. rewrite H in E. injection E as ->. exists n. split; auto.
  assert (0 < Z.of_nat (Datatypes.S n) <= 2 ^ 23)%Z as B. { split; [lia|]. eapply str_len_small; eauto. eapply span_bound; eauto. } split; auto. now rewrite as_f32_small.
Qed.
Lemma cmp_ranked a b : ranked a -> ranked b -> less (fun a b => candidate_cmp b a) a b = true -> le_cand a b.
Proof.
  intros Ra Rb H. unfold less, candidate_cmp in H. unfold le_cand. destruct (ca_score a) as [sa|] eqn:Sa, (ca_score b) as [sb|] eqn:Sb; auto; [|discriminate].
  destruct (score_rank a sa Ra Sa) as (n & Sn & -> & Bn). destruct (score_rank b sb Rb Sb) as (m & Sm & -> & Bm). intros n' m' Hn Hm.
  assert (n' = n) as -> by (eapply span_unique; eauto; apply Ra). assert (m' = m) as -> by (eapply span_unique; eauto; apply Rb). cbn [opt_score_compare] in H.
  destruct (lt_eq_lt_dec n m) as [[K|K]|K]; auto.
  - subst m. rewrite score_eq in H. right. split; auto. left. apply text_cmp_lt. now destruct (text_cmp (it_label (ca_item a)) (it_label (ca_item b))).
  - rewrite (score_less (Z.of_nat (S m)) (Z.of_nat (S n))) in H by lia. discriminate.
Qed.
Lemma cmp_ranked' a b : ranked a -> ranked b -> less (fun a b => candidate_cmp b a) a b = false -> le_cand b a.
Proof.
  intros Ra Rb H. unfold less, candidate_cmp in H. unfold le_cand. destruct (ca_score b) as [sb|] eqn:Sb, (ca_score a) as [sa|] eqn:Sa; auto; [|discriminate].
  destruct (score_rank a sa Ra Sa) as (n & Sn & -> & Bn). destruct (score_rank b sb Rb Sb) as (m & Sm & -> & Bm). intros m' n' Hm Hn.
  assert (n' = n) as -> by (eapply span_unique; eauto; apply Ra). assert (m' = m) as -> by (eapply span_unique; eauto; apply Rb). cbn [opt_score_compare] in H.
  destruct (lt_eq_lt_dec n m) as [[K|K]|K]; auto.
  - assert (score_compare (score_div (Z.of_nat (S m))) (score_div (Z.of_nat (S n))) = Lt) as E.
    { pose proof (score_less (Z.of_nat (S n)) (Z.of_nat (S m)) ltac:(lia) ltac:(lia) ltac:(lia)) as G. unfold score_compare in *. rewrite Z.compare_antisym, G. reflexivity. }
    rewrite E in H. discriminate.
  - subst m. rewrite score_eq in H. right. split; auto. destruct (text_cmp (it_label (ca_item a)) (it_label (ca_item b))) eqn:T; [right; symmetry; now apply text_cmp_eq|discriminate|left; now apply text_cmp_gt].
Qed.
Lemma le_cand_trans a b c : ranked a -> ranked b -> ranked c -> le_cand a b -> le_cand b c -> le_cand a c.
Proof.
  unfold le_cand. intros Ra Rb Rc. destruct (ca_score a) eqn:Sa, (ca_score b) eqn:Sb, (ca_score c) eqn:Sc; auto; try contradiction. intros H1 H2 n m Hn Hm.
  destruct (score_rank b _ Rb Sb) as (k & Hk & _). specialize (H1 n k Hn Hk). specialize (H2 k m Hk Hm). destruct H1 as [|[-> H1]], H2 as [|[-> H2]]; try (left; lia). right. split; auto.
  destruct H1 as [H1|H1], H2 as [H2|H2]; try (rewrite H1; auto; fail); try (rewrite <- H2; auto; fail). left. eapply text_lt_trans; eauto.
Qed.
End Sorting.
Lemma mapM_good {A B} (f : A -> res B) (R : A -> B -> Prop) l : (forall a, In a l -> exists b, f a = Ok b /\ R a b) -> exists l', mapM f l = Ok l' /\ Forall2 R l l'.
Proof.
  induction l as [|a l IH]; intro H; [exists []; split; [reflexivity|constructor]|]. destruct (H a (or_introl eq_refl)) as (b & E & Q). destruct IH as (l' & E' & F); [intros; apply H; now right|].
  exists (b :: l'). cbn. rewrite E, E'. split; [reflexivity|now constructor].
Qed.
Lemma sorted_filter {A} (R : A -> A -> Prop) f l : StronglySorted R l -> StronglySorted R (List.filter f l).
Proof.
  induction 1 as [|x l S IH F]; cbn [List.filter]; [constructor|]. destruct (f x); auto. constructor; auto. rewrite Forall_forall in *. intros y Y. apply filter_In in Y. apply F. apply Y.
Qed.
Lemma filter_split {A} f (l : list A) : Permutation (List.filter f l ++ List.filter (fun x => negb (f x)) l) l.
Proof.
  induction l as [|x l IH]; cbn; auto. destruct (f x); cbn; [now constructor|]. rewrite <- Permutation_middle. now constructor.
Qed.

(** C52: a menu filtered by a search of plain words shows exactly the entries whose label contains the words in order on
    one line, ignoring case, each as often as it was offered, the shortest occurrence first and then in alphabetical order.
    (Labels shorter than 8 MiB, since the scores are single precision numbers, and a pattern within the limits of the crate.
    A label with a line feed between two words is not shown, and a search with special characters may crash: C52_refuted.) *)
Theorem C52_partial : forall u m search,
  is_prompt m = false -> plain_search search -> rx_fits u (raw_regex search) = true -> Forall small (mn_entries m) ->
  exists info l l', menu_notification u m search = Ok info /\
    Permutation (l ++ l') (mn_entries m) /\
    Forall (fun i => matches u search (it_label i)) l /\ Forall (fun i => ~ matches u search (it_label i)) l' /\
    StronglySorted (before u search) l /\
    Forall2 (fun i e => en_value e = it_key i /\ en_descr e = it_descr i /\ displayed u search (it_label i) (en_text e)) l (me_entries info).
Proof.
  intros u m search NP PS FT SM. unfold menu_notification. rewrite NP. unfold filter_items. rewrite (regex_plain u search PS FT). cbn [unwrap bind].
  destruct (mapM_good (candidate_new (fun s => search_from u (elems (map chars (split_whitespace search))) (chars s) 0)) (fun i c => good_candidate u search (it_label i) i c) (mn_entries m)) as (cs & -> & F2).
  { intros i I. rewrite Forall_forall in SM. apply candidate_spec; auto. now apply SM. }
  cbn [bind]. assert (Forall (ranked u search) cs /\ map ca_item cs = mn_entries m) as [RK MI].
  { clear - F2 SM. induction F2 as [|i c l l' G F2 IH]; [split; constructor|]. inversion SM; subst. destruct IH; auto. pose proof G as (E & _). split; [constructor; auto; split; rewrite E; auto|]. cbn [map]. now rewrite E, H0. }
  set (ss := sort_by (fun a b => candidate_cmp b a) cs). assert (Permutation ss cs) as PP by apply sort_perm.
  assert (StronglySorted (le_cand u search) ss) as SS. { apply (sort_sorted_on _ (ranked u search)); [apply cmp_ranked; auto|apply cmp_ranked'; auto|intros a b c; apply (le_cand_trans u search a b c)|exact RK]. }
  assert (Forall (ranked u search) ss) as RS by (rewrite Forall_forall in *; intros c C; apply RK; eapply Permutation_in; eauto).
  set (f := fun c : candidate => match ca_score c with Some _ => true | None => false end).
  destruct (mapM_good shown_entry (fun c e => en_value e = it_key (ca_item c) /\ en_descr e = it_descr (ca_item c) /\ displayed u search (it_label (ca_item c)) (en_text e)) (List.filter f ss)) as (es & -> & FE).
  { intros c C. apply filter_In in C. destruct C as [C Fc]. rewrite Forall_forall in RS. destruct (RS c C) as (_ & _ & [(N & _)|(n & ts & _ & _ & T & D)]); [unfold f in Fc; now rewrite N in Fc|].
    unfold shown_entry. rewrite T. cbn [bind]. eexists. split; [reflexivity|]. auto. }
  cbn [bind]. eexists. exists (map ca_item (List.filter f ss)), (map ca_item (List.filter (fun c => negb (f c)) ss)). split; [reflexivity|]. cbn [me_entries].
  split; [rewrite <- map_app, filter_split, PP, MI; auto|]. rewrite Forall_forall in RS. split; [|split; [|split]].
  - apply Forall_map, Forall_forall. intros c C. apply filter_In in C. destruct C as [C Fc]. destruct (RS c C) as (_ & _ & [(N & _)|(n & ts & S & _)]); [unfold f in Fc; now rewrite N in Fc|]. eapply span_matches; eauto.
  - apply Forall_map, Forall_forall. intros c C. apply filter_In in C. destruct C as [C Fc]. destruct (RS c C) as (_ & _ & [(N & M)|(n & ts & _ & S & _)]); auto. unfold f in Fc. rewrite S in Fc. discriminate.
  - pose proof (sorted_filter _ f _ SS) as SF. assert (Forall (fun c => f c = true) (List.filter f ss)) as AF by (apply Forall_forall; intros c C; apply filter_In in C; apply C).
    clear - SF AF. induction SF as [|x l S IH F]; cbn [map]; [constructor|]. inversion AF; subst. constructor; auto. apply Forall_map. rewrite Forall_forall in *. intros y Y. specialize (F y Y). specialize (H2 y Y). unfold le_cand in F. unfold f in *. destruct (ca_score x); [|discriminate]. destruct (ca_score y); [|discriminate]. exact F.
  - clear - FE. induction FE; cbn [map]; constructor; auto.
Qed.
Print Assumptions C52_partial.
(** Ignoring case: two characters of one byte count as the same exactly when they are equal or the two cases of a letter. *)
Theorem C52_case : forall u a b, same u [[a]] [[b]] <-> a = b \/ (65 <= a <= 90 /\ b = a + 32) \/ (65 <= b <= 90 /\ a = b + 32).
Proof.
  intros u a b. unfold same, fold_char, between. cbn [map].
  destruct (Nat.leb_spec 65 a), (Nat.leb_spec a 90), (Nat.leb_spec 65 b), (Nat.leb_spec b 90); cbn [andb]; (split; [intro H'; injection H' as H'; lia|intro H'; repeat f_equal; lia]).
Qed.
Print Assumptions C52_case.
(** every label that matches has such an occurrence: the order above is never vacuous *)
Theorem C52_span : forall u search label, plain_search search -> valid label -> matches u search label -> exists n, span u search label n.
Proof.
  intros u search label PS V M. destruct (candidate_spec u search label PS V (mkItem [] label None ASub) eq_refl) as (c & _ & _ & [(_ & N)|(n & _ & S & _)]); [contradiction|eauto].
Qed.
Print Assumptions C52_span.
(** Any menu whose title and entries were offered to a search: a single opening parenthesis crashes the server. *)
Theorem C52_refuted : forall u m, is_prompt m = false -> menu_notification u m (str "(") = Panic "called Result::unwrap on Err".
Proof.
  intros u m NP. unfold menu_notification. rewrite NP. unfold filter_items, regex_new. destruct (rx_fits u (raw_regex (str "("))); reflexivity.
Qed.
Print Assumptions C52_refuted.
(** ... and a label where the words are on two lines is not shown, although it contains them. *)
Theorem C52_refuted_lines : forall u c t k a, rx_fits u (raw_regex (str "a b")) = true ->
  menu_notification u (mkMenuM c t (Provider PFiles) [mkItem k [97; LF; 98] None a]) (str "a b") = Ok (mkMenu c t (str "a b") []).
Proof. intros u c t k a F. unfold menu_notification. cbn [is_prompt mn_source]. unfold filter_items, regex_new. rewrite F. reflexivity. Qed.
Print Assumptions C52_refuted_lines.

(** C51, whatever the search and whatever the crate answers: if a menu is displayed, each entry displayed is one of the menu,
    and its fragments are its label. *)
Theorem C51_concat : forall u m search info, menu_notification u m search = Ok info ->
  me_command info = mn_command m /\ me_title info = mn_title m /\ me_search info = search /\
  Forall (fun e => exists i, In i (mn_entries m) /\ en_value e = it_key i /\ en_descr e = it_descr i /\ concat (map fr_text (en_text e)) = it_label i) (me_entries info).
Proof.
  intros u m search info H. unfold menu_notification in H. destruct (is_prompt m).
  - injection H as <-. repeat split. cbn [me_entries]. apply Forall_map, Forall_forall. intros i I. exists i. cbn [en_value en_descr en_text map fr_text concat]. rewrite app_nil_r. auto.
  - unfold filter_items in H. destruct (regex_new u (raw_regex search)) as [re|]; [|discriminate]. cbn [unwrap bind] in H. destruct (mapM (candidate_new re) (mn_entries m)) as [cs| |] eqn:E; try discriminate. cbn [bind] in H.
    destruct (mapM shown_entry _) as [es| |] eqn:E2; try discriminate. injection H as <-. repeat split. cbn [me_entries].
    assert (Forall (fun c => In (ca_item c) (mn_entries m)) cs) as FC.
    { clear E2. revert cs E. induction (mn_entries m) as [|i l IH]; intros cs E; cbn [mapM] in E; [injection E as <-; constructor|]. destruct (candidate_new re i) as [c| |] eqn:Ec; try discriminate. cbn [bind] in E. destruct (mapM (candidate_new re) l) as [cs'| |]; try discriminate. injection E as <-. constructor.
      - left. unfold candidate_new in Ec. destruct (re (it_label i)) as [lo|]; [destruct (compute_candidate_score lo); try discriminate|]; now injection Ec as <-.
      - eapply Forall_impl; [|now apply IH]. intros; now right. }
    assert (Forall (fun c => In (ca_item c) (mn_entries m)) (List.filter (fun c => match ca_score c with Some _ => true | None => false end) (sort_by (fun a b => candidate_cmp b a) cs))) as FS.
    { rewrite Forall_forall in *. intros c C. apply filter_In in C. apply FC. eapply Permutation_in; [apply sort_perm|apply C]. }
    revert FS es E2. induction (List.filter _ _) as [|c l IH]; intros FS es E2; cbn [mapM] in E2; [injection E2 as <-; constructor|]. inversion FS; subst. unfold shown_entry at 1 in E2. destruct (tokenize c) as [ts| |] eqn:T; try discriminate. cbn [bind] in E2.
    destruct (mapM shown_entry l) as [es'| |]; try discriminate. injection E2 as <-. constructor; auto. exists (ca_item c). cbn [en_value en_descr en_text]. repeat split; auto. rewrite map_map. apply (tokens_concat _ _ 0 ts ltac:(lia) T).
Qed.
Print Assumptions C51_concat.
(** C51 on plain searches: no crash, and exactly the occurrences of the words are highlighted. *)
Theorem C51_partial : forall u m search,
  is_prompt m = false -> plain_search search -> rx_fits u (raw_regex search) = true -> Forall small (mn_entries m) ->
  exists info, menu_notification u m search = Ok info /\
    Forall (fun e => exists i, In i (mn_entries m) /\ en_value e = it_key i /\ displayed u search (it_label i) (en_text e)) (me_entries info).
Proof.
  intros u m search NP PS FT SM. destruct (C52_partial u m search NP PS FT SM) as (info & l & l' & E & P & _ & _ & _ & F). exists info. split; auto.
  assert (forall i, In i l -> In i (mn_entries m)) as I by (intros i I; eapply Permutation_in; [exact P|apply in_or_app; now left]). clear - F I. induction F as [|i e l es (A & B & C) F IH]; [constructor|]. constructor; [exists i; repeat split; auto; [apply I; now left|apply C|apply C]|apply IH; intros; apply I; now right].
Qed.
Print Assumptions C51_partial.
(** A search with a group of its own crashes the server as soon as an entry matches. *)
Theorem C51_refuted : forall u c t k a, rx_fits u (raw_regex (str "(a)")) = true ->
  menu_notification u (mkMenuM c t (Provider PFiles) [mkItem k (str "a") None a]) (str "(a)") = Panic "byte index is not a char boundary".
Proof. intros u c t k a F. unfold menu_notification. cbn [is_prompt mn_source]. unfold filter_items, regex_new. rewrite F. reflexivity. Qed.
Print Assumptions C51_refuted.

(** Groups in groups: the range of each is from its own parenthesis to the one that closes it, in the order of the openings. *)
Lemma close_nested t gs : nested t gs -> forall r d, close_of (t ++ r) d = close_of r d.
Proof.
  induction 1 as [|p inner gs q after hs I IH A IH2]; intros r d; [reflexivity|]. cbn [app close_of]. rewrite <- app_assoc, IH. cbn [app close_of]. apply IH2.
Qed.
Lemma groups_nested t gs : nested t gs -> forall r, groups (t ++ r) = map Some gs ++ groups r.
Proof.
  induction 1 as [|p inner gs q after hs I IH A IH2]; intro r; [reflexivity|]. cbn [app groups map]. rewrite <- !app_assoc. cbn [app].
  rewrite (close_nested inner gs I), IH. cbn [close_of groups]. rewrite IH2, map_app, <- app_assoc. reflexivity.
Qed.
Theorem C51_groups : forall t gs, nested t gs -> groups t = map Some gs.
Proof. intros t gs N. rewrite <- (app_nil_r t), (groups_nested t gs N []), app_nil_r. reflexivity. Qed.
Print Assumptions C51_groups.
(** the pattern (a(b)c)(d) on abcd *)
Example C51_groups_demo : nested [(true, 0); (true, 1); (false, 2); (false, 3); (true, 3); (false, 4)] [(0, 3); (1, 2); (3, 4)] /\
  search_from {| rx_fold := fun c => c; rx_fits := fun _ => true; rx_other := fun _ => None |}
    [IOpen; ILit [97]; IOpen; ILit [98]; IClose; ILit [99]; IClose; IOpen; ILit [100]; IClose] (chars (str "abcd")) 0 = Some [Some (0, 4); Some (0, 3); Some (1, 2); Some (3, 4)].
Proof.
  split; [|vm_compute; reflexivity].
  apply (ns_group 0 [(true, 1); (false, 2)] [(1, 2)] 3 [(true, 3); (false, 4)] [(3, 4)]).
  - apply (ns_group 1 [] [] 2 [] []); constructor.
  - apply (ns_group 3 [] [] 4 [] []); constructor.
Qed.

(** the hypotheses hold of a menu of files; the list displayed is the one of the project's own test *)
Definition ascii_crate : regex_crate := {| rx_fold := fun c => c; rx_fits := fun _ => true; rx_other := fun _ => None |}.
Definition file_item (s : text) : item := mkItem s s None AOpen.
Definition files_menu : menu := mkMenuM (str "open") (str "file") (Provider PFiles)
  (map file_item [str "/abs/path/here"; str "/tmp"; str "/project/module/file.ext"; str "/project/modula/file.ext"; str "/project/file.ext"; str "/project/file"; str "/PROJ/file/ext/other.ext"]).
Example C52_demo :
  is_prompt files_menu = false /\ plain_search (str "proj fil EXT") /\ Forall small (mn_entries files_menu) /\
  exists info, menu_notification ascii_crate files_menu (str "proj fil EXT") = Ok info /\
    map en_value (me_entries info) = [str "/project/file.ext"; str "/PROJ/file/ext/other.ext"; str "/project/modula/file.ext"; str "/project/module/file.ext"] /\
    hd [] (map en_text (me_entries info)) = [mkFrag (str "/") FDefault; mkFrag (str "proj") FMatch; mkFrag (str "ect/") FDefault; mkFrag (str "fil") FMatch; mkFrag (str "e.") FDefault; mkFrag (str "ext") FMatch].
Proof.
  assert (forall s, Forall (fun b => b < 128) s -> valid s) as VA. { intros s F. exists (map (fun b => [b]) s). split; [|clear; induction s; cbn; congruence]. apply Forall_map. eapply Forall_impl; [|exact F]. intros b B. cbv beta in B. unfold is_char. lia. }
  split; [reflexivity|]. split; [|split].
  - split; [apply VA; repeat (apply Forall_cons; [cbv; lia|]); constructor|]. vm_compute. repeat (apply Forall_cons; [repeat split; discriminate|]). constructor.
  - apply Forall_map. repeat (apply Forall_cons; [split; [apply VA; vm_compute; repeat (apply Forall_cons; [lia|]); constructor|vm_compute; reflexivity]|]). constructor.
  - eexists. split; [vm_compute; reflexivity|]. split; vm_compute; reflexivity.
Qed.
