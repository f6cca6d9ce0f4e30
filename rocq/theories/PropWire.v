(** C86: messages cross a connection whole, however their bytes travel, and a connection that breaks changes none. *)
From Coq Require Import String List Arith ZArith Lia Bool.
From Verif Require Import Base ListFacts Maps Fmt View PieceTable Coords Utf8 Utf8Spec Utf8Facts Json JsonFacts JsonSpec JsonSpelling Proto ProtoFacts PropProto PropJson Core CoreTame Menu Editor EditorSpec EditorFacts EditorTame PropEditor PropEditorSafe Proto Conn PropConn Server Wire WireSpec.
Import ListNotations.
Local Notation length := List.length (only parsing).

(** ** UTF-8 *)
Lemma step_ok s n : utf8_step s = (n, true) -> s <> [] -> is_char (firstn n s) /\ n <= length s /\ 1 <= n.
Proof.
  intros H Ns. unfold utf8_step in H. destruct s as [|a s]; [contradiction|]. cbn [nth] in H.
  destruct (a <? 128) eqn:A1. { injection H as <-. apply Nat.ltb_lt in A1. cbn. lia. }
  apply Nat.ltb_ge in A1.
  repeat match type of H with (if ?b then _ else _) = _ => destruct b eqn:? end; try discriminate; injection H as <-;
  unfold second3, second4, cont, between in *; rewrite ?orb_true_iff, ?andb_true_iff, ?Nat.leb_le, ?Nat.eqb_eq in *;
  destruct s as [|b s]; cbn [nth] in *; try lia; try (destruct s as [|d s]; cbn [nth] in *; try lia); try (destruct s as [|e s]; cbn [nth] in *; try lia); cbn [firstn is_char length]; unfold trail; try lia.
Qed.
Lemma is_utf8_ok s : is_utf8 s = true <-> valid s.
Proof.
  unfold is_utf8. split.
  - generalize (le_n (length s)). generalize (length s) at 2 3. intro f. revert s. induction f as [|f IH]; intros s L H; destruct s as [|b s]; cbn [utf8_fuel] in H; try apply valid_nil; try discriminate.
    destruct (utf8_step (b :: s)) as [n ok] eqn:E. apply andb_prop in H. destruct H as [-> H]. destruct (step_ok _ _ E ltac:(discriminate)) as (C & Ln & Pn).
    rewrite <- (firstn_skipn n (b :: s)). apply valid_app; [exists [firstn n (b :: s)]; split; [repeat constructor; exact C|cbn [concat]; now rewrite app_nil_r]|]. apply IH; [|exact H]. rewrite skipn_length. cbn [length] in *. lia.
  - intros (cs & F & ->). assert (forall f, length (concat cs) <= f -> utf8_fuel f (concat cs) = true) as K; [|apply K, le_n].
    induction F as [|c cs Hc F IH]; intros f L; cbn [concat] in *; [destruct f; reflexivity|]. pose proof (char_nonempty _ Hc) as N. rewrite app_length in L. assert (0 < length c) by (destruct c; [congruence|cbn; lia]).
    destruct f as [|f]; [lia|]. destruct (c ++ concat cs) as [|y ys] eqn:E; [destruct c; [congruence|discriminate]|]. cbn [utf8_fuel]. rewrite <- E, step_char by exact Hc. cbn [andb]. rewrite skipn_app_ge, Nat.sub_diag by lia. cbn [skipn]. apply IH. lia.
Qed.

(** ** lines *)
Lemma over_app a b : forall p, over p (a ++ b) = let '(l, q) := over p a in let '(l', q') := over q b in (l ++ l', q').
Proof.
  induction a as [|x a IH]; intro p; cbn [over app]; [destruct (over p b); reflexivity|]. destruct (x =? LF); [|apply IH]. rewrite IH. destruct (over [] a) as [l q]. destruct (over q b). reflexivity.
Qed.
Definition tail_items (p : text) (e : ending) : list item := match e with Open => [] | AtEnd => match p with [] => [] | _ => [finish p] end | Broken => [Bad] end.
Lemma items_bytes arr : forall p, items_from p arr = let '(l, q) := over p (bytes_of arr) in l ++ tail_items q (end_of arr).
Proof.
  induction arr as [|[b| |] arr IH]; intro p; cbn [items_from bytes_of end_of over]; try reflexivity. rewrite over_app. destruct (over p b) as [l q]. rewrite IH. destruct (over q (bytes_of arr)). now rewrite app_assoc.
Qed.
Lemma ends_of arr : ends arr = match end_of arr with Open => false | _ => true end.
Proof. induction arr as [|[b| |] arr IH]; cbn; auto. Qed.
(** The pieces do not matter: the same bytes with the same end are the same lines. *)
Theorem C86_pieces : forall arr arr', bytes_of arr = bytes_of arr' -> end_of arr = end_of arr' ->
  items arr = items arr' /\ forall c, read_client c arr = read_client c arr'.
Proof.
  intros arr arr' B E. assert (items arr = items arr') as I by (unfold items; now rewrite !items_bytes, B, E). split; [exact I|]. intro c. unfold read_client. now rewrite I, !ends_of, E.
Qed.
Print Assumptions C86_pieces.
Lemma over_nolf y : ~ In LF y -> forall p, over p y = ([], p ++ y).
Proof.
  induction y as [|b y IH]; intros N p; cbn [over]; [now rewrite app_nil_r|]. destruct (Nat.eqb_spec b LF) as [->|]; [case N; now left|]. rewrite IH by (intro X; apply N; now right). now rewrite <- app_assoc.
Qed.
Lemma over_line l q : ~ In LF l -> over [] ((l ++ [LF]) ++ q) = let '(i, p) := over [] q in (finish (l ++ [LF]) :: i, p).
Proof. intro N. rewrite <- app_assoc, over_app, over_nolf by exact N. cbn [app over]. rewrite Nat.eqb_refl. destruct (over [] q). reflexivity. Qed.
Definition clean (l : text) : Prop := valid l /\ forall c, In c l -> 32 <= c.
Lemma clean_nolf l : clean l -> ~ In LF l.
Proof. intros [_ H] X. apply H in X. unfold LF in X. lia. Qed.
Lemma chop_lf l : (forall c, In c l -> 32 <= c) -> chop (l ++ [LF]) = l.
Proof.
  intro H. unfold chop. rewrite rev_unit. change LF with 10. destruct (rev l) as [|b r] eqn:E; [apply (f_equal (@rev nat)) in E; rewrite rev_involutive in E; now subst|].
  assert (32 <= b) as Hb by (apply H, in_rev; rewrite E; now left). assert (rev (b :: r) = l) as <- by (rewrite <- E; apply rev_involutive).
  do 32 (destruct b as [|b]; [lia|]). reflexivity.
Qed.
Lemma chop_none y : ~ In LF y -> chop y = y.
Proof.
  intro H. unfold chop. destruct (rev y) as [|b r] eqn:E; [reflexivity|]. assert (b <> LF) as N by (intros ->; apply H, in_rev; rewrite E; now left). unfold LF in N.
  do 10 (destruct b as [|b]; [reflexivity|]). destruct b; [contradiction|reflexivity].
Qed.
Lemma finish_line l : clean l -> finish (l ++ [LF]) = Line l.
Proof.
  intros [V H]. unfold finish. rewrite (proj2 (is_utf8_ok _)); [now rewrite chop_lf|]. apply valid_app; [exact V|]. exists [[LF]]. split; [repeat constructor|reflexivity].
Qed.
Lemma over_lines ls y : Forall clean ls -> ~ In LF y -> over [] (written ls ++ y) = (map Line ls, y).
Proof.
  intros F N. induction F as [|l ls Hl F IH]; cbn [written flat_map map app]; [now apply over_nolf|]. change (flat_map (fun l => l ++ [LF]) ls) with (written ls). rewrite <- app_assoc, over_line by now apply clean_nolf. rewrite IH. now rewrite finish_line.
Qed.
(** a beginning of what was written: some lines, and a beginning of the next *)
Lemma beginning ls : forall p q, p ++ q = written ls -> q <> [] -> exists done x later y z, ls = done ++ x :: later /\ p = written done ++ y /\ x = y ++ z.
Proof.
  induction ls as [|l ls IH]; intros p q E Nq; cbn [written flat_map] in E; [apply app_eq_nil in E; destruct E; contradiction|]. change (flat_map (fun l => l ++ [LF]) ls) with (written ls) in E.
  destruct (le_lt_dec (length (l ++ [LF])) (length p)) as [L|L].
  - assert (p = (l ++ [LF]) ++ skipn (length (l ++ [LF])) p) as Ep.
    { rewrite <- (firstn_skipn (length (l ++ [LF])) p) at 1. f_equal. apply (f_equal (firstn (length (l ++ [LF])))) in E. rewrite !firstn_app_le, firstn_all in E by lia. exact E. }
    rewrite Ep, <- (app_assoc (l ++ [LF])) in E. apply app_inv_head in E. destruct (IH _ _ E Nq) as (d & x & lt & y & z & -> & Es & ->). exists (l :: d), (y ++ z), lt, y, z. split; [reflexivity|]. split; [|reflexivity].
    rewrite Ep, Es. cbn [written flat_map]. rewrite <- !app_assoc. reflexivity.
  - exists [], l, ls, p, (skipn (length p) l). split; [reflexivity|]. split; [reflexivity|]. rewrite <- (firstn_skipn (length p) l) at 1. f_equal. rewrite app_length in L. cbn [length] in L.
    apply (f_equal (firstn (length p))) in E. rewrite firstn_app_le, firstn_all in E by lia. rewrite firstn_app_le in E by (rewrite app_length; cbn [length]; lia). rewrite firstn_app_le in E by lia. exact (eq_sym E).
Qed.

(** ** a message cut short is no message *)
Lemma object_reads s j : spells s j -> hd 0 s = 123 -> forall f d r, levels j < d -> 2 * length s <= f -> read f d (s ++ r) = Some (j, r).
Proof.
  intros S H f d r D L. inversion S as [| | |m ds v I Hv|m ds fr ex I Fr Ex NH|s0 x Q| | |w0 W0|t l M]; subst; try discriminate H.
  - destruct I as [[N F] _]. destruct m; [discriminate H|]. destruct ds as [|b ds]; [contradiction|]. cbn in H. subst b. inversion F as [|? ? X _]. unfold a_digit in X. lia.
  - destruct I as [[N F] _]. destruct m; [discriminate H|]. destruct ds as [|b ds]; [contradiction|]. cbn in H. subst b. inversion F as [|? ? X _]. unfold a_digit in X. lia.
  - destruct Q as (t & -> & _). discriminate H.
  - destruct f as [|f]; [cbn [length] in L; lia|]. apply levels_obj in D. destruct D as (d' & -> & _). cbn [read app]. rewrite skip_byte by reflexivity. cbn [Nat.eqb].
    rewrite <- app_assoc. rewrite skip_white by exact W0. reflexivity.
  - destruct f as [|f]; [cbn [length] in L; lia|]. destruct (proj2 (proj2 reads_spelling) _ _ M) as [IH A]. apply levels_obj in D. destruct D as (d' & -> & D). cbn [read app]. rewrite skip_byte by reflexivity. cbn [Nat.eqb].
    rewrite <- app_assoc. rewrite A. cbn [app]. rewrite IH; [reflexivity|intros k j Hj; exact (D (k, j) Hj)|]. cbn [length] in L. rewrite app_length in L. cbn [length] in L. lia.
Qed.
Lemma object_cut x v y z : parse x = Some v -> hd 0 x = 123 -> last x 0 = 125 -> x = y ++ z -> z <> [] -> parse y = None.
Proof.
  intros P H0 H1 E Nz. destruct (parse y) as [j|] eqn:Q; [exfalso|reflexivity]. apply C84_exact in Q. destruct Q as [(w & s & w' & Ey & W & S & W') Nj]. apply levels_nested in Nj.
  assert (w = []) as ->. { destruct w as [|b w]; [reflexivity|]. exfalso. inversion W as [|? ? Wb _]; subst. rewrite <- app_assoc in H0. cbn in H0. lia. }
  cbn [app] in Ey. assert (hd 0 s = 123) as Hs. { pose proof (spells_starts _ _ S) as (b & r & Es & _). rewrite Es in *. rewrite E, Ey in H0. exact H0. }
  pose proof (object_reads _ _ S Hs (2 * length x + 2) 128 (w' ++ z)) as R. rewrite E, Ey in P, R at 1. rewrite <- app_assoc in P, R. unfold parse in P.
  rewrite E, Ey in R. rewrite <- !app_assoc in R. rewrite R in P; [|lia|rewrite !app_length; lia]. rewrite skip_white in P by exact W'.
  destruct (skip_inv z) as (wz & Wz & Ez). destruct (skip_ws z) eqn:K; [|discriminate]. rewrite app_nil_r in Ez. subst z. clear - H1 E Nz Wz. subst x.
  destruct (exists_last Nz) as (z' & b & ->). rewrite app_assoc, last_last in H1. subst b. apply Forall_app in Wz. destruct Wz as [_ Wz]. inversion Wz as [|? ? X _]; subst. lia.
Qed.

(** ** what the writers write *)
Lemma ascii_all s : (forall c, In c s -> c < 128) -> valid s.
Proof.
  induction s as [|b s IH]; intro H; [apply valid_nil|]. change (b :: s) with ([b] ++ s). apply valid_app; [|apply IH; intros c I; apply H; now right].
  exists [[b]]. split; [|reflexivity]. apply Forall_cons; [|constructor]. cbn [is_char]. assert (b < 128) by (apply H; now left). lia.
Qed.
Lemma escape_ascii b : b < 128 -> forall c, In c (escape b) -> c < 128.
Proof.
  intros L c I. assert (forall n, n < 16 -> hex_digit n < 128) as Hx by (intros n Ln; unfold hex_digit; destruct (n <? 10) eqn:?; lia).
  unfold escape in I. repeat match type of I with In _ (if ?q then _ else _) => destruct q eqn:? end; cbn [In] in I; try lia.
  repeat (destruct I as [<-|I]; [lia|]). rewrite Nat.ltb_lt in *. destruct I as [<-|[<-|[]]]; apply Hx; [|apply Nat.mod_upper_bound; lia]. apply Nat.div_lt_upper_bound; lia.
Qed.
Lemma escape_high b : 128 <= b -> escape b = [b].
Proof.
  intro L. unfold escape. repeat match goal with |- context [?x =? ?y] => destruct (Nat.eqb_spec x y); [lia|] end. destruct (Nat.ltb_spec b 32); [lia|reflexivity].
Qed.
Lemma escape_char c : is_char c -> valid (flat_map escape c).
Proof.
  intro C. destruct c as [|b [|d [|e [|g [|h c]]]]]; cbn [is_char] in C; unfold trail in C; try contradiction; cbn [flat_map]; rewrite ?app_nil_r.
  - apply ascii_all. apply escape_ascii. lia.
  - rewrite !escape_high by lia. exists [[b; d]]. split; [|reflexivity]. apply Forall_cons; [cbn [is_char]; unfold trail; lia|constructor].
  - rewrite !escape_high by lia. exists [[b; d; e]]. split; [|reflexivity]. apply Forall_cons; [cbn [is_char]; unfold trail; lia|constructor].
  - rewrite !escape_high by lia. exists [[b; d; e; g]]. split; [|reflexivity]. apply Forall_cons; [cbn [is_char]; unfold trail; lia|constructor].
Qed.
Lemma print_str_valid s : valid s -> valid (print_str s).
Proof.
  intros (cs & F & ->). unfold print_str. change (34 :: ?x) with ([34] ++ x). apply valid_app; [apply ascii_all; intros c [<-|[]]; lia|]. apply valid_app; [|apply ascii_all; intros c [<-|[]]; lia].
  induction F as [|c cs C F IH]; cbn [concat]; [apply valid_nil|]. rewrite flat_map_app. apply valid_app; [now apply escape_char|exact IH].
Qed.
Lemma commas_valid l : Forall valid l -> valid (commas l).
Proof.
  induction 1 as [|x l V F IH]; cbn [commas]; [apply valid_nil|]. destruct l as [|y l]; [exact V|]. apply valid_app; [exact V|]. change (44 :: ?x) with ([44] ++ x). apply valid_app; [apply ascii_all; intros c [<-|[]]; lia|exact IH].
Qed.
Lemma texts_arr l : texts_valid (JArr l) -> Forall texts_valid l.
Proof. induction l as [|x l IH]; intro H; [constructor|]. destruct H as [A B]. constructor; [exact A|exact (IH B)]. Qed.
Lemma texts_obj l : texts_valid (JObj l) -> Forall (fun e => valid (fst e) /\ texts_valid (snd e)) l.
Proof. induction l as [|[k x] l IH]; intro H; [constructor|]. destruct H as (A & B & C). constructor; [split; [exact A|exact B]|exact (IH C)]. Qed.
Lemma print_valid j : plain_json j -> texts_valid j -> valid (print j).
Proof.
  assert (forall n c, In c (dec n) -> c < 128) as D. { intros n c H. pose proof (dec_digits n) as Dn. rewrite Forall_forall in Dn. apply Dn in H. unfold digit in H. apply andb_prop in H. rewrite !Nat.leb_le in H. lia. }
  induction j as [|[|]|z|x|s|l F|l F] using json_ind'; cbn [print]; intros P T.
  - apply ascii_all. intros c H. repeat (destruct H as [<-|H]; [lia|]). destruct H.
  - apply ascii_all. intros c H. repeat (destruct H as [<-|H]; [lia|]). destruct H.
  - apply ascii_all. intros c H. repeat (destruct H as [<-|H]; [lia|]). destruct H.
  - apply ascii_all. unfold print_int. destruct (z <? 0)%Z; [intros c [<-|H]; [lia|]|intros c H]; eapply D; exact H.
  - contradiction.
  - now apply print_str_valid.
  - change (91 :: ?x) with ([91] ++ x). apply valid_app; [apply ascii_all; intros c [<-|[]]; lia|]. apply valid_app; [|apply ascii_all; intros c [<-|[]]; lia].
    apply commas_valid. apply Forall_map. apply texts_arr in T. rewrite Forall_forall in *. intros x I. apply F; [exact I|now apply (plain_arr _ P)|now apply T].
  - change (123 :: ?x) with ([123] ++ x). apply valid_app; [apply ascii_all; intros c [<-|[]]; lia|]. apply valid_app; [|apply ascii_all; intros c [<-|[]]; lia].
    apply commas_valid. apply Forall_map. apply texts_obj in T. rewrite Forall_forall in *. intros x I. apply T in I as K. destruct K as [K1 K2].
    apply valid_app; [now apply print_str_valid|]. change (58 :: ?x) with ([58] ++ x). apply valid_app; [apply ascii_all; intros c [<-|[]]; lia|]. apply F; [exact I|now apply (plain_obj _ P)|exact K2].
Qed.
(** the text of a message: a JSON object without line feeds *)
Definition message_text (x : text) : Prop := clean x /\ hd 0 x = 123 /\ last x 0 = 125 /\ exists v, parse x = Some v.
Lemma object_text l : plain_json (JObj l) -> levels (JObj l) < 128 -> texts_valid (JObj l) -> message_text (print (JObj l)).
Proof.
  intros P L T. split; [split; [now apply print_valid|now apply print_visible]|]. split; [reflexivity|]. split; [|eexists; now apply parse_print].
  cbn [print]. change (123 :: ?a ++ [125]) with ((123 :: a) ++ [125]). apply last_last.
Qed.
Lemma request_text r : wire_request r -> texts_valid (enc_request r) -> message_text (print_request r).
Proof. intros W T. destruct (request_wire _ W) as [P L]. now apply object_text. Qed.
Lemma event_text e : wire_event e -> texts_valid (enc_event e) -> message_text (print_event e).
Proof. destruct e as [n|r]; intros W T; [destruct (notification_wire _ W) as [P L]|destruct (response_wire _ W) as [P L]]; now apply object_text. Qed.

(** ** the lines of a connection *)
Lemma clean_prefix y z : clean (y ++ z) -> ~ In LF y.
Proof. intros [_ H] I. assert (32 <= LF) by (apply H; apply in_or_app; now left). unfold LF in *. lia. Qed.
Lemma finish_whole l : clean l -> finish l = Line l.
Proof. intro C. unfold finish. rewrite (proj2 (is_utf8_ok _)) by apply C. rewrite chop_none; [reflexivity|now apply clean_nolf]. Qed.
Lemma whole_items ls arr : Forall message_text ls -> bytes_of arr = written ls -> items arr = map Line ls ++ match end_of arr with Broken => [Bad] | _ => [] end.
Proof.
  intros F E. unfold items. rewrite items_bytes, E. rewrite <- (app_nil_r (written ls)). rewrite over_lines; [|eapply Forall_impl; [|exact F]; intros x M; apply M|intros []].
  reflexivity.
Qed.
(** what is read of a connection that carries only a beginning of what was written *)
Lemma cut_items ls arr q : Forall message_text ls -> bytes_of arr ++ q = written ls -> q <> [] ->
  exists k y z, nth_error ls k = Some (y ++ z) /\ bytes_of arr = written (firstn k ls) ++ y /\
    items arr = map Line (firstn k ls) ++ match end_of arr with
                                          | Open => []
                                          | Broken => [Bad]
                                          | AtEnd => match y with [] => [] | _ => [finish y] end
                                          end /\
    (z = [] -> finish y = Line y) /\ (z <> [] -> finish y = Bad \/ finish y = Line y /\ parse y = None).
Proof.
  intros F E Nq. destruct (beginning _ _ _ E Nq) as (done & x & later & y & z & -> & Eb & ->). apply Forall_app in F. destruct F as [Fd F]. inversion F as [|? ? M _]; subst. destruct M as (C & H0 & H1 & v & P).
  exists (length done), y, z. rewrite nth_error_app2, Nat.sub_diag by lia. split; [reflexivity|]. rewrite firstn_app, firstn_all, Nat.sub_diag. cbn [firstn]. rewrite app_nil_r. split; [exact Eb|]. split; [|split].
  - unfold items. rewrite items_bytes, Eb, over_lines; [|eapply Forall_impl; [|exact Fd]; intros a M; apply M|exact (clean_prefix _ _ C)]. reflexivity.
  - intros ->. rewrite app_nil_r in C. now apply finish_whole.
  - intro Nz. unfold finish. destruct (is_utf8 y); [right|now left]. rewrite chop_none by exact (clean_prefix _ _ C). split; [reflexivity|]. exact (object_cut _ _ _ _ P H0 H1 eq_refl Nz).
Qed.

(** ** requests *)
(** the bytes a client writes for its requests *)
Definition lines_of (rs : list request) : list text := map print_request rs.
Definition sound (r : request) : Prop := wire_request r /\ texts_valid (enc_request r).
Lemma sound_texts rs : Forall sound rs -> Forall message_text (lines_of rs).
Proof. intro F. apply Forall_map. eapply Forall_impl; [|exact F]. intros r [W T]. now apply request_text. Qed.
Lemma served_lines c ls i b : served c (map Line ls ++ i) b = map (MLine c) ls ++ served c i b.
Proof. induction ls as [|l ls IH]; [reflexivity|]. cbn [map app served]. now rewrite IH. Qed.
Lemma parse_none y : parse y = None -> parse_request y = None.
Proof. intro P. unfold parse_request. now rewrite P. Qed.
(** All of it arrived, in whatever pieces: the server gets exactly the messages, in order, and then the end, if there is one. *)
Theorem C86_whole : forall c rs arr, Forall sound rs -> bytes_of arr = written (lines_of rs) ->
  read_client c arr = map (MLine c) (lines_of rs) ++ match end_of arr with Open => [] | _ => [MEnd c] end.
Proof.
  intros c rs arr F E. unfold read_client. rewrite (whole_items _ _ (sound_texts _ F) E), ends_of, served_lines. f_equal. destruct (end_of arr); reflexivity.
Qed.
Print Assumptions C86_whole.
Lemma firstn_next {A} k : forall (l : list A) x, nth_error l k = Some x -> firstn (S k) l = firstn k l ++ [x].
Proof. induction k as [|k IH]; intros [|a l] x H; try discriminate; [injection H as ->; reflexivity|]. cbn [nth_error] in H. change (firstn (S (S k)) (a :: l)) with (a :: firstn (S k) l). rewrite (IH _ _ H). reflexivity. Qed.
(** Only a beginning arrived (so far): [k] whole messages and a beginning [y] of the next.  While the connection is open, the
    server has exactly the whole ones; when it breaks, these and the end; when it is closed, besides these at most the [y], which
    is the whole message (without its end of line) or is not a request. *)
Theorem C86_cut : forall c rs arr q, Forall sound rs -> bytes_of arr ++ q = written (lines_of rs) -> q <> [] ->
  exists k y z, nth_error (lines_of rs) k = Some (y ++ z) /\ bytes_of arr = written (firstn k (lines_of rs)) ++ y /\
    match end_of arr with
    | Open => read_client c arr = map (MLine c) (firstn k (lines_of rs))
    | Broken => read_client c arr = map (MLine c) (firstn k (lines_of rs)) ++ [MEnd c]
    | AtEnd => exists d frag, read_client c arr = map (MLine c) (firstn d (lines_of rs)) ++ frag ++ [MEnd c] /\
        (z = [] /\ d = S k /\ frag = [] \/
         z <> [] /\ d = k /\ (frag = [] \/ frag = [MLine c y] /\ parse_request y = None))
    end.
Proof.
  intros c rs arr q F E Nq. destruct (cut_items _ _ _ (sound_texts _ F) E Nq) as (k & y & z & N & Eb & I & Iz & In). exists k, y, z. split; [exact N|]. split; [exact Eb|]. clear E Eb.
  unfold read_client. rewrite I, ends_of, served_lines. destruct (end_of arr); [now rewrite app_nil_r| |reflexivity].
  destruct z as [|b z].
  - exists (S k), []. split; [|now left]. rewrite app_nil_r in N. rewrite (firstn_next _ _ _ N), map_app, <- app_assoc. f_equal. specialize (Iz eq_refl). destruct y as [|a y]; [|rewrite Iz; reflexivity].
    exfalso. pose proof (sound_texts _ F) as M. rewrite Forall_forall in M. destruct (M [] (nth_error_In _ _ N)) as (_ & H & _). discriminate H.
  - assert (b :: z <> []) as Nz by discriminate. specialize (In Nz). clear Iz. destruct y as [|a y]; [exists k, []; split; [reflexivity|right; auto]|].
    destruct In as [In|[In P]]; rewrite In; [exists k, []; split; [reflexivity|right; auto]|]. exists k, [MLine c (a :: y)]. split; [reflexivity|]. right. split; [exact Nz|]. split; [reflexivity|]. right. split; [reflexivity|]. now apply parse_none.
Qed.
Print Assumptions C86_cut.
Section Fragment.
Variable G : Graphemes.
Variable pol : policy.
Variable u : Menu.regex_crate.
Variable se : serde.
Variable L : lua.
(** Such a beginning does nothing: the editor refuses it, and logs that. *)
Theorem C86_fragment : forall w c y e r e', parse_request y = None -> handle G pol u se L w c y e = Ok (r, e') ->
  rp_id r = IdNull /\ refused r (-32600) /\ only_logged G L c e e'.
Proof. intros w c y e r e' P H. destruct (C37_partial G pol u se L e w c y r e' H) as (_ & _ & K). now rewrite P in K. Qed.
(** An editor that has only seen careful events survives it and answers. *)
Theorem C86_survives : History.policy_wrap pol \/ History.policy_succ pol -> forall w c y e, parse_request y = None -> careful_reach G pol u se L e -> plain y -> plain (se_line se y) ->
  exists r e', handle G pol u se L w c y e = Ok (r, e') /\ rp_id r = IdNull /\ refused r (-32600) /\ only_logged G L c e e'.
Proof.
  intros Pf w c y e P R Y S. destruct (C37_answered_partial G pol u se L Pf w c y e R) as (r & e' & H); [unfold careful_line; rewrite P; split; [exact S|exact Y]|].
  exists r, e'. split; [exact H|]. now apply (C86_fragment w c y e).
Qed.
End Fragment.
Print Assumptions C86_fragment.
(** A line that is not UTF-8 ends the connection there, whatever follows it. *)
Theorem C86_garbage : forall c rs arr bad rest, Forall sound rs -> ~ In LF bad -> ~ valid bad ->
  bytes_of arr = written (lines_of rs) ++ bad ++ [LF] ++ rest -> read_client c arr = map (MLine c) (lines_of rs) ++ [MEnd c].
Proof.
  intros c rs arr bad rest F N B E. unfold read_client, items. rewrite items_bytes, E.
  assert (over [] (written (lines_of rs) ++ bad ++ [LF] ++ rest) = let '(l, q) := over [] rest in (map Line (lines_of rs) ++ Bad :: l, q)) as O.
  { rewrite over_app. pose proof (over_lines (lines_of rs) []) as K. rewrite app_nil_r in K. rewrite K; [|eapply Forall_impl; [|exact (sound_texts _ F)]; intros x M; apply M|intros []].
    rewrite app_assoc, over_line by exact N. destruct (over [] rest) as [l q]. replace (finish (bad ++ [LF])) with Bad; [reflexivity|]. unfold finish. destruct (is_utf8 (bad ++ [LF])) eqn:U; [|reflexivity].
    exfalso. apply is_utf8_ok in U. apply B. apply (PropJson.valid_trim bad [LF]); [exact U|]. apply Forall_cons; [unfold LF; lia|constructor]. }
  rewrite O. destruct (over [] rest) as [l q]. rewrite <- app_assoc, served_lines. reflexivity.
Qed.
Print Assumptions C86_garbage.

(** ** messages of the server *)
Definition sound_event (e : event) : Prop := wire_event e /\ texts_valid (enc_event e).
Definition event_lines (es : list event) : list text := map print_event es.
Lemma event_texts es : Forall sound_event es -> Forall message_text (event_lines es).
Proof. intro F. apply Forall_map. eapply Forall_impl; [|exact F]. intros r [W T]. now apply event_text. Qed.
(** the messages a client gets from the lines *)
Lemma events_parse es : Forall sound_event es -> exists es', map parse_event (event_lines es) = map Some es'.
Proof.
  induction 1 as [|e es [W _] F (es' & IH)]; [exists []; reflexivity|]. destruct (C39 _ W) as (e' & P & _). exists (e' :: es'). cbn [event_lines map]. rewrite P. f_equal. exact IH.
Qed.
Lemma reads_lines ls es' i : map parse_event ls = map Some es' -> client_reads (map Line ls ++ i) = let '(t, p) := client_reads i in (map Took es' ++ t, p).
Proof.
  revert es'. induction ls as [|l ls IH]; intros [|e es'] H; try discriminate; [cbn [map app]; now destruct (client_reads i)|].
  cbn [map] in H. injection H as Hl H. cbn [map app client_reads]. rewrite (IH _ H), Hl. destruct (client_reads i). reflexivity.
Qed.
Theorem C86_messages : forall es arr, Forall sound_event es -> bytes_of arr = written (event_lines es) ->
  exists es', map parse_event (event_lines es) = map Some es' /\
    client_reads (items arr) = (map Took es', match end_of arr with Broken => true | _ => false end).
Proof.
  intros es arr F E. destruct (events_parse _ F) as (es' & P). exists es'. split; [exact P|]. rewrite (whole_items _ _ (event_texts _ F) E), (reads_lines _ _ _ P).
  destruct (end_of arr); cbn [client_reads]; now rewrite app_nil_r.
Qed.
Print Assumptions C86_messages.
(** cut anywhere: the client takes the whole messages only; what is left is reported as an error, or makes it panic *)
Theorem C86_messages_cut : forall es arr q, Forall sound_event es -> bytes_of arr ++ q = written (event_lines es) -> q <> [] ->
  exists es' k y z, map parse_event (event_lines es) = map Some es' /\
    nth_error (event_lines es) k = Some (y ++ z) /\ bytes_of arr = written (firstn k (event_lines es)) ++ y /\
    match end_of arr with
    | Open => client_reads (items arr) = (map Took (firstn k es'), false)
    | Broken => client_reads (items arr) = (map Took (firstn k es'), true)
    | AtEnd => z = [] /\ client_reads (items arr) = (map Took (firstn (S k) es'), false) \/
        z <> [] /\ (client_reads (items arr) = (map Took (firstn k es'), false) /\ y = [] \/
                    client_reads (items arr) = (map Took (firstn k es') ++ [Refused y], false) \/
                    client_reads (items arr) = (map Took (firstn k es'), true) /\ ~ valid y)
    end.
Proof.
  intros es arr q F E Nq. destruct (events_parse _ F) as (es' & P). destruct (cut_items _ _ _ (event_texts _ F) E Nq) as (k & y & z & N & Eb & I & Iz & In).
  exists es', k, y, z. split; [exact P|]. split; [exact N|]. split; [exact Eb|]. clear E Eb.
  assert (map parse_event (firstn k (event_lines es)) = map Some (firstn k es')) as Pk by now rewrite <- firstn_map, P, firstn_map.
  rewrite I, (reads_lines _ _ _ Pk). destruct (end_of arr); cbn [client_reads]; [now rewrite app_nil_r| |now rewrite app_nil_r].
  destruct z as [|b z].
  - left. split; [reflexivity|]. rewrite app_nil_r in N. specialize (Iz eq_refl).
    destruct (nth_error es' k) as [e'|] eqn:Q.
    2:{ exfalso. apply (map_nth_error parse_event) in N. rewrite P, nth_error_map, Q in N. discriminate N. }
    assert (parse_event y = Some e') as Py. { apply (map_nth_error parse_event) in N. rewrite P, nth_error_map, Q in N. now injection N as <-. }
    rewrite (firstn_next _ _ _ Q), map_app. destruct y as [|a y]; [|rewrite Iz; cbn [client_reads]; now rewrite Py].
    exfalso. pose proof (event_texts _ F) as M. rewrite Forall_forall in M. destruct (M [] (nth_error_In _ _ N)) as (_ & H & _). discriminate H.
  - right. split; [discriminate|]. specialize (In ltac:(discriminate)). clear Iz. destruct y as [|a y]; [left; split; [cbn [client_reads]; now rewrite app_nil_r|reflexivity]|]. right.
    unfold finish in *. destruct (is_utf8 (a :: y)) eqn:U.
    + left. destruct In as [In|[In Pn]]; [discriminate In|]. injection In as In. rewrite In. cbn [client_reads]. unfold parse_event. now rewrite Pn.
    + right. split; [cbn [client_reads]; now rewrite app_nil_r|]. intro V. apply is_utf8_ok in V. congruence.
Qed.
Print Assumptions C86_messages_cut.

(** ** cases *)
(** the name holds a character of two bytes, which arrives in two pieces *)
Fixpoint texts_b (j : json) : bool :=
  match j with
  | JStr s => is_utf8 s
  | JArr l => forallb texts_b l
  | JObj l => forallb (fun e => is_utf8 (fst e) && texts_b (snd e)) l
  | _ => true
  end.
Lemma texts_b_ok j : texts_b j = true -> texts_valid j.
Proof.
  induction j as [|b|z|x|s|l F|l F] using json_ind'; cbn [texts_b]; intro H; try exact Logic.I; [now apply is_utf8_ok| |].
  - induction F as [|x l Fx F IH]; [exact Logic.I|]. cbn [forallb] in H. apply andb_prop in H. destruct H as [A B]. split; [exact (Fx A)|exact (IH B)].
  - induction F as [|[k x] l Fx F IH]; [exact Logic.I|]. cbn [forallb fst snd] in *. apply andb_prop in H. destruct H as [A B]. apply andb_prop in A. destruct A as [A A']. split; [now apply is_utf8_ok|]. split; [exact (Fx A')|exact (IH B)].
Qed.
Definition demo_ask : request := new_request (IdNum 1) (str "edit") (Some (enc_edit (mkEdit [102; 195; 169] false))).
Lemma demo_sound : Forall sound [demo_ask; demo_ask].
Proof.
  assert (sound demo_ask) as S.
  { split; [split; [reflexivity|apply norm_wire; split; [cbn; tauto|cbn; lia]]|]. apply texts_b_ok. vm_compute. reflexivity. }
  apply Forall_cons; [exact S|]. apply Forall_cons; [exact S|constructor].
Qed.
Definition wire_bytes : text := written (lines_of [demo_ask; demo_ask]).
Definition in_pieces (ns : list nat) (s : text) : list arrival := (fix go ns s := match ns with [] => [Piece s] | n :: r => Piece (firstn n s) :: go r (skipn n s) end) ns s.
(* the two messages take 80 bytes each and an end of line, the character is at 59 *)
Example C86_whole_demo : forall ns, In ns [[]; [1; 1; 1]; [60; 30; 60]; [80; 1; 80]; [60; 81]] -> read_client 3 (in_pieces ns wire_bytes ++ [Closed]) = map (MLine 3) (lines_of [demo_ask; demo_ask]) ++ [MEnd 3].
Proof. intros ns H. repeat (destruct H as [<-|H]; [vm_compute; reflexivity|]). destruct H. Qed.
(* cut in the second message: behind its last byte, inside the character, before it, behind its first byte; the first two also while the connection is open and when it is reset *)
Definition cut (n : nat) (e : list arrival) : list arrival := in_pieces [60] (firstn n wire_bytes) ++ e.
Example C86_cut_demo : Forall (fun n => cut n [] <> [] /\ read_client 3 (cut n []) = [MLine 3 (print_request demo_ask)] /\ read_client 3 (cut n [Reset]) = [MLine 3 (print_request demo_ask); MEnd 3]) [81; 82; 141; 161] /\
  read_client 3 (cut 161 [Closed]) = map (MLine 3) (lines_of [demo_ask; demo_ask]) ++ [MEnd 3] /\
  read_client 3 (cut 160 [Closed]) = [MLine 3 (print_request demo_ask); MLine 3 (firstn 79 (print_request demo_ask)); MEnd 3] /\
  read_client 3 (cut 141 [Closed]) = [MLine 3 (print_request demo_ask); MEnd 3] /\
  read_client 3 (cut 81 [Closed]) = [MLine 3 (print_request demo_ask); MEnd 3].
Proof. split; [repeat (apply Forall_cons; [split; [discriminate|split; vm_compute; reflexivity]|]); constructor|]. repeat split; vm_compute; reflexivity. Qed.
(* the editor's answer to the beginning of a message, from any state it can be in: C86_fragment applies *)
Example C86_fragment_demo : forall n, In n [1; 2; 40; 79] -> parse_request (firstn n (print_request demo_ask)) = None.
Proof. intros n H. repeat (destruct H as [<-|H]; [vm_compute; reflexivity|]). destruct H. Qed.
Example C86_garbage_demo : read_client 3 [Piece (written (lines_of [demo_ask]) ++ [97; 200; 97; LF] ++ wire_bytes); Closed] = [MLine 3 (print_request demo_ask); MEnd 3].
Proof. vm_compute. reflexivity. Qed.
(** A connection of which the server's side is closed in the middle of a character makes the client panic; so does every connection that is reset. *)
Definition demo_echo : event := EvNotification (new_notification (str "echo") (Some (JStr [195; 169]))).
Lemma echo_sound : Forall sound_event [demo_echo].
Proof. apply Forall_cons; [|constructor]. split; [apply norm_wire; split; [cbn; tauto|cbn; lia]|]. apply texts_b_ok. vm_compute. reflexivity. Qed.
Theorem C86_refuted : (exists es arr q, Forall sound_event es /\ bytes_of arr ++ q = written (event_lines es) /\ end_of arr = AtEnd /\ client_reads (items arr) = ([], true)) /\
  (forall es arr, Forall sound_event es -> bytes_of arr = written (event_lines es) -> end_of arr = Broken -> snd (client_reads (items arr)) = true).
Proof.
  split.
  - exists [demo_echo], [Piece (firstn 44 (written (event_lines [demo_echo]))); Closed], (skipn 44 (written (event_lines [demo_echo]))). split; [exact echo_sound|]. split; [vm_compute; reflexivity|]. split; vm_compute; reflexivity.
  - intros es arr F E B. destruct (C86_messages es arr F E) as (es' & _ & R). rewrite R, B. reflexivity.
Qed.
Print Assumptions C86_refuted.
Example C86_messages_demo : exists e, client_reads (items (in_pieces [44; 3] (written (event_lines [demo_echo; demo_echo])))) = ([Took e; Took e], false) /\ parse_event (print_event demo_echo) = Some e.
Proof. eexists. split; vm_compute; reflexivity. Qed.
