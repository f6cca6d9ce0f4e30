(** C68: keys, end to end, with the scripts of the program. *)
From Coq Require Import String List Arith Lia ZArith Bool Permutation.
From Verif Require Import Base ListFacts PieceTable Coords Utf8 Utf8Spec Utf8Facts Diff Selection Maps StackMap Fmt Buffer View ViewFacts Json Proto Keys PropKeys Core CoreSpec CoreInv CoreOps PropCore Payload Menu PropMenu Modal PropModal Editor EditorSpec EditorFacts PropEditor EditorTame Shipped.
Import ListNotations.

(** ** specification *)
(** the name of a mode in the status line *)
Definition mode_name (p : place) : text := match p with InNormal => str "N" | InInsertion => str "I" | InGoto false => str "g" | InGoto true => str "G" end.
(** a key that does nothing *)
Definition ignored (id : nat) (p : place) (k : key_event) : Prop :=
  (p = InNormal /\ forall e q cs, In (e, q, cs) (normal_keys id) -> ~ same_key k e) \/ (p = InInsertion /\ k <> escape_key).
(** the box shown while the program waits for the second key; its two entries come in any order *)
Definition goto_box (extend swapped : bool) : list text :=
  (if extend then str "╭─ extend to ───╮" else str "╭─ move to ─────╮") ::
  (if swapped then [str "│ l: line end   │"; str "│ h: line begin │"] else [str "│ h: line begin │"; str "│ l: line end   │"]) ++
  [str "╰───────────────╯"].
Definition says (x : text) : rich := [mkFrag x FDefault].
Definition who_where (id : nat) (session : text) : text := str "[" ++ dec id ++ str "@" ++ session ++ str "]".
(** the status line after a key *)
Definition status_after (id : nat) (session : text) (k : key_event) (p : place) : esent :=
  mkES (Some [id]) (OStatus [mkStatus 80 (says (event_str k)); mkStatus 90 (says (mode_name p)); mkStatus 100 (says (who_where id session))]).
(** what a key makes the client hear besides the messages of the core: [pre] before, [post] after *)
Inductive heard (id : nat) (session : text) (p : place) (k : key_event) (q : place) : list esent -> list esent -> Prop :=
| heard_nothing : ignored id p k -> heard id session p k q [] []
| heard_status : ~ ignored id p k -> (forall x, q <> InGoto x) -> heard id session p k q [] [status_after id session k q]
| heard_box x b : ~ ignored id p k -> q = InGoto x -> heard id session p k q [mkES (Some [id]) (OHint (map says (goto_box x b)))] [status_after id session k q].
(** what the core broadcasts when it goes from [k] to [k'] *)
Definition core_news (k k' : core) : list esent := map (fun s => mkES (m_to s) (OCore (m_what s))) (skipn (length (k_sent k)) (k_sent k')).
(** [pairs] visits every entry once *)
Definition pairs_ok (R : lua_rest) : Prop := (forall l, Permutation (lr_pairs R l) l) /\ (forall l, Permutation (lr_lines R l) l).
(** a session name that can be written in a Lua string as it is *)
Definition plain_session (s : text) : Prop := Forall (fun b => b <> 34 /\ b <> 92 /\ b <> 10 /\ b <> 13) s.

(** ** reading the sources *)
Lemma strip_app p s : strip p (p ++ s) = Some s.
Proof. induction p as [|a p IH]; cbn [app strip]; [now destruct s|]. now rewrite Nat.eqb_refl. Qed.
Lemma span_app f x y : Forall (fun b => f b = true) x -> match y with [] => True | b :: _ => f b = false end -> span f (x ++ y) = (x, y).
Proof.
  induction 1 as [|b x Hb F IH]; intro Hy; cbn [app span].
  - destruct y as [|c y]; cbn [span]; [reflexivity|now rewrite Hy].
  - now rewrite Hb, IH.
Qed.
Lemma digit_literal b : digit b = true -> literal_byte b = true.
Proof. unfold digit, literal_byte. intro H. apply andb_prop in H. destruct H as [A B]. apply Nat.leb_le in A, B. destruct (Nat.eqb_spec b 34), (Nat.eqb_spec b 92), (Nat.eqb_spec b 10), (Nat.eqb_spec b 13); try lia; reflexivity. Qed.
Lemma plain_literal s : plain_session s -> Forall (fun b => literal_byte b = true) s.
Proof. intro F. eapply Forall_impl; [|exact F]. intros b (A & B & C & D). unfold literal_byte. apply Nat.eqb_neq in A, B, C, D. now rewrite A, B, C, D. Qed.
Lemma env_source_split s c : env_source s c = env_head ++ s ++ env_mid ++ dec c ++ env_tail.
Proof. unfold env_source, env_head, env_mid, env_tail. rewrite <- !app_assoc. reflexivity. Qed.
Lemma read_env_ok s c : plain_session s -> read_env (env_source s c) = Some (s, dec c).
Proof.
  intro P. unfold read_env. rewrite env_source_split, strip_app. rewrite (span_app literal_byte s (env_mid ++ dec c ++ env_tail)); [|now apply plain_literal|reflexivity].
  rewrite strip_app. rewrite (span_app literal_byte (dec c) env_tail); [now rewrite eqb_refl| |reflexivity]. eapply Forall_impl; [|apply dec_digits]. intro b. apply digit_literal.
Qed.
Lemma read_call_ok f c : read_call f (f ++ dec c ++ str ")") = Some c.
Proof.
  unfold read_call. rewrite strip_app. rewrite (span_app digit (dec c) (str ")")); [|apply dec_digits|reflexivity]. rewrite eqb_refl.
  assert (eqb (dec c) [] = false) as -> by (apply eqb_neq; apply dec_nonempty). cbn [andb negb]. now rewrite dec_value.
Qed.
Lemma exec_env R s c st : plain_session s -> exec_source R (env_source s c) st = SDone (mkLS (Some (s, dec c)) (ls_clients st)).
Proof. intro P. unfold exec_source. now rewrite read_env_ok. Qed.
Lemma exec_add R id st : exec_source R (str "editor:add_client(" ++ dec id ++ str ")") st = add_client_lua R id st.
Proof. unfold exec_source. replace (read_env _) with (@None (text * text)) by reflexivity. now rewrite read_call_ok. Qed.
Lemma exec_remove R id st : exec_source R (str "editor:remove_client(" ++ dec id ++ str ")") st = remove_client_lua id st.
Proof.
  unfold exec_source. replace (read_env _) with (@None (text * text)) by reflexivity. replace (read_call (str "editor:add_client(") _) with (@None nat) by reflexivity. now rewrite read_call_ok.
Qed.

(** ** the status line *)
Definition client_item : text * (Z * ltext) := (str "client", (100%Z, TClient)).
Definition table (o : option (text * text)) : amap text (Z * ltext) :=
  client_item :: match o with None => [] | Some (a, b) => [(str "keys", (80%Z, TString a)); (str "mode", (90%Z, TString b))] end.
Lemma set_status_table o a b : set_status a b (table o) = table (Some (a, b)).
Proof. destruct o as [[? ?]|]; reflexivity. Qed.
Lemma all_some_perm {A B} (f : A -> B) (l m : list A) : Permutation l m -> exists x, all_some (map (fun a => Some (f a)) l) = Some x /\ Permutation x (map f m).
Proof.
  intro P. exists (map f l). split; [|now apply Permutation_map]. clear. induction l as [|a l IH]; cbn; [reflexivity|]. now rewrite IH.
Qed.
Lemma perm1 {A} (l : list A) a : Permutation l [a] -> l = [a].
Proof. intro P. apply Permutation_sym in P. now apply Permutation_length_1_inv in P. Qed.
Lemma perm3 {A} (l : list A) a b c : Permutation l [a; b; c] -> In l [[a; b; c]; [a; c; b]; [b; a; c]; [b; c; a]; [c; a; b]; [c; b; a]].
Proof.
  intro P. destruct l as [|x l]; [apply Permutation_length in P; discriminate|].
  assert (In x [a; b; c]) as H by (eapply Permutation_in; [exact P|now left]). apply Permutation_sym in P.
  destruct H as [<-|[<-|[<-|[]]]].
  - apply Permutation_cons_inv in P. apply Permutation_length_2_inv in P. destruct P as [->| ->]; cbn; tauto.
  - change [a; b; c] with ([a] ++ b :: [c]) in P. apply Permutation_sym, Permutation_cons_app_inv, Permutation_sym in P. cbn [app] in P. apply Permutation_length_2_inv in P. destruct P as [->| ->]; cbn; tauto.
  - change [a; b; c] with ([a; b] ++ c :: []) in P. apply Permutation_sym, Permutation_cons_app_inv, Permutation_sym in P. cbn [app] in P. apply Permutation_length_2_inv in P. destruct P as [->| ->]; cbn; tauto.
Qed.
Definition item_of (session client : text) (e : text * (Z * ltext)) : Z * text :=
  (fst (snd e), match snd (snd e) with TString x => x | TClient => str "[" ++ client ++ str "@" ++ session ++ str "]" end).
Lemma status_perm R s c l m : pairs_ok R -> Permutation l m -> exists x, status_of R (Some (s, c)) l = Some x /\ Permutation x (map (item_of s c) m).
Proof.
  intros [P _] Q. unfold status_of. assert (Permutation (lr_pairs R l) m) as Q' by (rewrite P; exact Q). destruct (all_some_perm (item_of s c) _ _ Q') as (x & E & X). exists x. split; auto. rewrite <- E. f_equal. apply map_ext. intros [n [i [t|]]]; reflexivity.
Qed.
Lemma status_table R s id o : pairs_ok R -> exists x, status_of R (Some (s, dec id)) (table o) = Some x /\
  status_items x = match o with None => [] | Some (a, b) => [mkStatus 80 (says a); mkStatus 90 (says b)] end ++ [mkStatus 100 (says (who_where id s))].
Proof.
  intro P. destruct (status_perm R s (dec id) _ _ P (Permutation_refl (table o))) as (x & E & X). exists x. split; auto. unfold who_where. destruct o as [[a b]|]; cbn [table client_item map item_of fst snd] in X.
  - apply perm3 in X. destruct X as [<-|[<-|[<-|[<-|[<-|[<-|[]]]]]]]; reflexivity.
  - apply perm1 in X. subst x. reflexivity.
Qed.

(** ** the box *)
Lemma hint_ok R (x : bool) : pairs_ok R -> exists b, mode_hint R (if x then str "extendto" else str "moveto") = goto_box x b.
Proof.
  intros [_ P]. unfold mode_hint. specialize (P (map (fun e : text * text => fst e ++ str ": " ++ snd e) goto_desc)). cbn [goto_desc map fst snd] in P. apply Permutation_sym, Permutation_length_2_inv in P.
  change (map (fun e : text * text => fst e ++ str ": " ++ snd e) goto_desc) with [str "h" ++ str ": " ++ str "line begin"; str "l" ++ str ": " ++ str "line end"].
  destruct P as [->| ->]; [exists false|exists true]; destruct x; reflexivity.
Qed.

(** ** what the handler asks for *)
Definition goto_mode (x : bool) : text := if x then str "extendto" else str "moveto".
Definition effects (id : nat) (k : key_event) (q : place) (cs : list call) : list effect :=
  match q with InGoto x => [EHint id (goto_mode x)] | _ => [] end ++ map ECall cs ++ [EStatus id (event_str k) (mode_name q)].
Lemma step_effects id p k : wf_event k -> exists q cs es, documented id p k q cs /\ handle_key (event_str k) (mkMH id (place_stack p)) = Some (mkMH id (place_stack q), es) /\
  ((ignored id p k /\ es = [] /\ q = p /\ cs = []) \/ (~ ignored id p k /\ es = effects id k q cs)).
Proof.
  intro W. destruct p as [| |x].
  - unfold handle_key. change (cur_cfg (mkMH id (place_stack InNormal))) with (get modes (str "normal")). change (get modes (str "normal")) with (Some (snd (hd (str "", mkMode [] false [] None) modes))).
    cbn [modes hd snd md_mappings md_default].
    match goal with |- context [get ?l (event_str k)] => set (tbl := l) end.
    destruct (get_mapped tbl (event_str k)) as [(n & a & I & E & Gm)|[N Gm]]; rewrite Gm.
    + assert (exists e q cs, In (e, q, cs) (normal_keys id) /\ n = event_str e /\ wf_key (ke_key e) /\ 
        match apply_mapped a (mkMH id (place_stack InNormal)) with None => None | Some (h, fs) => match cur_cfg h with None => None | Some cfg => Some (h, fs ++ [EStatus (mh_client h) (event_str k) (md_name cfg)]) end end = Some (mkMH id (place_stack q), effects id k q cs)) as (e & q & cs & I' & E' & V & H).
      { assert (Forall2 (fun x y => fst x = event_str (fst (fst y)) /\ wf_key (ke_key (fst (fst y))) /\ 
          match apply_mapped (snd x) (mkMH id (place_stack InNormal)) with None => None | Some (h, fs) => match cur_cfg h with None => None | Some cfg => Some (h, fs ++ [EStatus (mh_client h) (event_str k) (md_name cfg)]) end end = Some (mkMH id (place_stack (snd (fst y))), effects id k (snd (fst y)) (snd y))) tbl (normal_keys id)) as F2.
        { unfold tbl, normal_keys. repeat (constructor; [split; [reflexivity|split; [cbn; lia|reflexivity]]|]). constructor. }
        destruct (Forall2_in_l _ _ _ _ F2 I) as ([[e q] cs] & I' & A & B & C). exists e, q, cs. cbn [fst snd] in *. eauto 10. }
      assert (same_key k e) as Sk by (apply same_display; auto; congruence).
      exists q, cs, (effects id k q cs). split; [eapply doc_normal; eauto|]. split; [exact H|]. right. split; [|reflexivity]. intros [[_ X]|[X _]]; [now apply (X _ _ _ I')|discriminate].
    + assert (forall e q cs, In (e, q, cs) (normal_keys id) -> ~ same_key k e) as Nk.
      { intros e q cs I S. assert (exists a, In (event_str e, a) tbl) as (a & Ia).
        { assert (Forall2 (fun y x => fst x = event_str (fst (fst y))) (normal_keys id) tbl) as F2 by (unfold tbl, normal_keys; repeat (constructor; [reflexivity|]); constructor).
          destruct (Forall2_in_l _ _ _ _ F2 I) as ([n a] & I' & A). cbn [fst] in A. subst n. eauto. }
        apply (N _ _ Ia). apply same_display; auto. clear - I. unfold normal_keys in I. cbn [In] in I. repeat (destruct I as [X|I]; [injection X as <- _ _; cbn; lia|]). destruct I. }
      exists InNormal, [], []. split; [now apply doc_normal_other|]. split; [reflexivity|]. left. split; [left; auto|auto].
  - unfold handle_key. change (cur_cfg (mkMH id (place_stack InInsertion))) with (Some (mkMode (str "I") false [(str "esc", MExit)] None)). cbn [md_mappings md_default get].
    destruct (eqb (event_str k) (str "esc")) eqn:E.
    + apply eqb_ok in E. apply same_escape in E; auto. subst k. exists InNormal, [], [EStatus id (str "esc") (str "N")]. split; [constructor|]. split; [reflexivity|]. right. split; [|reflexivity]. intros [[X _]|[_ X]]; [discriminate|congruence].
    + assert (k <> escape_key) as Nk by (intros ->; apply eqb_neq in E; now apply E). exists InInsertion, [], []. split; [now constructor|]. split; [reflexivity|]. left. split; [right; auto|auto].
  - assert (~ ignored id (InGoto x) k) as Ng by (intros [[X _]|[X _]]; discriminate).
    assert (forall b, handle_key (event_str k) (mkMH id (place_stack (InGoto b))) =
      (if eqb (event_str k) (str "h") then Some (mkMH id (place_stack InNormal), [ECall (CMove id MLineBegin b); EStatus id (event_str k) (str "N")])
       else if eqb (event_str k) (str "l") then Some (mkMH id (place_stack InNormal), [ECall (CMove id MLineEnd b); EStatus id (event_str k) (str "N")])
       else Some (mkMH id (place_stack InNormal), [EStatus id (event_str k) (str "N")]))) as Hg.
    { intro b. unfold handle_key. replace (cur_cfg (mkMH id (place_stack (InGoto b)))) with (Some (mkMode (if b then str "G" else str "g") true (goto_mappings b) (Some MExit))) by (destruct b; reflexivity).
      cbn [md_mappings md_default goto_mappings get]. destruct (eqb (event_str k) (str "h")); [destruct b; reflexivity|]. destruct (eqb (event_str k) (str "l")); destruct b; reflexivity. }
    rewrite Hg. destruct (eqb (event_str k) (str "h")) eqn:E1; [|destruct (eqb (event_str k) (str "l")) eqn:E2].
    + apply eqb_ok in E1. eexists _, _, _. split; [|split; [reflexivity|right; split; [exact Ng|]]]; [apply doc_goto_begin; apply same_display; auto; cbn; lia|reflexivity].
    + apply eqb_ok in E2. eexists _, _, _. split; [|split; [reflexivity|right; split; [exact Ng|]]]; [apply doc_goto_end; apply same_display; auto; cbn; lia|reflexivity].
    + apply eqb_neq in E1, E2. eexists _, _, _. split; [|split; [reflexivity|right; split; [exact Ng|]]]; [apply doc_goto_other; intro S; apply same_display in S; auto; cbn; lia|reflexivity].
Qed.
Lemma between_iff a b x : between a b x = true <-> a <= x <= b.
Proof. unfold between. rewrite andb_true_iff, !Nat.leb_le. reflexivity. Qed.
Lemma second3_iff a b : second3 a b = true -> (a = 224 /\ 160 <= b <= 191) \/ (225 <= a <= 236 /\ trail b) \/ (a = 237 /\ 128 <= b <= 159) \/ (238 <= a <= 239 /\ trail b).
Proof. unfold second3, cont. rewrite !orb_true_iff, !andb_true_iff, !Nat.eqb_eq, !between_iff. unfold trail. tauto. Qed.
Lemma second4_iff a b : second4 a b = true -> (a = 240 /\ 144 <= b <= 191) \/ (241 <= a <= 243 /\ trail b) \/ (a = 244 /\ 128 <= b <= 143).
Proof. unfold second4, cont. rewrite !orb_true_iff, !andb_true_iff, !Nat.eqb_eq, !between_iff. unfold trail. tauto. Qed.
Lemma one_char_char c : one_char c = true -> is_char c.
Proof.
  unfold one_char. destruct c as [|a c]; [discriminate|]. unfold utf8_step. cbn [nth]. cbv zeta.
  destruct (Nat.ltb_spec a 128) as [A|A]; [destruct c; [intros _; cbn; lia|cbn; discriminate]|].
  destruct (between 194 223 a) eqn:B2.
  { destruct c as [|b c]; cbn [nth]; [cbn; discriminate|]. destruct (cont b) eqn:C; cbn [andb]; [|discriminate]. intro H. apply Nat.eqb_eq in H. destruct c; [|discriminate]. apply between_iff in B2, C. cbn [is_char]. unfold trail. auto. }
  destruct (between 224 239 a) eqn:B3.
  { destruct c as [|b c]; cbn [nth]; [assert (second3 a 0 = false) as -> by (unfold second3; change (cont 0) with false; change (between 160 191 0) with false; change (between 128 159 0) with false; now rewrite !andb_false_r); discriminate|].
    destruct (second3 a b) eqn:S3; cbn [andb]; [|discriminate]. destruct c as [|d c]; cbn [nth]; [cbn; discriminate|].
    destruct (cont d) eqn:C; cbn [andb]; [|discriminate]. intro H. apply Nat.eqb_eq in H. destruct c; [|discriminate]. cbn [is_char]. apply between_iff in C. split; [exact C|]. now apply second3_iff. }
  destruct (between 240 244 a) eqn:B4; [|cbn; discriminate].
  destruct c as [|b c]; cbn [nth]; [assert (second4 a 0 = false) as -> by (unfold second4; change (cont 0) with false; change (between 144 191 0) with false; change (between 128 143 0) with false; now rewrite !andb_false_r); discriminate|].
  destruct (second4 a b) eqn:S4; cbn [andb]; [|discriminate]. destruct c as [|d c]; cbn [nth]; [cbn; discriminate|].
  destruct (cont d) eqn:C; cbn [andb]; [|discriminate]. destruct c as [|f c]; cbn [nth]; [cbn; discriminate|]. destruct (cont f) eqn:Cf; cbn [andb]; [|discriminate]. intro H. apply Nat.eqb_eq in H. destruct c; [|discriminate]. cbn [is_char].
  apply between_iff in C, Cf. split; [exact C|]. split; [exact Cf|]. now apply second4_iff.
Qed.
Lemma unit_key_wf s k : get unit_keys s = Some k -> wf_key k.
Proof. intro E. apply get_in in E. cbn in E. repeat (destruct E as [X|E]; [injection X as _ <-; exact Logic.I|]). destruct E. Qed.
Lemma dec_key_wf j k : dec_key j = Some k -> wf_key k.
Proof.
  destruct j; cbn [dec_key]; try discriminate; [apply unit_key_wf|]. destruct l as [|[n v] [|? ?]]; [discriminate| |destruct v; discriminate]. destruct v; try discriminate; [apply unit_key_wf|].
  destruct (eqb n (str "Char")); cbn [andb]; [|discriminate]. destruct (one_char s) eqn:O; [|discriminate]. intro E. injection E as <-. cbn. now apply one_char_char.
Qed.
Lemma dec_keys_wf j ks : dec_keys j = Some ks -> Forall wf_event ks.
Proof.
  destruct j; cbn [dec_keys]; try discriminate. revert ks. induction l as [|x l IH]; cbn [map all_some]; intros ks E; [injection E as <-; constructor|].
  destruct (dec_key_event x) as [k|] eqn:Ek; [|discriminate]. destruct (all_some _) as [r|] eqn:Er; [|discriminate]. injection E as <-. constructor; [|now apply IH].
  unfold dec_key_event in Ek. destruct (fields _ x) as [[|[a|] [|[b|] [|[c|] [|[d|] [|? ?]]]]]|]; try discriminate. destruct (dec_bool a), (dec_bool b), (dec_bool c); try discriminate. destruct (dec_key d) eqn:D; [|discriminate]. injection Ek as <-. unfold wf_event. cbn. eapply dec_key_wf; eauto.
Qed.

(** ** running the scripts *)
Section Run.
Variable G : Graphemes.
Variable pol : policy.
Variable u : regex_crate.
Variable se : serde.
Variable R : lua_rest.
Notation L := (shipped R).
Notation editor := (editor L).
Notation run_script := (run_script G pol L).

Definition scripted (c : call) : Prop := match c with CMove _ _ _ | CMessage (Some _) _ | CDeleteSelection _ => True | CError (Some _) t _ => t = str "lua" | _ => False end.
Lemma documented_scripted id p k q cs : documented id p k q cs -> Forall scripted cs.
Proof.
  intro D. destruct D; auto; try (repeat constructor; fail). unfold normal_keys in H. cbn [In] in H. repeat (destruct H as [X|H]; [injection X as _ _ <-; repeat constructor|]). destruct H.
Qed.
Lemma method_core w c (e : editor) : scripted c -> lua_call G pol L w (method_of c) e = on_core G pol L w c e.
Proof.
  intro H. destruct c; cbn [scripted] in H; try contradiction; try reflexivity; match goal with x : option nat |- _ => destruct x; [|contradiction] end; [reflexivity|subst; reflexivity].
Qed.
Lemma set_core_same (e : editor) : set_core L e (ed_core L e) = e.
Proof. unfold set_core. rewrite skipn_all. cbn [map]. rewrite app_nil_r. now destruct e. Qed.
Lemma set_core_twice (e : editor) k1 k2 : sent_ext (ed_core L e) k1 -> sent_ext k1 k2 -> set_core L (set_core L e k1) k2 = set_core L e k2.
Proof.
  intros [l1 E1] [l2 E2]. unfold set_core. cbn [ed_session ed_menus ed_stopped ed_core ed_lua ed_out]. f_equal. rewrite <- app_assoc, <- map_app. do 2 f_equal.
  assert (forall (a b : list sent), skipn (length a) (a ++ b) = b) as K by (intros a b; now rewrite skipn_app, skipn_all, Nat.sub_diag).
  rewrite E2, K, E1, K, <- app_assoc, K. reflexivity.
Qed.
Lemma calls_ext d cs : forall k k', run_calls G pol d cs k = Ok k' -> sent_ext k k'.
Proof.
  induction cs as [|c cs IH]; intros k k' E; cbn [run_calls] in E; [injection E as <-; apply ext_refl|]. bnd E. destruct v. apply call_ext in E0. eapply ext_trans; eauto.
Qed.
Lemma perform_calls w cs es s : Forall scripted cs -> forall e : editor,
  run_script w (perform R (map ECall cs ++ es) s) e = (k <- run_calls G pol (w_disk w) cs (ed_core L e) ;; run_script w (perform R es s) (set_core L e k)).
Proof.
  induction 1 as [|c cs Hc F IH]; intro e; cbn [map app run_calls bind].
  - now rewrite set_core_same.
  - cbn [perform Editor.run_script]. rewrite (method_core w c e Hc). unfold on_core. destruct (run_call G pol (w_disk w) c (ed_core L e)) as [[r k]| |] eqn:E; cbn [bind]; try reflexivity.
    rewrite IH. change (ed_core L (set_core L e k)) with k. destruct (run_calls G pol (w_disk w) cs k) as [k2| |] eqn:E2; cbn [bind]; try reflexivity.
    rewrite set_core_twice; auto; [eapply call_ext; eauto|eapply calls_ext; eauto].
Qed.

(** the scripts' key handler of the client is in that mode *)
Definition at_place (e : editor) (id : nat) (p : place) : Prop :=
  exists o, get (ls_clients (ed_lua L e)) id = Some (mkLC (table o) (mkMH id (place_stack p))).
Definition others_same (e e' : editor) (id : nat) : Prop := forall j, j <> id -> get (ls_clients (ed_lua L e')) j = get (ls_clients (ed_lua L e)) j.
Definition rest_same (e e' : editor) : Prop := ed_session L e' = ed_session L e /\ ed_menus L e' = ed_menus L e /\ ed_stopped L e' = ed_stopped L e.

Hypothesis PO : pairs_ok R.

Lemma key_run w id p k e : plain_session (ed_session L e) -> at_place e id p -> wf_event k -> exists q cs, documented id p k q cs /\
  match run_calls G pol (w_disk w) cs (ed_core L e) with
  | Ok k' => exists e' pre post, exec_lua G pol L w (str "keys") id (lu_key L id k) e = Ok (None, e') /\ heard id (ed_session L e) p k q pre post /\
      ed_core L e' = k' /\ ed_out L e' = ed_out L e ++ pre ++ core_news (ed_core L e) k' ++ post /\ at_place e' id q /\ others_same e e' id /\ rest_same e e'
  | Panic x => exec_lua G pol L w (str "keys") id (lu_key L id k) e = Panic x
  | Unspec => exec_lua G pol L w (str "keys") id (lu_key L id k) e = Unspec
  end.
Proof.
  intros P (o & Ho) W. destruct (step_effects id p k W) as (q & cs & es & D & H & Es). exists q, cs. split; [exact D|].
  unfold exec_lua. change (lu_exec L) with (exec_source R). change (lu_key L) with (key_lua R). rewrite exec_env by exact P. cbn [Editor.run_script bind set_lua ed_lua]. unfold key_lua. cbn [ls_clients].
  rewrite Ho. cbn [lc_handler lc_status]. rewrite H. cbn [ls_env].
  set (e1 := mkEd L (ed_session L e) (ed_menus L e) (ed_stopped L e) (ed_core L e) (mkLS (Some (ed_session L e, dec id)) (ls_clients (ed_lua L e))) (ed_out L e)).
  set (s1 := mkLS (Some (ed_session L e, dec id)) (set (ls_clients (ed_lua L e)) id (mkLC (table o) (mkMH id (place_stack q))))).
  destruct Es as [(Ig & -> & -> & ->)|(Ng & ->)].
  - cbn [run_calls perform Editor.run_script bind]. eexists _, [], []. split; [reflexivity|]. split; [now constructor|]. unfold core_news. rewrite skipn_all. cbn [app map set_lua ed_core ed_out ed_lua ed_session ed_menus ed_stopped].
    split; [reflexivity|]. split; [now rewrite app_nil_r|]. split; [exists o; cbn; now rewrite get_set_same|]. split; [|repeat split]. intros j Nj. cbn. now rewrite get_set_other.
  - assert (exists e2 pre, (forall e', ed_out L e' = ed_out L e2 -> True) /\ (forall es', run_script w (perform R (match q with InGoto x => [EHint id (goto_mode x)] | _ => [] end ++ es') s1) e1 = run_script w (perform R es' s1) e2) /\
      ed_core L e2 = ed_core L e /\ ed_out L e2 = ed_out L e ++ pre /\ rest_same e e2 /\ (forall post, post = [status_after id (ed_session L e) k q] -> heard id (ed_session L e) p k q pre post)) as (e2 & pre & _ & Hp & Hk & Hout & Hr & Hh).
    { destruct q as [| |x].
      - exists e1, []. split; [auto|]. split; [reflexivity|]. split; [reflexivity|]. split; [cbn; now rewrite app_nil_r|]. split; [repeat split|]. intros post ->. now constructor.
      - exists e1, []. split; [auto|]. split; [reflexivity|]. split; [reflexivity|]. split; [cbn; now rewrite app_nil_r|]. split; [repeat split|]. intros post ->. now constructor.
      - destruct (hint_ok R x PO) as (b & Hb). eexists _, [mkES (Some [id]) (OHint (map says (goto_box x b)))]. split; [auto|]. split.
        + intro es'. cbn [app perform Editor.run_script lua_call]. unfold goto_mode. rewrite Hb. cbn [bind]. change (map (fun x0 : text => [mkFrag x0 FDefault])) with (map says). reflexivity.
        + split; [reflexivity|]. split; [reflexivity|]. split; [repeat split|]. intros post ->. now econstructor. }
    unfold effects. rewrite Hp. rewrite perform_calls by (eapply documented_scripted; eauto). rewrite Hk. destruct (run_calls G pol (w_disk w) cs (ed_core L e)) as [k'| |] eqn:Ec; cbn [bind]; try reflexivity.
    cbn [perform]. unfold s1 at 1. cbn [ls_clients]. rewrite get_set_same. cbn [lc_status lc_handler]. rewrite set_status_table. unfold push_status_line. cbn [ls_clients ls_env s1]. rewrite get_set_same. cbn [lc_status].
    destruct (status_table R (ed_session L e) id (Some (event_str k, mode_name q)) PO) as (x & Ex & Ix). rewrite Ex. cbn [Editor.run_script lua_call bind]. rewrite Ix.
    eexists _, pre, _. split; [reflexivity|]. split; [apply Hh; reflexivity|]. cbn [set_lua send set_core ed_core ed_out ed_lua ed_session ed_menus ed_stopped].
    split; [reflexivity|]. split; [rewrite Hout, Hk, <- !app_assoc; reflexivity|]. split; [exists (Some (event_str k, mode_name q)); cbn [set_lua ed_lua ls_clients]; now rewrite get_set_same|].
    split; [intros j Nj; cbn [set_lua ls_clients ed_lua s1]; now rewrite !get_set_other by exact Nj|]. destruct Hr as (A & B & C). repeat split; cbn; assumption.
Qed.

(** a list of keys: the places, the messages heard, the states of the core *)
Inductive heard_keys (d : disk) (id : nat) (session : text) : place -> core -> list key_event -> place -> core -> list esent -> Prop :=
| hk_nil p c : heard_keys d id session p c [] p c []
| hk_cons p k q cs c c1 pre post ks r c2 out : documented id p k q cs -> run_calls G pol d cs c = Ok c1 -> heard id session p k q pre post -> heard_keys d id session q c1 ks r c2 out ->
    heard_keys d id session p c (k :: ks) r c2 (pre ++ core_news c c1 ++ post ++ out).
Lemma run_calls_app d a : forall b k, run_calls G pol d (a ++ b) k = (k <- run_calls G pol d a k ;; run_calls G pol d b k).
Proof. induction a as [|c a IH]; intros b k; cbn [app run_calls bind]; [reflexivity|]. destruct (run_call G pol d c k) as [[r k1]| |]; cbn [bind]; auto. Qed.
Lemma keys_run w id ks : Forall wf_event ks -> forall p e, plain_session (ed_session L e) -> at_place e id p -> exists q cs, documented_keys id p ks q cs /\
  match run_calls G pol (w_disk w) cs (ed_core L e) with
  | Ok k' => exists e' out, command_keys G pol L w id ks e = Ok (None, e') /\ heard_keys (w_disk w) id (ed_session L e) p (ed_core L e) ks q k' out /\
      ed_core L e' = k' /\ ed_out L e' = ed_out L e ++ out /\ at_place e' id q /\ others_same e e' id /\ rest_same e e'
  | Panic x => command_keys G pol L w id ks e = Panic x
  | Unspec => command_keys G pol L w id ks e = Unspec
  end.
Proof.
  induction 1 as [|k ks W F IH]; intros p e P A.
  - exists p, []. split; [constructor|]. cbn [run_calls command_keys]. exists e, []. split; [reflexivity|]. split; [constructor|]. split; [reflexivity|]. split; [now rewrite app_nil_r|]. split; [exact A|]. split; [intros j _; reflexivity|repeat split].
  - destruct (key_run w id p k e P A W) as (q & cs & D & H). destruct (run_calls G pol (w_disk w) cs (ed_core L e)) as [k1|x|] eqn:E1.
    + destruct H as (e1 & pre & post & Ex & He & Ek & Eo & A1 & O1 & R1). assert (plain_session (ed_session L e1)) as P1 by (now rewrite (proj1 R1)).
      destruct (IH q e1 P1 A1) as (r & ds & D' & H'). exists r, (cs ++ ds). split; [econstructor; eauto|]. rewrite run_calls_app, E1. cbn [bind command_keys]. rewrite Ex. cbn [bind]. rewrite <- Ek.
      destruct (run_calls G pol (w_disk w) ds (ed_core L e1)) as [k2|x|] eqn:E2; [|exact H'..]. destruct H' as (e2 & out & Ex2 & He2 & Ek2 & Eo2 & A2 & O2 & R2).
      exists e2, (pre ++ core_news (ed_core L e) k1 ++ post ++ out). split; [exact Ex2|]. split; [econstructor; eauto; rewrite <- Ek, <- (proj1 R1); exact He2|]. split; [exact Ek2|].
      split; [rewrite Eo2, Eo, <- !app_assoc; reflexivity|]. split; [exact A2|]. split; [intros j N; now rewrite (O2 j N), (O1 j N)|]. destruct R1 as (X1 & X2 & X3), R2 as (Y1 & Y2 & Y3). repeat split; congruence.
    + destruct (C41 id ks F) as (r0 & ds0 & _). assert (exists r ds, documented_keys id q ks r ds) as (r & ds & D').
      { clear - F. revert q. induction F as [|k ks W F IH]; intro q; [exists q, []; constructor|]. destruct (step_documented id q k W) as (q' & cs & es & D & _). destruct (IH q') as (r & ds & D'). exists r, (cs ++ ds). econstructor; eauto. }
      exists r, (cs ++ ds). split; [econstructor; eauto|]. rewrite run_calls_app, E1. cbn [bind command_keys]. now rewrite H.
    + assert (exists r ds, documented_keys id q ks r ds) as (r & ds & D').
      { clear - F. revert q. induction F as [|k ks W F IH]; intro q; [exists q, []; constructor|]. destruct (step_documented id q k W) as (q' & cs & es & D & _). destruct (IH q') as (r & ds & D'). exists r, (cs ++ ds). econstructor; eauto. }
      exists r, (cs ++ ds). split; [econstructor; eauto|]. rewrite run_calls_app, E1. cbn [bind command_keys]. now rewrite H.
Qed.

(** ** joining and leaving *)
Lemma do_core_fields w c e e' : do_core G pol L w c e = Ok e' -> exists r k, run_call G pol (w_disk w) c (ed_core L e) = Ok (r, k) /\ e' = set_core L e k.
Proof. unfold do_core, on_core. intro E. bnd E. destruct v. bnd E0. destruct v. injection E0 as <- <-. injection E as <-. eauto. Qed.
Lemma do_core_lua w c e e' : do_core G pol L w c e = Ok e' -> ed_lua L e' = ed_lua L e /\ ed_session L e' = ed_session L e.
Proof. intro E. apply do_core_fields in E. destruct E as (r & k & _ & ->). split; reflexivity. Qed.
Lemma join_run w id e e' : plain_session (ed_session L e) -> editor_add_client G pol L w id e = Ok e' ->
  exists r k, run_call G pol (w_disk w) (CJoin id) (ed_core L e) = Ok (r, k) /\ ed_core L e' = k /\ at_place e' id InNormal /\ others_same e e' id /\ rest_same e e' /\
    ed_out L e' = ed_out L e ++ core_news (ed_core L e) k ++ [mkES (Some [id]) (OStatus [mkStatus 100 (says (who_where id (ed_session L e)))])].
Proof.
  intros P E. unfold editor_add_client in E. bnd E. apply do_core_fields in E0. destruct E0 as (r & k & E0 & ->). exists r, k. split; [exact E0|]. bnd E. destruct v as [x e1]. injection E as <-.
  unfold exec_lua in E1. change (lu_exec L) with (exec_source R) in E1. change (ed_session L (set_core L e k)) with (ed_session L e) in E1. rewrite exec_env in E1 by exact P. cbn [Editor.run_script bind set_lua ed_lua] in E1. rewrite exec_add in E1. unfold add_client_lua, push_status_line in E1. cbn [ls_clients ls_env] in E1. rewrite get_set_same in E1. cbn [lc_status] in E1.
  destruct (status_table R (ed_session L e) id None PO) as (y & Ey & Iy). change [(str "client", (100%Z, TClient))] with (table None) in E1. rewrite Ey in E1. cbn [Editor.run_script lua_call bind] in E1. rewrite Iy in E1. injection E1 as _ <-.
  cbn [set_lua send set_core ed_core ed_out ed_lua ed_session ed_menus ed_stopped ls_clients]. split; [reflexivity|]. split; [exists None; cbn [set_lua ed_lua ls_clients]; now rewrite get_set_same|]. split; [intros j N; cbn [set_lua ed_lua ls_clients]; now rewrite get_set_other|]. split; [repeat split|]. now rewrite <- app_assoc.
Qed.
Lemma leave_run w id e e' : plain_session (ed_session L e) -> editor_remove_client G pol L w id e = Ok e' ->
  get (ls_clients (ed_lua L e')) id = None /\ others_same e e' id /\ rest_same e e'.
Proof.
  intros P E. unfold editor_remove_client in E. bnd E. apply do_core_fields in E0. destruct E0 as (r & k & E0 & ->). bnd E. destruct v as [x e1]. injection E as <-.
  unfold exec_lua in E1. change (lu_exec L) with (exec_source R) in E1. change (ed_session L (set_core L e k)) with (ed_session L e) in E1. rewrite exec_env in E1 by exact P. cbn [Editor.run_script bind set_lua ed_lua] in E1. rewrite exec_remove in E1. unfold remove_client_lua in E1. cbn [Editor.run_script bind] in E1. injection E1 as _ <-.
  cbn [set_lua ed_lua ls_clients]. split; [apply get_del_same|]. split; [intros j N; cbn [set_lua ed_lua ls_clients]; now rewrite get_del_other|repeat split].
Qed.
(** keys of a client the scripts do not know *)
Lemma keys_unknown w id ks e o e' : plain_session (ed_session L e) -> get (ls_clients (ed_lua L e)) id = None -> command_keys G pol L w id ks e = Ok (o, e') ->
  ls_clients (ed_lua L e') = ls_clients (ed_lua L e) /\ ed_session L e' = ed_session L e.
Proof.
  intros P N E. destruct ks as [|k ks]; cbn [command_keys] in E; [injection E as _ <-; auto|]. bnd E. destruct v as [x e1]. unfold exec_lua in E0. change (lu_exec L) with (exec_source R) in E0. change (lu_key L) with (key_lua R) in E0. rewrite exec_env in E0 by exact P.
  cbn [Editor.run_script bind set_lua ed_lua] in E0. unfold key_lua in E0. cbn [ls_clients] in E0. rewrite N in E0. cbn [Editor.run_script bind] in E0. bnd E0. bnd E0. injection E0 as <- <-. bnd E. injection E as _ <-.
  apply do_core_lua in E1, E2, E0. destruct E1 as [A1 B1], E2 as [A2 B2], E0 as [A3 B3]. rewrite A3, A2, A1, B3, B2, B1. split; reflexivity.
Qed.
End Run.
