(** C77: the generated functions of the C interface. *)
From Coq Require Import String List Arith Lia Bool Sorted Permutation.
From Verif Require Import Base Maps Utf8 Utf8Spec Chars Keys View ViewSpec ViewFacts PropSession FfiGen.
Import ListNotations.

(** ** vocabulary *)
(** the types of a configuration: the structures, and the iterators of those that have one *)
Definition iterator_of (st : structure) : text := bare_type st ++ str "Iterator".
Definition types (c : config) : list text :=
  flat_map (fun st => st_symbol st :: if st_iterator st then [iterator_of st] else []) (cf_structures c).
Definition decl_name (d : decl) : text := match d with DDestroy n _ => n | DNext n _ _ => n end.
(** an upper case letter, then letters and digits *)
Definition capital (b : nat) : Prop := 65 <= b <= 90.
Definition alnum (b : nat) : Prop := capital b \/ 97 <= b <= 122 \/ 48 <= b <= 57.
Definition camel (s : text) : Prop := exists b r, s = b :: r /\ capital b /\ Forall alnum r.
(** [char::is_uppercase] on ASCII *)
Definition upper_ascii (upper : text -> bool) : Prop := forall b, b < 128 -> upper [b] = between 65 90 b.

(** ** what is generated *)
Definition decls_of (upper : text -> bool) (p : text) (st : structure) : list decl :=
  DDestroy (prefixed p (to_snake_case upper (st_symbol st) ++ str "_destroy")) (st_symbol st) ::
  if st_iterator st then
    [DDestroy (prefixed p (to_snake_case upper (iterator_of st) ++ str "_destroy")) (iterator_of st);
     DNext (prefixed p (to_snake_case upper (bare_type st) ++ str "_next_item")) (iterator_of st) (st_symbol st)]
  else [].
Lemma starts_app p s : starts_with p (p ++ s) = true.
Proof. induction p as [|a p IH]; auto. cbn. now rewrite Nat.eqb_refl. Qed.
Lemma bare_iterator st : bare_type (iterator_struct st) = bare_type st.
Proof.
  unfold bare_type at 1, iterator_struct. cbn [st_symbol]. unfold ends_with. rewrite rev_app_distr.
  change (starts_with (rev (str "Item")) (rev (str "Iterator") ++ rev (bare_type st))) with false. rewrite starts_app.
  rewrite app_length. replace (length (bare_type st) + length (str "Iterator") - 8) with (length (bare_type st) + 0) by (cbn; lia).
  rewrite firstn_app_2. apply app_nil_r.
Qed.
Lemma fold_decls upper p sts b : bu_decls (fold_left (register upper p) sts b) = bu_decls b ++ flat_map (decls_of upper p) sts.
Proof.
  revert b. induction sts as [|st sts IH]; intro b; cbn [fold_left flat_map]; [now rewrite app_nil_r|]. rewrite IH, app_assoc. f_equal.
  unfold register, decls_of. destruct (st_iterator st).
  - unfold register_fns_iterator, register_fn_next_item, register_fn_destroy, register_decl, register_use. cbn [bu_decls]. rewrite bare_iterator. unfold iterator_struct. cbn [st_symbol].
    fold (iterator_of st). rewrite <- !app_assoc. reflexivity.
  - reflexivity.
Qed.
Lemma generate_decls upper c : bu_decls (generate upper c) = flat_map (decls_of upper (cf_prefix c)) (cf_structures c).
Proof. unfold generate. cbn [bu_decls]. now rewrite fold_decls. Qed.

(** For every configuration: exactly the configured types can be destroyed, each by a function that takes it; exactly the configured
    iterators have a function, which returns their item type; and all names begin with the prefix. *)
Lemma prefixed_starts p n : exists r, prefixed p n = p ++ r.
Proof.
  unfold prefixed. destruct (starts_with p n) eqn:E; [|eauto]. clear - E. revert n E. induction p as [|a p IH]; intros n E; [exists n; reflexivity|].
  destruct n as [|b n]; [discriminate|]. cbn in E. apply andb_true_iff in E. destruct E as [E1 E2]. apply Nat.eqb_eq in E1. subst. destruct (IH n E2) as (r & ->). exists r. reflexivity.
Qed.
Theorem C77_functions : forall upper c, let ds := bu_decls (generate upper c) in
  (forall t, (exists n, In (DDestroy n t) ds) <-> In t (types c)) /\
  (forall it item, (exists n, In (DNext n it item) ds) <-> exists st, In st (cf_structures c) /\ st_iterator st = true /\ it = iterator_of st /\ item = st_symbol st) /\
  (forall d, In d ds -> exists r, decl_name d = cf_prefix c ++ r).
Proof.
  intros upper c ds. unfold ds. rewrite generate_decls. unfold types. split; [|split].
  - intro t. rewrite in_flat_map. split.
    + intros (n & H). apply in_flat_map in H. destruct H as (st & Hs & H). exists st. split; auto. unfold decls_of in H.
      destruct H as [H|H]; [injection H as _ <-; now left|]. destruct (st_iterator st); [|destruct H]. destruct H as [H|[H|[]]]; [injection H as _ <-; right; now left|discriminate].
    + intros (st & Hs & H). destruct H as [<-|H].
      * eexists. apply in_flat_map. exists st. split; [exact Hs|]. now left.
      * destruct (st_iterator st) eqn:E; [|destruct H]. destruct H as [<-|[]]. eexists. apply in_flat_map. exists st. split; [exact Hs|]. unfold decls_of. rewrite E. right. now left.
  - intros it item. split.
    + intros (n & H). apply in_flat_map in H. destruct H as (st & Hs & H). exists st. unfold decls_of in H. destruct H as [H|H]; [discriminate|].
      destruct (st_iterator st) eqn:E; [|destruct H]. destruct H as [H|[H|[]]]; [discriminate|]. injection H as _ <- <-. auto.
    + intros (st & Hs & E & -> & ->). eexists. apply in_flat_map. exists st. split; [exact Hs|]. unfold decls_of. rewrite E. right. right. now left.
  - intros d H. apply in_flat_map in H. destruct H as (st & Hs & H). unfold decls_of in H.
    destruct H as [<-|H]; [apply prefixed_starts|]. destruct (st_iterator st); [|destruct H]. destruct H as [<-|[<-|[]]]; apply prefixed_starts.
Qed.
Print Assumptions C77_functions.

(** ** imports *)
Definition uses_of (st : structure) : list text :=
  use_of st :: if st_iterator st then [use_of st; str "use std::ptr;"; use_of (iterator_struct st)] else [].
Lemma fold_uses upper p sts b : bu_uses (fold_left (register upper p) sts b) = bu_uses b ++ flat_map uses_of sts.
Proof.
  revert b. induction sts as [|st sts IH]; intro b; cbn [fold_left flat_map]; [now rewrite app_nil_r|]. rewrite IH, app_assoc. f_equal.
  unfold register, uses_of. destruct (st_iterator st).
  - unfold register_fns_iterator, register_fn_next_item, register_fn_destroy, register_decl, register_use. cbn [bu_uses]. rewrite <- !app_assoc. reflexivity.
  - reflexivity.
Qed.
Definition text_le (a b : text) : Prop := a = b \/ text_lt a b.
Lemma text_le_trans a b c : text_le a b -> text_le b c -> text_le a c.
Proof. intros [->|H] [->|H']; unfold text_le; auto. right. eapply text_lt_trans; eauto. Qed.
Lemma ins_text x l : StronglySorted text_le l -> StronglySorted text_le (ins_by text_cmp x l).
Proof.
  induction 1 as [|y l S IH H]; cbn [ins_by]; [repeat constructor|]. rewrite Forall_forall in H. unfold less. destruct (text_cmp x y) eqn:E.
  - apply text_cmp_eq in E. subst. apply sorted_cons; auto. intros z Hz. apply (Permutation_in _ (ins_perm _ _ _)) in Hz. destruct Hz as [<-|Hz]; [now left|auto].
  - apply text_cmp_lt in E. apply sorted_cons; [apply sorted_cons; auto|]. intros z [<-|Hz]; [now right|]. eapply text_le_trans; [right; exact E|auto].
  - apply text_cmp_gt in E. apply sorted_cons; auto. intros z Hz. apply (Permutation_in _ (ins_perm _ _ _)) in Hz. destruct Hz as [<-|Hz]; [now right|auto].
Qed.
Lemma sort_text l : StronglySorted text_le (sort_by text_cmp l).
Proof.
  unfold sort_by. assert (StronglySorted text_le []) as H by constructor. revert H. generalize (@nil text) as s.
  induction l as [|x l IH]; intros s S; cbn [fold_left]; auto. apply IH. now apply ins_text.
Qed.
Lemma dedup_in l x : In x (dedup l) <-> In x l.
Proof.
  induction l as [|a [|b r] IH]; [reflexivity|reflexivity|]. cbn [dedup]. cbn [dedup] in IH. destruct (eqb a b) eqn:E.
  - apply eqb_ok in E. subst b. rewrite IH. cbn [In]. tauto.
  - cbn [In] in *. rewrite IH. tauto.
Qed.
Lemma dedup_sorted l : StronglySorted text_le l -> StronglySorted text_lt (dedup l).
Proof.
  induction l as [|a [|b r] IH]; intro S; [constructor|repeat constructor|]. apply sorted_cons_inv in S. destruct S as [S H]. specialize (IH S).
  change (dedup (a :: b :: r)) with (if eqb a b then dedup (b :: r) else a :: dedup (b :: r)).
  destruct (eqb a b) eqn:E; [exact IH|]. apply sorted_cons; [exact IH|]. intros x Hx. apply (proj1 (dedup_in _ _)) in Hx.
  destruct (H b (or_introl eq_refl)) as [->|Lt]; [rewrite eqb_refl in E; discriminate|].
  apply sorted_cons_inv in S. destruct S as [_ S]. destruct Hx as [<-|Hx]; [exact Lt|]. destruct (S x Hx) as [<-|Lx]; [exact Lt|]. eapply text_lt_trans; eauto.
Qed.
(** For every configuration: each line of imports is there once, in alphabetical order; every type in a declaration is imported, the
    pointers of the standard library are if an iterator needs them, and nothing else is. *)
Theorem C77_imports : forall upper c, let us := bu_uses (generate upper c) in
  StronglySorted text_lt us /\ NoDup us /\
  forall u, In u us <-> exists st, In st (cf_structures c) /\
    (u = use_of st \/ st_iterator st = true /\ (u = str "use std::ptr;" \/ u = str "use " ++ st_module st ++ str "::" ++ iterator_of st ++ str ";")).
Proof.
  intros upper c us. unfold us, generate. cbn [bu_uses]. rewrite fold_uses. cbn [bu_uses app].
  assert (StronglySorted text_lt (dedup (sort_by text_cmp (flat_map uses_of (cf_structures c))))) as S by apply dedup_sorted, sort_text.
  split; [exact S|]. split.
  - clear - S. induction S as [|a l S IH H]; constructor; auto. rewrite Forall_forall in H. intro X. exact (text_lt_irrefl _ (H _ X)).
  - intro u. rewrite dedup_in. split.
    + intro H. apply (Permutation_in _ (sort_perm _ _)) in H. apply in_flat_map in H. destruct H as (st & Hs & H). exists st. split; auto. unfold uses_of in H.
      destruct H as [<-|H]; [now left|]. destruct (st_iterator st); [|destruct H]. destruct H as [<-|[<-|[<-|[]]]]; [now left|right; auto|right; split; auto]. 
    + intros (st & Hs & H). apply (Permutation_in _ (Permutation_sym (sort_perm _ _))). apply in_flat_map. exists st. split; [exact Hs|]. unfold uses_of.
      destruct H as [->|[-> [->| ->]]]; [now left|right; right; now left|right; right; right; left; reflexivity].
Qed.
Print Assumptions C77_imports.

(** ** names *)
Section Snake.
Variable upper : text -> bool.
Hypothesis U : upper_ascii upper.
Definition lower1 (b : nat) : nat := if between 65 90 b then b + 32 else b.
Definition step1 (b : nat) : text := if between 65 90 b then [95; b + 32] else [b].
Lemma alnum_ascii b : alnum b -> b < 128.
Proof. unfold alnum, capital. lia. Qed.
Lemma between_true a b x : a <= x <= b -> between a b x = true.
Proof. intro H. unfold between. apply andb_true_iff. rewrite !Nat.leb_le. exact H. Qed.
Lemma between_false a b x : x < a \/ b < x -> between a b x = false.
Proof. intro H. unfold between. apply andb_false_iff. rewrite !Nat.leb_gt. tauto. Qed.
Lemma snake_rest r : Forall alnum r -> snake_chars upper false (map (fun b => [b]) r) = flat_map step1 r.
Proof.
  induction 1 as [|b r H F IH]; auto. cbn [map snake_chars flat_map]. rewrite IH. f_equal. unfold snake_char, step1. cbn [negb andb ascii_lower].
  rewrite U by now apply alnum_ascii. destruct (between 65 90 b); reflexivity.
Qed.
Lemma snake_camel b r : capital b -> Forall alnum r -> to_snake_case upper (b :: r) = (b + 32) :: flat_map step1 r.
Proof.
  intros C F. unfold to_snake_case. rewrite chars_ascii. 2:{ constructor; [unfold capital in C; lia|]. eapply Forall_impl; [|exact F]. apply alnum_ascii. }
  cbn [map snake_chars]. rewrite snake_rest by auto. unfold snake_char. cbn [negb andb ascii_lower]. now rewrite between_true.
Qed.
Lemma step_inj r r' : Forall alnum r -> Forall alnum r' -> flat_map step1 r = flat_map step1 r' -> r = r'.
Proof.
  intro F. revert r'. induction F as [|b r H F IH]; intros [|b' r'] F' E; auto; [|destruct (between 65 90 b) eqn:Q; cbn [flat_map] in E; unfold step1 in E; rewrite Q in E; discriminate|].
  { cbn [flat_map] in E. unfold step1 at 1 in E. destruct (between 65 90 b'); discriminate. }
  inversion F' as [|? ? H' F'']; subst. cbn [flat_map] in E. unfold step1 at 1 3 in E.
  assert (forall x, alnum x -> between 65 90 x = false -> x <> 95) as NU. { intros x Hx Q ->. unfold alnum, capital in Hx. lia. }
  destruct (between 65 90 b) eqn:Q, (between 65 90 b') eqn:Q'; cbn [app] in E; injection E as E1 E2.
  - f_equal; [lia|]. now apply IH.
  - exfalso. now apply (NU b').
  - exfalso. now apply (NU b).
  - f_equal; [exact E1|]. now apply IH.
Qed.
Lemma snake_inj s s' : camel s -> camel s' -> to_snake_case upper s = to_snake_case upper s' -> s = s'.
Proof.
  intros (b & r & -> & C & F) (b' & r' & -> & C' & F') E. rewrite !snake_camel in E by auto. injection E as E1 E2.
  f_equal; [lia|]. now apply step_inj.
Qed.
Lemma snake_iterator s : camel s -> camel (s ++ str "Iterator") /\ to_snake_case upper (s ++ str "Iterator") = to_snake_case upper s ++ str "_iterator".
Proof.
  intros (b & r & -> & C & F). assert (Forall alnum (r ++ str "Iterator")) as F'.
  { apply Forall_app. split; auto. unfold alnum, capital. change (str "Iterator") with [73; 116; 101; 114; 97; 116; 111; 114].
    repeat (apply Forall_cons; [lia|]). apply Forall_nil. }
  split; [exists b, (r ++ str "Iterator"); auto|]. rewrite <- app_comm_cons, !snake_camel by auto. rewrite <- app_comm_cons. f_equal. now rewrite flat_map_app.
Qed.
End Snake.

Definition no_clash (upper : text -> bool) (c : config) : Prop :=
  forall t t', In t (types c) -> In t' (types c) -> to_snake_case upper t' <> cf_prefix c ++ to_snake_case upper t.
Lemma prefixed_inj p a b s : prefixed p (a ++ s) = prefixed p (b ++ s) -> a <> p ++ b -> b <> p ++ a -> a = b.
Proof.
  unfold prefixed. intros E N1 N2. destruct (starts_with p (a ++ s)), (starts_with p (b ++ s)).
  - now apply app_inv_tail in E.
  - rewrite app_assoc in E. apply app_inv_tail in E. contradiction.
  - rewrite app_assoc in E. apply app_inv_tail in E. symmetry in E. contradiction.
  - apply app_inv_head in E. now apply app_inv_tail in E.
Qed.
Lemma prefixed_last p a s x : exists r, prefixed p (a ++ s ++ [x]) = r ++ [x].
Proof. unfold prefixed. destruct (starts_with p _); [exists (a ++ s)|exists (p ++ a ++ s)]; now rewrite <- !app_assoc. Qed.
Lemma destroy_not_next p a b : prefixed p (a ++ str "_destroy") <> prefixed p (b ++ str "_next_item").
Proof.
  intro E. destruct (prefixed_last p a (str "_destro") 121) as (r & R). destruct (prefixed_last p b (str "_next_ite") 109) as (r' & R').
  change (str "_destro" ++ [121]) with (str "_destroy") in R. change (str "_next_ite" ++ [109]) with (str "_next_item") in R'.
  rewrite R, R' in E. apply app_inj_tail in E. destruct E; discriminate.
Qed.
(** the declarations of a type *)
Definition types_of (st : structure) : list text := st_symbol st :: if st_iterator st then [iterator_of st] else [].
Lemma types_flat c : types c = flat_map types_of (cf_structures c).
Proof. reflexivity. Qed.
Definition destroy_name (upper : text -> bool) (p t : text) : text := prefixed p (to_snake_case upper t ++ str "_destroy").
Definition next_name (upper : text -> bool) (p : text) (st : structure) : text := prefixed p (to_snake_case upper (bare_type st) ++ str "_next_item").
Lemma names_perm upper p sts : Permutation (map decl_name (flat_map (decls_of upper p) sts))
  (map (destroy_name upper p) (flat_map types_of sts) ++ map (next_name upper p) (filter st_iterator sts)).
Proof.
  induction sts as [|st sts IH]; [constructor|]. cbn [flat_map filter]. rewrite !map_app, IH. unfold decls_of, types_of. destruct (st_iterator st); cbn [map decl_name app].
  - fold (destroy_name upper p (st_symbol st)) (destroy_name upper p (iterator_of st)) (next_name upper p st).
    apply perm_skip, perm_skip. apply Permutation_middle.
  - apply Permutation_refl.
Qed.
Lemma nodup_map {A B} (f : A -> B) l : (forall x y, In x l -> In y l -> f x = f y -> x = y) -> NoDup l -> NoDup (map f l).
Proof.
  intros H N. induction N as [|x l X N IH]; cbn [map]; constructor.
  - intro Y. apply in_map_iff in Y. destruct Y as (y & E & Hy). apply X. rewrite <- (H y x); auto; [now right|now left].
  - apply IH. intros a b Ha Hb. apply H; now right.
Qed.
Lemma nodup_app {A} (l m : list A) : NoDup l -> NoDup m -> (forall x, In x l -> In x m -> False) -> NoDup (l ++ m).
Proof.
  intros Nl Nm H. induction Nl as [|x l X N IH]; cbn [app]; auto. constructor; [|apply IH; intros y Hy; apply H; now right].
  rewrite in_app_iff. intros [Y|Y]; [contradiction|]. apply (H x); [now left|exact Y].
Qed.
(** The generated functions have different names, for configurations of distinct types in camel case of which none is the other with the
    prefix put before it. *)
Theorem C77_names_partial : forall upper c, upper_ascii upper -> NoDup (types c) -> no_clash upper c ->
  Forall (fun st => camel (st_symbol st) /\ (st_iterator st = true -> camel (bare_type st))) (cf_structures c) ->
  NoDup (map decl_name (bu_decls (generate upper c))).
Proof.
  intros upper c U N NC F. rewrite generate_decls. eapply Permutation_NoDup; [apply Permutation_sym, names_perm|]. rewrite <- types_flat.
  rewrite Forall_forall in F.
  assert (forall t, In t (types c) -> camel t) as Ct.
  { intros t Ht. apply in_flat_map in Ht. destruct Ht as (st & Hs & Ht). destruct (F st Hs) as [F1 F2]. destruct Ht as [<-|Ht]; auto.
    destruct (st_iterator st); [|destruct Ht]. destruct Ht as [<-|[]]. apply (snake_iterator upper U). auto. }
  apply nodup_app.
  - apply nodup_map; auto. intros x y Hx Hy E. unfold destroy_name in E. apply (snake_inj upper U); auto. eapply prefixed_inj; [exact E|apply NC; auto|apply NC; auto].
  - assert (NoDup (map iterator_of (filter st_iterator (cf_structures c)))) as Ni.
    { rewrite types_flat in N. clear - N. induction (cf_structures c) as [|st sts IH]; [constructor|]. cbn [flat_map filter] in *. unfold types_of in N. destruct (st_iterator st).
      - cbn [app] in N. inversion N as [|? ? _ N']; subst. inversion N' as [|? ? X N'']; subst. cbn [map]. constructor; auto.
        intro Y. apply X. clear - Y. apply in_map_iff in Y. destruct Y as (st' & E & Hs). apply filter_In in Hs. destruct Hs as [Hs Hi]. apply in_flat_map. exists st'. split; auto. unfold types_of. rewrite Hi, E. right. now left.
      - cbn [app] in N. inversion N; subst. auto. }
    apply nodup_map.
    2:{ clear - Ni. induction (filter st_iterator (cf_structures c)) as [|st sts IH]; constructor; cbn [map] in Ni; inversion Ni; subst; auto. intro X. apply H1. now apply in_map. }
    intros st st' Hs Hs' E. apply filter_In in Hs, Hs'. destruct Hs as [Hs Is], Hs' as [Hs' Is'].
    assert (forall s, In s (cf_structures c) -> st_iterator s = true -> In (iterator_of s) (types c)) as It.
    { intros s H1 H2. rewrite types_flat. apply in_flat_map. exists s. split; auto. unfold types_of. rewrite H2. right. now left. }
    assert (forall s s', In s (cf_structures c) -> st_iterator s = true -> In s' (cf_structures c) -> st_iterator s' = true -> to_snake_case upper (bare_type s') <> cf_prefix c ++ to_snake_case upper (bare_type s)) as NB.
    { intros s s' H1 H2 H3 H4 Q. apply (NC (iterator_of s) (iterator_of s')); auto. unfold iterator_of.
      rewrite !(proj2 (snake_iterator upper U _ (proj2 (F _ H1) H2))), !(proj2 (snake_iterator upper U _ (proj2 (F _ H3) H4))), Q. now rewrite app_assoc. }
    assert (bare_type st = bare_type st') as Eb.
    { unfold next_name in E. apply (snake_inj upper U); [apply (F st Hs); auto|apply (F st' Hs'); auto|]. eapply prefixed_inj; [exact E|apply NB; auto|apply NB; auto]. }
    assert (iterator_of st = iterator_of st') as Ei by (unfold iterator_of; now rewrite Eb).
    clear - Ni Hs Hs' Is Is' Ei. assert (In st (filter st_iterator (cf_structures c)) /\ In st' (filter st_iterator (cf_structures c))) as [A B] by (rewrite !filter_In; auto).
    revert Ni A B. generalize (filter st_iterator (cf_structures c)) as l. induction l as [|x l IH]; intros N A B; [destruct A|]. cbn [map] in N. inversion N as [|? ? X N']; subst.
    destruct A as [->|A], B as [->|B]; auto; exfalso; apply X; [rewrite Ei|rewrite <- Ei]; now apply in_map.
  - intros x Hx Hy. apply in_map_iff in Hx, Hy. destruct Hx as (t & E & _), Hy as (st & E' & _). rewrite <- E' in E. exact (destroy_not_next _ _ _ E).
Qed.
Print Assumptions C77_names_partial.

(** [char::is_uppercase] restricted to ASCII *)
Definition ascii_only (c : text) : bool := match c with [b] => between 65 90 b | _ => false end.
Lemma ascii_only_ok : upper_ascii ascii_only.
Proof. intros b _. reflexivity. Qed.
(** A type and the same with the prefix before it get the same function. *)
Theorem C77_names_refuted : exists c, NoDup (types c) /\ Forall (fun st => camel (st_symbol st)) (cf_structures c) /\
  forall upper, upper_ascii upper -> ~ NoDup (map decl_name (bu_decls (generate upper c))).
Proof.
  exists (mkConfig (str "ced_") [mkStruct (str "CedEvent") (str "crate") false; mkStruct (str "Event") (str "crate") false]). split; [|split].
  - cbn. repeat constructor; cbn; intuition discriminate.
  - assert (forall b r, capital b -> Forall alnum r -> camel (b :: r)) as K by (intros b r; exists b, r; auto).
    constructor; [|constructor; [|constructor]]; (apply K; [unfold capital; cbn; lia|]); unfold alnum, capital; cbn [st_symbol];
      match goal with |- Forall _ ?l => let y := eval vm_compute in l in change l with y end; repeat (apply Forall_cons; [lia|]); apply Forall_nil.
  - intros upper U. rewrite generate_decls. cbn [cf_structures cf_prefix flat_map decls_of st_iterator st_symbol app map decl_name].
    change (str "CedEvent") with (67 :: str "edEvent"). change (str "Event") with (69 :: str "vent").
    rewrite !(snake_camel upper U); unfold capital; try lia;
      try (match goal with |- Forall _ ?l => let y := eval vm_compute in l in change l with y end; unfold alnum, capital; repeat (apply Forall_cons; [lia|]); apply Forall_nil).
    vm_compute. intro X. inversion X as [|? ? Y _]. apply Y. now left.
Qed.
Print Assumptions C77_names_refuted.

(** ** the configuration of the program *)
Lemma shipped_decls upper : upper_ascii upper -> bu_decls (generate upper shipped_config) = bu_decls (generate ascii_only shipped_config).
Proof.
  intro U. rewrite !generate_decls. cbn [cf_structures shipped_config flat_map cf_prefix].
  assert (forall s, camel s -> to_snake_case upper s = to_snake_case ascii_only s) as K.
  { intros s (b & r & -> & C & F). now rewrite (snake_camel upper U), (snake_camel ascii_only ascii_only_ok) by auto. }
  unfold decls_of. cbn [st_iterator st_symbol].
  repeat match goal with |- context [to_snake_case upper ?s] => rewrite (K s) by
    (let y := eval vm_compute in s in change s with y; match goal with |- camel (?b :: ?r) => exists b, r end; split; [reflexivity|split; [unfold capital; lia|unfold alnum, capital; repeat (apply Forall_cons; [lia|]); apply Forall_nil]]) end.
  reflexivity.
Qed.
(** the functions generated for the program *)
Theorem C77_shipped : forall upper, upper_ascii upper ->
  bu_decls (generate upper shipped_config) =
  [ DDestroy (str "ced_connection_destroy") (str "CedConnection"); DDestroy (str "ced_event_destroy") (str "CedEvent");
    DDestroy (str "ced_text_item_destroy") (str "CedTextItem"); DDestroy (str "ced_text_iterator_destroy") (str "CedTextIterator");
    DNext (str "ced_text_next_item") (str "CedTextIterator") (str "CedTextItem"); DDestroy (str "ced_version_destroy") (str "CedVersion");
    DDestroy (str "ced_status_item_destroy") (str "StatusItem"); DDestroy (str "ced_status_iterator_destroy") (str "StatusIterator");
    DNext (str "ced_status_next_item") (str "StatusIterator") (str "StatusItem");
    DDestroy (str "ced_view_item_destroy") (str "ViewItem"); DDestroy (str "ced_view_iterator_destroy") (str "ViewIterator");
    DNext (str "ced_view_next_item") (str "ViewIterator") (str "ViewItem");
    DDestroy (str "ced_view_lens_destroy") (str "ViewLens"); DDestroy (str "ced_view_lens_iterator_destroy") (str "ViewLensIterator");
    DNext (str "ced_view_lens_next_item") (str "ViewLensIterator") (str "ViewLens") ].
Proof. intros upper U. rewrite shipped_decls by auto. vm_compute. reflexivity. Qed.
Print Assumptions C77_shipped.

(** what a C program can get hold of: what the functions written by hand return, what it points to, and the items of the
    iterators that have a function for it *)
Inductive obtains (ds : list decl) : text -> Prop :=
| ob_created t : In t created -> obtains ds t
| ob_field t u : obtains ds t -> In u (fields t) -> obtains ds u
| ob_next n it item : obtains ds it -> In (DNext n it item) ds -> obtains ds item.
(** Neither the lines of a view nor the entries of a menu can be read or freed: a C program gets pointers to their iterators, but no
    function takes them; everything else that it can get hold of can be freed, and every other iterator can be read. *)
Theorem C77_usable_refuted : forall upper, upper_ascii upper -> let ds := bu_decls (generate upper shipped_config) in
  obtains ds (str "ViewLensLineIterator") /\ obtains ds (str "MenuIterator") /\ ~ obtains ds (str "MenuItem") /\
  (forall t, obtains ds t -> (exists n, In (DDestroy n t) ds) \/ t = str "ViewLensLineIterator" \/ t = str "MenuIterator") /\
  (forall n t, t = str "ViewLensLineIterator" \/ t = str "MenuIterator" -> ~ In (DDestroy n t) ds /\ forall item, ~ In (DNext n t item) ds).
Proof.
  intros upper U ds. unfold ds. rewrite (C77_shipped upper U). match goal with |- context [obtains ?l] => set (l0 := l) end.
  assert (obtains l0 (str "CedEvent")) as O1 by (apply ob_created; vm_compute; tauto).
  assert (forall t, obtains l0 t -> In t [str "CedConnection"; str "CedEvent"; str "CedVersion"; str "CedTextIterator"; str "MenuIterator"; str "StatusIterator"; str "ViewIterator";
     str "CedTextItem"; str "StatusItem"; str "ViewItem"; str "ViewLensIterator"; str "ViewLens"; str "ViewLensLineIterator"]) as K.
  { induction 1 as [t H|t u H IH Hu|n it item H IH Hi].
    - vm_compute in H. destruct H as [<-|[<-|[<-|[]]]]; vm_compute; tauto.
    - cbn [In] in IH. repeat (destruct IH as [<-|IH]; [vm_compute in Hu; try tauto; repeat (destruct Hu as [<-|Hu]; [vm_compute; tauto|]); destruct Hu|]). destruct IH.
    - unfold l0 in Hi. cbn [In] in Hi. repeat (destruct Hi as [Hi|Hi]; [try discriminate Hi; injection Hi as _ _ <-; vm_compute; tauto|]). destruct Hi. }
  split; [|split; [|split; [|split]]].
  - apply (ob_field _ (str "ViewLens")); [|vm_compute; tauto]. eapply (ob_next _ (str "ced_view_lens_next_item") (str "ViewLensIterator")); [|unfold l0; cbn [In]; tauto].
    apply (ob_field _ (str "ViewItem")); [|vm_compute; tauto]. eapply (ob_next _ (str "ced_view_next_item") (str "ViewIterator")); [|unfold l0; cbn [In]; tauto].
    apply (ob_field _ (str "CedEvent")); [exact O1|vm_compute; tauto].
  - apply (ob_field _ (str "CedEvent")); [exact O1|vm_compute; tauto].
  - intro X. apply K in X. vm_compute in X. intuition discriminate.
  - intros t H. apply K in H. cbn [In] in H. unfold l0.
    repeat (destruct H as [<-|H]; [first [right; left; reflexivity|right; right; reflexivity|left; eexists; cbn [In]; tauto]|]). destruct H.
  - intros n t Ht. unfold l0. split; [|intro item]; intro X; cbn [In] in X; destruct Ht as [-> | ->]; repeat (destruct X as [X|X]; [discriminate X|]); destruct X.
Qed.
Print Assumptions C77_usable_refuted.
(** the configuration of the program meets the hypotheses of C77_names_partial *)
Example C77_shipped_fine : NoDup (types shipped_config) /\ no_clash ascii_only shipped_config.
Proof.
  split.
  - vm_compute. repeat (apply NoDup_cons; [cbn [In]; intuition discriminate|]). apply NoDup_nil.
  - intros t t' Ht Ht'. vm_compute in Ht, Ht'.
    repeat (destruct Ht as [<-|Ht]; [repeat (destruct Ht' as [<-|Ht']; [vm_compute; discriminate|]); destruct Ht'|]). destruct Ht.
Qed.
