(** The hypotheses of C82 are met: a client joins, asks for the list of files, and searches it. *)
From Coq Require Import String List Arith Lia ZArith Bool Permutation Sorted.
From Verif Require Import Base ListFacts HistoryFacts Utf8Spec Utf8Facts GraphemeInst Maps StackMap Fmt View ViewSpec Json Proto Core CoreSpec CoreInv PropCore Payload Menu MenuSpec PropMenu Editor EditorSpec MenusSpec EditorFacts PropEditor EditorTame EditorDemo PropMenus.
Import ListNotations.

Notation demo_ereach := (ereach utf8_graphemes pol_wrap ascii_crate demo_serde demo_lua).
Lemma happen_reach w v e e' : demo_ereach e -> happens utf8_graphemes pol_wrap ascii_crate demo_serde demo_lua w v e = Ok e' -> demo_ereach e'.
Proof.
  intros R H. destruct v as [id|id|id line]; cbn [happens] in H; [eapply er_join; eauto|eapply er_leave; eauto|]. destruct (handle _ _ _ _ _ w id line e) as [[r x]| |] eqn:E; cbn [bind] in H; try discriminate. injection H as <-. eapply er_line; eauto.
Qed.
Lemma all_reach vs : forall e e', demo_ereach e -> all_happen vs e = Ok e' -> demo_ereach e'.
Proof.
  induction vs as [|v vs IH]; intros e e' R H; cbn [all_happen] in H; [injection H as <-; exact R|]. destruct (happens _ _ _ _ _ demo_world v e) as [e1| |] eqn:E; cbn [bind] in H; try discriminate. eapply IH; [|exact H]. eapply happen_reach; eauto.
Qed.
Lemma editor_reach vs e : demo_editor vs = Ok e -> demo_ereach e.
Proof.
  unfold demo_editor. destruct (editor_new _ _ _ _ _ _ _ _ _) as [e0| |] eqn:E; cbn [bind]; try discriminate. intro H. eapply all_reach; [|exact H]. eapply er_new; eauto.
Qed.
Definition open_files : text := quoted "menu" "open" """search"":""""".
Definition search_files : text := quoted "menu" "open" """search"":""main rs""".
Lemma small_ascii x : forallb (fun b => b <? 128) x && (Z.of_nat (length x) <? 2 ^ 23)%Z = true -> valid x /\ (Z.of_nat (length x) < 2 ^ 23)%Z.
Proof. intro H. apply andb_prop in H. destruct H as [A B]. split; [now apply valid_ascii|now apply Z.ltb_lt]. Qed.
(** the list of files, once opened; searched, it has one entry, and client 2, who searches it, did not open it *)
Example C82_demo : exists e e1 r r1 m m1 e2,
  demo_editor [Ejoin 1; Ejoin 2] = Ok e /\ demo_ereach e /\
  demo_handle 1 open_files e = Ok (r, e1) /\ only_menu demo_lua 1 m e e1 /\ map offered (me_entries m) = [itself (str "README.md"); itself (str "src/main.rs")] /\
  demo_handle 2 search_files e1 = Ok (r1, e2) /\ only_menu demo_lua 2 m1 e1 e2 /\ map offered (me_entries m1) = [itself (str "src/main.rs")] /\ last_opened (ed_out _ e) (str "open") = None.
Proof.
  destruct (ok_such (demo_editor [Ejoin 1; Ejoin 2]) (fun e => match last_opened (ed_out _ e) (str "open") with None => true | _ => false end && eqb (k_cwd (ed_core _ e)) (str "/w"))) as (e & E & T); [vm_compute; reflexivity|]. apply andb_prop in T. destruct T as [T _].
  assert (demo_ereach e) as R by (eapply editor_reach; eauto).
  destruct (asked dec_menu open_files "menu" (mkMenuP (str "open") [])) as (q & P & A); [vm_compute; reflexivity..|].
  destruct (C82_opened _ _ _ _ _ e demo_world 1 open_files q _ _ _ R P A (of_files _ _) eq_refl) as (r & e1 & m & H & _ & _ & O & Mc & Mt & Ms & Pm & Sm).
  { cbn [demo_world w_walk map]. repeat (apply Forall_cons; [apply valid_ascii; reflexivity|]). constructor. }
  assert (map offered (me_entries m) = [itself (str "README.md"); itself (str "src/main.rs")]) as Em.
  { cbn [demo_world w_walk map] in Pm. clear - Pm Sm. apply Permutation_sym in Pm. apply Permutation_length_2_inv in Pm. destruct Pm as [Z|Z]; rewrite Z in *; [|reflexivity]. exfalso. inversion Sm as [|? ? _ F]; subst. inversion F as [|? ? X]; subst. destruct X as [X|X]; vm_compute in X; [discriminate|inversion X; subst; try discriminate; try lia; repeat match goal with H : text_lt _ _ |- _ => inversion H; clear H; subst; try lia end]. }
  assert (demo_ereach e1) as R1 by (eapply er_line; [exact R|exact H]).
  assert (opened_entries (ed_out _ e1) (str "open") = [itself (str "README.md"); itself (str "src/main.rs")]) as Op.
  { destruct O as (O & _). rewrite O, opened_snoc. cbn [o_what]. rewrite Mc, Ms. exact Em. }
  destruct (asked dec_menu search_files "menu" (mkMenuP (str "open") (str "main rs"))) as (q1 & P1 & A1); [vm_compute; reflexivity..|].
  assert (plain_search (str "main rs")) as Ps. { split; [apply valid_ascii; reflexivity|]. vm_compute. repeat (apply Forall_cons; [repeat split; discriminate|]). constructor. }
  destruct (C82_searched _ _ _ _ _ e1 demo_world 2 search_files q1 (str "open") (str "file") (str "main rs") R1 P1 A1) as (r1 & e2 & m1 & l' & H1 & _ & _ & O1 & Mc1 & _ & Ms1 & Pm1 & _ & _); [cbn; tauto|discriminate|exact Ps|reflexivity| |].
  { rewrite Op. repeat (apply Forall_cons; [apply small_ascii; vm_compute; reflexivity|]). constructor. }
  exists e, e1, r, r1, m, m1, e2. split; [exact E|]. split; [exact R|]. split; [exact H|]. split; [exact O|]. split; [exact Em|]. split; [exact H1|]. split; [exact O1|]. split.
  - assert (match (e <- demo_editor [Ejoin 1; Ejoin 2] ;; '(_, e1) <- demo_handle 1 open_files e ;; '(_, e2) <- demo_handle 2 search_files e1 ;; Ok (match rev (ed_out _ e2) with x :: _ => match o_what x with OMenu m => map offered (me_entries m) | _ => [] end | [] => [] end)) with Ok x => x | _ => [] end = [itself (str "src/main.rs")]) as K by (vm_compute; reflexivity).
    rewrite E in K. cbn [bind] in K. rewrite H in K. cbn [bind] in K. rewrite H1 in K. cbn [bind] in K. destruct O1 as (O1 & _). rewrite O1, rev_app_distr in K. exact K.
  - destruct (last_opened (ed_out _ e) (str "open")); [discriminate|reflexivity].
Qed.
Print Assumptions C82_demo.
