(** C49: shortest buffer names. *)
From Coq Require Import String List Arith Lia Bool.
From Verif Require Import Base ListFacts Maps Fmt Names.
Import ListNotations.

(** ** specification *)
Definition component (n : text) : Prop := n <> [] /\ ~ In 47 n.
Definition path_ok (p : rpath) : Prop := Forall component p.
(** the last [k] components of a path, as it is written *)
Definition ending (p : rpath) (k : nat) : text := join [47] (rev (firstn k p)).
Definition files (ss : list source) : list rpath := flat_map (fun s => match s with SFile p => [p] | _ => [] end) ss.
(** [i] and [j] are the paths of two different buffers *)
Definition distinct_paths (ss : list source) : Prop := NoDup (files ss).
(** no other path has the same component at this distance from the end *)
Definition tell_apart (ps : list rpath) (p : rpath) (k : nat) : Prop :=
  k < length p /\ forall q, In q ps -> nth_error q k = nth_error p k -> q = p.

(** ** proofs *)
Definition tails (k : nat) (ps : list rpath) : list rpath := flat_map (fun q => if k <=? length q then [skipn k q] else []) ps.
Lemma tails_0 ps : tails 0 ps = ps.
Proof. unfold tails. induction ps as [|q ps IH]; cbn [flat_map]; auto. cbn [Nat.leb skipn]. cbn [app]. now f_equal. Qed.
Lemma tails_S k ps : tails (S k) ps = parents (tails k ps).
Proof.
  unfold tails, parents. induction ps as [|q ps IH]; cbn [flat_map]; auto. rewrite flat_map_app, <- IH. f_equal.
  destruct (k <=? length q) eqn:E; [apply Nat.leb_le in E|apply Nat.leb_gt in E].
  - cbn [flat_map]. destruct (skipn k q) as [|n r] eqn:Es.
    + assert (length (skipn k q) = 0) as L by now rewrite Es. rewrite skipn_length in L. replace (S k <=? length q) with false by (symmetry; apply Nat.leb_gt; lia). reflexivity.
    + assert (length (skipn k q) = S (length r)) as L by now rewrite Es. rewrite skipn_length in L. replace (S k <=? length q) with true by (symmetry; apply Nat.leb_le; lia).
      f_equal. replace (S k) with (k + 1) by lia. rewrite <- ListFacts.skipn_skipn, Es. reflexivity.
  - replace (S k <=? length q) with false by (symmetry; apply Nat.leb_gt; lia). reflexivity.
Qed.
Lemma named_tails k ps tail : length (filter (named tail) (tails k ps)) = length (filter (fun q => match nth_error q k with Some n => eqb n tail | None => false end) ps).
Proof.
  unfold tails. induction ps as [|q ps IH]; cbn [flat_map filter]; auto. rewrite filter_app, app_length. etransitivity; [apply f_equal2; [reflexivity|exact IH]|]. destruct (k <=? length q) eqn:E; [apply Nat.leb_le in E|apply Nat.leb_gt in E].
  - cbn [filter]. assert (file_name (skipn k q) = nth_error q k) as Ef.
    { clear - E. revert q E. induction k as [|k IHk]; intros [|n q] E; cbn [length] in E; try lia; auto. apply IHk. lia. }
    unfold named. rewrite Ef. destruct (nth_error q k) as [n|]; [destruct (eqb n tail)|]; reflexivity.
  - cbn [filter]. replace (nth_error q k) with (@None text) by (symmetry; apply nth_error_None; lia). reflexivity.
Qed.
(** how many paths have the same component as [p] at distance [k] *)
Lemma count_one ps p k n : NoDup ps -> In p ps -> nth_error p k = Some n ->
  (length (filter (fun q => match nth_error q k with Some m => eqb m n | None => false end) ps) <= 1 <-> forall q, In q ps -> nth_error q k = nth_error p k -> q = p).
Proof.
  intros ND I En. set (f := fun q => match nth_error q k with Some m => eqb m n | None => false end).
  assert (forall q, f q = true <-> nth_error q k = nth_error p k) as Hf.
  { intro q. unfold f. rewrite En. destruct (nth_error q k) as [m|]; [rewrite eqb_ok; split; congruence|split; discriminate]. }
  split.
  - intros L q Hq E. assert (In q (filter f ps)) as A by (apply filter_In; split; auto; now apply Hf). assert (In p (filter f ps)) as B by (apply filter_In; split; auto; now apply Hf).
    destruct (filter f ps) as [|x [|y r]]; cbn [length] in L; try lia; [destruct A|]. destruct A as [<-|[]], B as [<-|[]]. reflexivity.
  - intro H. assert (NoDup (filter f ps)) as N by now apply NoDup_filter. assert (forall x, In x (filter f ps) -> x = p) as A. { intros x Hx. apply filter_In in Hx. destruct Hx as [Hx Hfx]. apply H; auto. now apply Hf. }
    destruct (filter f ps) as [|x [|y r]]; cbn [length]; try lia. exfalso. inversion N as [|? ? N1 _]; subst. apply N1. rewrite (A x), <- (A y); auto using in_eq, in_cons.
Qed.
Lemma firstn_incl {A} (x : A) k l : In x (firstn k l) -> In x l.
Proof. intro H. rewrite <- (firstn_skipn k l). apply in_or_app. now left. Qed.
Lemma nth_error_firstn_lt {A} (l : list A) n k : k < n -> nth_error (firstn n l) k = nth_error l k.
Proof. intro H. rewrite nth_error_firstn. now replace (k <? n) with true by (symmetry; now apply Nat.ltb_lt). Qed.
Lemma join_cons a l : l <> [] -> join [47] (a :: l) = a ++ [47] ++ join [47] l.
Proof. destruct l; [congruence|reflexivity]. Qed.
Lemma firstn_S_nth {A} k (p : list A) n : nth_error p k = Some n -> firstn (S k) p = firstn k p ++ [n].
Proof. revert p. induction k as [|k IH]; intros [|x p] H; cbn in *; try discriminate; [now injection H as ->|]. f_equal. now apply IH. Qed.
Lemma ending_S p k n : path_ok p -> nth_error p k = Some n -> ending p (S k) = match ending p k with [] => n | _ => n ++ [47] ++ ending p k end.
Proof.
  intros P En. unfold ending. rewrite (firstn_S_nth _ _ _ En), rev_app_distr. cbn [rev app]. destruct k as [|k].
  - cbn [firstn rev join]. reflexivity.
  - assert (rev (firstn (S k) p) <> []) as N by (destruct p; [destruct k; discriminate|]; cbn [firstn rev]; destruct (rev (firstn k p)); discriminate).
    rewrite join_cons by exact N. destruct (join [47] (rev (firstn (S k) p))) as [|c r] eqn:E; auto. exfalso.
    destruct (rev (firstn (S k) p)) as [|x l] eqn:Er; [congruence|]. assert (In x p) as Ix. { assert (In x (rev (firstn (S k) p))) as X by (rewrite Er; now left). apply in_rev in X. eapply firstn_incl; eauto. }
    unfold path_ok in P. rewrite Forall_forall in P. destruct (P x Ix) as [Nx _]. destruct l; cbn [join] in E; destruct x; try congruence; discriminate.
Qed.
Lemma uniq_spec ps p : NoDup ps -> In p ps -> path_ok p -> forall m k, length p - k = m -> k <= length p ->
  match find_uniq_name (skipn k p) (ending p k) (tails k ps) with
  | Ok x => exists j, k <= j /\ tell_apart ps p j /\ (forall i, k <= i < j -> ~ tell_apart ps p i) /\ x = ending p (S j)
  | Panic _ => forall j, k <= j -> ~ tell_apart ps p j
  | _ => False
  end.
Proof.
  intros ND I P. induction m as [|m IH]; intros k L K.
  - replace (skipn k p) with (@nil text) by (symmetry; apply skipn_all2; lia). cbn [find_uniq_name]. intros j Hj [Lj _]. lia.
  - destruct (nth_error p k) as [n|] eqn:En; [|apply nth_error_None in En; lia].
    assert (skipn k p = n :: skipn (S k) p) as Es. { clear - En. revert p En. induction k as [|k IHk]; intros [|x p] En; cbn in En; try discriminate; [now injection En as ->|]. cbn [skipn]. now apply IHk. }
    rewrite Es. cbn [find_uniq_name]. rewrite named_tails, <- ending_S by auto. rewrite <- tails_S. pose proof (count_one ps p k n ND I En) as C.
    destruct (1 <? length _) eqn:E1; [apply Nat.ltb_lt in E1|apply Nat.ltb_ge in E1].
    + assert (~ tell_apart ps p k) as T. { intros [_ H]. apply C in H. lia. }
      specialize (IH (S k) ltac:(lia) ltac:(lia)). destruct (find_uniq_name _ _ _) as [x| |] eqn:Ef; auto.
      * destruct IH as (j & J1 & J2 & J3 & J4). exists j. split; [lia|]. split; auto. split; auto. intros i Hi. destruct (Nat.eq_dec i k) as [->|]; auto. apply J3. lia.
      * intros j Hj. destruct (Nat.eq_dec j k) as [->|]; auto. apply IH. lia.
    + exists k. split; auto. split; [split; [lia|now apply C]|]. split; auto. intros i Hi. lia.
Qed.
(** the written ending determines the components *)
Lemma join_inj : forall l m, Forall component l -> Forall component m -> join [47] l = join [47] m -> l = m.
Proof.
  assert (forall a b r s, ~ In 47 a -> ~ In 47 b -> a ++ 47 :: r = b ++ 47 :: s -> a = b /\ r = s) as Cut.
  { induction a as [|x a IH]; intros [|y b] r s A B E; cbn in E.
    - injection E. auto.
    - injection E as <- _. exfalso. apply B. now left.
    - injection E as -> _. exfalso. apply A. now left.
    - injection E as -> E. destruct (IH b r s) as [-> ->]; auto; intro X; [apply A|apply B]; now right. }
  assert (forall a, ~ In 47 a -> forall b r, a <> b ++ 47 :: r) as One. { intros a A b r E. apply A. rewrite E. apply in_or_app. right. now left. }
  induction l as [|a l IH]; intros [|b m] F1 F2 E; auto.
  - exfalso. inversion F2 as [|? ? [N _] _]; subst. destruct m; cbn [join] in E; destruct b; try congruence; discriminate.
  - exfalso. inversion F1 as [|? ? [N _] _]; subst. destruct l; cbn [join] in E; destruct a; try congruence; discriminate.
  - inversion F1 as [|? ? [N1 S1] G1]; subst. inversion F2 as [|? ? [N2 S2] G2]; subst. destruct l as [|x l], m as [|y m].
    + cbn [join] in E. congruence.
    + exfalso. rewrite (join_cons b) in E by discriminate. cbn [join] in E. eapply One; [|exact E]; auto.
    + exfalso. rewrite (join_cons a) in E by discriminate. cbn [join] in E. eapply One; [|symmetry; exact E]; auto.
    + rewrite !join_cons in E by discriminate. cbn [app] in E. apply Cut in E; auto. destruct E as [-> E]. f_equal. now apply IH.
Qed.
Lemma files_in ss i p : nth_error ss i = Some (SFile p) -> In p (files ss).
Proof. intro H. apply nth_error_In in H. unfold files. apply in_flat_map. exists (SFile p). split; auto. now left. Qed.

(** a name that is computed is a trailing part of the path, and no other file buffer has it *)
Theorem C49_partial : forall ss i p x, distinct_paths ss -> Forall path_ok (files ss) -> nth_error ss i = Some (SFile p) ->
  find_shortest_name ss i = Ok x ->
  (exists k, 0 < k <= length p /\ x = ending p k) /\
  forall j q y, nth_error ss j = Some (SFile q) -> q <> p -> find_shortest_name ss j = Ok y -> y <> x.
Proof.
  intros ss i p x ND F Ei Ex.
  assert (forall i p x, nth_error ss i = Some (SFile p) -> find_shortest_name ss i = Ok x -> exists j, tell_apart (files ss) p j /\ x = ending p (S j)) as H.
  { clear i p x Ei Ex. intros i p x Ei Ex. unfold find_shortest_name in Ex. rewrite Ei in Ex. fold (files ss) in Ex. pose proof (files_in _ _ _ Ei) as I.
    assert (path_ok p) as P by (rewrite Forall_forall in F; auto). pose proof (uniq_spec (files ss) p ND I P _ 0 eq_refl ltac:(lia)) as U.
    rewrite tails_0 in U. change (skipn 0 p) with p in U. change (ending p 0) with (@nil nat) in U. rewrite Ex in U. destruct U as (j & _ & T & _ & E). eauto. }
  destruct (H _ _ _ Ei Ex) as (k & [K T] & ->). split; [exists (S k); split; auto; lia|]. intros j q y Ej N Ey.
  destruct (H _ _ _ Ej Ey) as (l & [L T'] & ->). intro E. apply N. unfold ending in E. rewrite Forall_forall in F. pose proof (F p (files_in _ _ _ Ei)) as Pp. pose proof (F q (files_in _ _ _ Ej)) as Pq.
  apply join_inj in E; try (apply Forall_rev; apply Forall_forall; intros c Hc; apply firstn_incl in Hc; [..]; unfold path_ok in Pp, Pq; rewrite Forall_forall in Pp, Pq; auto).
  assert (rev (rev (firstn (S l) q)) = rev (rev (firstn (S k) p))) as E' by now rewrite E. rewrite !rev_involutive in E'.
  assert (length (firstn (S l) q) = length (firstn (S k) p)) as Len by now rewrite E'. rewrite !firstn_length in Len. assert (l = k) as -> by lia.
  apply T; [now apply (files_in ss j)|]. rewrite <- (nth_error_firstn_lt q (S k) k), <- (nth_error_firstn_lt p (S k) k) by lia. now rewrite E'.
Qed.
Print Assumptions C49_partial.
(** it is computed exactly when, at some distance from the end, no other path has the same component; it is then as short
    as that allows *)
Theorem C49_computed : forall ss i p, distinct_paths ss -> Forall path_ok (files ss) -> nth_error ss i = Some (SFile p) ->
  ((exists x, find_shortest_name ss i = Ok x) <-> exists k, tell_apart (files ss) p k) /\
  forall k, tell_apart (files ss) p k -> (forall j, j < k -> ~ tell_apart (files ss) p j) -> find_shortest_name ss i = Ok (ending p (S k)).
Proof.
  intros ss i p ND F Ei. pose proof (files_in _ _ _ Ei) as I.
  assert (path_ok p) as P by (rewrite Forall_forall in F; auto). pose proof (uniq_spec (files ss) p ND I P _ 0 eq_refl ltac:(lia)) as U.
  rewrite tails_0 in U. change (skipn 0 p) with p in U. change (ending p 0) with (@nil nat) in U. unfold find_shortest_name. rewrite Ei. fold (files ss). split.
  - split; [intros (x & E)|intros (k & T)].
    + rewrite E in U. destruct U as (j & _ & T & _). eauto.
    + destruct (find_uniq_name p [] (files ss)) as [x| |]; eauto; [destruct (U k (Nat.le_0_l _) T)|contradiction].
  - intros k T N. destruct (find_uniq_name p [] (files ss)) as [x| |]; [|destruct (U k (Nat.le_0_l _) T)|contradiction]. destruct U as (j & _ & T' & N' & ->).
    assert (j = k) as ->; auto. destruct (lt_eq_lt_dec j k) as [[X| ->]|X]; auto; exfalso; [exact (N j X T')|exact (N' k (conj (Nat.le_0_l _) X) T)].
Qed.
Print Assumptions C49_computed.
(** a file whose whole path is the end of another's has no name: the computation panics *)
Theorem C49_refuted : forall p d, p <> [] -> d <> [] -> exists why, find_shortest_name [SFile p; SFile (p ++ d)] 0 = Panic why.
Proof.
  intros p d Np Nd. unfold find_shortest_name. cbn [nth_error flat_map app]. clear Np.
  assert (forall p acc, exists why, find_uniq_name p acc [p; p ++ d] = Panic why) as H; auto. clear p. induction p as [|n p IH]; intro acc; cbn [find_uniq_name]; [eauto|].
  cbn [app filter named file_name]. rewrite !eqb_refl. cbn [length parents flat_map app]. change (1 <? 2) with true. cbn iota. apply IH.
Qed.
Print Assumptions C49_refuted.
Definition sample : list source := [SScratch (str "s"); SFile [str "f"; str "x"; str "a"]; SFile [str "g"; str "x"; str "b"]; SFile [str "f"; str "c"]].
Example C49_demo : distinct_paths sample /\ Forall path_ok (files sample) /\ find_shortest_name sample 1 = Ok (str "a/x/f") /\ find_shortest_name sample 2 = Ok (str "g") /\ find_shortest_name sample 3 = Ok (str "c/f") /\
  exists why, find_shortest_name [SFile [str "f"]; SFile [str "f"; str "home"]] 0 = Panic why.
Proof.
  split; [|split; [|repeat split; try (vm_compute; reflexivity); eexists; vm_compute; reflexivity]].
  - vm_compute. repeat (constructor; [cbn; intuition congruence|]). constructor.
  - repeat (constructor; [repeat (constructor; [split; [discriminate|cbn; intuition lia]|]); constructor|]). constructor.
Qed.
