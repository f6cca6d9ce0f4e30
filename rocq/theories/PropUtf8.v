(** C60: decoding the text of a document never corrupts characters. *)
From Coq Require Import String List Arith Lia Bool.
From Verif Require Import Base ListFacts PieceTable PieceTableSpec PieceTableFacts History HistoryFacts PropPiece Utf8 Utf8Spec Utf8Facts.
Import ListNotations.

(** every history of edits, undos and redos on character boundaries of valid text: the decoded text is the text *)
Theorem C60_decoded_text : forall pol s os, policy_wrap pol -> s <> [] -> valid s -> ops_ok on_chars os (d_init s) ->
  exists t, pt_ops pol os (pt_with_text s) = Ok (fst (d_ops os (d_init s)), t) /\
    pt_string t = Ok (d_text (snd (d_ops os (d_init s)))).
Proof.
  intros pol s os P H V Ho. destruct (sim_init s H) as [S _].
  destruct (ops_utf8 pol on_chars os _ _ S (utf8_init s H V) Ho) as (t & E & S' & U).
  { intros. now apply edit_fine_wrap. } { auto. }
  exists t. split; auto. pose proof S' as (W & _ & T & _). rewrite <- T. now apply string_utf8.
Qed.
Print Assumptions C60_decoded_text.
(** the same with overflow checks, when no deletion reaches the end of the document (but for whole deletions) *)
Theorem C60_decoded_text_debug : forall pol s os, policy_succ pol -> s <> [] -> valid s ->
  ops_ok (fun e x => on_chars e x /\ delete_inside e x) os (d_init s) ->
  exists t, pt_ops pol os (pt_with_text s) = Ok (fst (d_ops os (d_init s)), t) /\
    pt_string t = Ok (d_text (snd (d_ops os (d_init s)))).
Proof.
  intros pol s os P H V Ho. destruct (sim_init s H) as [S _].
  destruct (ops_utf8 pol _ os _ _ S (utf8_init s H V) Ho) as (t & E & S' & U).
  { intros e u W He [_ Hd]. now apply edit_fine_inside. } { tauto. }
  exists t. split; auto. pose proof S' as (W & _ & T & _). rewrite <- T. now apply string_utf8.
Qed.
Print Assumptions C60_decoded_text_debug.
(** reading a range between character boundaries *)
Theorem C60_decoded_range : forall pol s os o n, policy_wrap pol -> s <> [] -> valid s -> ops_ok on_chars os (d_init s) ->
  let x := d_text (snd (d_ops os (d_init s))) in
  o < length x -> 0 < n -> bound x o -> (o + n < length x -> bound x (o + n)) ->
  exists t, pt_ops pol os (pt_with_text s) = Ok (fst (d_ops os (d_init s)), t) /\
    pt_text_range t o n = Ok (Some (firstn n (skipn o x))).
Proof.
  intros pol s os o n P H V Ho x Lo Hn B1 B2. destruct (sim_init s H) as [S _].
  destruct (ops_utf8 pol on_chars os _ _ S (utf8_init s H V) Ho) as (t & E & S' & U).
  { intros. now apply edit_fine_wrap. } { auto. }
  exists t. split; auto. pose proof S' as (W & _ & T & _). fold x in T.
  unfold pt_text_range. rewrite (PieceTableDelete.range_spec t o n W). rewrite T.
  assert (o <? length x = true) as -> by now apply Nat.ltb_lt.
  cbn [bind]. do 2 f_equal. unfold slice.
  assert (valid (firstn n (skipn o x))) as Vn; [|now rewrite lossy_valid].
  destruct (Nat.ltb_spec (o + n) (length x)) as [L|L].
  - pose proof (bound_ge x o (o + n) (B2 L) ltac:(lia) B1) as B. replace (o + n - o) with n in B by lia. now apply bound_parts in B.
  - rewrite firstn_all2 by (rewrite skipn_length; lia). now apply bound_parts.
Qed.
Print Assumptions C60_decoded_range.

(** the condition on boundaries is needed: "é" cut in two by an insertion which is then deleted is the same two bytes,
    but decoded as two replacement characters *)
Theorem C60_cut_character_refuted : forall pol, policy_wrap pol ->
  exists os t, pt_ops pol os (pt_with_text [195; 169]) = Ok ([true; true], t) /\
    pt_text t = Ok [195; 169] /\ valid [195; 169] /\ pt_string t <> Ok [195; 169].
Proof.
  intros pol [P1 P2]. exists [OEdit (EInsert 1 [120]); OEdit (EDelete 1 1)]. eexists. split.
  - cbv. rewrite P1 by discriminate. reflexivity.
  - split; [vm_compute; reflexivity|]. split; [exists [[195; 169]]; split; [repeat constructor; cbn; unfold trail; lia|reflexivity]|].
    vm_compute. discriminate.
Qed.
Print Assumptions C60_cut_character_refuted.

(** the hypotheses are met: "é\n", insert "ü" at 2, delete "é", undo, redo *)
Example C60_hypotheses_met : let os := [OEdit (EInsert 2 [195; 188]); OEdit (EDelete 0 2); OUndo; ORedo; OEdit (EReplace 0 2 [98])] in
  valid [195; 169; 10] /\ ops_ok on_chars os (d_init [195; 169; 10]) /\ d_text (snd (d_ops os (d_init [195; 169; 10]))) = [98; 10].
Proof.
  cbv zeta. assert (valid [195; 188] /\ valid [195; 169] /\ valid [10] /\ valid [195; 188; 10] /\ valid [98]) as (V1 & V2 & V3 & V4 & V5).
  { repeat split; [exists [[195; 188]]|exists [[195; 169]]|exists [[10]]|exists [[195; 188]; [10]]|exists [[98]]];
      (split; [repeat constructor; cbn; unfold trail; lia|reflexivity]). }
  assert (forall a b, valid a -> valid b -> valid (a ++ b)) as VA by apply valid_app.
  split; [apply (VA [195; 169] [10]); auto|]. split; [|vm_compute; reflexivity].
  cbn. repeat split; auto; try discriminate; try lia; intros _.
  - exists [195; 169], [10]. auto.
  - exists [], [195; 169; 195; 188; 10]. repeat split; auto using valid_nil. apply (VA [195; 169] [195; 188; 10]); auto.
  - exists [195; 169], [195; 188; 10]. auto.
  - exists [], [195; 188; 10]. repeat split; auto using valid_nil.
  - exists [195; 188], [10]. auto.
Qed.
