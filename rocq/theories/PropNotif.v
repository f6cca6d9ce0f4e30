(** Properties C26 and C27: what a view notification shows. *)
From Coq Require Import String List Arith Lia Bool Sorted Permutation.
From Verif Require Import Base ListFacts PieceTable PieceTableFacts Coords LineSpec LineFacts CoordsFacts CoordsMore Utf8 GraphemeInst
  Selection NavSpec NavFacts Maps Fmt Buffer View ViewSpec ViewFacts PropView NotifFacts.
Import ListNotations.

(** a history that only adds whole-buffer lenses (and removes buffers), as client requests do *)
Definition whole_op (o : vop) : Prop := match o with VAdd _ f => f = FWhole | VRemove _ => True end.
Lemma whole_add b v : whole_view v -> whole_view (add_lens (mkLens b FWhole) v).
Proof.
  intro W. assert (forall n g, Forall (fun l => l = mkLens n FWhole) g -> b = n -> whole_group (n, group_add (mkLens b FWhole) g)) as H.
  { intros n g F ->. split; cbn [fst snd].
    - intro E. pose proof (group_add_perm (mkLens n FWhole) g) as P. rewrite E in P. apply Permutation_nil in P. destruct g; discriminate.
    - eapply Permutation_Forall; [apply Permutation_sym, group_add_perm|]. apply Forall_app. auto. }
  induction W as [|[n g] v [N F] W IH]; cbn [add_lens l_buffer].
  - constructor; [|constructor]. apply H; auto.
  - cbn [fst snd] in *. destruct (text_cmp b n) eqn:E.
    + apply text_cmp_eq in E. constructor; auto.
    + constructor; [|constructor; auto; split; auto]. apply H; auto.
    + constructor; auto. split; auto.
Qed.
Lemma whole_remove b v : whole_view v -> whole_view (remove_lens_group b v).
Proof. intro W. unfold whole_view, remove_lens_group, del in *. rewrite Forall_forall in *. intros e He. apply filter_In in He. apply W. tauto. Qed.
Lemma build_whole os : Forall whole_op os -> whole_view (build_view os).
Proof.
  unfold build_view. assert (whole_view []) as H by constructor. revert H. generalize (@nil (text * list lens)) as v.
  induction os as [|[b f|b] os IH]; simpl; intros v W F; auto; inversion F; subst; apply IH; auto.
  - cbn [whole_op] in *. subst. now apply whole_add.
  - now apply whole_remove.
Qed.

(** the buffers of a view exist, are ASCII without carriage returns, and the selections are inside them *)
Definition displayable (v : view) (bufs : amap text buffer) (sels : option (amap text (list sel))) (content : text -> text) : Prop :=
  forall b, In b (view_buffers v) -> exists buf, get bufs b = Some buf /\ edited_doc (b_content buf) (content b) /\
    content b <> [] /\ ascii (content b) /\ ~ In 13 (content b) /\ Forall (sel_inside (content b)) (buf_sels sels b).
Lemma displayable_notif G os bufs sels content : Forall whole_op os -> displayable (build_view os) bufs sels content ->
  to_notification_params G (build_view os) bufs sels = Ok (map (item_for bufs sels) (build_view os)) /\
  (forall e, In e (build_view os) -> item_for bufs sels e =
     mkPI (fst e) 1 (length (lines_of (content (fst e)))) (map (fun _ => mkPL (shown_lines (content (fst e)) (buf_sels sels (fst e))) 1) (snd e))).
Proof.
  intros W D. split.
  - apply notif_ok; [now apply build_whole|]. intros b Hb. destruct (D b Hb) as (buf & Eb & Ed & N & As & NC & I).
    exists buf. destruct (edited_doc_acc _ _ Ed) as [A E]. rewrite E. unfold buf_ok. rewrite E. split; [exact Eb|]. split; [split; [exact A|tauto]|exact I].
  - intros e He. destruct (D (fst e)) as (buf & Eb & Ed & _). { unfold view_buffers, keys. apply in_map_iff. eauto. }
    destruct (edited_doc_acc _ _ Ed) as [A E]. unfold item_for. rewrite Eb, E. reflexivity.
Qed.

Lemma shown_bytes x ss n l : map fst (shown_line x ss n l) = l ++ [32].
Proof.
  unfold shown_line. rewrite map_map. cbn [fst]. apply nth_error_ext. intro k. rewrite nth_error_map, nth_error_seq.
  destruct (Nat.ltb_spec k (length l + 1)) as [H|H]; cbn [option_map].
  - symmetry. apply nth_error_nth'. rewrite app_length. simpl. lia.
  - symmetry. apply nth_error_None. rewrite app_length. simpl. lia.
Qed.
Lemma shown_lines_bytes x ss ls n : map (map fst) (shown_lines_from x ss n ls) = map (fun l => l ++ [32]) ls.
Proof. revert n. induction ls as [|l ls IH]; intro n; cbn [shown_lines_from map]; auto. now rewrite shown_bytes, IH. Qed.
Lemma shown_lines_nth x ss ls n i : nth_error (shown_lines_from x ss n ls) i = option_map (shown_line x ss (n + i)) (nth_error ls i).
Proof.
  revert n i. induction ls as [|l ls IH]; intros n i; cbn [shown_lines_from]; [destruct i; reflexivity|].
  destruct i as [|i]; cbn [nth_error option_map]; [now rewrite Nat.add_0_r|]. rewrite IH. now replace (S n + i) with (n + S i) by lia.
Qed.

(** ** C26 *)
Theorem C26_whole_view_partial : forall G os bufs sels content, Forall whole_op os -> displayable (build_view os) bufs sels content ->
  exists items, to_notification_params G (build_view os) bufs sels = Ok items /\
    map pi_buffer items = view_buffers (build_view os) /\
    Forall (fun it => pi_start it = 1 /\ pi_end it = length (lines_of (content (pi_buffer it))) /\
      length (pi_lenses it) = length (shown (pi_buffer it) (build_view os)) /\
      Forall (fun pl => pl_first pl = 1 /\ map (map fst) (pl_lines pl) = map (fun l => l ++ [32]) (lines_of (content (pi_buffer it))))
        (pi_lenses it)) items.
Proof.
  intros G os bufs sels content W D. destruct (displayable_notif G os bufs sels content W D) as [E H].
  eexists. split; [exact E|]. split; [unfold view_buffers, keys; rewrite map_map; reflexivity|].
  rewrite Forall_forall. intros it Hit. apply in_map_iff in Hit. destruct Hit as (e & <- & He). rewrite (H e He).
  cbn [pi_start pi_end pi_buffer pi_lenses]. split; auto. split; auto. split.
  - rewrite map_length. unfold shown. destruct (build_wf os) as [S _]. apply sorted_uniq in S.
    destruct e as [b g]. cbn [fst snd]. rewrite (get_uniq _ b g S He). now rewrite map_length.
  - rewrite Forall_forall. intros pl Hpl. apply in_map_iff in Hpl. destruct Hpl as (y & <- & _). cbn [pl_first pl_lines].
    split; auto. apply shown_lines_bytes.
Qed.
Print Assumptions C26_whole_view_partial.

(** a lens on the lines [a+1 .. e] of a buffer, nothing selected *)
Theorem C26_range_lens : forall G bufs b buf x a e, get bufs b = Some buf -> edited_doc (b_content buf) x -> ascii x -> ~ In 13 x ->
  a <= e -> e <= length (lines_of x) ->
  to_notification_params G (build_view [VAdd b (FRange a e)]) bufs None =
  Ok [mkPI b (a + 1) e [mkPL (map (fun l => map (fun c => (c, false)) (l ++ [32])) (slice (lines_of x) a (e - a))) (a + 1)]].
Proof.
  intros G bufs b buf x a e Eb Ed As NC H1 H2. destruct (edited_doc_acc _ _ Ed) as [A E].
  unfold to_notification_params, build_view. cbn [fold_left do_vop add_lens l_buffer]. unfold group_add, sort_by.
  cbn [app fold_left ins_by as_vec group_focus nth_error rev unwrap bind l_focus map notif_loop].
  unfold show_lens. cbn [l_buffer l_focus]. rewrite Eb. cbn [unwrap bind]. unfold buf_lines.
  rewrite string_ok by (rewrite ?E; auto). cbn [bind]. rewrite E, str_lines_nocr by auto. unfold slice_res.
  assert ((a <=? e) && (e <=? length (lines_of x)) = true) as -> by (apply andb_true_iff; rewrite !Nat.leb_le; auto).
  cbn [bind]. rewrite show_lines_plain. reflexivity.
Qed.
Print Assumptions C26_range_lens.

(** ** C27 *)
Theorem C27_highlight_partial : forall G os bufs sels content, Forall whole_op os -> displayable (build_view os) bufs sels content ->
  exists items, to_notification_params G (build_view os) bufs sels = Ok items /\
    forall it pl, In it items -> In pl (pi_lenses it) ->
      let x := content (pi_buffer it) in
      length (pl_lines pl) = length (lines_of x) /\
      forall i l, nth_error (lines_of x) i = Some l ->
        exists cs, nth_error (pl_lines pl) i = Some cs /\ length cs = length l + 1 /\
        forall k, k <= length l ->
          nth_error cs k = Some (nth k (l ++ [32]) 0, existsb (in_sel (line_offset x (i + 1) + k)) (buf_sels sels (pi_buffer it))).
Proof.
  intros G os bufs sels content W D. destruct (displayable_notif G os bufs sels content W D) as [E H].
  eexists. split; [exact E|]. intros it pl Hit Hpl. apply in_map_iff in Hit. destruct Hit as (e & <- & He).
  rewrite (H e He) in *. cbn [pi_buffer pi_lenses] in *. apply in_map_iff in Hpl. destruct Hpl as (y & <- & _). cbn [pl_lines].
  set (x := content (fst e)). split.
  - pose proof (shown_lines_bytes x (buf_sels sels (fst e)) (lines_of x) 1) as L. apply (f_equal (@length text)) in L.
    rewrite !map_length in L. exact L.
  - intros i l El. unfold shown_lines. rewrite shown_lines_nth, El. cbn [option_map]. eexists. split; [reflexivity|].
    unfold shown_line. split; [now rewrite map_length, seq_length|]. intros k Hk. rewrite nth_error_map, nth_error_seq.
    assert (k <? length l + 1 = true) as -> by (apply Nat.ltb_lt; lia). cbn [option_map]. now rewrite (Nat.add_comm 1 i).
Qed.
Print Assumptions C27_highlight_partial.

(** a lens on part of a buffer is highlighted as if it started at the first line: "a\nb\nc\n", lens on line 2,
    offset 0 selected *)
Theorem C27_range_refuted : exists x,
  to_notification_params utf8_graphemes (build_view [VAdd (str "b") (FRange 1 2)])
    [(str "b", mkBuf (SScratch (str "b")) (pt_with_text x) None)] (Some [(str "b", [mkSel 0 0 1])])
  = Ok [mkPI (str "b") 2 2 [mkPL [[(98, true); (32, false)]] 2]] /\ nth 0 x 0 <> 98.
Proof. exists (str "a" ++ [LF] ++ str "b" ++ [LF] ++ str "c" ++ [LF]). split; [vm_compute; reflexivity|vm_compute; discriminate]. Qed.
Print Assumptions C27_range_refuted.
(** a carriage return before the newline is not shown but counted: the selected newline of "a\r\n" is not
    highlighted, the selected carriage return highlights the blank of the newline *)
Theorem C27_crlf_refuted : exists x,
  nth_error x 2 = Some LF /\ nth_error x 1 = Some 13 /\
  (forall sels hl, (sels, hl) = ([mkSel 2 2 1], false) \/ (sels, hl) = ([mkSel 1 1 1], true) ->
   to_notification_params utf8_graphemes (build_view [VAdd (str "b") FWhole])
     [(str "b", mkBuf (SScratch (str "b")) (pt_with_text x) None)] (Some [(str "b", sels)])
   = Ok [mkPI (str "b") 1 2 [mkPL [[(97, false); (32, hl)]; [(98, false); (32, false)]] 1]]).
Proof.
  exists [97;13;10;98;10]. split; auto. split; auto. intros sels hl [E|E]; inversion E; subst; vm_compute; reflexivity.
Qed.
Print Assumptions C27_crlf_refuted.

(** an instance: two lines, a selection from the middle of the first line to the second *)
Example C27_example :
  to_notification_params utf8_graphemes (build_view [VAdd (str "b") FWhole])
    [(str "b", mkBuf (SScratch (str "b")) (pt_with_text (str "ab" ++ [LF] ++ str "cd" ++ [LF])) None)]
    (Some [(str "b", [mkSel 3 1 1])])
  = Ok [mkPI (str "b") 1 2 [mkPL [[(97, false); (98, true); (32, true)]; [(99, true); (100, false); (32, false)]] 1]].
Proof. vm_compute. reflexivity. Qed.
Example C26_hypotheses_met : displayable (build_view [VAdd (str "b") FWhole])
  [(str "b", mkBuf (SScratch (str "b")) (pt_with_text (str "ab" ++ [LF] ++ str "cd" ++ [LF])) None)]
  (Some [(str "b", [mkSel 3 1 1])]) (fun _ => str "ab" ++ [LF] ++ str "cd" ++ [LF]).
Proof.
  intros b Hb. vm_compute in Hb. destruct Hb as [<-|[]]. eexists. split; [reflexivity|]. split; [apply edited_doc_init; discriminate|].
  split; [discriminate|]. split; [repeat constructor; vm_compute; lia|]. split; [vm_compute; intuition discriminate|].
  repeat constructor; vm_compute; lia.
Qed.
