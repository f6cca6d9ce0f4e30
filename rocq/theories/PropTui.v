(** C56: what the terminal client draws. *)
From Coq Require Import String List Arith Lia ZArith Bool.
From Verif Require Import Base ListFacts Maps Utf8 Utf8Facts Fmt Chars LineSpec DiffApply Json Proto Payload Conn PropSession Tui TuiSpec TuiFacts.
Import ListNotations.

Section Tui.
Variable sy : styles.
Variable checked : bool.
Hypothesis Sane : sane sy.

(** a length that a text can have *)
Definition real (n : nat) : Prop := (Z.of_nat n < 9223372036854775808)%Z.
Definition title_text (i : witem) (n : nat) : text :=
  str "-[" ++ wi_buffer i ++ str "][" ++ dec (wi_start i) ++ [58] ++ dec (wi_end i) ++ str "]" ++ repeat 45 n.
Lemma header_ok w i : (Z.of_nat (title_length i) <= w < 65536)%Z -> header checked w i = Ok (title_text i (Z.to_nat w - title_length i)).
Proof.
  intro H. unfold header, title_length in *. cbv zeta. rewrite !app_length. cbn [length].
  unfold usize_sub. rewrite (proj2 (Z.leb_le _ _)) by lia. cbn [bind]. rewrite (proj2 (Z.leb_le _ _)) by lia. cbn [bind]. rewrite (proj2 (Z.leb_le _ _)) by lia. cbn [bind].
  unfold repeated. rewrite (proj2 (Z.ltb_lt _ _)) by lia. cbn [bind]. unfold title_text. rewrite <- !app_assoc. match goal with |- context [repeat 45 (Z.to_nat ?x)] => replace (Z.to_nat x) with (Z.to_nat w - (5 + length (wi_buffer i) + length (dec (wi_start i)) + 1 + length (dec (wi_end i)))) by lia end. reflexivity.
Qed.
Lemma header_panic w i : (0 <= w < 65536)%Z -> (w < Z.of_nat (title_length i))%Z -> real (title_length i) -> exists why, header checked w i = Panic why.
Proof.
  intros W H R. unfold header, title_length, real in *. cbv zeta. rewrite !app_length. cbn [length]. unfold usize_sub.
  destruct (Z.leb_spec 5 w); cbn [bind].
  - destruct (Z.leb_spec (Z.of_nat (length (wi_buffer i))) (w - 5)); cbn [bind].
    + destruct (Z.leb_spec (Z.of_nat (length (dec (wi_start i)) + (1 + length (dec (wi_end i))))) (w - 5 - Z.of_nat (length (wi_buffer i)))); [lia|]. destruct checked; cbn [bind]; [eauto|]. unfold repeated. rewrite (proj2 (Z.ltb_ge _ _)) by lia. cbn [bind]. eauto.
    + destruct checked; cbn [bind]; [eauto|]. rewrite (proj2 (Z.leb_le _ _)) by lia. cbn [bind]. unfold repeated. rewrite (proj2 (Z.ltb_ge _ _)) by lia. cbn [bind]. eauto.
  - destruct checked; cbn [bind]; [eauto|]. rewrite (proj2 (Z.leb_le _ _)) by lia. cbn [bind]. rewrite (proj2 (Z.leb_le _ _)) by lia. cbn [bind]. unfold repeated. rewrite (proj2 (Z.ltb_ge _ _)) by lia. cbn [bind]. eauto.
Qed.
Lemma title_length_ok i n : length (title_text i n) = title_length i + n.
Proof. unfold title_text, title_length. rewrite !app_length, repeat_length. cbn. lia. Qed.
Lemma title_printable i n : printable (wi_buffer i) -> printable (title_text i n).
Proof.
  intro P. unfold title_text. repeat (apply printable_app; split); auto using printable_dec; try (apply printable_b; reflexivity). apply printable_repeat. lia.
Qed.

(** ** too narrow a terminal *)
(** Whatever is in the view: if the first buffer's name does not leave eight columns, drawing panics, in both profiles.  So does
    every non-empty view on a terminal of fewer than eight columns. *)
Theorem C56_narrow_refuted : forall w h s i r, cs_view s = i :: r -> (0 <= w < 65536)%Z -> (w < 8 + Z.of_nat (length (wi_buffer i)))%Z -> real (title_length i) ->
  exists why, draw_view sy checked (w, h) s = Panic why.
Proof.
  intros w h s i r V W H R. destruct (header_panic w i W) as [why E]; auto.
  { unfold title_length. pose proof (dec_length_pos (wi_start i)). pose proof (dec_length_pos (wi_end i)). lia. }
  exists why. unfold draw_view. cbn [fst snd]. rewrite V. cbn [draw_items]. now rewrite E.
Qed.

(** ** a status line that does not fit *)
Theorem C56_status_refuted : forall w h s, (0 <= w < 65536)%Z -> real (length (status_of s)) -> (Z.of_nat (sy_len sy (echo_of s)) + 1 < w)%Z ->
  (w <= Z.of_nat (sy_len sy (echo_of s)) + Z.of_nat (length (status_of s)))%Z ->
  (exists why, draw_status sy checked (w, h) s = Panic why) /\ forall cs, draw_view sy checked (w, h) s <> Ok cs.
Proof.
  intros w h s W R E S. assert (exists why, draw_status sy checked (w, h) s = Panic why) as [why D].
  { unfold draw_status, status_text. cbn [fst snd]. cbv zeta. change (match cs_echo s with Some t => t | None => [] end) with (echo_of s). change (status_line s) with (status_of s).
    rewrite (proj2 (Z.leb_gt _ _)) by lia. rewrite (proj2 (Z.leb_le _ _)) by lia. unfold usize_sub. rewrite (proj2 (Z.leb_gt _ _)) by lia. destruct checked; cbn [bind]; [eauto|].
    unfold usize_add. rewrite (proj2 (Z.ltb_lt _ _)) by lia. cbn [bind]. unfold str_suffix, real in *. rewrite (proj2 (Z.leb_gt _ _)) by lia. cbn [bind]. eauto. }
  split; [eauto|]. intros cs X. unfold draw_view in X. bnd X. rewrite D in X. discriminate X.
Qed.

(** ** the view *)
Definition line_text (w : Z) (l : list fragment) : text :=
  if (w <? Z.of_nat (sy_len sy l))%Z then firstn (Z.to_nat w) (render (format_text sy) l) else render (format_text sy) l.
Definition row_text (w : Z) (r : vrow) : text := match r with Title i => title_text i (Z.to_nat w - title_length i) | Line l => line_text w l end.
Lemma line_view_ok w l : (0 <= w)%Z -> displayable w (plain_text l) -> line_view sy w l = Ok (line_text w l).
Proof.
  intros W [P|[V Lw]]; unfold line_view, line_text; cbv zeta; [|pose proof (proj2 (proj2 Sane) l V); rewrite (proj2 (Z.ltb_ge _ _)) by lia; reflexivity]. destruct (Z.ltb_spec w (Z.of_nat (sy_len sy l))); [|reflexivity]. apply prefix_ascii; [apply clean_ascii, render_clean; auto|].
  pose proof (render_long sy Sane l P). rewrite (proj1 (proj2 Sane) l P) in H. lia.
Qed.
Lemma line_shows w l : (0 <= w)%Z -> displayable w (plain_text l) -> row_shows w (Line l) (line_text w l).
Proof.
  intros W D. assert (visible (render (format_text sy) l) = plain_text l) as V. { rewrite <- (app_nil_r (render _ l)), render_soft by (auto; eapply displayable_soft; eauto). apply app_nil_r. }
  unfold row_shows, line_text. destruct D as [P|[Vl Lw]].
  2: { pose proof (proj2 (proj2 Sane) l Vl). rewrite (proj2 (Z.ltb_ge _ _)) by lia. split; [unfold columns; rewrite V; pose proof (chars_length (plain_text l)); lia|]. split; [exists (length (plain_text l)); now rewrite V, firstn_all|]. intros _. rewrite V, firstn_all2; [reflexivity|lia]. }
  rewrite (proj1 (proj2 Sane) l P).
  destruct (Z.ltb_spec w (Z.of_nat (length (plain_text l)))).
  - split; [pose proof (columns_length (firstn (Z.to_nat w) (render (format_text sy) l))) as C; rewrite firstn_length in C; lia|]. split; [destruct (visible_cut (render (format_text sy) l) 0 (Z.to_nat w)) as [k K]; exists k; unfold visible; rewrite K; fold (visible (render (format_text sy) l)); now rewrite V|]. intros [U|U]; [|lia]. rewrite render_unstyled by auto. apply visible_all. now apply printable_firstn.
  - split; [unfold columns; rewrite V; pose proof (chars_length (plain_text l)); lia|]. split; [exists (length (plain_text l)); now rewrite V, firstn_all|]. intros _. rewrite V, firstn_all2; [reflexivity|lia].
Qed.
Lemma title_shows w i : (Z.of_nat (title_length i) <= w)%Z -> printable (wi_buffer i) -> row_shows w (Title i) (row_text w (Title i)).
Proof.
  intros W P. unfold row_shows, row_text. split; [eexists; reflexivity|]. rewrite columns_print by now apply title_printable. rewrite title_length_ok. lia.
Qed.
Lemma draw_lines_ok w h : (0 <= w)%Z -> (1 <= h < 65536)%Z -> forall lines content, Forall (fun l => displayable w (plain_text l)) lines -> (Z.of_nat (length content) <= h - 1)%Z ->
  let n := (Z.to_nat (h - 1) - length content) in
  draw_lines sy checked w h lines content (Z.of_nat (length content)) =
  Ok (n <? length lines, content ++ map (line_text w) (firstn n lines), Z.of_nat (length content + length (firstn n lines))).
Proof.
  intros W Hh. induction lines as [|l lines IH]; intros content F C n; cbn [draw_lines length].
  - rewrite firstn_nil. cbn [map length]. rewrite app_nil_r, Nat.add_0_r. now destruct n.
  - inversion F as [|? ? F1 F2]; subst. unfold u16_sub. rewrite (proj2 (Z.leb_le _ _)) by lia. cbn [bind].
    destruct (Z.eqb_spec (Z.of_nat (length content)) (h - 1)).
    + assert (n = 0) as -> by (unfold n; lia). cbn [firstn map length Nat.ltb Nat.leb]. now rewrite app_nil_r, Nat.add_0_r.
    + rewrite line_view_ok by auto. cbn [bind]. unfold u16_add. rewrite (proj2 (Z.ltb_lt _ _)) by lia. cbn [bind].
      specialize (IH (content ++ [line_text w l]) F2). rewrite app_length in IH. cbn [length] in IH. replace (Z.of_nat (length content) + 1)%Z with (Z.of_nat (length content + 1)) by lia. rewrite IH by lia.
      assert (n = S (Z.to_nat (h - 1) - (length content + 1))) as -> by (unfold n; lia). cbn [firstn map length]. rewrite <- app_assoc. cbn [app].
      replace (Z.to_nat (h - 1) - (length content + 1) <? length lines) with (S (Z.to_nat (h - 1) - (length content + 1)) <? S (length lines)) by reflexivity. repeat (lia || f_equal).
Qed.
Definition drawable (w : Z) (i : witem) : Prop := printable_item w i /\ (Z.of_nat (title_length i) <= w < 65536)%Z.
Lemma item_printable w i : printable_item w i -> Forall (fun l => displayable w (plain_text l)) (item_lines i).
Proof. intros [_ F]. unfold item_lines. induction F as [|l ls L F IH]; [constructor|]. cbn [map concat]. apply Forall_app. auto. Qed.
Lemma rows_cons i v : view_rows (i :: v) = Title i :: map Line (item_lines i) ++ view_rows v.
Proof. reflexivity. Qed.
Lemma draw_items_ok w h : (1 <= h < 65536)%Z -> forall items content, Forall (drawable w) items -> (Z.of_nat (length content) <= h - 1)%Z ->
  (forall k, k < length items -> (Z.of_nat (length content + length (view_rows (firstn k items))) <> h - 1)%Z) ->
  draw_items sy checked w h items content (Z.of_nat (length content)) = Ok (content ++ map (row_text w) (firstn (Z.to_nat (h - 1) - length content) (view_rows items))).
Proof.
  intro Hh. induction items as [|i items IH]; intros content F C K; cbn [draw_items].
  - cbn [view_rows map concat]. rewrite firstn_nil. cbn. now rewrite app_nil_r.
  - inversion F as [|? ? [P T] F2]; subst. rewrite header_ok by auto. cbn [bind].
    assert (Z.of_nat (length content) < h - 1)%Z as C' by (specialize (K 0); cbn [length firstn view_rows map concat] in K; specialize (K ltac:(lia)); lia).
    unfold u16_add. rewrite (proj2 (Z.ltb_lt _ _)) by lia. cbn [bind]. set (c1 := content ++ [title_text i (Z.to_nat w - title_length i)]). assert (length c1 = S (length content)) as L1 by (unfold c1; rewrite app_length; cbn; lia).
    replace (Z.of_nat (length content) + 1)%Z with (Z.of_nat (length c1)) by lia. rewrite draw_lines_ok; [|lia|lia|now apply item_printable|lia]. cbn [bind].
    set (n := Z.to_nat (h - 1) - length c1). assert (Z.to_nat (h - 1) - length content = S n) as -> by (unfold n; lia). rewrite rows_cons. cbn [firstn map].
    assert (forall l, map (row_text w) (map Line l) = map (line_text w) l) as ML by (intro l; rewrite map_map; reflexivity).
    destruct (Nat.ltb_spec n (length (item_lines i))).
    + rewrite firstn_app. rewrite map_length. replace (n - length (item_lines i)) with 0 by lia. cbn [firstn]. rewrite app_nil_r. rewrite firstn_map, ML. unfold c1. rewrite <- app_assoc. reflexivity.
    + rewrite firstn_all2 by auto. rewrite firstn_app, firstn_all2 by now rewrite map_length. rewrite map_length, map_app, ML.
      set (c2 := c1 ++ map (line_text w) (item_lines i)). assert (length c2 = length c1 + length (item_lines i)) as L2 by (unfold c2; now rewrite app_length, map_length).
      rewrite <- L2. rewrite IH; auto.
      * unfold c2, c1. rewrite <- !app_assoc. cbn [app]. match goal with |- context [Z.to_nat (h - 1) - length ?x] => replace (Z.to_nat (h - 1) - length x) with (n - length (item_lines i)) by (rewrite app_length; cbn [length]; rewrite map_length; unfold n; lia) end. reflexivity.
      * rewrite L2. unfold n in *. lia.
      * intros k Hk. specialize (K (S k)). cbn [length firstn] in K. specialize (K ltac:(lia)). rewrite rows_cons in K. cbn [length] in K. rewrite app_length, map_length in K. lia.
Qed.
Lemma row_no_cr w r : (forall i, r = Title i -> printable (wi_buffer i)) -> (forall l, r = Line l -> displayable w (plain_text l)) -> no_cr (row_text w r).
Proof.
  intros Ht Hl. destruct r as [i|l]; cbn [row_text]; [apply no_cr_print, title_printable; auto|]. specialize (Hl l eq_refl). pose proof (render_no_cr sy Sane l (displayable_soft _ _ Hl)) as N. unfold line_text. destruct (w <? _)%Z; auto. rewrite <- (firstn_skipn (Z.to_nat w) (render _ l)) in N. now apply no_cr_app in N.
Qed.
Lemma rows_drawable w v : Forall (drawable w) v -> Forall (fun r => row_shows w r (row_text w r) /\ no_cr (row_text w r)) (view_rows v).
Proof.
  induction 1 as [|i v [P T] F IH]; [constructor|]. rewrite rows_cons. constructor.
  - split; [apply title_shows; [lia|apply P]|]. apply row_no_cr; intros x X; inversion X; subst. apply P.
  - apply Forall_app. split; auto. apply Forall_map. pose proof (item_printable w i P) as Q. revert Q. apply Forall_impl. intros l L. split; [apply line_shows; [lia|auto]|]. apply row_no_cr; intros x X; inversion X; subst; auto.
Qed.
Lemma status_ok w s : (0 <= w < 65536)%Z -> printable (plain_text (echo_of s)) -> Forall (fun i => printable (plain_text (st_text i))) (cs_status s) ->
  (Z.of_nat (length (plain_text (echo_of s)) + length (status_of s)) < w)%Z ->
  exists n, status_text sy checked w s = Ok (render (format_text sy) (echo_of s) ++ repeat 32 n ++ status_of s) /\ no_cr (render (format_text sy) (echo_of s) ++ repeat 32 n ++ status_of s) /\
    Z.of_nat (length (visible (render (format_text sy) (echo_of s) ++ repeat 32 n ++ status_of s))) = w.
Proof.
  intros W P Q H. exists (Z.to_nat (w - Z.of_nat (length (plain_text (echo_of s))) - Z.of_nat (length (status_of s)))).
  assert (Forall printable (map (fun i => plain_text (st_text i)) (cs_status s))) as FQ by (now apply Forall_map).
  split; [|split].
  - unfold status_text. cbv zeta. change (match cs_echo s with Some t => t | None => [] end) with (echo_of s). change (status_line s) with (status_of s). rewrite (proj1 (proj2 Sane) _ P).
    rewrite (proj2 (Z.leb_gt _ _)) by lia. rewrite (proj2 (Z.leb_gt _ _)) by lia. unfold usize_sub. rewrite (proj2 (Z.leb_le _ _)) by lia. cbn [bind]. rewrite (proj2 (Z.leb_le _ _)) by lia. cbn [bind].
    unfold repeated. rewrite (proj2 (Z.ltb_lt _ _)) by lia. reflexivity.
  - apply no_cr_app. split; [apply clean_no_cr, render_clean; auto|]. apply no_cr_app. split; [apply no_cr_print, printable_repeat; lia|]. now apply no_cr_joined.
  - rewrite render_visible, visible_print by (auto; apply printable_repeat; lia). rewrite !app_length, repeat_length.
    assert (forall l, Forall printable l -> length (visible (joined [194; 183] l)) = length (joined [194; 183] l)) as J.
    { induction 1 as [|x l X F IH]; [reflexivity|]. destruct l as [|y l]; [cbn [joined]; now rewrite visible_all|]. change (joined [194; 183] (x :: y :: l)) with (x ++ [194; 183] ++ joined [194; 183] (y :: l)). rewrite visible_print by auto. rewrite !app_length. change (visible ([194; 183] ++ joined [194; 183] (y :: l))) with (194 :: 183 :: visible (joined [194; 183] (y :: l))). cbn [length]. rewrite IH. reflexivity. }
    unfold status_of at 2. rewrite J by auto. fold (status_of s). lia.
Qed.
(** Printable text, names and status that leave room, and no buffer starting exactly on the last row: the view is drawn, it fits,
    the first rows of the view are on the screen from the top, headers being exactly as wide as the terminal, and the status is
    on the last row.  Missing from the full property: the cases refuted here. *)
Theorem C56_view_partial : forall w h s, (2 <= h < 65536)%Z -> cs_view s <> [] -> Forall (fun i => printable_item w i /\ (Z.of_nat (title_length i) <= w < 65536)%Z) (cs_view s) ->
  (forall k, k < length (cs_view s) -> (Z.of_nat (length (view_rows (firstn k (cs_view s)))) <> h - 1)%Z) ->
  printable (plain_text (echo_of s)) -> Forall (fun i => printable (plain_text (st_text i))) (cs_status s) ->
  (Z.of_nat (length (plain_text (echo_of s)) + length (status_of s)) < w)%Z ->
  exists cs rows status, draw_view sy checked (w, h) s = Ok cs /\ fits w h cs /\
    sc_painted (shown_screen h cs) = numbered 0 0 false rows ++ [(0, h - 1, true, status)]%Z /\
    Forall2 (row_shows w) (firstn (Z.to_nat (h - 1)) (view_rows (cs_view s))) rows.
Proof.
  intros w h s Hh V F K P Q St. assert (0 <= w < 65536)%Z as W. { destruct (cs_view s) as [|i v]; [congruence|]. inversion F as [|? ? [_ T] _]; subst. lia. }
  pose proof (draw_items_ok w h ltac:(lia) (cs_view s) [] F ltac:(cbn; lia) K) as D. cbn [length Z.of_nat app] in D. rewrite Nat.sub_0_r in D.
  destruct (status_ok w s W P Q St) as (n & E & N & Vl). set (st := render (format_text sy) (echo_of s) ++ repeat 32 n ++ status_of s) in *.
  set (rows := map (row_text w) (firstn (Z.to_nat (h - 1)) (view_rows (cs_view s)))) in *.
  pose proof (rows_drawable w _ F) as RD. assert (Forall (fun r => row_shows w r (row_text w r) /\ no_cr (row_text w r)) (firstn (Z.to_nat (h - 1)) (view_rows (cs_view s)))) as RD'. { rewrite <- (firstn_skipn (Z.to_nat (h - 1)) (view_rows (cs_view s))) in RD. now apply Forall_app in RD. }
  assert (Forall no_cr rows) as NR. { unfold rows. apply Forall_map. revert RD'. apply Forall_impl. tauto. }
  assert (length rows <= Z.to_nat (h - 1)) as LR by (unfold rows; rewrite map_length, firstn_length; lia).
  assert (exists r0 rr, rows = r0 :: rr) as (r0 & rr & ER). { unfold rows. destruct (cs_view s) as [|i v]; [congruence|]. rewrite rows_cons. destruct (Z.to_nat (h - 1)) eqn:Z0; [lia|]. cbn [firstn map]. eauto. }
  exists ([TClear; TMove 0 0; TPrint false (joined [13; 10] rows)] ++ [TMove 0 h; TPrint true st]), rows, st.
  assert (shown_screen h ([TClear; TMove 0 0; TPrint false (joined [13; 10] rows)] ++ [TMove 0 h; TPrint true st]) =
    mkScr (Z.of_nat (columns st)) (h - 1) (numbered 0 0 false rows ++ [(0, h - 1, true, st)]%Z) 0) as Sh.
  { unfold shown_screen. cbn [app fold_left]. cbn [show sc_x sc_y sc_painted sc_scrolls]. rewrite split_joined by (auto; rewrite ER; discriminate). rewrite (split_no_cr st N). rewrite ER. rewrite (Z.min_l 0 (h - 1)) by lia.
    rewrite ER in LR. cbn [length] in LR. destruct (rows_shown h false rr (paint false r0 (mkScr 0 0 [] 0))) as [x X]; [cbn [paint sc_y]; lia|].
    cbn [fold_left]. rewrite X. cbn [paint sc_x sc_y sc_painted sc_scrolls fold_left].  cbn [sc_x sc_y sc_painted sc_scrolls]. rewrite (Z.min_r h (h - 1)) by lia. cbn [numbered app]. unfold paint. cbn [sc_x sc_y sc_painted sc_scrolls app]. reflexivity. }
  split; [|split; [|split]].
  - unfold draw_view, draw_status. cbn [fst snd]. rewrite D. cbn [bind]. rewrite E. reflexivity.
  - unfold fits. rewrite Sh. cbn [sc_scrolls sc_painted]. split; [reflexivity|]. apply Forall_app. split.
    + assert (Forall (fun t => (Z.of_nat (columns t) <= w)%Z) rows) as CR. { unfold rows. apply Forall_map. revert RD'. apply Forall_impl. intros r [R _]. destruct r; cbn [row_shows] in R; destruct R as [R1 R2]; [rewrite R2; lia|exact R1]. }
      assert (forall l y, Forall (fun t => (Z.of_nat (columns t) <= w)%Z) l -> (0 <= y)%Z -> (y + Z.of_nat (length l) <= h)%Z -> Forall (fun '(x, y, _, t) => 0 <= x /\ 0 <= y < h /\ x + Z.of_nat (columns t) <= w)%Z (numbered 0 y false l)) as NN.
      { induction l as [|t l IH]; intros y Fl Y L; cbn [numbered]; [constructor|]. inversion Fl; subst. cbn [length] in L. constructor; [lia|]. apply IH; auto; lia. }
      apply NN; auto; lia.
    + constructor; [|constructor]. unfold columns. pose proof (chars_length (visible st)). lia.
  - rewrite Sh. reflexivity.
  - unfold rows. clear - RD'. induction RD' as [|r l [R _] _ IH]; cbn [map]; constructor; auto.
Qed.

(** ** a buffer starting on the last row *)
Definition rows_of (name : text) (n : nat) : witem := mkWI name 1 1 [mkWL (repeat [] n) 1].
Lemma drawable_rows w name n : printable name -> (8 + Z.of_nat (length name) <= w < 65536)%Z -> drawable w (rows_of name n).
Proof.
  intros P W. split; [split; [exact P|]|]. - constructor; [|constructor]. cbn [wl_lines]. apply Forall_forall. intros l L. apply repeat_spec in L. subst. left. constructor.
  - unfold title_length, rows_of. cbn [wi_buffer wi_start wi_end]. change (length (dec 1)) with 1. lia.
Qed.
(** On every terminal of at least two rows there is a view of two buffers, with short names and no text, whose drawing scrolls the
    screen: once the first buffer fills all the rows but the last, nothing stops the second. *)
Theorem C56_rows_refuted : forall w h n, (2 <= h < 30000)%Z -> (9 <= w < 65536)%Z -> (0 < Z.of_nat n < 30000)%Z ->
  exists cs, draw_view sy checked (w, h) (mkCS [] [] None [] [rows_of (str "a") (Z.to_nat (h - 2)); rows_of (str "b") n] None) = Ok cs /\ n <= sc_scrolls (shown_screen h cs).
Proof.
  intros w h n Hh W Hn. assert (printable (str "a") /\ printable (str "b")) as [Pa Pb] by (split; apply printable_b; reflexivity).
  destruct (drawable_rows w (str "a") (Z.to_nat (h - 2)) Pa ltac:(cbn; lia)) as [Ia Ta]. destruct (drawable_rows w (str "b") n Pb ltac:(cbn; lia)) as [Ib Tb].
  set (A := rows_of (str "a") (Z.to_nat (h - 2))) in *. set (B := rows_of (str "b") n) in *. set (s := mkCS [] [] None [] [A; B] None).
  assert (item_lines A = repeat [] (Z.to_nat (h - 2)) /\ item_lines B = repeat [] n) as [LA LB] by (split; unfold item_lines, A, B, rows_of; cbn [wi_lenses map wl_lines concat]; apply app_nil_r).
  set (ta := title_text A (Z.to_nat w - title_length A)). set (tb := title_text B (Z.to_nat w - title_length B)).
  (* the first buffer *)
  pose proof (draw_lines_ok w h ltac:(lia) ltac:(lia) (item_lines A) [ta] (item_printable w A Ia) ltac:(cbn; lia)) as DA. cbn [length app] in DA. assert (length (item_lines A) = Z.to_nat (h - 2)) as NA by (rewrite LA; apply repeat_length). cbv zeta in DA. rewrite NA in DA.
  replace (Z.to_nat (h - 1) - 1 <? Z.to_nat (h - 2)) with false in DA by (symmetry; apply Nat.ltb_ge; lia). rewrite firstn_all2 in DA by (rewrite LA, repeat_length; lia). set (c1 := ta :: map (line_text w) (item_lines A)) in *.
  assert (Z.of_nat (length c1) = h - 1)%Z as L1 by (unfold c1; cbn [length]; rewrite map_length, LA, repeat_length; lia).
  (* the second is not stopped *)
  assert (forall lines content i, Forall (fun l => displayable w (plain_text l)) lines -> (h <= i)%Z -> (i + Z.of_nat (length lines) < 65536)%Z -> draw_lines sy checked w h lines content i = Ok (false, content ++ map (line_text w) lines, i + Z.of_nat (length lines))%Z) as Go.
  { induction lines as [|l lines IH]; intros content i Fl Hi Li; cbn [draw_lines length map]; [rewrite app_nil_r; do 2 f_equal; lia|]. inversion Fl; subst. unfold u16_sub. rewrite (proj2 (Z.leb_le _ _)) by lia. cbn [bind]. rewrite (proj2 (Z.eqb_neq _ _)) by lia.
    rewrite line_view_ok by (auto; lia). cbn [bind length] in *. unfold u16_add. rewrite (proj2 (Z.ltb_lt _ _)) by lia. cbn [bind]. rewrite IH by (auto; lia). rewrite <- app_assoc. cbn [app]. do 2 f_equal. lia. }
  set (rows := c1 ++ tb :: map (line_text w) (item_lines B)).
  assert (draw_items sy checked w h [A; B] [] 0 = Ok rows) as D.
  { cbn [draw_items]. rewrite (header_ok w A Ta). cbn [bind]. unfold u16_add at 1. rewrite (proj2 (Z.ltb_lt _ _)) by lia. cbn [bind]. change (0 + 1)%Z with (Z.of_nat 1). change ([] ++ [title_text A (Z.to_nat w - title_length A)]) with [ta]. rewrite DA. cbn [bind].
    rewrite (header_ok w B Tb). cbn [bind]. fold tb. assert (Z.of_nat (1 + length (item_lines A)) = h - 1)%Z as E1 by (rewrite LA, repeat_length; lia). rewrite E1. unfold u16_add. rewrite (proj2 (Z.ltb_lt _ _)) by lia. cbn [bind].
    rewrite Go; [|now apply item_printable|lia|rewrite LB, repeat_length; lia]. cbn [bind]. unfold rows. rewrite <- app_assoc. reflexivity. }
  assert (printable (plain_text (echo_of s))) as Pe by constructor. assert (Forall (fun i => printable (plain_text (st_text i))) (cs_status s)) as Ps by constructor.
  destruct (status_ok w s ltac:(lia) Pe Ps ltac:(cbn; lia)) as (m & E & _).
  exists ([TClear; TMove 0 0; TPrint false (joined [13; 10] rows)] ++ [TMove 0 h; TPrint true (render (format_text sy) (echo_of s) ++ repeat 32 m ++ status_of s)]).
  split; [unfold draw_view, draw_status; cbn [fst snd]; unfold s at 1; cbn [cs_view]; rewrite D; cbn [bind]; rewrite E; reflexivity|].
  unfold shown_screen. rewrite fold_left_app. eapply Nat.le_trans; [|apply shown_more]. cbn [fold_left]. cbn [show sc_x sc_y sc_painted sc_scrolls].
  assert (Forall no_cr rows) as NR.
  { pose proof (rows_drawable w [A; B] (Forall_cons _ (conj Ia Ta) (Forall_cons _ (conj Ib Tb) (Forall_nil _)))) as R. rewrite !rows_cons in R. unfold rows, c1. assert (forall l, Forall (fun r => row_shows w r (row_text w r) /\ no_cr (row_text w r)) (map Line l) -> Forall no_cr (map (line_text w) l)) as RL.
    { induction l as [|x l IH]; intro Fx; [constructor|]. inversion Fx as [|? ? [_ F1] F2]; subst. constructor; auto. }
    inversion R as [|? ? [_ R1] R2]; subst. apply Forall_app in R2. destruct R2 as [R2 R3]. inversion R3 as [|? ? [_ R4] R5]; subst. rewrite app_nil_r in R5. cbn [app]. constructor; [exact R1|]. apply Forall_app. split; [now apply RL|]. constructor; [exact R4|]. now apply RL. }
  rewrite split_joined; [|unfold rows, c1; discriminate|exact NR]. unfold rows, c1. cbn [app]. set (rest := map (line_text w) (item_lines A) ++ tb :: map (line_text w) (item_lines B)). rewrite (Z.min_l 0 (h - 1)) by lia.
  pose proof (rows_scroll h false rest (paint false ta (mkScr 0 0 [] 0)) ltac:(cbn [paint sc_y]; lia)) as Sc. cbn [paint sc_y sc_scrolls] in Sc |- *. unfold rest in Sc at 2. rewrite app_length in Sc. cbn [length] in Sc. rewrite !map_length, LA, LB, !repeat_length in Sc.
  unfold paint in *. cbn [sc_y sc_scrolls sc_x sc_painted] in *. lia.
Qed.
End Tui.
