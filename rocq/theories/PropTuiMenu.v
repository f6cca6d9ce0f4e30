(** C56: menus, hints, messages and characters. *)
From Coq Require Import String List Arith Lia ZArith Bool.
From Verif Require Import Base ListFacts Maps Utf8 Utf8Facts Fmt Chars LineSpec DiffApply Json Proto Payload Conn PropSession Tui TuiSpec TuiFacts PropTui.
Import ListNotations.

Section Tui.
Variable sy : styles.
Variable checked : bool.
Hypothesis Sane : sane sy.

(** ** menus *)
Definition entry_text (w : Z) (e : entry) : text :=
  let r := render (format_match sy) (en_text e) in if (w <? Z.of_nat (length r))%Z then firstn (Z.to_nat w) r else r.
Lemma entry_soft w e : entry_displayable sy w (en_text e) -> soft (plain_text (en_text e)).
Proof. intros [P|[L _]]; [now apply printable_soft|now apply legible_soft]. Qed.
Lemma entry_shown w e : (0 <= w)%Z -> entry_displayable sy w (en_text e) -> entry_shows w e (entry_text w e) /\ no_cr (entry_text w e).
Proof.
  intros W D. pose proof (entry_soft _ _ D) as P. pose proof (render_match_no_cr sy Sane _ P) as N. unfold entry_displayable in D. unfold entry_text. cbv zeta. set (r := render (format_match sy) (en_text e)) in *.
  assert (visible r = plain_text (en_text e)) as V. { rewrite <- (app_nil_r r). unfold r. rewrite render_match_visible by auto. apply app_nil_r. }
  assert (Forall (fun f => fr_face f <> FMatch) (en_text e) -> r = plain_text (en_text e)) as Pl. { unfold r, render, plain_text. intro F. f_equal. apply map_ext_in. intros f Hf. rewrite Forall_forall in F. specialize (F f Hf). unfold format_match. destruct (fr_face f); congruence. }
  destruct (Z.ltb_spec w (Z.of_nat (length r))); (split; [unfold entry_shows|]); auto.
  - split; [pose proof (columns_length (firstn (Z.to_nat w) r)) as C; rewrite firstn_length in C; lia|]. split; [destruct (visible_cut r 0 (Z.to_nat w)) as [k K]; exists k; unfold visible; rewrite K; fold (visible r); now rewrite V|].
    intro F. rewrite (Pl F). destruct D as [D|[_ D]]; [|lia]. apply visible_all. now apply printable_firstn.
  - rewrite <- (firstn_skipn (Z.to_nat w) r) in N. now apply no_cr_app in N.
  - split; [pose proof (columns_length r); lia|]. split; [exists (length (plain_text (en_text e))); now rewrite V, firstn_all|]. intro F. rewrite V, <- (Pl F). symmetry. apply firstn_all2. lia.
Qed.
Fixpoint entry_cmds (w : Z) (selected i : nat) (es : list entry) : list tcmd :=
  match es with [] => [] | e :: r => [TMove 0 (1 + Z.of_nat i); TPrint (i =? selected) (entry_text w e); TClearLine] ++ entry_cmds w selected (S i) r end.
Lemma menu_items_ok w n sel : (0 <= w)%Z -> (Z.of_nat n < 65536)%Z -> forall es i, i <= n -> Forall (fun e => entry_displayable sy w (en_text e)) es ->
  menu_items sy checked w (Z.of_nat n) sel i es = Ok (entry_cmds w sel i (firstn (n - i) es)).
Proof.
  intros W N. induction es as [|e es IH]; intros i Hi F; cbn [menu_items]; [rewrite firstn_nil; reflexivity|]. inversion F as [|? ? F1 F2]; subst.
  destruct (Z.eqb_spec (Z.of_nat i) (Z.of_nat n)); [replace (n - i) with 0 by lia; reflexivity|]. destruct (n - i) as [|m] eqn:M; [lia|]. cbn [firstn entry_cmds]. unfold menu_item. cbv zeta.
  assert ((if (w <? Z.of_nat (length (render (format_match sy) (en_text e))))%Z then str_prefix (render (format_match sy) (en_text e)) w else Ok (render (format_match sy) (en_text e))) = Ok (entry_text w e)) as E.
  { unfold entry_text. cbv zeta. destruct (Z.ltb_spec w (Z.of_nat (length (render (format_match sy) (en_text e))))); [|reflexivity]. destruct F1 as [F1|[_ F1]]; [|lia]. apply prefix_ascii; [apply clean_ascii, render_match_clean; auto|lia]. }
  rewrite E. cbn [bind]. unfold u16_add, as_u16. rewrite Z.mod_small by lia. rewrite (proj2 (Z.ltb_lt _ _)) by lia. cbn [bind]. rewrite IH by (auto; lia). replace (n - S i) with m by lia. reflexivity.
Qed.
Fixpoint entries_at (w : Z) (selected i : nat) (es : list entry) : list (Z * Z * bool * text) :=
  match es with [] => [] | e :: r => (0, 1 + Z.of_nat i, (i =? selected)%nat, entry_text w e)%Z :: entries_at w selected (S i) r end.
Lemma entries_painted w h sel es : forall i s, (Z.of_nat i + Z.of_nat (length es) < h)%Z -> Forall (fun e => no_cr (entry_text w e)) es ->
  sc_painted (fold_left (show h) (entry_cmds w sel i es) s) = sc_painted s ++ entries_at w sel i es /\ sc_scrolls (fold_left (show h) (entry_cmds w sel i es) s) = sc_scrolls s.
Proof.
  induction es as [|e es IH]; intros i s H F; cbn [entry_cmds entries_at fold_left app]; [rewrite app_nil_r; auto|]. inversion F as [|? ? F1 F2]; subst. cbn [length] in H.
  cbn [show sc_painted sc_scrolls]. rewrite (split_no_cr _ F1). cbn [fold_left]. rewrite Z.min_l by lia. match goal with |- context [fold_left (show h) _ ?s'] => destruct (IH (S i) s' ltac:(lia) F2) as [A B] end. rewrite A, B. cbn [paint sc_painted sc_scrolls sc_x sc_y]. rewrite <- app_assoc. auto.
Qed.
(** Legible text and a title that leaves room: the menu is drawn and fits; the title fills the first row; the first entries are
    below it, one a row, each cut to the width, and the selected one alone is reversed. *)
Theorem C56_menu_partial : forall w h m, (1 <= h < 65536)%Z -> (Z.of_nat (length (cm_title m) + 1 + length (cm_search m)) <= w < 65536)%Z ->
  legible (cm_title m) -> legible (cm_search m) -> Forall (fun e => entry_displayable sy w (en_text e)) (cm_entries m) ->
  exists cs pad rows, draw_menu sy checked (w, h) m = Ok cs /\ fits w h cs /\
    sc_painted (shown_screen h cs) = (0%Z, 0%Z, true, cm_title m ++ [58] ++ cm_search m ++ repeat 32 pad) :: map (fun '(i, t) => (0, 1 + Z.of_nat i, (i =? cm_selected m)%nat, t)%Z) rows /\
    length (cm_title m ++ [58] ++ cm_search m ++ repeat 32 pad) = Z.to_nat w /\
    map fst rows = seq 0 (length (firstn (Z.to_nat (h - 1)) (cm_entries m))) /\
    Forall2 (entry_shows w) (firstn (Z.to_nat (h - 1)) (cm_entries m)) (map snd rows).
Proof.
  intros w h m Hh T Pt Ps Pe. set (n := Z.to_nat (h - 1)). set (es := firstn n (cm_entries m)). set (pad := Z.to_nat w - (length (cm_title m) + 1 + length (cm_search m))).
  assert (Forall (fun e => entry_displayable sy w (en_text e)) es) as Pe'. { unfold es. rewrite <- (firstn_skipn n (cm_entries m)) in Pe. now apply Forall_app in Pe. }
  assert (length es <= n) as Ln by (unfold es; rewrite firstn_length; lia).
  set (title := cm_title m ++ [58] ++ cm_search m ++ repeat 32 pad). assert (legible title) as P. { unfold title. repeat (apply legible_app); auto; apply printable_legible; [apply printable_b; reflexivity|apply printable_repeat; lia]. }
  assert (length title = Z.to_nat w) as Lt by (unfold title; rewrite !app_length, repeat_length; unfold pad; cbn [length]; lia).
  set (cs := [TClear; TMove 0 0; TPrint true title] ++ entry_cmds w (cm_selected m) 0 es). set (rows := combine (seq 0 (length es)) (map (entry_text w) es)).
  assert (Forall (fun e => no_cr (entry_text w e)) es) as Ne. { revert Pe'. apply Forall_impl. intros e Q. apply entry_shown; auto. lia. }
  assert (forall l i, entries_at w (cm_selected m) i l = map (fun '(i, t) => (0, 1 + Z.of_nat i, (i =? cm_selected m)%nat, t)%Z) (combine (seq i (length l)) (map (entry_text w) l))) as EA.
  { induction l as [|e l IH]; intro i; [reflexivity|]. cbn [entries_at length seq map combine]. now rewrite IH. }
  assert (sc_painted (shown_screen h cs) = (0, 0, true, title)%Z :: map (fun '(i, t) => (0, 1 + Z.of_nat i, (i =? cm_selected m)%nat, t)%Z) rows /\ sc_scrolls (shown_screen h cs) = 0) as [Sp Ss].
  { unfold shown_screen, cs. rewrite fold_left_app. match goal with |- context [fold_left (show h) (entry_cmds _ _ _ _) ?s'] => destruct (entries_painted w h (cm_selected m) es 0 s' ltac:(lia) Ne) as [A B] end. rewrite A, B. cbn [fold_left]. cbn [show sc_painted sc_scrolls]. rewrite (split_no_cr title) by now apply no_cr_soft, legible_soft. cbn [fold_left paint sc_painted sc_scrolls sc_x sc_y app]. rewrite Z.min_l by lia. rewrite EA. split; reflexivity. }
  exists cs, pad, rows. refine (conj _ (conj _ (conj Sp (conj Lt (conj _ _))))).
  - unfold draw_menu. cbv zeta. cbn [fst snd]. unfold menu_title. rewrite !app_length. cbn [length]. unfold usize_sub. rewrite (proj2 (Z.leb_le _ _)) by lia. cbn [bind]. unfold repeated. rewrite (proj2 (Z.ltb_lt _ _)) by lia. cbn [bind]. unfold u16_sub. rewrite (proj2 (Z.leb_le _ _)) by lia. cbn [bind].
    replace (h - 1)%Z with (Z.of_nat n) by (unfold n; lia). rewrite menu_items_ok by (auto; lia). cbn [bind]. rewrite Nat.sub_0_r. fold es. unfold cs, title. rewrite <- !app_assoc. match goal with |- context [repeat 32 (Z.to_nat ?x)] => replace (Z.to_nat x) with pad by (unfold pad; lia) end. reflexivity.
  - split; [exact Ss|]. rewrite Sp. constructor; [pose proof (columns_length title); lia|]. unfold rows. assert (forall l i, (Z.of_nat i + Z.of_nat (length l) < h)%Z -> Forall (fun e => entry_displayable sy w (en_text e)) l -> Forall (fun '(x, y, _, t) => 0 <= x /\ 0 <= y < h /\ x + Z.of_nat (columns t) <= w)%Z (map (fun '(i, t) => (0, 1 + Z.of_nat i, (i =? cm_selected m)%nat, t)%Z) (combine (seq i (length l)) (map (entry_text w) l)))) as Fr.
    { induction l as [|e l IH]; intros i Hi Fl; cbn [length seq map combine]; [constructor|]. inversion Fl as [|? ? F1 F2]; subst. cbn [length] in Hi. constructor; [|apply IH; auto; lia]. destruct (entry_shown w e ltac:(lia) F1) as [[C _] _]. lia. }
    apply Fr; auto. lia.
  - unfold rows. rewrite <- (map_length (entry_text w) es). clear. generalize (map (entry_text w) es), 0. induction l as [|t l IH]; intro i; cbn [length seq combine map]; [reflexivity|]. now rewrite IH.
  - assert (map snd rows = map (entry_text w) es) as ->. { unfold rows. rewrite <- (map_length (entry_text w) es). clear. generalize (map (entry_text w) es), 0. induction l as [|t l IH]; intro i; cbn [length seq combine map]; [reflexivity|]. now rewrite IH. }
    clear - Pe' Sane T. induction Pe' as [|e l E _ IH]; cbn [map]; constructor; auto. apply entry_shown; auto. lia.
Qed.
(** A title that does not fit panics, in both profiles. *)
Theorem C56_menu_refuted : forall w h m, (0 <= w < 65536)%Z -> (w < Z.of_nat (length (cm_title m) + 1 + length (cm_search m)))%Z -> real (length (cm_title m) + 1 + length (cm_search m)) ->
  exists why, draw_menu sy checked (w, h) m = Panic why.
Proof.
  intros w h m W H R. unfold draw_menu, menu_title, real in *. cbv zeta. cbn [fst]. rewrite !app_length. cbn [length]. unfold usize_sub. rewrite (proj2 (Z.leb_gt _ _)) by lia. destruct checked; cbn [bind]; [eauto|]. unfold repeated. rewrite (proj2 (Z.ltb_ge _ _)) by lia. cbn [bind]. eauto.
Qed.
(** The menu does not scroll: a selected entry below the last row is not on the screen. *)
Theorem C56_selected_refuted : forall w h m cs, (1 <= h < 65536)%Z -> (0 <= w)%Z -> Forall (fun e => entry_displayable sy w (en_text e)) (cm_entries m) -> legible (cm_title m) -> legible (cm_search m) ->
  (h - 1 <= Z.of_nat (cm_selected m))%Z -> draw_menu sy checked (w, h) m = Ok cs ->
  forall x y t, In (x, y, true, t) (sc_painted (shown_screen h cs)) -> y = 0%Z.
Proof.
  intros w h m cs Hh W Pe Pt Ps Se E x y t I. unfold draw_menu in E. cbv zeta in E. cbn [fst snd] in E. bnd E. bnd E. bnd E. bnd E. injection E as <-.
  unfold u16_sub in E2. rewrite (proj2 (Z.leb_le _ _)) in E2 by lia. injection E2 as <-. set (n := Z.to_nat (h - 1)) in *. replace (h - 1)%Z with (Z.of_nat n) in E3 by (unfold n; lia). rewrite menu_items_ok in E3 by (auto; lia). injection E3 as <-. rewrite Nat.sub_0_r in I. set (es := firstn n (cm_entries m)) in *.
  assert (length es <= n) as Ln by (unfold es; rewrite firstn_length; lia).
  assert (Forall (fun e => no_cr (entry_text w e)) es) as Ne. { unfold es. rewrite <- (firstn_skipn n (cm_entries m)) in Pe. apply Forall_app in Pe. destruct Pe as [Pe _]. revert Pe. apply Forall_impl. intros e Q. apply entry_shown; auto. }
  unfold repeated in E1. destruct (_ <? _)%Z; [|discriminate]. injection E1 as <-.
  unfold shown_screen in I. cbn [app fold_left] in I. match type of I with context [fold_left (show h) (entry_cmds _ _ _ _) ?s'] => destruct (entries_painted w h (cm_selected m) es 0 s' ltac:(lia) Ne) as [A _]; rewrite A in I end.
  cbn [fold_left] in I. cbn [show sc_painted] in I. rewrite split_no_cr in I; [|apply no_cr_soft, legible_soft; unfold menu_title; repeat (apply legible_app); auto; apply printable_legible; [apply printable_b; reflexivity|apply printable_repeat; lia]].
  cbn [fold_left paint sc_painted sc_x sc_y app] in I. rewrite Z.min_l in I by lia. destruct I as [I|I]; [injection I; auto|]. exfalso.
  assert (forall l i, i + length l <= n -> In (x, y, true, t) (entries_at w (cm_selected m) i l) -> False) as No; [|apply (No es 0); auto; lia].
  induction l as [|e l IH]; intros i Hi X; [destruct X|]. destruct X as [X|X]; cbn [length] in Hi; [|apply (IH (S i)); auto; lia]. injection X as _ _ X _. apply Nat.eqb_eq in X. lia.
Qed.

(** ** hints *)
Fixpoint hint_cmds (x y : Z) (l : list (list fragment)) : list tcmd := match l with [] => [] | a :: r => [TMove x y; TPrint true (render (format_text sy) a)] ++ hint_cmds x (y + 1) r end.
Fixpoint hint_at (x y : Z) (l : list (list fragment)) : list (Z * Z * bool * text) := match l with [] => [] | a :: r => (x, y, true, render (format_text sy) a) :: hint_at x (y + 1) r end.
(** A hint that fits is in the bottom right corner. *)
Theorem C56_hint_partial : forall w h first rest, let lines := first :: rest in (0 <= w < 65536)%Z -> (0 <= h < 65536)%Z ->
  (Z.of_nat (columns (plain_text first)) <= w)%Z -> (Z.of_nat (length lines) <= h)%Z -> Forall (fun l => legible (plain_text l) /\ columns (plain_text l) <= columns (plain_text first)) lines ->
  exists cs, draw_hint sy checked (w, h) lines = Ok cs /\ fits w h cs /\
    map (fun '(x, y, r, t) => (x, y, r, visible t)) (sc_painted (shown_screen h cs)) =
    map (fun '(i, l) => (w - Z.of_nat (columns (plain_text first)), h - Z.of_nat (length lines) + Z.of_nat i, true, plain_text l)%Z) (combine (seq 0 (length lines)) lines).
Proof.
  intros w h first rest lines W H Wf Hl F. set (x := (w - Z.of_nat (columns (plain_text first)))%Z).
  assert (forall l y, (0 <= y)%Z -> (y + Z.of_nat (length l) <= h)%Z -> hint_lines sy checked h x y l = Ok (hint_cmds x y l)) as HL.
  { induction l as [|a l IH]; intros y Y L; cbn [hint_lines hint_cmds length] in *; [reflexivity|]. unfold u16_add. rewrite (proj2 (Z.ltb_lt _ _)) by lia. cbn [bind]. destruct (Z.eqb_spec (y + 1) h); [|rewrite IH by lia; reflexivity]. destruct l; [|cbn [length] in L; lia]. reflexivity. }
  assert (forall l s y, (0 <= y)%Z -> (y + Z.of_nat (length l) <= h)%Z -> Forall (fun l => legible (plain_text l) /\ columns (plain_text l) <= columns (plain_text first)) l -> sc_painted (fold_left (show h) (hint_cmds x y l) s) = sc_painted s ++ hint_at x y l /\ sc_scrolls (fold_left (show h) (hint_cmds x y l) s) = sc_scrolls s) as HP.
  { induction l as [|a l IH]; intros s y Y L Fl; cbn [hint_cmds hint_at fold_left app]; [rewrite app_nil_r; auto|]. inversion Fl as [|? ? [F1 _] F2]; subst. cbn [length] in L. cbn [show sc_painted sc_scrolls]. rewrite split_no_cr by (apply render_no_cr; auto; now apply legible_soft). cbn [fold_left]. rewrite Z.min_l by lia.
    match goal with |- context [fold_left (show h) _ ?s'] => destruct (IH s' (y + 1)%Z ltac:(lia) ltac:(lia) F2) as [A B] end. rewrite A, B. cbn [paint sc_painted sc_scrolls sc_x sc_y]. rewrite <- app_assoc. auto. }
  exists (hint_cmds x (h - Z.of_nat (length lines)) lines). inversion F as [|? ? [F1 _] F2]; subst. split; [|split].
  - unfold draw_hint. unfold lines at 1. cbn [index nth_error unwrap bind fst snd]. unfold index. cbn [nth_error unwrap bind]. rewrite <- (columns_soft _ (legible_soft _ F1)). unfold u16_sub, as_u16. rewrite !Z.mod_small by lia. rewrite (proj2 (Z.leb_le _ _)) by lia. cbn [bind]. rewrite (proj2 (Z.leb_le _ _)) by lia. cbn [bind]. apply HL; lia.
  - unfold fits, shown_screen. destruct (HP lines (mkScr 0 0 [] 0) (h - Z.of_nat (length lines))%Z ltac:(lia) ltac:(lia) F) as [A B]. rewrite A, B. cbn [sc_painted sc_scrolls app]. split; [reflexivity|].
    assert (forall l y, (0 <= y)%Z -> (y + Z.of_nat (length l) <= h)%Z -> Forall (fun l => legible (plain_text l) /\ columns (plain_text l) <= columns (plain_text first)) l -> Forall (fun '(x, y, _, t) => 0 <= x /\ 0 <= y < h /\ x + Z.of_nat (columns t) <= w)%Z (hint_at x y l)) as Fr.
    { induction l as [|a l IH]; intros y Y L Fl; cbn [hint_at length] in *; [constructor|]. inversion Fl as [|? ? [G1 G2] G3]; subst. constructor; [|apply IH; auto; lia]. assert (visible (render (format_text sy) a) = plain_text a) as V by (rewrite <- (app_nil_r (render _ a)), render_soft by (auto; now apply legible_soft); apply app_nil_r). assert (columns (render (format_text sy) a) = columns (plain_text a)) as -> by (unfold columns; rewrite V, (visible_still _ (legible_soft _ G1)); reflexivity). unfold x. lia. }
    apply Fr; auto; lia.
  - unfold shown_screen. destruct (HP lines (mkScr 0 0 [] 0) (h - Z.of_nat (length lines))%Z ltac:(lia) ltac:(lia) F) as [A _]. rewrite A. cbn [sc_painted app]. fold x. set (y0 := (h - Z.of_nat (length lines))%Z).
    assert (forall l i, Forall (fun l => legible (plain_text l) /\ columns (plain_text l) <= columns (plain_text first)) l -> map (fun '(x, y, r, t) => (x, y, r, visible t)) (hint_at x (y0 + Z.of_nat i) l) = map (fun '(i, l) => (x, y0 + Z.of_nat i, true, plain_text l)%Z) (combine (seq i (length l)) l)) as Fm.
    { induction l as [|a l IH]; intros i Fl; [reflexivity|]. inversion Fl as [|? ? [G1 G2] G3]; subst. cbn [hint_at length seq combine map]. replace (y0 + Z.of_nat i + 1)%Z with (y0 + Z.of_nat (S i))%Z by lia. rewrite IH by auto. f_equal. rewrite <- (app_nil_r (render _ a)), render_soft by (auto; now apply legible_soft). now rewrite app_nil_r. }
    specialize (Fm lines 0 F). rewrite Z.add_0_r in Fm. exact Fm.
Qed.
(** An empty hint panics; in the debug profile so does one that is wider or higher than the terminal. *)
Theorem C56_hint_refuted : forall size first rest, (exists why, draw_hint sy checked size [] = Panic why) /\
  ((fst size < as_u16 (length (chars (plain_text first))))%Z \/ (snd size < as_u16 (length (first :: rest)))%Z -> checked = true -> exists why, draw_hint sy checked size (first :: rest) = Panic why).
Proof.
  intros size first rest. split; [eexists; reflexivity|]. intros H C. unfold draw_hint, index. cbn [nth_error unwrap bind]. unfold u16_sub. rewrite C. destruct (Z.leb_spec (as_u16 (length (chars (plain_text first)))) (fst size)); cbn [bind]; [|eauto]. rewrite (proj2 (Z.leb_gt _ _)) by (destruct H; lia). cbn [bind]. eauto.
Qed.

(** ** long messages *)
(** A message longer than the terminal is wide is printed whole. *)
Theorem C56_echo_refuted : forall w h s, (0 <= w)%Z -> (1 <= h)%Z -> printable (plain_text (echo_of s)) -> (w < Z.of_nat (length (plain_text (echo_of s))))%Z ->
  exists cs, draw_status sy checked (w, h) s = Ok cs /\ ~ fits w h cs.
Proof.
  intros w h s W H P L. unfold draw_status, status_text. cbv zeta. cbn [fst snd]. change (match cs_echo s with Some t => t | None => [] end) with (echo_of s). rewrite (proj1 (proj2 Sane) _ P). rewrite (proj2 (Z.leb_le _ _)) by lia. cbn [bind].
  eexists. split; [reflexivity|]. intros [_ F]. unfold shown_screen in F. cbn [fold_left] in F. cbn [show sc_painted] in F. rewrite split_no_cr in F by (apply clean_no_cr, render_clean; auto). cbn [fold_left paint sc_painted sc_x sc_y app] in F. apply Forall_inv in F. destruct F as (_ & _ & C). unfold columns in C. rewrite <- (app_nil_r (render _ (echo_of s))), render_visible in C by auto. rewrite app_nil_r, chars_ascii, map_length in C by now apply printable_ascii. lia.
Qed.

(** ** characters that are cut *)
(** A long line with a character across the last column (counted in bytes) cannot be drawn. *)
Theorem C56_char_refuted : forall w h s i r l ls, cs_view s = i :: r -> item_lines i = l :: ls -> (Z.of_nat (title_length i) <= w < 65536)%Z -> (3 <= h)%Z -> unstyled l ->
  (w < Z.of_nat (sy_len sy l))%Z -> char_boundary (plain_text l) (Z.to_nat w) = false -> exists why, draw_view sy checked (w, h) s = Panic why.
Proof.
  intros w h s i r l ls V I T H U L B. unfold draw_view. cbn [fst snd]. rewrite V. cbn [draw_items]. rewrite header_ok by auto. cbn [bind]. change (u16_add checked 0 1) with (Ok 1%Z). cbn [bind]. rewrite I. cbn [draw_lines]. unfold u16_sub. rewrite (proj2 (Z.leb_le _ _)) by lia. cbn [bind].
  rewrite (proj2 (Z.eqb_neq _ _)) by lia. unfold line_view. cbv zeta. rewrite (proj2 (Z.ltb_lt _ _)) by lia. rewrite render_unstyled by auto. unfold str_prefix, str_slice. rewrite B, andb_false_r. destruct (w <=? _)%Z; cbn [bind]; eauto.
Qed.
End Tui.

(** ** a terminal *)
Definition csi (x : text) : text := 27 :: 91 :: x ++ [109].
Definition demo_styles : styles := {| sy_error := (csi (str "38;5;9"), csi (str "39")); sy_selection := (csi (str "7"), csi (str "27")); sy_match := (csi (str "4"), csi (str "24")); sy_len := fun l => length (plain_text l) |}.
Lemma csi_escape x : forallb (fun b => (32 <=? b) && (b <? 64)) x = true -> escape (csi x).
Proof.
  intro H. split.
  - unfold csi. constructor; [lia|]. constructor; [lia|]. apply Forall_app. split; [|repeat constructor; lia]. rewrite forallb_forall in H. apply Forall_forall. intros b Hb. apply H in Hb. apply andb_prop in Hb. rewrite Nat.leb_le, Nat.ltb_lt in Hb. lia.
  - intro rest. unfold csi, visible. cbn [app visible_from Nat.eqb]. induction x as [|b x IH]; [reflexivity|]. cbn [forallb] in H. apply andb_prop in H. destruct H as [Hb Hx]. apply andb_prop in Hb. destruct Hb as [_ Hb]. apply Nat.ltb_lt in Hb. cbn [app visible_from]. destruct (Nat.leb_spec 64 b); [lia|]. cbn [andb]. now apply IH.
Qed.
Lemma demo_sane : sane demo_styles.
Proof. split; [|split; [reflexivity|intros; apply le_n]]. intros p [<-|[<-|[<-|[]]]]; split; apply csi_escape; reflexivity. Qed.
Definition demo_state : cstate :=
  mkCS (str "1") (str "s") (Some [mkFrag (str "saved") FDefault]) [mkStatus 1 [mkFrag (str "normal") FDefault]]
    [mkWI (str "*debug*") 1 1 [mkWL [[mkFrag (str "one") FDefault]] 1]; mkWI (str "notes") 1 3 [mkWL [[mkFrag (str "a long ") FDefault; mkFrag (str "l") FSelection; mkFrag (str "ine that does not fit") FDefault]; [mkFrag (str "second") FDefault]; [mkFrag (str "th" ++ [195; 169]) FDefault]] 1]] None.
Example C56_demo : exists cs rows status, draw_view demo_styles true (20, 6)%Z demo_state = Ok cs /\ fits 20 6 cs /\
  sc_painted (shown_screen 6 cs) = numbered 0 0 false rows ++ [(0, 5, true, status)]%Z /\ length rows = 5 /\ Forall2 (row_shows 20) (firstn 5 (view_rows (cs_view demo_state))) rows.
Proof.
  destruct (C56_view_partial demo_styles true demo_sane 20 6 demo_state) as (cs & rows & st & D & F & P & R).
  - lia.
  - discriminate.
  - repeat apply Forall_cons; [| |apply Forall_nil]; (split; [split; [apply printable_b; reflexivity|apply Forall_cons; [|apply Forall_nil]; cbn [wl_lines]; repeat (apply Forall_cons; [first [left; apply printable_b; reflexivity|right; split; [exists [[116]; [104]; [195; 169]]; split; [|reflexivity]|cbn; lia]; repeat constructor; cbn; unfold trail; lia]|]); apply Forall_nil]|vm_compute; split; congruence]).
  - cbn [cs_view demo_state length]. intros [|[|k]] Hk; [vm_compute; congruence|vm_compute; congruence|lia].
  - apply printable_b. reflexivity.
  - apply Forall_cons; [apply printable_b; reflexivity|apply Forall_nil].
  - vm_compute. reflexivity.
  - exists cs, rows, st. repeat (split; [assumption|]). split; [|exact R]. clear - R. change (length rows = length (firstn 5 (view_rows (cs_view demo_state)))). symmetry. change (Z.to_nat (6 - 1)) with 5 in R. induction R; cbn [length]; congruence.
Qed.
(** a menu whose search, entries and matches have accents *)
Lemma th_legible : legible (str "th" ++ [195; 169]).
Proof. exists [[116]; [104]; [195; 169]]. split; [|reflexivity]. repeat constructor; cbn; unfold trail; lia. Qed.
Definition accent_menu : cmenu := mkCM (str "open") (str "open") [195; 169]
  [mkEntry (str "1") [mkFrag (str "th") FDefault; mkFrag [195; 169] FMatch] None; mkEntry (str "2") [mkFrag (str "a long name that is cut") FDefault] None] 1.
Example C56_menu_demo : exists cs pad rows, draw_menu demo_styles true (16, 6)%Z accent_menu = Ok cs /\ fits 16 6 cs /\
  sc_painted (shown_screen 6 cs) = (0%Z, 0%Z, true, cm_title accent_menu ++ [58] ++ cm_search accent_menu ++ repeat 32 pad) :: map (fun '(i, t) => (0, 1 + Z.of_nat i, (i =? 1)%nat, t)%Z) rows /\ length rows = 2.
Proof.
  destruct (C56_menu_partial demo_styles true demo_sane 16 6 accent_menu) as (cs & pad & rows & D & F & P & _ & S & _).
  - lia.
  - vm_compute. split; congruence.
  - apply printable_legible, printable_b. reflexivity.
  - exists [[195; 169]]. split; [|reflexivity]. repeat constructor; cbn; unfold trail; lia.
  - apply Forall_cons; [right; split; [exact th_legible|vm_compute; congruence]|]. apply Forall_cons; [left; apply printable_b; reflexivity|apply Forall_nil].
  - exists cs, pad, rows. repeat (split; [assumption|]). apply (f_equal (@length nat)) in S. rewrite map_length, seq_length in S. exact S.
Qed.
Example C56_hint_demo : exists cs, draw_hint demo_styles true (10, 4)%Z [[mkFrag (str "th" ++ [195; 169]) FDefault]; [mkFrag (str "abc") FDefault]] = Ok cs /\ fits 10 4 cs /\
  map (fun '(x, y, r, t) => (x, y, r, visible t)) (sc_painted (shown_screen 4 cs)) = [(7%Z, 2%Z, true, str "th" ++ [195; 169]); (7%Z, 3%Z, true, str "abc")].
Proof.
  destruct (C56_hint_partial demo_styles true demo_sane 10 4 [mkFrag (str "th" ++ [195; 169]) FDefault] [[mkFrag (str "abc") FDefault]]) as (cs & D & F & P).
  - lia.
  - lia.
  - vm_compute. congruence.
  - cbn. lia.
  - apply Forall_cons; [split; [exact th_legible|apply le_n]|]. apply Forall_cons; [split; [apply printable_legible, printable_b; reflexivity|vm_compute; lia]|apply Forall_nil].
  - exists cs. split; [exact D|]. split; [exact F|]. exact P.
Qed.
(** the same view on a terminal of three rows: the second header is on the last row and the rest scrolls *)
Example C56_demo_scrolls : exists cs, draw_view demo_styles true (20, 3)%Z demo_state = Ok cs /\ sc_scrolls (shown_screen 3 cs) = 3.
Proof. eexists. split; vm_compute; reflexivity. Qed.
(** a narrow terminal: the mode and the message do not fit together *)
Example C56_demo_narrow : exists why, draw_view demo_styles false (17, 3)%Z (mkCS [] [] (Some [mkFrag (str "a message") FDefault]) [mkStatus 1 [mkFrag (str "normal mode") FDefault]] [] None) = Panic why.
Proof. eexists. vm_compute. reflexivity. Qed.
(** two accents on a terminal of nine columns *)
Example C56_demo_accent : exists why, draw_view demo_styles false (9, 10)%Z (mkCS [] [] None [] [mkWI (str "n") 1 1 [mkWL [[mkFrag (str "aaaaaaaa" ++ [195; 169; 195; 169]) FDefault]] 1]] None) = Panic why.
Proof. eexists. vm_compute. reflexivity. Qed.
