(** C26 for any valid UTF-8 text (nothing selected). *)
From Coq Require Import String List Arith Lia Bool Sorted Permutation.
From Verif Require Import Base ListFacts PieceTable PieceTableSpec PieceTableFacts History HistoryFacts Coords LineSpec LineFacts CoordsFacts
  CoordsMore Utf8 Utf8Spec Utf8Facts GraphemeInst Selection NavSpec NavFacts Maps Fmt Buffer View ViewSpec ViewFacts PropView NotifFacts PropNotif.
Import ListNotations.

(** [t] results from editing the valid text [s] on character boundaries, [x] is its text *)
Definition edited_utf8 (t : pt) (x : text) : Prop :=
  exists pol s es, s <> [] /\ valid s /\ pt_edits pol es (pt_with_text s) = Ok t /\ x = s_edits es s /\
    policy_wrap pol /\ edits_ok on_chars es s.
Lemma edits_utf8 pol es t d t' : policy_wrap pol -> sim t d -> utf8_ok t -> edits_ok on_chars es (d_text d) ->
  pt_edits pol es t = Ok t' -> utf8_ok t'.
Proof.
  intro P. revert t d. induction es as [|e es IH]; intros t d S U H E; cbn [pt_edits edits_ok] in *; [inversion E; subst; auto|].
  destruct H as (He & Hc & H). pose proof S as (_ & _ & T & _).
  destruct (edit_sim pol e t d S He) as (t1 & E1 & S1 & _); [now apply edit_fine_wrap|].
  rewrite E1 in E. cbn [bind] in E. apply (IH t1 (d_edit e d)); auto.
  rewrite <- T in Hc. apply (edit_utf8 pol e t d t1); auto. now apply edit_fine_wrap.
Qed.
Lemma edited_utf8_doc t x : edited_utf8 t x -> edited_doc t x /\ utf8_ok t.
Proof.
  intros (pol & s & es & Hs & V & E & Ex & P & H). split.
  - exists pol, s, es. repeat split; auto. left. split; auto. clear E Ex V Hs. revert s H.
    induction es as [|e es IH]; intros s H; constructor; destruct H as (He & _ & H); eauto.
  - destruct (sim_init s Hs) as [S _]. eapply edits_utf8; eauto using utf8_init.
Qed.

Definition showable (v : view) (bufs : amap text buffer) (content : text -> text) : Prop :=
  forall b, In b (view_buffers v) -> exists buf, get bufs b = Some buf /\ edited_utf8 (b_content buf) (content b) /\ content b <> [].
Definition plain_lines (x : text) : list (list cell) := map (fun l => map (fun c => (c, false)) (l ++ [32])) (str_lines x).

Lemma notif_utf8 G os bufs content : Forall whole_op os -> showable (build_view os) bufs content ->
  to_notification_params G (build_view os) bufs None =
  Ok (map (fun e => mkPI (fst e) 1 (length (lines_of (content (fst e)))) (map (fun _ => mkPL (plain_lines (content (fst e))) 1) (snd e))) (build_view os)).
Proof.
  intros Wo H. unfold to_notification_params. pose proof (build_whole os Wo) as W. rewrite as_vec_whole by auto. cbn [bind].
  unfold showable, view_buffers in H. revert W H. generalize (build_view os) as v. intros v W H.
  assert (forall params cur flush, (flush = false -> cur = pitem_default) ->
    notif_loop G bufs None (concat (map (fun e => VHeader (fst e) FWhole :: map VLens (snd e)) v)) params cur flush =
    Ok ((if flush then params ++ [cur] else params) ++
      map (fun e => mkPI (fst e) 1 (length (lines_of (content (fst e)))) (map (fun _ => mkPL (plain_lines (content (fst e))) 1) (snd e))) v)) as X.
  2:{ rewrite X; auto. }
  induction W as [|[b g] v [N F] W IH]; intros params cur flush Hc; cbn [map concat app notif_loop].
  - now rewrite app_nil_r.
  - cbn [fst snd] in *. destruct (H b (or_introl eq_refl)) as (buf & Eb & Ed & NE). apply edited_utf8_doc in Ed. destruct Ed as [Ed U].
    destruct (edited_doc_acc _ _ Ed) as [A T]. rewrite Eb. cbn [unwrap bind]. rewrite line_count_spec by (auto; congruence).
    cbn [bind].
    assert (show_lens G bufs None (mkLens b FWhole) = Ok (mkPL (plain_lines (content b)) 1)) as SL.
    { unfold show_lens. cbn [l_buffer l_focus]. rewrite Eb. cbn [unwrap bind]. unfold buf_lines. rewrite string_utf8 by (auto; apply A).
      cbn [bind]. rewrite T, show_lines_plain. reflexivity. }
    rewrite (notif_lenses _ _ _ _ _ _ _ _ _ _ F SL).
    rewrite IH by (try discriminate; intros c Hc'; apply H; now right).
    cbn [map]. f_equal. rewrite <- app_assoc. f_equal. cbn [app]. f_equal. cbn [pi_buffer pi_start pi_end pi_lenses]. rewrite T.
    destruct flush; [reflexivity|]. rewrite Hc by auto. reflexivity.
Qed.

(** one item per buffer in name order, numbered from 1 to the number of lines; each lens has that many lines, each followed
    by one blank; the lines are those of the text (less the carriage return of a CR LF), nothing is highlighted *)
Theorem C26_utf8_whole_view : forall G os bufs content, Forall whole_op os -> showable (build_view os) bufs content ->
  exists items, to_notification_params G (build_view os) bufs None = Ok items /\
    map pi_buffer items = view_buffers (build_view os) /\
    Forall (fun it => let x := content (pi_buffer it) in pi_start it = 1 /\ pi_end it = length (lines_of x) /\
      length (pi_lenses it) = length (shown (pi_buffer it) (build_view os)) /\
      Forall (fun pl => pl_first pl = 1 /\ length (pl_lines pl) = length (lines_of x) /\
        (~ In 13 x -> map (map fst) (pl_lines pl) = map (fun l => l ++ [32]) (lines_of x)) /\
        map (map fst) (pl_lines pl) = map (fun l => l ++ [32]) (str_lines x) /\
        Forall (Forall (fun c => snd c = false)) (pl_lines pl)) (pi_lenses it)) items.
Proof.
  intros G os bufs content W D. rewrite (notif_utf8 G os bufs content W D).
  eexists. split; [reflexivity|]. split; [unfold view_buffers, keys; rewrite map_map; reflexivity|].
  rewrite Forall_forall. intros it Hit. apply in_map_iff in Hit. destruct Hit as (e & <- & He).
  cbn [pi_start pi_end pi_buffer pi_lenses]. cbv zeta. set (x := content (fst e)). split; auto. split; auto. split.
  - rewrite map_length. unfold shown. destruct (build_wf os) as [S _]. apply sorted_uniq in S.
    destruct e as [b g]. cbn [fst snd]. rewrite (get_uniq _ b g S He). now rewrite map_length.
  - rewrite Forall_forall. intros pl Hpl. apply in_map_iff in Hpl. destruct Hpl as (y & <- & _). cbn [pl_first pl_lines].
    assert (map (map fst) (plain_lines x) = map (fun l => l ++ [32]) (str_lines x)) as E.
    { unfold plain_lines. rewrite map_map. apply map_ext. intro l. rewrite map_map. cbn [fst]. apply map_id. }
    split; auto. split; [unfold plain_lines; rewrite map_length; apply str_lines_length|]. split; [intro NC; rewrite E, str_lines_nocr; auto|].
    split; auto. unfold plain_lines. rewrite Forall_forall. intros l Hl. apply in_map_iff in Hl. destruct Hl as (z & <- & _).
    rewrite Forall_forall. intros c Hc. apply in_map_iff in Hc. destruct Hc as (w & <- & _). reflexivity.
Qed.
Print Assumptions C26_utf8_whole_view.
Example C26_utf8_hypotheses_met : exists t, pt_insert 0 [195; 188] (pt_with_text [195; 169; 10]) = Ok t /\
  showable (build_view [VAdd (str "b") FWhole]) [(str "b", mkBuf (SScratch (str "b")) t None)] (fun _ => [195; 188; 195; 169; 10]).
Proof.
  eexists. split; [vm_compute; reflexivity|]. intros b Hb. vm_compute in Hb. destruct Hb as [<-|[]]. eexists. split; [reflexivity|].
  split; [|discriminate].
  assert (valid [195; 188] /\ valid [195; 169; 10]) as (V1 & V2).
  { split; [exists [[195; 188]]|exists [[195; 169]; [10]]]; (split; [repeat constructor; cbn; unfold trail; lia|reflexivity]). }
  exists pol_wrap, [195; 169; 10], [EInsert 0 [195; 188]]. split; [discriminate|]. split; auto. split; [reflexivity|]. split; [reflexivity|].
  split; [apply pol_wrap_ok|]. cbn. repeat split; auto; try discriminate. intros _. now apply bound_0.
Qed.

(** ** Any view, any selections: whenever a notification is made, the text in it is the text of the buffers *)
(** the lines a lens shows *)
Definition focus_text (f : focus) (x : text) : list text :=
  match f with FWhole => str_lines x | FRange a e => slice (str_lines x) a (e - a) end.
Lemma mark_text a b l l' : mark a b l = Ok l' -> map fst l' = map fst l.
Proof.
  unfold mark. intro E. destruct ((a <=? b) && (b <=? length l)) eqn:C; [|discriminate]. injection E as <-.
  apply andb_true_iff in C. rewrite !Nat.leb_le in C. rewrite !map_app, map_map.
  rewrite <- (firstn_skipn a l) at 4. rewrite map_app. f_equal.
  rewrite <- (firstn_skipn (b - a) (skipn a l)) at 2. rewrite map_app. f_equal.
  rewrite ListFacts.skipn_skipn. now replace (a + (b - a)) with b by lia.
Qed.
Lemma show_line_text spans i l c : show_line spans i l = Ok c -> map fst c = l ++ [32].
Proof.
  unfold show_line. set (n := length (l ++ [32])).
  assert (map fst (map (fun b : nat => (b, false)) (l ++ [32])) = l ++ [32]) as H by (rewrite map_map; cbn [fst]; apply map_id).
  revert H. generalize (map (fun b : nat => (b, false)) (l ++ [32])) as k.
  induction (filter (fun e => fst e =? i) spans) as [|e es IH]; intros k H E; cbn [foldM] in E; [injection E as <-; exact H|].
  bnd E. apply (IH v); auto. rewrite <- H. destruct e as [j [[a|] [b|]]]; cbn [snd] in *; eapply mark_text; eassumption.
Qed.
Lemma show_lines_text spans ls : forall i cs, show_lines spans i ls = Ok cs -> map (map fst) cs = map (fun l => l ++ [32]) ls.
Proof.
  induction ls as [|l ls IH]; intros i cs E; cbn [show_lines] in E; [injection E as <-; reflexivity|].
  bnd E. bnd E. injection E as <-. cbn [map]. rewrite (IH _ _ E1), (show_line_text _ _ _ _ E0). reflexivity.
Qed.
Definition lens_text (pl : plens) : nat * list text := (pl_first pl, map (map fst) (pl_lines pl)).
(** the piece table holds [c], and reads as it *)
Definition reads (t : pt) (c : text) : Prop := acc t /\ txt t = c /\ pt_string t = Ok c.
Lemma edited_reads t c : edited_utf8 t c -> reads t c.
Proof. intro Ed. apply edited_utf8_doc in Ed. destruct Ed as [Ed U]. destruct (edited_doc_acc _ _ Ed) as [A T]. split; [exact A|]. split; [exact T|]. rewrite string_utf8 by (auto; apply A). now rewrite T. Qed.
Lemma show_lens_text G bufs sels x buf c pl : get bufs (l_buffer x) = Some buf -> reads (b_content buf) c ->
  show_lens G bufs sels x = Ok pl ->
  lens_text pl = (focus_start (l_focus x) + 1, map (fun l => l ++ [32]) (focus_text (l_focus x) c)).
Proof.
  intros Eb (A & T & Rs) E.
  unfold show_lens in E. rewrite Eb in E. cbn [unwrap bind] in E. bnd E. unfold buf_lines in E.
  rewrite Rs in E. cbn [bind] in E. bnd E. bnd E. injection E as <-.
  unfold lens_text. cbn [pl_first pl_lines]. rewrite (show_lines_text _ _ _ _ E2). f_equal. f_equal.
  destruct (l_focus x) as [a e|]; cbn [focus_text].
  - unfold slice_res in E1. destruct ((a <=? e) && (e <=? length (str_lines c))); [|discriminate]. injection E1 as <-. reflexivity.
  - injection E1 as <-. reflexivity.
Qed.

Definition item_text (it : pitem) : text * list (nat * list text) := (pi_buffer it, map lens_text (pi_lenses it)).
Definition group_text (content : text -> text) (e : text * list lens) : text * list (nat * list text) :=
  (fst e, map (fun x => (focus_start (l_focus x) + 1, map (fun l => l ++ [32]) (focus_text (l_focus x) (content (fst e))))) (snd e)).
Lemma notif_lens_text G bufs sels content b buf g : get bufs b = Some buf -> reads (b_content buf) (content b) ->
  Forall (fun l => l_buffer l = b) g -> forall rest params cur flush items,
  notif_loop G bufs sels (map VLens g ++ rest) params cur flush = Ok items ->
  exists pls, map lens_text pls = snd (group_text content (b, g)) /\
    notif_loop G bufs sels rest params (mkPI (pi_buffer cur) (pi_start cur) (pi_end cur) (pi_lenses cur ++ pls)) flush = Ok items.
Proof.
  intros Eb Ed F. induction F as [|x g Hx F IH]; intros rest params cur flush items E; cbn [map app notif_loop] in E.
  - exists []. split; [reflexivity|]. rewrite app_nil_r. destruct cur; exact E.
  - bnd E. apply IH in E. destruct E as (pls & Ep & E). cbn [pi_buffer pi_start pi_end pi_lenses] in E. exists (v :: pls). split.
    + cbn [map group_text snd fst] in *. rewrite Ep. f_equal. rewrite <- Hx in Eb, Ed. rewrite <- Hx. eapply show_lens_text; eassumption.
    + rewrite <- app_assoc in E. exact E.
Qed.
(** the line numbers above a group of lenses: of the whole buffer if one lens shows it whole, else from the first line of the
    first lens to the last line of the last one *)
Definition heading (fs : list focus) (n : nat) : nat * nat :=
  match fs, last fs FWhole with
  | FRange a _ :: _, FRange _ d => (a + 1, d)
  | _, _ => (1, n)
  end.
Lemma rev_last {A} (l : list A) d : l <> [] -> nth_error (rev l) 0 = Some (last l d).
Proof. intro N. destruct (exists_last N) as (k & a & ->). rewrite rev_app_distr, last_last. reflexivity. Qed.
Lemma last_map {A B} (f : A -> B) l d : last (map f l) (f d) = f (last l d).
Proof. induction l as [|x [|y l] IH]; cbn [map last] in *; auto. Qed.
Lemma group_heading g f n : group_focus g = Ok f ->
  heading (map l_focus g) n = match f with FRange a e => (a + 1, e) | FWhole => (1, n) end.
Proof.
  unfold group_focus, heading. destruct g as [|x g]; [discriminate|].
  rewrite (rev_last (x :: g) (mkLens [] FWhole)) by discriminate. cbn [unwrap bind]. intro E.
  change (Ok (match l_focus x, l_focus (last (x :: g) (mkLens [] FWhole)) with FRange a _, FRange _ d => FRange a d | _, _ => FWhole end) = Ok f) in E.
  assert (forall A (p q : A), Ok p = Ok q -> p = q) as OI by (intros A p q Q; congruence). apply OI in E. subst f.
  pose proof (last_map l_focus (x :: g) (mkLens [] FWhole)) as L. cbn [l_focus] in L. rewrite <- L. cbn [map].
  destruct (l_focus x) as [a e|]; [|reflexivity]. destruct (last (FRange a e :: map l_focus g) FWhole); reflexivity.
Qed.

Definition item_shows (content : text -> text) (it : pitem) (e : text * list lens) : Prop :=
  item_text it = group_text content e /\
  (pi_start it, pi_end it) = heading (map l_focus (snd e)) (length (lines_of (content (fst e)))).
(** the buffers of the view hold the texts, none is empty *)
Definition holds (v : view) (bufs : amap text buffer) (content : text -> text) : Prop :=
  forall b, In b (view_buffers v) -> exists buf, get bufs b = Some buf /\ reads (b_content buf) (content b) /\ content b <> [].
Lemma showable_holds v bufs content : showable v bufs content -> holds v bufs content.
Proof. intros H b Hb. destruct (H b Hb) as (buf & Eb & Ed & Ne). exists buf. split; [exact Eb|]. split; [now apply edited_reads|exact Ne]. Qed.
Lemma notif_text G bufs sels content v : 
  Forall (fun e => snd e <> [] /\ Forall (fun l => l_buffer l = fst e) (snd e)) v -> holds v bufs content ->
  forall items, to_notification_params G v bufs sels = Ok items -> Forall2 (item_shows content) items v.
Proof.
  intros W H items E. unfold to_notification_params in E. bnd E. rename v0 into vec. unfold holds, view_buffers in H.
  assert (forall vec params cur flush items, as_vec v = Ok vec -> (flush = false -> cur = pitem_default) ->
    notif_loop G bufs sels vec params cur flush = Ok items ->
    exists new, items = (if flush then params ++ [cur] else params) ++ new /\ Forall2 (item_shows content) new v) as X.
  2:{ destruct (X vec [] pitem_default false items E0 (fun _ => eq_refl) E) as (new & -> & F). exact F. }
  clear E E0 vec items. induction W as [|[b g] v [N F] W IH]; intros vec params cur flush items Ev Hc E; cbn [as_vec] in Ev.
  - injection Ev as <-. cbn [notif_loop] in E. injection E as <-. exists []. split; [now rewrite app_nil_r|constructor].
  - bnd Ev. bnd Ev. injection Ev as <-. cbn [fst snd] in *. cbn [notif_loop] in E.
    destruct (H b (or_introl eq_refl)) as (buf & Eb & Ed & NE). pose proof Ed as (A & T & _). rename v0 into f. rename v1 into rest.
    assert ((if flush then pitem_default else cur) = pitem_default) as Hd by (destruct flush; auto). rewrite Hd in E. cbn [pi_lenses pitem_default] in E.
    assert (exists h, heading (map l_focus g) (length (lines_of (content b))) = h /\
      notif_loop G bufs sels (map VLens g ++ rest) (if flush then params ++ [cur] else params) (mkPI b (fst h) (snd h) []) true = Ok items) as (h & Hh & E').
    { rewrite (group_heading g f _ E0). eexists. split; [reflexivity|]. destruct f as [a e|]; cbn [fst snd].
      - exact E.
      - rewrite Eb in E. cbn [unwrap bind] in E. rewrite line_count_spec in E by (auto; congruence). cbn [bind] in E. rewrite T in E. exact E. }
    destruct (notif_lens_text G bufs sels content b buf g Eb Ed F _ _ _ _ _ E') as (pls & Ep & E2).
    cbn [pi_buffer pi_start pi_end pi_lenses app] in E2.
    destruct (IH (fun c Hc' => H c (or_intror Hc')) rest _ _ true items eq_refl ltac:(discriminate) E2) as (new & -> & Fn).
    exists (mkPI b (fst h) (snd h) pls :: new). split; [now rewrite <- app_assoc|]. constructor; auto. split; cbn [pi_start pi_end item_text pi_buffer pi_lenses fst snd].
    + unfold item_text. cbn [pi_buffer pi_lenses]. rewrite Ep. reflexivity.
    + rewrite Hh. now destruct h.
Qed.

Lemma view_text G v bufs sels content items : NoDup (map fst v) -> Forall (fun e => snd e <> [] /\ Forall (fun l => l_buffer l = fst e) (snd e)) v -> holds v bufs content ->
  to_notification_params G v bufs sels = Ok items ->
  map pi_buffer items = view_buffers v /\
  forall it, In it items ->
    let fs := shown (pi_buffer it) v in
    let x := content (pi_buffer it) in
    (pi_start it, pi_end it) = heading fs (length (lines_of x)) /\
    map pl_first (pi_lenses it) = map (fun f => focus_start f + 1) fs /\
    map (fun pl => map (map fst) (pl_lines pl)) (pi_lenses it) = map (fun f => map (fun l => l ++ [32]) (focus_text f x)) fs.
Proof.
  intros S W H E.
  assert (Forall2 (item_shows content) items v) as F by (eapply notif_text; [exact W|exact H|exact E]).
  clear E W H. assert (forall e, In e v -> shown (fst e) v = map l_focus (snd e)) as Sh.
  { intros [b g] He. unfold shown. cbn [fst snd]. now rewrite (get_uniq _ b g S He). }
  assert ((forall it, In it items -> exists e, In e v /\ item_shows content it e) /\
    map pi_buffer items = map fst v) as [X Y].
  { clear S Sh. induction F as [|it e is v I F [IH1 IH2]]; [split; [intros j []|reflexivity]|]. split.
    - intros j [<-|Hj]; [exists e; split; [now left|exact I]|].
      destruct (IH1 j Hj) as (e' & He & I'). exists e'. split; [now right|exact I'].
    - cbn [map]. rewrite IH2. f_equal. destruct I as [I _]. unfold item_text, group_text in I. congruence. }
  split; [exact Y|].
  intros it Hit. destruct (X it Hit) as (e & He & I & Hs). cbv zeta. 
    assert (pi_buffer it = fst e) as Eb by (unfold item_text, group_text in I; congruence). rewrite Eb, (Sh e He).
    split; [exact Hs|]. unfold item_text, group_text in I. injection I as _ L. clear - L.
    revert L. generalize (pi_lenses it) as pls. induction (snd e) as [|x g IH]; intros [|pl pls] L; cbn [map] in L; try discriminate L; [split; reflexivity|].
    injection L as L1 L2 L. destruct (IH pls L) as [I1 I2]. cbn [map]. rewrite I1, I2, L1, L2. split; reflexivity.
Qed.
(** C26 for every view, whole buffers and ranges of lines, any valid UTF-8 text and any selections: if a notification is made,
    it shows the buffers of the view in order, each with its lenses in order, each lens with exactly its lines *)
Theorem C26_text : forall G os bufs sels content items, showable (build_view os) bufs content ->
  to_notification_params G (build_view os) bufs sels = Ok items ->
  map pi_buffer items = view_buffers (build_view os) /\
  forall it, In it items ->
    let fs := shown (pi_buffer it) (build_view os) in
    let x := content (pi_buffer it) in
    (pi_start it, pi_end it) = heading fs (length (lines_of x)) /\
    map pl_first (pi_lenses it) = map (fun f => focus_start f + 1) fs /\
    map (fun pl => map (map fst) (pl_lines pl)) (pi_lenses it) = map (fun f => map (fun l => l ++ [32]) (focus_text f x)) fs.
Proof.
  intros G os bufs sels content items H E. destruct (build_wf os) as [S W]. apply sorted_uniq in S. eapply view_text; [exact S| |apply showable_holds; exact H|exact E].
  eapply Forall_impl; [|exact W]. cbv beta. intros e He. split; apply He.
Qed.
Print Assumptions C26_text.
(** an instance: a range and the whole of a text with two-byte letters, the second letter of the second line selected *)
Example C26_text_met : exists items,
  showable (build_view [VAdd (str "b") FWhole; VAdd (str "b") (FRange 1 2)])
    [(str "b", mkBuf (SScratch (str "b")) (pt_with_text [97; 10; 195; 169; 98; 10]) None)] (fun _ => [97; 10; 195; 169; 98; 10]) /\
  to_notification_params utf8_graphemes (build_view [VAdd (str "b") FWhole; VAdd (str "b") (FRange 1 2)])
    [(str "b", mkBuf (SScratch (str "b")) (pt_with_text [97; 10; 195; 169; 98; 10]) None)] (Some [(str "b", [mkSel 4 4 1])]) = Ok items /\
  map (fun it => (pi_start it, pi_end it, map lens_text (pi_lenses it))) items =
    [(1, 2, [(2, [[195; 169; 98; 32]]); (1, [[97; 32]; [195; 169; 98; 32]])])].
Proof.
  eexists. split; [|split; [vm_compute; reflexivity|vm_compute; reflexivity]].
  intros b Hb. vm_compute in Hb. destruct Hb as [<-|[]]. eexists. split; [reflexivity|]. split; [|discriminate].
  exists pol_wrap, [97; 10; 195; 169; 98; 10], []. split; [discriminate|]. split.
  { exists [[97]; [10]; [195; 169]; [98]; [10]]. split; [repeat constructor; cbn; unfold trail; lia|reflexivity]. }
  split; [reflexivity|]. split; [reflexivity|]. split; [apply pol_wrap_ok|exact Logic.I].
Qed.

(** C27 fails for characters of more than one byte past the first line: here the letter at offset 2 of a text of two lines is
    selected, and the part of its line to highlight comes out empty (from column 0 to column 0), whatever unit the columns of the
    decorator are; so nothing on the screen is highlighted. *)
Theorem C27_wide_refuted : exists (x : text) (o : nat), valid x /\ bound x o /\ nth_error x o = Some 195 /\
  sel_spans utf8_graphemes (pt_with_text x) (mkSel o o 1) = Ok [(1, (Some 0, Some 0))] /\
  exists items, to_notification_params utf8_graphemes (build_view [VAdd (str "b") FWhole])
      [(str "b", mkBuf (SScratch (str "b")) (pt_with_text x) None)] (Some [(str "b", [mkSel o o 1])]) = Ok items /\
    forallb (fun it => forallb (fun pl => forallb (forallb (fun c => negb (snd c))) (pl_lines pl)) (pi_lenses it)) items = true.
Proof.
  exists [97; 10; 195; 169; 10], 2.
  assert (forall cs, Forall is_char cs -> valid (concat cs)) as V by (intros cs H; exists cs; auto).
  assert (is_char [97]) as H1 by (cbn; lia). assert (is_char [10]) as H2 by (cbn; lia).
  assert (is_char [195; 169]) as H3 by (cbn; unfold trail; lia).
  split; [apply (V [[97]; [10]; [195; 169]; [10]]); auto|]. split.
  - exists [97; 10], [195; 169; 10]. split; [reflexivity|]. split; [reflexivity|]. split.
    + apply (V [[97]; [10]]); auto.
    + apply (V [[195; 169]; [10]]); auto.
  - split; [reflexivity|]. split; [vm_compute; reflexivity|]. eexists. split; vm_compute; reflexivity.
Qed.
Print Assumptions C27_wide_refuted.
