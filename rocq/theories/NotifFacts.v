(** The lines and highlights of view notifications. *)
From Coq Require Import String List Arith Lia Bool.
From Verif Require Import Base ListFacts PieceTable PieceTableFacts Coords LineSpec LineFacts CoordsFacts CoordsMore Utf8
  DiffApply PieceTableSpec History Selection NavSpec NavFacts Maps Fmt Buffer View ViewSpec ViewFacts.
Import ListNotations.

(** ** marking cells *)
Definition cells (bytes : text) (f : nat -> bool) (n : nat) : list cell := map (fun k => (nth k bytes 0, f k)) (seq 0 n).
Lemma cells_length bytes f n : length (cells bytes f n) = n.
Proof. unfold cells. now rewrite map_length, seq_length. Qed.
Lemma cells_nth bytes f n k : k < n -> nth_error (cells bytes f n) k = Some (nth k bytes 0, f k).
Proof.
  intro H. unfold cells. rewrite nth_error_map, nth_error_seq. apply Nat.ltb_lt in H. now rewrite H.
Qed.
Lemma nth_error_ext {A} (l m : list A) : (forall k, nth_error l k = nth_error m k) -> l = m.
Proof.
  revert m. induction l as [|x l IH]; intros [|y m] H; auto.
  - specialize (H 0). discriminate.
  - specialize (H 0). discriminate.
  - pose proof (H 0) as H0. simpl in H0. inversion H0. f_equal. apply IH. intro k. apply (H (S k)).
Qed.
Lemma firstn_nth {A} n (l : list A) k : nth_error (firstn n l) k = if k <? n then nth_error l k else None.
Proof.
  revert l k. induction n as [|n IH]; intros l k; simpl.
  - destruct k; reflexivity.
  - destruct l as [|x l]; [destruct k as [|k]; simpl; auto; now destruct (S k <? S n)|]. destruct k as [|k]; simpl; auto. rewrite IH. reflexivity.
Qed.
Lemma skipn_nth {A} n (l : list A) k : nth_error (skipn n l) k = nth_error l (n + k).
Proof. revert l. induction n as [|n IH]; intros [|x l]; simpl; auto; destruct k; auto. Qed.
Lemma mark_ok bytes f n a b : a <= b -> b <= n ->
  mark a b (cells bytes f n) = Ok (cells bytes (fun k => f k || ((a <=? k) && (k <? b))) n).
Proof.
  intros H1 H2. unfold mark. rewrite cells_length. assert ((a <=? b) && (b <=? n) = true) as ->.
  { apply andb_true_iff. rewrite !Nat.leb_le. lia. }
  f_equal. apply nth_error_ext. intro k.
  assert (length (firstn a (cells bytes f n)) = a) as L1 by (rewrite firstn_length, cells_length; lia).
  assert (length (firstn (b - a) (skipn a (cells bytes f n))) = b - a) as L2 by (rewrite firstn_length, skipn_length, cells_length; lia).
  destruct (Nat.ltb_spec k n) as [Hk|Hk].
  - rewrite cells_nth by auto. destruct (Nat.ltb_spec k a) as [Q|Q].
    + rewrite nth_error_app1 by lia. rewrite firstn_nth. apply Nat.ltb_lt in Q. rewrite Q. rewrite cells_nth by auto.
      apply Nat.ltb_lt in Q. assert (a <=? k = false) as -> by (apply Nat.leb_gt; auto). simpl. now rewrite orb_false_r.
    + rewrite nth_error_app2 by lia. rewrite L1. destruct (Nat.ltb_spec k b) as [R|R].
      * rewrite nth_error_app1 by (rewrite map_length; lia). rewrite nth_error_map, firstn_nth.
        assert (k - a <? b - a = true) as -> by (apply Nat.ltb_lt; lia). rewrite skipn_nth.
        replace (a + (k - a)) with k by lia. rewrite cells_nth by auto. simpl.
        assert (a <=? k = true) as -> by (apply Nat.leb_le; lia). simpl. now rewrite orb_true_r.
      * rewrite nth_error_app2 by (rewrite map_length; lia). rewrite map_length, L2, skipn_nth.
        replace (b + (k - a - (b - a))) with k by lia. rewrite cells_nth by auto. rewrite andb_false_r, orb_false_r. reflexivity.
  - rewrite (proj2 (nth_error_None (cells _ _ n) k)) by (rewrite cells_length; lia). apply nth_error_None.
    rewrite !app_length, map_length, L1, L2, skipn_length, cells_length. lia.
Qed.
Lemma cells_ext bytes f g n : (forall k, k < n -> f k = g k) -> cells bytes f n = cells bytes g n.
Proof. intro H. unfold cells. apply map_ext_in. intros k Hk. apply in_seq in Hk. rewrite H; auto. lia. Qed.
Lemma cells_plain l : map (fun b : byte => (b, false)) l = cells l (fun _ => false) (length l).
Proof.
  apply nth_error_ext. intro k. rewrite nth_error_map. destruct (Nat.ltb_spec k (length l)) as [H|H].
  - rewrite cells_nth by auto. rewrite (nth_error_nth' l 0) by auto. reflexivity.
  - rewrite (proj2 (nth_error_None l k)) by auto. symmetry. apply nth_error_None. now rewrite cells_length.
Qed.

(** the part of a span on a line of [n] cells *)
Definition span := (nat * (option nat * option nat))%type.
Definition span_lo (e : span) : nat := match fst (snd e) with Some a => a | None => 0 end.
Definition span_hi (n : nat) (e : span) : nat := match snd (snd e) with Some b => b | None => n end.
Definition span_fits (n : nat) (e : span) : Prop := span_lo e <= span_hi n e /\ span_hi n e <= n.
Definition in_span (n k : nat) (e : span) : bool := (span_lo e <=? k) && (k <? span_hi n e).
Lemma show_line_ok spans i l : (forall e, In e spans -> fst e = i -> span_fits (length l + 1) e) ->
  show_line spans i l = Ok (cells (l ++ [32]) (fun k => existsb (fun e => (fst e =? i) && in_span (length l + 1) k e) spans) (length l + 1)).
Proof.
  intro H. unfold show_line. rewrite cells_plain, app_length. cbn [length].
  assert (forall f, foldM (fun cells0 (e : span) =>
      match snd e with
      | (Some a, Some b) => mark a b cells0
      | (Some a, None) => mark a (length l + 1) cells0
      | (None, Some b) => mark 0 b cells0
      | (None, None) => mark 0 (length l + 1) cells0
      end) (filter (fun e => fst e =? i) spans) (cells (l ++ [32]) f (length l + 1)) =
    Ok (cells (l ++ [32]) (fun k => f k || existsb (fun e => (fst e =? i) && in_span (length l + 1) k e) spans) (length l + 1))) as X.
  2:{ rewrite X. reflexivity. }
  induction spans as [|e spans IH]; intro f; simpl.
  - f_equal. apply cells_ext. intros. now rewrite orb_false_r.
  - destruct (fst e =? i) eqn:E; simpl.
    + apply Nat.eqb_eq in E. destruct (H e (or_introl eq_refl) E) as [F1 F2].
      assert (match snd e with
      | (Some a, Some b) => mark a b (cells (l ++ [32]) f (length l + 1))
      | (Some a, None) => mark a (length l + 1) (cells (l ++ [32]) f (length l + 1))
      | (None, Some b) => mark 0 b (cells (l ++ [32]) f (length l + 1))
      | (None, None) => mark 0 (length l + 1) (cells (l ++ [32]) f (length l + 1))
      end = mark (span_lo e) (span_hi (length l + 1) e) (cells (l ++ [32]) f (length l + 1))) as ->.
      { unfold span_lo, span_hi. destruct e as (j & [a|] & [b|]); reflexivity. }
      rewrite mark_ok by auto. cbn [bind]. rewrite IH by (intros e' He'; apply H; now right).
      f_equal. apply cells_ext. intros k Hk. unfold in_span at 2. now rewrite orb_assoc.
    + apply IH. intros e' He'; apply H; now right.
Qed.

Lemma pos_coords_ok G t i l c tg : acc t -> ascii (txt t) -> txt t <> [] -> nth_error (lines_of (txt t)) i = Some l -> 0 < tg ->
  loff (txt t) i + min (length l) (tg - 1) < length (txt t) ->
  exists p, nav_pos G t (mkNav (mkC (i + 1) c) tg) = Ok p /\ pos_coords p = mkC (i + 1) (min (length l + 1) tg).
Proof.
  intros A As NE El Ht TL.
  unfold nav_pos. cbn [n_cur n_target cl]. rewrite line_bytes_spec; auto.
  replace (i + 1 =? 0) with false by (symmetry; apply Nat.eqb_neq; lia).
  replace (i + 1 - 1) with i by lia. rewrite El. cbn [bind unwrap].
  rewrite gcount_ascii by (eapply ascii_line; eauto).
  rewrite (nav_offset G t A As i l) by (auto; lia). cbn [bind unwrap].
  assert (mkC (i + 1) (min (length l + 1) tg) = coords_at (txt t) (loff (txt t) i + (min (length l + 1) tg - 1))) as ->.
  { rewrite (coords_at_on (txt t) _ i l); [f_equal; lia|]. repeat split; auto; lia. }
  rewrite char_ok by (auto; lia). cbn [bind]. eexists. split; [reflexivity|]. reflexivity.
Qed.

(** the coordinates of a selection: its first offset, and the offset after its last one *)
Lemma sel_coords_ok G t s : acc t -> ascii (txt t) -> sel_inside (txt t) s ->
  let x := txt t in
  let a := min (s_anchor s) (s_cursor s) in
  let e := max (s_anchor s) (s_cursor s) in
  exists i l j m c, on_line x a i l /\ nth_error (lines_of x) j = Some m /\ i <= j /\
    sel_coords G t s = Ok (mkC (i + 1) (a - loff x i + 1), mkC (j + 1) (c + 1)) /\
    loff x j + c = e + 1 /\ c <= length m + 1.
Proof.
  intros A As [Ha Hc] x a e. assert (x <> []) as NE by (unfold x; destruct (txt t); [simpl in Ha; lia|discriminate]).
  assert (a < length x) as La by (unfold a, x; lia). assert (e < length x) as Le by (unfold e, x; lia).
  assert (a <= e) as Lae by (unfold a, e; lia).
  destruct (on_line_ex x a La) as (i & l & Hl).
  unfold sel_coords. rewrite max_offset_spec by apply A.
  assert (sel_begin s = a) as ->. { unfold sel_begin, a. destruct (Nat.leb_spec (s_anchor s) (s_cursor s)); lia. }
  assert (sel_end s = e) as ->. { unfold sel_end, e. destruct (Nat.ltb_spec (s_anchor s) (s_cursor s)); lia. }
  rewrite (nav_coords G t A As a La). cbn [bind unwrap]. fold x. rewrite (coords_at_on _ _ _ _ Hl).
  assert (forall o j m, on_line x o j m -> a <= o -> i <= j) as Mono.
  { intros o j m (Ej & Hj & _) Ho. destruct Hl as (Ei & Hi & _). destruct (Nat.le_gt_cases i j); auto. exfalso.
    pose proof (loff_mono x (S j) i ltac:(lia)) as M. rewrite (loff_S _ _ _ Ej) in M. lia. }
  destruct (Nat.eqb_spec e (length x - 1)) as [Q|Q].
  - rewrite (nav_coords G t A As e Le). cbn [bind unwrap]. fold x.
    destruct (on_line_ex x e Le) as (j & m & Hm). rewrite (coords_at_on _ _ _ _ Hm). cbn [cl cc].
    exists i, l, j, m, (e - loff x j + 1). split; auto. split; [apply Hm|]. split; [eapply Mono; eauto|]. split; auto.
    destruct Hm as (_ & Hr & _). lia.
  - rewrite (nav_coords G t A As e Le). cbn [bind]. fold x. unfold x. rewrite navigate_ok by auto. cbn [bind unwrap].
    rewrite nav_next_ok by auto. fold x. apply Nat.eqb_neq in Q. rewrite Q. apply Nat.eqb_neq in Q. cbn [bind].
    destruct (on_line_ex x (e + 1)) as (j & m & Hm); [lia|]. rewrite (coords_at_on _ _ _ _ Hm).
    destruct (on_line_coords _ _ _ _ Hm) as (_ & C2 & _). rewrite C2. pose proof Hm as (Ej & Hj & _).
    destruct (pos_coords_ok G t j m (e + 1 - loff x j + 1) (e + 1 - loff x j + 1) A As NE Ej) as (p & Ep & Pc); [lia|fold x; lia|].
    rewrite Ep. cbn [bind]. rewrite Pc.
    exists i, l, j, m, (e + 1 - loff x j). split; auto. split; auto. split; [eapply Mono; [exact Hm|lia]|].
    split; [|lia]. do 3 f_equal. lia.
Qed.

(** the spans of a selection, line by line *)
Lemma sel_spans_ok G t s : acc t -> ascii (txt t) -> sel_inside (txt t) s ->
  exists es, sel_spans G t s = Ok es /\
    (forall e, In e es -> exists l, nth_error (lines_of (txt t)) (fst e) = Some l /\ span_fits (length l + 1) e) /\
    (forall i l k, nth_error (lines_of (txt t)) i = Some l -> k <= length l ->
       existsb (fun e => (fst e =? i) && in_span (length l + 1) k e) es = in_sel (loff (txt t) i + k) s).
Proof.
  intros A As I. destruct (sel_coords_ok G t s A As I) as (i & l & j & m & c & Hl & Ej & Hij & E & Ec & Hc).
  set (x := txt t) in *. set (a := min (s_anchor s) (s_cursor s)) in *. set (e := max (s_anchor s) (s_cursor s)) in *.
  destruct Hl as (Ei & Hi & La).
  assert (a <= e) as Lae by (unfold a, e; lia).
  assert (forall p q lp, nth_error (lines_of x) p = Some lp -> p < q -> loff x p + length lp + 1 <= loff x q) as Mono.
  { intros p q lp Ep Hpq. pose proof (loff_mono x (S p) q Hpq) as M. rewrite (loff_S _ _ _ Ep) in M. lia. }
  assert (forall p k, in_sel (loff x p + k) s = true <-> a <= loff x p + k <= e) as IS.
  { intros p k. unfold in_sel. fold a e. rewrite andb_true_iff, !Nat.leb_le. reflexivity. }
  unfold sel_spans. rewrite E. cbn [bind cl cc].
  assert (exists es, (if i + 1 =? j + 1
   then
    a0 <- sub (a - loff x i + 1) 1;; b <- sub (c + 1) 1;; l0 <- sub (i + 1) 1;; Ok [(l0, (Some a0, Some b))]
   else
    l' <- sub (j + 1) 1;;
    if (i + 1 =? l') && (c + 1 =? 1)
    then a0 <- sub (a - loff x i + 1) 1;; l0 <- sub (i + 1) 1;; Ok [(l0, (Some a0, None))]
    else
     mapM
       (fun i0 : nat =>
        r <-
        (if i0 =? i + 1
         then a0 <- sub (a - loff x i + 1) 1;; Ok (Some a0, None)
         else if i0 =? j + 1 then b <- sub (c + 1) 1;; Ok (None, Some b) else Ok (None, None));; 
        l0 <- sub i0 1;; Ok (l0, r)) (seq (i + 1) (S (j + 1) - (i + 1)))) = Ok es /\
    (forall sp, In sp es -> i <= fst sp <= j /\
        span_lo sp = (if fst sp =? i then a - loff x i else 0) /\
        (forall n, span_hi n sp = if (fst sp =? j) then c else n)) /\
    (forall p, i <= p <= j -> (exists sp, In sp es /\ fst sp = p) \/ (p = j /\ c = 0 /\ i < j))) as (es & Ees & H1 & H2).
  { destruct (Nat.eqb_spec (i + 1) (j + 1)) as [Q|Q].
    - assert (i = j) by lia. subst j. rewrite !sub_ok by lia. cbn [bind]. eexists. split; [reflexivity|]. split.
      + intros sp [<-|[]]. cbn [fst snd]. replace (i + 1 - 1) with i by lia. unfold span_lo, span_hi. cbn [fst snd].
        rewrite Nat.eqb_refl. repeat split; try lia.
      + intros p Hp. left. eexists. split; [now left|]. cbn [fst]. lia.
    - rewrite sub_ok by lia. cbn [bind]. replace (j + 1 - 1) with j by lia.
      destruct ((i + 1 =? j) && (c + 1 =? 1)) eqn:Q2.
      + apply andb_true_iff in Q2. rewrite !Nat.eqb_eq in Q2. destruct Q2 as [Q2 Q3]. rewrite !sub_ok by lia. cbn [bind].
        eexists. split; [reflexivity|]. split.
        * intros sp [<-|[]]. cbn [fst snd]. replace (i + 1 - 1) with i by lia. unfold span_lo, span_hi. cbn [fst snd].
          rewrite Nat.eqb_refl. assert (i =? j = false) as -> by (apply Nat.eqb_neq; lia). repeat split; try lia.
        * intros p Hp. assert (p = i \/ p = j) as [->| ->] by lia.
          -- left. eexists. split; [now left|]. cbn [fst]. lia.
          -- right. lia.
      + rewrite (mapM_ok _ (fun q => (q - 1, if q =? i + 1 then (Some (a - loff x i), None) else if q =? j + 1 then (None, Some c) else (None, None)))).
        2:{ intros q Hq. apply in_seq in Hq. destruct (Nat.eqb_spec q (i + 1)).
            - rewrite !sub_ok by lia. cbn [bind]. do 3 f_equal. f_equal. lia.
            - destruct (Nat.eqb_spec q (j + 1)); rewrite !sub_ok by lia; cbn [bind]; auto.
              do 4 f_equal. lia. }
        eexists. split; [reflexivity|]. split.
        * intros sp Hsp. apply in_map_iff in Hsp. destruct Hsp as (q & <- & Hq). apply in_seq in Hq. cbn [fst].
          split; [lia|]. unfold span_lo, span_hi. cbn [fst snd].
          assert ((q =? i + 1) = (q - 1 =? i)) as -> by (destruct (Nat.eqb_spec q (i + 1)), (Nat.eqb_spec (q - 1) i); auto; lia).
          assert ((q =? j + 1) = (q - 1 =? j)) as -> by (destruct (Nat.eqb_spec q (j + 1)), (Nat.eqb_spec (q - 1) j); auto; lia).
          destruct (Nat.eqb_spec (q - 1) i); destruct (Nat.eqb_spec (q - 1) j); cbn [fst snd]; split; intros; auto; lia.
        * intros p Hp. left. eexists. split; [apply in_map_iff; exists (p + 1); split; [reflexivity|apply in_seq; lia]|]. cbn [fst]. lia. }
  exists es. split; [exact Ees|]. split.
  - intros sp Hsp. destruct (H1 sp Hsp) as (B & Lo & Hi').
    assert (fst sp < length (lines_of x)) as Lt. { assert (j < length (lines_of x)) by (apply nth_error_Some; congruence). lia. }
    destruct (lines_nth_ex x (fst sp) Lt) as (ls & Els). exists ls. split; auto. unfold span_fits. rewrite Lo, Hi'.
    destruct (Nat.eqb_spec (fst sp) i) as [Qi|Qi]; destruct (Nat.eqb_spec (fst sp) j) as [Qj|Qj].
    + assert (i = j) as Eij by congruence. assert (ls = m) as -> by congruence. rewrite Eij in *. lia.
    + assert (ls = l) as -> by congruence. lia.
    + assert (ls = m) as -> by congruence. lia.
    + lia.
  - intros p lp k Ep Hk. apply eq_true_iff_eq. rewrite existsb_exists, IS. split.
    + intros (sp & Hsp & X). apply andb_true_iff in X. destruct X as [X Y]. apply Nat.eqb_eq in X. subst p.
      destruct (H1 sp Hsp) as (B & Lo & Hi'). unfold in_span in Y. apply andb_true_iff in Y. rewrite Nat.leb_le, Nat.ltb_lt in Y.
      rewrite Lo, Hi' in Y. destruct Y as [Y1 Y2]. split.
      * destruct (Nat.eqb_spec (fst sp) i) as [Q|Q]; [rewrite Q; lia|].
        pose proof (Mono i (fst sp) l Ei ltac:(lia)). lia.
      * destruct (Nat.eqb_spec (fst sp) j) as [Q|Q]; [rewrite Q; lia|].
        pose proof (Mono (fst sp) j lp Ep ltac:(lia)). lia.
    + intros [Y1 Y2].
      assert (i <= p) as P1. { destruct (Nat.le_gt_cases i p); auto. exfalso. pose proof (Mono p i lp Ep ltac:(lia)). lia. }
      assert (p <= j) as P2. { destruct (Nat.le_gt_cases p j); auto. exfalso. pose proof (Mono j p m Ej ltac:(lia)). lia. }
      destruct (H2 p (conj P1 P2)) as [(sp & Hsp & <-)|(-> & -> & X)]; [|lia].
      exists sp. split; auto. rewrite Nat.eqb_refl. destruct (H1 sp Hsp) as (B & Lo & Hi').
      unfold in_span. cbn [andb]. rewrite Lo, Hi'. apply andb_true_iff. rewrite Nat.leb_le, Nat.ltb_lt. split.
      * destruct (Nat.eqb_spec (fst sp) i) as [Q|Q]; [rewrite Q in *; lia|lia].
      * destruct (Nat.eqb_spec (fst sp) j) as [Q|Q]; [rewrite Q in *; lia|lia].
Qed.

Lemma spans_ok G t ss : acc t -> ascii (txt t) -> Forall (sel_inside (txt t)) ss ->
  exists es, (xs <- mapM (sel_spans G t) ss ;; Ok (concat xs)) = Ok es /\
    (forall e, In e es -> exists l, nth_error (lines_of (txt t)) (fst e) = Some l /\ span_fits (length l + 1) e) /\
    (forall i l k, nth_error (lines_of (txt t)) i = Some l -> k <= length l ->
       existsb (fun e => (fst e =? i) && in_span (length l + 1) k e) es = existsb (in_sel (loff (txt t) i + k)) ss).
Proof.
  intros A As F. induction F as [|s ss I F (es & E & H1 & H2)]; cbn [mapM bind].
  - exists []. split; [reflexivity|]. split; [intros e []|]. reflexivity.
  - destruct (sel_spans_ok G t s A As I) as (es1 & E1 & K1 & K2). rewrite E1. cbn [bind].
    destruct (mapM (sel_spans G t) ss) as [xs| |]; cbn [bind] in *; try discriminate. inversion E; subst es.
    eexists. split; [reflexivity|]. cbn [concat]. split.
    + intros e He. apply in_app_iff in He. destruct He; auto.
    + intros i l k El Hk. rewrite existsb_app. cbn [existsb]. rewrite K2, H2 by auto. reflexivity.
Qed.

Lemma show_lines_ok es x ss ls : forall i,
  (forall k l, nth_error ls k = Some l -> nth_error (lines_of x) (i + k) = Some l) ->
  (forall e, In e es -> exists l, nth_error (lines_of x) (fst e) = Some l /\ span_fits (length l + 1) e) ->
  (forall i l k, nth_error (lines_of x) i = Some l -> k <= length l ->
       existsb (fun e => (fst e =? i) && in_span (length l + 1) k e) es = existsb (in_sel (loff x i + k)) ss) ->
  show_lines es i ls = Ok (shown_lines_from x ss (S i) ls).
Proof.
  induction ls as [|l ls IH]; intros i H0 H1 H2; cbn [show_lines shown_lines_from]; auto.
  assert (nth_error (lines_of x) i = Some l) as El by (rewrite <- (Nat.add_0_r i) at 1; apply H0; reflexivity).
  rewrite show_line_ok.
  2:{ intros e He Q. destruct (H1 e He) as (l' & E' & Fi). rewrite Q, El in E'. inversion E'; subst. exact Fi. }
  cbn [bind]. rewrite IH; auto.
  2:{ intros k l' E. replace (S i + k) with (i + S k) by lia. apply H0. exact E. }
  cbn [bind]. do 2 f_equal. unfold shown_line, cells. apply map_ext_in. intros k Hk. apply in_seq in Hk. f_equal.
  rewrite H2 by (auto; lia). rewrite line_offset_loff. simpl. rewrite Nat.sub_0_r. reflexivity.
Qed.

(** ** one whole-buffer lens *)
Lemma string_ok t : acc t -> ascii (txt t) -> pt_string t = Ok (txt t).
Proof. intros A As. apply pt_string_ascii; auto; [apply A|]. apply pt_text_txt, A. Qed.
Definition buf_sels (sels : option (amap text (list sel))) (b : text) : list sel :=
  match sels with Some m => match get m b with Some ss => ss | None => [] end | None => [] end.
Lemma show_whole_ok G bufs sels b buf : get bufs b = Some buf -> acc (b_content buf) -> ascii (txt (b_content buf)) ->
  ~ In 13 (txt (b_content buf)) -> Forall (sel_inside (txt (b_content buf))) (buf_sels sels b) ->
  show_lens G bufs sels (mkLens b FWhole) = Ok (mkPL (shown_lines (txt (b_content buf)) (buf_sels sels b)) 1).
Proof.
  intros Eb A As NC I. unfold show_lens. cbn [l_buffer l_focus]. rewrite Eb. cbn [unwrap bind].
  destruct (spans_ok G (b_content buf) (buf_sels sels b) A As I) as (es & E & H1 & H2).
  assert (match sels with
          | None => Ok []
          | Some ss => match get ss b with None => Ok [] | Some ss => xs <- mapM (sel_spans G (b_content buf)) ss ;; Ok (concat xs) end
          end = Ok es) as ->.
  { unfold buf_sels in E. destruct sels as [m|]; [|exact E]. destruct (get m b); exact E. }
  cbn [bind]. unfold buf_lines. rewrite string_ok by auto. cbn [bind]. rewrite str_lines_nocr by auto.
  rewrite (show_lines_ok es (txt (b_content buf)) (buf_sels sels b)); auto.
Qed.
(** lines are shown even if nothing is known about carriage returns, when there is no selection *)
Lemma show_line_plain i l : show_line [] i l = Ok (map (fun b => (b, false)) (l ++ [32])).
Proof. reflexivity. Qed.
Lemma show_lines_plain ls i : show_lines [] i ls = Ok (map (fun l => map (fun b => (b, false)) (l ++ [32])) ls).
Proof. revert i. induction ls as [|l ls IH]; intro i; cbn [show_lines map]; auto. rewrite show_line_plain. cbn [bind]. rewrite IH. reflexivity. Qed.

(** ** a view made of whole-buffer lenses *)
Definition whole_group (e : text * list lens) : Prop := snd e <> [] /\ Forall (fun l => l = mkLens (fst e) FWhole) (snd e).
Definition whole_view (v : view) : Prop := Forall whole_group v.
(** a buffer the display can handle *)
Definition buf_ok (buf : buffer) : Prop :=
  acc (b_content buf) /\ ascii (txt (b_content buf)) /\ ~ In 13 (txt (b_content buf)) /\ txt (b_content buf) <> [].
Definition item_for (bufs : amap text buffer) (sels : option (amap text (list sel))) (e : text * list lens) : pitem :=
  let x := match get bufs (fst e) with Some b => txt (b_content b) | None => [] end in
  mkPI (fst e) 1 (length (lines_of x)) (map (fun _ => mkPL (shown_lines x (buf_sels sels (fst e))) 1) (snd e)).
Lemma whole_group_focus e : whole_group e -> group_focus (snd e) = Ok FWhole.
Proof.
  intros [N F]. unfold group_focus. destruct (snd e) as [|x g] eqn:E; [congruence|]. cbn [nth_error unwrap bind].
  destruct (rev (x :: g)) as [|y r] eqn:R. { apply (f_equal (@length lens)) in R. rewrite rev_length in R. discriminate. }
  cbn [nth_error unwrap bind]. inversion F; subst. reflexivity.
Qed.
Lemma as_vec_whole v : whole_view v -> as_vec v = Ok (concat (map (fun e => VHeader (fst e) FWhole :: map VLens (snd e)) v)).
Proof.
  induction 1 as [|[b g] v H F IH]; cbn [as_vec]; auto. pose proof (whole_group_focus _ H) as E. cbn [snd] in E. rewrite E.
  rewrite IH. cbn [bind map concat fst snd]. rewrite <- app_comm_cons. reflexivity.
Qed.
Lemma notif_lenses G bufs sels b g rest params cur flush pl :
  Forall (fun l => l = mkLens b FWhole) g -> show_lens G bufs sels (mkLens b FWhole) = Ok pl ->
  notif_loop G bufs sels (map VLens g ++ rest) params cur flush =
  notif_loop G bufs sels rest params (mkPI (pi_buffer cur) (pi_start cur) (pi_end cur) (pi_lenses cur ++ map (fun _ => pl) g)) flush.
Proof.
  intros F E. revert cur. induction F as [|l g -> F IH]; intro cur; cbn [map app notif_loop].
  - rewrite app_nil_r. destruct cur; reflexivity.
  - rewrite E. cbn [bind]. rewrite IH. cbn [pi_buffer pi_start pi_end pi_lenses]. rewrite <- app_assoc. reflexivity.
Qed.
Lemma notif_ok G bufs sels v : whole_view v ->
  (forall b, In b (keys v) -> exists buf, get bufs b = Some buf /\ buf_ok buf /\ Forall (sel_inside (txt (b_content buf))) (buf_sels sels b)) ->
  to_notification_params G v bufs sels = Ok (map (item_for bufs sels) v).
Proof.
  intros W H. unfold to_notification_params. rewrite as_vec_whole by auto. cbn [bind].
  assert (forall params cur flush, (flush = false -> cur = pitem_default) ->
    notif_loop G bufs sels (concat (map (fun e => VHeader (fst e) FWhole :: map VLens (snd e)) v)) params cur flush =
    Ok ((if flush then params ++ [cur] else params) ++ map (item_for bufs sels) v)) as X.
  2:{ rewrite X; auto. }
  induction W as [|[b g] v [N F] W IH]; intros params cur flush Hc; cbn [map concat app notif_loop].
  - now rewrite app_nil_r.
  - cbn [fst snd] in *. destruct (H b (or_introl eq_refl)) as (buf & Eb & (A & As & NC & NE) & I).
    rewrite Eb. cbn [unwrap bind]. rewrite line_count_spec by auto. cbn [bind].
    rewrite (notif_lenses _ _ _ _ _ _ _ _ _ _ F (show_whole_ok G bufs sels b buf Eb A As NC I)).
    rewrite IH by (try discriminate; intros c Hc'; apply H; now right).
    cbn [map]. f_equal. rewrite <- app_assoc. f_equal. cbn [app]. f_equal.
    unfold item_for. cbn [fst snd]. rewrite Eb. cbn [pi_buffer pi_start pi_end pi_lenses].
    destruct flush; [reflexivity|]. rewrite Hc by auto. reflexivity.
Qed.
