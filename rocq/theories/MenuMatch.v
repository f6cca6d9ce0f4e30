(** The matcher of Menu.v on a search made of plain words: it finds the first occurrence, as long as possible. *)
From Coq Require Import String List Arith Lia ZArith Bool.
From Verif Require Import Base ListFacts Maps Utf8 Utf8Spec Utf8Facts Fmt Chars View Json Proto Payload Menu MenuSpec MenuFacts.
Import ListNotations.

(** the pattern built from words *)
Fixpoint elems (ws : list (list text)) : list ritem :=
  match ws with
  | [] => []
  | [w] => IOpen :: map ILit w ++ [IClose]
  | w :: r => IOpen :: map ILit w ++ IClose :: IGap :: elems r
  end.

Section Match.
Variable u : regex_crate.
Variable cs : list text.
(** byte position of character [p] *)
Definition bpos (p : nat) : nat := length (concat (firstn p cs)).
Definition sub_chars (a b : nat) : list text := firstn (b - a) (skipn a cs).
Definition at_word (w : list text) (p : nat) : Prop := same u (firstn (length w) (skipn p cs)) w.
Definition one_line (a b : nat) : Prop := forall k, a <= k -> k < b -> nth_error cs k <> Some [LF].
Inductive chain : list (list text) -> nat -> nat -> list (nat * nat) -> Prop :=
| ch_one w p : at_word w p -> chain [w] p (p + length w) [(p, p + length w)]
| ch_cons w p q v ws e gs : at_word w p -> p + length w <= q -> one_line (p + length w) q -> chain (v :: ws) q e gs ->
    chain (w :: v :: ws) p e ((p, p + length w) :: gs).

Lemma bpos_S p d : nth_error cs p = Some d -> bpos (S p) = bpos p + length d.
Proof.
  intro H. unfold bpos. assert (firstn (S p) cs = firstn p cs ++ [d]) as ->. { revert p H. induction cs as [|c l IH]; intros [|p] H; try discriminate; cbn in *; [congruence|]. f_equal. now apply IH. }
  rewrite concat_app, app_length. cbn [concat]. now rewrite app_nil_r.
Qed.
Lemma skipn_S p d : nth_error cs p = Some d -> skipn p cs = d :: skipn (S p) cs.
Proof. revert p. induction cs as [|c l IH]; intros [|p] H; try discriminate; cbn in *; [congruence|]. now apply IH. Qed.
Lemma at_len w p : at_word w p -> p <= length cs -> p + length w <= length cs.
Proof. unfold at_word, same. intros H L. apply (f_equal (@length text)) in H. rewrite !map_length, firstn_length, skipn_length in H. lia. Qed.

Lemma run_lits k : forall w p, p <= length cs ->
  (at_word w p -> run u (map ILit w ++ k) (skipn p cs) (bpos p) = run u k (skipn (p + length w) cs) (bpos (p + length w))) /\
  (~ at_word w p -> run u (map ILit w ++ k) (skipn p cs) (bpos p) = None).
Proof.
  induction w as [|c w IH]; intros p L.
  - cbn [length map app]. rewrite Nat.add_0_r. split; auto. intro X. exfalso. apply X. unfold at_word, same. reflexivity.
  - destruct (nth_error cs p) as [d|] eqn:N.
    + pose proof (skipn_S p d N) as S. cbn [map app run]. rewrite S. pose proof (bpos_S p d N) as E. rewrite <- E.
      assert (Datatypes.S p <= length cs) as L' by (apply nth_error_Some; congruence). destruct (IH (Datatypes.S p) L') as [I1 I2].
      assert (at_word (c :: w) p <-> fold_char u d = fold_char u c /\ at_word w (Datatypes.S p)) as AW.
      { unfold at_word, same. rewrite S. cbn [length firstn map]. split; [intro X; injection X as X1 X2; auto|intros [X1 X2]; now rewrite X1, X2]. }
      destruct (eqb (fold_char u c) (fold_char u d)) eqn:Q.
      * apply eqb_ok in Q. split; intro X.
        -- apply AW in X. rewrite I1 by apply X. cbn [length]. now replace (p + Datatypes.S (length w)) with (Datatypes.S p + length w) by lia.
        -- apply I2. intro Y. apply X. apply AW. auto.
      * apply eqb_neq in Q. split; intro X; auto. exfalso. apply AW in X. destruct X. congruence.
    + assert (skipn p cs = []) as S. { apply nth_error_None in N. apply skipn_all2. lia. } cbn [map app run]. rewrite S. split; intro X; auto. unfold at_word, same in X. rewrite S in X. discriminate.
Qed.
Lemma at_word_dec w p : at_word w p \/ ~ at_word w p.
Proof. unfold at_word, same. destruct (list_eq_dec (list_eq_dec Nat.eq_dec) (map (fold_char u) (firstn (length w) (skipn p cs))) (map (fold_char u) w)); auto. Qed.

Lemma gap_eq r l pos : run u (IGap :: r) l pos =
  match (match l with d :: q => if eqb d [LF] then None else run u (IGap :: r) q (pos + length d) | [] => None end) with
  | Some x => Some x
  | None => run u r l pos
  end.
Proof. now destruct l. Qed.
Lemma gap_spec r : forall n p, length cs - p = n -> p <= length cs ->
  match run u (IGap :: r) (skipn p cs) (bpos p) with
  | Some x => exists q, p <= q <= length cs /\ one_line p q /\ run u r (skipn q cs) (bpos q) = Some x /\
                forall q', q < q' <= length cs -> one_line p q' -> run u r (skipn q' cs) (bpos q') = None
  | None => forall q, p <= q <= length cs -> one_line p q -> run u r (skipn q cs) (bpos q) = None
  end.
Proof.
  induction n as [|n IH]; intros p E L; rewrite gap_eq.
  - assert (p = length cs) as -> by lia. rewrite skipn_all. destruct (run u r [] (bpos (length cs))) as [x|] eqn:R.
    + exists (length cs). rewrite skipn_all. repeat split; auto; try lia. intros k K1 K2. lia.
    + intros q Q _. assert (q = length cs) as -> by lia. now rewrite skipn_all.
  - assert (exists d, nth_error cs p = Some d) as [d D]. { destruct (nth_error cs p) eqn:Q; [eauto|]. apply nth_error_None in Q. lia. }
    rewrite (skipn_S p d D). rewrite <- (bpos_S p d D). destruct (eqb d [LF]) eqn:Q.
    + apply eqb_ok in Q. subst d. rewrite <- (skipn_S p _ D). assert (forall q', p < q' <= length cs -> one_line p q' -> False) as NO. { intros q' K O. apply (O p); auto; lia. }
      destruct (run u r (skipn p cs) (bpos p)) as [x|] eqn:R.
      * exists p. repeat split; auto; try lia. { intros k; lia. } intros q' K O. exfalso. eauto.
      * intros q K O. destruct (Nat.eq_dec q p) as [->|]; auto. exfalso. apply (NO q); auto. lia.
    + apply eqb_neq in Q. specialize (IH (S p) ltac:(lia) ltac:(lia)). rewrite <- (skipn_S p _ D).
      assert (forall q, p < q -> one_line (S p) q <-> one_line p q) as OL. { intros q Hq. split; intros O k K1 K2; [|apply O; lia]. destruct (Nat.eq_dec k p) as [->|]; [rewrite D; congruence|apply O; lia]. }
      destruct (run u (IGap :: r) (skipn (S p) cs) (bpos (S p))) as [x|].
      * destruct IH as (q & K & O & R & M). exists q. split; [lia|]. split; [apply OL; auto; lia|]. split; auto. intros q' K' O'. apply M; [lia|]. apply OL; auto; lia.
      * destruct (run u r (skipn p cs) (bpos p)) as [x|] eqn:R.
        -- exists p. split; [lia|]. split; [intros k; lia|]. split; auto. intros q' K' O'. apply IH; [lia|]. apply OL; auto; lia.
        -- intros q K O. destruct (Nat.eq_dec q p) as [->|]; auto. apply IH; [lia|]. apply OL; auto; lia.
Qed.

Lemma chain_le ws p e gs : chain ws p e gs -> Forall (fun w => w <> []) ws -> p < length cs /\ p <= e <= length cs.
Proof.
  assert (forall w p, w <> [] -> at_word w p -> p < length cs) as A.
  { intros w q N H. unfold at_word, same in H. apply (f_equal (@length text)) in H. rewrite !map_length, firstn_length, skipn_length in H. destruct w; [congruence|]. cbn [length] in H. lia. }
  induction 1 as [w p H|w p q v ws e gs H L O C IH]; intro F; inversion F as [|? ? N F']; subst.
  - pose proof (A w p N H). pose proof (at_len w p H ltac:(lia)). lia.
  - pose proof (A w p N H). specialize (IH F'). lia.
Qed.
(** an occurrence that begins earlier does not end later than the longest that begins later *)
Lemma chain_later ws p' e' gs' : chain ws p' e' gs' -> forall p e gs, chain ws p e gs -> p' <= p -> exists e2 gs2, chain ws p e2 gs2 /\ e' <= e2.
Proof.
  induction 1 as [w p' H|w p' q' v ws e' gs' H L O C IH]; intros p e gs X P; inversion X; subst.
  - eexists _, _. split; [constructor; auto|lia].
  - match goal with Z : chain (v :: ws) ?q e ?g |- _ => rename Z into C2; rename q into q2 end. destruct (le_lt_dec (p + length w) q') as [K|K].
    + exists e'. eexists. split; [econstructor; eauto|lia]. intros k K1 K2. apply O; lia.
    + destruct (IH q2 e _ C2 ltac:(lia)) as (e2 & gs2 & C3 & E). exists e2. eexists. split; [econstructor; eauto|auto].
Qed.
(** positions of groups, in bytes *)
Definition bgroups (gs : list (nat * nat)) : list (option (nat * nat)) := map (fun g => Some (bpos (fst g), bpos (snd g))) gs.
Lemma run_spec ws : ws <> [] -> Forall (fun w => w <> []) ws -> forall p, p <= length cs ->
  match run u (elems ws) (skipn p cs) (bpos p) with
  | Some (t, e0) => exists e gs, chain ws p e gs /\ e0 = bpos e /\ (forall e' gs', chain ws p e' gs' -> e' <= e) /\ groups t = bgroups gs
  | None => forall e gs, ~ chain ws p e gs
  end.
Proof.
  induction ws as [|w ws IH]; intros N F p L; [congruence|]. inversion F as [|? ? Nw F']; subst. destruct ws as [|v ws].
  - cbn [elems run]. destruct (run_lits [IClose] w p L) as [R1 R2]. destruct (at_word_dec w p) as [A|A].
    + rewrite R1 by auto. cbn [run step]. exists (p + length w), [(p, p + length w)]. split; [now constructor|]. split; auto. split.
      * intros e' gs' C. inversion C; subst. lia.
      * reflexivity.
    + rewrite R2 by auto. cbn [step]. intros e gs C. inversion C; subst. auto.
  - change (elems (w :: v :: ws)) with (IOpen :: map ILit w ++ IClose :: IGap :: elems (v :: ws)). cbn [run]. destruct (run_lits (IClose :: IGap :: elems (v :: ws)) w p L) as [R1 R2].
    destruct (at_word_dec w p) as [A|A].
    2:{ rewrite R2 by auto. cbn [step]. intros e gs C. inversion C; subst. auto. }
    rewrite R1 by auto. pose proof (at_len w p A L) as Lw. change (run u (IClose :: IGap :: elems (v :: ws)) (skipn (p + length w) cs) (bpos (p + length w))) with (step false (bpos (p + length w)) (run u (IGap :: elems (v :: ws)) (skipn (p + length w) cs) (bpos (p + length w)))).
    pose proof (gap_spec (elems (v :: ws)) _ (p + length w) eq_refl Lw) as G. specialize (IH ltac:(congruence) F'). destruct (run u (IGap :: elems (v :: ws)) (skipn (p + length w) cs) (bpos (p + length w))) as [[t e0]|]; cbn [step].
    + destruct G as (q & Q & O & R & M). pose proof (IH q ltac:(lia)) as H. rewrite R in H. destruct H as (e & gs & C & E & X & GR). exists e, ((p, p + length w) :: gs). split; [apply ch_cons with (q := q); auto; lia|]. split; auto. split.
      * intros e' gs' C'. inversion C' as [|w0 p0 q1 v0 ws0 e1 gs1 A1 L1 O1 C1]; subst. destruct (le_lt_dec q1 q) as [K|K].
        -- destruct (chain_later _ _ _ _ C1 q e gs C K) as (e2 & gs2 & C2 & E2). apply X in C2. lia.
        -- exfalso. pose proof (chain_le _ _ _ _ C1 F') as B. assert (run u (elems (v :: ws)) (skipn q1 cs) (bpos q1) = None) as R0 by (apply M; auto; lia).
           pose proof (IH q1 ltac:(lia)) as H. rewrite R0 in H. now apply H in C1.
      * cbn [groups close_of bgroups map fst snd]. now rewrite GR.
    + intros e gs C. inversion C as [|w0 p0 q1 v0 ws0 e1 gs1 A1 L1 O1 C1]; subst. pose proof (chain_le _ _ _ _ C1 F') as B. assert (run u (elems (v :: ws)) (skipn q1 cs) (bpos q1) = None) as R0 by (apply G; auto; lia).
      pose proof (IH q1 ltac:(lia)) as H. rewrite R0 in H. now apply H in C1.
Qed.
Lemma search_spec ws : ws <> [] -> Forall (fun w => w <> []) ws -> forall n p, length cs - p = n -> p <= length cs ->
  match search_from u (elems ws) (skipn p cs) (bpos p) with
  | Some locs => exists p0 e gs, p <= p0 /\ chain ws p0 e gs /\ (forall e' gs', chain ws p0 e' gs' -> e' <= e) /\
                   (forall p' e' gs', p <= p' < p0 -> ~ chain ws p' e' gs') /\ locs = Some (bpos p0, bpos e) :: bgroups gs
  | None => forall p' e gs, p <= p' -> ~ chain ws p' e gs
  end.
Proof.
  intros N F. induction n as [|n IH]; intros p E L; pose proof (run_spec ws N F p L) as R.
  - assert (p = length cs) as -> by lia. rewrite skipn_all in *. cbn [search_from]. destruct (run u (elems ws) [] (bpos (length cs))) as [[t e0]|].
    + destruct R as (e & gs & C & _). apply chain_le in C; auto. lia.
    + intros p' e gs P C. apply chain_le in C; auto. lia.
  - assert (exists d, nth_error cs p = Some d) as [d D]. { destruct (nth_error cs p) eqn:Q; [eauto|]. apply nth_error_None in Q. lia. }
    rewrite (skipn_S p d D) in *. cbn [search_from]. destruct (run u (elems ws) (d :: skipn (S p) cs) (bpos p)) as [[t e0]|].
    + destruct R as (e & gs & C & -> & X & G). exists p, e, gs. split; auto. split; auto. split; auto. split; [intros; lia|]. now rewrite G.
    + rewrite <- (bpos_S p d D). specialize (IH (S p) ltac:(lia) ltac:(lia)). destruct (search_from u (elems ws) (skipn (S p) cs) (bpos (S p))) as [locs|].
      * destruct IH as (p0 & e & gs & P & C & X & Y & EQ). exists p0, e, gs. split; [lia|]. split; auto. split; auto. split; auto. intros p' e' gs' K. destruct (Nat.eq_dec p' p) as [->|]; [apply R|apply Y; lia].
      * intros p' e gs P. destruct (Nat.eq_dec p' p) as [->|]; [apply R|apply IH; lia].
Qed.

(** ** the specification's vocabulary *)
Lemma sub_split a b c : a <= b -> b <= c -> c <= length cs -> sub_chars a c = sub_chars a b ++ sub_chars b c.
Proof.
  intros A B C. unfold sub_chars. rewrite <- (firstn_skipn (b - a) (firstn (c - a) (skipn a cs))). rewrite firstn_firstn, Nat.min_l by lia. f_equal.
  rewrite skipn_firstn_comm, skipn_skipn. f_equal; [lia|]. f_equal. lia.
Qed.
Lemma one_line_sub a b : b <= length cs -> one_line a b <-> ~ In [LF] (sub_chars a b).
Proof.
  intro B. unfold sub_chars. split.
  - intros O I. apply In_nth_error in I. destruct I as (k & K). assert (k < length (firstn (b - a) (skipn a cs))) as Lk by (apply nth_error_Some; congruence).
    rewrite firstn_length, skipn_length in Lk. rewrite nth_error_firstn, nth_error_skipn in K. destruct (Nat.ltb_spec k (b - a)); [|discriminate]. apply (O (a + k)) in K; auto; lia.
  - intros N k K1 K2 X. apply N. apply nth_error_In with (k - a). rewrite nth_error_firstn, nth_error_skipn. destruct (Nat.ltb_spec (k - a) (b - a)); [|lia]. now replace (a + (k - a)) with k by lia.
Qed.
Lemma chain_threads ws p e gs : chain ws p e gs -> Forall (fun w => w <> []) ws -> threads u ws (sub_chars p e).
Proof.
  induction 1 as [w p H|w p q v ws e gs H L O C IH]; intro F; inversion F as [|? ? N F']; subst.
  - constructor. unfold sub_chars. replace (p + length w - p) with (length w) by lia. symmetry. exact H.
  - pose proof (chain_le _ _ _ _ C F'). rewrite (sub_split p (p + length w) e) by lia. rewrite (sub_split (p + length w) q e) by lia. constructor; auto.
    + unfold sub_chars. replace (p + length w - p) with (length w) by lia. symmetry. exact H.
    + now apply one_line_sub; [lia|].
Qed.
Lemma threads_chain ws x : threads u ws x -> ws <> [] -> forall pre post, cs = pre ++ x ++ post -> exists gs, chain ws (length pre) (length pre + length x) gs.
Proof.
  assert (forall w x pre post, same u w x -> cs = pre ++ x ++ post -> length w = length x /\ at_word w (length pre)) as A.
  { intros w y pre post S E. assert (length w = length y) as Lw by (apply (f_equal (@length text)) in S; now rewrite !map_length in S). split; auto. unfold at_word. rewrite E, skipn_app, skipn_all, Nat.sub_diag, skipn_O. cbn [app]. rewrite Lw, firstn_app, firstn_all, Nat.sub_diag, firstn_O, app_nil_r. symmetry. exact S. }
  induction 1 as [|w x S|w x gap v ws y S G T IH]; intros N pre post E; [congruence| |].
  - destruct (A w x pre post S E) as [Lw H]. rewrite <- Lw. eexists. now constructor.
  - assert (cs = pre ++ x ++ (gap ++ y ++ post)) as E' by (rewrite E, <- !app_assoc; reflexivity). destruct (A w x pre _ S E') as [Lw H].
    destruct (IH ltac:(congruence) (pre ++ x ++ gap) post) as [gs C]. { rewrite E, <- !app_assoc. reflexivity. }
    rewrite !app_length in *. exists ((length pre, length pre + length w) :: gs). replace (length pre + (length x + (length gap + length y))) with (length pre + (length x + length gap) + length y) by lia.
    apply ch_cons with (q := length pre + (length x + length gap)); auto; [lia|]. apply one_line_sub; [rewrite E, !app_length; lia|].
    unfold sub_chars. rewrite Lw. replace (length pre + (length x + length gap) - (length pre + length x)) with (length gap) by lia.
    rewrite E. rewrite <- (app_length pre x). rewrite app_assoc, <- app_assoc. rewrite <- app_assoc. rewrite <- (app_assoc gap y post). rewrite app_assoc. rewrite skipn_app, skipn_all, Nat.sub_diag, skipn_O. cbn [app]. rewrite firstn_app, firstn_all, Nat.sub_diag, firstn_O, app_nil_r. auto.
Qed.
End Match.
