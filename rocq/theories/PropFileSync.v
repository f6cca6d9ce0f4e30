(** C83: when a file that is already open is edited again. *)
From Coq Require Import String List Arith Lia Bool Permutation.
From Verif Require Import Base ListFacts LineSpec PieceTable PieceTableSpec PieceTableFacts PieceTableEdits PieceTableDelete Coords CoordsFacts Utf8 Utf8Facts HistoryFacts History Diff DiffSpec DiffFacts DiffApply PropDiff
  Selection Maps StackMap Fmt Buffer View ViewSpec ViewFacts Core CoreSpec CoreInv CoreOps CoreAll Profiles PropCore GraphemeInst FileSyncSpec FileSync.
Import ListNotations.

(** ** a file that did not change *)
(** read after [m] *)
Definition read_after (m : nat) (name n : text) (u : buffer) : Prop := n = name -> forall f, b_source u = SFile f -> exists dt, b_sync u = Some dt /\ m < dt.
Section Same.
Variable G : Graphemes.
Variable pol : policy.
Variable m : nat.
Variable name : text.
Lemma after_load d n u r u' : m < dk_now d -> read_after m name n u -> load_from_disk pol d u = Ok (r, u') -> read_after m name n u'.
Proof.
  intros D N E. unfold load_from_disk in E. destruct (b_source u) as [x|f] eqn:S; [injection E as _ <-; exact N|]. destruct (is_synced d u); [injection E as _ <-; exact N|]. bnd E. bnd E. injection E as _ <-. intros _ g _. exists (dk_now d). split; [reflexivity|exact D].
Qed.
Lemma after_meanwhile k k' : meanwhile G pol (fun d => m < dk_now d) k k' -> each (read_after m name) (k_buffers k) -> each (read_after m name) (k_buffers k').
Proof.
  intros M H. apply (held_meanwhile G pol (k_cwd k) (fun d => m < dk_now d) (read_after m name)) in M; [apply M| | | | |split; [reflexivity|exact H]].
  - intros n x y _ f X. discriminate.
  - intros d n u D X. unfold new_file in X. bnd X. injection X as <-. intros _ f _. exists (dk_now d). split; [reflexivity|exact D].
  - intros n u t N. exact N.
  - intros d n u r u'. apply after_load.
Qed.
End Same.
Lemma edit_each G pol d id name k r k' : run_call G pol d (CEdit id name false) k = Ok (r, k') -> name <> b_debug ->
  exists b, get (k_buffers k') name = Some b /\ edit_buffer pol d k name false b.
Proof. intros E N. cbn [run_call] in E. bnd E. injection E as _ <-. apply edit_spec in E0. cbv zeta in E0. destruct E0 as (c & _ & _ & _ & _ & _ & _ & H & _). exact (H N). Qed.
Lemma meanwhile_cwd G pol P k k' : meanwhile G pol P k k' -> k_cwd k' = k_cwd k.
Proof.
  intro M. apply (held_meanwhile G pol (k_cwd k) P (fun _ _ => True)) in M; try (intros; exact Logic.I); [apply M|]. split; [reflexivity|]. apply Forall_forall. intros; exact Logic.I.
Qed.
Lemma edit_cwd G pol d id name k r k' : run_call G pol d (CEdit id name false) k = Ok (r, k') -> k_cwd k' = k_cwd k.
Proof. intros E. cbn [run_call] in E. bnd E. injection E as _ <-. apply edit_spec in E0. cbv zeta in E0. destruct E0 as (c & _ & H & _). exact H. Qed.
(** A file is edited, and edited again, by the same client or another: if it was not written in between, the second time changes nothing of the text,
    whatever was done to it in between is kept.  ([m] is when the file was last written, before it was first edited.) *)
Theorem C83_kept : forall G pol k0 d1 id1 name r1 k1 k2 d2 id2 r2 k3 m,
  reach G pol k0 -> name <> b_debug ->
  run_call G pol d1 (CEdit id1 name false) k0 = Ok (r1, k1) -> dk_mtime d1 (file_of k0 name) = Some m -> m < dk_now d1 ->
  meanwhile G pol (fun d => m < dk_now d) k1 k2 ->
  run_call G pol d2 (CEdit id2 name false) k2 = Ok (r2, k3) -> dk_mtime d2 (file_of k0 name) = Some m ->
  forall x, text_in k2 name x -> text_in k3 name x.
Proof.
  intros G pol k0 d1 id1 name r1 k1 k2 d2 id2 r2 k3 m R Nd E1 M1 Lt Mw E2 M2 x (b & Gb & Tb).
  assert (reach G pol k1) as R1 by (eapply reach_call; eauto).
  assert (reach G pol k2) as R2. { clear - Mw R1. induction Mw; [exact R1|eapply reach_call; eauto|eapply reach_shuffle; eauto]. }
  assert (k_cwd k2 = k_cwd k0) as W2 by (rewrite (meanwhile_cwd _ _ _ _ _ Mw); eapply edit_cwd; eauto).
  assert (each (read_after m name) (k_buffers k1)) as H1.
  { destruct (edit_each G pol d1 id1 name k0 r1 k1 E1 Nd) as (b1 & G1 & Ed). apply Forall_forall. intros [n u] I En f Sf. cbn [fst snd] in *. subst n.
    assert (get (k_buffers k1) name = Some u) as Gu by (apply get_uniq; [apply (i_0 _ (reach_inv _ _ _ R1))|exact I]). rewrite G1 in Gu. injection Gu as ->. clear I. unfold edit_buffer in Ed.
    destruct (get (k_buffers k0) name) as [b0|] eqn:Q.
    - destruct Ed as (rl & Ed). unfold load_from_disk in Ed. destruct (b_source b0) as [y|g] eqn:S0; [injection Ed as _ <-; congruence|].
      pose proof (each_get _ _ _ _ (proj2 (reach_named _ _ _ R)) Q g S0) as Hg. subst g.
      destruct (is_synced d1 b0) eqn:Y.
      + injection Ed as _ <-. unfold is_synced in Y. rewrite S0 in Y. destruct (b_sync b0) as [dt|]; [|discriminate]. unfold file_of in M1. rewrite M1 in Y. apply Nat.ltb_lt in Y. eauto.
      + bnd Ed. bnd Ed. injection Ed as _ <-. exists (dk_now d1). split; [reflexivity|exact Lt].
    - unfold new_file in Ed. bnd Ed. injection Ed as <-. exists (dk_now d1). split; [reflexivity|exact Lt]. }
  pose proof (after_meanwhile _ _ _ _ _ _ Mw H1) as H2. pose proof (each_get _ _ _ _ H2 Gb eq_refl) as Hb.
  destruct (edit_each G pol d2 id2 name k2 r2 k3 E2 Nd) as (b3 & G3 & Ed). exists b3. split; [exact G3|]. unfold edit_buffer in Ed. rewrite Gb in Ed. destruct Ed as (rl & Ed). unfold load_from_disk in Ed. destruct (b_source b) as [y|g] eqn:S0; [injection Ed as _ <-; exact Tb|].
  pose proof (each_get _ _ _ _ (proj2 (reach_named _ _ _ R2)) Gb g S0) as Hg. subst g. destruct (Hb _ eq_refl) as (dt & Sy & Ld).
  assert (is_synced d2 b = true) as Y. { unfold is_synced. rewrite S0, Sy, W2. unfold file_of in M2. rewrite M2. now apply Nat.ltb_lt. }
  rewrite Y in Ed. injection Ed as _ <-. exact Tb.
Qed.
Print Assumptions C83_kept.

(** ** a file that changed *)
Definition no_bulk (t : pt) : Prop := t_last t <> Some ABulk.
Lemma action_no_bulk a t : a <> ABulk -> no_bulk t -> no_bulk (pt_action a t).
Proof. unfold no_bulk, pt_action. intros A N. destruct (t_last t) as [b|] eqn:E; [|cbn; congruence]. destruct b; try (now rewrite <- E in N); try (destruct (action_eqb _ _); cbn; congruence). Qed.
Lemma append_no_bulk x t t' : no_bulk t -> pt_append x t = Ok t' -> no_bulk t'.
Proof. intros N E. unfold pt_append in E. bnd E. injection E as <-. apply (action_no_bulk AInsert t); [discriminate|exact N]. Qed.
Lemma delete_no_bulk pol o n t t' : no_bulk t -> pt_delete pol o n t = Ok t' -> no_bulk t'.
Proof.
  intros N E. assert (no_bulk (pt_action ADelete t)) as A by (apply action_no_bulk; [discriminate|exact N]). unfold pt_delete in E. set (u := pt_action ADelete t) in *. clearbody u.
  destruct (_ && _); [injection E as <-; exact A|]. destruct (get_node (t_pieces u) o) as [[[pre p] post]|]; [|injection E as <-; exact A]. destruct (take_while _ _) as [|first h]; [discriminate|].
  bnd E. destruct v as [hd hd']. bnd E. destruct v as [tl' tl]. bnd E. bnd E. bnd E. bnd E. bnd E. injection E as <-. exact A.
Qed.
Lemma sels_no_bulk G pol ss : forall t xs t', delete_sels G pol ss t = Ok (xs, t') -> no_bulk t -> no_bulk t'.
Proof.
  induction ss as [|s ss IH]; intros t xs t' E N; cbn [delete_sels] in E; [now injection E as _ <-|]. bnd E. destruct v as [b e]. bnd E. bnd E. destruct v0 as [x|]; [|eauto].
  bnd E. bnd E. destruct v1 as [ys t2]. injection E as _ <-. eapply IH; eauto. eapply delete_no_bulk; eauto.
Qed.
(** an accurate table, between two edits, last read at [m] or before *)
Definition at_rest (m : nat) (u : buffer) : Prop := acc (b_content u) /\ no_bulk (b_content u) /\ forall dt, b_sync u = Some dt -> dt <= m.
Section Changed.
Variable G : Graphemes.
Variable pol : policy.
Variable m : nat.
Lemma rest_all p k : policy_wrap p -> reached_while G p (fun d => dk_now d <= m) k -> every (at_rest m) (k_buffers k).
Proof.
  intro P. assert (forall n x, at_rest m (new_scratch n x)) as Qs.
  { intros n x. split; [apply with_acc; destruct x; discriminate|]. split; [discriminate|intros dt X; discriminate]. }
  assert (forall x u u', at_rest m u -> x <> [] -> buf_append x u = Ok u' -> at_rest m u') as Qa.
  { intros x u u' (A & N & S) Hx X. unfold buf_append in X. bnd X. injection X as <-. split; [eapply append_acc; eauto|]. split; [eapply append_no_bulk; eauto|exact S]. }
  induction 1 as [cwd args k E|d c k r k' R IH D Fe E|k k' R IH S].
  - exact (every_init G (at_rest m) Qs Qa cwd args k E).
  - refine (every_call G p (fun d => dk_now d <= m) (at_rest m) Qs _ Qa _ _ d c k r k' D Fe E IH).
    + intros d0 f u D0 X. unfold new_file in X. bnd X. injection X as <-. split; [apply with_acc; destruct (ends_lf v) eqn:En; [|now destruct v]; destruct v; [|discriminate]; cbn in En; discriminate|]. split; [discriminate|]. intros dt Y. injection Y as <-. exact D0.
    + intros d0 u r0 u' D0 (A & N & S) X. unfold load_from_disk in X. destruct (b_source u); [injection X as _ <-; repeat split; auto; apply A|]. destruct (is_synced d0 u); [injection X as _ <-; repeat split; auto; apply A|]. bnd X. bnd X. injection X as _ <-.
      split; [eapply apply_diff_acc; eauto|]. split; [|intros dt Y; injection Y as <-; exact D0]. cbn [b_content]. unfold pt_apply_diff in E1. bnd E1. bnd E1. bnd E1. match type of E1 with (let '(_, _) := ?z in _) = _ => destruct z as [[lo ro] t2] end. injection E1 as <-. discriminate.
    + intros ss u xs t t' (A & N & S) E1 E2. pose proof (delete_sels_acc _ _ _ P _ _ _ E1 A) as A1. pose proof (sels_no_bulk _ _ _ _ _ _ E1 N) as N1. destruct (pt_is_empty t).
      * split; [refine (append_acc [LF] t t' A1 _ E2); discriminate|]. split; [eapply append_no_bulk; eauto|exact S].
      * injection E2 as <-. repeat split; auto; apply A1.
  - exact (every_shuffle (at_rest m) k k' S IH).
Qed.
End Changed.
Lemma while_release G pol P k : policy_succ pol -> reached_while G pol P k -> reached_while G pol_wrap P k.
Proof.
  intro S. induction 1 as [cwd args k E|d c k r k' R IH D Fe E|k k' R IH X]; [eapply rw_init; eauto| |eapply rw_shuffle; eauto]. eapply rw_call; [exact IH|exact D|exact Fe|]. apply (le_call pol S). exact E.
Qed.
Lemma while_reach G pol P k : reached_while G pol P k -> reach G pol k.
Proof. induction 1; [eapply reach_init|eapply reach_call|eapply reach_shuffle]; eauto. Qed.
(** Any document between two edits is one of the documents of History.v. *)
Lemma sim_self t : wf t -> no_bulk t -> sim t (mkDoc (txt t) (run_of (t_last t)) (utxts t) (rtxts t)).
Proof. intros W N. unfold sim. cbn [d_text d_run d_past d_future]. repeat split; auto; apply W. Qed.
(** A file that was written after everything done so far is edited again: the buffer becomes what the file is. *)
Theorem C83_reread_partial : forall G pol m k d id name r k' x s ds,
  policy_wrap pol \/ policy_succ pol -> reached_while G pol (fun d => dk_now d <= m) k -> name <> b_debug -> from_file k name ->
  run_call G pol d (CEdit id name false) k = Ok (r, k') -> dk_mtime d (file_of k name) = Some m -> dk_read d (file_of k name) = Some s ->
  text_in k name x -> reads_as k name x -> diff x s = Ok ds -> covers ds x s ->
  text_in k' name s.
Proof.
  intros G pol m k d id name r k' x s ds P0 R0 Nd (b0 & f & Gb & Sf) E Mt Rd (b & Gb' & Tb) (b1 & Gb1 & Ts) Ed C. rewrite Gb in Gb'. injection Gb' as <-. rewrite Gb in Gb1. injection Gb1 as <-.
  assert (exists p, policy_wrap p /\ reached_while G p (fun d => dk_now d <= m) k /\ run_call G p d (CEdit id name false) k = Ok (r, k')) as (p & P & R & E').
  { destruct P0 as [Q|Q]; [eauto|]. exists pol_wrap. split; [exact pol_wrap_ok|]. split; [eapply while_release; eauto|]. apply (le_call pol Q). exact E. }
  pose proof (each_get _ _ _ _ (proj2 (reach_named _ _ _ (while_reach _ _ _ _ R))) Gb f Sf) as Hf. subst f.
  destruct (every_get _ _ _ _ (rest_all G m p k P R) Gb) as ([W Nl] & Nb & Sy).
  destruct (edit_each G p d id name k r k' E' Nd) as (b' & Gb' & Ek). unfold edit_buffer in Ek. rewrite Gb in Ek. destruct Ek as (rl & Ek). unfold load_from_disk in Ek. rewrite Sf in Ek.
  assert (is_synced d b0 = false) as Y. { unfold is_synced. rewrite Sf. destruct (b_sync b0) as [dt|] eqn:Q; [|reflexivity]. unfold file_of in Mt. rewrite Mt. apply Nat.ltb_ge. now apply Sy. }
  rewrite Y in Ek. unfold file_of in Rd. rewrite Rd in Ek. cbn [unwrap bind] in Ek.
  assert (txt (b_content b0) = x) as Tx by (rewrite pt_text_txt in Tb by exact W; congruence).
  destruct (diff_fits _ _ _ Ed) as (_ & F1 & F2).
  destruct (pt_apply_diff p s (b_content b0)) as [t'| |] eqn:Ea; cbn [bind] in Ek; try discriminate.
  destruct (apply_diff_ok p s (b_content b0) _ x ds P (sim_self _ W Nb) Ts Ed (apply_diff_chars _ _ _ _ _ _ Ts Ed Ea)) as (t2 & Ea2 & S' & _). rewrite Ea in Ea2. injection Ea2 as <-.
  injection Ek as _ <-. exists (mkBuf (SFile (path_join (k_cwd k) name)) t' (Some (dk_now d))). split; [exact Gb'|]. cbn [b_content]. rewrite pt_text_txt by apply S'. f_equal.
  destruct S' as (_ & _ & -> & _). cbn [d_text]. rewrite Tx. pose proof (s_changes_script s ds 0 0 [] x eq_refl F1 F2) as X. simpl in X. rewrite X. now apply C13_covering_partial.
Qed.
Print Assumptions C83_reread_partial.

(** ** which file *)
(** An absolute name is the path of the file; any other is looked up in the directory the editor was started in. *)
Theorem C83_path : forall G pol d id name k r k' s, name <> b_debug -> ~ open k name -> run_call G pol d (CEdit id name false) k = Ok (r, k') ->
  (exists rest, name = str "/" ++ rest /\ dk_read d name = Some s) \/
  (hd 0 name <> 47 /\ k_cwd k <> [] /\ last (k_cwd k) 0 <> 47 /\ dk_read d (k_cwd k ++ str "/" ++ name) = Some s) ->
  text_in k' name (if ends_lf s then s else s ++ [LF]).
Proof.
  intros G pol d id name k r k' s Nd No E H. destruct (edit_each G pol d id name k r k' E Nd) as (b & Gb & Ed). exists b. split; [exact Gb|]. unfold edit_buffer in Ed.
  destruct (get (k_buffers k) name) as [b0|] eqn:Q; [exfalso; apply No; unfold open; eapply get_key_in; eauto|].
  assert (dk_read d (path_join (k_cwd k) name) = Some s) as Rd.
  { destruct H as [(rest & -> & H)|(Hn & Hc & Hl & H)]; [exact H|]. rewrite <- H. f_equal. unfold path_join. destruct (exists_last Hc) as (c & z & Ez). rewrite Ez in *. rewrite rev_unit. rewrite last_last in Hl.
    destruct name as [|n name]; [|cbn [hd] in Hn]; repeat match goal with |- context [match ?v with 0 => _ | S _ => _ end] => destruct v; try reflexivity; try (exfalso; lia) end. }
  unfold new_file in Ed. rewrite Rd in Ed. cbn [unwrap bind] in Ed. injection Ed as <-. cbn [b_content]. assert ((if ends_lf s then s else s ++ [LF]) <> []) as Hs. { destruct (ends_lf s) eqn:En; [|now destruct s]. intros ->. discriminate. }
  destruct (sim_init _ Hs) as [S _]. rewrite pt_text_txt by apply S. f_equal. apply S.
Qed.
Print Assumptions C83_path.

(** ** examples *)
(** the file /w/f, as written at time 3, later at time 12 *)
Definition disk_at (x : text) (written now : nat) : disk := mkDisk (fun f => if eqb f (str "/w/f") then Some x else None) (fun f => if eqb f (str "/w/f") then Some written else None) now.
Definition opened_at (d : disk) : res core := k <- editor_init utf8_graphemes (str "/w") (str "ced") ;; '(_, k) <- run_call utf8_graphemes pol_wrap d (CJoin 1) k ;; Ok k.
Definition again (d : disk) (cs : list call) (x : res core) : res core := k <- x ;; run_calls utf8_graphemes pol_wrap d cs k.
Definition read_text (x : res core) : option text := match x with Ok k => match get (k_buffers k) (str "f") with Some b => match pt_text (b_content b) with Ok t => Some t | _ => None end | None => None end | _ => None end.
Definition edit_f : call := CEdit 1 (str "f") false.
(** Opened at 5; a character is deleted at 6; edited again at 9: the deletion is kept, and a deletion made after that is kept too. *)
Example C83_kept_demo :
  read_text (again (disk_at (str "hello" ++ [LF]) 3 9) [edit_f] (again (disk_at (str "hello" ++ [LF]) 3 6) [CDeleteSelection 1] (again (disk_at (str "hello" ++ [LF]) 3 5) [edit_f] (opened_at no_disk)))) = Some (str "ello" ++ [LF]).
Proof. vm_compute. reflexivity. Qed.
(** The file is written at 12, and read again at 15; what is deleted at 16 is kept at 18. *)
Example C83_reread_demo : let k := again (disk_at (str "cd" ++ [LF]) 12 15) [edit_f] (again (disk_at (str "ab" ++ [LF]) 3 5) [edit_f] (opened_at no_disk)) in
  read_text k = Some (str "cd" ++ [LF]) /\
  read_text (again (disk_at (str "cd" ++ [LF]) 12 18) [edit_f] (again (disk_at (str "cd" ++ [LF]) 12 16) [CDeleteSelection 1] k)) = Some (str "d" ++ [LF]).
Proof. split; vm_compute; reflexivity. Qed.
(** the hypotheses of C83_kept, in the first example *)
Example C83_kept_met : exists k0 r1 k1 r2 k2 r3 k3, reach utf8_graphemes pol_wrap k0 /\
  run_call utf8_graphemes pol_wrap (disk_at (str "hello" ++ [LF]) 3 5) edit_f k0 = Ok (r1, k1) /\
  run_call utf8_graphemes pol_wrap (disk_at (str "hello" ++ [LF]) 3 6) (CDeleteSelection 1) k1 = Ok (r2, k2) /\
  meanwhile utf8_graphemes pol_wrap (fun d => 3 < dk_now d) k1 k2 /\
  run_call utf8_graphemes pol_wrap (disk_at (str "hello" ++ [LF]) 3 9) edit_f k2 = Ok (r3, k3) /\
  dk_mtime (disk_at (str "hello" ++ [LF]) 3 9) (file_of k0 (str "f")) = Some 3 /\ text_in k2 (str "f") (str "ello" ++ [LF]) /\ text_in k3 (str "f") (str "ello" ++ [LF]).
Proof.
  destruct (opened_at no_disk) as [k0| |] eqn:E0; [|exfalso; vm_compute in E0; discriminate..].
  assert (eqb (match opened_at no_disk with Ok k => k_cwd k | _ => [] end) (str "/w") = true) as W by (vm_compute; reflexivity). rewrite E0 in W. apply eqb_ok in W.
  assert (reach utf8_graphemes pol_wrap k0) as R. { unfold opened_at in E0. bnd E0. bnd E0. destruct v0 as [r k]. injection E0 as <-. eapply reach_call; [|exact E1]. eapply reach_init; exact E. }
  assert (match again (disk_at (str "hello" ++ [LF]) 3 9) [edit_f] (again (disk_at (str "hello" ++ [LF]) 3 6) [CDeleteSelection 1] (again (disk_at (str "hello" ++ [LF]) 3 5) [edit_f] (opened_at no_disk))) with Ok _ => true | _ => false end = true) as K by (vm_compute; reflexivity).
  assert (read_text (again (disk_at (str "hello" ++ [LF]) 3 6) [CDeleteSelection 1] (again (disk_at (str "hello" ++ [LF]) 3 5) [edit_f] (opened_at no_disk))) = Some (str "ello" ++ [LF])) as T by (vm_compute; reflexivity).
  rewrite E0 in K, T. clear E0. unfold again in K, T. cbn [bind run_calls] in K, T.
  destruct (run_call utf8_graphemes pol_wrap (disk_at (str "hello" ++ [LF]) 3 5) edit_f k0) as [[r1 k1]| |] eqn:E1; cbn [bind] in K, T; try discriminate.
  destruct (run_call utf8_graphemes pol_wrap (disk_at (str "hello" ++ [LF]) 3 6) (CDeleteSelection 1) k1) as [[r2 k2]| |] eqn:E2; cbn [bind] in K, T; try discriminate.
  destruct (run_call utf8_graphemes pol_wrap (disk_at (str "hello" ++ [LF]) 3 9) edit_f k2) as [[r3 k3]| |] eqn:E3; cbn [bind] in K; try discriminate. clear K.
  assert (meanwhile utf8_graphemes pol_wrap (fun d => 3 < dk_now d) k1 k2) as M by (eapply mw_call; [apply mw_none| |exact E2]; cbn; lia).
  assert (text_in k2 (str "f") (str "ello" ++ [LF])) as T2. { unfold read_text in T. destruct (get (k_buffers k2) (str "f")) as [b|] eqn:Gb; [|discriminate]. destruct (pt_text (b_content b)) as [t| |] eqn:Tb; try discriminate. injection T as ->. exists b. auto. }
  assert (dk_mtime (disk_at (str "hello" ++ [LF]) 3 9) (file_of k0 (str "f")) = Some 3) as M9 by (unfold file_of; rewrite W; reflexivity).
  exists k0, r1, k1, r2, k2, r3, k3. split; [exact R|]. split; [exact E1|]. split; [exact E2|]. split; [exact M|]. split; [exact E3|]. split; [exact M9|]. split; [exact T2|].
  refine (C83_kept utf8_graphemes pol_wrap k0 _ 1 (str "f") r1 k1 k2 _ 1 r3 k3 3 R _ E1 _ _ M E3 M9 _ T2); [discriminate|exact M9|cbn; lia].
Qed.
Print Assumptions C83_kept_met.
(** the hypotheses of C83_reread_partial, in the second example *)
Example C83_reread_met : exists k r k' ds, let s := str "cd" ++ [LF] in let x := str "ab" ++ [LF] in
  reached_while utf8_graphemes pol_wrap (fun d => dk_now d <= 12) k /\ from_file k (str "f") /\
  run_call utf8_graphemes pol_wrap (disk_at s 12 15) edit_f k = Ok (r, k') /\
  dk_mtime (disk_at s 12 15) (file_of k (str "f")) = Some 12 /\ dk_read (disk_at s 12 15) (file_of k (str "f")) = Some s /\
  text_in k (str "f") x /\ reads_as k (str "f") x /\ diff x s = Ok ds /\ covers ds x s /\ text_in k' (str "f") s.
Proof.
  destruct (opened_at no_disk) as [k0| |] eqn:E0; [|exfalso; vm_compute in E0; discriminate..].
  assert (eqb (match opened_at no_disk with Ok k => k_cwd k | _ => [] end) (str "/w") = true) as W by (vm_compute; reflexivity). rewrite E0 in W. apply eqb_ok in W.
  assert (reached_while utf8_graphemes pol_wrap (fun d => dk_now d <= 12) k0) as R. { unfold opened_at in E0. bnd E0. bnd E0. destruct v0 as [r k]. injection E0 as <-. apply (fun a b => rw_call _ _ (fun d => dk_now d <= 12) no_disk (CJoin 1) _ _ _ a b Logic.I E1); [eapply rw_init; exact E|cbn; lia]. }
  assert (match again (disk_at (str "cd" ++ [LF]) 12 15) [edit_f] (again (disk_at (str "ab" ++ [LF]) 3 5) [edit_f] (opened_at no_disk)) with Ok _ => true | _ => false end = true) as K by (vm_compute; reflexivity).
  assert (match again (disk_at (str "ab" ++ [LF]) 3 5) [edit_f] (opened_at no_disk) with Ok k => match get (k_buffers k) (str "f") with Some b => match b_source b, pt_text (b_content b), pt_string (b_content b) with SFile _, Ok x, Ok y => eqb x (str "ab" ++ [LF]) && eqb y (str "ab" ++ [LF]) | _, _, _ => false end | None => false end | _ => false end = true) as T by (vm_compute; reflexivity).
  rewrite E0 in K, T. clear E0. unfold again in K, T. cbn [bind run_calls] in K, T.
  destruct (run_call utf8_graphemes pol_wrap (disk_at (str "ab" ++ [LF]) 3 5) edit_f k0) as [[r1 k1]| |] eqn:E1; cbn [bind] in K, T; try discriminate.
  destruct (run_call utf8_graphemes pol_wrap (disk_at (str "cd" ++ [LF]) 12 15) edit_f k1) as [[r2 k2]| |] eqn:E2; cbn [bind] in K; try discriminate. clear K.
  assert (reached_while utf8_graphemes pol_wrap (fun d => dk_now d <= 12) k1) as R1 by (apply (fun b => rw_call _ _ (fun d => dk_now d <= 12) _ edit_f _ _ _ R b Logic.I E1); cbn; lia).
  destruct (get (k_buffers k1) (str "f")) as [b|] eqn:Gb; [|discriminate]. destruct (b_source b) as [|g] eqn:Sb; [discriminate|]. destruct (pt_text (b_content b)) as [x| |] eqn:Tx; try discriminate. destruct (pt_string (b_content b)) as [y| |] eqn:Ty; try discriminate.
  apply andb_prop in T. destruct T as [T1 T2]. apply eqb_ok in T1. apply eqb_ok in T2. subst x y.
  assert (file_of k1 (str "f") = str "/w/f") as F by (unfold file_of; rewrite (edit_cwd _ _ _ _ _ _ _ _ E1), W; reflexivity).
  assert (exists ds, diff (str "ab" ++ [LF]) (str "cd" ++ [LF]) = Ok ds /\ covers ds (str "ab" ++ [LF]) (str "cd" ++ [LF])) as (ds & Ed & C) by (eexists; split; [vm_compute; reflexivity|vm_compute; auto]).
  assert (from_file k1 (str "f")) as Ff by (exists b, g; auto). assert (text_in k1 (str "f") (str "ab" ++ [LF])) as Tk by (exists b; auto). assert (reads_as k1 (str "f") (str "ab" ++ [LF])) as Rk by (exists b; auto).
  exists k1, r2, k2, ds. cbv zeta. split; [exact R1|]. split; [exact Ff|]. split; [exact E2|]. rewrite F. split; [reflexivity|]. split; [reflexivity|]. split; [exact Tk|]. split; [exact Rk|]. split; [exact Ed|]. split; [exact C|].
  refine (C83_reread_partial utf8_graphemes pol_wrap 12 k1 _ 1 (str "f") r2 k2 _ _ ds (or_introl pol_wrap_ok) R1 _ Ff E2 _ _ Tk Rk Ed C); [discriminate|rewrite F; reflexivity..].
Qed.
Print Assumptions C83_reread_met.
(** The clock is read after the file: if the file is written at 4, after it was read and before the clock said 5, the new content is never shown:
    the file counts as unchanged for as long as nobody writes it again. *)
Theorem C83_race_refuted : exists k0 r1 k1, reach utf8_graphemes pol_wrap k0 /\
  run_call utf8_graphemes pol_wrap (disk_at (str "old" ++ [LF]) 3 5) edit_f k0 = Ok (r1, k1) /\ text_in k1 (str "f") (str "old" ++ [LF]) /\
  forall k2 now r3 k3, meanwhile utf8_graphemes pol_wrap (fun d => 4 < dk_now d) k1 k2 -> text_in k2 (str "f") (str "old" ++ [LF]) ->
    run_call utf8_graphemes pol_wrap (disk_at (str "new" ++ [LF]) 4 now) edit_f k2 = Ok (r3, k3) -> text_in k3 (str "f") (str "old" ++ [LF]).
Proof.
  destruct (opened_at no_disk) as [k0| |] eqn:E0; [|exfalso; vm_compute in E0; discriminate..].
  assert (eqb (match opened_at no_disk with Ok k => k_cwd k | _ => [] end) (str "/w") = true) as W by (vm_compute; reflexivity). rewrite E0 in W. apply eqb_ok in W.
  assert (reach utf8_graphemes pol_wrap k0) as R. { unfold opened_at in E0. bnd E0. bnd E0. destruct v0 as [r k]. injection E0 as <-. eapply reach_call; [|exact E1]. eapply reach_init; exact E. }
  assert (read_text (again (disk_at (str "old" ++ [LF]) 3 5) [edit_f] (opened_at no_disk)) = Some (str "old" ++ [LF])) as T by (vm_compute; reflexivity).
  assert (match again (disk_at (str "old" ++ [LF]) 3 5) [edit_f] (opened_at no_disk) with Ok k => match get (k_buffers k) (str "f") with Some b => match b_source b, b_sync b with SFile f, Some dt => eqb f (str "/w/f") && (dt =? 5) | _, _ => false end | None => false end | _ => false end = true) as S by (vm_compute; reflexivity).
  rewrite E0 in T, S. clear E0. unfold again in T, S. cbn [bind run_calls] in T, S.
  destruct (run_call utf8_graphemes pol_wrap (disk_at (str "old" ++ [LF]) 3 5) edit_f k0) as [[r1 k1]| |] eqn:E1; cbn [bind] in T, S; try discriminate.
  exists k0, r1, k1. split; [exact R|]. split; [exact E1|].
  split. { unfold read_text in T. destruct (get (k_buffers k1) (str "f")) as [b|] eqn:Gb; [|discriminate]. destruct (pt_text (b_content b)) as [t| |] eqn:Tb; try discriminate. injection T as ->. exists b. auto. }
  intros k2 now r3 k3 M T2 E3. assert (reach utf8_graphemes pol_wrap k1) as R1 by (eapply reach_call; eauto).
  assert (each (read_after 4 (str "f")) (k_buffers k1)) as H1.
  { apply Forall_forall. intros [n u] I En g Sg. cbn [fst snd] in *. subst n. assert (get (k_buffers k1) (str "f") = Some u) as Gu by (apply get_uniq; [apply (i_0 _ (reach_inv _ _ _ R1))|exact I]). rewrite Gu, Sg in S. destruct (b_sync u) as [dt|]; [|discriminate]. apply andb_prop in S. destruct S as [_ S]. apply Nat.eqb_eq in S. exists dt. split; [reflexivity|lia]. }
  assert (reach utf8_graphemes pol_wrap k2) as R2. { clear - M R1. induction M; [exact R1|eapply reach_call; eauto|eapply reach_shuffle; eauto]. }
  assert (k_cwd k2 = str "/w") as W2 by (rewrite (meanwhile_cwd _ _ _ _ _ M), (edit_cwd _ _ _ _ _ _ _ _ E1); exact W).
  destruct T2 as (b & Gb & Tb). destruct (edit_each _ _ _ _ _ _ _ _ E3) as (b3 & G3 & Ed); [discriminate|]. exists b3. split; [exact G3|]. unfold edit_buffer in Ed. rewrite Gb in Ed. destruct Ed as (rl & Ed). unfold load_from_disk in Ed.
  destruct (b_source b) as [y|g] eqn:S0; [injection Ed as _ <-; exact Tb|]. pose proof (each_get _ _ _ _ (proj2 (reach_named _ _ _ R2)) Gb g S0) as Hg. subst g.
  destruct (each_get _ _ _ _ (after_meanwhile _ _ _ _ _ _ M H1) Gb eq_refl _ S0) as (dt & Sy & Ld).
  assert (is_synced (disk_at (str "new" ++ [LF]) 4 now) b = true) as Y. { unfold is_synced. rewrite S0, Sy, W2. replace (dk_mtime (disk_at (str "new" ++ [LF]) 4 now) (path_join (str "/w") (str "f"))) with (Some 4) by reflexivity. now apply Nat.ltb_lt. }
  rewrite Y in Ed. injection Ed as _ <-. exact Tb.
Qed.
Print Assumptions C83_race_refuted.
