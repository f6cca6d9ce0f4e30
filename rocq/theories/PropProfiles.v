(** C01-C07, C14, C23 in the debug profile: whenever the calls do not panic, the results are those required. *)
From Coq Require Import String List Arith Lia Bool.
From Verif Require Import Base ListFacts PieceTable PieceTableSpec PieceTableFacts PieceTableEdits PieceTableDelete History HistoryFacts PropPiece Coords Utf8 Diff DiffSpec DiffFacts DiffApply PropDiff Selection Maps StackMap Fmt Buffer View Core CoreSpec CoreTame PropDelete Profiles.
Import ListNotations.

(** Any sequence of edits that succeeds is the plain string edits, and its newline positions are right. *)
Theorem C01_profiles_partial : forall pol s es t, policy_succ pol -> s <> [] -> Forall edit_ok es -> pt_edits pol es (pt_with_text s) = Ok t ->
  pt_text t = Ok (s_edits es s) /\ t_nl t = newline_positions (s_edits es s).
Proof.
  intros pol s es t P Hs He E. apply (le_edits pol P) in E.
  destruct (C01_edits_match_string _ s es pol_wrap_ok Hs He) as (t1 & E1 & T). destruct (C04_newlines_after_edits_partial _ s es pol_wrap_ok Hs He) as (t2 & E2 & N).
  rewrite E in E1, E2. injection E1 as <-. injection E2 as <-. auto.
Qed.
Print Assumptions C01_profiles_partial.

(** After any successful sequence of edits, undos and redos: the answers and the text are those of the plain history of texts,
    reads are slices, lengths agree and compaction changes nothing. *)
Theorem C05_profiles : forall pol s os bs t, policy_succ pol -> s <> [] -> Forall op_ok os -> pt_ops pol os (pt_with_text s) = Ok (bs, t) ->
  let d := d_ops os (d_init s) in let x := d_text (snd d) in
  bs = fst d /\ pt_text t = Ok x /\
  (forall a n, pt_range t a n = Ok (if a <? length x then Some (firstn n (skipn a x)) else None)) /\
  pt_len t = length x /\ (pt_is_empty t = true <-> x = []) /\ pt_max_offset t = Ok (length x - 1) /\
  pt_text (pt_commit t) = Ok x.
Proof.
  intros pol s os bs t P Hs Ho E d x. apply (le_ops pol P) in E.
  destruct (C05_history _ s os pol_wrap_ok Hs Ho) as (t1 & E1 & T). rewrite E in E1. injection E1 as -> <-. fold d x in T.
  destruct (C02_range_is_slice _ s os pol_wrap_ok Hs Ho) as (b2 & t2 & x2 & E2 & T2 & R). rewrite E in E2. injection E2 as _ <-. rewrite T in T2. injection T2 as <-.
  destruct (C03_length_empty_max _ s os pol_wrap_ok Hs Ho) as (b3 & t3 & x3 & E3 & T3 & L). rewrite E in E3. injection E3 as _ <-. rewrite T in T3. injection T3 as <-.
  destruct (C07_compaction_invisible _ s os pol_wrap_ok Hs Ho) as (b4 & t4 & E4 & C & _). rewrite E in E4. injection E4 as _ <-. rewrite C. tauto.
Qed.
Print Assumptions C05_profiles.

(** A replacement or the application of a diff that succeeds is undone by one undo. *)
Theorem C06_profiles : forall pol s os bs t x t', policy_succ pol -> s <> [] -> Forall op_ok os -> pt_ops pol os (pt_with_text s) = Ok (bs, t) -> pt_text t = Ok x ->
  (exists o n r, 0 < n /\ r <> [] /\ pt_replace pol o n r t = Ok t') \/ (exists y, pt_apply_diff pol y t = Ok t') ->
  exists t0, pt_undo t' = (true, t0) /\ pt_text t0 = Ok x.
Proof.
  intros pol s os bs t x t' P Hs Ho E T [(o & n & r & Hn & Hr & R)|(y & R)]; apply (le_ops pol P) in E.
  - apply (le_replace pol P) in R. destruct (C06_replace_one_step _ s os o n r bs t x pol_wrap_ok Hs Ho Hn Hr E T) as (t2 & E2 & T2).
    assert (forall a b u, pt_ops pol_wrap (a ++ b) u = ('(x, u) <- pt_ops pol_wrap a u ;; '(y, u) <- pt_ops pol_wrap b u ;; Ok (x ++ y, u))) as App.
    { clear. induction a as [|o a IH]; intros b u; cbn [app pt_ops bind].
      - destruct (pt_ops pol_wrap b u) as [[? ?]| |]; reflexivity.
      - destruct (pt_op pol_wrap o u) as [[v u1]| |]; cbn [bind]; auto. rewrite IH. destruct (pt_ops pol_wrap a u1) as [[v1 u2]| |]; cbn [bind]; auto. destruct (pt_ops pol_wrap b u2) as [[v2 u3]| |]; reflexivity. }
    rewrite App, E in E2. cbn [bind pt_ops pt_op pt_edit] in E2. rewrite R in E2. cbn [bind] in E2. destruct (pt_undo t') as [b t0]. cbn [bind] in E2. injection E2 as E2 <-. apply app_inv_head in E2. injection E2 as ->. eauto.
  - apply (le_diff pol P) in R. exact (C06_diff_one_step _ s os bs t x y t' pol_wrap_ok Hs Ho E T R).
Qed.
Print Assumptions C06_profiles.

(** A state of the editor is never with an empty buffer, in the debug profile too. *)
Lemma no_reload_release G pol k : policy_succ pol -> reach_no_reload G pol k -> reach_no_reload G pol_wrap k.
Proof.
  intro P. induction 1 as [cwd args k E|d c k r k' _ IH N E|k k' _ IH S]; [now apply (nr_init _ _ cwd args)| |eapply nr_shuffle; eauto].
  eapply nr_call; [exact IH|exact N|]. apply (le_call pol P). exact E.
Qed.
Theorem C23_profiles_partial : forall G pol k b u, policy_succ pol -> reach_no_reload G pol k -> get (k_buffers k) b = Some u -> 0 < length (txt (b_content u)).
Proof. intros G pol k b u P R E. eapply C23_partial; [exact pol_wrap_ok|eapply no_reload_release; eauto|exact E]. Qed.
Print Assumptions C23_profiles_partial.

(** a history that succeeds in the debug profile although it deletes up to the end *)
Example C05_profiles_met : let os := [OEdit (EInsert 1 [10;8]); OEdit (EDelete 2 9); OUndo; OEdit (EReplace 1 2 [4]); OUndo; ORedo] in Forall op_ok os /\
  exists bs t, pt_ops pol_debug os (pt_with_text [97;98;99]) = Ok (bs, t) /\ bs = [true; true; true; true; true; true].
Proof. cbv zeta. split; [repeat constructor; discriminate|]. eexists _, _. split; vm_compute; reflexivity. Qed.
