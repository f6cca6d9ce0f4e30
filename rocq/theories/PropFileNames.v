(** C88: one file, one text - however the file is named. *)
From Coq Require Import String List Arith Lia Bool Permutation.
From Verif Require Import Base ListFacts LineSpec PieceTable PieceTableSpec PieceTableFacts Coords Utf8 Diff Selection NavSpec Maps StackMap Fmt Buffer View ViewSpec ViewFacts Core CoreSpec CoreInv CoreOps PropCore Utf8Facts CoreTame CoreSafe PropSafe PropDelete
  History HistoryFacts GraphemeInst FileSyncSpec FileSync PropFileSync.
Import ListNotations.

(** ** specification *)
(** the buffer shows the file *)
Definition of_file (k : core) (name f : text) : Prop := exists b, get (k_buffers k) name = Some b /\ b_source b = SFile f.
(** the states of an editor started in [cwd] in which files were only edited under names of [N] *)
Inductive edited_as (G : Graphemes) (pol : policy) (cwd : text) (N : text -> Prop) : core -> Prop :=
| ea_init args k : editor_init G cwd args = Ok k -> edited_as G pol cwd N k
| ea_call d c k r k' : edited_as G pol cwd N k -> match c with CEdit _ name false => N name | _ => True end -> run_call G pol d c k = Ok (r, k') -> edited_as G pol cwd N k'
| ea_shuffle k k' : edited_as G pol cwd N k -> shuffle k k' -> edited_as G pol cwd N k'.
(** no two of the names lead to one file *)
Definition one_name (cwd : text) (N : text -> Prop) : Prop := forall a b, N a -> N b -> path_join cwd a = path_join cwd b -> a = b.

(** ** proof *)
Definition under (N : text -> Prop) (cwd n : text) (u : buffer) : Prop := forall f, b_source u = SFile f -> N n /\ f = path_join cwd n.
Section Names.
Variable G : Graphemes.
Variable pol : policy.
Variable cwd : text.
Variable N : text -> Prop.
Notation under := (under N cwd).
Lemma under_load d n u r u' : under n u -> load_from_disk pol d u = Ok (r, u') -> under n u'.
Proof.
  intros H E. unfold load_from_disk in E. destruct (b_source u) as [x|f] eqn:S; [injection E as _ <-; exact H|]. destruct (is_synced d u); [injection E as _ <-; exact H|]. bnd E. bnd E. injection E as _ <-. intros g X. apply H. rewrite S. exact X.
Qed.
(** a call that opens no file *)
Lemma under_call_other d c k r k' : match c with CEdit _ _ false => False | _ => True end -> run_call G pol d c k = Ok (r, k') -> held cwd under k -> held cwd under k'.
Proof.
  intros Hc E. assert (run_call G pol no_disk c k = Ok (r, k')) as E' by (destruct c as [? ? []| | | | | | | | | | | | | |]; try contradiction; exact E).
  apply (held_call G pol cwd (fun d => d = no_disk) under) with (d := no_disk) (c := c) (r := r); [| | | |reflexivity|exact E'].
  - intros n m x f X. discriminate.
  - intros d0 n u -> X. unfold new_file in X. cbn [no_disk dk_read unwrap bind] in X. discriminate.
  - intros n u t H. exact H.
  - intros d0 n u r0 u' _. apply under_load.
Qed.
(** opening a file *)
Lemma under_call_edit d id name k r k' : N name -> run_call G pol d (CEdit id name false) k = Ok (r, k') -> held cwd under k -> held cwd under k'.
Proof.
  intros Hn E H. split; [rewrite (edit_cwd _ _ _ _ _ _ _ _ E); apply H|].
  assert (held cwd (fun n u => N n \/ under n u) k') as H1.
  { cbn [run_call] in E. bnd E. injection E as _ <-. destruct H as [W H]. unfold edit_cmd in E0. unfold buffer_exists, has in E0. rewrite W in E0.
    assert (held cwd (fun n u => N n \/ under n u) k) as H0 by (split; [exact W|]; unfold each in *; eapply Forall_impl; [|exact H]; intros e X; right; exact X).
    assert (forall n m x, N n \/ under n (new_scratch m x)) as Qs by (intros n m x; right; intros f X; discriminate).
    assert (forall n u t, N n \/ under n u -> N n \/ under n (set_content u t)) as Qc by (intros n u t [X|X]; [now left|right; exact X]).
    bnd E0. destruct v0 as [notify k1]. assert (held cwd (fun n u => N n \/ under n u) k1) as A1.
    { destruct (get (k_buffers k) name) as [u|] eqn:Eu.
      - cbn [unwrap bind] in E. bnd E. destruct v0 as [rl u']. bnd E. injection E as _ <-.
        assert (held cwd (fun n u => N n \/ under n u) (set_buffers k (set (k_buffers k) name u'))) as As by (split; [exact W|]; apply each_set; [apply H0|now left]). destruct rl; [eapply held_debug; eauto|injection E2 as <-; exact As].
      - bnd E. injection E as _ <-. unfold open_file in E1. bnd E1. injection E1 as <-. split; [exact W|]. cbn [k_buffers set_buffers]. apply each_set; [apply H0|now left]. }
    bnd E0. bnd E0. destruct v1 as [e k2]. destruct e; [discriminate|]. bnd E0. set (Q := fun n u => N n \/ under n u) in *.
    assert (held cwd Q v0) as A2 by (eapply held_add_view; eauto). assert (held cwd Q k2) as A3 by (eapply held_view; eauto). assert (held cwd Q v1) as A4 by (eapply held_debug; eauto).
    destruct notify; [eapply held_notify; eauto|injection E0 as <-; exact A4]. }
  assert (held cwd (named_file cwd) k') as H2.
  { apply (held_call G pol cwd (fun _ => True) (named_file cwd)) with (d := d) (c := CEdit id name false) (k := k) (r := r); [| | | |exact Logic.I|exact E|].
    - intros n m x f X. discriminate.
    - intros d0 n u _ X. unfold new_file in X. bnd X. injection X as <-. intros f Y. now injection Y as <-.
    - intros n u t X. exact X.
    - intros d0 n u r0 u' _. apply named_load.
    - destruct H as [W H]. split; [exact W|]. unfold each in *. eapply Forall_impl; [|exact H]. intros e X f Y. exact (proj2 (X f Y)). }
  destruct H1 as [_ H1], H2 as [_ H2]. unfold each in *. rewrite Forall_forall in *. intros e He f Sf. split; [|exact (H2 e He f Sf)]. destruct (H1 e He) as [X|X]; [exact X|exact (proj1 (X f Sf))].
Qed.
Lemma under_all k : edited_as G pol cwd N k -> held cwd under k.
Proof.
  induction 1 as [args k E|d c k r k' R IH Hc E|k k' R IH S].
  - eapply held_init; [| |exact E]; [intros n m x f X; discriminate|intros n u t X; exact X].
  - destruct c as [id name []| | | | | | | | | | | | | |]; try (eapply under_call_other; [|exact E|exact IH]; exact Logic.I). eapply under_call_edit; eauto.
  - eapply held_shuffle; eauto.
Qed.
End Names.

(** As long as nobody edits a file under two names, every file has one buffer: whoever shows the file shows that buffer. *)
Theorem C88_one_name_partial : forall G pol cwd N k a b f, edited_as G pol cwd N k -> one_name cwd N -> of_file k a f -> of_file k b f ->
  a = b /\ N a /\ f = path_join cwd a.
Proof.
  intros G pol cwd N k a b f R H (x & Gx & Sx) (y & Gy & Sy). destruct (under_all _ _ _ _ _ R) as [_ A].
  destruct (each_get _ _ _ _ A Gx f Sx) as [Na Fa]. destruct (each_get _ _ _ _ A Gy f Sy) as [Nb Fb]. split; [|auto]. apply H; auto. congruence.
Qed.
Print Assumptions C88_one_name_partial.
(** names without a leading slash are such names; so are names with one, if the directory the editor was started in has a name *)
Lemma join_relative cwd n : hd 0 n <> 47 -> path_join cwd n = match rev cwd with 47 :: _ => cwd ++ n | [] => n | _ => cwd ++ [47] ++ n end.
Proof. intro H. unfold path_join. destruct n as [|c n]; [reflexivity|]. cbn [hd] in H. do 47 (destruct c as [|c]; [reflexivity|]). destruct c as [|c]; [contradiction|]. reflexivity. Qed.
Theorem C88_relative_names : forall cwd, one_name cwd (fun n => hd 0 n <> 47).
Proof.
  intros cwd a b A B E. rewrite (join_relative _ _ A), (join_relative _ _ B) in E. destruct (rev cwd) as [|c r]; [exact E|].
  assert (cwd ++ a = cwd ++ b \/ cwd ++ [47] ++ a = cwd ++ [47] ++ b) as [X|X] by (do 48 (destruct c as [|c]; [auto|]); auto); apply app_inv_head in X; [exact X|]. now injection X.
Qed.
Print Assumptions C88_relative_names.
Theorem C88_absolute_names : forall cwd, one_name cwd (fun n => exists r, n = 47 :: r).
Proof. intros cwd a b (r & ->) (s & ->) E. exact E. Qed.
Print Assumptions C88_absolute_names.

(** Two names of one file: two texts.  Whatever is deleted from one of the two buffers stays in the other. *)
Theorem C88_refuted : forall G pol d k id v r k' a b f s x, policy_wrap pol \/ policy_succ pol -> tame_reach G pol k ->
  looks_at k id v -> ~ shows v b -> of_file k a f -> of_file k b f -> selects k id v a s x ->
  policy_wrap pol \/ (forall b s x, selects k id v b s x -> inner_or_all x s) ->
  run_call G pol d (CDeleteSelection id) k = Ok (r, k') ->
  text_of k' a = Some (remaining x s) /\ text_of k' b = text_of k b.
Proof.
  intros G pol d k id v r k' a b f s x P R L Nb Fa Fb S H E. destruct (C21_editor_partial G pol d k id v r k' P R L H E) as (_ & A & B & _).
  split; [exact (A a s x S)|]. unfold text_of. now rewrite (B b Nb).
Qed.
Print Assumptions C88_refuted.

(** ** examples: the directory is /w *)
Definition the_file : disk := disk_at (str "hello" ++ [LF]) 3 5.
Definition two_names : res core := again the_file [CJoin 2; CEdit 1 (str "f") false; CEdit 2 (str "/w/f") false] (opened_at the_file).
Definition texts_shown (x : res core) : list (option text) := match x with Ok k => [text_of k (str "f"); text_of k (str "/w/f")] | _ => [] end.
(** Two clients open one file, the second by its full path; the first deletes a character, and the second edits the file again: it still shows the old text. *)
Example C88_demo : texts_shown two_names = [Some (str "hello" ++ [LF]); Some (str "hello" ++ [LF])] /\
  texts_shown (again the_file [CDeleteSelection 1; CEdit 2 (str "/w/f") false] two_names) = [Some (str "ello" ++ [LF]); Some (str "hello" ++ [LF])].
Proof. split; vm_compute; reflexivity. Qed.
(** the hypotheses of C88_refuted and of C88_one_name_partial, met by the two clients of the example, and by the first of them *)
Definition edit_b (d : disk) (k : core) (c : call) : bool :=
  match c with
  | CEdit id name false => has (cmap k) id && good_nameb name && negb (has (k_buffers k) name) && match dk_read d (path_join (k_cwd k) name) with Some x => plainb x | None => false end
  | _ => tameb k c
  end.
Lemma edit_b_ok d k c : edit_b d k c = true -> tame d k c.
Proof.
  destruct c as [id name [|]| | | | | | | | | | | | | |]; try apply tameb_ok. cbn [edit_b tame]. intro H. apply andb_prop in H. destruct H as [H H4]. apply andb_prop in H. destruct H as [H H3]. apply andb_prop in H. destruct H as [H1 H2].
  split; [now apply connected_b|]. split; [now apply good_nameb_ok|]. unfold has in H3. destruct (get (k_buffers k) name); [discriminate|]. destruct (dk_read d _) as [x|]; [|discriminate]. exists x. split; [reflexivity|now apply plainb_ok].
Qed.
Fixpoint runs_b (d : disk) (cs : list call) (k : core) : bool :=
  match cs with
  | [] => true
  | c :: r => edit_b d k c && match run_call utf8_graphemes pol_wrap d c k with Ok (_, k') => runs_b d r k' | _ => false end
  end.
Lemma runs_tame d cs : forall k k', tame_reach utf8_graphemes pol_wrap k -> runs_b d cs k = true -> run_calls utf8_graphemes pol_wrap d cs k = Ok k' -> tame_reach utf8_graphemes pol_wrap k'.
Proof.
  induction cs as [|c cs IH]; intros k k' R H E; cbn [runs_b run_calls] in *; [congruence|]. apply andb_prop in H. destruct H as [H1 H2]. destruct (run_call _ _ d c k) as [[r k1]| |] eqn:E1; try discriminate.
  eapply IH; [|exact H2|exact E]. eapply tame_call; [exact R|apply edit_b_ok; exact H1|exact E1].
Qed.
Definition edits_as (N : text -> bool) (c : call) : bool := match c with CEdit _ name false => N name | _ => true end.
Lemma runs_as d cwd N cs : forall k k', edited_as utf8_graphemes pol_wrap cwd (fun n => N n = true) k -> forallb (edits_as N) cs = true -> run_calls utf8_graphemes pol_wrap d cs k = Ok k' -> edited_as utf8_graphemes pol_wrap cwd (fun n => N n = true) k'.
Proof.
  induction cs as [|c cs IH]; intros k k' R H E; cbn [forallb run_calls] in *; [congruence|]. apply andb_prop in H. destruct H as [H1 H2]. destruct (run_call _ _ d c k) as [[r k1]| |] eqn:E1; try discriminate.
  eapply IH; [|exact H2|exact E]. eapply ea_call; [exact R| |exact E1]. destruct c as [id name []| | | | | | | | | | | | | |]; exact Logic.I || exact H1.
Qed.
Definition from_b (k : core) (name f : text) : bool := match get (k_buffers k) name with Some b => match b_source b with SFile g => eqb g f | _ => false end | None => false end.
Lemma from_b_ok k name f : from_b k name f = true -> of_file k name f.
Proof. unfold from_b. intro H. destruct (get (k_buffers k) name) as [b|] eqn:E; [|discriminate]. destruct (b_source b) as [|g] eqn:S; [discriminate|]. apply eqb_ok in H. subst g. exists b. auto. Qed.
Definition steps : list call := [CJoin 1; CJoin 2; CEdit 1 (str "f") false; CEdit 2 (str "/w/f") false].
Definition started : core := get_ok (core_new []) (editor_init utf8_graphemes (str "/w") (str "ced")).
Definition both : core := get_ok (core_new []) (run_calls utf8_graphemes pol_wrap the_file steps started).
Definition after_delete : core := get_ok (core_new []) (run_calls utf8_graphemes pol_wrap the_file [CDeleteSelection 1] both).
Definition ok_b {A} (x : res A) : bool := match x with Ok _ => true | _ => false end.
Lemma ok_get {A} (a : A) x : ok_b x = true -> x = Ok (get_ok a x).
Proof. destruct x; try discriminate. reflexivity. Qed.
Lemma run_one d c k k' : run_calls utf8_graphemes pol_wrap d [c] k = Ok k' -> exists r, run_call utf8_graphemes pol_wrap d c k = Ok (r, k').
Proof. cbn [run_calls]. destruct (run_call _ _ d c k) as [[r k1]| |]; try discriminate. intro E. injection E as ->. eauto. Qed.
Example C88_met : tame_reach utf8_graphemes pol_wrap both /\ looks_at both 1 (whole (str "f")) /\ ~ shows (whole (str "f")) (str "/w/f") /\
  of_file both (str "f") (str "/w/f") /\ of_file both (str "/w/f") (str "/w/f") /\ selects both 1 (whole (str "f")) (str "f") sel_new (str "hello" ++ [LF]) /\
  exists r, run_call utf8_graphemes pol_wrap the_file (CDeleteSelection 1) both = Ok (r, after_delete).
Proof.
  split. { apply (runs_tame the_file steps started); [|vm_compute; reflexivity|apply ok_get; vm_compute; reflexivity].
    eapply tame_init; [| |apply ok_get; vm_compute; reflexivity]; apply plainb_ok; reflexivity. }
  split; [eexists; split; vm_compute; reflexivity|]. split; [intro H; vm_compute in H; intuition discriminate|]. split; [apply from_b_ok; vm_compute; reflexivity|]. split; [apply from_b_ok; vm_compute; reflexivity|].
  split; [split; vm_compute; reflexivity|]. apply run_one. apply ok_get. vm_compute. reflexivity.
Qed.
Definition once : core := get_ok (core_new []) (run_calls utf8_graphemes pol_wrap the_file [CJoin 1; CEdit 1 (str "f") false; CJoin 2; CEdit 2 (str "f") false] started).
Example C88_one_name_met : edited_as utf8_graphemes pol_wrap (str "/w") (fun n => eqb n (str "f") = true) once /\ one_name (str "/w") (fun n => eqb n (str "f") = true) /\ of_file once (str "f") (str "/w/f").
Proof.
  split. { apply (runs_as the_file (str "/w") (fun n => eqb n (str "f")) [CJoin 1; CEdit 1 (str "f") false; CJoin 2; CEdit 2 (str "f") false] started once); [|reflexivity|apply ok_get; vm_compute; reflexivity]. eapply ea_init. apply ok_get. vm_compute. reflexivity. }
  split; [|apply from_b_ok; vm_compute; reflexivity]. intros a b A B _. apply eqb_ok in A, B. congruence.
Qed.
