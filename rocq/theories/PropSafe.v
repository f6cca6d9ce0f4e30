(** C36 and C29: which requests crash the editor.  [tame d k c] (CoreTame.v) delimits the requests proved harmless:
    ASCII texts, files that exist, ...; each exclusion has a witness in [C36_refuted]. *)
From Coq Require Import String List Arith Lia Bool Permutation.
From Verif Require Import Base ListFacts LineSpec PieceTable PieceTableFacts Coords Utf8 GraphemeInst HistoryFacts History Diff Selection NavSpec Maps StackMap
  Fmt Buffer View ViewSpec ViewFacts Utf8Facts Core CoreSpec CoreInv CoreOps PropCore CoreTame CoreSafe CoreDelete CoreSafeMore.
Import ListNotations.

(** the editor starts *)
Theorem C36_starts_partial : forall G cwd args, plain cwd -> plain args -> exists k, editor_init G cwd args = Ok k.
Proof. intros G cwd args P Q. destruct (init_safe G cwd args P Q) as (k & E & _). eauto. Qed.
Print Assumptions C36_starts_partial.

(** and serves every tame call, however many it served before.  Missing from the full property: the calls outside [tame]. *)
Theorem C36_careful_partial : forall G pol d k c, policy_wrap pol \/ policy_succ pol -> tame_reach G pol k -> tame d k c ->
  exists r k', run_call G pol d c k = Ok (r, k') /\ tame_reach G pol k'.
Proof.
  intros G pol d k c Pf R T. destruct (call_safe G pol d c k Pf (tame_safe _ _ _ Pf R) T) as (r & k' & E & _). exists r, k'. split; auto. eapply tame_call; eauto.
Qed.
Print Assumptions C36_careful_partial.

Lemma tame_is_reach G pol k : tame_reach G pol k -> reach G pol k.
Proof. induction 1; [eapply reach_init|eapply reach_call|eapply reach_shuffle]; eauto. Qed.

(** what careful users get besides: every client finds its view, its selections in every buffer of it, and every
    selection inside the text of its buffer *)
Theorem C36_selections_partial : forall G pol k, policy_wrap pol \/ policy_succ pol -> tame_reach G pol k ->
  (exists key, listed k key) /\
  forall id v, looks_at k id v -> get (vmap k) (view_key v) = Some v /\
    forall b, shows v b -> exists x s, text_of k b = Some x /\ ascii x /\ terminated x = true /\
      sels_in k id (view_key v) b = Some [s] /\ sel_inside x s.
Proof.
  intros G pol k Pf R. apply tame_safe in R; [|exact Pf]. split; [apply R|]. intros id v (c & Ec & <-). split; [exact (sf_cur _ _ R _ _ Ec)|].
  intros b Hb. pose proof (sf_cur _ _ R _ _ Ec) as Cu. assert (open k b) as O by exact (i_open _ (sf_inv _ _ R) _ _ _ Cu Hb).
  apply get_some in O. destruct O as (u & Eu). destruct (sf_bufs _ _ R _ _ Eu) as [_ (A & [P _] & T)].
  assert (In (view_key (c_view c)) (keys (c_sels c))) as L. { apply (proj2 (sf_keys _ _ R _ _ _ Ec)); [exact (get_key_in _ _ _ Cu)|exact Logic.I]. }
  apply get_some in L. destruct L as (m & Em). assert (In b (keys m)) as Lb by (apply (sf_sels _ _ R _ _ _ _ _ _ Ec Em Cu); exact Hb).
  apply get_some in Lb. destruct Lb as (ss & Es). destruct (lone_ex _ _ (sf_fine _ _ R _ _ Ec _ _ _ _ _ Em Es Eu)) as (s & -> & F).
  exists (txt (b_content u)), s. unfold text_of, sels_in. rewrite Eu, Ec, Em. cbn [option_map].
  split; auto. split; auto. split; auto. split; auto. now apply fine_inside.
Qed.
Print Assumptions C36_selections_partial.

(** ** C29: a view that is not the last one, and does not show the debug log together with a buffer shown nowhere else *)
Theorem C29_deletable_partial : forall G pol d k id v, policy_wrap pol \/ policy_succ pol -> tame_reach G pol k -> looks_at k id v -> deletable k v ->
  exists r k', run_call G pol d (CViewDelete id) k = Ok (r, k') /\ tame_reach G pol k'.
Proof. intros G pol d k id v Pf R L D. apply C36_careful_partial; auto. exists v. auto. Qed.
Print Assumptions C29_deletable_partial.

(** ** a careful session *)
Fixpoint tame_run (G : Graphemes) (pol : policy) (d : disk) (cs : list call) (k : core) : Prop :=
  match cs with
  | [] => True
  | c :: r => tame d k c /\ match run_call G pol d c k with Ok (_, k') => tame_run G pol d r k' | _ => False end
  end.
Lemma tame_run_reach G pol d cs : forall k k', tame_reach G pol k -> tame_run G pol d cs k -> run_calls G pol d cs k = Ok k' -> tame_reach G pol k'.
Proof.
  induction cs as [|c cs IH]; intros k k' R T E; cbn [run_calls tame_run] in *; [congruence|]. destruct T as [T1 T2]. destruct (run_call G pol d c k) as [[r k1]| |] eqn:E0; try discriminate.
  eapply IH; [|exact T2|exact E]. eapply tame_call; eauto.
Qed.
Definition careful : list call :=
  [CJoin 1; CEdit 1 (str "a") true; CScratch 1 (str "b") (str "one" ++ LF :: str "two" ++ [LF]); CJoin 2; CViewAdd 2 (str "a");
   CMessage (Some 2) (str "hi"); CAppend (str "a") (str "text" ++ [LF])].
(** tests for the witnesses *)
Definition plainb (x : text) : bool := forallb (fun c => (c <? 128) && negb (c =? 13)) x.
Definition good_nameb (b : text) : bool := plainb b && negb (existsb (fun c => c =? 123) b).
Definition tameb (k : core) (c : call) : bool :=
  match c with
  | CEdit id name true => has (cmap k) id && good_nameb name
  | CView id vid => has (cmap k) id && has (vmap k) vid
  | CViewAdd id b => has (cmap k) id
  | CAppend b x => good_nameb b && plainb x && terminated x
  | CScratch id name content => has (cmap k) id && good_nameb name && plainb content && terminated content && forallb (fun e => negb (has (snd e) name)) (vmap k)
  | CMessage _ x => plainb x
  | CJoin _ => match cmap k, vmap k with _ :: _, _ => true | [], [_] => true | _, _ => false end
  | _ => false
  end.
Lemma plainb_ok x : plainb x = true -> plain x.
Proof.
  unfold plainb. intro H. rewrite forallb_forall in H. split.
  - apply Forall_forall. intros c Hc. apply H in Hc. apply andb_prop in Hc. destruct Hc as [Hc _]. now apply Nat.ltb_lt.
  - intro Hc. apply H in Hc. discriminate.
Qed.
Lemma good_nameb_ok b : good_nameb b = true -> good_name b.
Proof.
  unfold good_nameb. intro H. apply andb_prop in H. destruct H as [H1 H2]. split; [now apply plainb_ok|]. intro Hc.
  apply negb_true_iff in H2. assert (existsb (fun c => c =? 123) b = true) as X by (apply existsb_exists; exists 123; auto). congruence.
Qed.
Lemma connected_b k i : has (cmap k) i = true -> connected k i.
Proof. intro H. apply has_in. exact H. Qed.
Lemma unshown_b k b : forallb (fun e => negb (has (snd e) b)) (vmap k) = true -> forall key v, get (vmap k) key = Some v -> ~ shows v b.
Proof.
  intros H key v E Hs. rewrite forallb_forall in H. apply get_in in E. apply H in E. cbn [snd] in E. apply has_in in Hs. rewrite Hs in E. discriminate.
Qed.
Lemma tameb_ok d k c : tameb k c = true -> tame d k c.
Proof.
  destruct c as [id name [|]| | | | | | | | | | | | | |]; cbn [tameb tame]; try discriminate; intro H; repeat match goal with X : _ && _ = true |- _ => apply andb_prop in X; destruct X end;
    auto 8 using connected_b, plainb_ok, good_nameb_ok, listed_b.
  - split; auto using connected_b. split; auto using good_nameb_ok. split; auto using plainb_ok. split; auto. now apply unshown_b.
  - destruct (cmap k) as [|[j c] l] eqn:Ec.
    + destruct (vmap k) as [|[key v] [|]] eqn:Ev; try discriminate. right. exists key. unfold listed. rewrite Ev. intros key' [<-|[]]. reflexivity.
    + left. exists j. unfold connected. rewrite Ec. now left.
Qed.
Fixpoint tame_runb (G : Graphemes) (pol : policy) (d : disk) (cs : list call) (k : core) : bool :=
  match cs with
  | [] => true
  | c :: r => tameb k c && match run_call G pol d c k with Ok (_, k') => tame_runb G pol d r k' | _ => false end
  end.
Lemma tame_runb_ok G pol d cs : forall k, tame_runb G pol d cs k = true -> tame_run G pol d cs k.
Proof.
  induction cs as [|c cs IH]; intros k H; cbn [tame_run tame_runb] in *; auto. apply andb_prop in H. destruct H as [H1 H2]. split; [now apply tameb_ok|].
  destruct (run_call G pol d c k) as [[r k']| |]; try discriminate. auto.
Qed.
Lemma session_tame cs : (match editor_init utf8_graphemes (str "/w") (str "ced") with Ok k => tame_runb utf8_graphemes pol_wrap no_disk cs k | _ => false end) = true ->
  forall k, session cs = Ok k -> tame_reach utf8_graphemes pol_wrap k.
Proof.
  intros H k E. unfold session in E. destruct (editor_init _ _ _) as [k0| |] eqn:E0; try discriminate. cbn [bind] in E.
  eapply tame_run_reach; [|apply tame_runb_ok; exact H|exact E]. eapply tame_init; [| |exact E0]; apply plainb_ok; reflexivity.
Qed.

(** the hypotheses of [C36_careful_partial] and [C29_deletable_partial] are met by a session with two clients and
    three views: client 2 may delete its view, move its cursors down, and client 1 may add a buffer *)
Example C36_demo : exists k, session careful = Ok k /\ tame_reach utf8_graphemes pol_wrap k /\ length (cmap k) = 2 /\ length (vmap k) = 3 /\
  tame no_disk k (CViewDelete 2) /\ tame no_disk k (CMove 2 MDown true) /\ tame no_disk k (CViewAdd 1 (str "*messages*")).
Proof.
  exists (get_ok (core_new []) (session careful)). assert (session careful = Ok (get_ok (core_new []) (session careful))) as E by (apply session_state; vm_compute; reflexivity).
  split; auto. split; [apply (session_tame careful); [vm_compute; reflexivity|exact E]|]. clear E.
  split; [vm_compute; reflexivity|]. split; [vm_compute; reflexivity|]. split; [|split].
  - cbn [tame]. exists (add_lens (mkLens (str "a") FWhole) (whole (str "b"))). split; [eexists; split; vm_compute; reflexivity|]. split.
    + exists (str "a{*}"). split; [apply listed_b; vm_compute; reflexivity|]. vm_compute. discriminate.
    + intro H. exfalso. vm_compute in H. intuition discriminate.
  - cbn [tame]. split; [apply connected_b; vm_compute; reflexivity|]. intros v b ss s x _ _ _ _ X. discriminate.
  - cbn [tame]. apply connected_b; vm_compute; reflexivity.
Qed.

(** ** C36 is false of the code: sessions ending in a panic *)
Definition crashes (cs : list call) (c : call) : Prop :=
  exists k w, session cs = Ok k /\ (forall i, actor c = Some i -> connected k i) /\ run_call utf8_graphemes pol_wrap no_disk c k = Panic w.
Definition crashb (cs : list call) (c : call) : bool :=
  match session cs with
  | Ok k => match actor c with Some i => has (cmap k) i | None => true end &&
            match run_call utf8_graphemes pol_wrap no_disk c k with Panic _ => true | _ => false end
  | _ => false
  end.
Lemma crashb_ok cs c : crashb cs c = true -> crashes cs c.
Proof.
  unfold crashb, crashes. destruct (session cs) as [k| |]; try discriminate. intro H. apply andb_prop in H. destruct H as [H1 H2].
  destruct (run_call _ _ _ c k) as [a|w|] eqn:E; try discriminate. exists k, w. split; auto. split; auto. intros i Ei. rewrite Ei in H1. now apply connected_b.
Qed.
Definition join_edit : list call := [CJoin 1; CEdit 1 (str "a") true; CEdit 1 (str "b") true].
Definition abc : list call := [CJoin 1; CScratch 1 (str "a") (str "abc" ++ [LF]); CMove 1 MRight false; CMove 1 MRight false].
Theorem C36_refuted :
  (* deleting the only view *)
  crashes [CJoin 1] (CViewDelete 1) /\
  (* a view opened by the name of a buffer cannot be deleted, nor used *)
  crashes [CJoin 1; CView 1 (str "*scratch*")] (CViewDelete 1) /\
  crashes [CJoin 1; CView 1 (str "*scratch*")] (CMove 1 MLeft false) /\
  crashes [CJoin 1; CView 1 (str "*scratch*")] (CDeleteSelection 1) /\
  crashes [CJoin 1; CView 1 (str "*scratch*")] (CGetContext 1) /\
  (* a buffer removed from a view of several *)
  crashes (join_edit ++ [CViewAdd 1 (str "a"); CViewRemove 1 (str "b")]) (CMove 1 MLeft false) /\
  (* the debug log shown with a buffer shown nowhere else *)
  crashes (join_edit ++ [CViewAdd 1 (str "*debug*")]) (CViewDelete 1) /\
  (* everyone left, someone joins and looks at an older view *)
  crashes (join_edit ++ [CLeave 1; CJoin 2; CView 2 (str "a{*}")]) (CMove 2 MLeft false) /\
  (* a file that cannot be read *)
  crashes [CJoin 1] (CEdit 1 (str "nofile") false) /\
  (* going to the end of an empty line *)
  crashes [CJoin 1; CScratch 1 (str "a") [97; LF; LF; 98; LF]; CMove 1 MDown false] (CMove 1 MLineEnd false) /\
  (* a selection deleted up to the end of the buffer *)
  crashes (abc ++ [CMove 1 MRight true; CDeleteSelection 1]) (CGetContext 1) /\
  (* text deleted under the cursor of somebody else *)
  crashes (abc ++ [CJoin 2; CMove 2 MRight false; CMove 1 MBegin false; CMove 1 MRight true; CDeleteSelection 1]) (CGetContext 2) /\
  (* the last byte deleted twice *)
  crashes (abc ++ [CDeleteSelection 1; CDeleteSelection 1]) (CMove 1 MLeft false) /\
  (* replacing a shown buffer by a shorter one *)
  crashes abc (CScratch 1 (str "a") []).
Proof. repeat match goal with |- _ /\ _ => split end; apply crashb_ok; vm_compute; reflexivity. Qed.
Print Assumptions C36_refuted.
