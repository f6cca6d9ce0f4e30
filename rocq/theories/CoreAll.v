(** A property of buffers kept by every operation on a buffer holds of every buffer of every reachable state.
    Instance: the line index of every buffer is accurate. *)
From Coq Require Import String List Arith Lia Bool Permutation.
From Verif Require Import Base ListFacts LineSpec PieceTable PieceTableSpec PieceTableFacts PieceTableEdits PieceTableDelete Coords CoordsFacts Utf8 HistoryFacts History Diff DiffApply
  Selection Maps StackMap Fmt Buffer View ViewSpec ViewFacts Utf8Facts Core CoreSpec CoreInv CoreOps Profiles.
Import ListNotations.

(** ** histories in which no script appends the empty text to a buffer (mod.rs:488-506 would put two pieces at the same offset
    in the tree, on which the rbtset crate promises nothing).  Scripts, files, clients, profiles and orders of hash maps are arbitrary. *)
Definition feeds (c : call) : Prop := match c with CAppend _ x => x <> [] | _ => True end.
Inductive fed_reach (G : Graphemes) (pol : policy) : core -> Prop :=
| fr_init cwd args k : editor_init G cwd args = Ok k -> fed_reach G pol k
| fr_call d c k r k' : fed_reach G pol k -> feeds c -> run_call G pol d c k = Ok (r, k') -> fed_reach G pol k'
| fr_shuffle k k' : fed_reach G pol k -> shuffle k k' -> fed_reach G pol k'.
Lemma fed_reach_reach G pol k : fed_reach G pol k -> reach G pol k.
Proof. induction 1; [eapply reach_init|eapply reach_call|eapply reach_shuffle]; eauto. Qed.
Lemma fed_release G pol k : policy_succ pol -> fed_reach G pol k -> fed_reach G pol_wrap k.
Proof.
  intro P. induction 1 as [cwd args k E|d c k r k' _ IH N E|k k' _ IH S]; [now apply (fr_init _ _ cwd args)| |eapply fr_shuffle; eauto].
  eapply fr_call; [exact IH|exact N|]. apply (le_call pol P). exact E.
Qed.

Section Kept.
Variable G : Graphemes.
Variable pol : policy.
(** the disks met *)
Variable D : disk -> Prop.
Variable Q : buffer -> Prop.
Hypothesis q_scratch : forall n x, Q (new_scratch n x).
Hypothesis q_file : forall d p u, D d -> new_file d p = Ok u -> Q u.
Hypothesis q_append : forall x u u', Q u -> x <> [] -> buf_append x u = Ok u' -> Q u'.
Hypothesis q_load : forall d u r u', D d -> Q u -> load_from_disk pol d u = Ok (r, u') -> Q u'.
Hypothesis q_delete : forall ss u xs t t', Q u -> delete_sels G pol ss (b_content u) = Ok (xs, t) ->
  (if pt_is_empty t then pt_append [LF] t else Ok t) = Ok t' -> Q (set_content u t').

Definition every (m : amap text buffer) : Prop := Forall (fun e => Q (snd e)) m.
Lemma every_set m n u : every m -> Q u -> every (set m n u).
Proof. unfold every. intros F A. induction m as [|[a b] m IH]; cbn [set]; [now constructor|]. inversion F; subst. destruct (eqb n a); constructor; auto. Qed.
Lemma every_del m n : every m -> every (del m n).
Proof. unfold every, del. rewrite !Forall_forall. intros F e He. apply filter_In in He. apply F, He. Qed.
Lemma every_get m n u : every m -> get m n = Some u -> Q u.
Proof. unfold every. rewrite Forall_forall. intros F E. apply get_in in E. exact (F _ E). Qed.
Lemma every_appended n x k k' : append_to G n x k = Ok k' -> every (k_buffers k) -> x <> [] -> every (k_buffers k').
Proof.
  intros E A Hx. apply append_frame in E. destruct E as (_ & _ & _ & b & -> & H). apply every_set; auto. destruct (get (k_buffers k) n) as [u|] eqn:Eu.
  - eapply q_append; [|exact Hx|exact H]. eapply every_get; eauto.
  - subst b. apply q_scratch.
Qed.
Lemma every_debug x k k' : debug G x k = Ok k' -> every (k_buffers k) -> every (k_buffers k').
Proof. intros E A. eapply every_appended; eauto. destruct x; discriminate. Qed.
Lemma every_notify ids k k' : notify_view_update G ids k = Ok k' -> every (k_buffers k) -> every (k_buffers k').
Proof. intros E A. apply notify_same in E. destruct E as (_ & _ & -> & _). exact A. Qed.
Lemma every_add_view v k k' : add_view v k = Ok k' -> every (k_buffers k) -> every (k_buffers k').
Proof. intros E A. now rewrite (add_view_buffers _ _ _ E). Qed.
Lemma every_drop bs : forall k k', drop_buffers G bs k = Ok k' -> every (k_buffers k) -> every (k_buffers k').
Proof.
  induction bs as [|b bs IH]; intros k k' E A; cbn [drop_buffers] in E; [now injection E as <-|]. destruct (existsb _ _); [eauto|]. bnd E. eapply IH; eauto.
  eapply every_debug; eauto. cbn [k_buffers set_buffers]. now apply every_del.
Qed.
Lemma every_delete_view id k e k' : delete_view G id k = Ok (e, k') -> every (k_buffers k) -> every (k_buffers k').
Proof.
  intros E A. unfold delete_view in E. destruct (negb (view_exists k id)); [now injection E as <- <-|]. destruct (sm_remove id (k_views k)) as [ov vs].
  destruct ov as [v|]; [|discriminate]. cbn [unwrap bind] in E. bnd E. bnd E. bnd E. bnd E. bnd E. injection E as <- <-.
  apply every_debug in E0; [|exact A]. apply every_drop in E1; [|exact E0]. assert (every (k_buffers v2)) as A2.
  { destruct (vmap v1); [|now injection E2 as <-]. eapply every_add_view; eauto. destruct (k_buffers v1) eqn:Eb; [|now rewrite Eb]. unfold open_scratch. cbn [k_buffers set_buffers]. apply every_set; [now rewrite Eb|apply q_scratch]. }
  eapply every_notify; eauto.
Qed.
Lemma every_modify id f k k' : modify_view G id f k = Ok k' -> every (k_buffers k) -> every (k_buffers k').
Proof.
  intros E A. unfold modify_view in E. bnd E. destruct (eqb _ _); [now injection E as <-|]. bnd E. bnd E. destruct v1 as [e k2]. destruct e; [discriminate|]. injection E as <-.
  eapply every_delete_view; eauto. destruct (view_is_empty (f v)); [now injection E1 as <-|]. eapply every_add_view; eauto.
Qed.
Lemma every_view id vid k e k' : view_cmd G id vid k = Ok (e, k') -> every (k_buffers k) -> every (k_buffers k').
Proof.
  intros E A. unfold view_cmd in E. destruct (view_exists k vid).
  - bnd E. bnd E. bnd E. injection E as <- <-. eapply every_notify; eauto.
  - destruct (buffer_exists k vid); [|now injection E as <- <-]. bnd E. bnd E. injection E as <- <-. eapply every_notify; eauto.
Qed.
Lemma every_edit d id name scratch k k' : D d -> edit_cmd G pol d id name scratch k = Ok k' -> every (k_buffers k) -> every (k_buffers k').
Proof.
  intros Dd E A. unfold edit_cmd in E. bnd E. destruct v as [notify k1]. assert (every (k_buffers k1)) as A1.
  { destruct scratch.
    - injection E0 as <- <-. destruct (buffer_exists k name); auto. apply every_set; auto.
    - unfold buffer_exists, has in E0. destruct (get (k_buffers k) name) as [u|] eqn:Eu.
      + cbn [unwrap bind] in E0. bnd E0. destruct v as [rl u']. bnd E0. injection E0 as <- <-.
        assert (every (set (k_buffers k) name u')) as As by (apply every_set; auto; eapply q_load; [exact Dd|eapply every_get; eauto|exact E1]). destruct rl; [|injection E2 as <-; exact As]. eapply every_debug; eauto.
      + bnd E0. injection E0 as <- <-. unfold open_file in E1. bnd E1. injection E1 as <-. cbn [k_buffers set_buffers]. apply every_set; auto. eapply q_file; eauto. }
  bnd E. bnd E. destruct v0 as [e k2]. destruct e; [discriminate|]. bnd E. apply every_add_view in E1; auto. apply every_view in E2; auto. apply every_debug in E3; auto.
  destruct notify; [|now injection E as <-]. eapply every_notify; eauto.
Qed.
Lemma every_delete_in m : forall bufs r, delete_in_buffers G pol m bufs = Ok r -> every bufs -> every (snd r).
Proof.
  induction m as [|[n ss] m IH]; intros bufs r E A; cbn [delete_in_buffers] in E; [now injection E as <-|]. bnd E. bnd E. destruct v0 as [xs t]. bnd E. bnd E.
  destruct v1 as [[ys mods] bufs']. injection E as <-. cbn [snd]. apply IH in E3; [exact E3|]. apply every_set; auto. destruct (get bufs n) as [u|] eqn:Eu; [|discriminate]. cbn [unwrap] in E0. injection E0 as <-.
  eapply q_delete; [eapply every_get; eauto|exact E1|exact E2].
Qed.
Lemma every_call d c k r k' : D d -> feeds c -> run_call G pol d c k = Ok (r, k') -> every (k_buffers k) -> every (k_buffers k').
Proof.
  intros Dd H E A. destruct c; cbn [run_call] in E.
  - bnd E. injection E as _ <-. eapply every_edit; eauto.
  - bnd E. destruct v. injection E as _ <-. eapply every_view; eauto.
  - bnd E. injection E as _ <-. unfold delete_current_view in E0. bnd E0. bnd E0. destruct v1 as [e k2]. destruct e; [discriminate|]. injection E0 as <-. eapply every_delete_view; eauto.
  - bnd E. destruct v. injection E as _ <-. unfold add_to_current_view in E0. destruct (negb _); [now injection E0 as _ <-|]. bnd E0. bnd E0. injection E0 as _ <-. eapply every_modify; eauto.
  - bnd E. destruct v. injection E as _ <-. unfold remove_from_current_view in E0. destruct (negb _); [now injection E0 as _ <-|]. bnd E0. bnd E0. injection E0 as _ <-. eapply every_modify; eauto.
  - bnd E. injection E as _ <-. unfold move_cursor in E0. bnd E0. bnd E0. bnd E0. destruct (negb _); [eapply every_notify; eauto|now injection E0 as <-].
  - bnd E. destruct v as [xs k1]. injection E as _ <-. unfold delete_selection in E0. bnd E0. bnd E0. bnd E0. destruct v1 as [[ys mods] bufs]. bnd E0. pose proof (every_delete_in _ _ _ E2 A) as A1. cbn [snd] in A1.
    destruct ys; [injection E0 as _ <-; exact A1|]. bnd E0. injection E0 as _ <-. eapply every_notify; eauto.
  - bnd E. injection E as _ <-. eapply every_appended; eauto.
  - bnd E. injection E as _ <-. eapply every_edit; [exact Dd|exact E0|]. apply every_set; auto.
  - bnd E. injection E as _ <-. unfold message in E0. bnd E0. injection E0 as <-. cbn [k_buffers emit]. eapply every_appended; [exact E|exact A|]. intro X. apply app_eq_nil in X. destruct X as [_ X]. discriminate.
  - bnd E. injection E as _ <-. unfold error in E0. bnd E0. injection E0 as <-. cbn [k_buffers emit]. eapply every_appended; [exact E|exact A|]. intro X. apply app_eq_nil in X. destruct X as [_ X]. discriminate.
  - bnd E. injection E as _ <-. eapply every_debug; eauto.
  - bnd E. destruct v. injection E as _ <-. exact A.
  - bnd E. injection E as _ <-. unfold add_client in E0. bnd E0. bnd E0. destruct v1. bnd E0. injection E0 as <-. cbn [k_buffers emit]. eapply every_debug; [eassumption|exact A].
  - bnd E. injection E as _ <-. unfold remove_client in E0. eapply every_debug; [eassumption|exact A].
Qed.
Lemma every_init cwd args k : editor_init G cwd args = Ok k -> every (k_buffers k).
Proof. intro E. unfold editor_init in E. bnd E. bnd E. eapply every_add_view; eauto. apply every_debug in E0; [|constructor]. apply every_debug in E1; auto. apply every_set; auto. Qed.
Lemma every_shuffle k k' : shuffle k k' -> every (k_buffers k) -> every (k_buffers k').
Proof. intros (_ & _ & Pm & _) A. unfold every in *. eapply Permutation_Forall; eauto. Qed.
Theorem every_reachable k : (forall d, D d) -> fed_reach G pol k -> forall b u, get (k_buffers k) b = Some u -> Q u.
Proof.
  intros Dd R b u Eb. eapply every_get; [|exact Eb]. clear b u Eb. induction R as [cwd args k E|d c k r k' R IH N E|k k' R IH S].
  - eapply every_init; eauto.
  - eapply every_call; eauto.
  - eapply every_shuffle; eauto.
Qed.
End Kept.

(** ** the line index *)
Lemma delete_acc pol o n t t' : policy_wrap pol -> acc t -> pt_delete pol o n t = Ok t' -> acc t'.
Proof.
  intros P [W N] E. destruct n as [|n]; [destruct (delete_zero _ _ _ _ W E) as (W' & _ & N'); split; auto|].
  destruct (delete_ok pol o (S n) t W) as (t2 & E2 & H2); [lia|right; now apply delete_fine_wrap|].
  rewrite E2 in E. injection E as <-. split; apply H2; auto.
Qed.
Lemma delete_sels_acc G pol ss : policy_wrap pol -> forall t xs t', delete_sels G pol ss t = Ok (xs, t') -> acc t -> acc t'.
Proof.
  intro P. induction ss as [|s ss IH]; intros t xs t' E W; cbn [delete_sels] in E; [now injection E as _ <-|]. bnd E. destruct v as [b e]. bnd E. bnd E. destruct v0 as [x|]; [|eauto].
  bnd E. bnd E. destruct v1 as [ys t2]. injection E as _ <-. eapply IH; eauto. eapply delete_acc; eauto.
Qed.
Lemma append_acc x t t' : acc t -> x <> [] -> pt_append x t = Ok t' -> acc t'.
Proof. intros [W N] Hx E. destruct (append_spec x t W Hx) as (t2 & E2 & H). rewrite E2 in E. injection E as <-. split; apply H; auto. Qed.
Lemma with_acc s : s <> [] -> acc (pt_with_text s).
Proof. intro H. destruct (sim_init s H) as [(W & _) N]. split; auto. Qed.
Lemma changes_acc pol s ds : policy_wrap pol -> pos_runs ds -> forall lo ro t r, acc t -> foldM (apply_change pol s) ds (lo, ro, t) = Ok r -> acc (snd r).
Proof.
  intros P. induction ds as [|c ds IH]; intros Hp lo ro t r A E; cbn [foldM] in E; [now injection E as <-|]. inversion Hp as [|? ? Hn Hp']; subst. bnd E. destruct v as [[lo1 ro1] t1]. eapply IH; [exact Hp'| |exact E].
  destruct c as [n|n|n]; cbn [apply_change c_size] in *.
  - bnd E0. injection E0 as _ _ <-. eapply delete_acc; eauto.
  - injection E0 as _ _ <-. exact A.
  - bnd E0. bnd E0. injection E0 as _ _ <-. apply str_slice_inv in E1. destruct E1 as (_ & _ & C & ->). apply char_boundary_le in C.
    destruct (insert_spec lo (slice s ro (ro + n - ro)) t (proj1 A)) as (t2 & Ei & H). { apply slice_nonnil; lia. }
    rewrite Ei in E2. injection E2 as <-. split; [apply H|apply H, A].
Qed.
Lemma apply_diff_acc pol s t t' : policy_wrap pol -> acc t -> pt_apply_diff pol s t = Ok t' -> acc t'.
Proof.
  intros P [W N] E. unfold pt_apply_diff in E. bnd E. bnd E. bnd E. destruct v1 as [[lo ro] u]. injection E as <-. destruct (diff_fits _ _ _ E1) as (Hp & _).
  destruct (wf_action ABulk t W) as (W' & T' & N'). assert (acc (pt_start_bulk t)) as A'. { split; [exact W'|]. unfold nl_ok, pt_start_bulk. now rewrite N', T'. }
  pose proof (changes_acc _ _ _ P Hp _ _ _ _ A' E2) as [Wu Nu]. split; [exact Wu|exact Nu].
Qed.
Theorem indexed G pol k b u : policy_wrap pol \/ policy_succ pol -> fed_reach G pol k -> get (k_buffers k) b = Some u -> acc (b_content u).
Proof.
  intros P R. assert (exists p, policy_wrap p /\ fed_reach G p k) as (p & Pw & Rw). { destruct P as [P|P]; [eauto|]. exists pol_wrap. split; [exact pol_wrap_ok|]. eapply fed_release; eauto. }
  apply (every_reachable G p (fun _ => True) (fun u => acc (b_content u))); try exact Rw; clear b u R Rw P; try exact (fun _ => Logic.I).
  - intros n x. apply with_acc. destruct x; discriminate.
  - intros d f u _ E. unfold new_file in E. bnd E. injection E as <-. apply with_acc. destruct (ends_lf v) eqn:En; [|now destruct v]. destruct v; [|discriminate]. cbn in En. discriminate.
  - intros x u u' A Hx E. unfold buf_append in E. bnd E. injection E as <-. eapply append_acc; eauto.
  - intros d u r u' _ A E. unfold load_from_disk in E. destruct (b_source u); [now injection E as _ <-|]. destruct (is_synced d u); [now injection E as _ <-|]. bnd E. bnd E. injection E as _ <-. eapply apply_diff_acc; eauto.
  - intros ss u xs t t' A E1 E2. pose proof (delete_sels_acc _ _ _ Pw _ _ _ E1 A) as A1. destruct (pt_is_empty t); [|injection E2 as <-; exact A1]. refine (append_acc [LF] t t' A1 _ E2). discriminate.
Qed.
