(** Where a buffer comes from and when it was read: only opening and reloading change that. *)
From Coq Require Import String List Arith Lia Bool Permutation.
From Verif Require Import Base ListFacts PieceTable Coords Utf8 Utf8Facts Diff Selection Maps StackMap Fmt Buffer View ViewFacts Core CoreSpec CoreInv CoreOps FileSyncSpec.
Import ListNotations.

Section Keyed.
Variable G : Graphemes.
Variable pol : policy.
Variable cwd : text.
(** the disks met *)
Variable D : disk -> Prop.
(** what is kept of the buffer of a name *)
Variable Q : text -> buffer -> Prop.
Hypothesis q_scratch : forall n m x, Q n (new_scratch m x).
Hypothesis q_file : forall d n u, D d -> new_file d (path_join cwd n) = Ok u -> Q n u.
Hypothesis q_content : forall n u t, Q n u -> Q n (set_content u t).
Hypothesis q_load : forall d n u r u', D d -> Q n u -> load_from_disk pol d u = Ok (r, u') -> Q n u'.

Definition each (m : amap text buffer) : Prop := Forall (fun e => Q (fst e) (snd e)) m.
Definition held (k : core) : Prop := k_cwd k = cwd /\ each (k_buffers k).
Lemma each_set m n u : each m -> Q n u -> each (set m n u).
Proof. unfold each. intros F A. induction m as [|[a b] m IH]; cbn [set]; [now constructor|]. inversion F; subst. destruct (eqb n a) eqn:E; constructor; auto. apply eqb_ok in E. now subst. Qed.
Lemma each_del m n : each m -> each (del m n).
Proof. unfold each, del. rewrite !Forall_forall. intros F e He. apply filter_In in He. apply F, He. Qed.
Lemma each_get m n u : each m -> get m n = Some u -> Q n u.
Proof. unfold each. rewrite Forall_forall. intros F E. apply get_in in E. exact (F _ E). Qed.
Lemma held_same k k' : k_cwd k' = k_cwd k -> k_buffers k' = k_buffers k -> held k -> held k'.
Proof. intros A B [C H]. split; congruence. Qed.
Lemma held_append n x k k' : append_to G n x k = Ok k' -> held k -> held k'.
Proof.
  intros E [C A]. apply append_frame in E. destruct E as (W & _ & _ & b & B & H). split; [congruence|]. rewrite B. apply each_set; auto. destruct (get (k_buffers k) n) as [u|] eqn:Eu.
  - unfold buf_append in H. bnd H. injection H as <-. apply q_content. eapply each_get; eauto.
  - subst b. apply q_scratch.
Qed.
Lemma held_debug x k k' : debug G x k = Ok k' -> held k -> held k'.
Proof. apply held_append. Qed.
Lemma held_notify ids k k' : notify_view_update G ids k = Ok k' -> held k -> held k'.
Proof. intro E. apply notify_same in E. destruct E as (A & _ & B & _). now apply held_same. Qed.
Lemma held_add_view v k k' : add_view v k = Ok k' -> held k -> held k'.
Proof.
  intros E [C A]. split; [|now rewrite (add_view_buffers _ _ _ E)]. unfold add_view in E. bnd E. destruct v0 as [o m]. injection E as <-. exact C.
Qed.
Lemma held_drop bs : forall k k', drop_buffers G bs k = Ok k' -> held k -> held k'.
Proof.
  induction bs as [|b bs IH]; intros k k' E A; cbn [drop_buffers] in E; [now injection E as <-|]. destruct (existsb _ _); [eauto|]. bnd E. eapply IH; eauto.
  eapply held_debug; eauto. split; [apply A|]. cbn [k_buffers set_buffers]. apply each_del, A.
Qed.
Lemma held_open_scratch n x k : held k -> held (open_scratch n x k).
Proof. intros [C A]. split; [exact C|]. unfold open_scratch. cbn [k_buffers set_buffers]. now apply each_set. Qed.
Lemma held_delete_view id k e k' : delete_view G id k = Ok (e, k') -> held k -> held k'.
Proof.
  intros E A. unfold delete_view in E. destruct (negb (view_exists k id)); [now injection E as <- <-|]. destruct (sm_remove id (k_views k)) as [ov vs].
  destruct ov as [v|]; [|discriminate]. cbn [unwrap bind] in E. bnd E. bnd E. bnd E. bnd E. bnd E. injection E as <- <-.
  apply held_debug in E0; [|exact A]. apply held_drop in E1; [|exact E0]. assert (held v2) as A2.
  { destruct (vmap v1); [|now injection E2 as <-]. eapply held_add_view; eauto. destruct (k_buffers v1) eqn:Eb; [|exact E1]. now apply held_open_scratch. }
  eapply held_notify; eauto.
Qed.
Lemma held_modify id f k k' : modify_view G id f k = Ok k' -> held k -> held k'.
Proof.
  intros E A. unfold modify_view in E. bnd E. destruct (eqb _ _); [now injection E as <-|]. bnd E. bnd E. destruct v1 as [e k2]. destruct e; [discriminate|]. injection E as <-.
  eapply held_delete_view; eauto. destruct (view_is_empty (f v)); [now injection E1 as <-|]. eapply held_add_view; eauto.
Qed.
Lemma held_view id vid k e k' : view_cmd G id vid k = Ok (e, k') -> held k -> held k'.
Proof.
  intros E A. unfold view_cmd in E. destruct (view_exists k vid).
  - bnd E. bnd E. bnd E. injection E as <- <-. eapply held_notify; eauto.
  - destruct (buffer_exists k vid); [|now injection E as <- <-]. bnd E. bnd E. injection E as <- <-. eapply held_notify; eauto.
Qed.
Lemma held_edit d id name scratch k k' : D d -> edit_cmd G pol d id name scratch k = Ok k' -> held k -> held k'.
Proof.
  intros Dd E A. unfold edit_cmd in E. bnd E. destruct v as [notify k1]. assert (held k1) as A1.
  { destruct scratch.
    - injection E0 as <- <-. destruct (buffer_exists k name); auto. now apply held_open_scratch.
    - destruct A as [C A]. unfold buffer_exists, has in E0. destruct (get (k_buffers k) name) as [u|] eqn:Eu.
      + cbn [unwrap bind] in E0. bnd E0. destruct v as [rl u']. bnd E0. injection E0 as <- <-.
        assert (held (set_buffers k (set (k_buffers k) name u'))) as As by (split; [exact C|]; apply each_set; [exact A|]; eapply q_load; [exact Dd|eapply each_get; eauto|exact E1]). destruct rl; [|injection E2 as <-; exact As]. eapply held_debug; eauto.
      + bnd E0. injection E0 as <- <-. unfold open_file in E1. bnd E1. injection E1 as <-. split; [exact C|]. cbn [k_buffers set_buffers]. apply each_set; auto. eapply q_file; [exact Dd|]. now rewrite <- C. }
  bnd E. bnd E. destruct v0 as [e k2]. destruct e; [discriminate|]. bnd E. apply held_add_view in E1; auto. apply held_view in E2; auto. apply held_debug in E3; auto.
  destruct notify; [|now injection E as <-]. eapply held_notify; eauto.
Qed.
Lemma each_delete_in m : forall bufs r, delete_in_buffers G pol m bufs = Ok r -> each bufs -> each (snd r).
Proof.
  induction m as [|[n ss] m IH]; intros bufs r E A; cbn [delete_in_buffers] in E; [now injection E as <-|]. bnd E. bnd E. destruct v0 as [xs t]. bnd E. bnd E.
  destruct v1 as [[ys mods] bufs']. injection E as <-. cbn [snd]. apply IH in E3; [exact E3|]. apply each_set; auto. destruct (get bufs n) as [u|] eqn:Eu; [|discriminate]. cbn [unwrap] in E0. injection E0 as <-.
  apply q_content. eapply each_get; eauto.
Qed.
Lemma held_call d c k r k' : D d -> run_call G pol d c k = Ok (r, k') -> held k -> held k'.
Proof.
  intros Dd E A. destruct c; cbn [run_call] in E.
  - bnd E. injection E as _ <-. eapply held_edit; eauto.
  - bnd E. destruct v. injection E as _ <-. eapply held_view; eauto.
  - bnd E. injection E as _ <-. unfold delete_current_view in E0. bnd E0. bnd E0. destruct v1 as [e k2]. destruct e; [discriminate|]. injection E0 as <-. eapply held_delete_view; eauto.
  - bnd E. destruct v. injection E as _ <-. unfold add_to_current_view in E0. destruct (negb _); [now injection E0 as _ <-|]. bnd E0. bnd E0. injection E0 as _ <-. eapply held_modify; eauto.
  - bnd E. destruct v. injection E as _ <-. unfold remove_from_current_view in E0. destruct (negb _); [now injection E0 as _ <-|]. bnd E0. bnd E0. injection E0 as _ <-. eapply held_modify; eauto.
  - bnd E. injection E as _ <-. unfold move_cursor in E0. bnd E0. bnd E0. bnd E0. destruct (negb _); [eapply held_notify; eauto|now injection E0 as <-].
  - bnd E. destruct v as [xs k1]. injection E as _ <-. unfold delete_selection in E0. bnd E0. bnd E0. bnd E0. destruct v1 as [[ys mods] bufs]. bnd E0. pose proof (each_delete_in _ _ _ E2 (proj2 A)) as A1. cbn [snd] in A1.
    destruct ys; [injection E0 as _ <-; exact (conj (proj1 A) A1)|]. bnd E0. injection E0 as _ <-. eapply held_notify; eauto. exact (conj (proj1 A) A1).
  - bnd E. injection E as _ <-. eapply held_append; eauto.
  - bnd E. injection E as _ <-. eapply held_edit; [exact Dd|exact E0|]. now apply held_open_scratch.
  - bnd E. injection E as _ <-. unfold message in E0. bnd E0. injection E0 as <-. eapply held_append in E; [|exact A]. exact E.
  - bnd E. injection E as _ <-. unfold error in E0. bnd E0. injection E0 as <-. eapply held_append in E; [|exact A]. exact E.
  - bnd E. injection E as _ <-. eapply held_debug; eauto.
  - bnd E. destruct v. injection E as _ <-. exact A.
  - bnd E. injection E as _ <-. unfold add_client in E0. bnd E0. bnd E0. destruct v1. bnd E0. injection E0 as <-. eapply held_debug in E2; [exact E2|exact A].
  - bnd E. injection E as _ <-. unfold remove_client in E0. eapply held_debug; [eassumption|exact A].
Qed.
Lemma held_shuffle k k' : shuffle k k' -> held k -> held k'.
Proof. intros (W & _ & Pm & _) [C A]. split; [congruence|]. unfold each in *. eapply Permutation_Forall; eauto. Qed.
Lemma held_init args k : editor_init G cwd args = Ok k -> held k.
Proof.
  intro E. unfold editor_init in E. bnd E. bnd E. apply held_debug in E0; [|split; [reflexivity|constructor]]. apply held_debug in E1; auto. eapply held_add_view; eauto. eapply held_same; [| |exact (held_open_scratch b_scratch [] _ E1)]; reflexivity.
Qed.
Lemma held_meanwhile k k' : meanwhile G pol D k k' -> held k -> held k'.
Proof. induction 1 as [|d c k1 r k2 M IH Dd E|k1 k2 M IH S]; intro H; [exact H|eapply held_call; eauto|eapply held_shuffle; eauto]. Qed.
End Keyed.

(** the buffers of files are named after them *)
Definition named_file (cwd n : text) (u : buffer) : Prop := forall f, b_source u = SFile f -> f = path_join cwd n.
Lemma named_load pol cwd d n u r u' : named_file cwd n u -> load_from_disk pol d u = Ok (r, u') -> named_file cwd n u'.
Proof.
  intros N E. unfold load_from_disk in E. destruct (b_source u) as [x|f] eqn:S; [injection E as _ <-; exact N|]. destruct (is_synced d u); [injection E as _ <-; exact N|]. bnd E. bnd E. injection E as _ <-. intros g X. apply N. rewrite S. exact X.
Qed.
Lemma reach_named G pol k : reach G pol k -> held (k_cwd k) (named_file (k_cwd k)) k.
Proof.
  intro R. assert (exists cwd, held cwd (named_file cwd) k) as (cwd & C & H); [|subst cwd; split; auto].
  induction R as [cwd args k E|d c k r k' R (cwd & IH) E|k k' R (cwd & IH) S].
  - exists cwd. eapply held_init; [| |exact E]; [intros n m x f X; discriminate|intros n u t N; exact N].
  - exists cwd. eapply (held_call G pol cwd (fun _ => True)); [| | | |exact Logic.I|exact E|exact IH].
    + intros n m x f X. discriminate.
    + intros d0 n u _ X. unfold new_file in X. bnd X. injection X as <-. intros f Y. now injection Y as <-.
    + intros n u t N. exact N.
    + intros d0 n u r0 u' _. apply named_load.
  - exists cwd. eapply held_shuffle; eauto.
Qed.
