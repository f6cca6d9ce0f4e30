(** C81: the memory handed over by the C interface. *)
From Coq Require Import String List Arith ZArith Lia Bool Permutation.
From Verif Require Import Base ListFacts Maps Proto Payload Conn Ffi FfiHeap FfiGen PropFfiGen.
Import ListNotations.

(** ** vocabulary *)
(** a pointer the C program has, and the type it points to *)
Definition handle := (ptr * kind)%type.
(** the pointers in a box that was handed over *)
Definition fields_of (o : obj) : list handle :=
  match o with
  | BTextItem t f => [(t, KString); (f, KString)]
  | BStatusItem _ t => [(t, KTextIter)]
  | BViewItem b _ _ l => [(b, KString); (l, KLensIter)]
  | BViewLens l _ => [(l, KLineIter)]
  | BEvent (HEcho m) => [(m, KTextIter)]
  | BEvent (HInfo c s) => [(c, KString); (s, KString)]
  | BEvent (HMenu a b c i _) => [(a, KString); (b, KString); (c, KString); (i, KMenuIter)]
  | BEvent (HStatus i) => [(i, KStatusIter)]
  | BEvent (HView i) => [(i, KViewIter)]
  | BVersion a b c d => [(a, KString); (b, KString); (c, KString); (d, KString)]
  | _ => []
  end.
Definition given (a : answer) : list handle := match a with New p o => (p, kind_of o) :: fields_of o | _ => [] end.
(** what the program has after these calls: everything it was given and has not destroyed *)
Definition drops (c : ccall) (x : handle) : bool := match c with Destroy _ (Some p) => fst x =? p | _ => false end.
Definition has_after (hs : list handle) (x : ccall * answer) : list handle := given (snd x) ++ filter (fun h => negb (drops (fst x) h)) hs.
Definition handles (tr : list (ccall * answer)) : list handle := fold_left has_after tr [].
(** the functions of the interface (C77) *)
Section Prop81.
Variable upper : text -> bool.
Definition can_destroy (k : kind) : Prop := exists n, In (DDestroy n (kind_name k)) (bu_decls (generate upper shipped_config)).
Definition can_iterate (k : kind) : Prop := exists n item, In (DNext n (kind_name k) item) (bu_decls (generate upper shipped_config)).
(** a call with pointers the program was given and has not destroyed, to a function for their type *)
Definition obeys (hs : list handle) (c : ccall) : Prop :=
  match c with
  | Version | Create _ | Arrives _ _ => True
  | NextEvent p => In (p, KConnection) hs
  | NextItem k p => In (p, k) hs /\ can_iterate k
  | Destroy k None => can_destroy k
  | Destroy k (Some p) => In (p, k) hs /\ can_destroy k
  end.
Variable fresh : heap -> ptr.
Variables v1 v2 v3 v4 : text.
Let call := call_c fresh v1 v2 v3 v4.
(** the allocator does not hand out what is in use *)
Definition allocator : Prop := forall h, ~ In (fresh h) (map fst h).
(** the runs of a program that obeys *)
Inductive crun : list (ccall * answer) -> heap -> Prop :=
| cr_start : crun [] []
| cr_step tr h c a h' : crun tr h -> obeys (handles tr) c -> call c h = Ok (a, h') -> crun (tr ++ [(c, a)]) h'.

(** ** the heap *)
Definition typed (h : heap) : list handle := map (fun x => (fst x, kind_of (snd x))) h.
Lemma typed_fst h : map fst (typed h) = map fst h.
Proof. unfold typed. rewrite map_map. reflexivity. Qed.
Lemma find_in h p o : find h p = Some o -> In (p, o) h.
Proof. induction h as [|[q x] r IH]; cbn [find]; [discriminate|]. destruct (Nat.eqb_spec q p) as [->|N]; [intro H; injection H as ->; now left|]. right. auto. Qed.
Lemma in_find h p o : NoDup (map fst h) -> In (p, o) h -> find h p = Some o.
Proof.
  induction h as [|[q x] r IH]; cbn [find map fst]; intros N H; [destruct H|]. apply NoDup_cons_iff in N. destruct N as [N1 N2]. destruct H as [H|H].
  - injection H as -> ->. now rewrite Nat.eqb_refl.
  - destruct (Nat.eqb_spec q p) as [->|D]; [exfalso; apply N1; apply in_map_iff; exists (p, o); auto|auto].
Qed.
Lemma store_typed h p o x : find h p = Some x -> kind_of o = kind_of x -> typed (store h p o) = typed h.
Proof.
  induction h as [|[q y] r IH]; cbn [find store]; [discriminate|]. destruct (q =? p); intros F K.
  - injection F as ->. unfold typed. cbn [map fst snd]. now rewrite K.
  - unfold typed in *. cbn [map]. now rewrite IH.
Qed.
Lemma store_other h p o q : q <> p -> find (store h p o) q = find h q.
Proof. intro N. induction h as [|[r x] h IH]; auto. cbn [store find]. destruct (Nat.eqb_spec r p) as [->|D]; cbn [find]; [|now rewrite IH]. destruct (Nat.eqb_spec p q); [congruence|reflexivity]. Qed.
Lemma store_same h p o x : find h p = Some x -> find (store h p o) p = Some o.
Proof. induction h as [|[r y] h IH]; cbn [find store]; [discriminate|]. destruct (Nat.eqb_spec r p) as [->|D]; cbn [find]; [now rewrite Nat.eqb_refl|]. destruct (Nat.eqb_spec r p); [congruence|auto]. Qed.
Lemma free_typed h p : NoDup (map fst h) -> typed (free h p) = filter (fun x => negb (fst x =? p)) (typed h).
Proof.
  unfold typed. induction h as [|[q x] r IH]; auto. cbn [map fst]. intro N. apply NoDup_cons_iff in N. destruct N as [N1 N2]. cbn [free filter fst snd]. destruct (Nat.eqb_spec q p) as [->|D]; cbn [negb].
  - clear IH. symmetry. induction r as [|[a b] l IH]; auto. cbn [map filter fst snd] in *. cbn [In] in N1.
    destruct (Nat.eqb_spec a p) as [->|D]; [exfalso; apply N1; now left|]. cbn [negb]. f_equal. apply NoDup_cons_iff in N2. apply IH; [|apply N2]. intro. apply N1. now right.
  - cbn [map fst snd]. f_equal. apply IH, N2.
Qed.
Lemma free_other h p q : q <> p -> find (free h p) q = find h q.
Proof. intro N. induction h as [|[r x] h IH]; auto. cbn [free]. destruct (Nat.eqb_spec r p) as [->|D]; cbn [find]; [destruct (Nat.eqb_spec p q); [congruence|reflexivity]|now rewrite IH]. Qed.

(** ** new boxes *)
Hypothesis A : allocator.
(** boxes allocated one after the other *)
Inductive pushed (h : heap) : list (ptr * obj) -> Prop :=
| pu_nil : pushed h []
| pu_cons l o p : pushed h l -> p = fresh (l ++ h) -> pushed h ((p, o) :: l).
Lemma pushed_ok h l : pushed h l -> NoDup (map fst l) /\ forall q, In q (map fst l) -> ~ In q (map fst h).
Proof.
  induction 1 as [|l o p P [N D] ->]; [split; [constructor|intros q []]|]. cbn [map fst]. pose proof (A (l ++ h)) as F. rewrite map_app, in_app_iff in F. split.
  - constructor; auto.
  - intros q [<-|H]; auto.
Qed.
(** [h'] is [h] with new boxes: the box at [p] and those it points to *)
Definition grown (h : heap) (p : ptr) (h' : heap) : Prop :=
  exists o subs, h' = (p, o) :: subs ++ h /\ pushed h ((p, o) :: subs) /\ Permutation (typed subs) (fields_of o).
Lemma string_ok s h p h' : alloc_string fresh s h = Ok (p, h') -> p = fresh h /\ h' = (p, BString s) :: h /\ cstring s = Ok s.
Proof.
  unfold alloc_string, alloc, cstring. destruct (existsb (Nat.eqb 0) s); cbn [bind]; [discriminate|]. intro H. injection H as <- <-. auto.
Qed.
Ltac strings H :=
  repeat match type of H with
  | bind (alloc_string _ ?s ?h) _ = Ok _ =>
      let p := fresh "p" in let h' := fresh "h'" in let E := fresh "E" in let K := fresh "K" in let F := fresh "F" in
      destruct (alloc_string fresh s h) as [[p h']| |] eqn:E; cbn [bind] in H; [|discriminate H|discriminate H]; apply string_ok in E; destruct E as (F & -> & K)
  end.
Ltac subs h r := match r with h => constr:(@nil (ptr * obj)) | ?y :: ?z => let w := subs h z in constr:(y :: w) end.
Ltac grows := match goal with
  | |- grown ?h ?p ((?p, ?o) :: ?r) => let l := subs h r in exists o, l; split; [reflexivity|]; split; [repeat first [apply pu_nil | eapply pu_cons; [|cbn [app]; first [eassumption|reflexivity]]]|]
  end.
Lemma text_item_grown x h p h' : new_text_item fresh x h = Ok (p, h') -> grown h p h'.
Proof. unfold new_text_item. intro H. strings H. unfold alloc in H. injection H as <- <-. grows. cbn [typed map fst snd fields_of kind_of]. apply perm_swap. Qed.
Lemma status_item_grown x h p h' : new_status_item fresh x h = Ok (p, h') -> grown h p h'.
Proof. unfold new_status_item, alloc. intro H. injection H as <- <-. grows. reflexivity. Qed.
Lemma view_item_grown x h p h' : new_view_item fresh x h = Ok (p, h') -> grown h p h'.
Proof. unfold new_view_item. intro H. strings H. unfold alloc in H. injection H as <- <-. grows. apply perm_swap. Qed.
Lemma lens_grown x h p h' : new_lens fresh x h = Ok (p, h') -> grown h p h'.
Proof. unfold new_lens, alloc. intro H. injection H as <- <-. grows. reflexivity. Qed.
Lemma rev_perm (l r : list handle) : l = rev r -> Permutation l r.
Proof. intros ->. symmetry. apply Permutation_rev. Qed.
Lemma event_grown e h p h' : new_event fresh e h = Ok (p, h') -> grown h p h'.
Proof.
  destruct e; unfold new_event, alloc; intro H; try discriminate H; strings H; injection H as <- <-; grows; apply rev_perm; reflexivity.
Qed.
Lemma grown_find h p h' : grown h p h' -> exists o, find h' p = Some o.
Proof. intros (o & subs & -> & _). exists o. cbn [find]. now rewrite Nat.eqb_refl. Qed.
Lemma find_app_l l h q o : find l q = Some o -> find (l ++ h) q = Some o.
Proof. induction l as [|[r x] l IH]; cbn [find app]; [discriminate|]. destruct (r =? q); auto. Qed.
Lemma find_app_r l h q : ~ In q (map fst l) -> find (l ++ h) q = find h q.
Proof. induction l as [|[r x] l IH]; cbn [find app map fst In]; auto. intro N. destruct (Nat.eqb_spec r q) as [->|D]; [exfalso; auto|]. apply IH. auto. Qed.

(** ** the invariant *)
Definition owned (h : heap) (hs : list handle) : Prop := NoDup (map fst h) /\ Permutation (typed h) hs.
Lemma owned_in h hs p k : owned h hs -> In (p, k) hs -> exists o, find h p = Some o /\ kind_of o = k.
Proof.
  intros [N P] H. apply (Permutation_in _ (Permutation_sym P)) in H. unfold typed in H. apply in_map_iff in H. destruct H as ([q o] & E & H). cbn [fst snd] in E. injection E as -> <-.
  exists o. split; auto. now apply in_find.
Qed.
Lemma grown_owned h p h' hs : owned h hs -> grown h p h' -> exists o, find h' p = Some o /\ owned h' (((p, kind_of o) :: fields_of o) ++ hs).
Proof.
  intros [N P] (o & subs & -> & U & F). exists o. split; [cbn [find]; now rewrite Nat.eqb_refl|]. destruct (pushed_ok _ _ U) as [N2 D]. split.
  - change ((p, o) :: subs ++ h) with (((p, o) :: subs) ++ h). rewrite map_app. revert N2 D. generalize (map fst ((p, o) :: subs)) as l. induction l as [|q l IH]; intros N2 D; cbn [app]; auto.
    apply NoDup_cons_iff in N2. destruct N2 as [N2 N3]. constructor; [|apply IH; auto; intros; apply D; now right]. rewrite in_app_iff. intros [X|X]; auto. apply (D q); [now left|exact X].
  - cbn [app]. unfold typed in *. cbn [map fst snd]. constructor. rewrite map_app. now apply Permutation_app.
Qed.
Lemma store_owned h hs p o x : owned h hs -> find h p = Some x -> kind_of o = kind_of x -> owned (store h p o) hs.
Proof. intros [N P] F K. pose proof (store_typed h p o x F K) as T. split; [rewrite <- typed_fst, T, typed_fst; exact N|rewrite T; exact P]. Qed.
Lemma give_owned x h hs a h' : owned h hs -> (forall p h1, x = Ok (p, h1) -> grown h p h1) -> give x = Ok (a, h') -> owned h' (given a ++ hs).
Proof.
  intros O G. unfold give. destruct x as [[p h1]| |]; cbn [bind]; try discriminate. intro H. destruct (grown_owned h p h1 hs O (G p h1 eq_refl)) as (o & F & O'). rewrite F in H. injection H as <- <-. exact O'.
Qed.
Lemma next_owned {T} p (i : iter T) set conv h hs x a h' : owned h hs -> find h p = Some x -> (forall j, kind_of (set j) = kind_of x) ->
  (forall y h0 q h1, conv y h0 = Ok (q, h1) -> grown h0 q h1) -> next p i set conv h = Ok (a, h') -> owned h' (given a ++ hs).
Proof.
  intros O F K G. unfold next. destruct (nth_error (it_items i) (it_next i)) as [y|]; [|intro H; injection H as <- <-; exact O].
  intro H. refine (give_owned _ _ _ _ _ _ _ H); [eapply store_owned; eauto|]. intros q h1 E. exact (G _ _ _ _ E).
Qed.
Lemma filter_all {T} (f : T -> bool) l : (forall x, f x = true) -> filter f l = l.
Proof. intro H. induction l as [|x l IH]; auto. cbn [filter]. rewrite H. now f_equal. Qed.
Lemma perm_filter {T} (f : T -> bool) l r : Permutation l r -> Permutation (filter f l) (filter f r).
Proof.
  induction 1 as [|x l r P IH|x y l|l r s P1 IH1 P2 IH2]; cbn [filter]; [constructor|destruct (f x); auto|destruct (f x), (f y); auto; apply perm_swap|]. eapply Permutation_trans; eauto.
Qed.
Lemma kind_ok a b : kind_eqb a b = true <-> a = b.
Proof. split; [destruct a, b; cbn; congruence|intros ->; destruct b; reflexivity]. Qed.
Lemma call_owned h hs c a h' : owned h hs -> call c h = Ok (a, h') -> owned h' (has_after hs (c, a)).
Proof.
  intros O. unfold has_after. cbn [fst snd]. assert (forall c, (forall x, drops c x = false) -> filter (fun x => negb (drops c x)) hs = hs) as Keep by (intros c' E; apply filter_all; intro x; now rewrite E).
  destruct c as [|j|p|k p|k [p|]|p e]; cbn [call call_c]; unfold call, call_c.
  - rewrite Keep by auto. intro H. eapply give_owned; [exact O| |exact H]. intros p h1 E. clear H. strings E. unfold alloc in E. injection E as <- <-. grows. apply rev_perm. reflexivity.
  - rewrite Keep by auto. destruct j; [|intro H; injection H as <- <-; exact O]. intro H. eapply give_owned; [exact O| |exact H]. intros p h1 E. unfold alloc in E. injection E as <- <-. grows. constructor.
  - rewrite Keep by auto. destruct (find h p) as [[]|] eqn:F; try discriminate. destruct events as [|e r]; [intro H; injection H as <- <-; exact O|].
    intro H. refine (give_owned _ (store h p (BConnection r)) _ _ _ (store_owned h hs p (BConnection r) (BConnection (e :: r)) O F eq_refl) _ H). intros q h1 E. exact (event_grown _ _ _ _ E).
  - rewrite Keep by auto. destruct k; try discriminate; destruct (find h p) as [[]|] eqn:F; try discriminate; intro H;
      (refine (next_owned _ _ _ _ _ _ _ _ _ O F _ _ H); [reflexivity|]); [exact text_item_grown|exact status_item_grown|exact view_item_grown|exact lens_grown].
  - destruct (find h p) as [o|] eqn:F; [|discriminate]. destruct (kind_eqb (kind_of o) k); [|discriminate]. intro H. injection H as <- <-. cbn [given app drops]. destruct O as [N P]. split.
    + rewrite <- typed_fst, free_typed by exact N. rewrite <- typed_fst in N. clear - N. induction (typed h) as [|[q x] l IH]; [constructor|]. cbn [map fst] in N. apply NoDup_cons_iff in N. destruct N as [N1 N2].
      cbn [filter fst]. destruct (q =? p); cbn [negb map fst]; [auto|]. constructor; auto. intro X. apply N1. apply in_map_iff in X. destruct X as (y & E & X). apply filter_In in X. apply in_map_iff. exists y. tauto.
    + rewrite free_typed by exact N. now apply perm_filter.
  - rewrite Keep by auto. intro H. injection H as <- <-. exact O.
  - rewrite Keep by auto. destruct (find h p) as [o|] eqn:F; [|intro H; injection H as <- <-; exact O]. destruct o; intro H; injection H as <- <-; try exact O. eapply store_owned; [exact O|exact F|reflexivity].
Qed.
Lemma crun_owned tr h : crun tr h -> owned h (handles tr).
Proof.
  induction 1 as [|tr h c a h' R IH B C]; [split; constructor|]. unfold handles. rewrite fold_left_app. cbn [fold_left]. eapply call_owned; eauto.
Qed.
(** What is allocated is exactly what the program was given and has not destroyed, each box once and of its type. *)
Theorem C81_owned : forall tr h, crun tr h ->
  NoDup (map fst (handles tr)) /\ (forall p k, In (p, k) (handles tr) <-> exists o, find h p = Some o /\ kind_of o = k) /\ length h = length (handles tr).
Proof.
  intros tr h R. destruct (crun_owned tr h R) as [N P]. split; [|split].
  - eapply Permutation_NoDup; [apply Permutation_map, P|]. now rewrite typed_fst.
  - intros p k. split; [apply owned_in; split; auto|]. intros (o & F & <-). apply (Permutation_in _ P). apply find_in in F. unfold typed. apply in_map_iff. exists (p, o). auto.
  - rewrite <- (Permutation_length P). unfold typed. now rewrite map_length.
Qed.

(** ** safety *)
Definition defined {T} (x : res T) : Prop := x <> Unspec.
Lemma string_defined s h : defined (alloc_string fresh s h).
Proof. unfold alloc_string, cstring. destruct (existsb (Nat.eqb 0) s); cbn [bind]; discriminate. Qed.
Lemma bind_defined {T U} (x : res T) (f : T -> res U) : defined x -> (forall y, x = Ok y -> defined (f y)) -> defined (bind x f).
Proof. unfold defined. intros X F. destruct x as [y| |]; cbn [bind]; [exact (F y eq_refl)|discriminate|congruence]. Qed.
Ltac safe := repeat (apply bind_defined; [apply string_defined|intros [? ?] _]); unfold alloc; discriminate.
Lemma event_defined e h : defined (new_event fresh e h).
Proof. destruct e; unfold new_event, alloc; try discriminate; safe. Qed.
Lemma give_defined x h : defined x -> (forall p h1, x = Ok (p, h1) -> grown h p h1) -> defined (give x).
Proof. intros D G. unfold give. apply bind_defined; [exact D|]. intros [p h1] E. destruct (grown_find _ _ _ (G p h1 E)) as (o & F). rewrite F. discriminate. Qed.
Lemma next_defined {T} p (i : iter T) set conv h : (forall y h0, defined (conv y h0)) -> (forall y h0 q h1, conv y h0 = Ok (q, h1) -> grown h0 q h1) -> defined (next p i set conv h).
Proof. intros D G. unfold next. destruct (nth_error (it_items i) (it_next i)); [|discriminate]. eapply give_defined; [apply D|]. intros. eapply G. eauto. Qed.
Lemma can_iterate_kinds k : can_iterate k -> k = KTextIter \/ k = KStatusIter \/ k = KViewIter \/ k = KLensIter.
Proof.
  intros (n & item & H). destruct (C77_functions upper shipped_config) as (_ & F & _). destruct (proj1 (F _ _) (ex_intro _ n H)) as (st & Hs & I & E & _). clear - Hs I E.
  cbn [shipped_config cf_structures In] in Hs. repeat destruct Hs as [<-|Hs]; try discriminate I; try (destruct Hs); vm_compute in E; destruct k; try discriminate E; tauto.
Qed.
Lemma can_destroy_no k : can_destroy k -> k <> KString /\ k <> KMenuIter /\ k <> KLineIter.
Proof.
  intros (n & H). destruct (C77_functions upper shipped_config) as (F & _). assert (In (kind_name k) (types shipped_config)) as T by (apply F; eauto). clear - T.
  destruct k; repeat split; try discriminate; vm_compute in T; repeat destruct T as [T|T]; try discriminate T; destruct T.
Qed.
(** A program that passes only pointers it was given and has not destroyed, each to a function for its type, never makes the
    interface touch memory that was freed, or free a box twice, or read it as something else, whatever addresses the allocator uses
    again.  Destroying a box leaves what it points to valid. *)
Theorem C81_safe : forall tr h c, crun tr h -> obeys (handles tr) c -> call c h <> Unspec.
Proof.
  intros tr h c R B. pose proof (crun_owned tr h R) as O. change (defined (call c h)). destruct c as [|j|p|k p|k [p|]|p e]; unfold call, call_c; cbn [obeys] in B.
  - apply (give_defined _ h); [safe|]. intros p h1 E. strings E. unfold alloc in E. injection E as <- <-. grows. apply rev_perm. reflexivity.
  - destruct j; [|discriminate]. apply (give_defined _ h); [discriminate|]. intros p h1 E. unfold alloc in E. injection E as <- <-. grows. constructor.
  - destruct (owned_in _ _ _ _ O B) as (o & F & K). rewrite F. destruct o; try discriminate K. destruct events as [|e r]; [discriminate|]. eapply give_defined; [apply event_defined|]. intros. eapply event_grown. eauto.
  - destruct B as [B I]. destruct (owned_in _ _ _ _ O B) as (o & F & K). rewrite F. destruct (can_iterate_kinds k I) as [->|[->|[->| ->]]]; destruct o; try discriminate K;
      (apply next_defined; [intros y h0|]); [|exact text_item_grown| |exact status_item_grown| |exact view_item_grown| |exact lens_grown].
    + unfold new_text_item. safe.
    + unfold new_status_item, alloc. discriminate.
    + unfold new_view_item. safe.
    + unfold new_lens, alloc. discriminate.
  - destruct B as [B _]. destruct (owned_in _ _ _ _ O B) as (o & F & <-). rewrite F. rewrite (proj2 (kind_ok _ _) eq_refl). discriminate.
  - discriminate.
  - destruct (find h p) as [[]|]; discriminate.
Qed.

(** ** contents *)
(** the call is about this pointer *)
Definition about (c : ccall) (q : ptr) : Prop :=
  match c with NextEvent p | NextItem _ p | Destroy _ (Some p) | Arrives p _ => p = q | _ => False end.
Lemma grown_other h p h' q : grown h p h' -> In q (map fst h) -> find h' q = find h q.
Proof.
  intros (o & subs & -> & U & _) I. destruct (pushed_ok _ _ U) as [_ D]. change ((p, o) :: subs ++ h) with (((p, o) :: subs) ++ h). apply find_app_r. intro X. exact (D q X I).
Qed.
Lemma give_other x h a h' q : (forall p h1, x = Ok (p, h1) -> grown h p h1) -> give x = Ok (a, h') -> In q (map fst h) -> find h' q = find h q.
Proof.
  intros G. unfold give. destruct x as [[p h1]| |]; cbn [bind]; try discriminate. destruct (find h1 p); [|discriminate]. intro H. injection H as _ <-. intro I. eapply grown_other; eauto.
Qed.
Lemma store_fst h p o : map fst (store h p o) = map fst h.
Proof. induction h as [|[q x] h IH]; auto. cbn [store map fst]. destruct (q =? p); cbn [map fst]; congruence. Qed.
Lemma next_other {T} p (i : iter T) set conv h a h' q : (forall y h0 r h1, conv y h0 = Ok (r, h1) -> grown h0 r h1) -> next p i set conv h = Ok (a, h') -> In q (map fst h) -> q <> p -> find h' q = find h q.
Proof.
  intros G. unfold next. destruct (nth_error (it_items i) (it_next i)) as [y|]; [|intro H; injection H as _ <-; auto]. intros H I N.
  rewrite (give_other _ (store h p (set (mkIter (it_items i) (S (it_next i))))) _ _ q (fun r h1 E => G _ _ _ _ E) H) by (now rewrite store_fst). now apply store_other.
Qed.
(** A call changes nothing but the box it is about: all other boxes of the program hold what they held. *)
Theorem C81_others : forall tr h c a h' q k, crun tr h -> call c h = Ok (a, h') -> In (q, k) (handles tr) -> ~ about c q -> find h' q = find h q.
Proof.
  intros tr h c a h' q k R C I Ab. pose proof (crun_owned tr h R) as O. destruct (owned_in _ _ _ _ O I) as (o & F & _). assert (In q (map fst h)) as D by (apply find_in in F; apply in_map_iff; exists (q, o); auto). clear F.
  destruct c as [|j|p|k' p|k' [p|]|p e]; unfold call, call_c in C; cbn [about] in Ab.
  - eapply give_other; [|exact C|exact D]. intros p h1 E. clear C. strings E. unfold alloc in E. injection E as <- <-. grows. apply rev_perm. reflexivity.
  - destruct j; [|injection C as _ <-; reflexivity]. eapply give_other; [|exact C|exact D]. intros p h1 E. unfold alloc in E. injection E as <- <-. grows. constructor.
  - destruct (find h p) as [[]|] eqn:F; try discriminate C. destruct events as [|e r]; [injection C as _ <-; reflexivity|].
    rewrite (give_other _ (store h p (BConnection r)) _ _ q (fun x h1 E => event_grown _ _ _ _ E) C) by (now rewrite store_fst). apply store_other. congruence.
  - destruct k'; try discriminate C; destruct (find h p) as [[]|] eqn:F; try discriminate C; (eapply next_other; [|exact C|exact D|congruence]); [exact text_item_grown|exact status_item_grown|exact view_item_grown|exact lens_grown].
  - destruct (find h p) as [x|]; [|discriminate C]. destruct (kind_eqb (kind_of x) k'); [|discriminate C]. injection C as _ <-. apply free_other. congruence.
  - injection C as _ <-. reflexivity.
  - destruct (find h p) as [x|]; [|injection C as _ <-; reflexivity]. destruct x; injection C as _ <-; try reflexivity. apply store_other. congruence.
Qed.

(** what the boxes hold is what C54 and C63 say: the conversions without memory, in Ffi.v *)
Definition holds_string (h : heap) (p : ptr) (s : text) : Prop := find h p = Some (BString s).
Definition holds_event (h : heap) (o : obj) (c : c_event) : Prop :=
  match o, c with
  | BEvent (HEcho m), CeEcho i => find h m = Some (BTextIter i)
  | BEvent (HInfo a b), CeInfo x y => holds_string h a x /\ holds_string h b y
  | BEvent (HMenu a b c i n), CeMenu x y z j m => holds_string h a x /\ holds_string h b y /\ holds_string h c z /\ find h i = Some (BMenuIter j) /\ n = m
  | BEvent (HStatus i), CeStatus j => find h i = Some (BStatusIter j)
  | BEvent (HView i), CeView j => find h i = Some (BViewIter j)
  | _, _ => False
  end.
Definition holds_text (h : heap) (o : obj) (c : c_text_item) : Prop :=
  match o with BTextItem t f => holds_string h t (ct_text c) /\ holds_string h f (ct_face c) | _ => False end.
Definition holds_status (h : heap) (o : obj) (c : c_status_item) : Prop :=
  match o with BStatusItem n t => n = csi_index c /\ find h t = Some (BTextIter (csi_text c)) | _ => False end.
Definition holds_view (h : heap) (o : obj) (c : c_view_item) : Prop :=
  match o with BViewItem b x y l => holds_string h b (cvi_buffer c) /\ x = cvi_start c /\ y = cvi_end c /\ find h l = Some (BLensIter (cvi_lenses c)) | _ => False end.
Definition holds_lens (h : heap) (o : obj) (c : c_lens) : Prop :=
  match o with BViewLens l n => find h l = Some (BLineIter (cl_lines c)) /\ n = cl_first c | _ => False end.
(** the call fails as the conversion does, or gives a new box that holds what the conversion gives and leaves [left] in [p] *)
Definition hands {C} (h : heap) (c : ccall) (conv : res C) (holds : heap -> obj -> C -> Prop) (p : ptr) (left : obj) : Prop :=
  match conv with
  | Ok x => exists q o h', call c h = Ok (New q o, h') /\ holds h' o x /\ find h' p = Some left
  | Panic why => call c h = Panic why
  | Unspec => False
  end.
Lemma string_cases s : (cstring s = Ok s /\ forall h, alloc_string fresh s h = Ok (alloc fresh (BString s) h)) \/ exists w, cstring s = Panic w /\ forall h, alloc_string fresh s h = Panic w.
Proof. unfold alloc_string, cstring. destruct (existsb (Nat.eqb 0) s); [right; eexists; split; reflexivity|left; split; reflexivity]. Qed.
Lemma fresh_ne h q : In q (map fst h) -> (fresh h =? q) = false.
Proof. intro I. apply Nat.eqb_neq. intros <-. exact (A h I). Qed.
Ltac there := cbn [map fst In]; auto 10.
Ltac finds := cbn [find fst]; repeat first [rewrite Nat.eqb_refl | rewrite fresh_ne by there]; try reflexivity.
Lemma found_in h p o : find h p = Some o -> In p (map fst h).
Proof. intro F. apply find_in in F. apply in_map_iff. exists (p, o). auto. Qed.
Ltac oks := repeat match goal with
  | |- context [cstring ?s] => let K := fresh "K" in let H := fresh "H" in let w := fresh "w" in
      destruct (string_cases s) as [[K H]|(w & K & H)]; rewrite K; cbn [bind]; rewrite ?H; unfold alloc; cbn [bind]; try reflexivity
  end.
(** The next event, and the next item of an iterator, are the ones that Ffi.v converts: C54 and C63 hold of the memory too. *)
Theorem C81_events : forall tr h p e r, crun tr h -> find h p = Some (BConnection (e :: r)) -> hands h (NextEvent p) (conv_event e) holds_event p (BConnection r).
Proof.
  intros tr h p e r R F. unfold hands, call, call_c. rewrite F. pose proof (store_same h p (BConnection r) _ F) as S. pose proof (found_in _ _ _ S) as I. revert S I. generalize (store h p (BConnection r)) as g. clear F R. intros g S I.
  destruct e; unfold conv_event, new_event, give; try reflexivity; oks;
    unfold alloc, give; cbn [bind]; finds; do 3 eexists; (split; [reflexivity|]); unfold holds_event, holds_string; (split; [finds; repeat split; finds|finds; exact S]).
Qed.
(** ** the order of events *)
(** what arrived for the connection [p] since it was created, and how many events it gave *)
Definition heard (p : ptr) (s : list cevent * nat) (x : ccall * answer) : list cevent * nat :=
  match x with
  | (Create _, New q _) => if q =? p then ([], 0) else s
  | (Arrives q e, _) => if q =? p then (fst s ++ [e], snd s) else s
  | (NextEvent q, New _ _) => if q =? p then (fst s, S (snd s)) else s
  | _ => s
  end.
Definition history (p : ptr) (tr : list (ccall * answer)) : list cevent * nat := fold_left (heard p) tr ([], 0).
Lemma fields_no o q : ~ In (q, KConnection) (fields_of o).
Proof. destruct o as [| | | | | | | | | | |[]| |]; cbn [fields_of In]; intuition discriminate. Qed.
Lemma give_new x a h' : give x = Ok (a, h') -> exists q o, a = New q o /\ x = Ok (q, h') /\ find h' q = Some o.
Proof. unfold give. destruct x as [[q h1]| |]; cbn [bind]; try discriminate. destruct (find h1 q) as [o|] eqn:F; [|discriminate]. intro H. injection H as <- <-. eauto. Qed.
Ltac made H := apply give_new in H; let q := fresh "q" in let o := fresh "o" in let E := fresh "E" in let F := fresh "F" in destruct H as (q & o & -> & E & F); cbn [given];
  let X := fresh "X" in intro X; destruct X as [X|X]; [|exact (fields_no _ _ X)].
Lemma no_connection c h a h' p : (forall j, c <> Create j) -> call c h = Ok (a, h') -> ~ In (p, KConnection) (given a).
Proof.
  intro N. destruct c as [|j|q0|k p0|k [p0|]|p0 e]; unfold call, call_c; intro H.
  - made H. clear N. strings E. unfold alloc in E. injection E as <- <-. cbn [find] in F. rewrite Nat.eqb_refl in F. injection F as <-. discriminate.
  - case (N j eq_refl).
  - destruct (find h q0) as [[]|] eqn:F0; try discriminate. destruct events as [|e r]; [injection H as <- _; intros []|]. made H. injection X as -> K.
    destruct e; unfold new_event, alloc in E; try discriminate E; strings E; injection E as -> <-; cbn [find] in F; rewrite Nat.eqb_refl in F; injection F as <-; discriminate K.
  - assert (forall T (i : iter T) set conv, next p0 i set conv h = Ok (a, h') -> (forall y h0 q h1, conv y h0 = Ok (q, h1) -> exists o, find h1 q = Some o /\ kind_of o <> KConnection) -> ~ In (p, KConnection) (given a)) as Nx.
    { intros T i set conv Hn C. unfold next in Hn. destruct (nth_error (it_items i) (it_next i)); [|injection Hn as <- _; intros []]. made Hn. injection X as -> K. destruct (C _ _ _ _ E) as (o' & F' & K'). rewrite F in F'. injection F' as <-. contradiction. }
    destruct k; try discriminate H; destruct (find h p0) as [[]|]; try discriminate H; (eapply Nx; [exact H|]); intros y h0 q h1 E.
    + unfold new_text_item in E. strings E. unfold alloc in E. injection E as <- <-. cbn [find]. rewrite Nat.eqb_refl. eexists. split; [reflexivity|discriminate].
    + unfold new_status_item, alloc in E. injection E as <- <-. cbn [find]. rewrite Nat.eqb_refl. eexists. split; [reflexivity|discriminate].
    + unfold new_view_item in E. strings E. unfold alloc in E. injection E as <- <-. cbn [find]. rewrite Nat.eqb_refl. eexists. split; [reflexivity|discriminate].
    + unfold new_lens, alloc in E. injection E as <- <-. cbn [find]. rewrite Nat.eqb_refl. eexists. split; [reflexivity|discriminate].
  - destruct (find h p0) as [o|]; [|discriminate]. destruct (kind_eqb (kind_of o) k); [|discriminate]. injection H as <- _. intros [].
  - injection H as <- _. intros [].
  - destruct (find h p0) as [o|]; [|injection H as <- _; intros []]. destruct o; injection H as <- _; intros [].
Qed.
(** A connection holds exactly the events that arrived since it was created and were not given yet, in the order they arrived. *)
Lemma connection_holds tr h : crun tr h -> forall p l, find h p = Some (BConnection l) -> snd (history p tr) <= length (fst (history p tr)) /\ l = skipn (snd (history p tr)) (fst (history p tr)).
Proof.
  induction 1 as [|tr h c a h' R IH B C]; intros p l F; [discriminate F|].
  assert (crun (tr ++ [(c, a)]) h') as R' by (eapply cr_step; eassumption).
  assert (In (p, KConnection) (handles (tr ++ [(c, a)]))) as I by (apply (proj1 (proj2 (C81_owned _ _ R'))); exists (BConnection l); split; [exact F|reflexivity]).
  unfold handles in I. rewrite fold_left_app in I. cbn [fold_left] in I. fold (handles tr) in I. unfold has_after in I. cbn [fst snd] in I.
  unfold history. rewrite fold_left_app. cbn [fold_left]. fold (history p tr).
  assert ((forall j, c <> Create j) -> In (p, KConnection) (handles tr) /\ drops c (p, KConnection) = false) as Before.
  { intro N. apply in_app_or in I. destruct I as [I|I]; [case (no_connection _ _ _ _ p N C I)|]. apply filter_In in I. destruct I as [I D]. split; [exact I|]. now destruct (drops c (p, KConnection)). }
  assert (forall q, In (p, KConnection) (handles tr) -> q = p -> exists m, find h q = Some (BConnection m)) as Was.
  { intros q J ->. apply (proj1 (proj2 (C81_owned _ _ R))) in J. destruct J as (o & Fo & K). destruct o; try discriminate K. eauto. }
  destruct c as [|j|q|k q|k [q|]|q e]; cbn [heard].
  - destruct Before as [J D]; [discriminate|]. apply IH. rewrite <- F. symmetry. eapply C81_others; [exact R|exact C|exact J|intros []].
  - destruct j; [|unfold call, call_c in C; injection C as <- <-; apply IH; exact F]. pose proof C as C1. unfold call, call_c in C1. apply give_new in C1. destruct C1 as (q & o & -> & E & Fq). unfold alloc in E. injection E as <- <-.
    destruct (Nat.eqb_spec (fresh h) p) as [<-|D]; [|apply IH; cbn [find] in F; destruct (Nat.eqb_spec (fresh h) p); [contradiction|exact F]].
    cbn [find] in F. rewrite Nat.eqb_refl in F. injection F as <-. split; [apply le_n|reflexivity].
  - destruct Before as [J D]; [discriminate|]. destruct (Nat.eqb_spec q p) as [->|Nq].
    + destruct (Was p J eq_refl) as (m & Fm). destruct (IH _ _ Fm) as [Le Em]. unfold call, call_c in C. rewrite Fm in C. destruct m as [|e m]; [injection C as <- <-; rewrite Fm in F; injection F as <-; auto|].
      pose proof (give_other _ (store h p (BConnection m)) _ _ p (fun x h1 E => event_grown _ _ _ _ E) C ltac:(rewrite store_fst; exact (found_in _ _ _ Fm))) as Fp. rewrite F, (store_same h p _ _ Fm) in Fp. injection Fp as ->.
      apply give_new in C. destruct C as (x & o & -> & _ & _). cbn [fst snd]. destruct (history p tr) as [arr t]. cbn [fst snd] in *. split.
      * apply (f_equal (@length _)) in Em. rewrite skipn_length in Em. cbn [length] in Em. lia.
      * replace (S t) with (t + 1) by lia. rewrite <- ListFacts.skipn_skipn, <- Em. reflexivity.
    + assert (find h p = Some (BConnection l)) as Fp by (rewrite <- F; symmetry; eapply C81_others; [exact R|exact C|exact J|cbn [about]; congruence]). destruct a; apply IH; exact Fp.
  - destruct Before as [J D]; [discriminate|]. destruct (Nat.eq_dec q p) as [->|Nq].
    + destruct (Was p J eq_refl) as (m & Fm). unfold call, call_c in C. rewrite Fm in C. destruct k; discriminate C.
    + apply IH. rewrite <- F. symmetry. eapply C81_others; [exact R|exact C|exact J|cbn [about]; congruence].
  - destruct Before as [J D]; [discriminate|]. cbn [drops fst] in D. apply Nat.eqb_neq in D. apply IH. rewrite <- F. symmetry. eapply C81_others; [exact R|exact C|exact J|cbn [about]; congruence].
  - destruct Before as [J D]; [discriminate|]. apply IH. rewrite <- F. symmetry. eapply C81_others; [exact R|exact C|exact J|intros []].
  - destruct Before as [J D]; [discriminate|]. destruct (Nat.eqb_spec q p) as [->|Nq].
    + destruct (Was p J eq_refl) as (m & Fm). destruct (IH _ _ Fm) as [Le Em]. unfold call, call_c in C. rewrite Fm in C. injection C as <- <-. rewrite (store_same h p _ _ Fm) in F. injection F as <-.
      destruct (history p tr) as [arr t]. cbn [fst snd] in *. split; [rewrite app_length; lia|]. rewrite skipn_app, <- Em. replace (t - length arr) with 0 by lia. reflexivity.
    + assert (find h p = Some (BConnection l)) as Fp by (rewrite <- F; symmetry; eapply C81_others; [exact R|exact C|exact J|cbn [about]; congruence]). apply IH; exact Fp.
Qed.
(** Asking a connection for an event gives the first of those that arrived since it was created and were not given yet, and null
    if there is none: in the order they arrived, each once. *)
Theorem C81_order : forall tr h p, crun tr h -> In (p, KConnection) (handles tr) ->
  let '(arrived, given) := history p tr in
  match skipn given arrived with
  | e :: rest => hands h (NextEvent p) (conv_event e) holds_event p (BConnection rest)
  | [] => call (NextEvent p) h = Ok (Null, h)
  end.
Proof.
  intros tr h p R I. apply (proj1 (proj2 (C81_owned _ _ R))) in I. destruct I as (o & F & K). destruct o as [| | | | | | | | | | | | |l]; try discriminate K. destruct (connection_holds _ _ R _ _ F) as [_ E].
  destruct (history p tr) as [arr t]. cbn [fst snd] in E. cbv iota. rewrite <- E. destruct l as [|e r]; [unfold call, call_c; now rewrite F|]. now apply (C81_events tr).
Qed.
Theorem C81_texts : forall tr h p l n, crun tr h -> find h p = Some (BTextIter (mkIter l n)) ->
  match nth_error l n with Some x => hands h (NextItem KTextIter p) (conv_fragment x) holds_text p (BTextIter (mkIter l (S n))) | None => call (NextItem KTextIter p) h = Ok (Null, h) end.
Proof.
  intros tr h p l n R F. unfold hands, call, call_c, next. rewrite F. cbn [it_items it_next]. destruct (nth_error l n) as [x|]; [|reflexivity].
  pose proof (store_same h p (BTextIter (mkIter l (S n))) _ F) as S. pose proof (found_in _ _ _ S) as I. revert S I. generalize (store h p (BTextIter (mkIter l (S n)))) as g. clear F R. intros g S I.
  unfold conv_fragment, new_text_item, give. oks.
  unfold alloc, give; cbn [bind]; finds; do 3 eexists; (split; [reflexivity|]); unfold holds_text, holds_string; cbn [ct_text ct_face]; (split; [finds; repeat split; finds|finds; exact S]).
Qed.
Theorem C81_status : forall tr h p l n, crun tr h -> find h p = Some (BStatusIter (mkIter l n)) ->
  match nth_error l n with Some x => hands h (NextItem KStatusIter p) (conv_status x) holds_status p (BStatusIter (mkIter l (S n))) | None => call (NextItem KStatusIter p) h = Ok (Null, h) end.
Proof.
  intros tr h p l n R F. unfold hands, call, call_c, next. rewrite F. cbn [it_items it_next]. destruct (nth_error l n) as [x|]; [|reflexivity].
  pose proof (store_same h p (BStatusIter (mkIter l (S n))) _ F) as S. pose proof (found_in _ _ _ S) as I. revert S I. generalize (store h p (BStatusIter (mkIter l (S n)))) as g. clear F R. intros g S I.
  unfold conv_status, new_status_item. unfold alloc, give; cbn [bind]; finds; do 3 eexists; (split; [reflexivity|]); unfold holds_status; cbn [csi_index csi_text]; (split; [finds; repeat split; finds|finds; exact S]).
Qed.
Theorem C81_views : forall tr h p l n, crun tr h -> find h p = Some (BViewIter (mkIter l n)) ->
  match nth_error l n with Some x => hands h (NextItem KViewIter p) (conv_view x) holds_view p (BViewIter (mkIter l (S n))) | None => call (NextItem KViewIter p) h = Ok (Null, h) end.
Proof.
  intros tr h p l n R F. unfold hands, call, call_c, next. rewrite F. cbn [it_items it_next]. destruct (nth_error l n) as [x|]; [|reflexivity].
  pose proof (store_same h p (BViewIter (mkIter l (S n))) _ F) as S. pose proof (found_in _ _ _ S) as I. revert S I. generalize (store h p (BViewIter (mkIter l (S n)))) as g. clear F R. intros g S I.
  unfold conv_view, new_view_item, give. oks.
  unfold alloc, give; cbn [bind]; finds; do 3 eexists; (split; [reflexivity|]); unfold holds_view, holds_string; cbn [cvi_buffer cvi_start cvi_end cvi_lenses]; (split; [finds; repeat split; finds|finds; exact S]).
Qed.
Theorem C81_lenses : forall tr h p l n, crun tr h -> find h p = Some (BLensIter (mkIter l n)) ->
  match nth_error l n with Some x => hands h (NextItem KLensIter p) (conv_lens x) holds_lens p (BLensIter (mkIter l (S n))) | None => call (NextItem KLensIter p) h = Ok (Null, h) end.
Proof.
  intros tr h p l n R F. unfold hands, call, call_c, next. rewrite F. cbn [it_items it_next]. destruct (nth_error l n) as [x|]; [|reflexivity].
  pose proof (store_same h p (BLensIter (mkIter l (S n))) _ F) as S. pose proof (found_in _ _ _ S) as I. revert S I. generalize (store h p (BLensIter (mkIter l (S n)))) as g. clear F R. intros g S I.
  unfold conv_lens, new_lens. unfold alloc, give; cbn [bind]; finds; do 3 eexists; (split; [reflexivity|]); unfold holds_lens; cbn [cl_lines cl_first]; (split; [finds; repeat split; finds|finds; exact S]).
Qed.

(** ** leaks *)
(** boxes no function of the interface destroys *)
Definition stuck (k : kind) : bool := match k with KString | KMenuIter | KLineIter => true | _ => false end.
Definition stuck_given (tr : list (ccall * answer)) : list handle := filter (fun x => stuck (snd x)) (concat (rev (map (fun x => given (snd x)) tr))).
(** Everything a program frees properly is given back, except the strings, the entries of menus and the lines of lenses: every one of
    them that was ever handed over is still allocated, for as long as the program runs, whatever it does. *)
Lemma stuck_kept hs c : NoDup (map fst hs) -> obeys hs c -> filter (fun x => stuck (snd x)) (filter (fun x => negb (drops c x)) hs) = filter (fun x => stuck (snd x)) hs.
Proof.
  intros N B. assert (forall x, In x hs -> stuck (snd x) = true -> drops c x = false) as K.
  { intros [q k'] I St. destruct c as [| | | |k [p|]|]; try reflexivity. cbn [drops fst snd] in *. apply Nat.eqb_neq. intros ->. destruct B as [B D]. assert (k = k') as ->.
    { clear - N B I. induction hs as [|[a b] l IH]; [destruct I|]. cbn [map fst] in N. apply NoDup_cons_iff in N. destruct N as [N1 N2]. destruct B as [B|B], I as [I|I]; auto.
      - congruence.
      - injection B as -> ->. exfalso. apply N1. apply in_map_iff. exists (p, k'). auto.
      - injection I as -> ->. exfalso. apply N1. apply in_map_iff. exists (p, k). auto. }
    destruct (can_destroy_no k' D) as (? & ? & ?). destruct k'; congruence || discriminate St. }
  clear N B. induction hs as [|x l IH]; auto. cbn [filter]. destruct (drops c x) eqn:E; cbn [negb].
  - destruct (stuck (snd x)) eqn:St; [exfalso; rewrite K in E; [discriminate E|now left|exact St]|]. apply IH. intros y Y. apply K. now right.
  - cbn [filter]. rewrite IH by (intros y Y; apply K; now right). reflexivity.
Qed.
Theorem C81_leak_refuted : forall tr h, crun tr h -> Permutation (filter (fun x => stuck (snd x)) (typed h)) (stuck_given tr).
Proof.
  intros tr h R. destruct (crun_owned tr h R) as [_ P]. eapply Permutation_trans; [apply perm_filter, P|]. replace (filter (fun x => stuck (snd x)) (handles tr)) with (stuck_given tr) by (symmetry; clear P; induction R as [|tr h c a h' R IH B C]; [reflexivity|];
    unfold stuck_given, handles; rewrite fold_left_app, map_app, rev_app_distr; cbn [fold_left map rev app concat snd]; unfold has_after at 1; cbn [fst snd]; rewrite !filter_app; f_equal;
    fold (handles tr); rewrite stuck_kept; [exact IH|apply (C81_owned tr h R)|exact B]). reflexivity.
Qed.
(** Four strings are lost for each version asked for, two for each fragment of text read, and so on. *)
Corollary C81_version_refuted : forall tr h, crun tr h -> 4 * length (filter (fun x => match snd x with New _ (BVersion _ _ _ _) => true | _ => false end) tr) <= length h.
Proof.
  intros tr h R. pose proof (Permutation_length (C81_leak_refuted tr h R)) as L. assert (length (filter (fun x => stuck (snd x)) (typed h)) <= length h) as Le.
  { unfold typed. clear. induction h as [|x h IH]; auto. cbn [map filter snd]. destruct (stuck _); cbn [length]; lia. }
  rewrite L in Le. refine (Nat.le_trans _ _ _ _ Le). clear. unfold stuck_given. induction tr as [|[c a] tr IH] using rev_ind; [auto|].
  rewrite map_app, rev_app_distr, filter_app, app_length. cbn [map rev app concat filter snd]. rewrite filter_app, app_length.
  refine (Nat.le_trans _ _ _ _ (proj1 (Nat.add_le_mono_l _ _ _) IH)). destruct a as [|p o|]; cbn [length filter given snd]; [lia| |lia]. destruct o; cbn [length app kind_of stuck fields_of filter snd]; lia.
Qed.
End Prop81.
Print Assumptions C81_owned.
Print Assumptions C81_safe.
Print Assumptions C81_others.
Print Assumptions C81_events.
Print Assumptions C81_texts.
Print Assumptions C81_status.
Print Assumptions C81_views.
Print Assumptions C81_lenses.
Print Assumptions C81_leak_refuted.
Print Assumptions C81_version_refuted.

(** ** a program that obeys: it asks for the version and destroys it, connects, reads a status event and its first item, destroys the
    event and the iterator before it uses the item, and disconnects; the allocator takes the lowest address that is free *)
Definition lowest (h : heap) : ptr := match List.find (fun p => negb (existsb (Nat.eqb p) (map fst h))) (seq 1 (S (length h))) with Some p => p | None => 0 end.
Lemma lowest_free : allocator lowest.
Proof.
  intros h I. unfold lowest in I. destruct (List.find _ _) as [p|] eqn:E.
  - apply find_some in E. destruct E as [_ E]. apply negb_true_iff in E. assert (existsb (Nat.eqb p) (map fst h) = true) as X by (apply existsb_exists; exists p; split; [exact I|apply Nat.eqb_refl]). congruence.
  - assert (incl (seq 1 (S (length h))) (map fst h)) as J.
    { intros p Hp. pose proof (find_none _ _ E p Hp) as X. apply negb_false_iff in X. apply existsb_exists in X. destruct X as (q & Hq & X). apply Nat.eqb_eq in X. now subst. }
    apply NoDup_incl_length in J; [|apply seq_NoDup]. rewrite seq_length, map_length in J. lia.
Qed.
Definition obeys_b (hs : list handle) (c : ccall) : bool :=
  let has p k := existsb (fun x => (fst x =? p) && kind_eqb (snd x) k) hs in
  match c with
  | Version | Create _ | Arrives _ _ => true
  | NextEvent p => has p KConnection
  | NextItem k p => has p k && existsb (kind_eqb k) [KTextIter; KStatusIter; KViewIter; KLensIter]
  | Destroy k q => match q with Some p => has p k | None => true end && existsb (kind_eqb k) [KTextIter; KStatusIter; KViewIter; KLensIter; KTextItem; KStatusItem; KViewItem; KViewLens; KEvent; KVersion; KConnection]
  end.
Lemma obeys_b_ok upper hs c : obeys_b hs c = true -> obeys upper hs c.
Proof.
  assert (forall p k, existsb (fun x => (fst x =? p) && kind_eqb (snd x) k) hs = true -> In (p, k) hs) as Hi.
  { intros p k H. apply existsb_exists in H. destruct H as ([q k'] & I & E). cbn [fst snd] in E. apply andb_true_iff in E. destruct E as [E1 E2]. apply Nat.eqb_eq in E1. apply (proj1 (kind_ok _ _)) in E2. subst. exact I. }
  assert (forall k, existsb (kind_eqb k) [KTextIter; KStatusIter; KViewIter; KLensIter] = true -> can_iterate upper k) as It.
  { intros k H. destruct (C77_functions upper shipped_config) as (_ & F & _). destruct k; try discriminate H; unfold can_iterate; clear H.
    - assert (exists n, In (DNext n (kind_name KTextIter) (str "CedTextItem")) (bu_decls (generate upper shipped_config))) as (n & X); [apply F; eexists; split; [right; right; left; reflexivity|repeat split; reflexivity]|eauto].
    - assert (exists n, In (DNext n (kind_name KStatusIter) (str "StatusItem")) (bu_decls (generate upper shipped_config))) as (n & X); [apply F; eexists; split; [right; right; right; right; left; reflexivity|repeat split; reflexivity]|eauto].
    - assert (exists n, In (DNext n (kind_name KViewIter) (str "ViewItem")) (bu_decls (generate upper shipped_config))) as (n & X); [apply F; eexists; split; [do 5 right; left; reflexivity|repeat split; reflexivity]|eauto].
    - assert (exists n, In (DNext n (kind_name KLensIter) (str "ViewLens")) (bu_decls (generate upper shipped_config))) as (n & X); [apply F; eexists; split; [do 6 right; left; reflexivity|repeat split; reflexivity]|eauto]. }
  assert (forall k, existsb (kind_eqb k) [KTextIter; KStatusIter; KViewIter; KLensIter; KTextItem; KStatusItem; KViewItem; KViewLens; KEvent; KVersion; KConnection] = true -> can_destroy upper k) as De.
  { intros k H. destruct (C77_functions upper shipped_config) as (F & _). unfold can_destroy. apply F. clear F. destruct k; try discriminate H; vm_compute; auto 30. }
  destruct c as [| | |k p|k [p|]|]; cbn [obeys_b obeys]; auto; intro H; try (apply andb_true_iff in H; destruct H as [H1 H2]); auto.
Qed.
Definition demo_calls : list ccall :=
  let st := CStatus [mkStatus 1 [mkFrag (str "a") FDefault]; mkStatus 2 []] in
  [Version; Destroy KVersion (Some 5); Create true; Arrives 5 st; NextEvent 5; NextItem KStatusIter 6; Destroy KEvent (Some 7); Destroy KStatusIter (Some 6); Destroy KStatusItem (Some 9);
   NextItem KTextIter 8; Destroy KTextItem (Some 9); Destroy KTextIter (Some 8); Destroy KConnection (Some 5)].
Fixpoint play_c (cs : list ccall) (tr : list (ccall * answer)) (h : heap) : option (list (ccall * answer) * heap) :=
  match cs with
  | [] => Some (tr, h)
  | c :: r => if obeys_b (handles tr) c then match call_c lowest (str "0") (str "1") (str "0") [] c h with Ok (a, h') => play_c r (tr ++ [(c, a)]) h' | _ => None end else None
  end.
Lemma play_c_ok upper cs : forall tr h tr' h', crun upper lowest (str "0") (str "1") (str "0") [] tr h -> play_c cs tr h = Some (tr', h') -> crun upper lowest (str "0") (str "1") (str "0") [] tr' h'.
Proof.
  induction cs as [|c cs IH]; intros tr h tr' h' R P; cbn [play_c] in P; [injection P as <- <-; exact R|]. destruct (obeys_b (handles tr) c) eqn:B; [|discriminate].
  destruct (call_c lowest (str "0") (str "1") (str "0") [] c h) as [[a g]| |] eqn:C; try discriminate. eapply IH; [|exact P]. eapply cr_step; [exact R|now apply obeys_b_ok|exact C].
Qed.
(** the six strings are left *)
Example C81_demo : forall upper, exists tr h, crun upper lowest (str "0") (str "1") (str "0") [] tr h /\ length tr = 13 /\ map snd (handles tr) = [KString; KString; KString; KString; KString; KString] /\ length h = 6.
Proof.
  intro upper. destruct (play_c demo_calls [] []) as [[tr h]|] eqn:E; [|vm_compute in E; discriminate E]. exists tr, h. split; [eapply play_c_ok; [apply cr_start|exact E]|].
  vm_compute in E. injection E as <- <-. vm_compute. auto.
Qed.
(* two events arrived, the first was given: the connection has the second *)
Example C81_order_demo : forall upper, exists tr h, crun upper lowest (str "0") (str "1") (str "0") [] tr h /\ In (1, KConnection) (handles tr) /\
  history 1 tr = ([CStatus [mkStatus 1 []]; CInfo (str "a") (str "b")], 1) /\ find h 1 = Some (BConnection [CInfo (str "a") (str "b")]).
Proof.
  intro upper. destruct (play_c [Create true; Arrives 1 (CStatus [mkStatus 1 []]); Arrives 1 (CInfo (str "a") (str "b")); NextEvent 1] [] []) as [[tr h]|] eqn:E; [|vm_compute in E; discriminate E]. exists tr, h. split; [eapply play_c_ok; [apply cr_start|exact E]|].
  vm_compute in E. injection E as <- <-. vm_compute. auto.
Qed.
Print Assumptions C81_order.
