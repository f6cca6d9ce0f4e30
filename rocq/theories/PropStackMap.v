(** C28: the stack map is a map with a most-recent-first order. *)
From Coq Require Import String List Arith Lia Bool.
From Verif Require Import Base Maps StackMap.
Import ListNotations.

(** ** Specification: entries from the most recent to the oldest *)
Inductive sop (K V : Type) := SInsert (k : K) (v : V) | SSetLast (k : K) | SRemove (k : K).
Arguments SInsert {K V}. Arguments SSetLast {K V}. Arguments SRemove {K V}.
(** answers: previous or removed value, success of set_last *)
Inductive sans (V : Type) := AValue (o : option V) | ADone (b : bool).
Arguments AValue {V}. Arguments ADone {V}.

Section Spec.
Context {K V : Type} `{Eqb K}.
Definition recent := list (K * V).
Definition r_without (k : K) (l : recent) : recent := filter (fun e => negb (eqb k (fst e))) l.
Definition r_find (k : K) (l : recent) : option V := match find (fun e => eqb k (fst e)) l with Some e => Some (snd e) | None => None end.
Definition r_op (o : sop K V) (l : recent) : sans V * recent :=
  match o with
  | SInsert k v => (AValue (r_find k l), (k, v) :: r_without k l)
  | SSetLast k => match r_find k l with Some v => (ADone true, (k, v) :: r_without k l) | None => (ADone false, l) end
  | SRemove k => (AValue (r_find k l), r_without k l)
  end.
Fixpoint r_ops (os : list (sop K V)) (l : recent) : list (sans V) * recent :=
  match os with
  | [] => ([], l)
  | o :: r => let '(a, l1) := r_op o l in let '(ans, l2) := r_ops r l1 in (a :: ans, l2)
  end.

(** ** The code *)
Definition sm_op (o : sop K V) (m : smap K V) : res (sans V * smap K V) :=
  match o with
  | SInsert k v => '(old, m) <- sm_insert k v m ;; Ok (AValue old, m)
  | SSetLast k => let '(b, m) := sm_set_last k m in Ok (ADone b, m)
  | SRemove k => let '(old, m) := sm_remove k m in Ok (AValue old, m)
  end.
Fixpoint sm_ops (os : list (sop K V)) (m : smap K V) : res (list (sans V) * smap K V) :=
  match os with
  | [] => Ok ([], m)
  | o :: r => '(a, m1) <- sm_op o m ;; '(ans, m2) <- sm_ops r m1 ;; Ok (a :: ans, m2)
  end.

Definition related (m : smap K V) (l : recent) : Prop :=
  sm_stack m = map fst l /\ NoDup (map fst l) /\ (forall k, get (sm_map m) k = r_find k l) /\ uniq (sm_map m).

Lemma find_get k (l : recent) : r_find k l = get l k.
Proof. unfold r_find. induction l as [|[k' v] r IH]; simpl; auto. destruct (eqb k k'); auto. Qed.
Lemma without_del k (l : recent) : r_without k l = del l k.
Proof. reflexivity. Qed.

Lemma remove_first_keys k (l : recent) : NoDup (map fst l) -> remove_first k (map fst l) = map fst (del l k).
Proof.
  induction l as [|[k' v] r IH]; simpl; auto. intro N. inversion N; subst.
  rewrite (eqb_sym k k'). destruct (eqb k' k) eqn:E; simpl.
  - apply eqb_ok in E. subst. symmetry. change (map fst (del r k) = map fst r). now rewrite del_none.
  - f_equal. apply IH. auto.
Qed.
Lemma nodup_push k v (l : recent) : NoDup (map fst l) -> NoDup (map fst ((k, v) :: del l k)).
Proof.
  intro N. simpl. constructor; [|now apply (uniq_del l k)]. intro X. apply (in_keys_del l k k) in X. tauto.
Qed.
Lemma get_push k v (l : recent) j : get ((k, v) :: del l k) j = if eqb j k then Some v else get l j.
Proof. simpl. destruct (eqb j k) eqn:E; auto. rewrite get_del, E. reflexivity. Qed.
Lemma existsb_keys k (l : list K) : existsb (fun x => eqb x k) l = true <-> In k l.
Proof.
  rewrite existsb_exists. split; [intros (x & X & E); apply eqb_ok in E; now subst|]. intro X. exists k. split; auto. apply eqb_refl.
Qed.

Lemma op_related o m l : related m l ->
  exists m', sm_op o m = Ok (fst (r_op o l), m') /\ related m' (snd (r_op o l)).
Proof.
  intros (S & N & G & U). destruct o as [k v|k|k]; simpl.
  - unfold sm_insert, sm_set_last. cbn [sm_map sm_stack]. unfold has. rewrite get_set_same. cbn [bind].
    eexists. split; [rewrite G; reflexivity|]. rewrite without_del.
    split; [|split; [|split]]; cbn [sm_map sm_stack].
    + rewrite S, remove_first_keys; auto.
    + now apply nodup_push.
    + intro j. rewrite find_get, get_set, get_push, G, find_get. reflexivity.
    + now apply uniq_set.
  - unfold sm_set_last, has. rewrite G. destruct (r_find k l) as [v|] eqn:F.
    + eexists. split; [reflexivity|]. cbn [snd]. rewrite without_del.
      split; [|split; [|split]]; cbn [sm_map sm_stack]; auto.
      * rewrite S, remove_first_keys; auto.
      * now apply nodup_push.
      * intro j. rewrite find_get, get_push, G, find_get. destruct (eqb j k) eqn:E; auto. apply eqb_ok in E. subst.
        rewrite <- F. now rewrite find_get.
    + eexists. split; [reflexivity|]. repeat split; auto.
  - unfold sm_remove. destruct (existsb (fun x => eqb x k) (sm_stack m)) eqn:E.
    + eexists. split; [rewrite G; reflexivity|]. cbn [snd]. rewrite without_del.
      split; [|split; [|split]]; cbn [sm_map sm_stack].
      * rewrite S, remove_first_keys; auto.
      * now apply (uniq_del l k).
      * intro j. rewrite find_get, !get_del, G, find_get. reflexivity.
      * now apply uniq_del.
    + assert (~ In k (map fst l)) as X. { rewrite <- S, <- existsb_keys. congruence. }
      assert (get l k = None) as Y by now apply get_none.
      eexists. split; [rewrite find_get, Y; reflexivity|]. cbn [snd]. rewrite without_del, del_none by auto. repeat split; auto.
Qed.
Lemma ops_related os m l : related m l ->
  exists m', sm_ops os m = Ok (fst (r_ops os l), m') /\ related m' (snd (r_ops os l)).
Proof.
  revert m l. induction os as [|o os IH]; intros m l R; simpl; [eauto|].
  destruct (op_related o m l R) as (m1 & E & R1). rewrite E. cbn [bind].
  destruct (r_op o l) as [a l1]. cbn [fst snd] in *. destruct (IH m1 l1 R1) as (m2 & E2 & R2). rewrite E2. cbn [bind].
  destruct (r_ops os l1) as [ans l2]. eauto.
Qed.
End Spec.
Arguments recent : clear implicits.

(** After any operations: no panic, same answers, lookups of the plain map, order = recency order without
    repetition, latest = the most recent entry. *)
Theorem C28_stackmap : forall (K V : Type) (E : Eqb K) (os : list (sop K V)),
  let l := snd (r_ops os []) in
  exists m, sm_ops os sm_new = Ok (fst (r_ops os []), m) /\
    (forall k, get (sm_map m) k = r_find k l) /\
    sm_stack m = map fst l /\ NoDup (map fst l) /\
    sm_latest m = match l with [] => None | (k, _) :: _ => Some k end /\
    sm_latest_value m = match l with [] => None | (_, v) :: _ => Some v end.
Proof.
  intros K V E os l. destruct (ops_related os sm_new []) as (m & Em & S & N & G & U).
  { repeat split; auto; constructor. }
  exists m. split; auto. fold l in S, N, G. repeat split; auto.
  - unfold sm_latest. rewrite S. destruct l as [|[k v] r]; auto.
  - unfold sm_latest_value. rewrite S. destruct l as [|[k v] r]; simpl; auto. rewrite G, find_get. simpl. now rewrite eqb_refl.
Qed.
Print Assumptions C28_stackmap.

(** the specification is itself the expected one: the entries are those of the last insertion not followed by a
    removal, and the first entry is the last inserted or re-selected key *)
Theorem C28_set_last_absent : forall (K V : Type) (E : Eqb K) (os : list (sop K V)) k m ans,
  sm_ops os sm_new = Ok (ans, m) -> get (sm_map m) k = None -> sm_set_last k m = (false, m).
Proof. intros K V E os k m ans _ G. unfold sm_set_last, has. now rewrite G. Qed.
Print Assumptions C28_set_last_absent.
Theorem C28_latest_after_insert : forall (K V : Type) (E : Eqb K) (os : list (sop K V)) k v m ans,
  sm_ops (os ++ [SInsert k v]) sm_new = Ok (ans, m) -> sm_latest m = Some k /\ get (sm_map m) k = Some v.
Proof.
  intros K V E os k v m ans Em. destruct (C28_stackmap K V E (os ++ [SInsert k v])) as (m' & Em' & G & S & N & L & _).
  rewrite Em in Em'. inversion Em'; subst m'.
  assert (forall os (l : recent K V), snd (r_ops (os ++ [SInsert k v]) l) = (k, v) :: r_without k (snd (r_ops os l))) as X.
  { clear. induction os as [|o os IH]; intro l; simpl; auto. destruct (r_op o l) as [a l1]. specialize (IH l1).
    destruct (r_ops (os ++ [SInsert k v]) l1), (r_ops os l1). exact IH. }
  rewrite X in *. split; [exact L|]. rewrite G. unfold r_find. simpl. now rewrite eqb_refl.
Qed.
Print Assumptions C28_latest_after_insert.

Example C28_met : snd (r_ops [SInsert 1 10; SInsert 2 20; SInsert 3 30; SSetLast 1; SRemove 3; SSetLast 7] []) = [(1, 10); (2, 20)].
Proof. reflexivity. Qed.

(** an entry added through the map (as core.rs:473 does) is not removable *)
Theorem C28_deref_mut_refuted : exists m : smap nat nat,
  sm_or_insert 1 10 sm_new = m /\ get (sm_map m) 1 = Some 10 /\ fst (sm_remove 1 m) = None /\
  get (sm_map (snd (sm_remove 1 m))) 1 = Some 10.
Proof. eexists. repeat split; reflexivity. Qed.
Print Assumptions C28_deref_mut_refuted.
