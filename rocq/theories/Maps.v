(** Hash maps as association lists.  The order of the list stands for the (arbitrary) iteration order of the map. *)
From Coq Require Import String Ascii List Arith Lia Bool Permutation.
From Verif Require Import Base.
Import ListNotations.

(** key equality ([Eq] + [Hash]) *)
Class Eqb (K : Type) := { eqb : K -> K -> bool; eqb_ok : forall a b, eqb a b = true <-> a = b }.
#[global] Instance nat_Eqb : Eqb nat := {| eqb := Nat.eqb; eqb_ok := Nat.eqb_eq |}.
Lemma list_nat_eqb_ok a b : list_nat_eqb a b = true <-> a = b.
Proof. unfold list_nat_eqb. destruct (list_eq_dec Nat.eq_dec a b); split; congruence. Qed.
#[global] Instance text_Eqb : Eqb (list nat) := {| eqb := list_nat_eqb; eqb_ok := list_nat_eqb_ok |}.

(** string literals as byte strings *)
Definition str (s : string) : text := map nat_of_ascii (list_ascii_of_string s).

Definition amap (K V : Type) := list (K * V).
Section Maps.
Context {K V : Type} `{Eqb K}.

(** [HashMap::get] *)
Fixpoint get (m : amap K V) (k : K) : option V :=
  match m with
  | [] => None
  | (k', v) :: r => if eqb k k' then Some v else get r k
  end.
(** [HashMap::insert]: replaces the value or adds an entry *)
Fixpoint set (m : amap K V) (k : K) (v : V) : amap K V :=
  match m with
  | [] => [(k, v)]
  | (k', v') :: r => if eqb k k' then (k', v) :: r else (k', v') :: set r k v
  end.
(** [HashMap::remove] *)
Definition del (m : amap K V) (k : K) : amap K V := filter (fun e => negb (eqb k (fst e))) m.
Definition keys (m : amap K V) : list K := map fst m.
Definition has (m : amap K V) (k : K) : bool := match get m k with Some _ => true | None => false end.
(** [entry(k).or_insert(v)] *)
Definition or_insert (m : amap K V) (k : K) (v : V) : amap K V := if has m k then m else set m k v.

Lemma eqb_refl (k : K) : eqb k k = true.
Proof. now apply eqb_ok. Qed.
Lemma eqb_neq (a b : K) : eqb a b = false <-> a <> b.
Proof. destruct (eqb a b) eqn:E; [apply eqb_ok in E|]; split; try congruence; intros; intro X; apply eqb_ok in X; congruence. Qed.
Lemma eqb_dec (a b : K) : {a = b} + {a <> b}.
Proof. destruct (eqb a b) eqn:E; [left; now apply eqb_ok|right; now apply eqb_neq]. Qed.
Lemma eqb_sym (a b : K) : eqb a b = eqb b a.
Proof. destruct (eqb a b) eqn:E; symmetry; [apply eqb_ok in E; subst; apply eqb_refl|apply eqb_neq; apply eqb_neq in E; congruence]. Qed.

Lemma get_set m k v j : get (set m k v) j = if eqb j k then Some v else get m j.
Proof.
  induction m as [|[k' v'] r IH]; simpl.
  - reflexivity.
  - destruct (eqb k k') eqn:E; simpl.
    + apply eqb_ok in E. subst k'. destruct (eqb j k); reflexivity.
    + destruct (eqb j k') eqn:E'.
      * apply eqb_ok in E'. subst j. destruct (eqb k' k) eqn:X; [apply eqb_ok in X; subst; rewrite eqb_refl in E; discriminate|reflexivity].
      * exact IH.
Qed.
Lemma get_del m k j : get (del m k) j = if eqb j k then None else get m j.
Proof.
  induction m as [|[k' v'] r IH]; simpl.
  - now destruct (eqb j k).
  - destruct (eqb k k') eqn:E; simpl.
    + apply eqb_ok in E. subst k'. rewrite IH. destruct (eqb j k); reflexivity.
    + rewrite IH. destruct (eqb j k') eqn:E'; [|reflexivity]. apply eqb_ok in E'. subst j.
      destruct (eqb k' k) eqn:X; [apply eqb_ok in X; subst; rewrite eqb_refl in E; discriminate|reflexivity].
Qed.
Lemma get_set_same m k v : get (set m k v) k = Some v.
Proof. now rewrite get_set, eqb_refl. Qed.
Lemma get_set_other m k v j : j <> k -> get (set m k v) j = get m j.
Proof. intro N. rewrite get_set. apply eqb_neq in N. now rewrite N. Qed.
Lemma get_del_same m k : get (del m k) k = None.
Proof. now rewrite get_del, eqb_refl. Qed.
Lemma get_del_other m k j : j <> k -> get (del m k) j = get m j.
Proof. intro N. rewrite get_del. apply eqb_neq in N. now rewrite N. Qed.
Lemma get_or_insert m k v j : get (or_insert m k v) j = if eqb j k then Some (match get m k with Some w => w | None => v end) else get m j.
Proof.
  unfold or_insert, has. destruct (get m k) eqn:E.
  - destruct (eqb j k) eqn:Q; auto. apply eqb_ok in Q. now subst.
  - apply get_set.
Qed.

Lemma get_in m k v : get m k = Some v -> In (k, v) m.
Proof.
  induction m as [|[k' v'] r IH]; simpl; [discriminate|]. destruct (eqb k k') eqn:E.
  - apply eqb_ok in E. intro X. left. congruence.
  - auto.
Qed.
Lemma get_none m k : get m k = None <-> ~ In k (keys m).
Proof.
  induction m as [|[k' v'] r IH]; simpl; [tauto|]. destruct (eqb k k') eqn:E.
  - apply eqb_ok in E. subst. split; [discriminate|]. intro X. exfalso. apply X. auto.
  - apply eqb_neq in E. rewrite IH. split; intros X Y; apply X; [destruct Y; auto; congruence|auto].
Qed.
Lemma get_some m k : (exists v, get m k = Some v) <-> In k (keys m).
Proof.
  destruct (get m k) eqn:E.
  - split; eauto. intros _. apply get_in in E. apply (in_map fst) in E. exact E.
  - apply get_none in E. split; [intros [v X]; discriminate|tauto].
Qed.
Lemma has_in m k : has m k = true <-> In k (keys m).
Proof. unfold has. rewrite <- get_some. destruct (get m k) as [w|]; split; intro X; try discriminate; eauto. destruct X; discriminate. Qed.
Lemma has_not_in m k : has m k = false <-> ~ In k (keys m).
Proof. rewrite <- has_in. destruct (has m k); split; congruence. Qed.

Definition uniq (m : amap K V) : Prop := NoDup (keys m).
Lemma get_uniq m k v : uniq m -> In (k, v) m -> get m k = Some v.
Proof.
  unfold uniq. induction m as [|[k' v'] r IH]; simpl; [tauto|]. intros N [X|X].
  - inversion X; subst. now rewrite eqb_refl.
  - inversion N; subst. destruct (eqb k k') eqn:E; auto. apply eqb_ok in E. subst.
    exfalso. apply H2. apply (in_map fst) in X. exact X.
Qed.
Lemma keys_set m k v : keys (set m k v) = if has m k then keys m else keys m ++ [k].
Proof.
  unfold has. induction m as [|[k' v'] r IH]; simpl; auto. destruct (eqb k k') eqn:E; simpl; auto.
  rewrite IH. destruct (get r k); auto.
Qed.
Lemma in_keys_set m k v j : In j (keys (set m k v)) <-> j = k \/ In j (keys m).
Proof.
  rewrite keys_set. destruct (has m k) eqn:E.
  - apply has_in in E. split; auto. intros [->|]; auto.
  - rewrite in_app_iff. simpl. split; intros; intuition.
Qed.
Lemma uniq_set m k v : uniq m -> uniq (set m k v).
Proof.
  unfold uniq. intro U. rewrite keys_set. destruct (has m k) eqn:E; auto. apply has_not_in in E.
  apply (Permutation_NoDup (l := k :: keys m)); [apply Permutation_cons_append|constructor; auto].
Qed.
Lemma in_del m k e : In e (del m k) <-> In e m /\ fst e <> k.
Proof.
  unfold del. rewrite filter_In, negb_true_iff, eqb_neq. split; intros [X Y]; split; auto.
Qed.
Lemma in_keys_del m k j : In j (keys (del m k)) <-> In j (keys m) /\ j <> k.
Proof.
  unfold keys. rewrite !in_map_iff. split.
  - intros (e & <- & X). apply in_del in X. destruct X. split; eauto.
  - intros ((e & <- & X) & N). exists e. split; auto. now apply in_del.
Qed.
Lemma uniq_del m k : uniq m -> uniq (del m k).
Proof.
  unfold uniq, keys, del. induction m as [|[k' v'] r IH]; simpl; auto. intro N. inversion N; subst.
  destruct (negb (eqb k k')); simpl; auto. constructor; auto. intro X. apply H2.
  apply in_map_iff in X. destruct X as (e & E & X). apply filter_In in X. apply in_map_iff. exists e. tauto.
Qed.
Lemma del_none m k : ~ In k (keys m) -> del m k = m.
Proof.
  unfold del. induction m as [|[k' v'] r IH]; simpl; auto. intro N. destruct (eqb k k') eqn:E.
  - apply eqb_ok in E. exfalso. apply N. auto.
  - simpl. f_equal. apply IH. tauto.
Qed.
Lemma uniq_or_insert m k v : uniq m -> uniq (or_insert m k v).
Proof. unfold or_insert. destruct (has m k); auto using uniq_set. Qed.
Lemma in_keys_or_insert m k v j : In j (keys (or_insert m k v)) <-> j = k \/ In j (keys m).
Proof.
  unfold or_insert. destruct (has m k) eqn:E; [|apply in_keys_set].
  apply has_in in E. split; auto. intros [->|]; auto.
Qed.
(** lookups do not depend on the order of the list *)
Lemma get_perm m m' k : uniq m -> Permutation m m' -> get m k = get m' k.
Proof.
  intros U P. assert (uniq m') as U'. { unfold uniq, keys in *. eapply Permutation_NoDup; [apply Permutation_map, P|exact U]. }
  destruct (get m k) eqn:E.
  - symmetry. apply get_uniq; auto. eapply Permutation_in; [exact P|]. now apply get_in.
  - apply get_none in E. symmetry. apply get_none. intro X. apply E. unfold keys in *.
    eapply Permutation_in; [apply Permutation_map, Permutation_sym, P|exact X].
Qed.
End Maps.
Arguments uniq {K V} m.
(** update every value, keeping the keys *)
Definition map_vals {K V W} (f : K -> V -> W) (m : amap K V) : amap K W := map (fun e => (fst e, f (fst e) (snd e))) m.
Lemma keys_map_vals {K V W} (f : K -> V -> W) m : keys (map_vals f m) = keys m.
Proof. unfold keys, map_vals. rewrite map_map. reflexivity. Qed.
Lemma get_map_vals {K V W} `{Eqb K} (f : K -> V -> W) m k : get (map_vals f m) k = match get m k with Some v => Some (f k v) | None => None end.
Proof.
  induction m as [|[k' v'] r IH]; simpl; auto. destruct (eqb k k') eqn:E; auto. apply eqb_ok in E. now subst.
Qed.
Lemma uniq_map_vals {K V W} (f : K -> V -> W) m : uniq m -> uniq (map_vals f m).
Proof. unfold uniq. now rewrite keys_map_vals. Qed.
