(** Decimal notation of [usize] and [i32] values ([Display]), as bytes. *)
From Coq Require Import List Arith Lia Bool.
From Verif Require Import Base.
Import ListNotations.

(** [impl Display for usize] (std) *)
Fixpoint dec_fuel (fuel n : nat) : text :=
  match fuel with
  | 0 => []
  | S f => if n <? 10 then [48 + n] else dec_fuel f (n / 10) ++ [48 + n mod 10]
  end.
Definition dec (n : nat) : text := dec_fuel (S n) n.

(** an ASCII digit *)
Definition digit (b : byte) : bool := (48 <=? b) && (b <=? 57).
Definition value (s : text) : nat := fold_left (fun a d => 10 * a + (d - 48)) s 0.

Lemma value_snoc s d : value (s ++ [d]) = 10 * value s + (d - 48).
Proof. unfold value. rewrite fold_left_app. reflexivity. Qed.
Lemma dec_fuel_value f n : n < f -> value (dec_fuel f n) = n.
Proof.
  revert n. induction f as [|f IH]; intros n H; [lia|]. cbn [dec_fuel]. destruct (Nat.ltb_spec n 10).
  - unfold value. cbn [fold_left]. lia.
  - rewrite value_snoc, IH by (pose proof (Nat.div_lt n 10); lia). pose proof (Nat.div_mod n 10). lia.
Qed.
Lemma dec_value n : value (dec n) = n.
Proof. apply dec_fuel_value. lia. Qed.
Lemma dec_inj a b : dec a = dec b -> a = b.
Proof. intro H. rewrite <- (dec_value a), <- (dec_value b), H. reflexivity. Qed.
Lemma dec_fuel_digits f n : Forall (fun b => digit b = true) (dec_fuel f n).
Proof.
  revert n. induction f as [|f IH]; intro n; cbn [dec_fuel]; [constructor|]. destruct (Nat.ltb_spec n 10).
  - repeat constructor. unfold digit. apply andb_true_iff. rewrite !Nat.leb_le. lia.
  - apply Forall_app. split; auto. repeat constructor. unfold digit. apply andb_true_iff. rewrite !Nat.leb_le.
    pose proof (Nat.mod_upper_bound n 10). lia.
Qed.
Lemma dec_digits n : Forall (fun b => digit b = true) (dec n).
Proof. apply dec_fuel_digits. Qed.
Lemma dec_nonempty n : dec n <> [].
Proof. unfold dec. cbn [dec_fuel]. destruct (n <? 10); [discriminate|]. intro X. apply app_eq_nil in X. destruct X. discriminate. Qed.

(** [slice::join] / [Vec::join] *)
Fixpoint join (sep : text) (l : list text) : text :=
  match l with
  | [] => []
  | [x] => x
  | x :: r => x ++ sep ++ join sep r
  end.
