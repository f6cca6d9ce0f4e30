(** C59: ranges. *)
From Coq Require Import String List Arith Lia Bool.
From Verif Require Import Base ListFacts Range.

(** an offset belongs to a range *)
Definition in_range (o : nat) (r : range) : Prop := r_start r <= o < r_end r.

Theorem C59_overlap : forall a b, r_start a < r_end a -> r_start b < r_end b ->
  (r_overlap a b = true <-> exists o, in_range o a /\ in_range o b).
Proof.
  intros a b Ha Hb. unfold r_overlap, in_range.
  rewrite orb_true_iff, !andb_true_iff, !Nat.leb_le, !Nat.ltb_lt. split.
  - intros [H|H]; [exists (r_start b)|exists (r_start a)]; lia.
  - intros (o & H1 & H2). lia.
Qed.
Print Assumptions C59_overlap.

Theorem C59_overlap_symmetric : forall a b, r_overlap a b = r_overlap b a.
Proof. intros a b. unfold r_overlap. apply orb_comm. Qed.
Print Assumptions C59_overlap_symmetric.

Theorem C59_contains : forall a b, r_start b < r_end b ->
  (r_contains a b = true <-> forall o, in_range o b -> in_range o a).
Proof.
  intros a b Hb. unfold r_contains, in_range. rewrite andb_true_iff, !Nat.leb_le. split.
  - intros H o Ho. lia.
  - intro H. pose proof (H (r_start b) ltac:(lia)). pose proof (H (r_end b - 1) ltac:(lia)). lia.
Qed.
Print Assumptions C59_contains.

(** offset ranges have the length they were built with *)
Theorem C59_offset_range_len : forall o n, r_len (offset_range o n) = Ok n.
Proof. intros o n. unfold r_len, offset_range. cbn [r_start r_end]. rewrite sub_ok by lia. f_equal. lia. Qed.
Print Assumptions C59_offset_range_len.

Example C59_met : r_overlap (mkRange 1 4) (mkRange 3 9) = true /\ r_overlap (mkRange 1 4) (mkRange 4 9) = false /\
  r_contains (mkRange 1 4) (mkRange 2 4) = true /\ r_contains (mkRange 1 4) (mkRange 2 5) = false.
Proof. repeat split. Qed.
(** empty ranges: an empty range inside another one is reported as overlapping although no offset is shared *)
Example C59_empty_range : r_overlap (mkRange 1 4) (mkRange 2 2) = true.
Proof. reflexivity. Qed.
