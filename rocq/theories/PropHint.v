(** C69: the boxes the scripts draw around a hint. *)
From Coq Require Import String List Arith Lia ZArith Bool.
From Verif Require Import Base ListFacts LineSpec Coords Selection Maps Fmt Json Proto Keys View Core Modal Payload Menu Editor Shipped PropShipped.
Import ListNotations.

(** ** specification *)
(** the columns a text of narrow characters takes: its bytes that start a character *)
Definition starts_char (b : byte) : bool := (b <? 128) || (192 <=? b).
Definition cols (x : text) : nat := length (List.filter starts_char x).
(** the longest of some texts *)
Definition longest (l : list text) (n : nat) : Prop := (forall x, In x l -> length x <= n) /\ (n = 0 \/ exists x, In x l /\ length x = n).

(** ** proofs *)
Lemma max_length_from (l : list text) : forall m : nat, (m <= fold_left (fun m (x : text) => if m <? length x then length x else m) l m /\ forall x, In x l -> length x <= fold_left (fun m (x : text) => if m <? length x then length x else m) l m) /\
  (fold_left (fun m (x : text) => if m <? length x then length x else m) l m = m \/ exists x, In x l /\ length x = fold_left (fun m (x : text) => if m <? length x then length x else m) l m).
Proof.
  induction l as [|a l IH]; intro m; cbn [fold_left]; [split; [split; [lia|intros ? []]|auto]|]. destruct (Nat.ltb_spec m (length a)) as [H|H].
  - destruct (IH (length a)) as [[A B] C]. split; [split; [lia|intros x [<-|I]; [exact A|now apply B]]|]. right. destruct C as [->|(x & I & E)]; [exists a; split; [now left|reflexivity]|exists x; split; [now right|exact E]].
  - destruct (IH m) as [[A B] C]. split; [split; [exact A|intros x [<-|I]; [lia|now apply B]]|]. destruct C as [->|(x & I & E)]; [now left|right; exists x; split; [now right|exact E]].
Qed.
Lemma max_length_longest l : longest l (max_length l).
Proof. unfold max_length. destruct (max_length_from l 0) as [[_ A] B]. split; auto. Qed.
Lemma cols_app x y : cols (x ++ y) = cols x + cols y.
Proof. unfold cols. now rewrite filter_app, app_length. Qed.
Lemma cols_ascii x : ascii x -> cols x = length x.
Proof. unfold cols, ascii. induction 1 as [|b x H F IH]; cbn [List.filter]; [reflexivity|]. unfold starts_char at 1. apply Nat.ltb_lt in H. rewrite H. cbn [orb length]. now rewrite IH. Qed.
Lemma cols_rep x n : cols (rep x n) = n * cols x.
Proof. unfold rep. induction n as [|n IH]; cbn [repeat concat]; [reflexivity|]. rewrite cols_app, IH. reflexivity. Qed.
Lemma cols_frame : cols c_dash = 1 /\ cols c_bar = 1 /\ cols c_nw = 1 /\ cols c_ne = 1 /\ cols c_se = 1 /\ cols c_sw = 1.
Proof. repeat split. Qed.

(** A framed hint of plain texts whose title is at least two shorter than the longest text: a rectangle; the title is in the
    first row, each of the other texts in its row, aligned left. *)
Theorem C69_partial : forall title lines n, Forall ascii (title :: lines) -> longest (title :: lines) n -> length title + 2 <= n ->
  let box := hint_box (title :: lines) true in
  length box = S (S (length lines)) /\ (forall row, In row box -> cols row = n + 4) /\
  (exists a b, nth_error box 0 = Some (a ++ str " " ++ title ++ str " " ++ b)) /\
  (forall i x, nth_error lines i = Some x -> nth_error box (S i) = Some (str "│ " ++ x ++ repeat 32 (n - length x) ++ str " │")).
Proof.
  intros title lines n F Ln H. cbv zeta. assert (max_length (title :: lines) = n) as Hm.
  { destruct (max_length_longest (title :: lines)) as [A B]. destruct Ln as [A' B']. destruct B as [B|(x & I & B)], B' as [B'|(y & J & B')]; try (pose proof (A y J)); try (pose proof (A' x I)); lia. }
  unfold hint_box. rewrite Hm. destruct cols_frame as (C1 & C2 & C3 & C4 & C5 & C6). pose proof (Forall_inv F) as Ft. pose proof (Forall_inv_tail F) as Fl.
  split; [cbn [app length]; rewrite app_length, map_length; cbn; lia|]. split; [|split].
  - intros row I. cbn [app In] in I. rewrite in_app_iff in I. destruct I as [<-|[I|[<-|[]]]].
    + unfold frame_title. rewrite !cols_app, cols_rep, C1, C3, C4, (cols_ascii title) by exact Ft. change (cols (str " ")) with 1. lia.
    + apply in_map_iff in I. destruct I as (x & <- & I). unfold frame_line. rewrite !cols_app, cols_rep, C2. change (cols (str " ")) with 1. rewrite (cols_ascii x) by (rewrite Forall_forall in Fl; now apply Fl).
      assert (length x <= n) by (apply (proj1 Ln); now right). lia.
    + unfold frame_end. rewrite !cols_app, cols_rep, C1, C5, C6. lia.
  - unfold frame_title. eexists _, _. cbn [app nth_error]. f_equal. rewrite (app_assoc c_nw). reflexivity.
  - intros i x E. cbn [app nth_error]. rewrite nth_error_app1 by (rewrite map_length; apply nth_error_Some; congruence). rewrite nth_error_map, E. cbn [option_map]. f_equal. unfold frame_line.
    replace (rep (str " ") (n - length x)) with (repeat 32 (n - length x)); [|unfold rep; induction (n - length x) as [|m IH]; cbn [repeat concat]; [reflexivity|rewrite <- IH; reflexivity]].
    rewrite <- !app_assoc. reflexivity.
Qed.
(** Without a frame: each text padded to the longest. *)
Theorem C69_unframed : forall lines n, Forall ascii lines -> longest lines n ->
  (forall row, In row (hint_box lines false) -> cols row = n) /\
  forall i x, nth_error lines i = Some x -> nth_error (hint_box lines false) i = Some (x ++ repeat 32 (n - length x)).
Proof.
  intros lines n F Ln. assert (max_length lines = n) as Hm.
  { destruct (max_length_longest lines) as [A B]. destruct Ln as [A' B']. destruct B as [B|(x & I & B)], B' as [B'|(y & J & B')]; try (pose proof (A y J)); try (pose proof (A' x I)); lia. }
  assert (forall m, rep (str " ") m = repeat 32 m) as Rp by (intro m; unfold rep; induction m as [|m IH]; cbn [repeat concat]; [reflexivity|rewrite IH; reflexivity]).
  unfold hint_box. rewrite Hm. split.
  - intros row I. apply in_map_iff in I. destruct I as (x & <- & I). rewrite cols_app, cols_rep, (cols_ascii x) by (rewrite Forall_forall in F; now apply F). change (cols (str " ")) with 1. pose proof (proj1 Ln x I). lia.
  - intros i x E. rewrite nth_error_map, E. cbn [option_map]. now rewrite Rp.
Qed.
(** The title being the longest text, the first row sticks out by two; a text that is not ASCII makes its row too short. *)
Theorem C69_refuted :
  (forall title lines, Forall ascii (title :: lines) -> longest (title :: lines) (length title) ->
    exists a b, In a (hint_box (title :: lines) true) /\ In b (hint_box (title :: lines) true) /\ cols a = cols b + 2) /\
  (exists lines a b, In a (hint_box lines true) /\ In b (hint_box lines true) /\ cols a < cols b /\ In (str "é") lines).
Proof.
  split.
  - intros title lines F Ln. assert (max_length (title :: lines) = length title) as Hm.
    { destruct (max_length_longest (title :: lines)) as [A B]. destruct Ln as [A' _]. pose proof (A title (or_introl eq_refl)). destruct B as [B|(x & I & B)]; [lia|]. pose proof (A' x I). lia. }
    exists (frame_title (length title) title), (frame_end (length title)). unfold hint_box. rewrite Hm. split; [now left|]. split; [cbn [app]; right; apply in_or_app; right; now left|].
    destruct cols_frame as (C1 & C2 & C3 & C4 & C5 & C6). unfold frame_title, frame_end. rewrite !cols_app, !cols_rep, C1, C3, C4, C5, C6, (cols_ascii title) by exact (Forall_inv F). change (cols (str " ")) with 1. lia.
  - exists [str "t"; str "long enough"; str "é"], (frame_line 11 (str "é")), (frame_end 11). split; [right; right; now left|]. split; [right; right; right; now left|]. split; [vm_compute; lia|right; right; now left].
Qed.
(** The boxes of the program itself are rectangles. *)
Theorem C69_shipped : forall (extend swapped : bool), forall row, In row (goto_box extend swapped) -> cols row = 17.
Proof. intros [|] [|] row I; cbn [goto_box app In] in I; repeat (destruct I as [<-|I]; [reflexivity|]); destruct I. Qed.
Print Assumptions C69_partial.
Print Assumptions C69_unframed.
Print Assumptions C69_refuted.
Print Assumptions C69_shipped.
Example C69_demo : Forall ascii [str "keys"; str "h: line begin"] /\ longest [str "keys"; str "h: line begin"] 13 /\ length (str "keys") + 2 <= 13.
Proof. split; [repeat (apply Forall_cons; [repeat constructor; vm_compute; lia|]); constructor|]. split; [|vm_compute; lia]. split; [intros x [<-|[<-|[]]]; vm_compute; lia|]. right. eexists. split; [right; left; reflexivity|reflexivity]. Qed.
