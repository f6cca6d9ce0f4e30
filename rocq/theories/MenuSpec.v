(** Specification vocabulary for C51 and C52: what it means for the words of a search to occur in a label. *)
From Coq Require Import List Arith Bool ZArith.
From Verif Require Import Base Maps Utf8Spec Chars ViewSpec Payload Menu.
Import ListNotations.

(** the same characters, ignoring case *)
Definition same (u : regex_crate) (w x : list text) : Prop := map (fold_char u) w = map (fold_char u) x.
(** the words occur in [x], in this order, from its beginning to its end, on one line *)
Inductive threads (u : regex_crate) : list (list text) -> list text -> Prop :=
| th_nil : threads u [] []
| th_one w x : same u w x -> threads u [w] x
| th_cons w x gap v ws y : same u w x -> ~ In [LF] gap -> threads u (v :: ws) y -> threads u (w :: v :: ws) (x ++ gap ++ y).
(** the words of a search occur in the label as [x], after [pre] *)
Definition occurs (u : regex_crate) (search label : text) (pre x : list text) : Prop :=
  exists post, chars label = pre ++ x ++ post /\ threads u (map chars (split_whitespace search)) x.
(** the occurrence the user sees: the first, as long as possible *)
Definition best (u : regex_crate) (search label : text) (pre x : list text) : Prop :=
  occurs u search label pre x /\
  (forall pre' x', occurs u search label pre' x' -> length pre <= length pre') /\
  (forall x', occurs u search label pre x' -> length x' <= length x).
Definition matches (u : regex_crate) (search label : text) : Prop := exists pre x, occurs u search label pre x.
(** bytes between the beginning and the end of that occurrence *)
Definition span (u : regex_crate) (search label : text) (n : nat) : Prop := exists pre x, best u search label pre x /\ n = length (concat x).
(** a search of plain words: no character with a meaning of its own *)
Definition plain_search (search : text) : Prop :=
  valid search /\ Forall (fun c => special c = false /\ c <> [40] /\ c <> [41]) (chars search).
(** the closest match first, then in alphabetical order *)
Definition before (u : regex_crate) (search : text) (a b : item) : Prop :=
  forall n m, span u search (it_label a) n -> span u search (it_label b) m ->
    n < m \/ (n = m /\ (text_lt (it_label a) (it_label b) \/ it_label a = it_label b)).

(** the fragments of an occurrence: the words highlighted, what separates them not *)
Inductive marked (u : regex_crate) : list (list text) -> list fragment -> Prop :=
| mk_one w x : same u w (chars x) -> marked u [w] [mkFrag x FMatch]
| mk_cons w x g v ws fs : same u w (chars x) -> ~ In LF g -> marked u (v :: ws) fs -> marked u (w :: v :: ws) (mkFrag x FMatch :: mkFrag g FDefault :: fs).
(** what is displayed for a label: all of it, the best occurrence of the words highlighted *)
Definition displayed (u : regex_crate) (search label : text) (fs : list fragment) : Prop :=
  concat (map fr_text fs) = label /\
  match map chars (split_whitespace search) with
  | [] => Forall (fun f => fr_face f = FDefault) fs
  | ws => exists pre x mid tail,
            best u search label pre x /\ fs = mkFrag (concat pre) FDefault :: mid ++ tail /\
            marked u ws mid /\ concat (map fr_text mid) = concat x /\ (tail = [] \/ exists t, tail = [mkFrag t FDefault])
  end.

(** the positions at which groups of a pattern were opened (true) and closed (false), in their order, and the ranges of the groups:
    each opening belongs to the closing after the groups inside *)
Inductive nested : list (bool * nat) -> list (nat * nat) -> Prop :=
| ns_nil : nested [] []
| ns_group p inner gs q after hs : nested inner gs -> nested after hs -> nested ((true, p) :: inner ++ (false, q) :: after) ((p, q) :: gs ++ hs).
