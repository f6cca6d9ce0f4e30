(** C41: modal key handling. *)
From Coq Require Import String List Arith Lia Bool.
From Verif Require Import Base ListFacts Maps PieceTable PieceTableFacts Coords Selection Utf8 Utf8Spec Utf8Facts Chars Json Proto Keys PropKeys Fmt View Core Modal.
Import ListNotations.

(** ** specification: the documented bindings *)
Inductive place := InNormal | InInsertion | InGoto (extend : bool).
Definition place_stack (p : place) : list text :=
  match p with
  | InNormal => [str "normal"]
  | InInsertion => [str "normal"; str "insertion"]
  | InGoto false => [str "normal"; str "moveto"]
  | InGoto true => [str "normal"; str "extendto"]
  end.
(** plain character [c], without or with shift *)
Definition plain_key (c : nat) : key_event := mkKey false false false (KChar [c]).
Definition shift_key (c : nat) : key_event := mkKey false false true (KChar [c]).
Definition same_key (a b : key_event) : Prop :=
  ke_ctrl a = ke_ctrl b /\ ke_alt a = ke_alt b /\ ke_shift a = ke_shift b /\ unshifted (ke_key a) = unshifted (ke_key b).
Definition escape_key : key_event := mkKey false false false KEscape.
(** in normal mode: the key, where it leads, what it asks of the core *)
Definition normal_keys (id : nat) : list (key_event * place * list call) :=
  [(plain_key 105, InInsertion, []); (plain_key 103, InGoto false, []); (shift_key 103, InGoto true, []);
   (plain_key 104, InNormal, [CMove id MLeft false]); (plain_key 106, InNormal, [CMove id MDown false]);
   (plain_key 107, InNormal, [CMove id MUp false]); (plain_key 108, InNormal, [CMove id MRight false]);
   (shift_key 104, InNormal, [CMove id MLeft true]); (shift_key 106, InNormal, [CMove id MDown true]);
   (shift_key 107, InNormal, [CMove id MUp true]); (shift_key 108, InNormal, [CMove id MRight true]);
   (plain_key 109, InNormal, [CMessage (Some id) (str "hello!")]); (plain_key 101, InNormal, [CError (Some id) (str "lua") (str "oops!")]);
   (plain_key 100, InNormal, [CDeleteSelection id])].
(** one key *)
Inductive documented (id : nat) : place -> key_event -> place -> list call -> Prop :=
| doc_normal k e q cs : In (e, q, cs) (normal_keys id) -> same_key k e -> documented id InNormal k q cs
| doc_normal_other k : (forall e q cs, In (e, q, cs) (normal_keys id) -> ~ same_key k e) -> documented id InNormal k InNormal []
| doc_insertion_escape : documented id InInsertion escape_key InNormal []
| doc_insertion_other k : k <> escape_key -> documented id InInsertion k InInsertion []
| doc_goto_begin x k : same_key k (plain_key 104) -> documented id (InGoto x) k InNormal [CMove id MLineBegin x]
| doc_goto_end x k : same_key k (plain_key 108) -> documented id (InGoto x) k InNormal [CMove id MLineEnd x]
| doc_goto_other x k : ~ same_key k (plain_key 104) -> ~ same_key k (plain_key 108) -> documented id (InGoto x) k InNormal [].
Inductive documented_keys (id : nat) : place -> list key_event -> place -> list call -> Prop :=
| doc_nil p : documented_keys id p [] p []
| doc_cons p k q cs ks r ds : documented id p k q cs -> documented_keys id q ks r ds -> documented_keys id p (k :: ks) r (cs ++ ds).
(** the calls among the effects *)
Definition calls_of (es : list effect) : list call := flat_map (fun e => match e with ECall c => [c] | _ => [] end) es.

(** ** proofs *)
Lemma same_display k e : wf_key (ke_key k) -> wf_key (ke_key e) -> (event_str k = event_str e <-> same_key k e).
Proof.
  intros W V. split; [now apply C40_injective|]. intros (A & B & C & D). unfold event_str. rewrite A, B, C. do 3 f_equal.
  destruct (ke_key k), (ke_key e); cbn [unshifted] in D; try discriminate; auto. cbn [key_str]. now injection D.
Qed.
Lemma same_escape k : wf_key (ke_key k) -> (event_str k = str "esc" <-> k = escape_key).
Proof.
  intro W. change (str "esc") with (event_str escape_key). rewrite same_display by (auto; exact Logic.I). split; [|intros ->; repeat split]. intros (A & B & C & D). destruct k as [a b c k]. cbn in A, B, C, D. subst. destruct k; try discriminate D. reflexivity.
Qed.
Definition wf_event (k : key_event) : Prop := wf_key (ke_key k).
Lemma display_case k c : wf_event k -> c < 128 -> {event_str k = event_str (plain_key c)} + {event_str k <> event_str (plain_key c)}.
Proof. intros. apply (list_eq_dec Nat.eq_dec). Qed.
Lemma get_mapped {V} (l : list (text * V)) d : (exists n v, In (n, v) l /\ d = n /\ get l d = Some v) \/ ((forall n v, In (n, v) l -> d <> n) /\ get l d = None).
Proof.
  induction l as [|[n v] l IH]; [right; split; auto; intros ? ? []|]. cbn [get]. destruct (eqb d n) eqn:E.
  - apply eqb_ok in E. left. exists n, v. split; [now left|]. auto.
  - apply eqb_neq in E. destruct IH as [(m & w & I & -> & G)|[N G]]; [left; exists m, w; split; [now right|]; auto|]. right. split; auto. intros m w [X|X]; [congruence|eauto].
Qed.

Lemma Forall2_in_l {A B} (R : A -> B -> Prop) l m x : Forall2 R l m -> In x l -> exists y, In y m /\ R x y.
Proof. induction 1 as [|a b l m H F IH]; intros []; [subst; exists b; split; auto; now left|]. destruct (IH H0) as (y & I & J). exists y. split; auto. now right. Qed.
Lemma step_documented id p k : wf_event k -> exists q cs es, documented id p k q cs /\
  handle_key (event_str k) (mkMH id (place_stack p)) = Some (mkMH id (place_stack q), es) /\ calls_of es = cs.
Proof.
  intro W. destruct p as [| |x].
  - unfold handle_key. change (cur_cfg (mkMH id (place_stack InNormal))) with (get modes (str "normal")). change (get modes (str "normal")) with (Some (snd (hd (str "", mkMode [] false [] None) modes))).
    cbn [modes hd snd md_mappings md_default].
    match goal with |- context [get ?l (event_str k)] => set (tbl := l) end.
    destruct (get_mapped tbl (event_str k)) as [(n & a & I & E & G)|[N G]]; rewrite G.
    + assert (exists e q cs, In (e, q, cs) (normal_keys id) /\ n = event_str e /\ wf_key (ke_key e) /\ exists es,
        match apply_mapped a (mkMH id (place_stack InNormal)) with None => None | Some (h, fs) => match cur_cfg h with None => None | Some cfg => Some (h, fs ++ [EStatus (mh_client h) (event_str k) (md_name cfg)]) end end = Some (mkMH id (place_stack q), es) /\ calls_of es = cs) as (e & q & cs & I' & E' & V & es & H & C).
      { assert (Forall2 (fun x y => fst x = event_str (fst (fst y)) /\ wf_key (ke_key (fst (fst y))) /\ exists es,
          match apply_mapped (snd x) (mkMH id (place_stack InNormal)) with None => None | Some (h, fs) => match cur_cfg h with None => None | Some cfg => Some (h, fs ++ [EStatus (mh_client h) (event_str k) (md_name cfg)]) end end = Some (mkMH id (place_stack (snd (fst y))), es) /\ calls_of es = snd y) tbl (normal_keys id)) as F2.
        { unfold tbl, normal_keys. repeat (constructor; [split; [reflexivity|split; [cbn; lia|eexists; split; reflexivity]]|]). constructor. }
        destruct (Forall2_in_l _ _ _ _ F2 I) as ([[e q] cs] & I' & A & B & es & C). exists e, q, cs. cbn [fst snd] in *. eauto 10. }
      exists q, cs, es. split; auto. eapply doc_normal; eauto. apply same_display; auto. congruence.
    + exists InNormal, [], []. split; [|split; reflexivity]. apply doc_normal_other. intros e q cs I S.
      assert (exists a, In (event_str e, a) tbl) as (a & Ia).
      { assert (Forall2 (fun y x => fst x = event_str (fst (fst y))) (normal_keys id) tbl) as F2 by (unfold tbl, normal_keys; repeat (constructor; [reflexivity|]); constructor).
        destruct (Forall2_in_l _ _ _ _ F2 I) as ([n a] & I' & A). cbn [fst] in A. subst n. eauto. }
      apply (N _ _ Ia). apply same_display; auto. clear - I. unfold normal_keys in I. cbn [In] in I. repeat (destruct I as [X|I]; [injection X as <- _ _; cbn; lia|]). destruct I.
  - unfold handle_key. change (cur_cfg (mkMH id (place_stack InInsertion))) with (Some (mkMode (str "I") false [(str "esc", MExit)] None)). cbn [md_mappings md_default get].
    destruct (eqb (event_str k) (str "esc")) eqn:E.
    + apply eqb_ok in E. apply same_escape in E; auto. subst k. exists InNormal, [], [EStatus id (str "esc") (str "N")]. split; [constructor|]. split; reflexivity.
    + exists InInsertion, [], []. split; [|split; reflexivity]. constructor. intros ->. apply eqb_neq in E. now apply E.
  - assert (forall b, handle_key (event_str k) (mkMH id (place_stack (InGoto b))) =
      (if eqb (event_str k) (str "h") then Some (mkMH id (place_stack InNormal), [ECall (CMove id MLineBegin b); EStatus id (event_str k) (str "N")])
       else if eqb (event_str k) (str "l") then Some (mkMH id (place_stack InNormal), [ECall (CMove id MLineEnd b); EStatus id (event_str k) (str "N")])
       else Some (mkMH id (place_stack InNormal), [EStatus id (event_str k) (str "N")]))) as Hg.
    { intro b. unfold handle_key. replace (cur_cfg (mkMH id (place_stack (InGoto b)))) with (Some (mkMode (if b then str "G" else str "g") true (goto_mappings b) (Some MExit))) by (destruct b; reflexivity).
      cbn [md_mappings md_default goto_mappings get]. destruct (eqb (event_str k) (str "h")); [destruct b; reflexivity|]. destruct (eqb (event_str k) (str "l")); destruct b; reflexivity. }
    rewrite Hg. destruct (eqb (event_str k) (str "h")) eqn:E1; [|destruct (eqb (event_str k) (str "l")) eqn:E2].
    + apply eqb_ok in E1. eexists _, _, _. split; [|split; reflexivity]. apply doc_goto_begin. apply same_display; auto. cbn; lia.
    + apply eqb_ok in E2. eexists _, _, _. split; [|split; reflexivity]. apply doc_goto_end. apply same_display; auto. cbn; lia.
    + apply eqb_neq in E1, E2. eexists _, _, _. split; [|split; reflexivity]. apply doc_goto_other; intro S; apply same_display in S; auto; cbn; lia.
Qed.

(** the handler of a new client handles every sequence of keys without a Lua error, as documented *)
Theorem C41 : forall id ks, Forall wf_event ks -> exists p cs es, documented_keys id InNormal ks p cs /\
  handle_keys ks (handler_new id) = Some (mkMH id (place_stack p), es) /\ calls_of es = cs.
Proof.
  intros id ks F. change (handler_new id) with (mkMH id (place_stack InNormal)). generalize InNormal as p. induction F as [|k ks W F IH]; intro p.
  - exists p, [], []. split; [constructor|]. split; reflexivity.
  - destruct (step_documented id p k W) as (q & cs & es & D & H & C). destruct (IH q) as (r & ds & fs & D' & H' & C').
    exists r, (cs ++ ds), (es ++ fs). split; [econstructor; eauto|]. cbn [handle_keys]. rewrite H, H'. split; auto. unfold calls_of in *. rewrite flat_map_app. now rewrite C, C'.
Qed.
Print Assumptions C41.
(** the documentation is deterministic: it says which place and which calls *)
Lemma normal_keys_apart id e q cs e' q' cs' : In (e, q, cs) (normal_keys id) -> In (e', q', cs') (normal_keys id) -> same_key e e' -> q = q' /\ cs = cs'.
Proof.
  intros I I' (A & B & C & D). unfold normal_keys in I, I'. cbn [In] in I, I'.
  repeat (destruct I as [X|I]; [injection X as <- <- <-; repeat (destruct I' as [X|I']; [injection X as <- <- <-; cbn in A, B, C, D; first [split; reflexivity|discriminate]|]); destruct I'|]). destruct I.
Qed.
Lemma same_sym a b : same_key a b -> same_key b a.
Proof. unfold same_key. intuition congruence. Qed.
Lemma same_trans a b c : same_key a b -> same_key b c -> same_key a c.
Proof. unfold same_key. intuition congruence. Qed.
Theorem C41_documented_once : forall id p k q cs q' cs', documented id p k q cs -> documented id p k q' cs' -> q = q' /\ cs = cs'.
Proof.
  intros id p k q cs q' cs' D D'. inversion D; subst; inversion D'; subst; auto; try (exfalso; eauto; fail); try congruence.
  all: try (eapply normal_keys_apart; eauto; eapply same_trans; [apply same_sym|]; eauto; fail).
  all: exfalso; try match goal with A : same_key _ (plain_key 104), B : same_key _ (plain_key 108) |- _ => pose proof (same_trans _ _ _ (same_sym _ _ A) B) as (_ & _ & _ & X); discriminate X end.
  all: match goal with A : same_key ?z ?e, B : In (?e, _, _) _, C : forall e q cs, In (e, q, cs) _ -> ~ same_key ?z e |- _ => exact (C _ _ _ B A) end.
Qed.
Print Assumptions C41_documented_once.
(** hence: always in a defined mode, normal mode at the bottom, at most one other above *)
Theorem C41_modes : forall id ks h es, Forall wf_event ks -> handle_keys ks (handler_new id) = Some (h, es) ->
  hd_error (mh_stack h) = Some (str "normal") /\ length (mh_stack h) <= 2 /\ exists m cfg, curmode h = Some m /\ get modes m = Some cfg.
Proof.
  intros id ks h es F E. destruct (C41 id ks F) as (p & cs & fs & _ & H & _). rewrite E in H. injection H as -> _.
  destruct p as [| |[|]]; split; try reflexivity; (split; [cbn; lia|]); eexists _, _; split; reflexivity.
Qed.
Theorem C41_goto_once : forall id x k h es, wf_event k -> handle_key (event_str k) (mkMH id (place_stack (InGoto x))) = Some (h, es) -> mh_stack h = place_stack InNormal.
Proof.
  intros id x k h es W E. destruct (step_documented id (InGoto x) k W) as (q & cs & fs & D & H & _). rewrite E in H. injection H as -> _. inversion D; reflexivity.
Qed.
Theorem C41_insertion : forall id k h es, wf_event k -> handle_key (event_str k) (mkMH id (place_stack InInsertion)) = Some (h, es) ->
  (mh_stack h = place_stack InNormal <-> k = escape_key) /\ (k <> escape_key -> mh_stack h = place_stack InInsertion /\ es = []).
Proof.
  intros id k h es W E. assert (k <> escape_key -> h = mkMH id (place_stack InInsertion) /\ es = []) as N.
  { intro N. unfold handle_key in E. change (cur_cfg (mkMH id (place_stack InInsertion))) with (Some (mkMode (str "I") false [(str "esc", MExit)] None)) in E. cbn [md_mappings md_default get] in E.
    destruct (eqb (event_str k) (str "esc")) eqn:X; [|injection E as <- <-; auto]. apply eqb_ok in X. apply same_escape in X; auto. contradiction. }
  destruct (step_documented id InInsertion k W) as (q & cs & fs & D & H & _). rewrite E in H. injection H as -> _. split.
  - inversion D; subst; split; auto; intro X; try discriminate X; contradiction.
  - intro X. destruct (N X) as [A ->]. injection A as ->. auto.
Qed.
Example C41_demo : let ks := [shift_key 103; plain_key 108; plain_key 105; plain_key 104; escape_key; shift_key 72; mkKey true false false KEnter] in
  Forall wf_event ks /\ exists es, handle_keys ks (handler_new 3) = Some (handler_new 3, es) /\ calls_of es = [CMove 3 MLineEnd true; CMove 3 MLeft true] /\ length es = 8.
Proof. split; [repeat constructor; cbn; lia|]. eexists. split; [vm_compute; reflexivity|]. split; reflexivity. Qed.
