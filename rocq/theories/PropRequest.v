(** C91: requests do what they ask for. *)
From Coq Require Import String List Arith Lia ZArith Bool.
From Verif Require Import Base ListFacts PieceTable Coords Utf8 Utf8Facts Diff Selection Maps StackMap Fmt Normalize Buffer View Json Proto Core CoreSpec CoreInv CoreOps PropCore Payload Menu PropMenu Editor EditorSpec EditorFacts PropEditor RequestSpec.
Import ListNotations.

Section Requests.
Variable G : Graphemes.
Variable pol : policy.
Variable u : regex_crate.
Variable se : serde.
Variable L : lua.
Notation editor := (editor L).
Notation ereach := (ereach G pol u se L).
Notation handle := (handle G pol u se L).
Notation run_call := (run_call G pol).

Lemma answered i o e : answer L i (Ok (o, e)) = Ok (new_response i (match o with None => inl JNull | Some x => inr x end), e).
Proof. reflexivity. Qed.
Lemma outcome_right i v : let a := new_response i (match core_outcome (reply_of v) with None => inl JNull | Some x => inr x end) in
  match reply_of v with
  | RErr (EView x) => refused a (-32600) /\ because a (no_view x)
  | RErr (EBuffer x) => refused a (-32600) /\ because a (no_buffer x)
  | _ => granted a
  end.
Proof.
  destruct v as [[x|x]|]; [| |split; reflexivity].
  - split; [split; [reflexivity|]|]; (eexists; split; [reflexivity|]); reflexivity.
  - split; [split; [reflexivity|]|]; (eexists; split; [reflexivity|]); reflexivity.
Qed.
(** The request does what is asked for and nothing else, and is answered: granted, or refused with the reason. *)
Theorem C91_does : forall e w id line q c r k, parse_request line = Some q -> means id q c -> run_call (w_disk w) c (ed_core L e) = Ok (r, k) ->
  exists a e', handle w id line e = Ok (a, e') /\ rp_id a = rq_id q /\
    ed_core L e' = k /\ rest_same L e e' /\ sends L e e' (news (ed_core L e) k) /\ stops L e e' (if eqb (rq_method q) (str "quit") then Some id else None) /\
    match r with
    | RErr (EView x) => refused a (-32600) /\ because a (no_view x)
    | RErr (EBuffer x) => refused a (-32600) /\ because a (no_buffer x)
    | _ => granted a
    end.
Proof.
  intros e w id line q c r k P M E.
  assert (forall d, In d (ed_stopped L e) <-> In d (ed_stopped L e) \/ @None nat = Some d) as ST by (intro d; split; [auto|intros [H|H]; [auto|discriminate]]).
  destruct M as [n s q A|key q A|q A|b q A|b q A|q A].
  - rewrite (handle_edit G pol u se L w id line e q P _ A). unfold command_edit, do_core, on_core. cbn [ep_name ep_scratch]. rewrite E. cbn [bind]. rewrite answered. eexists _, _. split; [reflexivity|]. rewrite (proj1 A).
    cbn [Core.run_call] in E. bnd E. injection E as <- <-. repeat split; auto; apply ST.
  - rewrite (handle_view G pol u se L w id line e q P _ A). unfold command_view, on_core. rewrite E. cbn [bind]. rewrite answered. eexists _, _. split; [reflexivity|]. rewrite (proj1 A).
    split; [match goal with |- context[core_outcome ?r] => now destruct (core_outcome r) end|]; repeat (split; [first [reflexivity|exact ST|repeat split; reflexivity]|]). cbn [Core.run_call] in E. bnd E. destruct v as [er k1]; injection E as <- <-; apply outcome_right.
  - rewrite (handle_delete G pol u se L w id line e q P A). unfold command_view_delete, do_core, on_core. rewrite E. cbn [bind]. rewrite answered. eexists _, _. split; [reflexivity|]. rewrite A.
    cbn [Core.run_call] in E. bnd E. injection E as <- <-. repeat split; auto; apply ST.
  - rewrite (handle_add G pol u se L w id line e q P _ A). unfold command_view_add, on_core. rewrite E. cbn [bind]. rewrite answered. eexists _, _. split; [reflexivity|]. rewrite (proj1 A).
    split; [match goal with |- context[core_outcome ?r] => now destruct (core_outcome r) end|]; repeat (split; [first [reflexivity|exact ST|repeat split; reflexivity]|]). cbn [Core.run_call] in E. bnd E. destruct v as [er k1]; injection E as <- <-; apply outcome_right.
  - rewrite (handle_remove G pol u se L w id line e q P _ A). unfold command_view_remove, on_core. rewrite E. cbn [bind]. rewrite answered. eexists _, _. split; [reflexivity|]. rewrite (proj1 A).
    split; [match goal with |- context[core_outcome ?r] => now destruct (core_outcome r) end|]; repeat (split; [first [reflexivity|exact ST|repeat split; reflexivity]|]). cbn [Core.run_call] in E. bnd E. destruct v as [er k1]; injection E as <- <-; apply outcome_right.
  - rewrite (handle_quit G pol u se L w id line e q P A). unfold command_quit, do_core, on_core. rewrite E. cbn [bind]. rewrite answered. eexists _, _. split; [reflexivity|]. rewrite A.
    cbn [Core.run_call] in E. bnd E. injection E as <- <-. do 4 (split; [repeat split; reflexivity|]). split; [|split; reflexivity].
    intro d. change (ed_stopped L (set_stopped L _ ?x)) with x. cbn [set_core set_stopped ed_stopped]. replace (eqb (str "quit") (str "quit")) with true by reflexivity. cbv iota.
    destruct (existsb (Nat.eqb id) (ed_stopped L e)) eqn:X.
    + split; [auto|intros [H|H]; [auto|]]. injection H as <-. apply existsb_exists in X. destruct X as (y & I & Y). apply Nat.eqb_eq in Y. now subst.
    + rewrite in_app_iff. cbn [In]. split; intros [H|H]; auto; [destruct H as [->|[]]; auto|injection H as <-; auto].
Qed.
(** It fails only if the change does. *)
Theorem C91_fails : forall e w id line q c why, parse_request line = Some q -> means id q c -> run_call (w_disk w) c (ed_core L e) = Panic why -> handle w id line e = Panic why.
Proof.
  intros e w id line q c why P M E. destruct M as [n s q A|key q A|q A|b q A|b q A|q A];
    first [rewrite (handle_edit G pol u se L w id line e q P _ A)|rewrite (handle_view G pol u se L w id line e q P _ A)|rewrite (handle_delete G pol u se L w id line e q P A)
          |rewrite (handle_add G pol u se L w id line e q P _ A)|rewrite (handle_remove G pol u se L w id line e q P _ A)|rewrite (handle_quit G pol u se L w id line e q P A)];
    unfold command_edit, command_view, command_view_delete, command_view_add, command_view_remove, command_quit, do_core, on_core; cbn [ep_name ep_scratch]; now rewrite E.
Qed.

(** ** what the client sees *)
Definition core_of (e : editor) : core := ed_core L e.
(** A view is shown by its key, a buffer that no view has the name of by its name, anything else is refused. *)
Theorem C91_view : forall e w id line q x a e', ereach e -> parse_request line = Some q -> asks dec_str (str "view") x q -> handle w id line e = Ok (a, e') ->
  (granted a /\ exists v, looks_at (core_of e') id v /\ (get (vmap (core_of e)) x = Some v \/ ~ listed (core_of e) x /\ open (core_of e) x /\ v = whole x)) \/
  (refused a (-32600) /\ because a (no_view x) /\ ~ listed (core_of e) x /\ ~ open (core_of e) x /\ core_of e' = core_of e /\ ed_out L e' = ed_out L e).
Proof.
  intros e w id line q x a e' R P A H. assert (means id q (CView id x)) as M by now constructor.
  destruct (run_call (w_disk w) (CView id x) (ed_core L e)) as [[r k]|why|] eqn:E.
  2: { rewrite (C91_fails _ _ _ _ _ _ _ P M E) in H. discriminate. }
  2: { rewrite (handle_view G pol u se L w id line e q P _ A) in H. unfold command_view, on_core in H. rewrite E in H. discriminate. }
  destruct (C91_does _ _ _ _ _ _ _ _ P M E) as (a1 & e1 & H1 & _ & K & _ & S & _ & O). rewrite H in H1. injection H1 as <- <-. unfold core_of. rewrite K.
  destruct r as [|er| |]; try (cbn [Core.run_call] in E; bnd E; destruct v as [[?|] ?]; discriminate).
  - left. split; [exact O|]. cbn [Core.run_call] in E. bnd E. destruct v as [[z|] k1]; [discriminate|]. injection E as <-. unfold view_cmd in E0. destruct (view_exists (ed_core L e) x) eqn:V.
    + bnd E0. bnd E0. bnd E0. injection E0 as <-. exists v. apply notify_same in E2. destruct E2 as (_ & C & _). split; [|left; destruct (get (vmap (ed_core L e)) x); [now injection E as ->|discriminate]].
      eexists. split; [unfold cmap; rewrite C; apply get_set_same|reflexivity].
    + destruct (buffer_exists (ed_core L e) x) eqn:B; [|discriminate]. bnd E0. bnd E0. injection E0 as <-. exists (whole x). apply notify_same in E1. destruct E1 as (_ & C & _).
      split; [eexists; split; [unfold cmap; rewrite C; apply get_set_same|reflexivity]|]. right. split; [now apply has_not_in|]. split; [|reflexivity]. apply has_in. exact B.
  - destruct (C35_errors_change_nothing G pol (w_disk w) _ _ _ _ (ei_core _ _ _ _ (ereach_inv _ _ _ _ _ _ R)) E) as [-> F]. destruct er as [z|z]; [destruct F|]. destruct F as (-> & N1 & N2).
    right. destruct O as [O1 O2]. do 4 (split; [assumption|]). split; [reflexivity|]. unfold sends in S. rewrite S. unfold news. rewrite skipn_all. cbn [map]. now rewrite app_nil_r.
Qed.
Definition longer (e e' : editor) : Prop := exists l, ed_out L e' = ed_out L e ++ l.
Lemma longer_trans a b c : longer a b -> longer b c -> longer a c.
Proof. intros [x X] [y Y]. exists (x ++ y). rewrite Y, X. now rewrite app_assoc. Qed.
Lemma core_longer w c e r e' : on_core G pol L w c e = Ok (r, e') -> longer e e'.
Proof. unfold on_core. intro E. bnd E. destruct v. injection E as _ <-. eexists. reflexivity. Qed.
Lemma call_longer w c e r e' : lua_call G pol L w c e = Ok (r, e') -> longer e e'.
Proof. destruct c; cbn [lua_call]; intro E; try (now apply core_longer in E); injection E as _ <-; eexists; reflexivity. Qed.
Lemma script_longer w t : forall e r e', run_script G pol L w t e = Ok (r, e') -> longer e e'.
Proof.
  induction t as [s|x s|c k IH]; cbn [run_script]; intros e r e' E; [injection E as _ <-; exists []; symmetry; apply app_nil_r..|].
  bnd E. destruct v as [r1 e1]. eapply longer_trans; [eapply call_longer; eauto|eapply IH; eauto].
Qed.
Lemma error_told w id tag x e e1 e' : longer e e1 -> do_core G pol L w (CError (Some id) tag x) e1 = Ok e' -> told_error L e e' id (tag ++ str ": " ++ x).
Proof.
  intros [l0 E0] E. unfold do_core, on_core in E. cbn [Core.run_call] in E. bnd E. destruct v as [r e2]. injection E as <-. bnd E1. destruct v as [r1 k]. injection E1 as _ <-. bnd E. injection E as _ <-.
  unfold error in E1. bnd E1. injection E1 as <-. apply append_ext in E. destruct E as [l El]. unfold told_error, set_core. cbn [ed_out].
  cbn [ed_core emit k_sent addressee]. rewrite El. match goal with |- context[skipn ?n ?m] => replace (skipn n m) with (l ++ [mkSent (Some [id]) (NEcho (normalize_error_message (tag ++ str ": " ++ x)) true)]) end.
  2: { rewrite <- app_assoc, skipn_app, skipn_all, Nat.sub_diag. reflexivity. }
  rewrite E0, map_app. exists (l0 ++ map (fun s => mkES (m_to s) (OCore (m_what s))) l). now rewrite !app_assoc.
Qed.
Lemma exec_told w source id f e r e' : exec_lua G pol L w source id f e = Ok (r, e') ->
  longer e e' /\ forall x, r = Some x -> told_error L e e' id (str "exec: " ++ x).
Proof.
  unfold exec_lua. intro E. bnd E. destruct v as [r1 e1]. bnd E. destruct v as [r2 e2].
  assert (longer e e2) as O. { eapply longer_trans; [eapply script_longer; eauto|]. destruct r1; [injection E1 as _ <-; exists []; symmetry; apply app_nil_r|eapply script_longer; eauto]. }
  destruct r2 as [x|]; [|injection E as <- <-; split; [exact O|discriminate]]. bnd E. bnd E. injection E as <- <-.
  assert (longer e v) as O1. { eapply longer_trans; [exact O|]. unfold do_core in E2. bnd E2. destruct v1. injection E2 as <-. eapply core_longer; eauto. }
  split.
  - eapply longer_trans; [exact O1|]. unfold do_core in E3. bnd E3. destruct v1. injection E3 as <-. eapply core_longer; eauto.
  - intros y Y. injection Y as <-. change (str "exec: " ++ x) with (str "exec" ++ str ": " ++ x). exact (error_told _ _ _ _ _ _ _ O1 E3).
Qed.
(** A script that fails is reported twice: in the answer and as an error message. *)
Theorem C91_exec : forall e w id line q source a e', parse_request line = Some q -> asks dec_str (str "exec") source q -> handle w id line e = Ok (a, e') ->
  granted a \/ exists x, refused a 1 /\ because a x /\ told_error L e e' id (str "exec: " ++ x).
Proof.
  intros e w id line q source a e' P A H. rewrite (handle_exec G pol u se L w id line e q P _ A) in H. unfold command_exec in H.
  destruct (exec_lua G pol L w (str "exec") id (lu_exec L source) e) as [[o e1]| |] eqn:E; try discriminate. cbn [bind] in H. rewrite answered in H. injection H as <- <-. apply exec_told in E. destruct E as [_ T].
  destruct o as [x|]; [right|left; split; reflexivity]. exists x. split; [split; [reflexivity|eexists; split; reflexivity]|]. split; [eexists; split; reflexivity|]. now apply T.
Qed.
(** Keys are handled one after the other... *)
Theorem C91_keys : forall e w id line line1 line2 q q1 q2 ks1 ks2 a1 e1,
  parse_request line = Some q -> asks dec_keys (str "keys") (ks1 ++ ks2) q ->
  parse_request line1 = Some q1 -> asks dec_keys (str "keys") ks1 q1 ->
  parse_request line2 = Some q2 -> asks dec_keys (str "keys") ks2 q2 ->
  handle w id line1 e = Ok (a1, e1) ->
  (granted a1 -> forall a2 e2, handle w id line2 e1 = Ok (a2, e2) -> exists a, handle w id line e = Ok (a, e2) /\ same_answer a a2) /\
  (~ granted a1 -> exists a, handle w id line e = Ok (a, e1) /\ same_answer a a1).
Proof.
  intros e w id line line1 line2 q q1 q2 ks1 ks2 a1 e1 P A P1 A1 P2 A2.
  rewrite (handle_keys G pol u se L w id line1 e q1 P1 _ A1). setoid_rewrite (handle_keys G pol u se L w id line e q P _ A). setoid_rewrite (handle_keys G pol u se L w id line2 e1 q2 P2 _ A2).
  clear. revert e e1. induction ks1 as [|k ks IH]; intros e e1 H.
  - cbn [command_keys app] in *. rewrite answered in H. injection H as <- <-. split; [|intros N; destruct N; split; reflexivity].
    intros _ a2 e2 H2. destruct (command_keys G pol L w id ks2 e) as [[o e3]| |] eqn:E; try discriminate. rewrite answered in *. injection H2 as <- <-. eexists. split; [reflexivity|]. destruct o; split; reflexivity.
  - cbn [command_keys app] in *. destruct (exec_lua G pol L w (str "keys") id (lu_key L id k) e) as [[[x|] e3]| |]; cbn [bind] in *; try discriminate.
    + split; [intro Gr; exfalso|intros _].
      * unfold do_core in H. destruct (on_core G pol L w _ e3) as [[r e4]| |]; try discriminate. cbn [bind] in H. rewrite answered in H. injection H as <- _. destruct Gr. discriminate.
      * destruct (do_core G pol L w _ e3) as [e4| |]; try discriminate. cbn [bind] in *. rewrite answered in *. injection H as <- <-. eexists. split; [reflexivity|]. split; reflexivity.
    + apply IH. exact H.
Qed.
(** ... and a failing one is reported. *)
Theorem C91_keys_failing : forall e w id line q ks a e', parse_request line = Some q -> asks dec_keys (str "keys") ks q -> handle w id line e = Ok (a, e') ->
  granted a \/ exists x, refused a (-32603) /\ because a x /\ told_error L e e' id (str "key handler: " ++ x).
Proof.
  intros e w id line q ks a e' P A H. rewrite (handle_keys G pol u se L w id line e q P _ A) in H.
  assert (forall e0, longer e e0 -> answer L (rq_id q) (command_keys G pol L w id ks e0) = Ok (a, e') -> granted a \/ exists x, refused a (-32603) /\ because a x /\ told_error L e e' id (str "key handler: " ++ x)) as K; [|apply (K e); [exists []; symmetry; apply app_nil_r|exact H]].
  clear H A. induction ks as [|k ks IH]; intros e0 O H; cbn [command_keys] in H.
  - rewrite answered in H. injection H as <- _. left. split; reflexivity.
  - destruct (exec_lua G pol L w (str "keys") id (lu_key L id k) e0) as [[[x|] e3]| |] eqn:E; cbn [bind] in H; try discriminate; apply exec_told in E; destruct E as [O1 _]; pose proof (longer_trans _ _ _ O O1) as O2.
    + destruct (do_core G pol L w _ e3) as [e4| |] eqn:D; try discriminate. cbn [bind] in H. rewrite answered in H. injection H as <- <-. right. exists x.
      split; [split; [reflexivity|eexists; split; reflexivity]|]. split; [eexists; split; reflexivity|]. change (str "key handler: " ++ x) with (str "key handler" ++ str ": " ++ x). exact (error_told _ _ _ _ _ _ _ O2 D).
    + exact (IH e3 O2 H).
Qed.
End Requests.
Print Assumptions C91_does.
Print Assumptions C91_fails.
Print Assumptions C91_view.
Print Assumptions C91_exec.
Print Assumptions C91_keys.
Print Assumptions C91_keys_failing.
