(** C37 and C53: what the editor answers. *)
From Coq Require Import String List Arith Lia ZArith Bool.
From Verif Require Import Base ListFacts PieceTable Coords Utf8 Utf8Facts Diff Selection Maps StackMap Fmt Buffer View Json Proto Core CoreSpec CoreInv CoreOps Payload Menu PropMenu Editor EditorSpec EditorFacts.
Import ListNotations.

Section Editor.
Variable G : Graphemes.
Variable pol : policy.
Variable u : regex_crate.
Variable se : serde.
Variable L : lua.
Notation editor := (editor L).
Notation ereach := (ereach G pol u se L).
Notation handle := (handle G pol u se L).

(** ** requests *)
Lemma asks_params {T} (dec : json -> option T) m p r : dec JNull = None -> asks dec m p r -> params_of dec (rq_params r) = Some (Some p).
Proof. intros N (_ & j & E & D). rewrite E. unfold params_of. destruct j; try (rewrite D; reflexivity). congruence. Qed.
Ltac method := repeat match goal with |- context[eqb (str ?a) (str ?b)] => let x := eval vm_compute in (eqb (str a) (str b)) in replace (eqb (str a) (str b)) with x by reflexivity; cbv iota end.
Ltac ask A := pose proof (asks_params _ _ _ _ eq_refl A) as ?P; unfold Editor.handle; match goal with H : parse_request _ = _ |- _ => rewrite H end; rewrite (proj1 A); method; unfold with_params; match goal with H : params_of _ _ = _ |- _ => rewrite H end; reflexivity.
Section Line.
Variables (w : world) (id : nat) (line : text) (e : editor) (r : request).
Hypothesis Hr : parse_request line = Some r.
Lemma handle_edit p : asks dec_edit (str "edit") p r -> handle w id line e = answer L (rq_id r) (command_edit G pol L w id p e).
Proof. intro A. ask A. Qed.
Lemma handle_view p : asks dec_str (str "view") p r -> handle w id line e = answer L (rq_id r) (command_view G pol L w id p e).
Proof. intro A. ask A. Qed.
Lemma handle_add p : asks dec_str (str "view-add") p r -> handle w id line e = answer L (rq_id r) (command_view_add G pol L w id p e).
Proof. intro A. ask A. Qed.
Lemma handle_remove p : asks dec_str (str "view-remove") p r -> handle w id line e = answer L (rq_id r) (command_view_remove G pol L w id p e).
Proof. intro A. ask A. Qed.
Lemma handle_menu p : asks dec_menu (str "menu") p r -> handle w id line e = answer L (rq_id r) (command_menu u L w id p e).
Proof. intro A. ask A. Qed.
Lemma handle_select p : asks dec_select (str "menu-select") p r -> handle w id line e = answer L (rq_id r) (command_menu_select G pol u L w id p e).
Proof. intro A. ask A. Qed.
Lemma handle_keys p : asks dec_keys (str "keys") p r -> handle w id line e = answer L (rq_id r) (command_keys G pol L w id p e).
Proof. intro A. ask A. Qed.
Lemma handle_exec p : asks dec_str (str "exec") p r -> handle w id line e = answer L (rq_id r) (command_exec G pol L w id p e).
Proof. intro A. ask A. Qed.
Lemma handle_quit : rq_method r = str "quit" -> handle w id line e = answer L (rq_id r) (command_quit G pol L w id e).
Proof. intro A. unfold Editor.handle. rewrite Hr, A. method. reflexivity. Qed.
Lemma handle_delete : rq_method r = str "view-delete" -> handle w id line e = answer L (rq_id r) (command_view_delete G pol L w id e).
Proof. intro A. unfold Editor.handle. rewrite Hr, A. method. reflexivity. Qed.
End Line.

(** ** C37 *)
Lemma answer_shape i x r e' : answer L i x = Ok (r, e') ->
  rp_version r = str "2.0" /\ rp_id r = i /\ (granted r \/ exists c, refused r c).
Proof.
  unfold answer. intro E. bnd E. destruct v as [[er|] e1]; injection E as <- _; cbn.
  - repeat split. right. exists (er_code er). split; cbn; eauto.
  - repeat split. now left.
Qed.
Lemma with_shape {T} (dec : json -> option T) q f e r e' : with_params se L dec q f e = Ok (r, e') ->
  rp_version r = str "2.0" /\ rp_id r = rq_id q /\ (granted r \/ exists c, refused r c).
Proof. apply answer_shape. Qed.
Lemma with_none {T} (dec : json -> option T) q f e : no_params q ->
  exists r, with_params se L dec q f e = Ok (r, e) /\ refused r (-32600).
Proof. intro N. unfold with_params. assert (params_of dec (rq_params q) = Some None) as -> by (destruct N as [->| ->]; reflexivity). eexists. split; [reflexivity|]. split; cbn; eauto. Qed.
Lemma with_bad {T} (dec : json -> option T) q f e j : rq_params q = Some j -> j <> JNull -> dec j = None ->
  exists r, with_params se L dec q f e = Ok (r, e) /\ refused r (-32602).
Proof. intros P N D. unfold with_params. assert (params_of dec (rq_params q) = None) as ->. { rewrite P. unfold params_of. rewrite D. destruct j; try reflexivity. congruence. } eexists. split; [reflexivity|]. split; cbn; eauto. Qed.
Ltac by_eq H := apply eqb_ok in H; rewrite ?H.
Lemma missing_params w id line e q : parse_request line = Some q -> no_params q -> (exists j b, takes (rq_method q) j = Some b) ->
  exists r, handle w id line e = Ok (r, e) /\ refused r (-32600).
Proof.
  intros P N (j & b & T). unfold takes in T. unfold Editor.handle. rewrite P.
  destruct (eqb (rq_method q) (str "edit")) eqn:Q1; [by_eq Q1; method; now apply with_none|].
  destruct (eqb (rq_method q) (str "menu")) eqn:Q2; [by_eq Q2; method; now apply with_none|].
  destruct (eqb (rq_method q) (str "menu-select")) eqn:Q3; [by_eq Q3; method; now apply with_none|].
  destruct (eqb (rq_method q) (str "keys")) eqn:Q4; [by_eq Q4; method; now apply with_none|].
  cbn [existsb] in T. destruct (eqb (rq_method q) (str "view")) eqn:Q5; [by_eq Q5; method; now apply with_none|].
  destruct (eqb (rq_method q) (str "view-add")) eqn:Q6; [by_eq Q6; method; now apply with_none|].
  destruct (eqb (rq_method q) (str "view-remove")) eqn:Q7; [by_eq Q7; method; now apply with_none|].
  destruct (eqb (rq_method q) (str "exec")) eqn:Q8; [by_eq Q8; method; now apply with_none|]. discriminate.
Qed.
Lemma bad_params w id line e q j : parse_request line = Some q -> rq_params q = Some j -> j <> JNull -> takes (rq_method q) j = Some false ->
  exists r, handle w id line e = Ok (r, e) /\ refused r (-32602).
Proof.
  intros P N J T. unfold takes in T. unfold Editor.handle. rewrite P.
  destruct (eqb (rq_method q) (str "edit")) eqn:Q1; [by_eq Q1; method; destruct (dec_edit j) eqn:D; [discriminate|now apply (with_bad _ _ _ _ j)]|].
  destruct (eqb (rq_method q) (str "menu")) eqn:Q2; [by_eq Q2; method; destruct (dec_menu j) eqn:D; [discriminate|now apply (with_bad _ _ _ _ j)]|].
  destruct (eqb (rq_method q) (str "menu-select")) eqn:Q3; [by_eq Q3; method; destruct (dec_select j) eqn:D; [discriminate|now apply (with_bad _ _ _ _ j)]|].
  destruct (eqb (rq_method q) (str "keys")) eqn:Q4; [by_eq Q4; method; destruct (dec_keys j) eqn:D; [discriminate|now apply (with_bad _ _ _ _ j)]|].
  cbn [existsb] in T. destruct (eqb (rq_method q) (str "view")) eqn:Q5; [by_eq Q5; method; destruct (dec_str j) eqn:D; [discriminate|now apply (with_bad _ _ _ _ j)]|].
  destruct (eqb (rq_method q) (str "view-add")) eqn:Q6; [by_eq Q6; method; destruct (dec_str j) eqn:D; [discriminate|now apply (with_bad _ _ _ _ j)]|].
  destruct (eqb (rq_method q) (str "view-remove")) eqn:Q7; [by_eq Q7; method; destruct (dec_str j) eqn:D; [discriminate|now apply (with_bad _ _ _ _ j)]|].
  destruct (eqb (rq_method q) (str "exec")) eqn:Q8; [by_eq Q8; method; destruct (dec_str j) eqn:D; [discriminate|now apply (with_bad _ _ _ _ j)]|]. discriminate.
Qed.
Lemma unknown_method w id line e q r e' : parse_request line = Some q -> ~ In (rq_method q) known_methods -> handle w id line e = Ok (r, e') ->
  refused r (-32601) /\ only_logged G L id e e'.
Proof.
  intros P N E. unfold Editor.handle in E. rewrite P in E.
  assert (forall s, In (str s) known_methods -> eqb (rq_method q) (str s) = false) as K by (intros s I; apply eqb_neq; intro X; apply N; now rewrite X).
  rewrite !K in E by (cbn; tauto). bnd E. injection E as <- <-. split; [split; cbn; eauto|].
  unfold do_core, on_core in E0. bnd E0. destruct v0 as [rr ee]. bnd E. destruct v0 as [r1 k1]. injection E as _ <-. injection E0 as <-. cbn [run_call] in E1. bnd E1. injection E1 as _ <-. eexists _, _. split; [exact E|reflexivity].
Qed.
(** Whatever line a client sends to an editor, whatever its scripts do: if the editor survives, there is one answer (the result
    of the call), which is a grant or a refusal, addressed to the request; lines that are no request, unknown methods, missing
    and ill-typed parameters are refused with their codes and nothing else happens.  Missing from the full property: the editor
    survives (see C37_refuted and C37_careful_partial). *)
Theorem C37_partial : forall e w id line r e', handle w id line e = Ok (r, e') ->
  rp_version r = str "2.0" /\ (granted r \/ exists c, refused r c) /\
  match parse_request line with
  | None => rp_id r = IdNull /\ refused r (-32600) /\ only_logged G L id e e'
  | Some q =>
      rp_id r = rq_id q /\
      (~ In (rq_method q) known_methods -> refused r (-32601) /\ only_logged G L id e e') /\
      (no_params q -> (exists j b, takes (rq_method q) j = Some b) -> refused r (-32600) /\ e' = e) /\
      (forall j, rq_params q = Some j -> j <> JNull -> takes (rq_method q) j = Some false -> refused r (-32602) /\ e' = e)
  end.
Proof.
  intros e w id line r e' E. destruct (parse_request line) as [q|] eqn:P.
  - assert (rp_version r = str "2.0" /\ rp_id r = rq_id q /\ (granted r \/ exists c, refused r c)) as (V & I & S).
    { pose proof E as E1. unfold Editor.handle in E1. rewrite P in E1.
      repeat match type of E1 with (if ?b then _ else _) = _ => destruct b end; try (eapply with_shape; exact E1); try (eapply answer_shape; exact E1).
      bnd E1. injection E1 as <- _. repeat split. right. exists (-32601)%Z. split; cbn; eauto. }
    split; auto. split; auto. split; auto. split; [intro N; eapply unknown_method; eauto|]. split.
    + intros N T. destruct (missing_params w id line e q P N T) as (r1 & E1 & F). rewrite E in E1. injection E1 as -> ->. auto.
    + intros j J N T. destruct (bad_params w id line e q j P J N T) as (r1 & E1 & F). rewrite E in E1. injection E1 as -> ->. auto.
  - unfold Editor.handle in E. rewrite P in E. bnd E. injection E as <- <-. cbn. split; auto.
    assert (refused (mkResp (str "2.0") IdNull None (Some (invalid_request line))) (-32600)) as F by (split; cbn; eauto).
    split; [right; eauto|]. split; auto. split; auto.
    unfold do_core, on_core in E0. bnd E0. destruct v0 as [rr ee]. bnd E. destruct v0 as [r1 k1]. injection E as _ <-. injection E0 as <-. cbn [run_call] in E1. bnd E1. injection E1 as _ <-. eexists _, _. split; [exact E|reflexivity].
Qed.
(** Refusals for the parameters never fail: the answer is always sent. *)
Theorem C37_refusals : forall e w id line q, parse_request line = Some q ->
  (no_params q /\ (exists j b, takes (rq_method q) j = Some b)) \/ (exists j, rq_params q = Some j /\ j <> JNull /\ takes (rq_method q) j = Some false) ->
  exists r, handle w id line e = Ok (r, e).
Proof.
  intros e w id line q P [(N & T)|(j & J & N & T)]; [destruct (missing_params w id line e q P N T) as (r & E & _)|destruct (bad_params w id line e q j P J N T) as (r & E & _)]; eauto.
Qed.
(** In every state, a client can send a line that gets no answer: the editor crashes. *)
Definition killer : text := str "{""jsonrpc"":""2.0"",""id"":1,""method"":""menu"",""params"":{""command"":"""",""search"":""(""}}".
Theorem C37_refuted : forall e w id, ereach e -> handle w id killer e = Panic "called Result::unwrap on Err".
Proof.
  intros e w id R. apply ereach_inv in R. destruct (parse_request killer) as [q|] eqn:P; [|vm_compute in P; discriminate].
  assert (asks dec_menu (str "menu") (mkMenuP [] (str "(")) q) as A. { assert (option_map rq_method (parse_request killer) = Some (str "menu")) as M by (vm_compute; reflexivity). rewrite P in M. injection M as M. split; auto.
    assert (match parse_request killer with Some q => match rq_params q with Some j => dec_menu j | None => None end | None => None end = Some (mkMenuP [] (str "("))) as D by (vm_compute; reflexivity). rewrite P in D. destruct (rq_params q); [eauto|discriminate]. }
  rewrite (handle_menu _ _ _ _ _ P _ A). unfold command_menu. cbn [mp_command mp_search].
  destruct (get (ed_menus L e) []) as [m|] eqn:Q. 2:{ apply (none_forall2 _ _ _ _ (ei_menus _ _ _ _ R)) in Q. discriminate. }
  destruct (get_forall2 _ _ _ _ _ (ei_menus _ _ _ _ R) Q) as (m0 & E0 & M). injection E0 as <-.
  assert (is_prompt m = false) as N by (destruct M as [->|(w' & k' & ->)]; reflexivity).
  unfold show_menu. replace (eqb (str "(") []) with false by reflexivity. cbv iota. rewrite C52_refuted by exact N. reflexivity.
Qed.
(** ** C53 *)
Lemma find_key l choice i : In i l -> it_key i = choice -> exists j, find (fun i => eqb (it_key i) choice) l = Some j /\ In j l /\ it_key j = choice.
Proof.
  intros H K. destruct (find (fun i => eqb (it_key i) choice) l) as [j|] eqn:F.
  - exists j. split; auto. apply find_some in F. destruct F as [F Q]. split; auto. now apply eqb_ok.
  - exfalso. pose proof (find_none _ _ F _ H) as Q. cbn beta in Q. rewrite K, eqb_refl in Q. discriminate.
Qed.
(** the action an entry of a menu has *)
Lemma select_shown e w id cmd choice : ereach e -> shown (ed_out L e) cmd choice ->
  exists a, command_menu_select G pol u L w id (mkSelP cmd choice) e = run_action G pol u L w a choice id e /\
    In (cmd, a) [(str "open", AOpen); (str "scratch", AScratch); (str "view_select", AViewSelect); (str "view_add", AViewAdd); (str "view_remove", AViewRemove); (str "exec", AExec);
                 ([], match find (fun i => eqb (it_key i) choice) command_entries with Some i => it_action i | None => AOpen end)] /\
    (cmd = [] -> In choice (map it_key command_entries)).
Proof.
  intros R (mi & Lm & Sh). apply ereach_inv in R. destruct (ei_shown _ _ _ _ R _ _ Lm) as (m & Hm & F).
  destruct (get_forall2 _ _ _ _ _ (ei_menus _ _ _ _ R) Hm) as (m0 & H0 & K).
  assert (exists i, In i (mn_entries m) /\ (In cmd prompts \/ it_key i = choice)) as (i & Hi & Hk).
  { rewrite Forall_forall in F. destruct Sh as [(P & N)|(x & Hx & <-)].
    - destruct (me_entries mi) as [|x l]; [congruence|]. destruct (F x) as (i & Hi & _); [now left|]. eauto.
    - destruct (F x Hx) as (i & Hi & E). eauto. }
  assert (exists w' k', m = populate w' k' m0) as (w' & k' & ->).
  { destruct K as [->|K]; auto. exfalso. clear - H0 Hi. unfold default_commands, provider_menu, prompt_menu in H0. cbn [get] in H0.
    repeat match type of H0 with (if ?b then _ else _) = _ => destruct b; [injection H0 as <-; exact Hi|] end. discriminate. }
  assert (~ In cmd prompts -> menu_get (populate w' k' m0) choice <> None) as NP.
  { intros NP. destruct Hk as [Hk|Hk]; [contradiction|]. unfold menu_get. destruct (find_key _ _ _ Hi Hk) as (j & -> & _). discriminate. }
  unfold command_menu_select. cbn [sp_command sp_choice]. rewrite Hm. cbv zeta. clear Hm F Lm Sh K.
  apply get_in in H0.
  assert (forall p a c t, m0 = mkMenuM c t (Provider p) [] -> ~ In cmd prompts -> (forall j, In j (provide p w' k') -> it_action j = a) ->
    match (match menu_get (populate w' k' m0) choice with None => if is_prompt (populate w' k' m0) then menu_get (populate w' k' m0) [] else None | Some _ => menu_get (populate w' k' m0) choice end) with
    | None => Ok (Some (invalid_params (str "unknown choice: " ++ choice)), e)
    | Some i0 => run_action G pol u L w (it_action i0) choice id e end = run_action G pol u L w a choice id e) as PR.
  { intros p a c t -> N A. specialize (NP N). destruct (menu_get (populate w' k' (mkMenuM c t (Provider p) [])) choice) as [j|] eqn:M; [|congruence]. rewrite (A j); auto. unfold menu_get in M. apply find_some in M. apply M. }
  assert (forall x a c t, m0 = mkMenuM c t (Prompt x a) [] ->
    match (match menu_get (populate w' k' m0) choice with None => if is_prompt (populate w' k' m0) then menu_get (populate w' k' m0) [] else None | Some _ => menu_get (populate w' k' m0) choice end) with
    | None => Ok (Some (invalid_params (str "unknown choice: " ++ choice)), e)
    | Some i0 => run_action G pol u L w (it_action i0) choice id e end = run_action G pol u L w a choice id e) as PP.
  { intros x a c t ->. unfold menu_get. cbn [mn_entries populate mn_source find it_key is_prompt]. destruct (eqb [] choice); reflexivity. }
  assert (forall l a j, In j (map (plain_item a) l) -> it_action j = a) as PI. { intros l a j Hj. apply in_map_iff in Hj. now destruct Hj as (? & <- & _). }
  destruct H0 as [X|[X|[X|[X|[X|[X|[X|[]]]]]]]]; injection X as X1 X2; subst cmd.
  - subst m0. destruct Hk as [[X|[X|[]]]|Hk]; [discriminate..|]. cbn [populate mn_entries mn_source provide] in Hi.
    destruct (find_key _ _ _ Hi Hk) as (j & Ej & Hj & Hc). unfold menu_get. cbn [populate mn_entries mn_source provide]. rewrite Ej. exists (it_action j). split; auto. split; [cbn; tauto|]. intros _. rewrite <- Hc. now apply in_map.
  - exists AOpen. split; [|split; [cbn; tauto|discriminate]]. eapply PR; [symmetry; exact X2|cbn; intros [X|[X|[]]]; discriminate|]. intros j Hj. exact (PI _ _ _ Hj).
  - exists AScratch. split; [|split; [cbn; tauto|discriminate]]. eapply PP. symmetry; exact X2.
  - exists AViewSelect. split; [|split; [cbn; tauto|discriminate]]. eapply PR; [symmetry; exact X2|cbn; intros [X|[X|[]]]; discriminate|]. intros j Hj. exact (PI _ _ _ Hj).
  - exists AViewAdd. split; [|split; [cbn; tauto|discriminate]]. eapply PR; [symmetry; exact X2|cbn; intros [X|[X|[]]]; discriminate|]. intros j Hj. exact (PI _ _ _ Hj).
  - exists AViewRemove. split; [|split; [cbn; tauto|discriminate]]. eapply PR; [symmetry; exact X2|cbn; intros [X|[X|[]]]; discriminate|]. intros j Hj. exact (PI _ _ _ Hj).
  - exists AExec. split; [|split; [cbn; tauto|discriminate]]. eapply PP. symmetry; exact X2.
Qed.
Lemma sub_same e w id c : ereach e -> In c submenus -> submenu_action u L w id c e = command_menu u L w id (mkMenuP c []) e.
Proof.
  intros R I. apply ereach_inv in R. unfold submenu_action, command_menu. cbn [mp_command mp_search]. destruct (get (ed_menus L e) c) as [m|] eqn:Q; [reflexivity|].
  exfalso. apply (none_forall2 _ _ _ _ (ei_menus _ _ _ _ R)) in Q. cbn in I. destruct I as [<-|[<-|[<-|[<-|[<-|[<-|[]]]]]]]; vm_compute in Q; discriminate.
Qed.
(** A choice that was shown in the last menu of that name, or any text when a prompt was shown: selecting it is the same as the
    request it stands for - same answer, same effects, whatever happens.  Missing from the full property: prompts that were not
    shown yet refuse everything (C53_refuted). *)
Theorem C53_partial : forall e w id line line' q q' cmd choice,
  ereach e -> shown (ed_out L e) cmd choice ->
  parse_request line = Some q -> asks dec_select (str "menu-select") (mkSelP cmd choice) q ->
  parse_request line' = Some q' -> stands_for cmd choice q' -> rq_id q = rq_id q' ->
  handle w id line e = handle w id line' e.
Proof.
  intros e w id line line' q q' cmd choice R Sh P A P' S I. rewrite (handle_select _ _ _ _ _ P _ A), I. destruct (select_shown e w id cmd choice R Sh) as (a & -> & T & C). cbn [In] in T.
  inversion S as [c r Q E1 E2 E3|c r Q E1 E2 E3|c r Q E1 E2 E3|c r Q E1 E2 E3|c r Q E1 E2 E3|c r Q E1 E2 E3|r Q E1 E2 E3|r Q E1 E2 E3|c r M Q E1 E2 E3]; subst;
    destruct T as [X|[X|[X|[X|[X|[X|[X|[]]]]]]]]; try discriminate X; injection X as <-; cbn [run_action].
  - now rewrite (handle_edit _ _ _ _ _ P' _ Q).
  - now rewrite (handle_edit _ _ _ _ _ P' _ Q).
  - now rewrite (handle_view _ _ _ _ _ P' _ Q).
  - now rewrite (handle_add _ _ _ _ _ P' _ Q).
  - now rewrite (handle_remove _ _ _ _ _ P' _ Q).
  - now rewrite (handle_exec _ _ _ _ _ P' _ Q).
  - now rewrite (handle_quit _ _ _ _ _ P' Q).
  - now rewrite (handle_delete _ _ _ _ _ P' Q).
  - rewrite (handle_menu _ _ _ _ _ P' _ Q), <- (sub_same e w id choice R M). cbn in M. destruct M as [<-|[<-|[<-|[<-|[<-|[<-|[]]]]]]]; reflexivity.
Qed.
(** Everything shown stands for something. *)
Theorem C53_meaning : forall e cmd choice, ereach e -> shown (ed_out L e) cmd choice -> exists q, stands_for cmd choice q.
Proof.
  intros e cmd choice R Sh. assert (world) as w by (split; [exact (mkDisk (fun _ => None) (fun _ => None) 0)|exact (fun _ => [])]). destruct (select_shown e w 0 cmd choice R Sh) as (a & _ & T & C). cbn [In] in T.
  destruct T as [X|[X|[X|[X|[X|[X|[X|[]]]]]]]]; injection X as <- _.
  - exists (mkReq [] IdNull (str "edit") (Some (enc_edit (mkEdit choice false)))). constructor. split; auto. eexists. split; reflexivity.
  - exists (mkReq [] IdNull (str "edit") (Some (enc_edit (mkEdit choice true)))). constructor. split; auto. eexists. split; reflexivity.
  - exists (mkReq [] IdNull (str "view") (Some (JStr choice))). constructor. split; auto. eexists. split; reflexivity.
  - exists (mkReq [] IdNull (str "view-add") (Some (JStr choice))). constructor. split; auto. eexists. split; reflexivity.
  - exists (mkReq [] IdNull (str "view-remove") (Some (JStr choice))). constructor. split; auto. eexists. split; reflexivity.
  - exists (mkReq [] IdNull (str "exec") (Some (JStr choice))). constructor. split; auto. eexists. split; reflexivity.
  - specialize (C eq_refl). assert (In choice submenus -> exists q, stands_for [] choice q) as H. { intro I. exists (mkReq [] IdNull (str "menu") (Some (enc_menu (mkMenuP choice [])))). apply sf_sub; auto. split; auto. eexists. split; reflexivity. }
    cbn in C. destruct C as [<-|[<-|[<-|[<-|[<-|[<-|[<-|[<-|[]]]]]]]]]; try (apply H; cbn; tauto).
    + exists (mkReq [] IdNull (str "quit") None). now constructor.
    + exists (mkReq [] IdNull (str "view-delete") None). now constructor.
Qed.
(** Anything else is refused and nothing happens: a menu that does not exist, a choice the menu does not have. *)
Theorem C53_refused : forall e w id line q cmd choice,
  parse_request line = Some q -> asks dec_select (str "menu-select") (mkSelP cmd choice) q ->
  ereach e -> ~ In choice (values L e cmd) -> ~ In cmd prompts \/ values L e cmd = [] ->
  exists r, handle w id line e = Ok (r, e) /\ rp_id r = rq_id q /\ refused r (-32602).
Proof.
  intros e w id line q cmd choice P A R NI NP. rewrite (handle_select _ _ _ _ _ P _ A). unfold command_menu_select, values in *. cbn [sp_command sp_choice]. apply ereach_inv in R.
  destruct (get (ed_menus L e) cmd) as [m|] eqn:Q. 2:{ cbn. eexists. repeat split; cbn; eauto. }
  assert (menu_get m choice = None) as ->. { unfold menu_get. destruct (find _ _) as [i|] eqn:F; auto. apply find_some in F. destruct F as [F K]. apply eqb_ok in K. exfalso. apply NI. rewrite <- K. now apply in_map. }
  cbv zeta. assert ((if is_prompt m then menu_get m [] else None) = None) as ->.
  { destruct NP as [NP|NP]; [|destruct (mn_entries m) eqn:Em; [|discriminate]; unfold menu_get; rewrite Em; now destruct (is_prompt m)].
    destruct (get_forall2 _ _ _ _ _ (ei_menus _ _ _ _ R) Q) as (m0 & H0 & K). assert (is_prompt m = is_prompt m0) as -> by (destruct K as [->|(w' & k' & ->)]; reflexivity).
    apply get_in in H0. destruct H0 as [X|[X|[X|[X|[X|[X|[X|[]]]]]]]]; injection X as <- <-; auto; exfalso; apply NP; cbn; tauto. }
  cbn. eexists. repeat split; cbn; eauto.
Qed.
Lemma lua_call_menus w c e r e' : lua_call G pol L w c e = Ok (r, e') -> ed_menus L e' = ed_menus L e.
Proof. intro E. destruct c; cbn [lua_call] in E; try (unfold on_core in E; bnd E; destruct v); injection E as _ <-; reflexivity. Qed.
Lemma script_menus w t : forall e r e', run_script G pol L w t e = Ok (r, e') -> ed_menus L e' = ed_menus L e.
Proof. induction t as [s|x s|c k IH]; intros e r e' E; cbn [run_script] in E; [injection E as _ <-; reflexivity..|]. bnd E. destruct v. apply lua_call_menus in E0. apply IH in E. congruence. Qed.
(** In an editor that just started, no menu accepts anything, although the prompts take any text. *)
Theorem C53_refuted : forall w0 session cwd args s scripts e, editor_new G pol L w0 session cwd args s scripts = Ok e ->
  forall w id line q cmd choice, parse_request line = Some q -> asks dec_select (str "menu-select") (mkSelP cmd choice) q ->
  exists r, handle w id line e = Ok (r, e) /\ refused r (-32602).
Proof.
  intros w0 session cwd args s scripts e E w id line q cmd choice P A. assert (ed_menus L e = default_commands) as M.
  { unfold editor_new in E. bnd E. bnd E. destruct v0 as [r e1]. destruct r; [discriminate|]. injection E as <-. now apply script_menus in E1. }
  assert (values L e cmd = []) as V. { unfold values. rewrite M. destruct (get default_commands cmd) as [m|] eqn:Q; auto. apply get_in in Q. destruct Q as [X|[X|[X|[X|[X|[X|[X|[]]]]]]]]; injection X as _ <-; reflexivity. }
  destruct (C53_refused e w id line q cmd choice P A) as (r & H & _ & F); eauto; [eapply er_new; eauto|rewrite V; auto].
Qed.
End Editor.
Print Assumptions C53_partial.
Print Assumptions C53_meaning.
Print Assumptions C53_refused.
Print Assumptions C53_refuted.
Print Assumptions C37_partial.
Print Assumptions C37_refusals.
Print Assumptions C37_refuted.
