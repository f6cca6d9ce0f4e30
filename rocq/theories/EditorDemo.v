(** A running editor, for the hypotheses of C37 and C53: a client joins, opens menus, sends good and bad lines, and leaves. *)
From Coq Require Import String List Arith Lia ZArith Bool.
From Verif Require Import Base ListFacts PieceTable PieceTableSpec PieceTableFacts HistoryFacts History Coords Utf8 Utf8Spec Utf8Facts GraphemeInst Diff Selection NavSpec Maps StackMap Fmt Chars Buffer View Json Proto Keys Core CoreSpec CoreInv CoreOps CoreTame CoreSafe CoreSafeMore PropCore PropSafe Payload Menu MenuSpec MenuFacts PropMenu Editor EditorSpec EditorFacts PropEditor EditorTame PropEditorSafe.
Import ListNotations.

(** scripts that fail, notify, or do nothing *)
Definition demo_lua : lua := {|
  lu_state := nat;
  lu_exec := fun src n => if eqb src (str "boom") then SFail (str "no such function") n else if eqb src (str "editor:add_client(1)") then SCall (LStatus 1 [(1%Z, str "normal")]) (fun _ => SDone (S n)) else SDone n;
  lu_key := fun id k n => SCall (LHint id [str "key"]) (fun _ => SDone n) |}.
Definition demo_serde : serde := {| se_line := fun _ => str "expected value at line 1 column 1"; se_params := fun _ _ => str "invalid type" |}.
Definition demo_world : world := {| w_disk := no_disk; w_walk := fun _ => [str "src/main.rs"; str "README.md"] |}.
Notation demo_handle := (handle utf8_graphemes pol_wrap ascii_crate demo_serde demo_lua demo_world).
Notation demo_reach := (careful_reach utf8_graphemes pol_wrap ascii_crate demo_serde demo_lua).
Definition quoted (m c x : string) : text :=
  str "{""jsonrpc"":""2.0"",""id"":7,""method"":""" ++ str m ++ str """,""params"":{""command"":""" ++ str c ++ str """," ++ str x ++ str "}}".
Definition open_commands : text := quoted "menu" "" """search"":""""".
Definition open_prompt : text := quoted "menu-select" "" """choice"":""scratch""".
Definition choose_notes : text := quoted "menu-select" "scratch" """choice"":""notes""".
Definition edit_notes : text := str "{""jsonrpc"":""2.0"",""id"":7,""method"":""edit"",""params"":{""name"":""notes"",""scratch"":true}}".
Definition bad_exec : text := str "{""jsonrpc"":""2.0"",""id"":7,""method"":""exec"",""params"":""boom""}".
Definition no_request : text := str "hello".
Definition demo_events : list event :=
  [Ejoin 1; Eline 1 no_request; Eline 1 bad_exec; Eline 1 open_commands; Eline 1 open_prompt].
Fixpoint all_happen (vs : list event) (e : editor demo_lua) : res (editor demo_lua) :=
  match vs with
  | [] => Ok e
  | v :: r => e <- happens utf8_graphemes pol_wrap ascii_crate demo_serde demo_lua demo_world v e ;; all_happen r e
  end.
Definition demo_editor (vs : list event) : res (editor demo_lua) :=
  e <- editor_new utf8_graphemes pol_wrap demo_lua demo_world (str "demo") (str "/w") (str "ced") 0 (SDone 0) ;; all_happen vs e.

Lemma ok_such {A} (x : res A) (f : A -> bool) : (match x with Ok a => f a | _ => false end) = true -> exists a, x = Ok a /\ f a = true.
Proof. destruct x; [eauto|discriminate..]. Qed.
Lemma pol_wrap_fine : policy_wrap pol_wrap \/ policy_succ pol_wrap.
Proof. left. apply pol_wrap_ok. Qed.

Ltac nine := refine (conj _ (conj _ (conj _ (conj _ (conj _ (conj _ (conj _ (conj _ _)))))))).
Ltac other_methods M := let H := fresh in try (intros ? (H & _); rewrite M in H; discriminate); try (intro H; exfalso; apply H; rewrite M; cbn; tauto); try (intro H; rewrite M in H; discriminate).
Lemma scripts_careful w src n e : careful_script utf8_graphemes pol_wrap demo_lua w (lu_exec demo_lua src n) e.
Proof.
  cbn [lu_exec demo_lua]. destruct (eqb src (str "boom")); [apply plain_str; reflexivity|]. destruct (eqb src (str "editor:add_client(1)")); cbn [careful_script]; auto. split; [discriminate|auto].
Qed.
Lemma execs_careful w id src e : careful_exec utf8_graphemes pol_wrap demo_lua w id (lu_exec demo_lua src) e.
Proof. split; intros; apply scripts_careful. Qed.
Lemma valid_ascii x : forallb (fun b => b <? 128) x = true -> valid x.
Proof. intro H. rewrite forallb_forall in H. exists (map (fun b => [b]) x). split; [|induction x; cbn; f_equal; apply IHx; intros; apply H; now right]. apply Forall_map, Forall_forall. intros b B. apply H in B. apply Nat.ltb_lt in B. cbn. lia. Qed.
Lemma commands_small : Forall small command_entries.
Proof. repeat (apply Forall_cons; [split; [apply valid_ascii; vm_compute; reflexivity|vm_compute; reflexivity]|]). constructor. Qed.
(** the command menu can always be opened *)
Lemma commands_careful e w id q : ereach utf8_graphemes pol_wrap ascii_crate demo_serde demo_lua e -> asks dec_menu (str "menu") (mkMenuP [] []) q ->
  careful_request utf8_graphemes pol_wrap ascii_crate demo_lua w id q e.
Proof.
  intros R A. destruct A as [M A]. nine; other_methods M.
  intros p (_ & j & J & D). destruct A as (j' & J' & D'). rewrite J in J'. injection J' as <-. rewrite D in D'. injection D' as ->. intros m Hm Pm. cbn [mp_search mp_command] in *.
  split; [split; [apply valid_nil|constructor]|]. split; [reflexivity|]. apply ereach_inv in R. destruct (get_forall2 _ _ _ _ _ (ei_menus _ _ _ _ R) Hm) as (m0 & H0 & K). injection H0 as <-. destruct K as [->|(w' & k' & ->)]; exact commands_small.
Qed.
Lemma prompt_careful e w id q : ereach utf8_graphemes pol_wrap ascii_crate demo_serde demo_lua e -> asks dec_menu (str "menu") (mkMenuP (str "scratch") []) q ->
  careful_request utf8_graphemes pol_wrap ascii_crate demo_lua w id q e.
Proof.
  intros R A. destruct A as [M A]. nine; other_methods M.
  intros p (_ & j & J & D). destruct A as (j' & J' & D'). rewrite J in J'. injection J' as <-. rewrite D in D'. injection D' as ->. intros m Hm Pm. exfalso. cbn [mp_search mp_command] in *.
  apply ereach_inv in R. destruct (get_forall2 _ _ _ _ _ (ei_menus _ _ _ _ R) Hm) as (m0 & H0 & K). vm_compute in H0. injection H0 as <-. destruct K as [->|(w' & k' & ->)]; discriminate Pm.
Qed.
(** decides [asks] for a line *)
Lemma asked {T} (dec : json -> option T) line m p : match parse_request line with Some q => eqb (rq_method q) (str m) && match rq_params q with Some j => match dec j with Some x => true | None => false end | None => false end | None => false end = true ->
  match parse_request line with Some q => match rq_params q with Some j => dec j | None => None end | None => None end = Some p ->
  exists q, parse_request line = Some q /\ asks dec (str m) p q.
Proof.
  destruct (parse_request line) as [q|]; [|discriminate]. intros H D. apply andb_prop in H. destruct H as [H _]. apply eqb_ok in H. exists q. split; auto. split; auto. destruct (rq_params q) as [j|]; [eauto|discriminate].
Qed.
Definition shown_b (o : list esent) (cmd choice : text) : bool :=
  match last_menu o cmd with Some m => (existsb (eqb cmd) prompts && match me_entries m with [] => false | _ => true end) || existsb (fun e => eqb (en_value e) choice) (me_entries m) | None => false end.
Lemma shown_b_ok o cmd choice : shown_b o cmd choice = true -> shown o cmd choice.
Proof.
  unfold shown_b, shown. destruct (last_menu o cmd) as [m|]; [|discriminate]. intro H. exists m. split; auto. apply orb_prop in H. destruct H as [H|H].
  - left. apply andb_prop in H. destruct H as [H1 H2]. split; [apply existsb_exists in H1; destruct H1 as (x & Hx & E); apply eqb_ok in E; now subst|destruct (me_entries m); [discriminate|congruence]].
  - right. apply existsb_exists in H. destruct H as (x & Hx & E). apply eqb_ok in E. eauto.
Qed.
Lemma step_demo vs v e e' : demo_editor vs = Ok e -> demo_reach e -> careful utf8_graphemes pol_wrap ascii_crate demo_serde demo_lua demo_world v e -> happens utf8_graphemes pol_wrap ascii_crate demo_serde demo_lua demo_world v e = Ok e' -> demo_reach e'.
Proof. intros _ R C H. eapply cr_event; eauto. Qed.

(** The careful session goes on as C37_careful_partial says; in its last state a prompt is shown, so that C53_partial applies:
    choosing a name there and asking to edit it are one. *)
Example C53_demo : exists e,
  demo_editor demo_events = Ok e /\ demo_reach e /\ shown (ed_out _ e) (str "scratch") (str "notes") /\ ~ In (str "notes") (values _ e (str "open")) /\
  demo_handle 1 choose_notes e = demo_handle 1 edit_notes e /\
  exists r e', demo_handle 1 choose_notes e = Ok (r, e') /\ granted r /\ rp_id r = IdNum 7 /\ open (ed_core _ e') (str "notes").
Proof.
  assert (exists e0, editor_new utf8_graphemes pol_wrap demo_lua demo_world (str "demo") (str "/w") (str "ced") 0 (SDone 0) = Ok e0 /\ demo_reach e0) as (e0 & E0 & R0).
  { apply C37_starts_partial; [apply pol_wrap_fine|apply plain_str; reflexivity..| |]. - intros k _. exact Logic.I. - intros e r e' H. injection H as <- _. reflexivity. }
  (* one client joins *)
  assert (careful utf8_graphemes pol_wrap ascii_crate demo_serde demo_lua demo_world (Ejoin 1) e0) as C1.
  { split; [|intros; apply execs_careful]. right. exists (str "*debug*{*}|*scratch*{*}"). intros key H.
    assert ((match editor_new utf8_graphemes pol_wrap demo_lua demo_world (str "demo") (str "/w") (str "ced") 0 (SDone 0) with Ok e => keys (vmap (ed_core _ e)) | _ => [] end) = [str "*debug*{*}|*scratch*{*}"]) as K by (vm_compute; reflexivity).
    rewrite E0 in K. unfold listed in H. rewrite K in H. destruct H as [<-|[]]. reflexivity. }
  destruct (C37_careful_partial _ _ _ _ _ pol_wrap_fine _ _ _ R0 C1) as (e1 & E1 & R1).
  (* a line that is no request *)
  assert (careful utf8_graphemes pol_wrap ascii_crate demo_serde demo_lua demo_world (Eline 1 no_request) e1) as C2.
  { cbn [careful]. unfold careful_line. replace (parse_request no_request) with (@None request) by (vm_compute; reflexivity). split; apply plain_str; reflexivity. }
  destruct (C37_careful_partial _ _ _ _ _ pol_wrap_fine _ _ _ R1 C2) as (e2 & E2 & R2).
  (* a script that fails *)
  assert (careful utf8_graphemes pol_wrap ascii_crate demo_serde demo_lua demo_world (Eline 1 bad_exec) e2) as C3.
  { cbn [careful]. destruct (asked dec_str bad_exec "exec" (str "boom")) as (q & P & M & A); [vm_compute; reflexivity..|]. unfold careful_line. rewrite P. split; [|intros ? ? (M' & _); rewrite M in M'; discriminate].
    nine; other_methods M. intros; apply execs_careful. }
  destruct (C37_careful_partial _ _ _ _ _ pol_wrap_fine _ _ _ R2 C3) as (e3 & E3 & R3).
  (* the command menu *)
  assert (careful utf8_graphemes pol_wrap ascii_crate demo_serde demo_lua demo_world (Eline 1 open_commands) e3) as C4.
  { cbn [careful]. destruct (asked dec_menu open_commands "menu" (mkMenuP [] [])) as (q & P & A); [vm_compute; reflexivity..|]. unfold careful_line. rewrite P. split; [|intros ? ? (M' & _); rewrite (proj1 A) in M'; discriminate].
    apply commands_careful; auto. eapply careful_inv; [apply pol_wrap_fine|exact R3]. }
  destruct (C37_careful_partial _ _ _ _ _ pol_wrap_fine _ _ _ R3 C4) as (e4 & E4 & R4).
  assert (demo_editor (firstn 4 demo_events) = Ok e4) as D4.
  { unfold demo_editor. rewrite E0. cbn [bind demo_events firstn all_happen]. rewrite E1. cbn [bind]. rewrite E2. cbn [bind]. rewrite E3. cbn [bind]. rewrite E4. reflexivity. }
  (* the prompt *)
  assert (careful utf8_graphemes pol_wrap ascii_crate demo_serde demo_lua demo_world (Eline 1 open_prompt) e4) as C5.
  { cbn [careful]. destruct (asked dec_select open_prompt "menu-select" (mkSelP [] (str "scratch"))) as (q & P & A); [vm_compute; reflexivity..|]. unfold careful_line. rewrite P. destruct A as [M A]. split.
    - nine; other_methods M.
    - intros cmd choice (_ & j & J & D). destruct A as (j' & J' & D'). rewrite J in J'. injection J' as <-. rewrite D in D'. injection D' as -> ->. left. split.
      + apply shown_b_ok. assert ((match demo_editor (firstn 4 demo_events) with Ok e => shown_b (ed_out _ e) [] (str "scratch") | _ => false end) = true) as K by (vm_compute; reflexivity). rewrite D4 in K. exact K.
      + exists (mkReq [] IdNull (str "menu") (Some (enc_menu (mkMenuP (str "scratch") [])))). assert (asks dec_menu (str "menu") (mkMenuP (str "scratch") []) (mkReq [] IdNull (str "menu") (Some (enc_menu (mkMenuP (str "scratch") []))))) as B by (split; auto; eexists; split; reflexivity).
        split; [apply sf_sub; [cbn; tauto|exact B]|]. apply prompt_careful; auto. eapply careful_inv; [apply pol_wrap_fine|exact R4]. }
  destruct (C37_careful_partial _ _ _ _ _ pol_wrap_fine _ _ _ R4 C5) as (e5 & E5 & R5).
  assert (demo_editor demo_events = Ok e5) as D5.
  { unfold demo_editor. rewrite E0. cbn [bind demo_events all_happen]. rewrite E1. cbn [bind]. rewrite E2. cbn [bind]. rewrite E3. cbn [bind]. rewrite E4. cbn [bind]. rewrite E5. reflexivity. }
  exists e5. split; [exact D5|]. split; [exact R5|].
  assert (shown (ed_out _ e5) (str "scratch") (str "notes")) as Sh. { apply shown_b_ok. assert ((match demo_editor demo_events with Ok e => shown_b (ed_out _ e) (str "scratch") (str "notes") | _ => false end) = true) as K by (vm_compute; reflexivity). rewrite D5 in K. exact K. }
  split; [exact Sh|]. split.
  { assert ((match demo_editor demo_events with Ok e => values _ e (str "open") | _ => [[]] end) = []) as K by (vm_compute; reflexivity). rewrite D5 in K. rewrite K. intros []. }
  split.
  { destruct (asked dec_select choose_notes "menu-select" (mkSelP (str "scratch") (str "notes"))) as (q & P & A); [vm_compute; reflexivity..|]. destruct (asked dec_edit edit_notes "edit" (mkEdit (str "notes") true)) as (q' & P' & A'); [vm_compute; reflexivity..|].
    assert (option_map rq_id (parse_request choose_notes) = option_map rq_id (parse_request edit_notes)) as I by (vm_compute; reflexivity). rewrite P, P' in I. injection I as I.
    exact (C53_partial _ _ _ _ _ e5 demo_world 1 _ _ q q' _ _ (proj2 (careful_inv _ _ _ _ _ pol_wrap_fine _ R5)) Sh P A P' (sf_scratch _ _ A') I). }
  destruct (ok_such (e <- demo_editor demo_events ;; demo_handle 1 choose_notes e)
    (fun x => match rp_result (fst x), rp_error (fst x), rp_id (fst x) with Some JNull, None, IdNum z => Z.eqb z 7 | _, _, _ => false end && has (k_buffers (ed_core _ (snd x))) (str "notes"))) as ([r e'] & H & K); [vm_compute; reflexivity|].
  rewrite D5 in H. cbn [bind] in H. exists r, e'. split; [exact H|]. clear - K. cbn [fst snd] in K. apply andb_prop in K. destruct K as [K1 K2]. unfold granted.
  destruct (rp_result r) as [[]|]; try discriminate. destruct (rp_error r); [discriminate|]. destruct (rp_id r); try discriminate. apply Z.eqb_eq in K1. subst z. split; [split; reflexivity|]. split; [reflexivity|]. now apply open_b.
Qed.
Print Assumptions C53_demo.
