(** C68: what the keys of a client do, in every history of an editor that runs the scripts of the program. *)
From Coq Require Import String List Arith Lia ZArith Bool Permutation.
From Verif Require Import Base ListFacts PieceTable Coords Utf8 Utf8Facts Diff Selection Maps StackMap Fmt Buffer View Json Proto Keys HistoryFacts GraphemeInst History PieceTableFacts PieceTableSpec Core CoreSpec CoreInv CoreOps CoreTame CoreSafe CoreSafeMore PropCore PropSafe Payload Menu MenuSpec PropMenu Modal PropModal Editor EditorSpec EditorFacts PropEditor EditorTame PropEditorSafe EditorDemo ServerFacts Shipped PropShipped.
Import ListNotations.

(** ** specification *)
(** the keys a line asks for *)
Definition keys_of (line : text) : list key_event :=
  match parse_request line with
  | Some q => if eqb (rq_method q) (str "keys") then match rq_params q with Some j => match dec_keys j with Some ks => ks | None => [] end | None => [] end else []
  | None => []
  end.
(** the keys the client pressed since it joined; [None]: it is not there *)
Definition typed_step (id : nat) (o : option (list key_event)) (v : event) : option (list key_event) :=
  match v with
  | Ejoin j => if j =? id then Some [] else o
  | Eleave j => if j =? id then None else o
  | Eline j line => if j =? id then option_map (fun ks => ks ++ keys_of line) o else o
  end.
Definition typed (id : nat) (vs : list event) : option (list key_event) := fold_left (typed_step id) vs None.
(** the line does not run a script of the client's *)
Definition no_script (line : text) : Prop := forall q, parse_request line = Some q ->
  rq_method q <> str "exec" /\ forall p, asks dec_select (str "menu-select") p q -> sp_command p <> str "exec".

Section Typing.
Variable G : Graphemes.
Variable pol : policy.
Variable u : regex_crate.
Variable se : serde.
Variable R : lua_rest.
Notation L := (shipped R).
Notation editor := (editor L).
Notation happens := (happens G pol u se L).
Notation handle := (handle G pol u se L).

(** an editor and what happened to it, oldest event first; the world may change at any time *)
Inductive hist (session : text) : list event -> editor -> Prop :=
| hi_new w cwd args s path e : editor_new G pol L w session cwd args s (prelude path) = Ok e -> hist session [] e
| hi_event w vs v e e' : hist session vs e -> (forall id line, v = Eline id line -> no_script line) -> happens w v e = Ok e' -> hist session (vs ++ [v]) e'
| hi_removed vs e : hist session vs e -> hist session vs (snd (removed_clients L e))
| hi_shuffle vs e k : hist session vs e -> shuffle (ed_core L e) k -> hist session vs (set_core L e k).

(** ** requests that run no Lua *)
Definition quiet (e e' : editor) : Prop := ed_lua L e' = ed_lua L e /\ ed_session L e' = ed_session L e.
Lemma quiet_trans a b c : quiet a b -> quiet b c -> quiet a c.
Proof. intros [A B] [C D]. split; congruence. Qed.
Lemma on_core_quiet w c e r e' : on_core G pol L w c e = Ok (r, e') -> quiet e e'.
Proof. unfold on_core. intro E. bnd E. destruct v. injection E as _ <-. split; reflexivity. Qed.
Lemma do_core_quiet w c e e' : do_core G pol L w c e = Ok e' -> quiet e e'.
Proof. unfold do_core. intro E. bnd E. destruct v. injection E as <-. eapply on_core_quiet; eauto. Qed.
Lemma show_quiet w id m key s b e e' : show_menu u L w id m key s b e = Ok e' -> quiet e e'.
Proof. unfold show_menu. intro E. bnd E. injection E as <-. split; reflexivity. Qed.
Lemma action_quiet w a c id e o e' : a <> AExec -> run_action G pol u L w a c id e = Ok (o, e') -> quiet e e'.
Proof.
  intros N E. destruct a; cbn [run_action] in E; try congruence.
  - unfold submenu_action in E. bnd E. bnd E. injection E as _ <-. eapply show_quiet; eauto.
  - unfold command_quit in E. bnd E. injection E as _ <-. apply do_core_quiet in E0. exact E0.
  - unfold command_view_delete in E. bnd E. injection E as _ <-. eapply do_core_quiet; eauto.
  - unfold command_edit in E. bnd E. injection E as _ <-. eapply do_core_quiet; eauto.
  - unfold command_edit in E. bnd E. injection E as _ <-. eapply do_core_quiet; eauto.
  - unfold command_view in E. bnd E. destruct v. injection E as _ <-. eapply on_core_quiet; eauto.
  - unfold command_view_add in E. bnd E. destruct v. injection E as _ <-. eapply on_core_quiet; eauto.
  - unfold command_view_remove in E. bnd E. destruct v. injection E as _ <-. eapply on_core_quiet; eauto.
Qed.
Lemma items_no_exec w k m0 cmd i : cmd <> str "exec" -> In (cmd, m0) default_commands -> In i (mn_entries (populate w k m0)) -> it_action i <> AExec.
Proof.
  intros N H0 Hi. assert (forall a l, a <> AExec -> In i (map (plain_item a) l) -> it_action i <> AExec) as P.
  { intros a l Na I. apply in_map_iff in I. destruct I as (x & <- & _). exact Na. }
  destruct H0 as [X|[X|[X|[X|[X|[X|[X|[]]]]]]]]; injection X as X1 X2; subst m0; cbn [populate mn_entries mn_source provide] in Hi; try (eapply P; [|exact Hi]; discriminate); try (symmetry in X1; contradiction).
  - unfold command_entries in Hi. cbn [In] in Hi. repeat (destruct Hi as [<-|Hi]; [discriminate|]). destruct Hi.
  - destruct Hi as [<-|[]]. discriminate.
Qed.
Lemma select_quiet w id p e o e' : menus_ok (ed_menus L e) -> sp_command p <> str "exec" -> command_menu_select G pol u L w id p e = Ok (o, e') -> quiet e e'.
Proof.
  unfold command_menu_select. intros M N E. destruct (get (ed_menus L e) (sp_command p)) as [m|] eqn:Q; [|injection E as _ <-; split; reflexivity]. cbv zeta in E.
  destruct (get_forall2 _ _ _ _ _ M Q) as (m0 & H0 & K). apply get_in in H0.
  assert (forall i, In i (mn_entries m) -> it_action i <> AExec) as A.
  { intros i Hi. destruct K as [->|(w' & k' & ->)]; [|eapply items_no_exec; eauto]. exfalso. clear - H0 Hi. destruct H0 as [X|[X|[X|[X|[X|[X|[X|[]]]]]]]]; injection X as _ X2; subst m0; exact Hi. }
  match type of E with match ?x with _ => _ end = _ => destruct x as [i|] eqn:F; [|injection E as _ <-; split; reflexivity] end.
  eapply action_quiet; [|exact E]. apply A. unfold menu_get in F. destruct (find (fun i => eqb (it_key i) (sp_choice p)) _) as [j|] eqn:F1.
  - injection F as <-. apply find_some in F1. apply F1.
  - destruct (is_prompt m); [|discriminate]. apply find_some in F. apply F.
Qed.
Lemma with_case {T} (dec : json -> option T) q f e r e' : with_params se L dec q f e = Ok (r, e') ->
  e' = e \/ exists j p o, rq_params q = Some j /\ dec j = Some p /\ f p e = Ok (o, e').
Proof.
  unfold with_params, answer. intro E. bnd E. destruct v as [o e1]. injection E as _ <-. unfold params_of in E0. destruct (rq_params q) as [j|] eqn:Q; [|injection E0 as _ <-; auto].
  destruct j; try (destruct (dec _) as [p|] eqn:D; [right; eauto 10|injection E0 as _ <-; auto]). injection E0 as _ <-. auto.
Qed.
Lemma line_quiet w id line e r e' : menus_ok (ed_menus L e) -> no_script line -> handle w id line e = Ok (r, e') ->
  (keys_of line = [] /\ quiet e e') \/
  exists q j ks, parse_request line = Some q /\ rq_method q = str "keys" /\ rq_params q = Some j /\ dec_keys j = Some ks /\ keys_of line = ks.
Proof.
  intros M N E. unfold keys_of. unfold Editor.handle in E. destruct (parse_request line) as [q|] eqn:P; [|left; split; auto; bnd E; injection E as _ <-; eapply do_core_quiet; eauto].
  specialize (N q P). destruct N as [N1 N2]. destruct (eqb (rq_method q) (str "keys")) eqn:K.
  - destruct (rq_params q) as [j|] eqn:Q.
    + destruct (dec_keys j) as [ks|] eqn:D; [right; apply eqb_ok in K; eauto 10|]. left. split; auto. apply eqb_ok in K. rewrite K in E.
      change (with_params se L dec_keys q (command_keys G pol L w id) e = Ok (r, e')) in E. apply with_case in E. destruct E as [->|(j' & p & o & A & B & _)]; [split; reflexivity|congruence].
    + left. split; auto. apply eqb_ok in K. rewrite K in E. change (with_params se L dec_keys q (command_keys G pol L w id) e = Ok (r, e')) in E. apply with_case in E. destruct E as [->|(j' & p & o & A & B & _)]; [split; reflexivity|congruence].
  - left. split; auto.
    destruct (eqb (rq_method q) (str "edit")). { apply with_case in E. destruct E as [->|(j & p & o & _ & _ & E)]; [split; reflexivity|]. unfold command_edit in E. bnd E. injection E as _ <-. eapply do_core_quiet; eauto. }
    destruct (eqb (rq_method q) (str "quit")). { unfold answer in E. bnd E. destruct v. injection E as _ <-. apply (action_quiet w AQuit [] id e o e0); [discriminate|exact E0]. }
    destruct (eqb (rq_method q) (str "view")). { apply with_case in E. destruct E as [->|(j & p & o & _ & _ & E)]; [split; reflexivity|]. apply (action_quiet w AViewSelect p id e o e'); [discriminate|exact E]. }
    destruct (eqb (rq_method q) (str "view-delete")). { unfold answer in E. bnd E. destruct v. injection E as _ <-. apply (action_quiet w AViewDelete [] id e o e0); [discriminate|exact E0]. }
    destruct (eqb (rq_method q) (str "view-add")). { apply with_case in E. destruct E as [->|(j & p & o & _ & _ & E)]; [split; reflexivity|]. apply (action_quiet w AViewAdd p id e o e'); [discriminate|exact E]. }
    destruct (eqb (rq_method q) (str "view-remove")). { apply with_case in E. destruct E as [->|(j & p & o & _ & _ & E)]; [split; reflexivity|]. apply (action_quiet w AViewRemove p id e o e'); [discriminate|exact E]. }
    destruct (eqb (rq_method q) (str "menu")). { apply with_case in E. destruct E as [->|(j & p & o & _ & _ & E)]; [split; reflexivity|]. unfold command_menu in E. destruct (get _ _); [|injection E as _ <-; split; reflexivity]. bnd E. injection E as _ <-. eapply show_quiet; eauto. }
    destruct (eqb (rq_method q) (str "menu-select")) eqn:K2. { apply eqb_ok in K2. apply with_case in E. destruct E as [->|(j & p & o & A & B & E)]; [split; reflexivity|]. eapply select_quiet; [exact M|apply N2; split; eauto|exact E]. }
    destruct (eqb (rq_method q) (str "exec")) eqn:K3; [apply eqb_ok in K3; contradiction|]. bnd E. injection E as _ <-. eapply do_core_quiet; eauto.
Qed.

(** ** every history *)
Hypothesis PO : pairs_ok R.
Lemma happens_reach w v e e' : ereach G pol u se L e -> happens w v e = Ok e' -> ereach G pol u se L e'.
Proof. intros H E. destruct v; cbn [EditorTame.happens] in E; [eapply er_join; eauto|eapply er_leave; eauto|]. bnd E. destruct v. injection E as <-. eapply er_line; eauto. Qed.
Lemma hist_reach session vs e : hist session vs e -> ereach G pol u se L e.
Proof. induction 1; [eapply er_new; eauto|eapply happens_reach; eauto|now apply er_removed|now apply er_shuffle]. Qed.
Lemma documented_app id a b : forall p q cs r ds, documented_keys id p a q cs -> documented_keys id q b r ds -> documented_keys id p (a ++ b) r (cs ++ ds).
Proof. induction a as [|k a IH]; intros p q cs r ds A B; inversion A; subst; cbn [app]; [exact B|]. rewrite <- app_assoc. econstructor; eauto. Qed.
(** where the client is: in the mode its keys lead to, or not there *)
Definition placed (e : editor) (id : nat) (o : option (list key_event)) : Prop :=
  match o with
  | None => get (ls_clients (ed_lua L e)) id = None
  | Some ks => Forall wf_event ks /\ exists p cs, documented_keys id InNormal ks p cs /\ at_place R e id p
  end.
Lemma placed_same e e' id o : get (ls_clients (ed_lua L e')) id = get (ls_clients (ed_lua L e)) id -> placed e id o -> placed e' id o.
Proof. intros S P. destruct o as [ks|]; cbn [placed] in *; [|congruence]. destruct P as (F & p & cs & D & (t & A)). split; auto. exists p, cs. split; auto. exists t. congruence. Qed.
Lemma keys_of_wf line : Forall wf_event (keys_of line).
Proof.
  unfold keys_of. destruct (parse_request line) as [q|]; [|constructor]. destruct (eqb _ _); [|constructor]. destruct (rq_params q) as [j|]; [|constructor]. destruct (dec_keys j) eqn:D; [|constructor]. eapply dec_keys_wf; eauto.
Qed.
Lemma hist_placed session vs e : plain_session session -> hist session vs e -> ed_session L e = session /\ forall id, placed e id (typed id vs).
Proof.
  intros PS H. induction H as [w cwd args s path e E|w vs v e e' H IH N E|vs e H IH|vs e k H IH Sh].
  - unfold editor_new in E. bnd E. bnd E. destruct v0 as [x e1]. unfold prelude in E1. cbn [run_script lua_call] in E1. bnd E1. destruct v0 as [r1 e2]. bnd E1. destruct v0 as [r2 e3]. injection E1 as <- <-. injection E as <-.
    apply on_core_quiet in E2, E3. destruct E2 as [_ A], E3 as [_ B]. cbn [ed_session] in A. split; [cbn; congruence|]. intro id. reflexivity.
  - destruct IH as [ES IH]. destruct v as [j|j|j line]; cbn [EditorTame.happens] in E.
    + apply join_run in E; [|exact PO|now rewrite ES]. destruct E as (r & k & _ & _ & A & O & (Rs & _) & _). split; [congruence|]. intro id. unfold typed. rewrite fold_left_app. cbn [fold_left typed_step]. destruct (Nat.eqb_spec j id) as [->|Nj].
      * cbn [placed]. split; [constructor|]. exists InNormal, []. split; [constructor|exact A].
      * eapply placed_same; [|apply IH]. apply O. auto.
    + apply leave_run in E; [|now rewrite ES]. destruct E as (A & O & (Rs & _)). split; [congruence|]. intro id. unfold typed. rewrite fold_left_app. cbn [fold_left typed_step]. destruct (Nat.eqb_spec j id) as [->|Nj]; [exact A|]. eapply placed_same; [|apply IH]. apply O. auto.
    + bnd E. destruct v as [r e1]. injection E as <-. assert (menus_ok (ed_menus L e)) as M by (eapply ei_menus, ereach_inv, hist_reach, H).
      destruct (line_quiet _ _ _ _ _ _ M (N _ _ eq_refl) E0) as [(Kn & Ql & Qs)|(q & jp & ks & P & Me & Pa & D & K)].
      * split; [congruence|]. intro id. unfold typed. rewrite fold_left_app. cbn [fold_left typed_step]. fold (typed id vs). rewrite Kn. replace (if j =? id then option_map (fun ks => ks ++ []) (typed id vs) else typed id vs) with (typed id vs).
        -- eapply placed_same; [|apply IH]. now rewrite Ql.
        -- destruct (j =? id); [|reflexivity]. destruct (typed id vs); cbn; [now rewrite app_nil_r|reflexivity].
      * assert (asks dec_keys (str "keys") ks q) as Ak by (split; eauto). rewrite (handle_keys _ _ _ _ _ _ _ _ _ _ P _ Ak) in E0. unfold answer in E0. bnd E0. destruct v as [o e2]. injection E0 as _ <-.
        assert (plain_session (ed_session L e)) as PS' by now rewrite ES. pose proof (IH j) as Pj. assert (Forall wf_event ks) as Fk by (rewrite <- K; apply keys_of_wf).
        destruct (typed j vs) as [ks0|] eqn:T; cbn [placed] in Pj.
        -- destruct Pj as (F0 & p & cs0 & D0 & A0). destruct (keys_run G pol R PO w j ks Fk p e PS' A0) as (p' & cs & D1 & Rn). rewrite E in Rn. destruct (run_calls G pol (w_disk w) cs (ed_core L e)); [|discriminate..].
           destruct Rn as (e3 & out & X & _ & _ & _ & A1 & O1 & (Rs & _)). injection X as _ <-. split; [congruence|]. intro id. unfold typed. rewrite fold_left_app. cbn [fold_left typed_step]. fold (typed id vs). destruct (Nat.eqb_spec j id) as [<-|Nj].
           ++ rewrite T, K. cbn [option_map placed]. split; [now apply Forall_app|]. exists p', (cs0 ++ cs). split; [eapply documented_app; eauto|exact A1].
           ++ eapply placed_same; [|apply IH]. apply O1. auto.
        -- destruct (keys_unknown G pol R w j ks e o e2 PS' Pj E) as [A B]. split; [congruence|]. intro id. unfold typed. rewrite fold_left_app. cbn [fold_left typed_step]. fold (typed id vs). destruct (Nat.eqb_spec j id) as [<-|Nj].
           ++ rewrite T. cbn. now rewrite A.
           ++ eapply placed_same; [|apply IH]. now rewrite A.
  - exact IH.
  - exact IH.
Qed.

(** ** C68 *)
(** [id] pressed the keys [ks0] since it joined, and presses [ks].  The documentation says which mode [ks0] led to and what [ks]
    ask for; exactly that is done, and the client hears of it.  A panic of the core is the only way to fail. *)
Theorem C68_partial : forall session vs e id ks0 w line q ks, plain_session session -> hist session vs e -> typed id vs = Some ks0 ->
  parse_request line = Some q -> asks dec_keys (str "keys") ks q ->
  exists p cs0 p' cs, documented_keys id InNormal ks0 p cs0 /\ documented_keys id p ks p' cs /\
    match run_calls G pol (w_disk w) cs (ed_core L e) with
    | Ok k' => exists r e' out, handle w id line e = Ok (r, e') /\ rp_id r = rq_id q /\ granted r /\
        ed_core L e' = k' /\ heard_keys G pol (w_disk w) id session p (ed_core L e) ks p' k' out /\ ed_out L e' = ed_out L e ++ out /\
        ed_menus L e' = ed_menus L e /\ ed_stopped L e' = ed_stopped L e
    | Panic x => handle w id line e = Panic x
    | Unspec => handle w id line e = Unspec
    end.
Proof.
  intros session vs e id ks0 w line q ks PS H T P Ak. destruct (hist_placed session vs e PS H) as [ES Pl]. specialize (Pl id). rewrite T in Pl. destruct Pl as (F0 & p & cs0 & D0 & A0).
  assert (Forall wf_event ks) as Fk by (destruct Ak as (_ & j & _ & Dj); eapply dec_keys_wf; eauto). assert (plain_session (ed_session L e)) as PS' by now rewrite ES.
  destruct (keys_run G pol R PO w id ks Fk p e PS' A0) as (p' & cs & D1 & Rn). exists p, cs0, p', cs. split; [exact D0|]. split; [exact D1|]. rewrite (handle_keys _ _ _ _ _ _ _ _ _ _ P _ Ak).
  destruct (run_calls G pol (w_disk w) cs (ed_core L e)) as [k'|x|]; [|now rewrite Rn..]. destruct Rn as (e' & out & X & Hk & Ek & Eo & _ & _ & (Rs & Rm & Rt)). rewrite X. cbn [answer bind]. eexists _, e', out. split; [reflexivity|]. rewrite ES in Hk.
  split; [reflexivity|]. split; [split; reflexivity|]. auto.
Qed.
(** A client that is not there: nothing is done but logging, and its keys are refused. *)
Theorem C68_absent : forall session vs e id w line q k ks r e', plain_session session -> hist session vs e -> typed id vs = None ->
  parse_request line = Some q -> asks dec_keys (str "keys") (k :: ks) q -> handle w id line e = Ok (r, e') ->
  refused r (-32603) /\ forall j, typed j vs <> None -> get (ls_clients (ed_lua L e')) j = get (ls_clients (ed_lua L e)) j.
Proof.
  intros session vs e id w line q k ks r e' PS H T P Ak E. destruct (hist_placed session vs e PS H) as [ES Pl]. specialize (Pl id). rewrite T in Pl. cbn [placed] in Pl. assert (plain_session (ed_session L e)) as PS' by now rewrite ES.
  rewrite (handle_keys _ _ _ _ _ _ _ _ _ _ P _ Ak) in E. unfold answer in E. bnd E. destruct v as [o e2]. injection E as <- <-. destruct (keys_unknown G pol R w id (k :: ks) e o e2 PS' Pl E0) as [A B]. split; [|intros j _; now rewrite A].
  cbn [command_keys] in E0. bnd E0. destruct v as [x e1]. unfold exec_lua in E. change (lu_exec L) with (exec_source R) in E. change (lu_key L) with (key_lua R) in E. rewrite exec_env in E by exact PS'.
  cbn [run_script bind set_lua ed_lua] in E. unfold key_lua in E. cbn [ls_clients] in E. rewrite Pl in E. cbn [run_script bind] in E. bnd E. bnd E. injection E as <- <-. bnd E0. injection E0 as <- <-. split; [reflexivity|]. eexists. split; reflexivity.
Qed.
(** A client that joins is sent its status line, and is in normal mode. *)
Theorem C68_join : forall session vs e id w e', plain_session session -> hist session vs e -> happens w (Ejoin id) e = Ok e' ->
  exists rp k, run_call G pol (w_disk w) (CJoin id) (ed_core L e) = Ok (rp, k) /\ ed_core L e' = k /\
    ed_out L e' = ed_out L e ++ core_news (ed_core L e) k ++ [mkES (Some [id]) (OStatus [mkStatus 100 (says (who_where id session))])] /\
    typed id (vs ++ [Ejoin id]) = Some [].
Proof.
  intros session vs e id w e' PS H E. destruct (hist_placed session vs e PS H) as [ES _]. cbn [EditorTame.happens] in E. apply join_run in E; [|exact PO|now rewrite ES]. destruct E as (r & k & Ec & Ek & _ & _ & _ & Eo).
  exists r, k. rewrite ES in Eo. split; [exact Ec|]. split; [exact Ek|]. split; [exact Eo|]. unfold typed. rewrite fold_left_app. cbn. now rewrite Nat.eqb_refl.
Qed.
(** Nobody else hears anything of what is said beside the core's own messages. *)
Lemma heard_self id session p k q pre post : heard id session p k q pre post -> forall x, In x (pre ++ post) -> o_to x = Some [id].
Proof. intros H x I. destruct H; cbn [app In] in I; repeat (destruct I as [<-|I]; [reflexivity|]); destruct I. Qed.
End Typing.
Print Assumptions C68_partial.
Print Assumptions C68_absent.
Print Assumptions C68_join.

(** ** keys that cannot crash the editor *)
Definition key_call (id : nat) (c : call) : Prop :=
  (exists m x, c = CMove id m x) \/ c = CMessage (Some id) (str "hello!") \/ c = CError (Some id) (str "lua") (str "oops!") \/ c = CDeleteSelection id.
Lemma documented_calls id p k q cs : documented id p k q cs -> Forall (key_call id) cs.
Proof.
  intro D. assert (forall m x, Forall (key_call id) [CMove id m x]) as M by (intros m x; constructor; [left; eauto|constructor]).
  destruct D; auto; try constructor. unfold normal_keys in H. cbn [In] in H.
  repeat (destruct H as [X|H]; [injection X as _ _ <-; try apply M; try constructor; try (unfold key_call; tauto); constructor|]). destruct H.
Qed.
Lemma documented_keys_calls id ks : forall p q cs, documented_keys id p ks q cs -> Forall (key_call id) cs.
Proof. induction ks as [|k ks IH]; intros p q cs D; inversion D; subst; [constructor|]. apply Forall_app. split; [eapply documented_calls; eauto|eapply IH; eauto]. Qed.
Lemma harmless_run G pol d id cs : policy_wrap pol \/ policy_succ pol -> Forall (key_call id) cs -> ~ In (CDeleteSelection id) cs -> (forall x, ~ In (CMove id MLineEnd x) cs) ->
  forall k, tame_reach G pol k -> connected k id -> exists k', run_calls G pol d cs k = Ok k' /\ tame_reach G pol k' /\ connected k' id.
Proof.
  intros Pf F. induction F as [|c cs Hc F IH]; intros Nd Nl k T C; cbn [run_calls]; [eauto|].
  assert (tame d k c) as Tc.
  { destruct Hc as [(m & x & ->)|[->|[->| ->]]].
    - split; [exact C|]. intros v b ss s y _ _ _ _ ->. exfalso. apply (Nl x). now left.
    - apply plain_str. reflexivity.
    - split; apply plain_str; reflexivity.
    - exfalso. apply Nd. now left. }
  destruct (C36_careful_partial G pol d k c Pf T Tc) as (r & k1 & E & T1). rewrite E. cbn [bind]. apply IH; auto; [intro X; apply Nd; now right|intros x X; apply (Nl x); now right|].
  pose proof (tame_is_reach G pol k T) as Rk. apply reach_inv in Rk. apply (call_clients G pol d c k r k1 (i_0 _ Rk) E id). destruct Hc as [(m & x & ->)|[->|[->| ->]]]; exact C.
Qed.
(** Whatever a connected client of a careful session types, except the deletion of the selection and the jump to the end of
    the line, is granted, and the session stays so. *)
Theorem C68_safe : forall G pol u se R, policy_wrap pol \/ policy_succ pol -> pairs_ok R ->
  forall session vs e id ks0 w line q ks, plain_session session -> hist G pol u se R session vs e -> typed id vs = Some ks0 ->
  tame_reach G pol (ed_core _ e) -> connected (ed_core _ e) id ->
  parse_request line = Some q -> asks dec_keys (str "keys") ks q ->
  (forall p cs0 p' cs, documented_keys id InNormal ks0 p cs0 -> documented_keys id p ks p' cs -> ~ In (CDeleteSelection id) cs /\ forall x, ~ In (CMove id MLineEnd x) cs) ->
  exists r e', handle G pol u se (shipped R) w id line e = Ok (r, e') /\ rp_id r = rq_id q /\ granted r /\ tame_reach G pol (ed_core _ e') /\ connected (ed_core _ e') id.
Proof.
  intros G pol u se R Pf PO session vs e id ks0 w line q ks PS H T Tr Cn P Ak Nk. destruct (C68_partial G pol u se R PO session vs e id ks0 w line q ks PS H T P Ak) as (p & cs0 & p' & cs & D0 & D & X).
  destruct (Nk _ _ _ _ D0 D) as [Nd Nl]. destruct (harmless_run G pol (w_disk w) id cs Pf (documented_keys_calls _ _ _ _ _ D) Nd Nl _ Tr Cn) as (k' & E & T' & C'). rewrite E in X.
  destruct X as (r & e' & out & Eh & Ei & Eg & Ek & _). exists r, e'. rewrite Ek. auto.
Qed.
Print Assumptions C68_safe.

(** ** a session name that ends the string literal *)
(** Lua refuses the table of mod.rs:160-169 when the name of the session contains a double quote; then every key of every client is refused. *)
Definition bad_session : text := str "a""b".
Lemma bad_other R c st : exec_source R (env_source bad_session c) st = lr_other R (env_source bad_session c) st.
Proof. unfold exec_source. replace (read_env _) with (@None (text * text)) by reflexivity. reflexivity. Qed.
Theorem C68_refuted : forall G pol u se R e w id line q k ks r e',
  (forall c st, exists x, lr_other R (env_source bad_session c) st = SFail x st) -> ed_session (shipped R) e = bad_session ->
  parse_request line = Some q -> asks dec_keys (str "keys") (k :: ks) q -> handle G pol u se (shipped R) w id line e = Ok (r, e') ->
  refused r (-32603).
Proof.
  intros G pol u se R e w id line q k ks r e' Hl Es P Ak E. rewrite (handle_keys _ _ _ _ _ _ _ _ _ _ P _ Ak) in E. unfold answer in E. bnd E. destruct v as [o e2]. injection E as <- <-.
  cbn [command_keys] in E0. bnd E0. destruct v as [x e1]. unfold exec_lua in E. change (lu_exec (shipped R)) with (exec_source R) in E. rewrite Es, bad_other in E. destruct (Hl id (ed_lua (shipped R) e)) as (y & Hy). rewrite Hy in E. cbn [run_script bind] in E. bnd E. bnd E. injection E as <- <-.
  bnd E0. injection E0 as <- <-. split; [reflexivity|]. eexists. split; reflexivity.
Qed.
Print Assumptions C68_refuted.

(** ** non-vacuity *)
Definition demo_rest : lua_rest := {| lr_other := fun src s => SFail (str "syntax error") s; lr_pairs := fun l => l; lr_lines := fun l => l; lr_nil := str "nil"; lr_convert := str "error converting" |}.
Lemma demo_rest_ok : pairs_ok demo_rest.
Proof. split; intro l; apply Permutation_refl. Qed.
Definition key_line (ks : list key_event) : text := print_request (mkReq (str "2.0") (IdNum 7) (str "keys") (Some (enc_keys ks))).
Notation demo_L := (shipped demo_rest).
Definition demo_run (vs : list event) : res (editor demo_L) :=
  e <- editor_new utf8_graphemes pol_wrap demo_L demo_world (str "demo") (str "/w") (str "ced") (mkLS None []) (prelude (str "?.lua")) ;;
  fold_left (fun r v => e <- r ;; happens utf8_graphemes pol_wrap ascii_crate demo_serde demo_L demo_world v e) vs (Ok e).
Lemma fold_panic vs : forall r : res (editor demo_L), (forall e, r <> Ok e) -> forall e, fold_left (fun r v => e <- r ;; happens utf8_graphemes pol_wrap ascii_crate demo_serde demo_L demo_world v e) vs r <> Ok e.
Proof. induction vs as [|v vs IH]; intros r N e; cbn [fold_left]; [apply N|]. apply IH. intros e'. destruct r as [a| |]; cbn [bind]; try discriminate. exfalso. now apply (N a). Qed.
Lemma demo_hist vs : Forall (fun v => forall id line, v = Eline id line -> no_script line) vs -> forall e, demo_run vs = Ok e -> hist utf8_graphemes pol_wrap ascii_crate demo_serde demo_rest (str "demo") vs e.
Proof.
  unfold demo_run. induction vs as [|v vs IH] using rev_ind; intros F e E; bnd E.
  - cbn [fold_left] in E. injection E as <-. eapply hi_new; eauto.
  - rewrite fold_left_app in E. cbn [fold_left] in E. apply Forall_app in F. destruct F as [F1 F2]. bnd E. eapply hi_event; [apply IH; [exact F1|exact E1]|inversion F2; eauto|exact E].
Qed.
Definition demo_typing : list event := [Ejoin 1; Eline 1 (key_line [plain_key 105; plain_key 104]); Ejoin 2; Eline 2 (key_line [plain_key 109]); Eline 1 (key_line [escape_key; shift_key 103])].
Lemma no_script_b line : match parse_request line with Some q => eqb (rq_method q) (str "keys") | None => true end = true -> no_script line.
Proof. intros H q P. rewrite P in H. apply eqb_ok in H. split; [rewrite H; discriminate|]. intros p (M & _). rewrite H in M. discriminate. Qed.
(** two clients type; the second of them waits for the target of a motion, and the end of the line is selected *)
Example C68_demo : exists e, hist utf8_graphemes pol_wrap ascii_crate demo_serde demo_rest (str "demo") demo_typing e /\
  typed 1 demo_typing = Some [plain_key 105; plain_key 104; escape_key; shift_key 103] /\
  exists r e', handle utf8_graphemes pol_wrap ascii_crate demo_serde demo_L demo_world 1 (key_line [plain_key 108]) e = Ok (r, e') /\ granted r /\
    skipn (length (ed_out _ e)) (ed_out _ e') <> [] /\ plain_session (str "demo").
Proof.
  assert (exists e, demo_run demo_typing = Ok e /\ (match handle utf8_graphemes pol_wrap ascii_crate demo_serde demo_L demo_world 1 (key_line [plain_key 108]) e with Ok (r, e') => match rp_error r, rp_result r, skipn (length (ed_out _ e)) (ed_out _ e') with None, Some JNull, _ :: _ => true | _, _, _ => false end | _ => false end) = true) as (e & E & H) by (apply ok_such; vm_compute; reflexivity).
  exists e. split; [apply demo_hist; [|exact E]|].
  - repeat (apply Forall_cons; [intros id line X; try discriminate X; injection X as _ <-; apply no_script_b; vm_compute; reflexivity|]). constructor.
  - split; [vm_compute; reflexivity|]. clear E. destruct (handle _ _ _ _ _ _ _ _ e) as [[r e']| |]; [|discriminate..]. exists r, e'. split; [reflexivity|]. destruct (rp_error r) eqn:E1; [discriminate|]. destruct (rp_result r) as [[]|] eqn:E2; try discriminate. split; [split; auto|].
    destruct (skipn _ _); [discriminate|]. split; [discriminate|]. repeat (apply Forall_cons; [repeat split; discriminate|]). constructor.
Qed.
